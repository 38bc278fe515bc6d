(** What the chords of the dictionary are called, where two of them agree, and when the notes of a transcription sound. *)
From Coq Require Import String Lia Reals.
From Flocq Require Import Core.Core IEEE754.BinarySingleNaN.
From Verif Require Import Base BaseFacts Fp Options Chromagram Nnls NnlsArith NnlsFacts Plug PlugSpec PlugFacts PlugNum PlugNan PlugSafe PlugFrame PlugChroma PlugMain PlugNotes ChordViterbi ChordSpec ChordFacts Chords ChordsSpec ChordsFacts ChordsRun ChordsWhole.
Open Scope Z_scope.

(** ** The names of notes *)
Definition opt_is (o : option Z) (v : Z) : bool := match o with Some w => w =? v | None => false end.
Lemma opt_is_eq o v : opt_is o v = true -> o = Some v. Proof. destruct o; [|discriminate]. cbn. intros E. apply Z.eqb_eq in E. now subst. Qed.
Lemma note_names_right s : 0 <= s < 12 -> named_note (znth ""%string note_names s) = Some s.
Proof. intros S. apply opt_is_eq. assert (A : forallb (fun s => opt_is (named_note (znth ""%string note_names s)) s) (zrange 0 11) = true) by (vm_compute; reflexivity). rewrite forallb_forall in A. apply A. apply zrange_In. lia. Qed.
Lemma bass_names_right harte s k : Beqb harte z32 = true -> 0 <= s < 12 -> 0 <= k < 12 -> bass_name harte s k = ""%string /\ (k = 1 \/ k = 6 \/ k = 8) \/ named_note (bass_name harte s k) = Some ((s + k) mod 12).
Proof.
  intros H S K. unfold bass_name. rewrite H.
  assert (A : forallb (fun s => forallb (fun k => (String.eqb (znth ""%string (znth [] bass_names s) k) "" && ((k =? 1) || (k =? 6) || (k =? 8))) || opt_is (named_note (znth ""%string (znth [] bass_names s) k)) ((s + k) mod 12))%bool (zrange 0 11)) (zrange 0 11) = true) by (vm_compute; reflexivity).
  rewrite forallb_forall in A. specialize (A s ltac:(apply zrange_In; lia)). rewrite forallb_forall in A. specialize (A k ltac:(apply zrange_In; lia)). apply Bool.orb_true_iff in A. destruct A as [A|A]; [left|right; now apply opt_is_eq].
  apply andb_prop in A. destruct A as (A & B). split; [now apply String.eqb_eq in A|]. apply Bool.orb_true_iff in B. destruct B as [B|B]; [apply Bool.orb_true_iff in B; destruct B as [B|B]|]; apply Z.eqb_eq in B; lia.
Qed.

(** ** The chords of the program *)
Definition sample_powf (x _ : b32) : b32 := sqrt32 x.
Definition tenth : b32 := rat32 1 10.
Definition returned (o : outcome (list chord)) : list chord := match o with Ret l => l | _ => [] end.
Definition the_chords : list chord := returned (chord_dictionary sample_powf tenth z32 (default_names z32) static_values).
Lemma default_tables harte : length (default_names harte) = 18%nat /\ Z.of_nat (length static_values) = 24 * 18.
Proof. split; [unfold default_names; destruct (Beqb harte one32); reflexivity|reflexivity]. Qed.
Lemma the_chords_ok : chord_dictionary sample_powf tenth z32 (default_names z32) static_values = Ret the_chords.
Proof.
  destruct (dictionary_ok z32 (default_names z32) static_values ltac:(destruct (default_tables z32) as (-> & ->); lia) sample_powf tenth) as (l & E & _). unfold the_chords. rewrite E. reflexivity.
Qed.
Lemma same_names : map c_name (firstn 1 the_chords) = map c_name (firstn 1 (skipn 12 the_chords)) /\ length the_chords = 217%nat.
Proof. vm_compute. now split. Qed.
Lemma first_notes : map c_notes (firstn 1 the_chords) = [[45; 45; 69; 73; 64]].
Proof. vm_compute. reflexivity. Qed.
Lemma two_sevenths : map (fun c => B2SF (znth z32 (c_values c) 12)) (firstn 1 (skipn 84 the_chords)) <> map (fun c => B2SF (znth z32 (c_values c) 20)) (firstn 1 (skipn 92 the_chords)).
Proof. vm_compute. discriminate. Qed.
Lemma chord_names_distinct_refuted : ~ forall powf boost l, chord_dictionary powf boost z32 (default_names z32) static_values = Ret l -> NoDup (map c_name l).
Proof.
  intros H. specialize (H _ _ _ the_chords_ok). destruct same_names as (S & L). destruct the_chords as [|a l]; [discriminate L|]. cbn [firstn map] in S. do 12 (destruct l as [|? l]; [discriminate L|]). cbn [skipn firstn map] in S. apply (f_equal (hd ""%string)) in S. cbn [hd] in S.
  cbn [map] in H. apply NoDup_cons_iff in H. destruct H as (H & _). apply H. rewrite S. do 11 right. now left.
Qed.
Lemma chord_notes_distinct_refuted : ~ forall powf boost l, chord_dictionary powf boost z32 (default_names z32) static_values = Ret l -> Forall (fun c => NoDup (c_notes c)) l.
Proof.
  intros H. specialize (H _ _ _ the_chords_ok). assert (S := first_notes). destruct the_chords as [|a l]; [discriminate S|]. cbn [firstn map] in S. apply (f_equal (hd [])) in S. cbn [hd] in S. apply Forall_inv in H. rewrite S in H. apply NoDup_cons_iff in H. destruct H as (H & _). apply H. now left.
Qed.
(** The same chord on another root has the same values moved, except in the last bit. *)
Lemma chords_transposed_refuted : ~ forall powf boost l t s k, chord_dictionary powf boost z32 (default_names z32) static_values = Ret l -> 0 <= t < 18 -> 0 <= s < 12 -> 0 <= k < 12 ->
  znth z32 (c_values (znth no_chord l (12 * t + s))) (12 + (k + s) mod 12) = znth z32 (c_values (znth no_chord l (12 * t))) (12 + k).
Proof.
  intros H. specialize (H _ _ _ 7 8 0 the_chords_ok ltac:(lia) ltac:(lia) ltac:(lia)). apply two_sevenths. assert (L := proj2 same_names). revert H L. generalize the_chords as l. clear. intros l H L.
  change (12 + (0 + 8) mod 12) with 20 in H. change (12 * 7 + 8) with 92 in H. change (12 * 7) with 84 in H. change (12 + 0) with 12 in H.
  assert (G : forall k (l : list chord), (k < length l)%nat -> firstn 1 (skipn k l) = [nth k l no_chord]) by (clear; induction k as [|k IH]; intros [|x l] K; cbn [length] in K; try lia; [reflexivity|]; cbn [skipn nth]; apply IH; lia).
  rewrite !G by lia. cbn [map]. unfold znth in H. change (Z.to_nat 92) with 92%nat in H. change (Z.to_nat 84) with 84%nat in H. unfold znth. now rewrite H.
Qed.
(** Whatever the dictionary was made of, it fits the rest of the plug-in. *)
Lemma profile_length values t s : length (profile values t s) = 24%nat. Proof. reflexivity. Qed.
Lemma dictionary_fits powf boost harte names values l : chord_dictionary powf boost harte names values = Ret l -> exists chords none, l = chords ++ [none] /\ Forall (fun d => length (c_values d) = 24%nat) l /\ c_notes none = [] /\ c_name none = "N"%string.
Proof.
  intros E. assert (B := short_dictionary _ _ _ _ _ _ E). destruct (dictionary_ok harte names values B powf boost) as (l' & E' & L & G & LN). rewrite E in E'. apply Ret_inj in E'. subst l'. set (n := length names) in *.
  assert (NE : l <> []) by (intros ->; cbn [length] in L; lia). destruct (exists_last NE) as (chords & none & ->). exists chords, none. rewrite app_length in L. cbn [length] in L. rewrite nth_error_app2 in LN by lia. replace (Z.to_nat (12 * Z.of_nat n) - length chords)%nat with O in LN by lia. cbn [nth_error] in LN.
  apply (f_equal (fun o => match o with Some c => c | None => no_chord end)) in LN. cbv beta iota in LN. split; [reflexivity|]. rewrite LN. cbn [c_notes c_name]. split; [|now split]. apply Forall_app. split; [|repeat constructor; cbn [c_values]; now rewrite map_length].
  apply Forall_forall. intros c C. apply In_nth_error in C. destruct C as (k & C). assert (K : (k < length chords)%nat) by (apply nth_error_Some; congruence).
  destruct (G (Z.of_nat k / 12) (Z.of_nat k mod 12)) as (c' & C' & V & _); [pose proof (Z.div_pos (Z.of_nat k) 12); split; [lia|apply Z.div_lt_upper_bound; lia]|apply Z.mod_pos_bound; lia|].
  rewrite <- Z.div_mod in C' by lia. rewrite Nat2Z.id, nth_error_app1, C in C' by exact K. apply (f_equal (fun o => match o with Some c => c | None => no_chord end)) in C'. cbv beta iota in C'. subst c'. rewrite V, map_length. apply profile_length.
Qed.

(** ** When the notes sound *)
Definition increasing (times : list Z) : Prop := forall i j, 0 <= i < j -> j < Z.of_nat (length times) -> znth 0 times i < znth 0 times j.
Lemma changes_range i old path x : In x (changes_from i old path) -> i <= fst x < i + Z.of_nat (length path).
Proof.
  revert i old. induction path as [|s path IH]; intros i old; cbn [changes_from]; [now intros []|]. cbn [length]. destruct (s =? old).
  - intros H. specialize (IH _ _ H). lia.
  - intros [<-|H]; [cbn [fst]; lia|]. specialize (IH _ _ H). lia.
Qed.
Lemma spans_last times final l : spans times final l = [] -> l = []. Proof. destruct l as [|(i, s) l]; [reflexivity|discriminate]. Qed.
Lemma spans_sound times final i old path : increasing times -> 0 <= i -> i + Z.of_nat (length path) <= Z.of_nat (length times) -> (forall k, 0 <= k < Z.of_nat (length times) -> znth 0 times k <= final) ->
  Forall (fun x => fst (fst x) <= snd (fst x) <= final) (spans times final (changes_from i old path)).
Proof.
  intros IN. revert i old. induction path as [|s path IH]; intros i old I L F; cbn [changes_from]; [constructor|]. cbn [length] in L. destruct (s =? old); [apply IH; lia || exact F|]. cbn [spans]. constructor; [|apply IH; lia || exact F]. cbn [fst snd].
  destruct (changes_from (i + 1) s path) as [|(j, c) l] eqn:E; [assert (X := F i ltac:(lia)); lia|]. assert (R : In (j, c) (changes_from (i + 1) s path)) by (rewrite E; now left). apply changes_range in R. cbn [fst] in R. assert (X := IN i j ltac:(lia) ltac:(lia)). assert (Y := F j ltac:(lia)). lia.
Qed.
Lemma last_greatest times : increasing times -> forall k, 0 <= k < Z.of_nat (length times) -> znth 0 times k <= last times 0.
Proof.
  intros IN k K. assert (E : last times 0 = znth 0 times (Z.of_nat (length times) - 1)).
  { unfold znth. destruct times as [|t ts]; [cbn [length] in K; lia|]. replace (Z.to_nat (Z.of_nat (length (t :: ts)) - 1)) with (length ts) by (cbn [length]; lia). clear. revert t. induction ts as [|t' ts IH]; intros t; [reflexivity|]. exact (IH t'). }
  rewrite E. destruct (Z.eq_dec k (Z.of_nat (length times) - 1)) as [-> |N]; [lia|]. assert (X := IN k (Z.of_nat (length times) - 1) ltac:(lia) ltac:(lia)). lia.
Qed.
Lemma notes_sound log chords times obs r : increasing times -> transcription_of log chords times obs r -> Forall (fun x => 0 <= n_duration x /\ n_time x + n_duration x <= last times 0) (t_notes r).
Proof.
  intros IN (_ & PL & _ & _ & -> & _). set (path := path_of _ _ _ _) in *. assert (S := spans_sound times (last times 0) 0 (-1) path IN ltac:(lia) ltac:(lia) (last_greatest times IN)). apply Forall_flat_map. apply Forall_impl with (2 := S).
  intros ((a, b), s) (A & B). cbn [fst snd] in *. unfold span_notes. cbn [fst snd]. apply Forall_map, Forall_forall. intros m _. cbn [n_time n_duration]. lia.
Qed.
Lemma first_event log chords times obs r : chords <> [] -> obs <> [] -> length obs = length times -> transcription_of log chords times obs r ->
  hd_error (t_chords r) = Some (hd 0 times, c_name (last chords no_chord)) /\ last (t_chords r) (0, ""%string) = (last times 0, "N"%string).
Proof.
  intros NC NO LT (H & PL & _ & -> & _). split; [|apply last_last]. set (path := path_of _ _ _ _) in *. destruct path as [|s p] eqn:P; [rewrite <- LT in PL; destruct obs; [now destruct NO|discriminate PL]|]. cbn [hd] in H. subst s. cbn [changes_from].
  destruct (Z.eqb_spec (Z.of_nat (length chords) - 1) (-1)) as [Q|_]; [destruct chords; [now destruct NC|cbn [length] in Q; lia]|]. cbn [map app hd_error]. unfold named. cbn [fst snd]. do 2 f_equal.
  - destruct times; reflexivity.
  - destruct (exists_last NC) as (m & x & ->). rewrite last_last, app_length. cbn [length]. unfold znth. rewrite app_nth2 by lia. replace (Z.to_nat (Z.of_nat (length m + 1) - 1) - length m)%nat with O by lia. reflexivity.
Qed.

(** ** Whole runs with a dictionary *)
Lemma chordino_cases atan2 powf pow log (ATAN : atan2_law atan2) (POW : forall s w, gt32 s z32 = true -> Bsign (powf s w) = false) c frames boost harte names values all : ready c -> Forall (fun f => s_block c <= Z.of_nat (length (snd f))) frames ->
  chord_dictionary powf boost harte names values = Ret all ->
  (exists o r chords none, analyse atan2 powf c frames = Ret o /\ chordino atan2 powf pow log c all frames = Ret r /\ all = chords ++ [none] /\ c_name none = "N"%string /\
     (frames = [] -> r = mkTranscription [] [] [] []) /\ (frames <> [] -> transcription_of log all (map fst frames) (map (fun tn => frame_saliences pow chords none (snd tn)) (o_notes o)) r)) \/
  analyse atan2 powf c frames = Undef FloatCast /\ chordino atan2 powf pow log c all frames = Undef FloatCast.
Proof.
  intros R F D. destruct (dictionary_fits _ _ _ _ _ _ D) as (chords & none & -> & V & N & NM). destruct (chordino_follows atan2 powf pow log chords none ATAN POW c frames R F V N) as (A & B & C).
  destruct (analyse_cases atan2 powf ATAN POW c frames R F) as (p & _ & _ & _ & T1 & T2). assert (X : in_tune atan2 c p \/ ~ in_tune atan2 c p) by apply Classical_Prop.classic. destruct X as [X|X]; [left|right].
  - destruct (T1 X) as (o & Eo & _). destruct frames as [|f fs].
    + exists o, (mkTranscription [] [] [] []), chords, none. split; [exact Eo|]. split; [now apply C|]. split; [reflexivity|]. split; [exact NM|]. now split.
    + destruct (A o Eo ltac:(discriminate)) as (r & Er & T). exists o, r, chords, none. split; [exact Eo|]. split; [exact Er|]. split; [reflexivity|]. split; [exact NM|]. split; [discriminate|now intros _].
  - assert (E := T2 X). split; [exact E|now apply B].
Qed.

(** ** Odd transcriptions *)
Definition twins : list chord := [mkChord "A" [] [45; 69]; mkChord "A" [] [45; 64]; no_chord].
Definition loud1 : list b64 := [rat64 98 100; rat64 1 100; rat64 1 100].
Definition loud2 : list b64 := [rat64 1 1000; rat64 998 1000; rat64 1 1000].
Lemma twins_run : match transcribe_chords (fun x => x) twins [0; 10; 20; 30; 40] [loud1; loud1; loud1; loud2; loud2] with Ret r => map snd (t_chords r) | _ => [] end = ["N"; "A"; "A"; "N"]%string.
Proof. vm_compute. reflexivity. Qed.
Lemma short_run : match transcribe_chords (fun x => x) twins [0; 10] [loud1; loud2] with Ret r => map n_duration (t_notes r) | _ => [] end = [0; 0].
Proof. vm_compute. reflexivity. Qed.
Lemma neighbours_refuted : ~ forall log chords times obs r, transcribe_chords log chords times obs = Ret r -> forall i, 0 <= i < Z.of_nat (length (t_chords r)) - 1 -> znth ""%string (map snd (t_chords r)) i <> znth ""%string (map snd (t_chords r)) (i + 1).
Proof.
  intros H. assert (E := twins_run). destruct (transcribe_chords _ _ _ _) as [r| |] eqn:T; [|discriminate E|discriminate E]. assert (L : length (t_chords r) = 4%nat) by (rewrite <- (map_length snd), E; reflexivity). specialize (H _ _ _ _ _ T 1 ltac:(rewrite L; lia)). rewrite E in H. now apply H.
Qed.
Lemma lasting_refuted : ~ forall log chords times obs r, increasing times -> transcribe_chords log chords times obs = Ret r -> Forall (fun x => 0 < n_duration x) (t_notes r).
Proof.
  intros H. assert (E := short_run). destruct (transcribe_chords _ _ _ _) as [r| |] eqn:T; [|discriminate E|discriminate E].
  assert (IN : increasing [0; 10]) by (intros i j I J; cbn [length] in J; assert (i = 0 /\ j = 1) as (-> & ->) by lia; reflexivity). assert (X := H _ _ _ _ _ IN T). destruct (t_notes r) as [|x l]; [discriminate E|]. apply Forall_inv in X. cbn [map] in E. apply (f_equal (hd 1)) in E. cbn [hd] in E. lia.
Qed.
