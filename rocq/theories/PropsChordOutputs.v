(** Property theorems C104: the outputs of the chord plug-in. *)
From Coq Require Import Reals Lia String.
From Flocq Require Import Core.Core IEEE754.BinarySingleNaN.
From Verif Require Import Base BaseFacts Fp Options Chromagram Nnls NnlsArith NnlsFacts NnlsSpec Plug PlugSpec PlugFacts PlugNum PlugSafe PlugMain PlugCases ChordViterbi ChordSpec Chords ChordsSpec ChordsFacts ChordsRun ChordsWhole ChordsCases Outputs OutputsFacts ChordOutputs PropsChords.
Open Scope list_scope.
Open Scope Z_scope.

Lemma some_inj {T} (a b : T) : Some a = Some b -> a = b. Proof. now intros [=]. Qed.
(** Every chord of a dictionary has its notes in the two octaves of C85. *)
Definition in_octaves (m : Z) : Prop := 45 <= m <= 56 \/ 63 <= m <= 74.
Lemma dictionary_notes powf boost harte names values all : chord_dictionary powf boost harte names values = Ret all -> Forall (fun c => Forall in_octaves (c_notes c)) all.
Proof.
  intros D. assert (S := C85_short_table _ _ _ _ _ _ D). destruct (C85_every_type_on_every_root harte names values S powf boost) as (l & D' & L & H & N).
  rewrite D in D'. apply Ret_inj in D'. subst l. apply Forall_forall. intros c I. apply In_nth_error in I as (k & K).
  assert (B : (k < length all)%nat) by (apply nth_error_Some; congruence).
  destruct (Z.eq_dec (Z.of_nat k) (12 * Z.of_nat (length names))) as [E|E].
  - replace (Z.to_nat (12 * Z.of_nat (length names))) with k in N by lia. rewrite K in N. apply some_inj in N. rewrite N. cbn [c_notes]. constructor.
  - assert (M := Z.div_mod (Z.of_nat k) 12 ltac:(lia)). assert (P := Z.mod_pos_bound (Z.of_nat k) 12 ltac:(lia)).
    destruct (H (Z.of_nat k / 12) (Z.of_nat k mod 12)) as (c' & C & _ & x & _ & _ & A); [split; [apply Z.div_pos; lia|apply Z.div_lt_upper_bound; lia]|exact P|].
    rewrite <- M, Nat2Z.id, K in C. apply some_inj in C. subst c'. exact (C85_range_of_notes values _ _ x _ P A).
Qed.
Lemma changes_in i old path x : In x (changes_from i old path) -> i <= fst x < i + Z.of_nat (length path) /\ In (snd x) path.
Proof.
  revert i old. induction path as [|s path IH]; intros i old I; cbn [changes_from] in I; [elim I|]. cbn [length].
  destruct (s =? old); [|destruct I as [<-|I]; [cbn; split; [lia|now left]|]]; apply IH in I as (I1 & I2); (split; [lia|now right]).
Qed.
Lemma changes_length i old path : (length (changes_from i old path) <= length path)%nat.
Proof. revert i old. induction path as [|s path IH]; intros i old; cbn [changes_from length]; [lia|]. destruct (s =? old); cbn [length]; [specialize (IH (i + 1) old)|specialize (IH (i + 1) s)]; lia. Qed.
Lemma spans_in times final l x : In x (spans times final l) -> exists y, In y l /\ snd x = snd y.
Proof. induction l as [|(i, s) l IH]; cbn [spans]; intros I; [elim I|]. destruct I as [<-|I]; [exists (i, s); split; [now left|reflexivity]|]. destruct (IH I) as (y & Y & E). exists y. split; [now right|exact E]. Qed.
Lemma znth_in {T} (d : T) l i : 0 <= i < Z.of_nat (length l) -> In (znth d l i) l.
Proof. intros B. unfold znth. destruct (i <? 0) eqn:E; [apply Z.ltb_lt in E; lia|]. apply nth_In. lia. Qed.
Lemma last_in {T} (d : T) l : l <> [] -> In (last l d) l.
Proof. intros N. rewrite (app_removelast_last d N) at 2. apply in_elt. Qed.

(** C104: any sound, any dictionary from the program or a file. Every note that is put out is one of the two octaves, so it keeps to the declared extents, 0 to 127; every label is the name of a chord in the dictionary, at the time of a frame;
    there is at most one label more than there are frames, and one change and one likelihood for every frame. *)
Theorem C104_what_is_put_out : forall atan2 powf pow log, atan2_law atan2 -> (forall s w, gt32 s z32 = true -> Bsign (powf s w) = false) -> forall c frames boost harte names values all r,
  ready c -> Forall (fun f => s_block c <= Z.of_nat (length (snd f))) frames -> chord_dictionary powf boost harte names values = Ret all -> chordino atan2 powf pow log c all frames = Ret r ->
  Forall (fun x => 45 <= n_pitch x <= 56 \/ 63 <= n_pitch x <= 74) (t_notes r) /\
  Forall (fun e => In (fst e) (map fst frames) /\ In (snd e) (map c_name all)) (t_chords r) /\
  (length (t_chords r) <= length frames + 1)%nat /\ length (t_change r) = length frames /\ length (t_likelihood r) = length frames.
Proof.
  intros atan2 powf pow log A P c frames boost harte names values all r R F D E.
  assert (N := dictionary_notes _ _ _ _ _ _ D).
  destruct (C87_whole_run atan2 powf pow log A P c frames boost harte names values all R F D) as [(o & r' & chords & none & _ & E' & EA & EN & H0 & H1)|(_ & E')]; [|rewrite E' in E; discriminate E].
  rewrite E in E'. apply Ret_inj in E'. subst r'. destruct frames as [|f0 frames].
  - rewrite (H0 eq_refl). cbn. repeat split; try constructor; lia.
  - destruct (H1 ltac:(discriminate)) as (_ & LP & BP & TC & TN & TL & LS & TD). set (times := map fst (f0 :: frames)) in *.
    set (path := path_of _ _ _ _) in *. assert (LT : length times = length (f0 :: frames)) by apply map_length.
    assert (NT : times <> []) by discriminate. assert (BP' := proj1 (Forall_forall _ _) BP).
    split; [|split; [|split; [|split]]].
    + rewrite TN. apply Forall_forall. intros x I. apply in_flat_map in I as (y & I & J). apply spans_in in I as (w & I & EW). apply changes_in in I as (_ & I). apply BP' in I. rewrite <- EW in I.
      unfold span_notes in J. apply in_map_iff in J as (m & <- & J). cbn [n_pitch]. assert (I2 := znth_in no_chord all (snd y) I).
      rewrite Forall_forall in N. specialize (N _ I2). rewrite Forall_forall in N. exact (N _ J).
    + rewrite TC. apply Forall_app. split; [|constructor; [|constructor]].
      * apply Forall_map, Forall_forall. intros w I. apply changes_in in I as (I1 & I2). unfold named. cbn [fst snd]. split; [apply znth_in; lia|]. apply in_map, znth_in. now apply BP'.
      * cbn [fst snd]. split; [now apply last_in|]. apply in_map_iff. exists none. split; [exact EN|]. rewrite EA. apply in_elt.
    + rewrite TC, app_length, map_length. assert (C := changes_length 0 (-1) path). cbn [length] in *. lia.
    + rewrite TD, app_length, map_length, NnlsFacts.zrange_length. cbn [length] in *. lia.
    + rewrite TL, map_length. etransitivity; [exact LS|]. exact LT.
Qed.
Print Assumptions C104_what_is_put_out.
(** The host of chordextract.cpp, which looks for simplechord, gets the labels of the whole run and nothing else; the other identifiers give the notes, the changes and the likelihoods. *)
Theorem C104_host_gets_the_output : forall atan2 powf pow log c chords frames r, chordino atan2 powf pow log c chords frames = Ret r ->
  let host id := chord_host atan2 powf pow log id c chords frames in
  host "simplechord"%string = Ret (Some (map Label (t_chords r))) /\ host "chordnotes"%string = Ret (Some (map Sounding (t_notes r))) /\
  host "harmonicchange"%string = Ret (Some (map Value (combine (map fst frames) (t_change r)))) /\ host "loglikelihood"%string = Ret (Some (map Value (combine (map fst frames) (t_likelihood r)))) /\
  forall id, ~ In id ["simplechord"; "chordnotes"; "harmonicchange"; "loglikelihood"]%string -> host id = Ret None.
Proof.
  intros atan2 powf pow log c chords frames r E host. unfold host, chord_host, chord_outputs. rewrite E. cbn [bind].
  unfold chord_set, pushed. cbn [q_chords q_notes q_change q_likelihood].
  repeat (split; [lazymatch goal with |- context [find_chord_output ?id ?l] => let n := eval vm_compute in (find_chord_output id l) in change (find_chord_output id l) with n end;
    cbn [Z.ltb Z.compare]; rewrite !at_pushes; cbn [Z.add Z.eqb Pos.add Pos.succ Pos.eqb features_at app]; rewrite ?app_nil_r; reflexivity|]).
  intros id N. unfold find_chord_output. cbn [fold_left app q_identifier fst].
  assert (H : forall s, In s ["simplechord"; "chordnotes"; "harmonicchange"; "loglikelihood"]%string -> String.eqb s id = false) by (intros s I; apply String.eqb_neq; intros ->; now apply N).
  rewrite !H by (cbn; tauto). reflexivity.
Qed.
Print Assumptions C104_host_gets_the_output.
(** If the plug-in fails, the host fails in the same way. *)
Theorem C104_failures : forall atan2 powf pow log c chords frames id l, chord_host atan2 powf pow log id c chords frames = Ret (Some l) -> exists r, chordino atan2 powf pow log c chords frames = Ret r.
Proof.
  intros atan2 powf pow log c chords frames id l. unfold chord_host, chord_outputs. destruct (_ <? 0); [discriminate|]. destruct (chordino _ _ _ _ c chords frames) as [r| |]; cbn [bind]; [now exists r|discriminate..].
Qed.
Print Assumptions C104_failures.
(** So the notes keep to the declared extents. *)
Theorem C104_declared_extents : forall atan2 powf pow log, atan2_law atan2 -> (forall s w, gt32 s z32 = true -> Bsign (powf s w) = false) -> forall c frames boost harte names values all d lo hi l,
  ready c -> Forall (fun f => s_block c <= Z.of_nat (length (snd f))) frames -> chord_dictionary powf boost harte names values = Ret all ->
  In d (fst chord_outputs) -> q_extents d = Some (lo, hi) -> chord_host atan2 powf pow log (q_identifier d) c all frames = Ret (Some l) ->
  Forall (fun x => exists note, x = Sounding note /\ lo <= n_pitch note <= hi) l.
Proof.
  intros atan2 powf pow log A P c frames boost harte names values all d lo hi l R F D I X H. destruct (C104_failures _ _ _ _ _ _ _ _ _ H) as (r & E).
  destruct (C104_what_is_put_out atan2 powf pow log A P c frames boost harte names values all r R F D E) as (N & _). destruct (C104_host_gets_the_output _ _ _ _ _ _ _ _ E) as (_ & HN & _).
  cbn in I. destruct I as [<-|[<-|[<-|[<-|[]]]]]; try discriminate X. cbn [q_extents q_identifier] in *. injection X as <- <-. rewrite HN in H. apply Ret_inj, some_inj in H. rewrite <- H.
  apply Forall_map. eapply Forall_impl; [|exact N]. intros x B. exists x. split; [reflexivity|]. cbv beta in B. destruct B; lia.
Qed.
Print Assumptions C104_declared_extents.
(** The run of C87: an E is heard at the time 6. *)
Example C104_case : match chord_host sample_atan2 sample_pow eighth (fun x => x) "simplechord" (sample_setup z32) one_type [(5, sample_frame); (6, sample_frame); (7, sample_frame)] with
  | Ret (Some l) => l = map Label [(5, "N"); (6, "E"); (7, "N")]%string | _ => False end.
Proof. vm_compute. reflexivity. Qed.
