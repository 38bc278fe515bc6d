(** The saliences of a frame, and whole runs of the chord plug-in. *)
From Coq Require Import String Lia Reals.
From Flocq Require Import Core.Core IEEE754.BinarySingleNaN.
From Verif Require Import Base BaseFacts Fp Options Chromagram Nnls NnlsArith NnlsFacts Plug PlugSpec PlugFacts PlugNum PlugNan PlugSafe PlugFrame PlugChroma PlugMain PlugNotes ChordViterbi ChordSpec ChordFacts Chords ChordsSpec ChordsFacts ChordsRun.
Open Scope Z_scope.

(** ** Saliences *)
Lemma fold_combine {A} (f : A -> b32 -> b32 -> A) (l m : list b32) (s : A) : length l = length m -> fold_left (fun v i => f v (znth z32 l i) (znth z32 m i)) (zrange 0 (Z.of_nat (length l) - 1)) s = fold_left (fun v '(d, c) => f v d c) (combine l m) s.
Proof.
  intros L. assert (E : combine l m = map (fun i => (znth z32 l i, znth z32 m i)) (zrange 0 (Z.of_nat (length l) - 1))).
  { rewrite (list_as_map z32 l) at 1. rewrite (list_as_map z32 m) at 1. rewrite <- L. generalize (zrange 0 (Z.of_nat (length l) - 1)) as k. clear. induction k as [|x k IH]; [reflexivity|]. cbn [map combine]. now rewrite IH. }
  rewrite E. generalize (zrange 0 (Z.of_nat (length l) - 1)) as k. clear. intros k. revert s. induction k as [|x k IH]; intros s; [reflexivity|]. cbn [map fold_left]. apply IH.
Qed.
Lemma flat_elt (rows : list (list b32)) i k : Forall (fun r => length r = 24%nat) rows -> 0 <= i < Z.of_nat (length rows) -> 0 <= k < 24 -> znth z32 (concat rows) (24 * i + k) = znth z32 (znth [] rows i) k.
Proof.
  intros F. revert i. induction rows as [|r rows IH]; intros i I K; [cbn [length] in I; lia|]. apply Forall_cons_iff in F as (R & F). cbn [length] in I. cbn [concat]. unfold znth at 1. destruct (Z.eq_dec i 0) as [-> |N].
  - rewrite app_nth1 by lia. reflexivity.
  - rewrite app_nth2 by lia. replace (Z.to_nat (24 * i + k) - length r)%nat with (Z.to_nat (24 * (i - 1) + k)) by lia. change (znth z32 (concat rows) (24 * (i - 1) + k) = znth z32 (znth [] (r :: rows) i) k). rewrite (IH F) by lia. f_equal. unfold znth. replace (Z.to_nat i) with (S (Z.to_nat (i - 1))) by lia. reflexivity.
Qed.
Lemma concat_length24 (rows : list (list b32)) : Forall (fun r => length r = 24%nat) rows -> Z.of_nat (length (concat rows)) = 24 * Z.of_nat (length rows).
Proof. induction 1 as [|r rows R F IH]; [reflexivity|]. cbn [concat length]. rewrite app_length. lia. Qed.
Lemma similarity_ok rows chroma i : Forall (fun r => length r = 24%nat) rows -> length chroma = 24%nat -> 0 <= i < Z.of_nat (length rows) -> similarity (concat rows) chroma i = Ret (product24 (znth [] rows i) chroma).
Proof.
  intros F C I. assert (CL := concat_length24 rows F). assert (R : length (znth [] rows i) = 24%nat) by (apply (Forall_znth [] _ _ _ F); lia). unfold similarity.
  rewrite (loop_pure _ (fun v k => fadd v (f32_to_64 (mul32 (znth z32 (znth [] rows i) k) (znth z32 chroma k))))).
  - f_equal. unfold product24. rewrite <- (fold_combine (fun v d c => fadd v (f32_to_64 (mul32 d c)))) by lia. now rewrite R.
  - intros v k K. rewrite (elt_ok z32) by lia. cbn [bind]. rewrite (elt_ok z32) by lia. cbn [bind]. rewrite flat_elt by (try assumption; lia). reflexivity.
Qed.
Lemma clipped_value n i v : fst (clipped n i v) = between (if i =? n - 1 then fmul v (rat64 7 10) else v).
Proof. unfold clipped, between. destruct (i =? n - 1); (destruct (flt _ fzero); [reflexivity|]); destruct (fgt _ two_hundred); reflexivity. Qed.
Lemma upd_last {T} (l : list T) x v : upd (l ++ [x]) (Z.of_nat (length l)) v = Ret (l ++ [v]).
Proof.
  unfold upd. assert (E : ((0 <=? Z.of_nat (length l)) && (Z.of_nat (length l) <? Z.of_nat (length (l ++ [x]))))%bool = true) by (apply andb_true_intro; rewrite app_length; cbn [length]; split; [apply Z.leb_le|apply Z.ltb_lt]; lia). rewrite ?E. rewrite Nat2Z.id. f_equal.
  induction l as [|y l IH]; [reflexivity|]. cbn [app length replace_nth]. f_equal. apply IH. rewrite app_length. cbn [length]. apply andb_true_intro. split; [apply Z.leb_le|apply Z.ltb_lt]; lia.
Qed.
Section Salience.
  Context (pow : b64 -> b64 -> b64).
  Lemma strengths_znth rows none chroma i : 0 <= i <= Z.of_nat (length rows) -> znth fzero (strengths pow rows none chroma) i = pow (rat64 13 10) (fst (clipped (Z.of_nat (length rows) + 1) i (product24 (znth [] (rows ++ [none]) i) chroma))).
  Proof.
    intros I. rewrite clipped_value. unfold strengths, znth. destruct (Z.eqb_spec i (Z.of_nat (length rows) + 1 - 1)) as [E|N].
    - rewrite !app_nth2 by (rewrite ?map_length; lia). rewrite map_length. replace (Z.to_nat i - length rows)%nat with O by lia. reflexivity.
    - rewrite !app_nth1 by (rewrite ?map_length; lia). rewrite (nth_indep _ fzero (strength pow chroma [])) by (rewrite map_length; lia). rewrite map_nth. reflexivity.
  Qed.
  Lemma saliences_ok rows none chroma : Forall (fun r => length r = 24%nat) (rows ++ [none]) -> length chroma = 24%nat ->
    exists warn, saliences pow (Z.of_nat (length (rows ++ [none]))) (concat (rows ++ [none])) chroma = Ret (shares (strengths pow rows none chroma), warn) /\
      (warn = true <-> Exists (fun r => fgt (product24 r chroma) two_hundred = true) rows \/ fgt (fmul (product24 none chroma) (rat64 7 10)) two_hundred = true).
  Proof.
    intros F C. set (n := Z.of_nat (length (rows ++ [none]))). assert (N : n = Z.of_nat (length rows) + 1) by (unfold n; rewrite app_length; cbn [length]; lia).
    set (val := fun i => clipped n i (product24 (znth [] (rows ++ [none]) i) chroma)). set (f := fun i => pow (rat64 13 10) (fst (val i))).
    unfold saliences. set (body := fun '(l, sum, warn) iChord => do v <- similarity (concat (rows ++ [none])) chroma iChord; let '(v, w) := clipped n iChord v in let v := pow (rat64 13 10) v in Ret (l ++ [v], fadd sum v, warn || w)).
    assert (E : loop 0 (n - 1) body ([], fzero, false) = Ret (map f (zrange 0 (n - 1)), fold_left fadd (map f (zrange 0 (n - 1))) fzero, existsb (fun i => snd (val i)) (zrange 0 (n - 1)))).
    { rewrite (loop_pure _ (fun '(l, sum, warn) i => (l ++ [f i], fadd sum (f i), warn || snd (val i)))).
      - f_equal. assert (G : forall k l sum warn, fold_left (fun '(l, sum, warn) i => (l ++ [f i], fadd sum (f i), warn || snd (val i))) k (l, sum, warn) = (l ++ map f k, fold_left fadd (map f k) sum, (warn || existsb (fun i => snd (val i)) k)%bool)).
        { induction k as [|i k IH]; intros l sum warn; cbn [fold_left map existsb]; [now rewrite app_nil_r, Bool.orb_false_r|]. rewrite IH, <- app_assoc, <- Bool.orb_assoc. reflexivity. }
        rewrite G. reflexivity.
      - intros ((l & sum) & warn) i I. unfold body. rewrite (similarity_ok (rows ++ [none]) chroma i F C) by lia. cbn [bind]. unfold f, val. destruct (clipped n i _) as (v & w). reflexivity. }
    rewrite E. cbn [bind]. assert (S : map f (zrange 0 (n - 1)) = strengths pow rows none chroma).
    { rewrite (list_as_map fzero (strengths pow rows none chroma)). assert (L : Z.of_nat (length (strengths pow rows none chroma)) = n) by (unfold strengths; rewrite app_length, map_length; cbn [length]; lia). rewrite L. apply map_ext_in. intros i I. apply zrange_In in I. rewrite strengths_znth by lia. unfold f, val. now rewrite N. }
    rewrite S. assert (W : existsb (fun i => snd (val i)) (zrange 0 (n - 1)) = true <-> Exists (fun r => fgt (product24 r chroma) two_hundred = true) rows \/ fgt (fmul (product24 none chroma) (rat64 7 10)) two_hundred = true).
    { assert (K : forall v, snd (let v := if flt v fzero then fzero else v in if fgt v two_hundred then (two_hundred, true) else (v, false)) = true <-> fgt v two_hundred = true).
      { intros v. cbv zeta. destruct (flt v fzero) eqn:Z0.
        - assert (F0 : fgt fzero two_hundred = false) by (vm_compute; reflexivity). rewrite F0. cbn [snd]. split; [discriminate|]. intros G. exfalso. clear - Z0 G. unfold flt, fgt, Bltb, SpecFloat.SFltb in *. destruct v as [s|s| |s m e H]; cbn in Z0, G; try discriminate Z0; try discriminate G; destruct s; try discriminate Z0; try discriminate G.
        - destruct (fgt v two_hundred); cbn [snd]; tauto. }
      assert (V : forall i, snd (val i) = true <-> fgt (if i =? n - 1 then fmul (product24 (znth [] (rows ++ [none]) i) chroma) (rat64 7 10) else product24 (znth [] (rows ++ [none]) i) chroma) two_hundred = true) by (intros i; unfold val, clipped; destruct (i =? n - 1); apply K).
      rewrite existsb_exists. split.
      - intros (i & I & Vi). apply zrange_In in I. apply V in Vi. destruct (Z.eqb_spec i (n - 1)) as [Ei|Ni].
        + right. unfold znth in Vi. rewrite app_nth2 in Vi by lia. replace (Z.to_nat i - length rows)%nat with O in Vi by lia. exact Vi.
        + left. apply Exists_exists. exists (znth [] (rows ++ [none]) i). split; [|exact Vi]. unfold znth. rewrite app_nth1 by lia. apply nth_In. lia.
      - intros [X|X].
        + apply Exists_exists in X. destruct X as (r & IR & X). apply (In_nth _ _ []) in IR. destruct IR as (k & K1 & K2). exists (Z.of_nat k). split; [apply zrange_In; lia|]. apply V. destruct (Z.eqb_spec (Z.of_nat k) (n - 1)) as [Q|_]; [lia|]. unfold znth. rewrite Nat2Z.id, app_nth1 by lia. now rewrite K2.
        + exists (n - 1). split; [apply zrange_In; lia|]. apply V. rewrite Z.eqb_refl. unfold znth. rewrite app_nth2 by lia. replace (Z.to_nat (n - 1) - length rows)%nat with O by lia. exact X. }
    exists (existsb (fun i => snd (val i)) (zrange 0 (n - 1))). split; [|exact W]. unfold shares. destruct (fgt (fold_left fadd (strengths pow rows none chroma) fzero) fzero); [reflexivity|].
    unfold strengths at 1. replace (n - 1) with (Z.of_nat (length (map (strength pow chroma) rows))) by (rewrite map_length; lia). rewrite upd_last. cbn [bind]. unfold strengths. rewrite removelast_last. reflexivity.
  Qed.
  Lemma shares_length l : l <> [] -> length (shares l) = length l.
  Proof.
    intros NE. unfold shares. destruct (fgt _ fzero); [apply map_length|]. destruct (exists_last NE) as (m & x & ->). rewrite removelast_last, !app_length. reflexivity.
  Qed.
End Salience.

(** ** Whole runs *)
Section Run.
  Context (atan2 powf : b32 -> b32 -> b32) (pow : b64 -> b64 -> b64) (log : b64 -> b64).
  Context (chords : list chord) (none : chord).
  Notation all := (chords ++ [none]).
  Notation frame_saliences := (frame_saliences pow chords none).
  Lemma frame_saliences_length notes : length (frame_saliences notes) = length all.
  Proof. unfold ChordsSpec.frame_saliences. rewrite shares_length by (unfold strengths; intros E; now apply app_eq_nil in E). unfold strengths. now rewrite !app_length, !map_length. Qed.
  Lemma chord_frame_ok c f2 : ready c -> Z.of_nat (length f2) = nNote -> Forall (fun d => length (c_values d) = 24%nat) all -> exists warn, chord_frame pow c all f2 = Ret (frame_saliences (notes_of (s_useNNLS c) (s_dict c) f2), warn).
  Proof.
    intros [Rd Rk Rh Rs Rc Rb Rn] L F. unfold chord_frame. destruct (notes_of_frame (s_useNNLS c) (s_dict c) f2 L Rd) as (-> & _). cbn [bind frame_of f_treble f_bass]. set (notes := notes_of _ _ _).
    destruct (normalised_ok (s_normalize c) (chroma_of treblewindow notes) (chroma_of basswindow notes) Rn) as (x & -> & _). cbn [bind]. rewrite flat_map_concat_map, map_app. cbn [map].
    destruct (saliences_ok pow (map c_values chords) (c_values none) (chroma_of basswindow notes ++ chroma_of treblewindow notes)) as (warn & E & _).
    - change [c_values none] with (map c_values [none]). rewrite <- map_app. apply Forall_map. exact F.
    - now rewrite app_length, !chroma_length.
    - exists warn. unfold ChordsSpec.frame_saliences. rewrite <- E. f_equal. now rewrite !app_length, map_length.
  Qed.
  Context (ATAN : atan2_law atan2) (POW : forall s w, gt32 s z32 = true -> Bsign (powf s w) = false).
  Lemma chordino_follows c frames : ready c -> Forall (fun f => s_block c <= Z.of_nat (length (snd f))) frames -> Forall (fun d => length (c_values d) = 24%nat) all -> c_notes none = [] ->
    (forall o, analyse atan2 powf c frames = Ret o -> frames <> [] -> exists r, chordino atan2 powf pow log c all frames = Ret r /\ transcription_of log all (map fst frames) (map (fun tn => frame_saliences (snd tn)) (o_notes o)) r) /\
    (analyse atan2 powf c frames = Undef FloatCast -> chordino atan2 powf pow log c all frames = Undef FloatCast) /\
    (frames = [] -> chordino atan2 powf pow log c all frames = Ret (mkTranscription [] [] [] [])).
  Proof.
    intros R F V N. destruct (analyse_cases atan2 powf ATAN POW c frames R F) as (p & Ep & K & S & T1 & T2).
    assert (NT : analyse atan2 powf c frames = Undef FloatCast -> ~ in_tune atan2 c p) by (intros E T; destruct (T1 T) as (o & Eo & _); rewrite E in Eo; discriminate Eo).
    unfold chordino. fold (processed atan2 c frames reset). split; [|split].
    - intros o Eo NE. destruct (analyse_frames atan2 powf ATAN POW c frames o R F Eo) as (G & parts & _ & EN & _). unfold analyse in Eo. fold (processed atan2 c frames reset) in Eo. rewrite Ep in *. cbn [bind] in *. unfold remaining in Eo. unfold remaining_chords.
      destruct (p_spectra p) as [|s0 rest] eqn:Sp; [destruct frames; [now destruct NE|discriminate S]|]. clear Sp s0 rest S.
      destruct (angle _ _ _ _) as [a| |]; try discriminate Eo. cbn [bind] in *. destruct (shifts a) as [g| |]; try discriminate Eo. cbn [bind] in *. destruct (tune_all _ _ _ _) as [(l, e)| |]; try discriminate Eo. cbn [bind] in *.
      destruct (over _ l _) as [(((f3, f4), f5), f6)| |] eqn:Q in Eo; try discriminate Eo. cbn [bind] in Eo. apply Ret_inj in Eo. subst o. cbn [o_tuned o_notes] in *. destruct G as (G1 & G2 & _). cbn [o_tuned] in G1, G2.
      assert (X : forall m acc, Forall (fun tf : Z * list b32 => Z.of_nat (length (snd tf)) = nNote) m -> over (fun s '(t, f2) => do (v, _) <- chord_frame pow c all f2; Ret (s ++ [v])) m acc = Ret (acc ++ map (fun tf => frame_saliences (notes_of (s_useNNLS c) (s_dict c) (snd tf))) m)).
      { induction m as [|(t, f2) m IH]; intros acc L; cbn [over map]; [now rewrite app_nil_r|]. apply Forall_cons_iff in L as (L1 & L). cbn [snd] in *. destruct (chord_frame_ok c f2 R L1 V) as (w & ->). cbn [bind]. rewrite IH by exact L. now rewrite <- app_assoc. }
      rewrite X by (apply Forall_impl with (2 := G2); now intros tf (L & _)). cbn [bind app]. rewrite G1, EN, map_map. cbn [snd].
      apply transcription_ok.
      + intros E. now apply app_eq_nil in E.
      + rewrite app_length. cbn [length]. unfold znth. rewrite app_nth2 by lia. replace (Z.to_nat (Z.of_nat (length chords + 1) - 1) - length chords)%nat with O by lia. exact N.
      + destruct l; [destruct frames; [now destruct NE|discriminate G1]|discriminate].
      + rewrite map_length, <- G1, map_length. reflexivity.
      + apply Forall_map, Forall_forall. intros tf _. now rewrite frame_saliences_length.
    - intros E. assert (NI := NT E). rewrite Ep. cbn [bind]. unfold analyse in E. fold (processed atan2 c frames reset) in E. rewrite Ep in E. cbn [bind] in E. unfold remaining_chords, remaining in *. destruct (p_spectra p) as [|s0 rest] eqn:Sp; [discriminate E|]. clear Sp s0 rest S.
      rewrite (angle_mean atan2 c p R K) in *. cbn [bind] in *.
      destruct (angle_half atan2 ATAN (snd (sums (s_sin c) (s_cos c) (p_mean p))) (fst (sums (s_sin c) (s_cos c) (p_mean p)))) as [Q|Q]; fold (mean_angle atan2 c p) in Q; [rewrite Q, shifts_nan; reflexivity|].
      assert (Na : no_nan (mean_angle atan2 c p)) by (intros X; destruct Q as (Fa & _); rewrite X in Fa; discriminate Fa). destruct (usable_half _ (or_intror Q) Na) as (g & -> & G). cbn [bind].
      destruct (s_tuneLocal c) eqn:TL; [|elim NI; right; split; [exact Na|congruence]]. rewrite (tune_all_cast powf POW c p g R K G TL); [reflexivity|]. intros X. apply NI. right. split; [exact Na|now intros _].
    - intros ->. reflexivity.
  Qed.
End Run.
