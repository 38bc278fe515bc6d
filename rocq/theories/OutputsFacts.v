(** Proofs about the outputs of the chroma plug-in. *)
From Coq Require Import Lia String.
From Flocq Require Import Core.Core IEEE754.BinarySingleNaN.
From Verif Require Import Base BaseFacts Fp Options Chromagram Nnls Plug PlugSpec Outputs.
Open Scope list_scope.
Open Scope Z_scope.

Definition treble_names : list string := ["A"; "Bb"; "B"; "C"; "C#"; "D"; "Eb"; "E"; "F"; "F#"; "G"; "Ab"]%string.
Definition the_outputs : list output :=
  [mkOutput "logfreqspec" 256 []; mkOutput "tunedlogfreqspec" 256 []; mkOutput "semitonespectrum" 84 []; mkOutput "chroma" 12 treble_names; mkOutput "basschroma" 12 treble_names; mkOutput "bothchroma" 24 notenames].
Definition the_numbers : numbers := mkNumbers 0 1 2 3 4 5.
Lemma get_outputs_eq : get_outputs = Ret (the_outputs, the_numbers). Proof. vm_compute. reflexivity. Qed.

Lemma at_push {F} (fs : feature_set F) n x m : features_at (push fs n x) m = if n =? m then features_at fs m ++ [x] else features_at fs m.
Proof.
  induction fs as [|(k, l) fs IH]; cbn [push features_at]; [now destruct (n =? m)|].
  destruct (k =? n) eqn:E; cbn [features_at].
  - apply Z.eqb_eq in E. subst k. now destruct (n =? m).
  - destruct (k =? m) eqn:E2; [|exact IH]. apply Z.eqb_eq in E2. subst k. rewrite Z.eqb_sym in E. now rewrite E.
Qed.
Lemma at_pushes {F} (l : list F) n m (fs : feature_set F) : features_at (fold_left (fun fs x => push fs n x) l fs) m = features_at fs m ++ (if n =? m then l else []).
Proof.
  revert fs. induction l as [|x l IH]; intros fs; cbn [fold_left]; [destruct (n =? m); now rewrite app_nil_r|].
  rewrite IH, at_push. destruct (n =? m); [now rewrite <- app_assoc|reflexivity].
Qed.
Lemma at_four {F} (q : list (F * F * F * F)) m (fs : feature_set F) :
  features_at (fold_left (fun fs '(f3, f4, f5, f6) => push (push (push (push fs 2 f3) 3 f4) 4 f5) 5 f6) q fs) m =
  features_at fs m ++ (if m =? 2 then map (fun q => fst (fst (fst q))) q else if m =? 3 then map (fun q => snd (fst (fst q))) q else if m =? 4 then map (fun q => snd (fst q)) q else if m =? 5 then map snd q else []).
Proof.
  revert fs. induction q as [|(((a, b), c), d) q IH]; intros fs; cbn [fold_left map fst snd].
  - repeat destruct (m =? _); now rewrite app_nil_r.
  - rewrite IH, !at_push, (Z.eqb_sym 5), (Z.eqb_sym 4), (Z.eqb_sym 3), (Z.eqb_sym 2).
    destruct (m =? 2) eqn:E2; [apply Z.eqb_eq in E2; subst m; cbn; now rewrite <- app_assoc|].
    destruct (m =? 3) eqn:E3; [apply Z.eqb_eq in E3; subst m; cbn; now rewrite <- app_assoc|].
    destruct (m =? 4) eqn:E4; [apply Z.eqb_eq in E4; subst m; cbn; now rewrite <- app_assoc|].
    destruct (m =? 5) eqn:E5; [now rewrite <- app_assoc|reflexivity].
Qed.
Lemma map_fst_combine {S T} (a : list S) (b : list T) : length a = length b -> map fst (combine a b) = a.
Proof. revert b. induction a as [|x a IH]; intros [|y b] L; try discriminate; [reflexivity|]. cbn. f_equal. apply IH. now injection L. Qed.
Lemma map_snd_combine {S T} (a : list S) (b : list T) : length a = length b -> map snd (combine a b) = b.
Proof. revert b. induction a as [|x a IH]; intros [|y b] L; try discriminate; [reflexivity|]. cbn. f_equal. apply IH. now injection L. Qed.

Lemma bind_split {A B} (o : outcome A) (f : A -> outcome B) v : bind o f = Ret v -> exists a, o = Ret a /\ f a = Ret v.
Proof. destruct o as [a| |]; cbn [bind]; intros E; [now exists a|discriminate E..]. Qed.

Section Machine.
  Context (atan2 powf : b32 -> b32 -> b32) {stamp : Type}.
  Implicit Types (c : setup) (p : @plug stamp) (frames : list (stamp * list b32)).
  (** Frame by frame: the four lists grow together. *)
  Lemma together c l f3 f4 f5 f6 r : length f4 = length f3 -> length f5 = length f3 -> length f6 = length f3 ->
    over (fun '(f3, f4, f5, f6) '(t, f2) =>
          do f <- spectrum_frame (s_useNNLS c) (s_dict c) f2;
          do (a, b, ab) <- normalised (s_normalize c) (f_treble f) (f_bass f);
          Ret (f3 ++ [(t : stamp, f_notes f)], f4 ++ [(t, a)], f5 ++ [(t, b)], f6 ++ [(t, ab)])) l (f3, f4, f5, f6) = Ret r ->
    length (snd (fst (fst r))) = length (fst (fst (fst r))) /\ length (snd (fst r)) = length (fst (fst (fst r))) /\ length (snd r) = length (fst (fst (fst r))).
  Proof.
    revert f3 f4 f5 f6. induction l as [|(t, f2) l IH]; intros f3 f4 f5 f6 L4 L5 L6 E; cbn [over] in E.
    - apply Ret_inj in E. subst r. now repeat split.
    - destruct (spectrum_frame _ _ f2) as [f| |]; cbn [bind] in E; try discriminate. destruct (normalised _ _ _) as [((a, b), ab)| |]; cbn [bind] in E; try discriminate.
      apply IH in E; [exact E|rewrite !app_length; cbn; lia..].
  Qed.
  Lemma remaining_lengths c p o : remaining atan2 powf c p = Ret o -> length (o_treble o) = length (o_notes o) /\ length (o_bass o) = length (o_notes o) /\ length (o_both o) = length (o_notes o).
  Proof.
    unfold remaining. intros E. destruct (p_spectra p) as [|s0 rest]; [apply Ret_inj in E; subst o; now repeat split|].
    destruct (angle _ _ _ _) as [a| |]; cbn [bind] in E; try discriminate. destruct (shifts a) as [g| |]; cbn [bind] in E; try discriminate.
    destruct (tune_all _ _ _ _) as [(l, errors)| |]; cbn [bind] in E; try discriminate.
    match type of E with (do r <- ?X; _) = _ => destruct X as [(((f3, f4), f5), f6)| |] eqn:EO end; cbn [bind] in E; try discriminate.
    apply together in EO; [|reflexivity..]. apply Ret_inj in E. subst o. exact EO.
  Qed.
  Definition field (m : Z) (o : @outputs stamp) : list (stamp * list b32) :=
    if m =? 1 then o_tuned o else if m =? 2 then o_notes o else if m =? 3 then o_treble o else if m =? 4 then o_bass o else if m =? 5 then o_both o else [].
  Lemma remaining_set_eq c p m : (do fs <- remaining_set atan2 powf (Some the_numbers) c p; Ret (features_at fs m)) = do o <- remaining atan2 powf c p; Ret (field m o).
  Proof.
    unfold remaining_set. destruct (p_spectra p) as [|s0 rest] eqn:Sp.
    { unfold remaining. rewrite Sp. cbn [bind features_at]. unfold field. cbn. now repeat destruct (m =? _). }
    destruct (remaining atan2 powf c p) as [o| |] eqn:E; cbn [bind]; try reflexivity. destruct (remaining_lengths c p o E) as (L4 & L5 & L6).
    cbn [the_numbers n_tuned n_notes n_treble n_bass n_both]. rewrite at_four, at_pushes. cbn [features_at app]. f_equal. unfold field. rewrite (Z.eqb_sym 1).
    assert (C1 : length (combine (o_notes o) (o_treble o)) = length (o_bass o)) by (rewrite combine_length; lia).
    assert (C2 : length (combine (combine (o_notes o) (o_treble o)) (o_bass o)) = length (o_both o)) by (rewrite combine_length; lia).
    destruct (m =? 1) eqn:E1; [apply Z.eqb_eq in E1; subst m; cbn; now rewrite app_nil_r|]. cbn [app].
    destruct (m =? 2); [rewrite <- (map_map (fun q => fst (fst q)) fst), <- (map_map fst fst), (map_fst_combine _ _ C2), (map_fst_combine _ _ C1); apply map_fst_combine; lia|].
    destruct (m =? 3); [rewrite <- (map_map (fun q => fst (fst q)) snd), <- (map_map fst fst), (map_fst_combine _ _ C2), (map_fst_combine _ _ C1); apply map_snd_combine; lia|].
    destruct (m =? 4); [rewrite <- (map_map fst snd), (map_fst_combine _ _ C2); apply map_snd_combine; lia|].
    destruct (m =? 5); [apply map_snd_combine; lia|reflexivity].
  Qed.
  (** What process() hands out goes to output 0. *)
  Lemma fed c frames no p got : no <> 0 ->
    over (fun '(p, got) '(t, fbuf) => do (p, fs) <- process_set atan2 (Some the_numbers) c p t fbuf; Ret (p, got ++ features_at fs no)) frames (p, got) =
    do p' <- over (fun p '(t, fbuf) => do (p, _) <- process atan2 c p t fbuf; Ret p) frames p; Ret (p', got).
  Proof.
    intros N. revert p. induction frames as [|(t, fbuf) frames IH]; intros p; cbn [over bind]; [reflexivity|]. unfold process_set at 1.
    destruct (process atan2 c p t fbuf) as [(p1, x)| |]; cbn [bind]; try reflexivity.
    cbn [the_numbers n_spectrum]. rewrite at_push. destruct (0 =? no) eqn:E; [apply Z.eqb_eq in E; congruence|]. cbn [features_at]. rewrite app_nil_r. apply IH.
  Qed.
  Lemma process_spectra c p t fbuf p1 x : process atan2 c p t fbuf = Ret (p1, x) -> p_spectra p1 = p_spectra p ++ [x].
  Proof.
    unfold process. intros E.
    apply bind_split in E as ((mag, mx) & _ & E). apply bind_split in E as (mag' & _ & E). apply bind_split in E as (nm & _ & E). apply bind_split in E as ((mean, local) & _ & E). apply bind_split in E as (a & _ & E).
    apply Ret_inj in E. apply pair_equal_spec in E as (E1 & E2). rewrite <- E1, <- E2. reflexivity.
  Qed.
  Lemma fed_spectra c frames p got : got = p_spectra p ->
    over (fun '(p, got) '(t, fbuf) => do (p, fs) <- process_set atan2 (Some the_numbers) c p t fbuf; Ret (p, got ++ features_at fs 0)) frames (p, got) =
    do p' <- over (fun p '(t, fbuf) => do (p, _) <- process atan2 c p t fbuf; Ret p) frames p; Ret (p', p_spectra p').
  Proof.
    revert p got. induction frames as [|(t, fbuf) frames IH]; intros p got ->; cbn [over bind]; [reflexivity|]. unfold process_set at 1.
    destruct (process atan2 c p t fbuf) as [(p1, x)| |] eqn:E; cbn [bind]; try reflexivity.
    cbn [the_numbers n_spectrum]. rewrite at_push. cbn [Z.eqb features_at app]. apply IH. symmetry. exact (process_spectra c p t fbuf p1 x E).
  Qed.
  Lemma host_field id no c frames : find_output id the_outputs = no -> 0 < no ->
    host_run atan2 powf id c frames = do o <- analyse atan2 powf c frames; Ret (Some (field no o)).
  Proof.
    intros F P. unfold host_run. rewrite get_outputs_eq. cbn [bind]. rewrite F. destruct (no <? 0) eqn:L; [apply Z.ltb_lt in L; lia|].
    rewrite fed by lia. unfold analyse. destruct (over _ frames reset) as [p| |]; cbn [bind]; try reflexivity.
    assert (E := remaining_set_eq c p no). destruct (remaining_set _ _ _ c p) as [fs| |], (remaining _ _ c p) as [o| |]; cbn [bind] in *; try discriminate; [|congruence..].
    apply Ret_inj in E. cbn [app]. now rewrite E.
  Qed.
  Lemma host_spectra c frames : host_run atan2 powf "logfreqspec" c frames =
    do p <- over (fun p '(t, fbuf) => do (p, _) <- process atan2 c p t fbuf; Ret p) frames reset; do _ <- remaining atan2 powf c p; Ret (Some (p_spectra p)).
  Proof.
    unfold host_run. rewrite get_outputs_eq. cbn [bind]. change (find_output "logfreqspec" the_outputs) with 0. cbn [Z.ltb Z.compare].
    rewrite fed_spectra by reflexivity. destruct (over _ frames reset) as [p| |]; cbn [bind]; try reflexivity.
    assert (E := remaining_set_eq c p 0). destruct (remaining_set _ _ _ c p) as [fs| |], (remaining _ _ c p) as [o| |]; cbn [bind] in *; try discriminate; [|congruence..].
    apply Ret_inj in E. cbn in E. now rewrite E, app_nil_r.
  Qed.
  Lemma host_none id c frames : ~ In id (map d_identifier the_outputs) -> host_run atan2 powf id c frames = Ret None.
  Proof.
    intros N. unfold host_run. rewrite get_outputs_eq. cbn [bind]. enough (find_output id the_outputs = -1) as -> by reflexivity.
    unfold find_output. cbn [fold_left the_outputs d_identifier fst].
    assert (H : forall s, In s (map d_identifier the_outputs) -> String.eqb s id = false) by (intros s I; apply String.eqb_neq; intros ->; now apply N).
    rewrite !H by (cbn; tauto). reflexivity.
  Qed.
End Machine.
