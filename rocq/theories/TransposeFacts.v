(** Proofs about transposed music (C23). *)
From Coq Require Import Reals Lra Lia ZifyBool Permutation.
From Flocq Require Import Core.Core IEEE754.BinarySingleNaN.
From Verif Require Import Base BaseFacts Fp FpFacts Key PitchClass KeyProfile KeyTransition Hmm Pipeline MusicSpec KeyFacts ProfileFacts TransitionFacts ViterbiSpec HmmSpec HmmFacts NumFacts PipelineSpec PipelineFacts.
Open Scope Z_scope.

Lemma transpose_pc_range t p : is_note (transpose_pc t p).
Proof. unfold is_note, transpose_pc. apply Z.mod_pos_bound. lia. Qed.
Lemma transpose_key_0 k : is_key k -> transpose_key 0 k = k.
Proof. unfold is_key, transpose_key, tonic, majorb. intros H. destruct (Z.ltb_spec k 12); Z.div_mod_to_equations; lia. Qed.
Lemma transpose_key_inv t k : is_key k -> transpose_key (- t) (transpose_key t k) = k.
Proof. intros H. rewrite transpose_key_add by exact H. replace (- t + t) with 0 by lia. now apply transpose_key_0. Qed.
Lemma transpose_key_inv' t k : is_key k -> transpose_key t (transpose_key (- t) k) = k.
Proof. intros H. rewrite transpose_key_add by exact H. replace (t + - t) with 0 by lia. now apply transpose_key_0. Qed.

Section Transpose.
  Variable t : Z.
  Variable tb : tables.
  Variables A B T : list b64.
  Hypothesis S : selects tb A B T.
  Notation up := (transpose_key t).
  Notation upn := (map (transpose_pc t)).

  Lemma up_notes notes : Forall is_note (upn notes).
  Proof. apply Forall_forall. intros x H. apply in_map_iff in H. destruct H as (y & <- & _). apply transpose_pc_range. Qed.
  Lemma up_keys ks : Forall is_key ks -> Forall is_key (map up ks).
  Proof. intros H. apply Forall_forall. intros x Hx. apply in_map_iff in Hx. destruct Hx as (y & <- & Hy). apply transpose_key_range. exact (proj1 (Forall_forall _ _) H y Hy). Qed.
  Lemma up_path obs path : is_path (zseq 24) obs path -> is_path (zseq 24) (upn obs) (map up path).
  Proof.
    intros [L F]. split; [now rewrite !map_length|]. apply Forall_forall. intros x Hx. apply in_map_iff in Hx. destruct Hx as (y & <- & Hy).
    apply In24, transpose_key_range, In24. exact (proj1 (Forall_forall _ _) F y Hy).
  Qed.
  Lemma up_path_keys ks path : is_path (zseq 24) ks path -> is_path (zseq 24) (map up ks) (map up path).
  Proof.
    intros [L F]. split; [now rewrite !map_length|]. apply Forall_forall. intros x Hx. apply in_map_iff in Hx. destruct Hx as (y & <- & Hy).
    apply In24, transpose_key_range, In24. exact (proj1 (Forall_forall _ _) F y Hy).
  Qed.
  (** Every path of the transposed music is a transposed path. *)
  Lemma down_path obs path : is_path (zseq 24) (upn obs) path -> exists q, path = map up q /\ is_path (zseq 24) obs q.
  Proof.
    intros [L F]. exists (map (transpose_key (- t)) path). split; [|split].
    - rewrite map_map. clear L. induction F as [|x l Hx _ IH]; [reflexivity|]. cbn [map]. rewrite transpose_key_inv' by now apply In24. now f_equal.
    - rewrite map_length, L, map_length. reflexivity.
    - apply Forall_forall. intros x Hx. apply in_map_iff in Hx. destruct Hx as (y & <- & Hy). apply In24, transpose_key_range, In24. exact (proj1 (Forall_forall _ _) F y Hy).
  Qed.
  Lemma up_ends path s : ends_in path s -> ends_in (map up path) (up s).
  Proof. intros (p & ->). exists (map up p). now rewrite map_app. Qed.
  Lemma down_ends path s : Forall is_key path -> is_key s -> ends_in (map up path) (up s) -> ends_in path s.
  Proof.
    intros Hk Hs (p & E). destruct path as [|x path] using rev_ind; [destruct p; discriminate|].
    rewrite map_app in E. cbn [map] in E. apply app_inj_tail in E. destruct E as [_ E].
    apply Forall_app in Hk. destruct Hk as [_ Hx]. inversion Hx; subst.
    assert (x = s) by (rewrite <- (transpose_key_inv t x), <- (transpose_key_inv t s) by assumption; now rewrite E). subst. now exists path.
  Qed.

  Lemma em_up n n' k p : is_key k -> is_note p -> prob_emission (model1 tb n') (up k) (transpose_pc t p) = prob_emission (model1 tb n) k p.
  Proof.
    intros Hk Hp. destruct S as [_ _ _ (L1 & L2 & _)]. unfold prob_emission. cbn [model1 h_emissions].
    exact (C06_transposition_proof _ _ _ _ k p t L1 L2 Hk Hp).
  Qed.
  Lemma tr_up n n' a b : is_key a -> is_key b -> prob_transition (model1 tb n') (up a) (up b) = prob_transition (model1 tb n) a b.
  Proof.
    intros Ha Hb. unfold prob_transition. cbn [model1 h_transitions]. rewrite !(transitions_of tb T _ _ (sel_T _ _ _ _ S)).
    apply C10_transpose_proof; try assumption. apply (selects_lengths tb A B T S).
  Qed.
  Lemma in_up n n' a : is_key a -> prob_initial (model1 tb n') (up a) = prob_initial (model1 tb n) a.
  Proof. intros Ha. unfold prob_initial. cbn [model1 h_initial]. rewrite !initial_24; try assumption; [reflexivity|now apply transpose_key_range]. Qed.

  Variable log10 : b64 -> b64.
  Lemma score_up notes path : Forall is_note notes -> is_path (zseq 24) notes path ->
    hscore log10 (model1 tb (upn notes)) (map up path) = hscore log10 (model1 tb notes) path.
  Proof.
    intros Hn [L F]. unfold hscore. change (h_obs (model1 tb (upn notes))) with (upn notes). change (h_obs (model1 tb notes)) with notes.
    set (m' := model1 tb (upn notes)). set (m := model1 tb notes).
    assert (G : forall notes path acc prev, Forall is_note notes -> length path = length notes -> Forall (fun s => In s (zseq 24)) path -> is_key prev ->
      score_from fadd (fun p s o => log10 (fmul (prob_transition m' p s) (prob_emission m' s o))) acc (up prev) (map up path) (upn notes) =
      score_from fadd (fun p s o => log10 (fmul (prob_transition m p s) (prob_emission m s o))) acc prev path notes).
    { clear - S. intros notes' path. revert notes'. induction path as [|s path IH]; intros [|o notes'] acc prev Hn L F Hp; try discriminate; [reflexivity|].
      inversion Hn; inversion F; subst. assert (Hs : is_key s) by now apply In24. cbn [map score_from].
      unfold m', m. rewrite (em_up notes), (tr_up notes) by assumption. fold m' m. apply IH; try assumption. cbn in L. lia. }
    destruct path as [|s path]; destruct notes as [|o notes']; try discriminate; [reflexivity|]. cbn [map path_score].
    inversion Hn; inversion F; subst. assert (Hs : is_key s) by now apply In24.
    rewrite G; try assumption; [|cbn in L; lia]. unfold m' at 1 2, m at 3 4. rewrite (em_up (o :: notes')), (in_up (o :: notes')) by assumption. reflexivity.
  Qed.

  Hypothesis Hlog : log10_ok log10.
  Hypothesis UA : usable A. Hypothesis UB : usable B. Hypothesis UT : usable T.
  Variables iter iter' : layer b64 -> list (Z * node b64).
  Hypothesis Hiter : iteration_order iter.
  Hypothesis Hiter' : iteration_order iter'.

  Lemma up_run notes h : Forall is_note notes -> notes <> [] -> run_viterbi log10 iter (model1 tb notes) = Ret h ->
    exists h', run_viterbi log10 iter' (model1 tb (upn notes)) = Ret h' /\
      (forall s, is_key s -> prob_entry h' (up s) = prob_entry h s) /\ h_maxprob h' = h_maxprob h /\
      exists path, h_keys h' = map key_of_int (map up path) /\ best_path fgt (hscore log10 (model1 tb notes)) (zseq 24) notes path.
  Proof.
    intros Hn Hne E. pose proof (up_notes notes) as Hn'. assert (Hne' : upn notes <> []) by (destruct notes; [contradiction|discriminate]).
    pose proof (model1_proper tb A B T notes S UA UB UT Hn) as P. pose proof (model1_proper tb A B T _ S UA UB UT Hn') as P'.
    destruct (C16_score_proof log10 iter Hiter (model1 tb notes) h eq_refl Hne E) as (p0 & last & _ & Hp0 & He0 & Em & Een & Hgt & _).
    destruct (C15_proof log10 iter Hiter Hlog (model1 tb notes) h eq_refl Hne P E) as (pb & Ekb & Hb).
    assert (C : exists h', run_viterbi log10 iter' (model1 tb (upn notes)) = Ret h').
    { apply (C21_proof log10 iter' Hiter' Hlog (model1 tb (upn notes)) Hne' P').
      assert (X : exists q, is_path (zseq 24) notes q /\ positive_path (model1 tb notes) q).
      { apply (C21_proof log10 iter Hiter Hlog (model1 tb notes) Hne P). now exists h. }
      destruct X as (q & Hq & Pq). exists (map up q). split; [now apply up_path|].
      destruct (hscore_positive log10 Hlog (model1 tb notes) q P Hne Hq) as [[_ G]|[N _]]; [|contradiction].
      destruct (hscore_positive log10 Hlog (model1 tb (upn notes)) (map up q) P' Hne' (up_path _ _ Hq)) as [[Y _]|[_ Z]]; [exact Y|].
      rewrite score_up in Z by assumption. rewrite Z in G. destruct G as (G & _). discriminate. }
    destruct C as (h' & E'). exists h'. split; [exact E'|].
    assert (V := C16_vector_proof log10 iter Hiter Hlog (model1 tb notes) h Hne P E).
    assert (V' := C16_vector_proof log10 iter' Hiter' Hlog (model1 tb (upn notes)) h' Hne' P' E').
    assert (Ent : forall s, is_key s -> prob_entry h' (up s) = prob_entry h s).
    { intros s Hs. destruct (V s (proj2 (In24 s) Hs)) as ((q & Hq & Heq & Eq) & Hmax & _).
      destruct (V' (up s) (proj2 (In24 _) (transpose_key_range t s Hs))) as ((q' & Hq' & Heq' & Eq') & Hmax' & _).
      destruct (down_path notes q' Hq') as (r & -> & Hr).
      assert (Kr : Forall is_key r) by (apply Forall_impl with (2 := proj2 Hr); intros x; apply In24).
      pose proof (down_ends r s Kr Hs Heq') as Her.
      destruct (proper_final_best log10 iter Hiter Hlog (model1 tb notes) s q P Hne Hq Heq) as (G1 & _).
      destruct (proper_final_best log10 iter Hiter Hlog (model1 tb notes) s r P Hne Hr Her) as (G2 & _).
      rewrite score_up in Eq' by assumption. rewrite <- Eq' in *. rewrite <- Eq in *.
      apply good_antisym; try assumption.
      - exact (Hmax r Hr Her).
      - pose proof (Hmax' (map up q) (up_path _ _ Hq) (up_ends _ _ Heq)) as Q. now rewrite score_up in Q. }
    split; [exact Ent|].
    destruct (C16_score_proof log10 iter' Hiter' (model1 tb (upn notes)) h' eq_refl Hne' E') as (p1 & last1 & _ & Hp1 & He1 & Em1 & Een1 & Hgt1 & _).
    destruct (C15_proof log10 iter' Hiter' Hlog (model1 tb (upn notes)) h' eq_refl Hne' P' E') as (pb' & Ekb' & Hb').
    destruct Hb' as [Hpb' Hbest']. destruct (down_path notes pb' Hpb') as (r & -> & Hr).
    assert (Br : best_path fgt (hscore log10 (model1 tb notes)) (zseq 24) notes r).
    { split; [exact Hr|]. intros q Hq. pose proof (Hbest' (map up q) (up_path _ _ Hq)) as Q. now rewrite !score_up in Q by assumption. }
    split; [|exists r; split; assumption].
    destruct (proper_max log10 iter Hiter Hlog (model1 tb notes) h P Hne E) as (m0 & Em0 & Gm0 & _).
    destruct (proper_max log10 iter' Hiter' Hlog (model1 tb (upn notes)) h' P' Hne' E') as (m1 & Em1' & Gm1 & _).
    rewrite Em0, Em1'. rewrite Em0 in Em. rewrite Em1' in Em1. apply Some_inj in Em. apply Some_inj in Em1. f_equal.
    assert (K0 : is_key last) by (apply In24; destruct He0 as (l & X); apply (proj1 (Forall_forall _ _) (proj2 Hp0)); rewrite X; apply in_or_app; right; now left).
    assert (K1 : is_key last1) by (apply In24; destruct He1 as (l & X); apply (proj1 (Forall_forall _ _) (proj2 Hp1)); rewrite X; apply in_or_app; right; now left).
    apply good_antisym; try assumption.
    - pose proof (transpose_key_range (- t) last1 K1) as K1'. destruct (V _ (proj2 (In24 _) K1')) as (_ & _ & Z). specialize (Z _ Em0).
      rewrite <- (Ent _ K1'), transpose_key_inv', Een1, <- Em1 in Z by exact K1. exact Z.
    - pose proof (transpose_key_range t last K0) as K0'. destruct (V' _ (proj2 (In24 _) K0')) as (_ & _ & Z). specialize (Z _ Em1').
      rewrite (Ent _ K0), Een, <- Em in Z. exact Z.
  Qed.
End Transpose.
