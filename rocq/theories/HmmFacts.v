(** Proofs about [run_viterbi] (C14-C17, C19-C21). *)
From Coq Require Import Reals Lra Lia ZifyBool Permutation.
From Flocq Require Import Core.Core IEEE754.BinarySingleNaN.
From Verif Require Import Base BaseFacts Fp FpFacts Key Hmm MusicSpec ViterbiSpec ViterbiFacts HmmSpec.
Open Scope Z_scope.

Lemma fgt_ninf_irrefl : fgt fninf fninf = false.
Proof. reflexivity. Qed.

Section Object.
  Variable log10 : b64 -> b64.
  Variable iter : layer b64 -> list (Z * node b64).
  Hypothesis Hiter : iteration_order iter.

  Notation vit h := (viterbi b64 fgt fadd fmul log10 fninf fzero (h_states h) (h_initial h) (h_transitions h)
                       (h_emissions h) iter).
  Definition hfinal (h : hmm) (s : Z) : b64 :=
    final b64 fgt fadd fmul log10 fninf fzero (h_states h) (h_initial h) (h_transitions h) (h_emissions h) (h_obs h) s.

  Lemma valid_no_neg1 h : Forall is_key (h_states h) -> ~ In (-1) (h_states h).
  Proof. intros H X. pose proof (proj1 (Forall_forall _ _) H _ X) as Y. unfold is_key in Y. lia. Qed.

  Lemma run_general h : h_obs h <> [] -> Forall is_key (h_states h) ->
    (exists path last mp pr,
       run_viterbi log10 iter h = Ret (mkHmm HIDDENMARKOVMODEL_VITERBI_READY (h_obs h) (h_states h) (h_initial h)
           (h_transitions h) (h_emissions h) (Some mp) pr (map key_of_int path ++ rev (h_keys h))) /\
       is_path (h_states h) (h_obs h) path /\ ends_in path last /\ In last (h_states h) /\
       hscore log10 h path = mp /\ fgt mp fninf = true /\ hfinal h last = mp /\ length pr = 24%nat /\
       (forall s d, 0 <= s < 24 -> znth d pr s = if existsb (Z.eqb s) (h_states h) then hfinal h s else fzero))
    \/ (run_viterbi log10 iter h = Throws StdOutOfRange /\
        forall s, In s (h_states h) -> fgt (hfinal h s) fninf = false).
  Proof.
    intros Hne Hv. unfold run_viterbi, hscore, hfinal. destruct (h_obs h) as [|o obs] eqn:Eo; [contradiction|].
    destruct (viterbi_general b64 fgt fadd fmul log10 fninf fzero (h_states h) (h_initial h) (h_transitions h) (h_emissions h)
                fgt_add_ninf fgt_any_ninf iter fgt_ninf_irrefl (valid_no_neg1 h Hv) Hiter o obs (h_keys h) Hv)
      as [(path & last & mp & pr & E & A)|(E & A)].
    - left. exists path, last, mp, pr. rewrite E. cbn [bind]. split; [reflexivity|]. exact A.
    - right. rewrite E. split; [reflexivity|exact A].
  Qed.
  Lemma run_invalid h : h_obs h <> [] -> ~ Forall is_key (h_states h) -> run_viterbi log10 iter h = Undef OutOfBounds.
  Proof.
    intros Hne Hv. unfold run_viterbi. destruct (h_obs h) as [|o obs]; [contradiction|].
    rewrite (viterbi_invalid b64 fgt fadd fmul log10 fninf fzero (h_states h) (h_initial h) (h_transitions h) (h_emissions h) fgt_add_ninf fgt_any_ninf iter Hiter); [reflexivity|exact Hv].
  Qed.
  Lemma run_valid h h' : h_obs h <> [] -> run_viterbi log10 iter h = Ret h' -> Forall is_key (h_states h).
  Proof.
    intros Hne E. destruct (Forall_dec is_key) with (l := h_states h) as [H|H]; [|exact H|].
    - intros x. unfold is_key. destruct (Z_le_dec 0 x); destruct (Z_lt_dec x 24); [left|right|right|right]; lia.
    - rewrite (run_invalid h Hne H) in E. discriminate.
  Qed.

  Lemma C14_proof : forall h h', h_keys h = [] -> h_obs h <> [] -> run_viterbi log10 iter h = Ret h' ->
    exists path, h_keys h' = map key_of_int path /\ is_path (h_states h) (h_obs h) path /\ Forall is_key path /\
                 h_status h' = HIDDENMARKOVMODEL_VITERBI_READY.
  Proof.
    intros h h' Hk Hne E. pose proof (run_valid h h' Hne E) as Hv.
    destruct (run_general h Hne Hv) as [(path & last & mp & pr & E' & Hp & _)|(E' & _)]; [|congruence].
    rewrite E' in E. injection E as <-. exists path. cbn [h_keys h_status]. rewrite Hk, app_nil_r.
    split; [reflexivity|]. split; [exact Hp|]. split; [|reflexivity].
    destruct Hp as [_ Hf]. apply (Forall_impl (P := fun s => In s (h_states h))); [|exact Hf].
    intros s Hs. exact (proj1 (Forall_forall _ _) Hv s Hs).
  Qed.
  Lemma C16_score_proof : forall h h', h_keys h = [] -> h_obs h <> [] -> run_viterbi log10 iter h = Ret h' ->
    exists path last, h_keys h' = map key_of_int path /\ is_path (h_states h) (h_obs h) path /\ ends_in path last /\
      h_maxprob h' = Some (hscore log10 h path) /\ prob_entry h' last = hscore log10 h path /\
      fgt (hscore log10 h path) fninf = true /\ length (h_probs h') = 24%nat /\
      forall s, is_key s -> ~ In s (h_states h) -> prob_entry h' s = fzero.
  Proof.
    intros h h' Hk Hne E. pose proof (run_valid h h' Hne E) as Hv.
    destruct (run_general h Hne Hv) as [(path & last & mp & pr & E' & Hp & He & Hl & Hs & Hg & Hf & Hlen & Hpr)|(E' & _)]; [|congruence].
    rewrite E' in E. injection E as <-. exists path, last. unfold prob_entry. cbn [h_keys h_maxprob h_probs]. rewrite Hk, app_nil_r, Hs.
    split; [reflexivity|]. split; [exact Hp|]. repeat split; try assumption.
    - rewrite Hpr; [|exact (proj1 (Forall_forall _ _) Hv last Hl)]. apply existsb_In in Hl. now rewrite Hl.
    - intros s Hks Hn. rewrite Hpr by exact Hks. destruct (existsb (Z.eqb s) (h_states h)) eqn:X; [|reflexivity].
      apply existsb_In in X. contradiction.
  Qed.

  Lemma C19_proof : forall h, h_obs h = [] -> run_viterbi log10 iter h = Undef OutOfBounds.
  Proof. intros h H. unfold run_viterbi. now rewrite H. Qed.

  (** ** Repeated runs *)
  Lemma run_keys h h' : h_obs h <> [] -> run_viterbi log10 iter h = Ret h' -> 
    forall keys st mp0 pr0, exists path,
      h' = mkHmm HIDDENMARKOVMODEL_VITERBI_READY (h_obs h) (h_states h) (h_initial h) (h_transitions h) (h_emissions h) (h_maxprob h') (h_probs h') (map key_of_int path ++ rev (h_keys h)) /\
      length path = length (h_obs h) /\
      run_viterbi log10 iter (mkHmm st (h_obs h) (h_states h) (h_initial h) (h_transitions h) (h_emissions h) mp0 pr0 keys) =
      Ret (mkHmm HIDDENMARKOVMODEL_VITERBI_READY (h_obs h) (h_states h) (h_initial h) (h_transitions h) (h_emissions h) (h_maxprob h') (h_probs h') (map key_of_int path ++ rev keys)).
  Proof.
    intros Hne E keys st mp0 pr0.
    assert (K : forall ls st mp pr k ks' mp' pr', backtrack b64 fgt iter ls st mp pr k = Ret (ks', mp', pr') ->
       exists ex, ks' = k ++ ex /\ forall k2, backtrack b64 fgt iter ls st mp pr k2 = Ret (k2 ++ ex, mp', pr')).
    { induction ls as [|l ls IH]; intros s mp pr k ks' mp' pr' B; cbn [backtrack] in B.
      - injection B as <- <- <-. exists []. rewrite app_nil_r. split; [reflexivity|]. intros k2. cbn [backtrack]. now rewrite app_nil_r.
      - cbn [backtrack]. destruct (if s =? -1 then scan_last b64 fgt (iter l) s mp pr else Ret (s, mp, pr)) as [[[s1 m1] p1]| |]; cbn [bind] in *; try discriminate.
        destruct (assoc Z.eqb s1 l) as [n|]; [|discriminate]. apply IH in B. destruct B as (ex & -> & B).
        exists (key_of_int s1 :: ex). rewrite <- app_assoc. split; [reflexivity|]. intros k2. rewrite B, <- app_assoc. reflexivity. }
    pose proof (run_valid h h' Hne E) as Hv.
    destruct (run_general h Hne Hv) as [(path & last & mp & pr & E' & Hp & _)|(E' & _)]; [|congruence].
    rewrite E in E'. injection E' as ->. exists path. cbn [h_maxprob h_probs]. split; [reflexivity|]. split; [apply Hp|].
    unfold run_viterbi in *. cbn [h_obs h_states h_initial h_transitions h_emissions h_keys].
    destruct (h_obs h) as [|o obs]; [contradiction|]. cbn [viterbi] in *.
    destruct (backtrack b64 fgt iter _ (-1) fninf (repeat fzero 24) (h_keys h)) as [[[ks m] p]| |] eqn:B; cbn [bind] in E; try discriminate.
    apply K in B. destruct B as (ex & -> & B). injection E as -> -> E. rewrite B. cbn [bind].
    rewrite rev_app_distr in E. apply app_inv_tail in E. rewrite rev_app_distr. now rewrite E.
  Qed.
  Fixpoint repeated_keys (P : list key) (m : nat) : list key :=
    match m with O => [] | S m' => P ++ rev (repeated_keys P m') end.
  Lemma C20_proof : forall h h1, h_keys h = [] -> h_obs h <> [] -> run_viterbi log10 iter h = Ret h1 ->
    forall m, exists hm, runs log10 iter (S m) h = Ret hm /\
      h_maxprob hm = h_maxprob h1 /\ h_probs hm = h_probs h1 /\
      h_keys hm = repeated_keys (h_keys h1) (S m) /\
      length (h_keys hm) = (S m * length (h_obs h))%nat /\ h_obs hm = h_obs h.
  Proof.
    intros h h1 Hk Hne E m.
    assert (L1 : length (h_keys h1) = length (h_obs h)).
    { destruct (C14_proof h h1 Hk Hne E) as (path & -> & [Hl _] & _). now rewrite map_length. }
    assert (L : forall j, length (repeated_keys (h_keys h1) j) = (j * length (h_obs h))%nat).
    { induction j as [|j IH]; [reflexivity|]. cbn [repeated_keys]. rewrite app_length, rev_length, IH, L1. reflexivity. }
    assert (K1 : exists path, h_keys h1 = map key_of_int path /\ h1 = mkHmm HIDDENMARKOVMODEL_VITERBI_READY (h_obs h) (h_states h) (h_initial h) (h_transitions h) (h_emissions h) (h_maxprob h1) (h_probs h1) (map key_of_int path)).
    { destruct (run_keys h h1 Hne E [] 0 None []) as (path & Eh & _). rewrite Hk in Eh. cbn [rev] in Eh. rewrite app_nil_r in Eh.
      exists path. split; [rewrite Eh; reflexivity|exact Eh]. }
    destruct K1 as (path & Ek & E1).
    assert (R : runs log10 iter (S m) h = Ret (mkHmm HIDDENMARKOVMODEL_VITERBI_READY (h_obs h) (h_states h) (h_initial h) (h_transitions h) (h_emissions h) (h_maxprob h1) (h_probs h1) (repeated_keys (h_keys h1) (S m)))).
    { induction m as [|m IH].
      - cbn [runs bind repeated_keys rev]. rewrite app_nil_r, Ek, E. now rewrite E1 at 1.
      - change (runs log10 iter (S (S m)) h) with (do h' <- runs log10 iter (S m) h; run_viterbi log10 iter h').
        rewrite IH. cbn [bind].
        destruct (run_keys h h1 Hne E (repeated_keys (h_keys h1) (S m)) HIDDENMARKOVMODEL_VITERBI_READY (h_maxprob h1) (h_probs h1)) as (path' & Eh & _ & Er).
        rewrite Er. f_equal. f_equal. change (repeated_keys (h_keys h1) (S (S m))) with (h_keys h1 ++ rev (repeated_keys (h_keys h1) (S m))).
        f_equal. rewrite Hk in Eh. cbn [rev] in Eh. rewrite app_nil_r in Eh. rewrite Eh at 1. reflexivity. }
    exists (mkHmm HIDDENMARKOVMODEL_VITERBI_READY (h_obs h) (h_states h) (h_initial h) (h_transitions h) (h_emissions h) (h_maxprob h1) (h_probs h1) (repeated_keys (h_keys h1) (S m))).
    cbn [h_maxprob h_probs h_keys h_obs]. repeat split; try assumption. apply L.
  Qed.
  Lemma C20_differs_proof : forall h h1 h2, h_keys h = [] -> h_obs h <> [] -> run_viterbi log10 iter h = Ret h1 ->
    run_viterbi log10 iter h1 = Ret h2 ->
    h_keys h2 = h_keys h1 ++ rev (h_keys h1) /\ h_keys h2 <> h_keys h1.
  Proof.
    intros h h1 h2 Hk Hne E E2. destruct (C20_proof h h1 Hk Hne E 1) as (hm & R & _ & _ & K & L & _).
    cbn [runs bind] in R. rewrite E in R. cbn [bind] in R. rewrite E2 in R. injection R as <-.
    cbn [repeated_keys rev] in K. rewrite app_nil_r in K. split; [exact K|]. intros X.
    destruct (C14_proof h h1 Hk Hne E) as (path & Ep & [Hl _] & _).
    rewrite X, Ep, map_length in L. destruct (h_obs h); [contradiction|]. cbn [length] in *. lia.
  Qed.

  (** ** Proper models *)
  Hypothesis Hlog : log10_ok log10.

  Lemma proper_start h : proper h -> forall s o, In s (h_states h) -> In o (h_obs h) ->
    goodw (start_weight b64 fmul log10 fzero (h_initial h) (h_emissions h) s o).
  Proof.
    intros [_ Hp] s o Hs Ho. destruct (Hp s o Hs Ho) as (He & Hi & Hf & _).
    apply (log10_goodw log10 _ Hlog). apply fmul_nonneg; assumption.
  Qed.
  Lemma proper_step h : proper h -> forall p s o, In p (h_states h) -> In s (h_states h) -> In o (h_obs h) ->
    goodw (step_weight b64 fmul log10 fzero (h_transitions h) (h_emissions h) p s o).
  Proof.
    intros [_ Hp] p s o Hpp Hs Ho. destruct (Hp s o Hs Ho) as (He & _ & _ & Ht). destruct (Ht p Hpp) as [Ht1 Ht2].
    apply (log10_goodw log10 _ Hlog). apply fmul_nonneg; assumption.
  Qed.
  Lemma obs_self (h : hmm) : Forall (fun o => In o (h_obs h)) (h_obs h).
  Proof. now apply Forall_forall. Qed.

  Lemma proper_final_best h s path : proper h -> h_obs h <> [] -> is_path (h_states h) (h_obs h) path -> ends_in path s ->
    good (hscore log10 h path) /\ good (hfinal h s) /\ fgt (hscore log10 h path) (hfinal h s) = false.
  Proof.
    intros Hp Hne Hpath He. unfold hscore, hfinal. pose proof (obs_self h) as Ho.
    pose proof (proper_start h Hp) as H1. pose proof (proper_step h Hp) as H2.
    destruct (h_obs h) as [|o obs] eqn:Eo; [contradiction|].
    exact (final_best b64 fgt fadd fmul log10 fninf fzero (h_states h) (h_initial h) (h_transitions h) (h_emissions h)
      fgt_add_ninf fgt_any_ninf iter Hiter good goodw good_ninf goodw_good good_add good_le_trans good_gt_asym good_antisym
      good_le_add good_ninf_least (fun o' => In o' (o :: obs)) H1 H2 o obs s path Ho Hpath He).
  Qed.
  Lemma proper_final_attained h s : proper h -> h_obs h <> [] -> In s (h_states h) ->
    exists path, is_path (h_states h) (h_obs h) path /\ ends_in path s /\ hscore log10 h path = hfinal h s.
  Proof.
    intros Hp Hne Hs. unfold hscore, hfinal. pose proof (obs_self h) as Ho.
    pose proof (proper_start h Hp) as H1. pose proof (proper_step h Hp) as H2.
    pose proof (valid_no_neg1 h (proj1 Hp)) as Hn.
    destruct (h_obs h) as [|o obs] eqn:Eo; [contradiction|].
    exact (final_attained b64 fgt fadd fmul log10 fninf fzero (h_states h) (h_initial h) (h_transitions h) (h_emissions h)
      fgt_add_ninf fgt_any_ninf iter fgt_ninf_irrefl Hn Hiter good goodw good_ninf goodw_good good_add good_le_trans good_gt_asym good_antisym
      good_le_add good_ninf_least (fun o' => In o' (o :: obs)) H1 H2 o obs s Ho Hs).
  Qed.
  Lemma proper_max h h' : proper h -> h_obs h <> [] -> run_viterbi log10 iter h = Ret h' ->
    exists mp, h_maxprob h' = Some mp /\ good mp /\ forall s, In s (h_states h) -> fgt (hfinal h s) mp = false.
  Proof.
    intros Hp Hne E. unfold run_viterbi, hfinal in *. pose proof (obs_self h) as Ho.
    pose proof (proper_start h Hp) as H1. pose proof (proper_step h Hp) as H2.
    pose proof (valid_no_neg1 h (proj1 Hp)) as Hn.
    destruct (h_obs h) as [|o obs] eqn:Eo; [contradiction|].
    destruct (vit h (o :: obs) (h_keys h)) as [[[ks mp] pr]| |] eqn:Ev; cbn [bind] in E; try discriminate.
    injection E as <-. exists mp. split; [reflexivity|].
    exact (viterbi_max b64 fgt fadd fmul log10 fninf fzero (h_states h) (h_initial h) (h_transitions h) (h_emissions h)
      fgt_add_ninf fgt_any_ninf iter fgt_ninf_irrefl Hn Hiter good goodw good_ninf goodw_good good_add good_le_trans good_gt_asym
      good_antisym good_le_add good_ninf_least (fun o' => In o' (o :: obs)) H1 H2 o obs (h_keys h) ks mp pr Ho Ev).
  Qed.

  Lemma C15_proof : forall h h', h_keys h = [] -> h_obs h <> [] -> proper h -> run_viterbi log10 iter h = Ret h' ->
    exists path, h_keys h' = map key_of_int path /\ best_path fgt (hscore log10 h) (h_states h) (h_obs h) path.
  Proof.
    intros h h' Hk Hne Hp E. pose proof (proj1 Hp) as Hv.
    destruct (proper_max h h' Hp Hne E) as (m & Em & Gm & Hm).
    destruct (run_general h Hne Hv) as [(path & last & mp & pr & E' & Hpath & He & Hl & Hs & Hg & Hf & Hlen & Hpr)|(E' & _)]; [|congruence].
    rewrite E' in E. injection E as <-. cbn [h_maxprob] in Em. injection Em as ->. exists path. cbn [h_keys].
    rewrite Hk, app_nil_r. split; [reflexivity|]. split; [exact Hpath|]. intros q Hq.
    destruct (path_last (h_states h) (h_obs h) q Hq Hne) as (s & Hes & Hins).
    destruct (proper_final_best h s q Hp Hne Hq Hes) as (A & B & C).
    rewrite Hs. now apply (good_le_trans _ (hfinal h s)); try assumption; apply Hm.
  Qed.
  Lemma C16_vector_proof : forall h h', h_obs h <> [] -> proper h -> run_viterbi log10 iter h = Ret h' ->
    forall s, In s (h_states h) ->
      (exists path, is_path (h_states h) (h_obs h) path /\ ends_in path s /\ hscore log10 h path = prob_entry h' s) /\
      (forall path, is_path (h_states h) (h_obs h) path -> ends_in path s -> fgt (hscore log10 h path) (prob_entry h' s) = false) /\
      (forall mp, h_maxprob h' = Some mp -> fgt (prob_entry h' s) mp = false).
  Proof.
    intros h h' Hne Hp E s Hs. pose proof (proj1 Hp) as Hv.
    destruct (proper_max h h' Hp Hne E) as (m & Em & Gm & Hm).
    destruct (run_general h Hne Hv) as [(path & last & mp & pr & E' & Hpath & He & Hl & Hsc & Hg & Hf & Hlen & Hpr)|(E' & _)]; [|congruence].
    rewrite E' in E. injection E as <-. cbn [h_maxprob] in *. injection Em as ->.
    assert (Q : prob_entry (mkHmm HIDDENMARKOVMODEL_VITERBI_READY (h_obs h) (h_states h) (h_initial h) (h_transitions h) (h_emissions h) (Some m) pr (map key_of_int path ++ rev (h_keys h))) s = hfinal h s).
    { unfold prob_entry. cbn [h_probs]. rewrite Hpr by exact (proj1 (Forall_forall _ _) Hv s Hs).
      assert (X : existsb (Z.eqb s) (h_states h) = true) by now apply existsb_In. now rewrite X. }
    rewrite Q. split; [now apply proper_final_attained|]. split.
    - intros q Hq Hes. now apply proper_final_best.
    - intros mp' X. injection X as <-. now apply Hm.
  Qed.

  (** ** Positive paths *)
  Lemma weight_cases x : probability x -> (0 < B2R x)%R /\ fin_weight (log10 x) \/ B2R x = 0%R /\ log10 x = fninf.
  Proof.
    intros [F P]. destruct (Rle_lt_or_eq_dec 0 (B2R x) P) as [H|H].
    - left. split; [exact H|]. now apply (log10_pos log10 Hlog).
    - right. split; [now symmetry|]. now apply (log10_zero log10 Hlog).
  Qed.
  Lemma score_from_ninf h : proper h -> forall path obs prev, length path = length obs ->
    Forall (fun s => In s (h_states h)) path -> (forall o, In o obs -> In o (h_obs h)) ->
    score_from fadd (fun p s o => log10 (fmul (prob_transition h p s) (prob_emission h s o))) fninf prev path obs = fninf \/ ~ In prev (h_states h).
  Proof.
    intros Hp path. induction path as [|s path IH]; intros [|o obs] prev Hl Hf Ho; try discriminate; [now left|].
    inversion Hf as [|? ? Hs Hf']; subst. destruct (in_dec Z.eq_dec prev (h_states h)) as [Hin|Hin]; [left|now right].
    cbn [score_from]. destruct (proj2 Hp s o Hs (Ho o ltac:(now left))) as (He & _ & _ & Ht). destruct (Ht prev Hin) as [Ht1 Ht2].
    rewrite fadd_ninf_l_good by (apply (log10_goodw log10 _ Hlog); now apply fmul_nonneg).
    destruct (IH obs s ltac:(cbn in Hl; lia) Hf' ltac:(intros; apply Ho; now right)) as [X|X]; [exact X|contradiction].
  Qed.
  Lemma score_from_positive h : proper h -> forall path obs prev acc, length path = length obs ->
    Forall (fun s => In s (h_states h)) path -> (forall o, In o obs -> In o (h_obs h)) -> In prev (h_states h) -> fin_score acc ->
    let r := score_from fadd (fun p s o => log10 (fmul (prob_transition h p s) (prob_emission h s o))) acc prev path obs in
    (steps_positive h prev path obs /\ fin_score r) \/ (~ steps_positive h prev path obs /\ r = fninf).
  Proof.
    intros Hp path. induction path as [|s path IH]; intros [|o obs] prev acc Hl Hf Ho Hin Ga; try discriminate; cbv zeta.
    - left. split; [exact I|exact Ga].
    - inversion Hf as [|? ? Hs Hf']; subst. cbn [score_from steps_positive].
      destruct (proj2 Hp s o Hs (Ho o ltac:(now left))) as (He & _ & _ & Ht). destruct (Ht prev Hin) as [Ht1 Ht2].
      destruct (weight_cases (fmul (prob_transition h prev s) (prob_emission h s o))) as [[Hpos Hw]|[Hz Hw]]; [now apply fmul_nonneg| |].
      + destruct (IH obs s (fadd acc (log10 (fmul (prob_transition h prev s) (prob_emission h s o)))) ltac:(cbn in Hl; lia) Hf' ltac:(intros; apply Ho; now right) Hs ltac:(now apply fadd_fin)) as [[A B]|[A B]].
        * left. repeat split; assumption || apply B.
        * right. split; [|exact B]. intros [_ X]. contradiction.
      + right. split; [intros [X _]; rewrite Hz in X; lra|]. rewrite Hw. rewrite fadd_ninf_r by now right.
        destruct (score_from_ninf h Hp path obs s ltac:(cbn in Hl; lia) Hf' ltac:(intros; apply Ho; now right)) as [X|X]; [exact X|contradiction].
  Qed.
  Lemma hscore_positive h path : proper h -> h_obs h <> [] -> is_path (h_states h) (h_obs h) path ->
    (positive_path h path /\ fin_score (hscore log10 h path)) \/ (~ positive_path h path /\ hscore log10 h path = fninf).
  Proof.
    intros Hp Hne [Hl Hf]. unfold hscore, positive_path. 
    assert (Ho : forall o, In o (h_obs h) -> In o (h_obs h)) by auto.
    destruct (h_obs h) as [|o obs] eqn:Eo; [contradiction|].
    destruct path as [|s path]; [discriminate|]. inversion Hf as [|? ? Hs Hf']; subst. cbn [path_score].
    rewrite <- Eo in Ho. destruct (proj2 Hp s o Hs ltac:(rewrite Eo; now left)) as (He & Hi & Hm & _).
    assert (Ho' : forall o', In o' obs -> In o' (h_obs h)) by (intros; rewrite Eo; now right).
    destruct (weight_cases (fmul (prob_initial h s) (prob_emission h s o))) as [[Hpos Hw]|[Hz Hw]]; [now apply fmul_nonneg| |].
    - destruct (score_from_positive h Hp path obs s _ ltac:(cbn in Hl; lia) Hf' Ho' Hs (fin_weight_score _ Hw)) as [[A B]|[A B]].
      + left. repeat split; assumption || apply B.
      + right. split; [|exact B]. intros [_ X]. contradiction.
    - right. split; [intros [X _]; rewrite Hz in X; lra|]. rewrite Hw.
      destruct (score_from_ninf h Hp path obs s ltac:(cbn in Hl; lia) Hf' Ho') as [X|X]; [exact X|contradiction].
  Qed.

  Lemma C21_cases_proof : forall h, h_obs h <> [] -> Forall is_key (h_states h) ->
    (exists h', run_viterbi log10 iter h = Ret h') \/ run_viterbi log10 iter h = Throws StdOutOfRange.
  Proof.
    intros h Hne Hv. destruct (run_general h Hne Hv) as [(path & last & mp & pr & E & _)|(E & _)]; [left; eexists; exact E|now right].
  Qed.
  Lemma C21_proof : forall h, h_obs h <> [] -> proper h ->
    ((exists h', run_viterbi log10 iter h = Ret h') <-> exists path, is_path (h_states h) (h_obs h) path /\ positive_path h path) /\
    (run_viterbi log10 iter h = Throws StdOutOfRange <-> forall path, is_path (h_states h) (h_obs h) path -> ~ positive_path h path).
  Proof.
    intros h Hne Hp. pose proof (proj1 Hp) as Hv.
    destruct (run_general h Hne Hv) as [(path & last & mp & pr & E & Hpath & He & Hl & Hs & Hg & _)|(E & Hno)].
    - assert (P : positive_path h path).
      { destruct (hscore_positive h path Hp Hne Hpath) as [[A _]|[_ B]]; [exact A|]. rewrite Hs in B. rewrite B, fgt_ninf_l in Hg. discriminate. }
      rewrite E. split; split; intros H.
      + now exists path.
      + eexists. reflexivity.
      + discriminate.
      + exfalso. now apply (H path).
    - assert (N : forall path, is_path (h_states h) (h_obs h) path -> ~ positive_path h path).
      { intros path Hpath Hpos. destruct (hscore_positive h path Hp Hne Hpath) as [[_ A]|[A _]]; [|contradiction].
        destruct (path_last (h_states h) (h_obs h) path Hpath Hne) as (s & Hes & Hins).
        destruct (proper_final_best h s path Hp Hne Hpath Hes) as (B & C & Dd).
        specialize (Hno s Hins). destruct C as [C|C].
        - rewrite C in Dd. rewrite fgt_ninf_r in Dd by apply A. discriminate.
        - rewrite fgt_ninf_r in Hno by apply C. discriminate. }
      rewrite E. split; split; intros H.
      + destruct H as (h' & X). discriminate.
      + destruct H as (path & A & B). exfalso. now apply (N path).
      + exact N.
      + reflexivity.
  Qed.
End Object.
