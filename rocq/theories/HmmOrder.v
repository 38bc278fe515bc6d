(** How the result depends on the iteration order of the hash table (C17). *)
From Coq Require Import Reals Lra Lia ZifyBool Permutation.
From Flocq Require Import Core.Core IEEE754.BinarySingleNaN.
From Verif Require Import Base BaseFacts Fp FpFacts Key Hmm MusicSpec ViterbiSpec ViterbiFacts HmmSpec HmmFacts.
Open Scope Z_scope.

(** The order that visits state [s] first. *)
Definition front (s : Z) (l : layer b64) : list (Z * node b64) :=
  filter (fun e => fst e =? s) l ++ filter (fun e => negb (fst e =? s)) l.
Lemma front_order s : iteration_order (front s).
Proof.
  intros l. unfold front. induction l as [|[k n] l IH]; [constructor|]. cbn [filter fst].
  destruct (k =? s); cbn [negb app].
  - now constructor.
  - rewrite <- Permutation_middle. now constructor.
Qed.
Lemma front_first s l n : assoc Z.eqb s l = Some n -> exists rest, front s l = (s, n) :: rest.
Proof.
  unfold front. induction l as [|[k m] l IH]; cbn [assoc filter fst]; [discriminate|].
  destruct (Z.eqb_spec s k) as [->|Hn].
  - intros E. injection E as ->. rewrite Z.eqb_refl. cbn [app]. eexists. reflexivity.
  - intros E. replace (k =? s) with false by lia. destruct (IH E) as [rest Er]. cbn [negb].
    destruct (filter (fun e => fst e =? s) l) as [|e es] eqn:F.
    + exfalso. apply (assoc_In _ Zeqb_spec') in E. assert (X : In (s, n) (filter (fun e => fst e =? s) l)) by (apply filter_In; split; [exact E|cbn; lia]).
      rewrite F in X. contradiction.
    + cbn [app] in *. injection Er as -> <-. eexists. reflexivity.
Qed.

Section Orders.
  Variable log10 : b64 -> b64.
  Hypothesis Hlog : log10_ok log10.

  Definition hkept (h : hmm) (s : Z) : list Z :=
    kept_path b64 fgt fadd fmul log10 fninf fzero (h_states h) (h_initial h) (h_transitions h) (h_emissions h) (h_obs h) s.
  Definition hlast (h : hmm) : layer b64 :=
    final_layer b64 fgt fadd fmul log10 fninf fzero (h_states h) (h_initial h) (h_transitions h) (h_emissions h) (h_obs h).
  Lemma run_kept iter h h' : iteration_order iter -> h_obs h <> [] -> run_viterbi log10 iter h = Ret h' ->
    exists st mp, scan_last b64 fgt (iter (hlast h)) (-1) fninf (repeat fzero 24) = Ret (st, mp, h_probs h') /\
      In st (h_states h) /\ hfinal log10 h st = mp /\ h_maxprob h' = Some mp /\ fgt mp fninf = true /\
      h_keys h' = map key_of_int (hkept h st) ++ rev (h_keys h).
  Proof.
    intros Hi Hne E. pose proof (run_valid log10 iter Hi h h' Hne E) as Hv. unfold run_viterbi, hfinal, hkept, hlast in *.
    destruct (h_obs h) as [|o obs]; [contradiction|].
    destruct (viterbi b64 fgt fadd fmul log10 fninf fzero (h_states h) (h_initial h) (h_transitions h) (h_emissions h) iter (o :: obs) (h_keys h))
      as [[[ks mp] pr]| |] eqn:Ev; cbn [bind] in E; try discriminate.
    injection E as <-. cbn [h_probs h_maxprob h_keys].
    destruct (viterbi_kept b64 fgt fadd fmul log10 fninf fzero (h_states h) (h_initial h) (h_transitions h) (h_emissions h)
      fgt_add_ninf fgt_any_ninf iter fgt_ninf_irrefl (valid_no_neg1 h Hv) Hi o obs (h_keys h) ks mp pr Hv Ev) as (st & A & B & C & D0 & F).
    exists st, mp. repeat split; assumption.
  Qed.
  Lemma hlast_node h s : h_obs h <> [] -> In s (h_states h) -> exists n, assoc Z.eqb s (hlast h) = Some n /\ fst n = hfinal log10 h s.
  Proof.
    intros Hne Hs. unfold hlast, hfinal, final, final_layer. destruct (h_obs h) as [|o obs]; [contradiction|].
    destruct (chain_ok _ _ _ _ _ _ _ _ _ _ _ _ _ (viterbi_chain b64 fgt fadd fmul log10 fninf fzero (h_states h) (h_initial h) (h_transitions h) (h_emissions h) o obs))
      as (l & ls' & E & Hok & _). rewrite E. cbn [hd].
    apply (proj2 Hok) in Hs. apply (assoc_Some_In _ Zeqb_spec') in Hs. destruct Hs as [n En]. exists n. split; [exact En|].
    now rewrite (at_layer_some b64 fninf l s n En).
  Qed.
  Lemma hkept_ends h s : h_obs h <> [] -> In s (h_states h) -> ends_in (hkept h s) s.
  Proof.
    intros Hne Hs. destruct (hlast_node h s Hne Hs) as (n & En & _). unfold hlast, hkept, final_layer, kept_path in *.
    destruct (h_obs h) as [|o obs]; [contradiction|].
    destruct (chain_ok _ _ _ _ _ _ _ _ _ _ _ _ _ (viterbi_chain b64 fgt fadd fmul log10 fninf fzero (h_states h) (h_initial h) (h_transitions h) (h_emissions h) o obs))
      as (l & ls' & E & Hok & _). rewrite E in *. cbn [hd] in En. cbn [trace]. rewrite En. eexists. reflexivity.
  Qed.

  Lemma final_good' h s : proper h -> h_obs h <> [] -> In s (h_states h) -> good (hfinal log10 h s).
  Proof.
    intros Hp Hne Hs. destruct (constant_path (h_states h) (h_obs h) s Hs Hne) as [A B].
    apply (proper_final_best log10 (fun l => l) (fun l => Permutation_refl l) Hlog h s _ Hp Hne A B).
  Qed.

  Lemma C17_same_proof : forall iter1 iter2 h h1, iteration_order iter1 -> iteration_order iter2 ->
    h_obs h <> [] -> proper h -> run_viterbi log10 iter1 h = Ret h1 ->
    exists h2, run_viterbi log10 iter2 h = Ret h2 /\ h_maxprob h2 = h_maxprob h1 /\ h_probs h2 = h_probs h1 /\
      ((forall s t, In s (h_states h) -> In t (h_states h) -> Some (prob_entry h1 s) = h_maxprob h1 ->
                    Some (prob_entry h1 t) = h_maxprob h1 -> s = t) -> h_keys h2 = h_keys h1).
  Proof.
    intros iter1 iter2 h h1 H1 H2 Hne Hp E1. pose proof (proj1 Hp) as Hv.
    assert (X : exists h2, run_viterbi log10 iter2 h = Ret h2).
    { apply (C21_proof log10 iter2 H2 Hlog h Hne Hp). apply (C21_proof log10 iter1 H1 Hlog h Hne Hp). now exists h1. }
    destruct X as [h2 E2]. exists h2. split; [exact E2|].
    destruct (run_kept iter1 h h1 H1 Hne E1) as (s1 & m1 & S1 & I1 & F1 & M1 & G1 & K1).
    destruct (run_kept iter2 h h2 H2 Hne E2) as (s2 & m2 & S2 & I2 & F2 & M2 & G2 & K2).
    destruct (proper_max log10 iter1 H1 Hlog h h1 Hp Hne E1) as (m1' & M1' & Q1 & B1). rewrite M1 in M1'. injection M1' as <-.
    destruct (proper_max log10 iter2 H2 Hlog h h2 Hp Hne E2) as (m2' & M2' & Q2 & B2). rewrite M2 in M2'. injection M2' as <-.
    assert (m2 = m1).
    { apply good_antisym; try assumption; [rewrite <- F2; now apply B1|rewrite <- F1; now apply B2]. }
    subst m2.
    assert (P : forall iter hh, iteration_order iter -> run_viterbi log10 iter h = Ret hh -> length (h_probs hh) = 24%nat /\
       forall s d, 0 <= s < 24 -> znth d (h_probs hh) s = if existsb (Z.eqb s) (h_states h) then hfinal log10 h s else fzero).
    { intros iter hh Hi E. destruct (run_general log10 iter Hi h Hne Hv) as [(path & last & mp & pr & E' & A)|(E' & _)]; [|congruence].
      rewrite E in E'. injection E' as ->. cbn [h_probs]. split; apply A. }
    destruct (P _ _ H1 E1) as [L1 P1]. destruct (P _ _ H2 E2) as [L2 P2].
    split; [congruence|]. split.
    - apply (nth_ext _ _ fzero fzero); [congruence|]. intros n Hn. rewrite L2 in Hn.
      pose proof (P1 (Z.of_nat n) fzero ltac:(lia)) as A. pose proof (P2 (Z.of_nat n) fzero ltac:(lia)) as B.
      unfold znth in A, B. rewrite Nat2Z.id in A, B. congruence.
    - intros U. rewrite K1, K2. do 3 f_equal. apply U; try assumption; unfold prob_entry.
      + rewrite P1 by exact (proj1 (Forall_forall _ _) Hv s2 I2). apply existsb_In in I2. rewrite I2. congruence.
      + rewrite P1 by exact (proj1 (Forall_forall _ _) Hv s1 I1). apply existsb_In in I1. rewrite I1. congruence.
  Qed.

  Lemma C17_tie_proof : forall iter h h1, iteration_order iter ->
    h_keys h = [] -> h_obs h <> [] -> proper h -> run_viterbi log10 iter h = Ret h1 ->
    forall s, In s (h_states h) -> Some (prob_entry h1 s) = h_maxprob h1 ->
    exists iter' h' path, iteration_order iter' /\ run_viterbi log10 iter' h = Ret h' /\
      h_keys h' = map key_of_int path /\ ends_in path s.
  Proof.
    intros iter h h1 Hi Hk Hne Hp E1 s Hs Hm. pose proof (proj1 Hp) as Hv.
    destruct (C17_same_proof iter (front s) h h1 Hi (front_order s) Hne Hp E1) as (h2 & E2 & M & P & _).
    exists (front s), h2, (hkept h s). split; [apply front_order|]. split; [exact E2|].
    split; [|now apply hkept_ends].
    destruct (run_kept (front s) h h2 (front_order s) Hne E2) as (s2 & m2 & S2 & I2 & F2 & M2 & G2 & K2).
    rewrite K2, Hk. cbn [rev]. rewrite app_nil_r. do 2 f_equal.
    destruct (proper_max log10 (front s) (front_order s) Hlog h h2 Hp Hne E2) as (m2' & M2' & Q2 & B2). rewrite M2 in M2'. injection M2' as <-.
    destruct (hlast_node h s Hne Hs) as (n & En & Fn). destruct (front_first s _ n En) as [rest Er]. 
    assert (Fs : fst n = m2).
    { rewrite Fn. assert (Some (hfinal log10 h s) = Some m2); [|congruence]. rewrite <- M2, M, <- Hm. f_equal.
      destruct (run_general log10 iter Hi h Hne Hv) as [(path & last & mp & pr & E' & A)|(E' & _)]; [|congruence].
      rewrite E1 in E'. injection E' as ->. unfold prob_entry. cbn [h_probs].
      destruct A as (_ & _ & _ & _ & _ & _ & _ & A). rewrite A by exact (proj1 (Forall_forall _ _) Hv s Hs).
      apply existsb_In in Hs. now rewrite Hs. }
    rewrite Er in S2. cbn [scan_last] in S2. destruct (write_prob b64 (repeat fzero 24) s (fst n)); cbn [bind] in S2; try discriminate.
    rewrite Fs, G2 in S2. apply (scan_last_stay b64 fgt) in S2; [exact S2|].
    intros [t k] He. cbn [snd fst].
    assert (In (t, k) (front s (hlast h))) as He' by (rewrite Er; now right).
    apply (Permutation_in _ (front_order s _)) in He'.
    assert (exists n', assoc Z.eqb t (hlast h) = Some n' /\ n' = k /\ In t (h_states h)) as (n' & _ & -> & Ht).
    { unfold hlast, final_layer in *. destruct (h_obs h) as [|o obs]; [contradiction|].
      destruct (chain_ok _ _ _ _ _ _ _ _ _ _ _ _ _ (viterbi_chain b64 fgt fadd fmul log10 fninf fzero (h_states h) (h_initial h) (h_transitions h) (h_emissions h) o obs))
        as (l & ls' & E & Hok & _). rewrite E in *. cbn [hd] in *.
      exists k. split; [apply (NoDup_assoc _ Zeqb_spec'); [apply Hok|exact He']|]. split; [reflexivity|].
      apply (proj2 Hok). apply in_map_iff. now exists (t, k). }
    destruct (hlast_node h t Hne Ht) as (k' & Ek & Fk).
    assert (assoc Z.eqb t (hlast h) = Some k) as Ek'.
    { unfold hlast, final_layer in *. destruct (h_obs h) as [|o obs]; [contradiction|].
      destruct (chain_ok _ _ _ _ _ _ _ _ _ _ _ _ _ (viterbi_chain b64 fgt fadd fmul log10 fninf fzero (h_states h) (h_initial h) (h_transitions h) (h_emissions h) o obs))
        as (l & ls' & E & Hok & _). rewrite E in *. cbn [hd] in *. apply (NoDup_assoc _ Zeqb_spec'); [apply Hok|exact He']. }
    rewrite Ek in Ek'. injection Ek' as ->. rewrite Fk. now apply B2.
  Qed.
End Orders.
