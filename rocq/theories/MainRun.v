(** Proofs about a whole run of the detector, from the notes of a file to what is printed. *)
From Coq Require Import Lia Lra Reals Ascii.
From Flocq Require Import Core.Core IEEE754.BinarySingleNaN.
From Verif Require Import Base BaseFacts Fp FpFacts Key PitchClass KeyProfile KeyTransition Hmm Pipeline Text Options Output Chromagram Midi Main.
From Verif Require Import MusicSpec TextSpec TextFacts MainSpec MainFacts OutputFacts OptionFacts ViterbiSpec HmmSpec HmmFacts NumFacts ProfileFacts TransitionFacts PipelineSpec PipelineFacts TableCheck EnsembleRun RunSpec.
Open Scope Z_scope.

Lemma concat_cons s l : String.concat "" (s :: l) = (s ++ String.concat "" l)%string.
Proof. cbn [String.concat]. destruct l; [|reflexivity]. cbn [String.concat]. now rewrite app_string_nil. Qed.
Lemma scores_line_eq l : print_probabilities l = scores_line l.
Proof.
  unfold print_probabilities, scores_line. change (String (ascii_of_nat 10) "") with nl. generalize nl. intros n. induction l as [|x l IH]; [reflexivity|]. cbn [fold_right map]. rewrite IH, concat_cons, !app_string_assoc. reflexivity.
Qed.
Lemma follows_eq T j k : length T = 24%nat -> is_key j -> is_key k -> transition T j k = follows T j k.
Proof. intros L J K. exact (C10_entry_proof T j k L J K). Qed.
Lemma piece_score_eq log10 T locals J : length T = 24%nat -> Forall is_key locals -> is_key J -> global_score log10 T locals J = piece_score log10 T locals J.
Proof.
  intros L H HJ. destruct H as [|k0 ks H0 H]; [reflexivity|]. cbn [global_score piece_score]. rewrite (follows_eq T J k0 L HJ H0). generalize (log10 (fmul (rat64 1 24) (follows T J k0))). induction H as [|k ks Hk H IH]; intros acc; [reflexivity|]. cbn [fold_left]. rewrite (follows_eq T J k L HJ Hk). apply IH.
Qed.
Lemma fits_eq tb A B T k p : selects tb A B T -> is_key k -> is_note p -> at2 b64 fzero (main_emissions tb) k p = fits A B k p.
Proof. intros [SA SB _ (L1 & L2 & _)] K P. exact (C06_emission_proof (tb_major tb) (tb_minor tb) (tb_major_custom tb) (tb_minor_custom tb) A B k p L1 L2 SA SB K P). Qed.
Lemma local_score_eq log10 tb A B T notes path : selects tb A B T -> Forall is_note notes -> Forall is_key path -> hscore log10 (model1 tb notes) path = local_score log10 A B T notes path.
Proof.
  intros S N P. destruct (selects_lengths tb A B T S) as (_ & _ & LT). unfold hscore, local_score. cbn [model1 h_obs]. destruct P as [|k0 path K0 P]; [reflexivity|]. destruct N as [|p0 notes N0 N]; [reflexivity|]. cbn [path_score].
  unfold prob_initial, prob_emission, prob_transition. cbn [model1 h_initial h_emissions h_transitions]. rewrite initial_24 by exact K0. rewrite (fits_eq tb A B T k0 p0 S K0 N0). generalize (log10 (fmul (rat64 1 24) (fits A B k0 p0))). clear N0.
  revert k0 K0 notes N. induction P as [|k path Hk P IH]; intros k0 K0 notes N acc; [now destruct notes|]. destruct N as [|p notes Hp N]; [reflexivity|]. cbn [score_from]. rewrite (fits_eq tb A B T k p S Hk Hp), (transitions_of tb T k0 k (sel_T _ _ _ _ S)), (follows_eq T k0 k LT K0 Hk). now apply IH.
Qed.
Lemma key_of_int_inj j k : is_key j -> is_key k -> key_of_int j = key_of_int k -> j = k.
Proof. intros J K E. apply (f_equal kint) in E. rewrite !kint_key in E by assumption. now apply Some_inj in E. Qed.
Lemma keys_of_ints js : forall ks, Forall is_key js -> Forall is_key ks -> map key_of_int js = map key_of_int ks -> js = ks.
Proof.
  induction js as [|j js IH]; intros [|k ks] J K E; try discriminate E; [reflexivity|]. apply Forall_cons_iff in J as (J0 & J). apply Forall_cons_iff in K as (K0 & K). cbn [map] in E. assert (E1 := f_equal (hd (key_of_int 0)) E). assert (E2 := f_equal (@tl _) E). cbn [hd tl] in E1, E2. f_equal; [now apply key_of_int_inj|now apply IH].
Qed.

Section Run.
  Context (w : world) (W : behaves w) (o : options) (file : string) (notes : list Z).
  Context (G : gives w file notes) (HN : Forall is_note notes) (NE : notes <> []) (OA : o_args o = [file]) (OF : o_format o = None) (OC : o_chroma o = false).
  Lemma run_with tb A B T : choose_tables (w_garbage1 w) (w_garbage2 w) (w_garbage3 w) o = Ret (Go tb) -> selects tb A B T -> usable A -> usable B -> usable T -> clear A -> clear B -> clear T -> (Exists positive A \/ Exists positive B) -> Forall positive T ->
    exists locals K, best_path fgt (local_score (w_log10 w) A B T notes) (zseq 24) notes locals /\ is_key K /\
      (forall J, is_key J -> fgt (piece_score (w_log10 w) T locals J) (piece_score (w_log10 w) T locals K) = false) /\
      main w (inl o) = (if o_probabilities o then Ret (mkEnded 0 (scores_line (map (piece_score (w_log10 w) T locals) (zseq 24))) "")
        else do text <- (if o_evaluate o then print_evaluation file (key_of_int K) else print_label (key_of_int K)); Ret (mkEnded 0 text "")).
  Proof.
    intros CT S UA UB UT CA CB CTT EX PT. destruct W as [Blog Bi1 Bi2 _ _ _]. destruct (selects_lengths tb A B T S) as (_ & _ & LT).
    destruct (C22_proof _ Blog _ _ Bi1 Bi2 tb A B T notes S UA UB UT CA CB CTT EX PT HN NE) as (h1 & h2 & K & D & HK & _).
    destruct (C24_proof _ Blog _ _ Bi1 Bi2 tb A B T notes h1 h2 _ S UT HN NE D) as (locals & K2 & Ek1 & Ll & Kl & HK2 & EK & _ & Ent & Max).
    apply key_of_int_inj in EK; [|exact HK|exact HK2]. subst K2.
    destruct (detect_inv _ _ _ Bi1 Bi2 tb notes h1 h2 _ HN NE D) as (locals' & path & K' & E1 & Ek1' & Ll' & Kl' & E2 & _).
    assert (locals' = locals) by (apply keys_of_ints; [assumption|assumption|congruence]). subst locals'.
    assert (Lne : locals <> []) by (intros X; subst; destruct notes; [contradiction|discriminate]).
    assert (Lp : length (h_probs h2) = 24%nat) by (destruct (C16_score_proof _ _ Bi2 (model2 tb locals) h2 eq_refl Lne E2) as (? & ? & _ & _ & _ & _ & _ & _ & X & _); exact X).
    exists locals, K. split; [|split; [exact HK|split]].
    - destruct (C15_proof _ _ Bi1 Blog (model1 tb notes) h1 eq_refl NE (model1_proper tb A B T notes S UA UB UT HN) E1) as (p & Ep & Pp & Bp). cbn [model1 h_states h_obs] in Pp, Bp. fold (model1 tb notes) in Bp.
      assert (Kq : forall q, is_path (zseq 24) notes q -> Forall is_key q) by (intros q (_ & Q); apply Forall_impl with (2 := Q); intros x; apply In24).
      assert (p = locals) by (apply keys_of_ints; [now apply Kq|exact Kl|congruence]). subst p. split; [exact Pp|]. intros q Q. rewrite <- !(local_score_eq _ tb A B T) by (assumption || now apply Kq). now apply Bp.
    - intros J HJ. rewrite <- !piece_score_eq by assumption. now apply Max.
    - rewrite (main_detects w o file notes tb G OA OF OC CT). rewrite D. cbn [bind]. unfold write_output. destruct (o_probabilities o); [|destruct (o_evaluate o); reflexivity]. cbn [bind]. rewrite scores_line_eq.
      assert (X : h_probs h2 = map (piece_score (w_log10 w) T locals) (zseq 24)); [|now rewrite X]. apply (nth_ext _ _ fzero fzero); [now rewrite map_length, zseq_length|]. intros n Hn. rewrite Lp in Hn.
      assert (KN : is_key (Z.of_nat n)) by (unfold is_key; lia). specialize (Ent _ KN). unfold prob_entry, znth in Ent. rewrite Nat2Z.id in Ent. rewrite Ent, piece_score_eq by assumption.
      rewrite (nth_indep _ fzero (piece_score (w_log10 w) T locals 0)) by (rewrite map_length, zseq_length; lia). rewrite map_nth. f_equal. unfold zseq. rewrite (nth_indep _ 0 (Z.of_nat 0)) by (rewrite map_length, seq_length; lia). rewrite map_nth, seq_nth by lia. reflexivity.
  Qed.
  Lemma run_stored A B T : no_custom o -> In (o_major o, A) builtin_major -> In (o_minor o, B) builtin_minor -> In (o_transition o, T) builtin_transitions -> o_transition o <> "zero"%string ->
    exists locals K, best_path fgt (local_score (w_log10 w) A B T notes) (zseq 24) notes locals /\ is_key K /\
      (forall J, is_key J -> fgt (piece_score (w_log10 w) T locals J) (piece_score (w_log10 w) T locals K) = false) /\
      main w (inl o) = (if o_probabilities o then Ret (mkEnded 0 (scores_line (map (piece_score (w_log10 w) T locals) (zseq 24))) "")
        else do text <- (if o_evaluate o then print_evaluation file (key_of_int K) else print_label (key_of_int K)); Ret (mkEnded 0 text "")).
  Proof.
    intros (N1 & N2) HA HB HT NZ. destruct (profile_fine _ A (or_introl HA)) as (UA & CA & EA). destruct (profile_fine _ B (or_intror HB)) as (UB & CB & EB). destruct (transition_fine _ T HT) as (UT & CT & PT).
    apply (run_with (selected o w) A B T); try assumption; [unfold choose_tables; rewrite N1, N2; reflexivity| |now left|now apply PT].
    destruct (stored_selects _ _ _ _ _ _ HA HB HT) as [SA SB ST _]. cbn [stored_tables tb_major tb_minor tb_transition tb_major_custom tb_minor_custom tb_transition_custom] in SA, SB, ST.
    assert (NC : forall (l : list (string * list b64)) n c c' X, In (n, X) l -> ~ In "custom"%string (map fst l) -> chosen l n c = Some X -> chosen l n c' = Some X).
    { intros l n c c' X I Q. unfold chosen. destruct (String.eqb_spec n "custom") as [E|E]; [|auto]. exfalso. apply Q. apply in_map_iff. now exists (n, X). }
    split; cbn [selected tb_major tb_minor tb_transition tb_major_custom tb_minor_custom tb_transition_custom].
    - apply (NC builtin_major _ zero_profile); [exact HA| |exact SA]. cbn. intuition discriminate.
    - apply (NC builtin_minor _ zero_profile); [exact HB| |exact SB]. cbn. intuition discriminate.
    - unfold chosen_transition in *. destruct (String.eqb_spec (o_transition o) "custom") as [E|E]; [|exact ST]. exfalso. rewrite E in HT. apply (in_map fst) in HT. cbn [fst] in HT. assert (Q : existsb (String.eqb "custom") (map fst builtin_transitions) = true) by (apply existsb_exists; exists "custom"%string; now split). vm_compute in Q. discriminate Q.
    - split; [apply W|split; apply W].
  Qed.
End Run.
(** The names that the option parser lets through are stored. *)
Lemma admitted_stored o : admitted o -> exists A B T, In (o_major o, A) builtin_major /\ In (o_minor o, B) builtin_minor /\ In (o_transition o, T) builtin_transitions /\ o_transition o <> "zero"%string.
Proof.
  intros (_ & M & N & T).
  assert (X : forall (l : list (string * list b64)) names n, forallb (fun n => existsb (fun e => String.eqb n (fst e)) l) names = true -> In n names -> exists A, In (n, A) l).
  { intros l names n Q I. rewrite forallb_forall in Q. specialize (Q n I). apply existsb_exists in Q as ((n', A) & Q & E). apply String.eqb_eq in E. cbn [fst] in E. subst n'. now exists A. }
  destruct (X builtin_major profile_choices _ ltac:(vm_compute; reflexivity) M) as (A & HA). destruct (X builtin_minor profile_choices _ ltac:(vm_compute; reflexivity) N) as (B & HB). destruct (X builtin_transitions transition_choices _ ltac:(vm_compute; reflexivity) T) as (T' & HT).
  exists A, B, T'. split; [exact HA|]. split; [exact HB|]. split; [exact HT|]. intros E. rewrite E in T. cbn in T. intuition discriminate.
Qed.
