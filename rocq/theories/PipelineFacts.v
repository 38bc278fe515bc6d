(** Proofs about the whole detection (C22, C24). *)
From Coq Require Import Reals Lra Lia ZifyBool.
From Flocq Require Import Core.Core IEEE754.BinarySingleNaN.
From Verif Require Import Base BaseFacts Fp FpFacts Key PitchClass KeyProfile KeyTransition Hmm Pipeline MusicSpec KeyFacts ProfileFacts TransitionFacts ViterbiSpec HmmSpec HmmFacts NumFacts PipelineSpec.
Open Scope Z_scope.

(** ** The two model objects *)
Definition model1 (tb : tables) (notes : list Z) : hmm :=
  mkHmm HIDDENMARKOVMODEL_UNINITIALIZED notes (zseq 24) main_initial (main_transitions tb) (main_emissions tb) None [] [].
Definition model2 (tb : tables) (keys : list Z) : hmm :=
  mkHmm HIDDENMARKOVMODEL_UNINITIALIZED keys (zseq 24) main_initial (fst (get_transition_map (keytransition_new1 "zero"))) (main_transitions tb) None [] [].

Lemma kint_key k : is_key k -> kint (key_of_int k) = Some k.
Proof. intros H. unfold key_of_int, to_uint32, is_key, NUMBER_OF_KEYS in *. rewrite Z.mod_small by lia. destruct (Z.ltb_spec k 24); [reflexivity|lia]. Qed.
Lemma pcint_note p : is_note p -> pcint (pc_of_int p) = Some p.
Proof.
  intros H. pose proof (zseq_sweep 12 (fun p => match pcint (pc_of_int p) with Some q => q =? p | None => false end) eq_refl p H) as Q.
  cbv beta in Q. destruct (pcint (pc_of_int p)) as [q|]; [|discriminate]. f_equal. lia.
Qed.
Lemma read_keys ks : Forall is_key ks -> read_ints (map kint (map key_of_int ks)) = Ret ks.
Proof. induction 1 as [|k ks Hk _ IH]; [reflexivity|]. cbn [map read_ints]. rewrite (kint_key k Hk). cbn [read_int bind]. rewrite IH. reflexivity. Qed.
Lemma read_notes ps : Forall is_note ps -> read_ints (map pcint (map pc_of_int ps)) = Ret ps.
Proof. induction 1 as [|k ks Hk _ IH]; [reflexivity|]. cbn [map read_ints]. rewrite (pcint_note k Hk). cbn [read_int bind]. rewrite IH. reflexivity. Qed.
Lemma keys24 : Forall is_key (zseq 24).
Proof. apply Forall_forall. intros x H. apply zseq_In in H. unfold is_key. lia. Qed.
Lemma In24 k : In k (zseq 24) <-> is_key k.
Proof. rewrite zseq_In. unfold is_key. lia. Qed.
Lemma first_model_ret tb notes : Forall is_note notes -> first_model tb (map pc_of_int notes) = Ret (model1 tb notes).
Proof. intros H. unfold first_model, hmm_of_pcs. rewrite (read_notes _ H). cbn [bind]. unfold all_keys. rewrite (read_keys _ keys24). reflexivity. Qed.
Lemma second_model_ret tb ks : Forall is_key ks -> second_model tb (map key_of_int ks) = Ret (model2 tb ks).
Proof. intros H. unfold second_model, hmm_of_keys. rewrite (read_keys _ H). cbn [bind]. unfold all_keys. rewrite (read_keys _ keys24). reflexivity. Qed.

(** ** Their probabilities *)
Lemma nth_repeat_in {A} n (d x : A) i : (i < n)%nat -> nth i (repeat x n) d = x.
Proof. revert i. induction n as [|n IH]; intros i Hi; [lia|]. destruct i; [reflexivity|]. cbn. apply IH. lia. Qed.
Lemma initial_24 k : is_key k -> at1 b64 fzero main_initial k = rat64 1 24.
Proof.
  intros H. unfold at1, main_initial. cbv zeta.
  change (fst (get_transition_array (keytransition_new1 "symmetrical"))) with (repeat (rat64 1 24) 24).
  rewrite (assoc_map_fun _ Zeqb_spec') by now apply In24. unfold znth. apply nth_repeat_in. unfold is_key in H. lia.
Qed.
Lemma transitions_of tb T a b : chosen_transition (tb_transition tb) (tb_transition_custom tb) = Some T ->
  at2 b64 fzero (main_transitions tb) a b = transition T a b.
Proof. intros H. unfold main_transitions, transition. pose proof (C13_names_proof (tb_transition tb) (tb_transition_custom tb)) as Q. rewrite H in Q. destruct Q as (_ & _ & Q). now rewrite Q. Qed.
Lemma zero_entry a b : is_key a -> is_key b ->
  at2 b64 fzero (fst (get_transition_map (keytransition_new1 "zero"))) a b = if a =? b then rat64 1 1 else rat64 0 1.
Proof.
  intros Ha Hb. set (zarr := rat64 1 1 :: repeat (rat64 0 1) 23).
  change (at2 b64 fzero (fst (get_transition_map (keytransition_new1 "zero"))) a b) with (transition zarr a b).
  rewrite C10_entry_proof by (reflexivity || assumption).
  assert (X : interval_index a b = 0 <-> a = b).
  { unfold interval_index, is_key, majorb, tonic in *. destruct (Z.ltb_spec a 12), (Z.ltb_spec b 12); lia. }
  pose proof (interval_index_range a b Ha Hb) as R. unfold is_key in R.
  destruct (Z.eqb_spec a b) as [E|E].
  - rewrite (proj2 X E). reflexivity.
  - assert (N : interval_index a b <> 0) by (intros Y; apply E; now apply X). unfold znth, zarr.
    destruct (Z.to_nat (interval_index a b)) as [|n] eqn:En; [lia|]. cbn [nth].
    apply nth_repeat_in. lia.
Qed.
Lemma transition_In T a b : length T = 24%nat -> is_key a -> is_key b -> In (transition T a b) T.
Proof.
  intros HT Ha Hb. rewrite C10_entry_proof by assumption. unfold znth. apply nth_In. rewrite HT.
  pose proof (interval_index_range a b Ha Hb) as R. unfold is_key in R. lia.
Qed.
Lemma chosen_length stored name custom A n : chosen stored name custom = Some A -> length custom = n ->
  forallb (fun e => Nat.eqb (length (snd e)) n) stored = true -> length A = n.
Proof.
  unfold chosen. destruct (String.eqb name "custom"); intros H Hc Hs; [injection H as <-; exact Hc|].
  apply (assoc_In _ Seqb_spec') in H. apply (proj1 (forallb_forall _ _) Hs) in H. cbn in H. now apply Nat.eqb_eq.
Qed.
Lemma selects_lengths tb A B T : selects tb A B T -> length A = 12%nat /\ length B = 12%nat /\ length T = 24%nat.
Proof.
  intros [HA HB HT (L1 & L2 & L3)]. split; [|split].
  - exact (chosen_length _ _ _ _ _ HA L1 eq_refl).
  - exact (chosen_length _ _ _ _ _ HB L2 eq_refl).
  - exact (chosen_length builtin_transitions _ _ _ _ HT L3 eq_refl).
Qed.
Lemma emission_of tb A B T k p : selects tb A B T -> is_key k -> is_note p ->
  at2 b64 fzero (main_emissions tb) k p = znth fzero (if majorb k then A else B) ((p - tonic k) mod 12).
Proof.
  intros [HA HB HT (L1 & L2 & L3)] Hk Hp. exact (C06_emission_proof _ _ _ _ A B k p L1 L2 HA HB Hk Hp).
Qed.
Lemma emission_In tb A B T k p : selects tb A B T -> is_key k -> is_note p -> In (at2 b64 fzero (main_emissions tb) k p) (if majorb k then A else B).
Proof.
  intros S Hk Hp. rewrite (emission_of tb A B T k p S Hk Hp). destruct (selects_lengths tb A B T S) as (LA & LB & _).
  unfold znth. apply nth_In. destruct (majorb k); rewrite ?LA, ?LB; pose proof (Z.mod_pos_bound (p - tonic k) 12); lia.
Qed.

(** ** Products *)
Open Scope R_scope.
Lemma fmul_usable x y : is_finite x = true -> is_finite y = true -> 0 <= B2R x <= bpow radix2 500 -> 0 <= B2R y <= bpow radix2 500 ->
  is_finite (fmul x y) = true /\ B2R (fmul x y) = rnd (B2R x * B2R y).
Proof.
  intros Fx Fy Hx Hy. unfold fmul. pose proof (Bmult_correct prec64 emax64 _ _ mode_NE x y) as H. cbn [round_mode] in H.
  assert (U : 0 <= B2R x * B2R y <= bpow radix2 1000).
  { split; [apply Rmult_le_pos; lra|]. replace (bpow radix2 1000) with (bpow radix2 500 * bpow radix2 500) by (rewrite <- bpow_plus; reflexivity).
    apply Rmult_le_compat; lra. }
  assert (V : 0 <= rnd (B2R x * B2R y) <= bpow radix2 1000).
  { split.
    - apply round_ge_generic; [exact fexp64_valid|apply valid_rnd_N|apply generic_format_0|lra].
    - apply round_le_generic; [exact fexp64_valid|apply valid_rnd_N| |lra]. apply generic_format_bpow. vm_compute. discriminate. }
  rewrite Rlt_bool_true in H.
  - destruct H as (E & F & _). split; [rewrite F, Fx, Fy; reflexivity|exact E].
  - change (Rabs (rnd (B2R x * B2R y)) < bpow radix2 emax64). rewrite Rabs_pos_eq by lra.
    apply Rle_lt_trans with (1 := proj2 V). apply bpow_lt. reflexivity.
Qed.
Lemma fmul_clear x y : is_finite x = true -> is_finite y = true -> bpow radix2 (-500) <= B2R x <= bpow radix2 500 ->
  bpow radix2 (-500) <= B2R y <= bpow radix2 500 -> 0 < B2R (fmul x y).
Proof.
  intros Fx Fy Hx Hy. pose proof (bpow_gt_0 radix2 (-500)) as P.
  destruct (fmul_usable x y Fx Fy) as (_ & E); [lra|lra|]. rewrite E.
  apply Rlt_le_trans with (bpow radix2 (-1000)); [apply bpow_gt_0|].
  apply round_ge_generic; [exact fexp64_valid|apply valid_rnd_N| |].
  - apply generic_format_bpow. vm_compute. discriminate.
  - replace (bpow radix2 (-1000)) with (bpow radix2 (-500) * bpow radix2 (-500)) by (rewrite <- bpow_plus; reflexivity).
    apply Rmult_le_compat; lra.
Qed.
Lemma B2R_one : B2R (rat64 1 1) = 1.
Proof.
  rewrite (proj2 (rat64_unit 1 1 ltac:(lia))). replace (1 / 1) with 1 by lra. apply round_generic; [apply valid_rnd_N|].
  apply (generic_format_bpow radix2 fexp64 0). vm_compute. discriminate.
Qed.
Lemma fmul_one x : is_finite x = true -> fmul (rat64 1 1) x = x.
Proof.
  intros F. unfold fmul. pose proof (Bmult_correct prec64 emax64 _ _ mode_NE (rat64 1 1) x) as H.
  assert (E : round radix2 fexp64 (round_mode mode_NE) (B2R (rat64 1 1) * B2R x) = B2R x).
  { rewrite B2R_one, Rmult_1_l. apply round_generic; [apply valid_rnd_N|apply generic_format_B2R]. }
  change (SpecFloat.fexp prec64 emax64) with fexp64 in H. rewrite E, Rlt_bool_true in H by apply abs_B2R_lt_emax.
  destruct H as (H1 & H2 & H3). rewrite F in H2. change (is_finite (rat64 1 1) && true) with true in H2.
  apply B2R_Bsign_inj; [exact H2|exact F|exact H1|]. rewrite H3; [change (Bsign (rat64 1 1)) with false; now destruct (Bsign x)|].
  destruct (Bmult mode_NE (rat64 1 1) x); reflexivity || discriminate.
Qed.
Lemma B2R_24 : is_finite (rat64 1 24) = true /\ bpow radix2 (-500) <= B2R (rat64 1 24) <= bpow radix2 500.
Proof.
  destruct (rat64_unit 1 24 ltac:(lia)) as [F E]. split; [exact F|]. rewrite E. split.
  - apply round_ge_generic; [exact fexp64_valid|apply valid_rnd_N|apply generic_format_bpow; vm_compute; discriminate|].
    apply Rle_trans with (bpow radix2 (-5)); [apply bpow_le; lia|]. cbn. lra.
  - apply round_le_generic; [exact fexp64_valid|apply valid_rnd_N|apply generic_format_bpow; vm_compute; discriminate|].
    apply Rle_trans with (bpow radix2 0); [cbn; lra|apply bpow_le; lia].
Qed.
Lemma B2R_zero : B2R (rat64 0 1) = 0. Proof. apply rat64_zero. Qed.
Lemma usable_In l x : usable l -> In x l -> is_finite x = true /\ 0 <= B2R x <= bpow radix2 500.
Proof. intros H Hx. exact (proj1 (Forall_forall _ _) H x Hx). Qed.
Lemma clear_In l x : clear l -> In x l -> 0 < B2R x -> bpow radix2 (-500) <= B2R x.
Proof. intros H Hx P. destruct (proj1 (Forall_forall _ _) H x Hx) as [E|E]; [lra|exact E]. Qed.
Lemma one_range : is_finite (rat64 1 1) = true /\ bpow radix2 (-500) <= B2R (rat64 1 1) <= bpow radix2 500.
Proof. split; [apply rat64_unit; lia|]. rewrite B2R_one. change 1 with (bpow radix2 0). split; apply bpow_le; lia. Qed.

(** ** Both models are proper *)
Lemma model1_proper tb A B T notes : selects tb A B T -> usable A -> usable B -> usable T -> Forall is_note notes ->
  proper (model1 tb notes).
Proof.
  intros S UA UB UT Hn. split; [exact keys24|]. intros s o Hs Ho. cbn [model1 h_states h_obs] in Hs, Ho. apply In24 in Hs.
  pose proof (proj1 (Forall_forall _ _) Hn o Ho) as Hon. destruct (selects_lengths tb A B T S) as (_ & _ & LT).
  unfold prob_emission, prob_initial, prob_transition. cbn [model1 h_emissions h_initial h_transitions h_states].
  pose proof (emission_In tb A B T s o S Hs Hon) as HI. set (e := at2 b64 fzero (main_emissions tb) s o) in *.
  assert (Ue : is_finite e = true /\ 0 <= B2R e <= bpow radix2 500) by (destruct (majorb s); [exact (usable_In A e UA HI)|exact (usable_In B e UB HI)]).
  rewrite initial_24 by exact Hs. destruct B2R_24 as [F24 R24]. pose proof (bpow_ge_0 radix2 (-500)).
  split; [split; [apply Ue|apply Ue]|]. split; [split; [exact F24|lra]|]. split; [apply fmul_usable; try apply Ue; [exact F24|lra]|].
  intros p Hp. apply In24 in Hp. rewrite (transitions_of tb T p s (sel_T _ _ _ _ S)).
  pose proof (usable_In T _ UT (transition_In T p s LT Hp Hs)) as Ut.
  split; [split; apply Ut|]. apply fmul_usable; apply Ut || apply Ue.
Qed.
Lemma model2_proper tb A B T ks : selects tb A B T -> usable T -> Forall is_key ks -> proper (model2 tb ks).
Proof.
  intros S UT Hn. split; [exact keys24|]. intros s o Hs Ho. cbn [model2 h_states h_obs] in Hs, Ho. apply In24 in Hs.
  pose proof (proj1 (Forall_forall _ _) Hn o Ho) as Hon. destruct (selects_lengths tb A B T S) as (_ & _ & LT).
  unfold prob_emission, prob_initial, prob_transition. cbn [model2 h_emissions h_initial h_transitions h_states].
  rewrite (transitions_of tb T s o (sel_T _ _ _ _ S)).
  pose proof (usable_In T _ UT (transition_In T s o LT Hs Hon)) as Ue. set (e := transition T s o) in *.
  rewrite initial_24 by exact Hs. destruct B2R_24 as [F24 R24]. pose proof (bpow_ge_0 radix2 (-500)).
  split; [split; [apply Ue|apply Ue]|]. split; [split; [exact F24|lra]|]. split; [apply fmul_usable; try apply Ue; [exact F24|lra]|].
  intros p Hp. apply In24 in Hp. rewrite zero_entry by assumption. destruct (Z.eqb_spec p s).
  - split; [split; [apply one_range|rewrite B2R_one; lra]|]. rewrite fmul_one by apply Ue. apply Ue.
  - split; [split; [apply rat64_zero|rewrite B2R_zero; lra]|]. apply fmul_usable; try apply Ue; [apply rat64_zero|rewrite B2R_zero; lra].
Qed.

(** ** C22 *)
Lemma live_key tb A B T p : selects tb A B T -> usable A -> usable B -> clear A -> clear B ->
  (Exists positive A \/ Exists positive B) -> is_note p ->
  exists k, is_key k /\ is_finite (at2 b64 fzero (main_emissions tb) k p) = true /\
            bpow radix2 (-500) <= B2R (at2 b64 fzero (main_emissions tb) k p) <= bpow radix2 500.
Proof.
  intros S UA UB CA CB HE Hp. destruct (selects_lengths tb A B T S) as (LA & LB & _).
  assert (Q : forall (maj : bool) (arr : list b64), length arr = 12%nat -> usable arr -> clear arr -> Exists positive arr ->
    (if maj then A else B) = arr ->
    exists k, is_key k /\ is_finite (at2 b64 fzero (main_emissions tb) k p) = true /\
            bpow radix2 (-500) <= B2R (at2 b64 fzero (main_emissions tb) k p) <= bpow radix2 500).
  { intros maj arr L U C E Harr. apply Exists_exists in E. destruct E as (x & Hx & Px). pose proof Hx as Hx'.
    apply (In_nth _ _ fzero) in Hx'. destruct Hx' as (i & Hi & Ei). rewrite L in Hi.
    set (k := ((p - Z.of_nat i) mod 12 + if maj then 0 else 12)%Z).
    assert (Hk : is_key k) by (unfold k, is_key; destruct maj; pose proof (Z.mod_pos_bound (p - Z.of_nat i) 12); lia).
    exists k. split; [exact Hk|]. rewrite (emission_of tb A B T k p S Hk Hp).
    assert (M : majorb k = maj) by (unfold k, majorb; destruct maj; pose proof (Z.mod_pos_bound (p - Z.of_nat i) 12); lia).
    rewrite M, Harr. replace ((p - tonic k) mod 12)%Z with (Z.of_nat i).
    - unfold znth. rewrite Nat2Z.id, Ei. pose proof (usable_In arr x U Hx) as Ux. split; [apply Ux|]. split; [|apply Ux].
      now apply (clear_In arr x C Hx).
    - unfold k, tonic, is_note in *. destruct maj; Z.div_mod_to_equations; lia. }
  destruct HE as [E|E]; [exact (Q true A LA UA CA E eq_refl)|exact (Q false B LB UB CB E eq_refl)].
Qed.
Lemma live_path tb A B T : selects tb A B T -> usable A -> usable B -> usable T -> clear A -> clear B -> clear T ->
  (Exists positive A \/ Exists positive B) -> Forall positive T -> forall notes, Forall is_note notes ->
  exists path, length path = length notes /\ Forall is_key path /\
    (forall h, h_transitions h = main_transitions tb -> h_emissions h = main_emissions tb ->
               forall prev, is_key prev -> steps_positive h prev path notes) /\
    (forall h, h_initial h = main_initial -> h_transitions h = main_transitions tb -> h_emissions h = main_emissions tb ->
               h_obs h = notes -> positive_path h path).
Proof.
  intros S UA UB UT CA CB CT HE HT notes Hn. destruct (selects_lengths tb A B T S) as (_ & _ & LT).
  induction Hn as [|p notes Hp _ IH].
  - exists []. split; [reflexivity|]. split; [constructor|]. split; intros; exact I.
  - destruct IH as (path & L & K & St & _). destruct (live_key tb A B T p S UA UB CA CB HE Hp) as (k & Hk & Fk & Rk).
    exists (k :: path). split; [cbn; now rewrite L|]. split; [now constructor|]. split.
    + intros h E1 E2 prev Hprev. cbn [steps_positive]. split; [|now apply St].
      unfold prob_transition, prob_emission. rewrite E1, E2. rewrite (transitions_of tb T prev k (sel_T _ _ _ _ S)).
      pose proof (transition_In T prev k LT Hprev Hk) as HI. pose proof (usable_In T _ UT HI) as Ut.
      apply fmul_clear; [apply Ut|exact Fk| |exact Rk]. split; [|apply Ut]. apply (clear_In T _ CT HI). exact (proj1 (Forall_forall _ _) HT _ HI).
    + intros h E0 E1 E2 E3. unfold positive_path. rewrite E3. split; [|now apply St].
      unfold prob_initial, prob_emission. rewrite E0, E2, initial_24 by exact Hk. destruct B2R_24. now apply fmul_clear.
Qed.
Lemma constant_positive tb A B T : selects tb A B T -> usable T -> clear T -> Forall positive T -> forall K ks, is_key K -> Forall is_key ks ->
  positive_path (model2 tb ks) (repeat K (length ks)).
Proof.
  intros S UT CT HT K ks HK Hks. destruct (selects_lengths tb A B T S) as (_ & _ & LT).
  assert (G : forall k, is_key k -> is_finite (transition T K k) = true /\ bpow radix2 (-500) <= B2R (transition T K k) <= bpow radix2 500).
  { intros k Hk. pose proof (transition_In T K k LT HK Hk) as HI. pose proof (usable_In T _ UT HI) as Ut. split; [apply Ut|]. split; [|apply Ut].
    apply (clear_In T _ CT HI). exact (proj1 (Forall_forall _ _) HT _ HI). }
  assert (St : forall h, h_transitions h = fst (get_transition_map (keytransition_new1 "zero")) -> h_emissions h = main_transitions tb ->
    forall l, Forall is_key l -> steps_positive h K (repeat K (length l)) l).
  { intros h E1 E2. induction 1 as [|k l Hk _ IH]; [exact I|]. cbn [length repeat steps_positive]. split; [|exact IH].
    unfold prob_transition, prob_emission. rewrite E1, E2, zero_entry, Z.eqb_refl by assumption. rewrite (transitions_of tb T K k (sel_T _ _ _ _ S)).
    destruct (G k Hk) as (F & R). rewrite fmul_one by exact F. pose proof (bpow_gt_0 radix2 (-500)). lra. }
  unfold positive_path. cbn [model2 h_obs]. destruct ks as [|k ks]; [exact I|]. inversion Hks as [|? ? Hk Hks']; subst.
  cbn [length repeat]. split; [|now apply St].
  unfold prob_initial, prob_emission. cbn [model2 h_initial h_emissions]. rewrite initial_24 by exact HK.
  rewrite (transitions_of tb T K k (sel_T _ _ _ _ S)). destruct (G k Hk), B2R_24. now apply fmul_clear.
Qed.

Section Detection.
  Variable log10 : b64 -> b64.
  Hypothesis Hlog : log10_ok log10.
  Variables iter1 iter2 : layer b64 -> list (Z * node b64).
  Hypothesis Hiter1 : iteration_order iter1.
  Hypothesis Hiter2 : iteration_order iter2.

  Lemma map_nil {X Y} (f : X -> Y) l : map f l = [] -> l = []. Proof. now destruct l. Qed.
  Lemma path_nonempty path (obs : list Z) : is_path (zseq 24) obs path -> obs <> [] -> path <> [].
  Proof. intros [L _] H E. subst. destruct obs; [now apply H|discriminate]. Qed.

  (** What a completed detection went through. *)
  Lemma detect_inv tb notes h1 h2 k : Forall is_note notes -> notes <> [] ->
    detect log10 iter1 iter2 tb (map pc_of_int notes) = Ret (h1, h2, k) ->
    exists locals path K, run_viterbi log10 iter1 (model1 tb notes) = Ret h1 /\ h_keys h1 = map key_of_int locals /\
      length locals = length notes /\ Forall is_key locals /\
      run_viterbi log10 iter2 (model2 tb locals) = Ret h2 /\ h_keys h2 = map key_of_int (K :: path) /\ k = key_of_int K /\
      is_path (zseq 24) locals (K :: path) /\ Forall is_key (K :: path).
  Proof.
    intros Hn Hne E. unfold detect in E. rewrite (first_model_ret tb notes Hn) in E. cbn [bind] in E.
    destruct (run_viterbi log10 iter1 (model1 tb notes)) as [h1'| |] eqn:E1; cbn [bind] in E; try discriminate.
    destruct (C14_proof log10 iter1 Hiter1 (model1 tb notes) _ eq_refl Hne E1) as (locals & Ek & Hp & Hk & _).
    rewrite Ek, (second_model_ret tb locals Hk) in E. cbn [bind] in E.
    destruct (run_viterbi log10 iter2 (model2 tb locals)) as [h2'| |] eqn:E2; cbn [bind] in E; try discriminate.
    destruct (C14_proof log10 iter2 Hiter2 (model2 tb locals) _ eq_refl (path_nonempty _ _ Hp Hne) E2) as (path & Ek2 & Hp2 & Hk2 & _).
    destruct path as [|K path]; [exfalso; now apply (path_nonempty _ _ Hp2 (path_nonempty _ _ Hp Hne))|].
    rewrite Ek2 in E. cbn [map] in E. apply Ret_inj in E. injection E as <- <- <-.
    exists locals, path, K. split; [reflexivity|]. split; [exact Ek|]. split; [apply Hp|]. split; [exact Hk|]. split; [exact E2|].
    split; [exact Ek2|]. split; [reflexivity|]. split; [exact Hp2|exact Hk2].
  Qed.

  Lemma C22_proof : forall tb A B T notes, selects tb A B T -> usable A -> usable B -> usable T -> clear A -> clear B -> clear T ->
    (Exists positive A \/ Exists positive B) -> Forall positive T -> Forall is_note notes -> notes <> [] ->
    exists h1 h2 K, detect log10 iter1 iter2 tb (map pc_of_int notes) = Ret (h1, h2, key_of_int K) /\ is_key K /\
      length (h_keys h1) = length notes.
  Proof.
    intros tb A B T notes S UA UB UT CA CB CT HE HT Hn Hne.
    destruct (live_path tb A B T S UA UB UT CA CB CT HE HT notes Hn) as (p & Lp & Kp & _ & Pp).
    assert (R1 : exists h1, run_viterbi log10 iter1 (model1 tb notes) = Ret h1).
    { apply (C21_proof log10 iter1 Hiter1 Hlog (model1 tb notes) Hne (model1_proper tb A B T notes S UA UB UT Hn)).
      exists p. split; [split; [exact Lp|]|now apply Pp]. apply Forall_impl with (2 := Kp). intros x. apply In24. }
    destruct R1 as (h1 & E1). destruct (C14_proof log10 iter1 Hiter1 (model1 tb notes) _ eq_refl Hne E1) as (locals & Ek & Hp & Hk & _).
    pose proof (path_nonempty _ _ Hp Hne) as Hl.
    assert (R2 : exists h2, run_viterbi log10 iter2 (model2 tb locals) = Ret h2).
    { apply (C21_proof log10 iter2 Hiter2 Hlog (model2 tb locals) Hl (model2_proper tb A B T locals S UT Hk)).
      exists (repeat 0%Z (length locals)). split; [split; [apply repeat_length|]|].
      - apply Forall_forall. intros x Hx. apply repeat_spec in Hx. subst. apply In24. unfold is_key. lia.
      - apply (constant_positive tb A B T S UT CT HT); [unfold is_key; lia|exact Hk]. }
    destruct R2 as (h2 & E2). destruct (C14_proof log10 iter2 Hiter2 (model2 tb locals) _ eq_refl Hl E2) as (path & Ek2 & Hp2 & Hk2 & _).
    destruct path as [|K path]; [exfalso; now apply (path_nonempty _ _ Hp2 Hl)|].
    exists h1, h2, K. split; [|split; [now inversion Hk2|rewrite Ek, map_length; apply Hp]].
    unfold detect. rewrite (first_model_ret tb notes Hn). cbn [bind]. rewrite E1. cbn [bind]. rewrite Ek, (second_model_ret tb locals Hk). cbn [bind].
    rewrite E2. cbn [bind]. rewrite Ek2. reflexivity.
  Qed.

  (** ** C24 *)
  Lemma steps_constant tb A B T : selects tb A B T -> usable T -> forall ks path prev, Forall is_key ks -> length path = length ks -> is_key prev -> Forall is_key path ->
    forall h, h_transitions h = fst (get_transition_map (keytransition_new1 "zero")) -> h_emissions h = main_transitions tb ->
    steps_positive h prev path ks -> path = repeat prev (length path).
  Proof.
    intros S UT. destruct (selects_lengths tb A B T S) as (_ & _ & LT).
    induction ks as [|o ks IH]; intros [|s path] prev Hks L Hprev Hk h E1 E2 Hs; try discriminate; [reflexivity|].
    inversion Hk as [|? ? Hks1 Hk']; subst. inversion Hks as [|? ? Ho Hks']; subst. cbn [steps_positive] in Hs. destruct Hs as [Hs Hs'].
    unfold prob_transition, prob_emission in Hs. rewrite E1, E2, zero_entry, (transitions_of tb T s o (sel_T _ _ _ _ S)) in Hs by assumption.
    destruct (Z.eqb_spec prev s) as [->|N].
    - cbn [length repeat]. f_equal. apply (IH path s Hks' ltac:(cbn in L; lia) Hks1 Hk' h E1 E2 Hs').
    - exfalso. pose proof (usable_In T _ UT (transition_In T s o LT Hks1 Ho)) as U.
      rewrite (proj2 (fmul_usable (rat64 0 1) _ (proj1 (rat64_zero 1)) (proj1 U) ltac:(rewrite B2R_zero; pose proof (bpow_ge_0 radix2 500); lra) (proj2 U))) in Hs.
      rewrite B2R_zero, Rmult_0_l, round_0 in Hs by apply valid_rnd_N. lra.
  Qed.
  Lemma positive_constant tb A B T ks K path : selects tb A B T -> usable T -> Forall is_key ks -> length (K :: path) = length ks -> Forall is_key (K :: path) ->
    positive_path (model2 tb ks) (K :: path) -> K :: path = repeat K (length ks).
  Proof.
    intros S UT Hks L Hk Hp. destruct ks as [|k ks]; [discriminate|]. inversion Hk; subst. inversion Hks; subst. destruct Hp as [_ Hp].
    cbn [length repeat]. f_equal. replace (length ks) with (length path) by (cbn in L; lia).
    apply (steps_constant tb A B T S UT ks path K) with (h := model2 tb (k :: ks)); try assumption; reflexivity || (cbn in L; lia).
  Qed.
  Lemma constant_score tb A B T ks K : selects tb A B T -> usable T -> Forall is_key ks -> is_key K -> ks <> [] ->
    hscore log10 (model2 tb ks) (repeat K (length ks)) = global_score log10 T ks K.
  Proof.
    intros S UT Hks HK Hne. destruct (selects_lengths tb A B T S) as (_ & _ & LT). destruct ks as [|k0 ks]; [contradiction|].
    inversion Hks as [|? ? Hk0 Hks']; subst. unfold hscore, global_score. cbn [length repeat path_score model2 h_obs].
    change (prob_emission (model2 tb (k0 :: ks)) K k0) with (at2 b64 fzero (main_transitions tb) K k0).
    change (prob_initial (model2 tb (k0 :: ks)) K) with (at1 b64 fzero main_initial K).
    rewrite initial_24, (transitions_of tb T K k0 (sel_T _ _ _ _ S)) by exact HK.
    set (acc := log10 (fmul (rat64 1 24) (transition T K k0))). clearbody acc. clear Hks Hne. revert acc. set (h := model2 tb (k0 :: ks)).
    assert (E1 : h_transitions h = fst (get_transition_map (keytransition_new1 "zero"))) by reflexivity.
    assert (E2 : h_emissions h = main_transitions tb) by reflexivity. clearbody h.
    induction Hks' as [|k ks Hk _ IH]; intros acc; [reflexivity|]. cbn [length repeat score_from fold_left].
    replace (prob_transition h K K) with (rat64 1 1) by (unfold prob_transition; now rewrite E1, zero_entry, Z.eqb_refl).
    replace (prob_emission h K k) with (at2 b64 fzero (main_transitions tb) K k) by (unfold prob_emission; now rewrite E2).
    rewrite (transitions_of tb T K k (sel_T _ _ _ _ S)) by assumption.
    rewrite fmul_one by (apply (usable_In T _ UT (transition_In T K k LT HK Hk))). apply IH.
  Qed.
  Lemma repeat_ends (K : Z) n : (0 < n)%nat -> ends_in (repeat K n) K.
  Proof. intros H. destruct n as [|n]; [lia|]. exists (repeat K n). cbn [repeat]. now rewrite repeat_cons. Qed.
  Lemma model2_entry tb A B T ks h2 : selects tb A B T -> usable T -> Forall is_key ks -> ks <> [] ->
    run_viterbi log10 iter2 (model2 tb ks) = Ret h2 -> forall J, is_key J -> prob_entry h2 J = global_score log10 T ks J.
  Proof.
    intros S UT Hks Hne E J HJ. pose proof (model2_proper tb A B T ks S UT Hks) as P.
    destruct (C16_vector_proof log10 iter2 Hiter2 Hlog (model2 tb ks) h2 Hne P E J (proj2 (In24 J) HJ)) as ((q & Hq & He & Es) & Hmax & _).
    pose proof (constant_score tb A B T ks J S UT Hks HJ Hne) as Hc.
    assert (Pc : is_path (zseq 24) ks (repeat J (length ks))).
    { split; [apply repeat_length|]. apply Forall_forall. intros x Hx. apply repeat_spec in Hx. subst. now apply In24. }
    assert (Lk : (0 < length ks)%nat) by (destruct ks; [contradiction|cbn; lia]).
    pose proof (Hmax _ Pc (repeat_ends J _ Lk)) as Hle. rewrite Hc in Hle.
    destruct (proper_final_best log10 iter2 Hiter2 Hlog (model2 tb ks) J q P Hne Hq He) as (Gq & _).
    destruct (proper_final_best log10 iter2 Hiter2 Hlog (model2 tb ks) J _ P Hne Pc (repeat_ends J _ Lk)) as (Gc & _).
    rewrite Hc in Gc. rewrite <- Es in *.
    destruct (hscore_positive log10 Hlog (model2 tb ks) q P Hne Hq) as [[Hp _]|[_ Hn]].
    - destruct q as [|K q]; [destruct He as (l & X); destruct l; discriminate|].
      assert (Kq : Forall is_key (K :: q)) by (apply Forall_impl with (2 := proj2 Hq); intros x; apply In24).
      pose proof (positive_constant tb A B T ks K q S UT Hks (proj1 Hq) Kq Hp) as X. rewrite X in He |- *.
      assert (J = K).
      { destruct He as (l & Y). assert (Z : In J (repeat K (length ks))) by (rewrite Y; apply in_or_app; right; now left). now apply repeat_spec in Z. }
      subst J. exact Hc.
    - rewrite Hn in *. apply good_antisym; try assumption. apply fgt_ninf_l.
  Qed.
  Lemma C24_proof : forall tb A B T notes h1 h2 k, selects tb A B T -> usable T -> Forall is_note notes -> notes <> [] ->
    detect log10 iter1 iter2 tb (map pc_of_int notes) = Ret (h1, h2, k) ->
    exists locals K, h_keys h1 = map key_of_int locals /\ length locals = length notes /\ Forall is_key locals /\
      is_key K /\ k = key_of_int K /\ h_keys h2 = map key_of_int (repeat K (length notes)) /\
      (forall J, is_key J -> prob_entry h2 J = global_score log10 T locals J) /\
      (forall J, is_key J -> fgt (global_score log10 T locals J) (global_score log10 T locals K) = false).
  Proof.
    intros tb A B T notes h1 h2 k S UT Hn Hne E.
    destruct (detect_inv tb notes h1 h2 k Hn Hne E) as (locals & path & K & E1 & Ek1 & L & Hl & E2 & Ek2 & Ek & Hp & Hk).
    assert (Hlne : locals <> []) by (intros X; subst; destruct notes; [contradiction|discriminate]).
    pose proof (model2_proper tb A B T locals S UT Hl) as P.
    exists locals, K. split; [exact Ek1|]. split; [exact L|]. split; [exact Hl|]. split; [now inversion Hk|]. split; [exact Ek|].
    destruct (C16_score_proof log10 iter2 Hiter2 (model2 tb locals) h2 eq_refl Hlne E2) as (p' & last & Ep & _ & He & Em & Eentry & Hgt & _).
    assert (p' = K :: path).
    { assert (Kp : Forall is_key p').
      { destruct (C14_proof log10 iter2 Hiter2 (model2 tb locals) h2 eq_refl Hlne E2) as (p2 & E2' & Hp2 & Kp2 & _).
        rewrite Ep in E2'. assert (X : map kint (map key_of_int p') = map Some p2) by (rewrite E2'; clear - Kp2; induction Kp2; [reflexivity|]; cbn [map]; rewrite kint_key by assumption; now f_equal).
        clear - X Kp2. revert p2 X Kp2. induction p' as [|x p' IH]; intros [|y p2] X Kp2; try discriminate; [constructor|].
        cbn [map] in X. injection X as X1 X2. inversion Kp2; subst. constructor; [|eapply IH; eassumption].
        unfold key_of_int in X1. destruct (to_uint32 x <? NUMBER_OF_KEYS) eqn:Q; [|discriminate]. cbn in X1. apply Some_inj in X1. now subst. }
      rewrite Ep in Ek2. apply (f_equal (map kint)) in Ek2. clear - Ek2 Kp Hk. revert Ek2 Hk. generalize (K :: path). 
      induction Kp as [|x p' Hx _ IH]; intros [|y q] X Hq; try discriminate; [reflexivity|]. inversion Hq; subst. cbn [map] in X. injection X as X1 X2.
      rewrite !kint_key in X1 by assumption. apply Some_inj in X1. subst. f_equal. now apply IH. }
    subst p'.
    assert (Pp : positive_path (model2 tb locals) (K :: path)).
    { destruct (hscore_positive log10 Hlog (model2 tb locals) _ P Hlne Hp) as [[X _]|[_ X]]; [exact X|]. rewrite X, fgt_ninf_l in Hgt. discriminate. }
    pose proof (positive_constant tb A B T locals K path S UT Hl (proj1 Hp) Hk Pp) as C.
    split; [rewrite Ek2, C, L; reflexivity|].
    pose proof (model2_entry tb A B T locals h2 S UT Hl Hlne E2) as Hent. split; [exact Hent|].
    intros J HJ. assert (HK : is_key K) by now inversion Hk. rewrite <- !Hent by assumption.
    destruct (C16_vector_proof log10 iter2 Hiter2 Hlog (model2 tb locals) h2 Hlne P E2 J (proj2 (In24 J) HJ)) as (_ & _ & Hm).
    specialize (Hm _ Em). rewrite <- Eentry in Hm.
    assert (last = K). { rewrite C in He. destruct He as (l & Y). assert (Z : In last (repeat K (length locals))) by (rewrite Y; apply in_or_app; right; now left). now apply repeat_spec in Z. }
    now subst last.
  Qed.
End Detection.
