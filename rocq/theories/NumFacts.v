(** Exact real values of the constants (C09, C13). *)
From Coq Require Import Reals Lra Lia ZifyBool Permutation.
From Flocq Require Import Core.Core IEEE754.BinarySingleNaN.
From Verif Require Import Base BaseFacts Fp FpFacts Key PitchClass KeyProfile KeyTransition Hmm MusicSpec ProfileFacts TransitionFacts.
Open Scope R_scope.

(** ** A constant expression is the correctly rounded quotient *)
Lemma rat64_correct n d : (0 < n)%Z -> Rabs (rnd (IZR n / IZR (Zpos d))) < bpow radix2 1024 ->
  is_finite (rat64 n d) = true /\ B2R (rat64 n d) = rnd (IZR n / IZR (Zpos d)).
Proof.
  intros Hn Hb. unfold rat64, ratB. destruct n as [|p|p]; try lia.
  pose proof (proj2 (Bdiv_correct_aux prec64 emax64 prec64_gt_0 prec64_lt mode_NE false p 0 false d 0)) as H.
  set (V := proj1 _). generalize V. clear V. intros V. cbv zeta in H, V.
  set (z := let '(mz, ez, lz) := SpecFloat.SFdiv_core_binary prec64 emax64 (Z.pos p) 0 (Z.pos d) 0 in _) in *.
  assert (E : F2R (Float radix2 (cond_Zopp false (Z.pos p)) 0) / F2R (Float radix2 (cond_Zopp false (Z.pos d)) 0) = IZR (Zpos p) / IZR (Zpos d)).
  { unfold F2R. cbn [Fnum Fexp cond_Zopp bpow]. now rewrite !Rmult_1_r. }
  rewrite E in H. cbn [round_mode] in H. rewrite Rlt_bool_true in H by exact Hb. destruct H as (A & B & _). split.
  - rewrite is_finite_SF2B. exact B.
  - rewrite B2R_SF2B. exact A.
Qed.
Lemma rat64_zero d : is_finite (rat64 0 d) = true /\ B2R (rat64 0 d) = 0.
Proof. split; reflexivity. Qed.
Lemma rnd_small x : 0 <= x <= 1 -> Rabs (rnd x) < bpow radix2 1024.
Proof.
  intros H. apply Rle_lt_trans with 1.
  - apply Rabs_le. split.
    + apply Rle_trans with 0; [lra|]. apply round_ge_generic; [exact fexp64_valid|apply valid_rnd_N|apply generic_format_0|apply H].
    + apply round_le_generic; [exact fexp64_valid|apply valid_rnd_N| |apply H].
      change 1 with (bpow radix2 0). apply generic_format_bpow. unfold SpecFloat.fexp, SpecFloat.emin, prec64, emax64. lia.
  - change 1 with (bpow radix2 0). apply bpow_lt. lia.
Qed.
Lemma rat64_unit n d : (0 <= n <= Zpos d)%Z -> is_finite (rat64 n d) = true /\ B2R (rat64 n d) = rnd (IZR n / IZR (Zpos d)).
Proof.
  intros H. destruct (Z.eq_dec n 0) as [->|Hn].
  - destruct (rat64_zero d) as [A B]. split; [exact A|]. rewrite B. unfold Rdiv. rewrite Rmult_0_l. symmetry. apply round_0. apply valid_rnd_N.
  - apply rat64_correct; [lia|]. apply rnd_small. assert (0 < IZR (Zpos d)) by (apply IZR_lt; lia).
    split.
    + apply Rmult_le_pos; [apply IZR_le; lia|]. apply Rlt_le, Rinv_0_lt_compat. assumption.
    + apply Rmult_le_reg_r with (IZR (Zpos d)); [assumption|]. unfold Rdiv. rewrite Rmult_assoc, Rinv_l by lra. rewrite Rmult_1_r, Rmult_1_l. apply IZR_le; lia.
Qed.

(** ** Exact values as scaled integers *)
Definition scaled (x : b64) : Z :=
  match x with B754_finite s m e _ => (cond_Zopp s (Zpos m) * 2 ^ (e + 1074))%Z | _ => 0%Z end.
Lemma scaled_correct x : is_finite x = true -> B2R x = IZR (scaled x) * bpow radix2 (-1074).
Proof.
  destruct x as [s|s| |s m e H]; try discriminate; intros _; cbn [B2R scaled]; [lra|].
  assert (He : (-1074 <= e)%Z).
  { unfold SpecFloat.bounded in H. apply andb_prop in H. destruct H as [H _]. apply Zeq_bool_eq in H.
    unfold SpecFloat.fexp, SpecFloat.emin, prec64, emax64 in H. lia. }
  unfold F2R. cbn [Fnum Fexp]. rewrite mult_IZR. rewrite Rmult_assoc. f_equal.
  change 2%Z with (radix_val radix2). rewrite IZR_Zpower by lia. rewrite <- bpow_plus. f_equal. lia.
Qed.
Definition exact_sum (l : list b64) : R := fold_right Rplus 0 (map B2R l).
Definition scaled_sum (l : list b64) : Z := fold_right Z.add 0%Z (map scaled l).
Lemma exact_sum_scaled l : forallb is_finite l = true -> exact_sum l = IZR (scaled_sum l) * bpow radix2 (-1074).
Proof.
  unfold exact_sum, scaled_sum. induction l as [|x l IH]; cbn [forallb map fold_right]; [lra|].
  intros H. apply andb_prop in H. destruct H as [H1 H2]. rewrite IH by exact H2. rewrite scaled_correct by exact H1.
  rewrite plus_IZR. lra.
Qed.
(** |sum - 1| <= 1/q *)
Definition near_one (q : Z) (l : list b64) : bool := (Z.abs (scaled_sum l - 2 ^ 1074) * q <=? 2 ^ 1074)%Z.
Lemma near_one_correct q l : (0 < q)%Z -> forallb is_finite l = true -> near_one q l = true -> Rabs (exact_sum l - 1) <= / IZR q.
Proof.
  intros Hq F H. rewrite exact_sum_scaled by exact F. unfold near_one in H. apply Z.leb_le in H. apply IZR_le in H. rewrite mult_IZR, abs_IZR, minus_IZR in H.
  assert (E : IZR (2 ^ 1074) = bpow radix2 1074) by (change 2%Z with (radix_val radix2); now rewrite IZR_Zpower by lia).
  rewrite E in H. pose proof (bpow_gt_0 radix2 1074) as P1. pose proof (bpow_gt_0 radix2 (-1074)) as P2.
  assert (I : bpow radix2 1074 * bpow radix2 (-1074) = 1) by (rewrite <- bpow_plus; reflexivity).
  assert (Hq' : 0 < IZR q) by now apply IZR_lt.
  replace (IZR (scaled_sum l) * bpow radix2 (-1074) - 1) with ((IZR (scaled_sum l) - bpow radix2 1074) * bpow radix2 (-1074)) by (rewrite Rmult_minus_distr_r; lra).
  rewrite Rabs_mult, (Rabs_pos_eq (bpow radix2 (-1074))) by lra.
  apply Rmult_le_reg_r with (IZR q); [exact Hq'|]. rewrite Rinv_l by lra.
  replace (Rabs (IZR (scaled_sum l) - bpow radix2 1074) * bpow radix2 (-1074) * IZR q) with
    ((Rabs (IZR (scaled_sum l) - bpow radix2 1074) * IZR q) * bpow radix2 (-1074)) by ring.
  rewrite <- I. apply Rmult_le_compat_r; lra.
Qed.
Lemma scaled_nonneg x : is_finite x = true -> (0 <= scaled x)%Z -> 0 <= B2R x.
Proof. intros F H. rewrite scaled_correct by exact F. apply Rmult_le_pos; [now apply IZR_le|apply bpow_ge_0]. Qed.
Lemma scaled_pos x : is_finite x = true -> (0 < scaled x)%Z -> 0 < B2R x.
Proof. intros F H. rewrite scaled_correct by exact F. apply Rmult_lt_0_compat; [now apply IZR_lt|apply bpow_gt_0]. Qed.

(** ** C09 *)
(** The profiles offered by --majorprofile and --minorprofile (src/justkeydding.cc:307-334). *)
Definition offered_profiles : list string := ["krumhansl_kessler"; "aarden_essen"; "bellman_budge"; "sapp"; "temperley"]%string.

Definition profile_check (e : string * list b64) : bool :=
  Nat.eqb (length (snd e)) 12 && forallb is_finite (snd e) && forallb (fun x => 0 <=? scaled x)%Z (snd e) &&
  near_one 50 (snd e) && (if existsb (String.eqb (fst e)) offered_profiles then near_one (10 ^ 15) (snd e) else true) &&
  (0 <? scaled (znth fzero (snd e) 0))%Z.
Lemma profiles_checked : forallb profile_check (builtin_major ++ builtin_minor) = true.
Proof. vm_compute. reflexivity. Qed.
Lemma profile_checked e : In e builtin_major \/ In e builtin_minor -> profile_check e = true.
Proof. intros H. apply (proj1 (forallb_forall _ _) profiles_checked). apply in_or_app. exact H. Qed.
Lemma C09_distribution_proof : forall name arr, In (name, arr) builtin_major \/ In (name, arr) builtin_minor ->
  length arr = 12%nat /\ (forall x, In x arr -> is_finite x = true /\ 0 <= B2R x) /\
  Rabs (exact_sum arr - 1) <= 1 / 50 /\ (In name offered_profiles -> Rabs (exact_sum arr - 1) <= / 10 ^ 15).
Proof.
  intros name arr H. apply profile_checked in H. unfold profile_check in H. cbn [fst snd] in H.
  repeat (apply andb_prop in H; destruct H as [H ?]).
  split; [now apply Nat.eqb_eq|]. split; [|split].
  - intros x Hx. match goal with A : forallb is_finite arr = true, B : forallb (fun x => (0 <=? scaled x)%Z) arr = true |- _ =>
      pose proof (proj1 (forallb_forall _ _) A x Hx) as FF; pose proof (proj1 (forallb_forall _ _) B x Hx) as NN end.
    split; [exact FF|]. apply scaled_nonneg; [exact FF|lia].
  - replace (1 / 50) with (/ IZR 50) by lra. apply near_one_correct; [lia|assumption|assumption].
  - intros Hn. rewrite (pow_IZR 10 15). change (Z.of_nat 15) with 15%Z.
    apply near_one_correct; [lia|assumption|].
    match goal with A : (if existsb _ _ then _ else _) = true |- _ => rename A into Q end.
    assert (X : existsb (String.eqb name) offered_profiles = true) by (apply existsb_exists; exists name; split; [exact Hn|apply String.eqb_refl]).
    now rewrite X in Q.
Qed.
Lemma C09_live_proof : forall maj mino A B p, In (maj, A) builtin_major -> In (mino, B) builtin_minor -> (0 <= p < 12)%Z ->
  exists k K, is_key k /\ majorb k = true /\ 0 < B2R (emission (keyprofile_new2 maj mino) k p) /\
              is_key K /\ majorb K = false /\ 0 < B2R (emission (keyprofile_new2 maj mino) K p).
Proof.
  intros maj mino A B p HA HB Hp. exists p, (p + 12)%Z.
  assert (P : forall e, In e builtin_major \/ In e builtin_minor -> 0 < B2R (znth fzero (snd e) 0)).
  { intros e He. apply profile_checked in He. unfold profile_check in He. repeat (apply andb_prop in He; destruct He as [He ?]).
    match goal with Q : (0 <? scaled _)%Z = true |- _ => apply Z.ltb_lt in Q; apply scaled_pos; [|exact Q]; revert Q end.
    destruct (znth fzero (snd e) 0); cbn [scaled]; intros; try lia; reflexivity. }
  assert (NM : assoc String.eqb maj builtin_major = Some A).
  { apply (NoDup_assoc _ Seqb_spec'); [|exact HA]. cbn [map fst builtin_major]. repeat constructor; cbn [In]; intuition discriminate. }
  assert (Nm : assoc String.eqb mino builtin_minor = Some B).
  { apply (NoDup_assoc _ Seqb_spec'); [|exact HB]. cbn [map fst builtin_minor]. repeat constructor; cbn [In]; intuition discriminate. }
  assert (CM : chosen builtin_major maj zero_profile = Some A).
  { unfold chosen. destruct (String.eqb_spec maj "custom") as [->|_]; [|exact NM]. vm_compute in NM. discriminate. }
  assert (Cm : chosen builtin_minor mino zero_profile = Some B).
  { unfold chosen. destruct (String.eqb_spec mino "custom") as [->|_]; [|exact Nm]. vm_compute in Nm. discriminate. }
  assert (K1 : is_key p) by (unfold is_key; lia). assert (K2 : is_key (p + 12)) by (unfold is_key; lia).
  assert (M1 : majorb p = true) by (unfold majorb; lia). assert (M2 : majorb (p + 12) = false) by (unfold majorb; lia).
  unfold keyprofile_new2.
  pose proof (C06_emission_proof maj mino zero_profile zero_profile A B p p eq_refl eq_refl CM Cm K1 Hp) as E1.
  pose proof (C06_emission_proof maj mino zero_profile zero_profile A B (p + 12) p eq_refl eq_refl CM Cm K2 Hp) as E2.
  rewrite M1 in E1. rewrite M2 in E2.
  replace ((p - tonic p) mod 12)%Z with 0%Z in E1 by (unfold tonic; lia).
  replace ((p - tonic (p + 12)) mod 12)%Z with 0%Z in E2 by (unfold tonic; lia).
  rewrite E1, E2. repeat split; try assumption; try (apply K1); try (apply K2).
  - apply (P (maj, A)). now left.
  - apply (P (mino, B)). now right.
Qed.

(** ** C13 *)
Definition unit_arrays : list string := ["linear"; "exponential2"; "exponential10"; "zero"; "symmetrical"]%string.
Definition fraction_check (e : string * (list Z * positive)) : bool :=
  let l := fst (snd e) in let d := Zpos (snd (snd e)) in
  Nat.eqb (length l) 24 && forallb (fun n => (0 <=? n)%Z) l &&
  if existsb (String.eqb (fst e)) unit_arrays
  then (fold_right Z.add 0 l =? d)%Z && forallb (fun n => (n <=? d)%Z) l
  else String.eqb (fst e) "heatmap" && (fold_right Z.add 0 l =? 108)%Z && (d =? 1)%Z.
Lemma fractions_checked : forallb fraction_check builtin_fractions = true.
Proof. vm_compute. reflexivity. Qed.
Lemma C13_distribution_proof : forall name arr, In (name, arr) builtin_transitions ->
  (In name unit_arrays ->
   exists (ns : list Z) (d : positive), length ns = 24%nat /\ (forall n, In n ns -> (0 <= n)%Z) /\
     fold_right Z.add 0%Z ns = Zpos d /\ map B2R arr = map (fun n => rnd (IZR n / IZR (Zpos d))) ns) /\
  (forall x, In x arr -> is_finite x = true /\ 0 <= B2R x) /\
  length arr = 24%nat.
Proof.
  intros name arr H. rewrite builtin_as_quotients in H. apply in_map_iff in H. destruct H as ([n [l d]] & E & Hin).
  cbn [fst snd] in E. assert (n = name) as -> by congruence. assert (arr = quotients (l, d)) as -> by congruence. clear E.
  pose proof (proj1 (forallb_forall _ _) fractions_checked _ Hin) as C. unfold fraction_check in C. cbn [fst snd] in C.
  apply andb_prop in C. destruct C as [C C3]. apply andb_prop in C. destruct C as [C1 C2]. apply Nat.eqb_eq in C1.
  unfold quotients. cbn [fst snd].
  assert (Hp : forall x, In x l -> (0 <= x)%Z) by (intros x Hx; pose proof (proj1 (forallb_forall _ _) C2 x Hx); lia).
  assert (F : forall x, In x l -> is_finite (rat64 x d) = true /\ B2R (rat64 x d) = rnd (IZR x / IZR (Zpos d))).
  { intros x Hx. destruct (existsb (String.eqb name) unit_arrays).
    - apply andb_prop in C3. destruct C3 as [_ C4]. apply rat64_unit. pose proof (proj1 (forallb_forall _ _) C4 x Hx). specialize (Hp x Hx). lia.
    - apply andb_prop in C3. destruct C3 as [C3 C4]. apply andb_prop in C3. destruct C3 as [C3 C5]. 
      destruct (Z.eq_dec x 0) as [->|Hx0].
      + destruct (rat64_zero d) as [A B]. split; [exact A|]. rewrite B. unfold Rdiv. rewrite Rmult_0_l. symmetry. apply round_0. apply valid_rnd_N.
      + apply rat64_correct; [specialize (Hp x Hx); lia|].
        assert (x <= 108)%Z.
        { apply Z.eqb_eq in C5. rewrite <- C5. clear - Hx Hp. induction l as [|y l IH]; [contradiction|]. cbn [fold_right].
          assert (P : forall m, (forall x, In x m -> (0 <= x)%Z) -> (0 <= fold_right Z.add 0 m)%Z).
          { induction m as [|z m IHm]; intros Hm; cbn [fold_right]; [lia|]. specialize (IHm ltac:(intros; apply Hm; now right)). pose proof (Hm z ltac:(now left)). lia. }
          destruct Hx as [->|Hx].
          - specialize (P l ltac:(intros; apply Hp; now right)). lia.
          - specialize (IH ltac:(intros; apply Hp; now right) Hx). pose proof (Hp y ltac:(now left)). lia. }
        apply Z.eqb_eq in C4. rewrite C4. unfold Rdiv. rewrite Rinv_1, Rmult_1_r.
        apply Rle_lt_trans with (bpow radix2 7); [|apply bpow_lt; lia].
        specialize (Hp x Hx). apply Rabs_le. split.
        * apply Rle_trans with 0; [pose proof (bpow_ge_0 radix2 7); lra|]. apply round_ge_generic; [exact fexp64_valid|apply valid_rnd_N|apply generic_format_0|]. apply IZR_le. lia.
        * apply round_le_generic; [exact fexp64_valid|apply valid_rnd_N| |].
          -- apply generic_format_bpow. unfold SpecFloat.fexp, SpecFloat.emin, prec64, emax64. lia.
          -- change (bpow radix2 7) with 128. apply IZR_le. lia. }
  split; [|split].
  - intros Hn. exists l, d. split; [exact C1|]. split; [exact Hp|]. split.
    + assert (X : existsb (String.eqb name) unit_arrays = true) by (apply existsb_exists; exists name; split; [exact Hn|apply String.eqb_refl]).
      rewrite X in C3. apply andb_prop in C3. destruct C3 as [C3 _]. lia.
    + rewrite map_map. apply map_ext_in. intros x Hx. now apply F.
  - intros x Hx. apply in_map_iff in Hx. destruct Hx as (n & <- & Hn). destruct (F n Hn) as [A B]. split; [exact A|].
    rewrite B. apply round_ge_generic; [exact fexp64_valid|apply valid_rnd_N|apply generic_format_0|].
    apply Rmult_le_pos; [apply IZR_le; now apply Hp|]. apply Rlt_le, Rinv_0_lt_compat. apply IZR_lt. lia.
  - now rewrite map_length.
Qed.
Lemma C13_heatmap_proof : exists arr, In ("heatmap"%string, arr) builtin_transitions /\ exact_sum arr = 108.
Proof.
  exists (quotients ([1; 6; 4; 4; 5; 2; 9; 2; 5; 4; 4; 6; 2; 8; 3; 7; 3; 3; 7; 3; 8; 2; 5; 5], 1%positive)%Z). split.
  - rewrite builtin_as_quotients. apply in_map_iff. exists ("heatmap"%string, ([1; 6; 4; 4; 5; 2; 9; 2; 5; 4; 4; 6; 2; 8; 3; 7; 3; 3; 7; 3; 8; 2; 5; 5], 1%positive))%Z.
    split; [reflexivity|]. cbn [In builtin_fractions]. do 5 right. now left.
  - rewrite exact_sum_scaled by (vm_compute; reflexivity).
    assert (E : scaled_sum (quotients ([1; 6; 4; 4; 5; 2; 9; 2; 5; 4; 4; 6; 2; 8; 3; 7; 3; 3; 7; 3; 8; 2; 5; 5], 1%positive)%Z) = (108 * 2 ^ 1074)%Z) by (vm_compute; reflexivity).
    rewrite E, mult_IZR. change 2%Z with (radix_val radix2). rewrite IZR_Zpower by lia. rewrite Rmult_assoc, <- bpow_plus.
    change (bpow radix2 (1074 + -1074)) with 1. apply Rmult_1_r.
Qed.
