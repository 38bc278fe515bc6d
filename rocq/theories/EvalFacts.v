(** Facts about the evaluator of the optimizer. *)
From Coq Require Import Lia Lra Reals.
From Flocq Require Import Core.Core IEEE754.BinarySingleNaN.
From Verif Require Import Base BaseFacts Fp FpFacts NumFacts HmmAccuracy FloatKit Text Py KeyProfile Options OptTables Optimizer Ga.
From Verif Require Import OptSpec GaSpec OptFacts GenFacts.
Open Scope Z_scope.

Lemma format_B2R (x : b64) : generic_format radix2 fexp64 (B2R x).
Proof. apply generic_format_B2R. Qed.
Lemma format_int z : Z.abs z <= 2 ^ 53 -> generic_format radix2 fexp64 (IZR z).
Proof.
  intros H. destruct (Z.eq_dec (Z.abs z) (2 ^ 53)) as [E|E].
  - assert (X : generic_format radix2 fexp64 (bpow radix2 53)) by (apply generic_format_bpow; unfold SpecFloat.fexp, SpecFloat.emin, prec64, emax64; lia).
    assert (z = 2 ^ 53 \/ z = - 2 ^ 53) as [-> | ->] by lia; [exact X|]. rewrite opp_IZR. apply generic_format_opp. exact X.
  - apply generic_format_FLT. exists (Float radix2 z 0); [unfold F2R; cbn [Fnum Fexp bpow]; ring|cbn [Fnum]; match goal with |- (_ < ?x)%Z => change x with (2 ^ 53)%Z end; lia|vm_compute; discriminate].
Qed.
Lemma b53 : bpow radix2 (-53) = (/ 2 ^ 53)%R.
Proof. change (bpow radix2 (-53)) with (/ 9007199254740992)%R. f_equal. ring. Qed.
Definition below_one : R := (1 - / 2 ^ 53)%R.
Lemma format_below : generic_format radix2 fexp64 below_one.
Proof. apply generic_format_FLT. exists (Float radix2 (2 ^ 53 - 1) (-53)); [|cbn [Fnum]; match goal with |- (_ < ?x)%Z => change x with (2 ^ 53)%Z end; lia|vm_compute; discriminate]. unfold F2R, below_one. cbn [Fnum Fexp]. rewrite minus_IZR, b53. replace (IZR (2 ^ 53)) with (2 ^ 53)%R by (change (IZR (2 ^ 53)) with 9007199254740992%R; ring). field. Qed.
Lemma under_one v : generic_format radix2 fexp64 v -> (v < 1)%R -> (v <= below_one)%R.
Proof.
  intros F L. assert (F1 : generic_format radix2 fexp64 1) by (exact (format_int 1 ltac:(lia))). pose proof (pred_ge_gt radix2 fexp64 v 1 F F1 L) as P. change 1%R with (bpow radix2 0) in P. rewrite pred_bpow in P by typeclasses eauto. change (fexp64 0) with (-53) in P. rewrite b53 in P. exact P.
Qed.
Lemma rounded_squares : fair_squares rounded_power.
Proof.
  intros x (F & L & U). destruct x as [s|s| |s m e Hb]; try discriminate.
  - cbn [rounded_power B2R] in *. split; [split; [reflexivity|cbn [B2R fzero]; lra]|]. split; [cbn; tauto|reflexivity].
  - unfold rounded_power. set (x := B754_finite s m e Hb) in *. assert (E : (B2R x * B2R x)%R = F2R (Float radix2 (cond_Zopp s (Z.pos m) ^ 2) (e * 2))).
    { pose proof (F2R_pow (cond_Zopp s (Z.pos m)) e 2) as P. cbn [Z.of_nat Pos.of_succ_nat Pos.succ] in P. rewrite <- P. cbn [x B2R Rpow_def.pow]. ring. }
    pose proof (binary_normalize_correct prec64 emax64 _ _ mode_NE (cond_Zopp s (Zpos m) ^ 2) (e * 2) false) as C. cbv zeta in C. rewrite <- E in C. cbn [round_mode] in C.
    assert (V : (0 <= B2R x * B2R x <= 1)%R) by nra. assert (F1 : generic_format radix2 fexp64 1) by (exact (format_int 1 ltac:(lia))).
    rewrite rnd_big in C by (rewrite Rabs_pos_eq by lra; unfold big; apply Rle_trans with 1%R; [lra|change 1%R with (bpow radix2 0); apply bpow_le; lia]). destruct C as (C1 & C2 & _). fold (rnd (B2R x * B2R x)) in C1.
    split; [split; [exact C2|]; rewrite C1; split; [apply rnd_ge0; lra|apply rnd_ub; [exact F1|lra]]|]. rewrite C1. split.
    + split; [|intros ->; rewrite Rmult_1_r; now apply rnd_id]. intros Q. destruct (Rlt_or_le (B2R x) 1) as [K|K]; [|lra]. apply (under_one _ (format_B2R x)) in K. exfalso. assert (B2R x * B2R x <= below_one)%R by (unfold below_one in *; nra).
      pose proof (rnd_ub _ _ format_below H) as X. unfold below_one in X. lra.
    + intros ->. rewrite Rmult_0_l. apply rnd_id. exact (format_int 0 ltac:(lia)).
Qed.
Section Eval.
Variable pow : b64 -> Z -> b64.
Variable detector : string -> string -> string -> option b64.
Hypothesis SQ : fair_squares pow.
Hypothesis SC : fair_scores detector.
Lemma one_R : is_finite (py_float 1) = true /\ B2R (py_float 1) = 1%R.
Proof. destruct (py_float_R 1 ltac:(lia)) as (A & B). now split. Qed.
Lemma error_range kp kt file : let e := run_keydetection pow detector kp kt file in
  fraction e /\ (B2R e = 0%R <-> perfect detector kp kt file) /\ (detector kp kt file = None -> B2R e = 1%R).
Proof.
  cbv zeta. unfold run_keydetection. set (s := match detector kp kt file with Some s => s | None => fzero end). assert (FS : fraction s) by (unfold s; destruct (detector kp kt file) as [x|] eqn:D; [now apply (SC kp kt file)|split; [reflexivity|cbn; lra]]).
  destruct (SQ s FS) as ((FQ & Q0 & Q1) & QE & QZ). destruct one_R as (F1 & E1). assert (G1 : generic_format radix2 fexp64 1) by (exact (format_int 1 ltac:(lia))).
  destruct (fsub_R (py_float 1) (pow s 2) F1 FQ) as (FR & ER); [rewrite E1, Rabs_pos_eq by lra; unfold big; apply Rle_trans with 1%R; [lra|change 1%R with (bpow radix2 0); apply bpow_le; lia]|]. rewrite E1 in ER.
  split; [split; [exact FR|]; rewrite ER; split; [apply rnd_ge0; lra|apply rnd_ub; [exact G1|lra]]|]. rewrite ER. split.
  - split.
    + intros Z. destruct (Rlt_or_le (B2R (pow s 2)) 1) as [K|K].
      * exfalso. apply (under_one _ (format_B2R _)) in K. assert (H : (/ 2 ^ 53 <= 1 - B2R (pow s 2))%R) by (unfold below_one in K; lra).
        assert (FB : generic_format radix2 fexp64 (bpow radix2 (-53))) by (apply generic_format_bpow; unfold SpecFloat.fexp, SpecFloat.emin, prec64, emax64; lia). rewrite <- b53 in H. pose proof (rnd_lb _ _ FB H) as X. rewrite Z in X. pose proof (bpow_gt_0 radix2 (-53)). lra.
      * assert (Q : B2R s = 1%R) by (apply QE; lra). unfold s in Q. unfold perfect. destruct (detector kp kt file) as [x|]; [now exists x|]. cbn in Q. lra.
    + intros (x & D & X). assert (Q : B2R (pow s 2) = 1%R) by (apply QE; unfold s; rewrite D; exact X). rewrite Q. replace (1 - 1)%R with 0%R by ring. apply rnd_id. exact (format_int 0 ltac:(lia)).
  - intros D. assert (Q : B2R (pow s 2) = 0%R) by (apply QZ; unfold s; rewrite D; reflexivity). rewrite Q, Rminus_0_r. now apply rnd_id.
Qed.
Lemma adding (l : list b64) : Forall fraction l -> forall (acc : b64) k, is_finite acc = true -> (0 <= B2R acc <= IZR k)%R -> 0 <= k -> k + Z.of_nat (length l) <= 2 ^ 53 ->
  let s := fold_left fadd l acc in is_finite s = true /\ (B2R acc <= B2R s <= IZR (k + Z.of_nat (length l)))%R /\ (forall x, In x l -> (B2R x <= B2R s)%R) /\ (B2R acc = 0%R -> Forall (fun x => B2R x = 0%R) l -> B2R s = 0%R).
Proof.
  cbv zeta. induction l as [|a l IH]; intros F acc k FA A K N.
  - cbn [fold_left length]. rewrite Z.add_0_r. split; [exact FA|]. split; [lra|]. split; [intros x []|auto].
  - inversion F as [|? ? (FX & X0 & X1) FL]; subst. cbn [fold_left length] in *. assert (KR : (IZR k <= IZR (2 ^ 53))%R) by (apply IZR_le; lia). assert (K0 : (0 <= IZR k)%R) by (apply IZR_le; lia). replace (IZR (2 ^ 53)) with (2 ^ 53)%R in KR by (change (IZR (2 ^ 53)) with 9007199254740992%R; ring).
    destruct (fadd_R acc a FA FX) as (F2 & E2); [rewrite Rabs_pos_eq by lra; apply Rle_trans with (2 ^ 54)%R; [lra|unfold big; apply Rle_trans with (bpow radix2 54); [change (bpow radix2 54) with 18014398509481984%R; lra|apply bpow_le; lia]]|].
    assert (LB : (B2R acc <= B2R (fadd acc a))%R) by (rewrite E2; apply rnd_lb; [apply format_B2R|lra]). assert (LX : (B2R a <= B2R (fadd acc a))%R) by (rewrite E2; apply rnd_lb; [apply format_B2R|lra]).
    assert (UB : (B2R (fadd acc a) <= IZR (k + 1))%R) by (rewrite E2; apply rnd_ub; [apply format_int; lia|rewrite plus_IZR; lra]).
    destruct (IH FL (fadd acc a) (k + 1) F2 ltac:(split; lra) ltac:(lia) ltac:(lia)) as (S1 & S2 & S3 & S4). split; [exact S1|]. split; [replace (k + Z.of_nat (S (length l))) with (k + 1 + Z.of_nat (length l)) by lia; lra|]. split.
    + intros x [<-|X]; [lra|now apply S3].
    + intros Z Y. inversion Y as [|? ? Y1 Y2]; subst. apply S4; [|exact Y2]. rewrite E2, Z, Y1, Rplus_0_r. apply rnd_id. exact (format_int 0 ltac:(lia)).
Qed.
Lemma adding_mono (l l' : list b64) : Forall fraction l -> Forall fraction l' -> Forall2 (fun x y : b64 => (B2R x <= B2R y)%R) l l' -> forall (a a' : b64) k, is_finite a = true -> is_finite a' = true -> (0 <= B2R a)%R -> (B2R a <= B2R a')%R -> (B2R a' <= IZR k)%R -> 0 <= k -> k + Z.of_nat (length l) <= 2 ^ 53 ->
  (B2R (fold_left fadd l a) <= B2R (fold_left fadd l' a'))%R.
Proof.
  intros F F' H. induction H as [|x y l l' XY H IH]; intros a a' k FA FA' A0 A AK K N; [exact A|]. inversion F as [|? ? (FX & X0 & X1) FL]; subst. inversion F' as [|? ? (FY & Y0 & Y1) FL']; subst. cbn [fold_left length] in *.
  assert (KR : (IZR k <= IZR (2 ^ 53))%R) by (apply IZR_le; lia). replace (IZR (2 ^ 53)) with (2 ^ 53)%R in KR by (change (IZR (2 ^ 53)) with 9007199254740992%R; ring).
  assert (BG : (2 ^ 54 <= big)%R) by (unfold big; apply Rle_trans with (bpow radix2 54); [change (bpow radix2 54) with 18014398509481984%R; lra|apply bpow_le; lia]).
  destruct (fadd_R a x FA FX) as (F2 & E2); [rewrite Rabs_pos_eq by lra; lra|]. destruct (fadd_R a' y FA' FY) as (F3 & E3); [rewrite Rabs_pos_eq by lra; lra|].
  apply (IH FL FL' (fadd a x) (fadd a' y) (k + 1)); try assumption; try lia.
  - rewrite E2. apply rnd_ge0. lra.
  - rewrite E2, E3. apply rnd_le. lra.
  - rewrite E3. apply rnd_ub; [apply format_int; lia|rewrite plus_IZR; lra].
Qed.
Lemma zero_R : is_finite (py_float 0) = true /\ B2R (py_float 0) = 0%R. Proof. split; reflexivity. Qed.
Lemma total_range files kp kt : Z.of_nat (length files) <= 2 ^ 53 -> let s := total_error pow detector files kp kt in
  is_finite s = true /\ (0 <= B2R s <= IZR (Z.of_nat (length files)))%R /\ (forall f, In f files -> (B2R (run_keydetection pow detector kp kt f) <= B2R s)%R) /\ (B2R s = 0%R <-> forall f, In f files -> perfect detector kp kt f).
Proof.
  intros N. cbv zeta. unfold total_error, py_sum. set (l := map _ files). assert (F : Forall fraction l) by (apply Forall_map, Forall_forall; intros f _; apply error_range). destruct zero_R as (FZ & EZ).
  destruct (adding l F (py_float 0) 0 FZ ltac:(rewrite EZ; lra) ltac:(lia) ltac:(unfold l; rewrite map_length; lia)) as (S1 & S2 & S3 & S4). assert (LL : length l = length files) by apply map_length. rewrite EZ, LL in S2. cbn [Z.add] in S2.
  assert (S5 : forall f, In f files -> (B2R (run_keydetection pow detector kp kt f) <= B2R (fold_left fadd l (py_float 0)))%R) by (intros f I; apply S3; unfold l; now apply in_map).
  split; [exact S1|]. split; [exact S2|]. split; [exact S5|]. split.
  - intros Z f I. destruct (error_range kp kt f) as ((_ & E0 & _) & EP & _). apply EP. pose proof (S5 f I). lra.
  - intros H. apply S4; [exact EZ|]. unfold l. apply Forall_map, Forall_forall. intros f I. apply (error_range kp kt f). now apply H.
Qed.
Lemma total_mono files kp kt kp' kt' : Z.of_nat (length files) <= 2 ^ 53 -> (forall f, In f files -> (B2R (run_keydetection pow detector kp kt f) <= B2R (run_keydetection pow detector kp' kt' f))%R) ->
  (B2R (total_error pow detector files kp kt) <= B2R (total_error pow detector files kp' kt'))%R.
Proof.
  intros N H. unfold total_error, py_sum. destruct zero_R as (FZ & EZ). apply (adding_mono _ _) with (k := 0); rewrite ?EZ, ?map_length; try assumption; try lra; try lia; try (apply Forall_map, Forall_forall; intros f _; apply error_range).
  clear N. induction files as [|f l IH]; [constructor|]. cbn [map]. constructor; [apply H; now left|apply IH; intros x X; apply H; now right].
Qed.
End Eval.
