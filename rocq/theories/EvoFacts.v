(** Facts about the evolver of the optimizer. *)
From Coq Require Import Lia Lra Reals.
From Flocq Require Import Core.Core IEEE754.BinarySingleNaN.
From Verif Require Import Base Fp Text Py KeyProfile Options OptTables Optimizer.
From Verif Require Import TextSpec PrintSpec ChromaSpec MusicSpec DataSpec OptSpec FpFacts NumFacts NumberFacts FormatFacts FloatKit ChromaFacts OptFacts NearFacts GenFacts.
Open Scope Z_scope.

(** ** Shares of a population *)
Lemma fifth : is_finite (dec 2 1) = true /\ (1 / 5 <= B2R (dec 2 1) <= 1 / 5 + / 2 ^ 56)%R.
Proof.
  assert (E : B2SF (dec 2 1) = SpecFloat.S754_finite false 7205759403792794 (-55)) by (vm_compute; reflexivity).
  assert (F : is_finite (dec 2 1) = true) by (rewrite <- is_finite_SF_B2SF, E; reflexivity). split; [exact F|].
  rewrite <- SF2R_B2SF, E. unfold SF2R, F2R. cbn [Fnum Fexp cond_Zopp]. change (bpow radix2 (-55)) with (/ 36028797018963968)%R. lra.
Qed.
Lemma three_tenths : is_finite (dec 3 1) = true /\ B2R (dec 3 1) = (5404319552844595 / 18014398509481984)%R.
Proof.
  assert (E : B2SF (dec 3 1) = SpecFloat.S754_finite false 5404319552844595 (-54)) by (vm_compute; reflexivity).
  assert (F : is_finite (dec 3 1) = true) by (rewrite <- is_finite_SF_B2SF, E; reflexivity). split; [exact F|].
  rewrite <- SF2R_B2SF, E. unfold SF2R, F2R. cbn [Fnum Fexp cond_Zopp]. change (bpow radix2 (-54)) with (/ 18014398509481984)%R. reflexivity.
Qed.
Lemma tenth_value : is_finite mutation_ratio = true /\ B2R mutation_ratio = rounded 53 1024 (1 / 10).
Proof. apply (rat64_unit 1 10). lia. Qed.
Lemma just_below (m : Z) v : 1 <= m <= 2 ^ 52 -> (IZR m * (1 - 2 / (3 * 18014398509481984)) <= v)%R -> (IZR m <= rnd v)%R.
Proof.
  intros M V. assert (FM : generic_format radix2 fexp64 (IZR m)) by (apply int_format; lia). apply round_N_ge_midp; [apply _|exact FM|].
  assert (P : (0 < IZR m)%R) by (apply IZR_lt; lia). pose proof (pred_plus_ulp radix2 fexp64 (IZR m) P FM) as E.
  pose proof (ulp_FLT_gt radix2 (-1074) 53 (pred radix2 fexp64 (IZR m))) as U. change (FLT_exp (-1074) 53) with fexp64 in U.
  assert (N : (0 <= pred radix2 fexp64 (IZR m))%R) by (apply pred_ge_0; [apply _|exact P|exact FM]). rewrite Rabs_pos_eq in U by exact N.
  change (bpow radix2 (- (53))) with (/ 9007199254740992)%R in U. set (q := ulp radix2 fexp64 (pred radix2 fexp64 (IZR m))) in *. set (p := pred radix2 fexp64 (IZR m)) in *. clearbody p q. lra.
Qed.
Lemma whole_part k v : 0 <= k <= 2 ^ 47 -> (IZR k <= v <= IZR k + 9 / 10 + 1 / 20)%R -> Ztrunc (rnd v) = k.
Proof.
  intros K V. assert (P : (0 <= IZR k <= 1125899906842624)%R) by (split; [apply IZR_le; lia|apply (IZR_le k (2 ^ 50)); lia]).
  assert (L : (IZR k <= rnd v)%R) by (apply rnd_lb; [apply int_format; lia|lra]). rewrite Ztrunc_floor by lra. apply Zfloor_imp. split; [exact L|].
  assert (U : (rnd v <= rnd (IZR k + 31 / 32))%R) by (apply rnd_le; lra). apply Rle_lt_trans with (1 := U).
  rewrite rnd_id. { rewrite plus_IZR. change (IZR 1) with 1%R. lra. }
  apply (generic_format_FLT radix2 (-1074) 53). exists (Float radix2 (32 * k + 31) (-5)); [|cbn [Fnum]; change (Z.abs (32 * k + 31) < 2 ^ 53); lia|cbn [Fexp]; lia]. unfold F2R. cbn [Fnum Fexp]. rewrite plus_IZR, mult_IZR. change (bpow radix2 (-5)) with (/ 32)%R. lra.
Qed.
Lemma rounded_product (n : Z) (s : b64) : 0 <= n <= 2 ^ 50 -> is_finite s = true -> (0 <= B2R s <= 1)%R -> py_int (fmul (py_float n) s) = Ztrunc (rnd (IZR n * B2R s)).
Proof.
  intros N F B. destruct (py_float_R n ltac:(lia)) as (FN & EN). assert (P : (0 <= IZR n <= 1125899906842624)%R) by (split; [apply IZR_le; lia|apply (IZR_le n (2 ^ 50)); lia]).
  destruct (fmul_R (py_float n) s FN F) as (FM & EM).
  { rewrite EN, Rabs_pos_eq by nra. apply Rle_trans with 1125899906842624%R; [nra|]. change 1125899906842624%R with (bpow radix2 50). apply bpow_le. lia. }
  rewrite EN in EM. unfold py_int. apply eq_IZR. rewrite Btrunc_correct by reflexivity. rewrite EM. unfold round, scaled_mantissa, cexp, FIX_exp, F2R. cbn [Fnum Fexp bpow Z.opp]. rewrite !Rmult_1_r. reflexivity.
Qed.
Lemma share_fifth {A} (l : list A) : Z.of_nat (length l) <= 2 ^ 47 -> share_of l (dec 2 1) = (length l / 5)%nat.
Proof.
  intros L. unfold share_of. destruct fifth as (F & B). rewrite rounded_product; [|lia|exact F|lra]. set (n := Z.of_nat (length l)) in *.
  rewrite (whole_part (n / 5)).
  - unfold n. rewrite <- (Nat2Z.id (length l / 5)). rewrite Nat2Z.inj_div. reflexivity.
  - split; [apply Z.div_pos; lia|]. apply Z.div_le_upper_bound; lia.
  - pose proof (Z.div_mod n 5 ltac:(lia)) as D. pose proof (Z.mod_pos_bound n 5 ltac:(lia)) as M. assert (P : (0 <= IZR n <= 1125899906842624)%R) by (split; [apply IZR_le; lia|apply (IZR_le n (2 ^ 50)); lia]).
    assert (H1 : (5 * IZR (n / 5) <= IZR n)%R) by (rewrite <- mult_IZR; apply IZR_le; lia). assert (H2 : (IZR n <= 5 * IZR (n / 5) + 4)%R) by (rewrite <- mult_IZR, <- plus_IZR; apply IZR_le; lia).
    split; [nra|]. assert (IZR n * B2R (dec 2 1) <= IZR n * (1 / 5) + IZR n * / 2 ^ 56)%R by nra. assert (IZR n * / 2 ^ 56 <= 1125899906842624 * / 2 ^ 56)%R by (apply Rmult_le_compat_r; lra). lra.
Qed.
Lemma share_three_tenths {A} (l : list A) : Z.of_nat (length l) <= 2 ^ 47 -> share_of l (dec 3 1) = (3 * length l / 10)%nat.
Proof.
  intros L. unfold share_of. destruct three_tenths as (F & B). rewrite rounded_product; [|lia|exact F|lra]. set (n := Z.of_nat (length l)) in *. rewrite B.
  assert (N : 0 <= n) by lia. set (k := 3 * n / 10).
  assert (E : Ztrunc (rnd (IZR n * (5404319552844595 / 18014398509481984))) = k).
  { pose proof (Z.div_mod (3 * n) 10 ltac:(lia)) as D. pose proof (Z.mod_pos_bound (3 * n) 10 ltac:(lia)) as M. fold k in D.
    assert (P : (0 <= IZR n <= 1125899906842624)%R) by (split; [apply IZR_le; lia|apply (IZR_le n (2 ^ 50)); lia]). assert (K : 0 <= k <= 2 ^ 47) by (split; [apply Z.div_pos; lia|apply Z.div_le_upper_bound; lia]).
    assert (H2 : (3 * IZR n <= 10 * IZR k + 9)%R) by (rewrite <- !mult_IZR, <- plus_IZR; apply IZR_le; lia). assert (K0 : (0 <= IZR k)%R) by (apply IZR_le; lia).
    destruct (Z.eq_dec ((3 * n) mod 10) 0) as [Z0|NZ].
    - assert (H : (3 * IZR n = 10 * IZR k)%R) by (rewrite <- !mult_IZR; f_equal; lia). destruct (Z.eq_dec k 0) as [K1|K1].
      + rewrite K1 in *. replace (IZR n) with 0%R by (change (IZR 0) with 0%R in H; lra). rewrite Rmult_0_l, rnd_id by apply generic_format_0. apply (Ztrunc_IZR 0).
      + assert (Lo : (IZR k <= rnd (IZR n * (5404319552844595 / 18014398509481984)))%R) by (apply just_below; [lia|]; lra).
        assert (Hi : (rnd (IZR n * (5404319552844595 / 18014398509481984)) <= IZR k)%R) by (apply rnd_ub; [apply int_format; lia|lra]).
        rewrite (Rle_antisym _ _ Hi Lo). apply Ztrunc_IZR.
    - apply whole_part; [exact K|]. assert (H1 : (10 * IZR k + 1 <= 3 * IZR n)%R) by (rewrite <- !mult_IZR, <- plus_IZR; apply IZR_le; lia). split; lra. }
  rewrite E. unfold k, n. rewrite <- (Nat2Z.id (3 * length l / 10)). rewrite Nat2Z.inj_div, Nat2Z.inj_mul. reflexivity.
Qed.

(** ** Moving a tenth *)
Open Scope R_scope.
Definition okv (x : b64) : Prop := is_finite x = true /\ 0 <= B2R x.
Lemma total_replace (l : list b64) i (x v : b64) : nth_error l i = Some x -> real_total (replace_nth l i v) = real_total l - B2R x + B2R v.
Proof.
  revert i. induction l as [|y l IH]; intros [|i] E; cbn [nth_error] in E; try discriminate.
  - injection E as ->. unfold real_total. cbn. lra.
  - unfold real_total in *. cbn [replace_nth map fold_right]. rewrite (IH i E). lra.
Qed.
Lemma total_nonneg l : Forall okv l -> 0 <= real_total l.
Proof. induction 1 as [|x l (F & P) H IH]; unfold real_total in *; cbn; lra. Qed.
Lemma nth_error_replace_same {A} (l : list A) : forall i v, (i < length l)%nat -> nth_error (replace_nth l i v) i = Some v.
Proof. induction l as [|y l IH]; intros [|i] v L; cbn in *; try lia; [reflexivity|]. apply IH. lia. Qed.
Lemma nth_error_replace_other {A} (l : list A) : forall i k v, k <> i -> nth_error (replace_nth l i v) k = nth_error l k.
Proof. induction l as [|y l IH]; intros [|i] [|k] v N; cbn in *; try reflexivity; try congruence. apply IH. congruence. Qed.
Lemma Forall_replace {A} (P : A -> Prop) (l : list A) : forall i v, Forall P l -> P v -> Forall P (replace_nth l i v).
Proof. induction l as [|y l IH]; intros [|i] v F V; cbn; auto; inversion F; subst; constructor; auto. Qed.
Lemma okv_zero : okv fzero. Proof. split; [reflexivity|cbn; lra]. Qed.
Lemma pair_below l i j (x y : b64) : Forall okv l -> i <> j -> nth_error l i = Some x -> nth_error l j = Some y -> B2R x + B2R y <= real_total l.
Proof.
  intros F N X Y. pose proof (total_nonneg (replace_nth (replace_nth l i fzero) j fzero)) as P.
  rewrite (total_replace _ j y) in P by (rewrite nth_error_replace_other by congruence; exact Y). rewrite (total_replace _ i x) in P by exact X. change (B2R fzero) with 0 in P.
  assert (Q : Forall okv (replace_nth (replace_nth l i fzero) j fzero)) by (apply Forall_replace; [apply Forall_replace; [exact F|exact okv_zero]|exact okv_zero]). specialize (P Q). lra.
Qed.
Lemma tenth_bounds : 0 <= B2R mutation_ratio <= 1 / 2.
Proof.
  assert (E : B2SF mutation_ratio = SpecFloat.S754_finite false 7205759403792794 (-56)) by (vm_compute; reflexivity).
  rewrite <- SF2R_B2SF, E. unfold SF2R, F2R. cbn [Fnum Fexp cond_Zopp]. change (bpow radix2 (-56)) with (/ 72057594037927936). lra.
Qed.
Lemma one_move (x y : b64) : okv x -> okv y -> B2R x + B2R y <= 4 ->
  let d := fmul x mutation_ratio in okv (fsub x d) /\ okv (fadd y d) /\
  B2R d = rnd (B2R x * B2R mutation_ratio) /\ B2R (fsub x d) = rnd (B2R x - B2R d) /\ B2R (fadd y d) = rnd (B2R y + B2R d) /\
  Rabs (B2R (fsub x d) + B2R (fadd y d) - (B2R x + B2R y)) <= 2 * u * (B2R x + B2R y).
Proof.
  intros (FX & PX) (FY & PY) S. cbv zeta. destruct tenth_value as (FT & _). pose proof tenth_bounds as T. set (d := fmul x mutation_ratio).
  assert (BB : 8 <= big) by (change 8 with (bpow radix2 3); apply bpow_le; lia).
  destruct (fmul_R x mutation_ratio FX FT) as (FD & ED); [rewrite Rabs_pos_eq by nra; nra|]. fold d in FD, ED.
  assert (D : 0 <= B2R d <= B2R x). { rewrite ED. split; [apply rnd_ge0; nra|]. apply rnd_ub; [apply generic_format_B2R|nra]. }
  destruct (fsub_R x d FX FD) as (FS & ES); [rewrite Rabs_pos_eq by lra; lra|]. destruct (fadd_R y d FY FD) as (FA & EA); [rewrite Rabs_pos_eq by lra; lra|].
  assert (NS : near 1 (rnd (B2R x - B2R d)) (B2R x - B2R d)).
  { unfold Rminus. apply rnd_plus_near; [apply generic_format_B2R|apply generic_format_opp, generic_format_B2R|lra]. }
  assert (NA : near 1 (rnd (B2R y + B2R d)) (B2R y + B2R d)) by (apply rnd_plus_near; [apply generic_format_B2R|apply generic_format_B2R|lra]).
  assert (X0 : 0 <= B2R x - B2R d) by lra. assert (Y0 : 0 <= B2R y + B2R d) by lra.
  pose proof (near_error 1 _ _ ltac:(lia) X0 NS) as R1. pose proof (near_error 1 _ _ ltac:(lia) Y0 NA) as R2. cbn [INR] in R1, R2. rewrite <- ES in *. rewrite <- EA in *.
  split; [split; [exact FS|exact (near_nonneg 1 _ _ X0 NS)]|]. split; [split; [exact FA|exact (near_nonneg 1 _ _ Y0 NA)]|]. split; [exact ED|]. split; [reflexivity|]. split; [reflexivity|].
  apply Rabs_le_inv in R1. apply Rabs_le_inv in R2. apply Rabs_le. lra.
Qed.
Lemma move_done (l : table) i j (x y : b64) : nth_error l i = Some x -> nth_error l j = Some y -> i <> j ->
  move_delta l mutation_ratio i j = Returns (replace_nth (replace_nth l i (fsub x (fmul x mutation_ratio))) j (fadd y (fmul x mutation_ratio))).
Proof.
  intros X Y N. unfold move_delta, item. rewrite X, Y. cbn [pybind]. rewrite nth_error_replace_other by congruence. rewrite Y. reflexivity.
Qed.
Lemma move_spec (may : nat -> nat -> Prop) (l l' : table) i j : Forall okv l -> i <> j -> (i < length l)%nat -> (j < length l)%nat -> may i j -> real_total l <= 4 ->
  move_delta l mutation_ratio i j = Returns l' -> moved may l l' /\ Forall okv l' /\ Rabs (real_total l' - real_total l) <= 2 * u * real_total l.
Proof.
  intros F N LI LJ Q T E. destruct (nth_error l i) as [x|] eqn:X; [|apply nth_error_None in X; lia]. destruct (nth_error l j) as [y|] eqn:Y; [|apply nth_error_None in Y; lia].
  rewrite (move_done l i j x y X Y N) in E. injection E as <-. pose proof (pair_below l i j x y F N X Y) as P. rewrite Forall_forall in F. pose proof (F x (nth_error_In _ _ X)) as OX. pose proof (F y (nth_error_In _ _ Y)) as OY.
  destruct (one_move x y OX OY ltac:(lra)) as (O1 & O2 & ED & ES & EA & R). set (d := fmul x mutation_ratio) in *.
  assert (LL : (j < length (replace_nth l i (fsub x d)))%nat) by (rewrite replace_nth_length; exact LJ).
  split; [|split].
  - exists i, j, x, y, (fsub x d), (fadd y d). split; [exact N|]. split; [exact Q|]. split; [exact X|]. split; [exact Y|]. split; [now rewrite !replace_nth_length|].
    split; [rewrite nth_error_replace_other by congruence; apply nth_error_replace_same; exact LI|]. split; [apply nth_error_replace_same; exact LL|].
    split; [intros k K1 K2; rewrite !nth_error_replace_other by congruence; reflexivity|]. cbv zeta. rewrite (proj2 tenth_value) in ED. rewrite ES, EA, ED. split; reflexivity.
  - apply Forall_replace; [apply Forall_replace; [now apply Forall_forall|exact O1]|exact O2].
  - rewrite (total_replace _ j y) by (rewrite nth_error_replace_other by congruence; exact Y). rewrite (total_replace _ i x) by exact X.
    replace (real_total l - B2R x + B2R (fsub x d) - B2R y + B2R (fadd y d) - real_total l) with (B2R (fsub x d) + B2R (fadd y d) - (B2R x + B2R y)) by ring.
    apply Rle_trans with (1 := R). pose proof u_pos. apply Rmult_le_compat_l; lra.
Qed.
Lemma replace_app1 {A} (a b : list A) : forall i v, (i < length a)%nat -> replace_nth (a ++ b) i v = replace_nth a i v ++ b.
Proof. induction a as [|x a IH]; intros [|i] v L; cbn in *; try lia; [reflexivity|]. f_equal. apply IH. lia. Qed.
Lemma replace_app2 {A} (a b : list A) : forall i v, replace_nth (a ++ b) (length a + i) v = a ++ replace_nth b i v.
Proof. induction a as [|x a IH]; intros i v; cbn; [reflexivity|]. f_equal. apply IH. Qed.
Lemma real_total_app a b : real_total (a ++ b) = real_total a + real_total b.
Proof. unfold real_total. induction a as [|x a IH]; cbn [app map fold_right]; [ring|]. rewrite IH. ring. Qed.
Lemma halves (l : table) : length l = 24%nat -> exists a b, l = a ++ b /\ length a = 12%nat /\ length b = 12%nat.
Proof. intros L. exists (firstn 12 l), (skipn 12 l). split; [now rewrite firstn_skipn|]. rewrite firstn_length, skipn_length, L. split; reflexivity. Qed.
Lemma firstn_exact {A} (a b : list A) n : length a = n -> firstn n (a ++ b) = a.
Proof. intros <-. rewrite firstn_app, Nat.sub_diag, firstn_all. cbn. apply app_nil_r. Qed.
Lemma skipn_exact {A} (a b : list A) n : length a = n -> skipn n (a ++ b) = b.
Proof. intros <-. rewrite skipn_app, Nat.sub_diag, skipn_all. reflexivity. Qed.
Lemma mutated_profile e (l : table) i j : e <= 1 -> profile_like e l -> i <> j -> ((i < 12 /\ j < 12) \/ (12 <= i < 24 /\ 12 <= j < 24))%nat ->
  exists l', move_delta l mutation_ratio i j = Returns l' /\ moved one_half l l' /\ profile_like (e + / 2 ^ 51) l'.
Proof.
  intros E (L & F & A & B) N H. destruct (halves l L) as (a & b & -> & LA & LB). rewrite (firstn_exact a b 12 LA) in A. rewrite (skipn_exact a b 12 LA) in B. apply Forall_app in F. destruct F as (FA & FB).
  apply Rabs_le_inv in A. apply Rabs_le_inv in B. assert (T : real_total (a ++ b) <= 4) by (rewrite real_total_app; lra). pose proof u_pos as U.
  assert (X : exists x, nth_error (a ++ b) i = Some x) by (destruct (nth_error (a ++ b) i) eqn:X; [eauto|apply nth_error_None in X; rewrite app_length in X; lia]).
  assert (Y : exists y, nth_error (a ++ b) j = Some y) by (destruct (nth_error (a ++ b) j) eqn:Y; [eauto|apply nth_error_None in Y; rewrite app_length in Y; lia]).
  destruct X as (x & X), Y as (y & Y). pose proof (move_done (a ++ b) i j x y X Y N) as M. eexists. split; [exact M|].
  destruct (move_spec one_half (a ++ b) _ i j ltac:(apply Forall_app; split; assumption) N ltac:(rewrite app_length; lia) ltac:(rewrite app_length; lia) ltac:(unfold one_half; lia) T M) as (MV & OK & _). split; [exact MV|].
  set (x' := fsub x (fmul x mutation_ratio)) in *. set (y' := fadd y (fmul x mutation_ratio)) in *. assert (Q : 4 * u <= / 2 ^ 51) by (unfold u; lra).
  split; [now rewrite !replace_nth_length|]. split; [exact OK|]. destruct H as [(I & J)|(I & J)].
  - rewrite nth_error_app1 in X by lia. rewrite nth_error_app1 in Y by lia. pose proof (move_done a i j x y X Y N) as M1.
    destruct (move_spec one_half a _ i j FA N ltac:(lia) ltac:(lia) ltac:(unfold one_half; lia) ltac:(lra) M1) as (_ & _ & R). fold x' y' in R.
    rewrite (replace_app1 a b i) by lia. rewrite replace_app1 by (rewrite replace_nth_length; lia). rewrite firstn_exact, skipn_exact by (rewrite !replace_nth_length; exact LA).
    apply Rabs_le_inv in R. assert (2 * u * real_total a <= 4 * u) by nra. split; apply Rabs_le; lra.
  - rewrite nth_error_app2 in X by lia. rewrite nth_error_app2 in Y by lia. pose proof (move_done b _ _ x y X Y ltac:(lia)) as M1.
    destruct (move_spec (fun _ _ => True) b _ (i - length a) (j - length a) FB ltac:(lia) ltac:(lia) ltac:(lia) Logic.I ltac:(lra) M1) as (_ & _ & R). fold x' y' in R.
    replace i with (length a + (i - length a))%nat at 1 2 by lia. replace j with (length a + (j - length a))%nat at 1 2 by lia. rewrite !replace_app2. rewrite firstn_exact, skipn_exact by exact LA.
    apply Rabs_le_inv in R. assert (2 * u * real_total b <= 4 * u) by nra. split; apply Rabs_le; lra.
Qed.
Lemma mutated_transition e (l : table) i j : e <= 1 -> transition_like e l -> i <> j -> (i < 24)%nat -> (j < 24)%nat ->
  exists l', move_delta l mutation_ratio i j = Returns l' /\ moved anywhere l l' /\ transition_like (e + / 2 ^ 51) l'.
Proof.
  intros E (L & F & A) N I J. apply Rabs_le_inv in A. pose proof u_pos as U.
  assert (X : exists x, nth_error l i = Some x) by (destruct (nth_error l i) eqn:X; [eauto|apply nth_error_None in X; lia]).
  assert (Y : exists y, nth_error l j = Some y) by (destruct (nth_error l j) eqn:Y; [eauto|apply nth_error_None in Y; lia]).
  destruct X as (x & X), Y as (y & Y). pose proof (move_done l i j x y X Y N) as M. eexists. split; [exact M|].
  destruct (move_spec anywhere l _ i j F N ltac:(lia) ltac:(lia) Logic.I ltac:(lra) M) as (MV & OK & R). split; [exact MV|]. assert (Q : 4 * u <= / 2 ^ 51) by (unfold u; lra).
  split; [now rewrite !replace_nth_length|]. split; [exact OK|]. apply Rabs_le_inv in R. assert (2 * u * real_total l <= 4 * u) by nra. apply Rabs_le. lra.
Qed.
Open Scope Z_scope.

(** ** Names *)
Lemma shown_value ds : Forall is_dig ds -> fst (fst (digits 10 0 (show_digits ds))) = digits_value ds.
Proof.
  unfold digits_value. generalize 0 as acc. intros acc F. revert acc. induction F as [|d ds D F IH]; intros acc; [reflexivity|]. cbn [show_digits digits fold_left]. destruct (show_digit_ok d D) as (S & _). rewrite S. rewrite <- IH.
  replace (acc * 10 + d) with (10 * acc + d) by lia. destruct (digits 10 (10 * acc + d) (show_digits ds)) as [[? ?] ?]. reflexivity.
Qed.
Lemma string_app_inj p a b : (p ++ a = p ++ b)%string -> a = b.
Proof. induction p as [|c p IH]; cbn; [auto|]. intros [= E]. now apply IH. Qed.
Lemma serial_format p i : 0 <= i -> serial p i (p ++ format_int i)%string.
Proof. intros I. destruct (format_int_spec i I) as (a & EA & DA & V & N & _). exists a. rewrite EA. now repeat split. Qed.
Lemma serial_det p i j s : serial p i s -> serial p j s -> i = j.
Proof. intros (a & _ & DA & <- & ->) (b & _ & DB & <- & E). apply string_app_inj in E. rewrite <- !shown_value, E by assumption. reflexivity. Qed.
Lemma serial_not p c q i s : ~ In c digit_chars -> ~ serial p i (p ++ String c q ++ s)%string.
Proof.
  intros N (a & NE & DA & _ & E). apply string_app_inj in E. destruct a as [|d a]; [congruence|]. inversion DA; subst. cbn in E. injection E as E _. apply N. rewrite E. now apply show_digit_ok.
Qed.

(** ** Too few numbers *)
Lemma fill_plan_starved plan : forall a w ds, Forall (fun e => 0 < snd e) plan -> (length ds < length plan)%nat -> fill_plan plan a w ds = Starved.
Proof.
  induction plan as [|[i b] plan IH]; intros a w ds B L; [cbn in L; lia|]. apply Forall_cons_iff in B. destruct B as [B0 B]. cbn [snd] in B0.
  cbn [fill_plan]. unfold seq_run, randrange. replace (b <=? 0) with false by lia. destruct ds as [|d ds]; [reflexivity|]. apply IH; [exact B|]. cbn [length] in L. lia.
Qed.
Lemma generate_starved n level groups maximum w ds : grouped n level groups -> Z.abs maximum <= 2 ^ 52 -> (forall i, (i < n)%nat -> 2 ^ level i <= maximum) -> (length ds < n)%nat ->
  generate n maximum groups w ds = Starved.
Proof.
  intros G M B L. unfold generate, seq_run. assert (E : length (plan_of maximum groups) = n) by (rewrite plan_length; apply G).
  rewrite fill_groups_plan, fill_plan_starved; [reflexivity| |lia|exact M|].
  - apply (pos_bounds n level groups maximum); try assumption; lia.
  - destruct G as (F & _). eapply Forall_impl; [|exact F]. intros g H. apply H.
Qed.
Lemma major_starved maximum w ds : 4 <= maximum <= 2 ^ 52 -> (length ds < 12)%nat -> generate_major maximum w ds = Starved.
Proof. intros M L. apply (generate_starved 12 major_level major_groups maximum w ds major_grouped); [lia| |exact L]. intros i _. apply (levels_fit _ _ 2); [apply major_levels|]. change (2 ^ 2) with 4. lia. Qed.
Lemma minor_starved maximum w ds : 8 <= maximum <= 2 ^ 52 -> (length ds < 12)%nat -> generate_minor maximum w ds = Starved.
Proof. intros M L. apply (generate_starved 12 minor_level minor_groups maximum w ds minor_grouped); [lia| |exact L]. intros i _. apply (levels_fit _ _ 3); [apply minor_levels|]. change (2 ^ 3) with 8. lia. Qed.
Lemma keys_starved maximum w ds : 256 <= maximum <= 2 ^ 52 -> (length ds < 24)%nat -> generate_stochastic maximum w ds = Starved.
Proof. intros M L. apply (generate_starved 24 key_level (numbered key_groups) maximum w ds key_grouped); [lia| |exact L]. intros i I. apply (levels_fit _ _ 8); [apply key_levels, I|]. change (2 ^ 8) with 256. lia. Qed.
Lemma profile_starved maximum w ds : 8 <= maximum <= 2 ^ 52 -> (length ds < 24)%nat -> generate_key_profile maximum w ds = Starved \/ generate_key_profile maximum w ds = Fails ZeroDivisionError.
Proof.
  intros M L. unfold generate_key_profile, seq_run. destruct (Nat.lt_ge_cases (length ds) 12) as [S|S]; [left; now rewrite major_starved by lia|].
  destruct (major_outcome maximum w ds ltac:(lia) ltac:(lia)) as (ns & LN & DN & [(T & ->)|(T & lmaj & -> & SN)]); [now right|]. left. rewrite minor_starved; [reflexivity|exact M|]. rewrite skipn_length. lia.
Qed.

(** ** Worlds *)
Definition profiles_in (w : world) : book := fun n => assoc String.eqb n (w_kp w).
Definition transitions_in (w : world) : book := fun n => assoc String.eqb n (w_kt w).
Definition has (w : world) (n : string) (l : table) : Prop := profiles_in w n = Some l.
Definition known (w : world) (n : string) : Prop := exists l, has w n l.
(** No name that is still to be given out is in use. *)
Definition orderly (w : world) : Prop := numbers_below (profiles_in w) ["kpc"; "kpm"]%string (e_kp_id w) /\ numbers_below (profiles_in w) ["kp"]%string (g_kp_id w).
(** Nothing is lost or overwritten. *)
Record grows (w w' : world) : Prop := {
  gr_has : kept_in (profiles_in w) (profiles_in w');
  gr_kt : w_kt w' = w_kt w; gr_ratio : w_ratio w' = w_ratio w; gr_gkt : g_kt_id w' = g_kt_id w; gr_ekt : e_kt_id w' = e_kt_id w;
  gr_e : e_kp_id w <= e_kp_id w'; gr_g : g_kp_id w <= g_kp_id w' }.
Lemma grows_refl w : grows w w. Proof. split; auto; try lia. intros n l H. exact H. Qed.
Lemma grows_trans a b c : grows a b -> grows b c -> grows a c.
Proof. intros A B. destruct A, B. split; try congruence; try lia. intros n l H. auto. Qed.
Lemma grows_known w w' n : grows w w' -> known w n -> known w' n.
Proof. intros G (l & H). exists l. now apply G. Qed.
Lemma has_det w n l l' : has w n l -> has w n l' -> l = l'.
Proof. unfold has. congruence. Qed.
(** A table under a name that is not in use. *)
Lemma enters w w' name (l : table) : ~ known w name -> w_kp w' = assign String.eqb name l (w_kp w) -> w_kt w' = w_kt w -> w_ratio w' = w_ratio w -> g_kt_id w' = g_kt_id w -> e_kt_id w' = e_kt_id w ->
  e_kp_id w <= e_kp_id w' -> g_kp_id w <= g_kp_id w' -> grows w w' /\ has w' name l /\ forall n x, has w' n x -> n = name \/ has w n x.
Proof.
  intros N E K1 K2 K3 K4 K5 K6. unfold has, profiles_in in *. assert (A : forall n, assoc String.eqb n (w_kp w') = if (n =? name)%string then Some l else assoc String.eqb n (w_kp w)) by (intros n; rewrite E; apply assoc_assign).
  split; [|split].
  - split; try assumption. intros n x H. unfold profiles_in in *. rewrite A. destruct (String.eqb_spec n name) as [->|_]; [|exact H]. destruct N. now exists x.
  - now rewrite A, String.eqb_refl.
  - intros n x H. rewrite A in H. destruct (String.eqb_spec n name); [now left|now right].
Qed.
Definition child_name (i : Z) := ("kpc" ++ format_int i)%string.
Definition mutation_name (i : Z) := ("kpm" ++ format_int i)%string.
Definition fresh_name (i : Z) := ("kp" ++ format_int i)%string.
Lemma name_unused {A} (b : string -> option A) ps next p : numbers_below b ps next -> In p ps -> b (p ++ format_int next)%string = None.
Proof. intros (P & H) I. destruct (b (p ++ format_int next)%string) as [l|] eqn:E; [|reflexivity]. specialize (H _ l p next E I (serial_format p next P)). lia. Qed.
Lemma child_unknown w : orderly w -> ~ known w (child_name (e_kp_id w)).
Proof. intros (O & _) (l & H). unfold has, child_name, mutation_name, fresh_name in H. rewrite (name_unused _ _ _ "kpc" O) in H; [discriminate|cbn; tauto]. Qed.
Lemma mutation_unknown w : orderly w -> ~ known w (mutation_name (e_kp_id w)).
Proof. intros (O & _) (l & H). unfold has, child_name, mutation_name, fresh_name in H. rewrite (name_unused _ _ _ "kpm" O) in H; [discriminate|cbn; tauto]. Qed.
Lemma fresh_unknown w : orderly w -> ~ known w (fresh_name (g_kp_id w)).
Proof. intros (_ & O) (l & H). unfold has, child_name, mutation_name, fresh_name in H. rewrite (name_unused _ _ _ "kp" O) in H; [discriminate|cbn; tauto]. Qed.
(** One more name: fine if its number, wherever it can be read as one, is below the new bound. *)
Lemma numbers_more {A} (b b' : string -> option A) ps next next' name : numbers_below b ps next -> next <= next' -> (forall n x, b' n = Some x -> n = name \/ b n = Some x) ->
  (forall p i, In p ps -> serial p i name -> i < next') -> numbers_below b' ps next'.
Proof. intros (P & H) L K N. split; [lia|]. intros n l p i E I S. destruct (K n l E) as [->|E']; [now apply (N p)|]. specialize (H n l p i E' I S). lia. Qed.
Lemma child_serial w p i : 0 <= w -> In p ["kpc"; "kpm"]%string -> serial p i (child_name w) -> i = w.
Proof. intros W [<-|[<-|[]]] S; [exact (serial_det _ _ _ _ S (serial_format "kpc" w W))|]. destruct S as (ds & _ & _ & _ & E). discriminate. Qed.
Lemma mutation_serial w p i : 0 <= w -> In p ["kpc"; "kpm"]%string -> serial p i (mutation_name w) -> i = w.
Proof. intros W [<-|[<-|[]]] S; [|exact (serial_det _ _ _ _ S (serial_format "kpm" w W))]. destruct S as (ds & _ & _ & _ & E). discriminate. Qed.
Lemma orderly_child w w' : orderly w -> e_kp_id w' = e_kp_id w + 1 -> g_kp_id w' = g_kp_id w -> (forall n x, has w' n x -> n = child_name (e_kp_id w) \/ has w n x) -> orderly w'.
Proof.
  intros (O1 & O2) E G H. split.
  - refine (numbers_more _ _ _ _ _ _ O1 _ H _); [lia|]. intros p i I S. apply child_serial in S; [lia|apply O1|exact I].
  - refine (numbers_more _ _ _ _ _ _ O2 _ H _); [lia|]. intros p i [<-|[]] S. exfalso. revert S. apply (serial_not "kp" "c" ""). cbn. intuition discriminate.
Qed.
Lemma orderly_mutation w w' : orderly w -> e_kp_id w' = e_kp_id w + 1 -> g_kp_id w' = g_kp_id w -> (forall n x, has w' n x -> n = mutation_name (e_kp_id w) \/ has w n x) -> orderly w'.
Proof.
  intros (O1 & O2) E G H. split.
  - refine (numbers_more _ _ _ _ _ _ O1 _ H _); [lia|]. intros p i I S. apply mutation_serial in S; [lia|apply O1|exact I].
  - refine (numbers_more _ _ _ _ _ _ O2 _ H _); [lia|]. intros p i [<-|[]] S. exfalso. revert S. apply (serial_not "kp" "m" ""). cbn. intuition discriminate.
Qed.
Lemma orderly_fresh w w' : orderly w -> e_kp_id w' = e_kp_id w -> g_kp_id w' = g_kp_id w + 1 -> (forall n x, has w' n x -> n = fresh_name (g_kp_id w) \/ has w n x) -> orderly w'.
Proof.
  intros (O1 & O2) E G H. split.
  - refine (numbers_more _ _ _ _ _ _ O1 _ H _); [lia|]. intros p i I (ds & _ & _ & _ & X). exfalso. destruct (format_int_spec (g_kp_id w) (proj1 O2)) as (a & EA & DA & V & N & _). unfold fresh_name in X. rewrite EA in X.
    destruct a as [|d a]; [congruence|]. inversion DA as [|? ? DD _]; subst. apply show_digit_ok in DD. destruct DD as (_ & _ & DD). cbn [show_digits] in X. revert DD X. generalize (show_digit d) as ch. intros ch DD X. destruct I as [<-|[<-|[]]]; cbn in X; injection X as X _; rewrite X in DD; cbn in DD; intuition discriminate.
  - refine (numbers_more _ _ _ _ _ _ O2 _ H _); [lia|]. intros p i [<-|[]] S. pose proof (serial_det _ _ _ _ S (serial_format "kp" (g_kp_id w) (proj1 O2))). lia.
Qed.
Lemma initial_orderly : orderly initial_world.
Proof.
  assert (Q : forall n l, profiles_in initial_world n = Some l -> String.prefix "kp" n = false).
  { intros n l H. unfold profiles_in, initial_world in H. cbn [w_kp] in H.
    assert (I : In n (map fst initial_profiles)). { clear - H. revert H. generalize initial_profiles as d. intros d. induction d as [|[k v] d IH]; cbn; [discriminate|]. destruct (String.eqb_spec n k); auto. }
    assert (C : forallb (fun n => negb (String.prefix "kp" n)) (map fst initial_profiles) = true) by (vm_compute; reflexivity). rewrite forallb_forall in C. specialize (C n I). now destruct (String.prefix "kp" n). }
  split; (split; [cbn; lia|]); intros n l p i H M (ds & _ & _ & _ & E); apply (Q n l) in H; clear Q; subst n; cbn in M; repeat (destruct M as [<-|M]; [destruct ds; discriminate H|]); destruct M.
Qed.

(** ** The steps of the evolver *)
Lemma elem_In x l : elem x l = true <-> In x l.
Proof. unfold elem. rewrite existsb_exists. split; [intros (y & I & E); apply String.eqb_eq in E; now subst|intros I; exists x; split; [exact I|apply String.eqb_refl]]. Qed.
Lemma elem_not_In x l : elem x l = false <-> ~ In x l.
Proof. rewrite <- elem_In. now destruct (elem x l). Qed.
Lemma picked_In (pool : list string) a d : In (nth (Z.to_nat (d mod Z.of_nat (length (a :: pool)))) (a :: pool) a) (a :: pool).
Proof. apply nth_In. pose proof (Z.mod_pos_bound d (Z.of_nat (length (a :: pool))) ltac:(cbn; lia)). lia. Qed.
Lemma nodup_snoc {A} (l : list A) x : NoDup l -> ~ In x l -> NoDup (l ++ [x]).
Proof. intros N I. apply NoDup_app_intro || (induction N as [|y l Y N IH]; cbn; [constructor; [auto|constructor]|]; constructor; [|apply IH; cbn in I; tauto]; rewrite in_app_iff; cbn; cbn in I; intuition). Qed.
Lemma picked pool kept count : pool <> [] -> forall ds old w, NoDup old -> (forall x, In x old -> In x pool /\ ~ In x kept) -> (length old <= count)%nat ->
  pick_old pool kept count old w ds = Starved \/
  exists old' ds', pick_old pool kept count old w ds = Done old' w ds' /\ length old' = count /\ NoDup old' /\ (forall x, In x old' -> In x pool /\ ~ In x kept).
Proof.
  intros P. destruct pool as [|a pool]; [congruence|]. induction ds as [|d ds IH]; intros old w N S L.
  - cbn [pick_old]. destruct (Nat.leb_spec count (length old)); [|now left]. right. exists old, []. repeat split; try assumption; try lia; now apply S.
  - cbn [pick_old]. destruct (Nat.leb_spec count (length old)) as [E|E]; [right; exists old, (d :: ds); repeat split; try assumption; try lia; now apply S|].
    set (k := nth _ _ _). assert (K : In k (a :: pool)) by apply picked_In. clearbody k.
    destruct (elem k old) eqn:E1; [apply IH; assumption|]. destruct (elem k kept) eqn:E2; [apply IH; assumption|]. cbn [negb andb]. apply elem_not_In in E1. apply elem_not_In in E2. apply IH.
    + now apply nodup_snoc.
    + intros x X. apply in_app_iff in X. destruct X as [X|[<-|[]]]; [now apply S|]. now split.
    + rewrite app_length. cbn. lia.
Qed.
Lemma picked_none kept count : (0 < count)%nat -> forall ds w, pick_old [] kept count [] w ds = Fails IndexError.
Proof. intros C ds w. destruct ds; cbn; replace (count <=? 0)%nat with false by (symmetry; apply Nat.leb_gt; lia); reflexivity. Qed.
Lemma child_made w ds a b la lb : orderly w -> has w a la -> has w b lb -> exists w', make_child a b w ds = Done (child_name (e_kp_id w)) w' ds /\ grows w w' /\ orderly w' /\
  has w' (child_name (e_kp_id w)) (firstn 12 la ++ skipn 12 lb) /\ e_kp_id w' = e_kp_id w + 1.
Proof.
  intros O A B. unfold has, profiles_in in A, B. unfold make_child, seq_run, look, change, lift, fetch, ret. cbn [w_kp next_e_kp]. rewrite A, B. eexists. split; [reflexivity|].
  match goal with |- grows _ ?x /\ _ => set (w' := x) end.
  destruct (enters w w' (child_name (e_kp_id w)) (firstn 12 la ++ skipn 12 lb) (child_unknown w O)) as (G & H & K); try reflexivity; try (cbn; lia).
  split; [exact G|]. split; [|split; [exact H|reflexivity]]. apply (orderly_child w w' O); try reflexivity. exact K.
Qed.
Lemma Forall2_weaken {A B} (P Q : A -> B -> Prop) la lb : (forall a b, P a b -> Q a b) -> Forall2 P la lb -> Forall2 Q la lb.
Proof. intros H F. induction F; constructor; auto. Qed.
(** A new name: not in use before, in use now. *)
Definition coined (w w' : world) (n : string) : Prop := ~ known w n /\ known w' n.
Lemma crossed w0 parents count : parents <> [] -> (forall x, In x parents -> known w0 x) -> forall n ds children pairs w, (length ds <= n)%nat -> orderly w -> grows w0 w ->
  NoDup children -> Forall (coined w0 w) children -> Forall2 (fun p c => exists l, joined (profiles_in w0) parents p l /\ has w c l) pairs children -> (length children <= count)%nat ->
  cross parents count children w ds = Starved \/
  exists children' pairs' w' ds', cross parents count children w ds = Done children' w' ds' /\ length children' = count /\ orderly w' /\ grows w0 w' /\
    NoDup children' /\ Forall (coined w0 w') children' /\ Forall2 (fun p c => exists l, joined (profiles_in w0) parents p l /\ has w' c l) pairs' children' /\ e_kp_id w' - e_kp_id w = Z.of_nat (length children') - Z.of_nat (length children).
Proof.
  intros P K. destruct parents as [|a parents]; [congruence|]. clear P. induction n as [|n IH]; intros ds children pairs w L O G N C F E.
  { destruct ds as [|? ?]; [|cbn in L; lia]. cbn [cross]. destruct (Nat.leb_spec count (length children)); [|now left]. right. exists children, pairs, w, []. repeat (split; [try reflexivity; try assumption; lia|]). lia. }
  assert (D : (count <= length children)%nat -> exists children' pairs' w' ds', Done children w ds = Done children' w' ds' /\ length children' = count /\ orderly w' /\ grows w0 w' /\
    NoDup children' /\ Forall (coined w0 w') children' /\ Forall2 (fun p c => exists l, joined (profiles_in w0) (a :: parents) p l /\ has w' c l) pairs' children' /\ e_kp_id w' - e_kp_id w = Z.of_nat (length children') - Z.of_nat (length children)).
  { intros Q. exists children, pairs, w, ds. repeat (split; [try reflexivity; try assumption; lia|]). lia. }
  destruct ds as [|d1 [|d2 ds]]; cbn [cross]; (destruct (Nat.leb_spec count (length children)) as [Q|Q]; [right; now apply D|]); [now left|now left|]. clear D.
  set (x := nth (Z.to_nat (d1 mod _)) _ _). set (y := nth (Z.to_nat (d2 mod _)) _ _). assert (X : In x (a :: parents)) by apply picked_In. assert (Y : In y (a :: parents)) by apply picked_In. clearbody x y. cbn [length] in L.
  destruct (String.eqb_spec x y) as [XY|XY]; [apply (IH ds children pairs); try assumption; lia|].
  destruct (K x X) as (lx & HX). destruct (K y Y) as (ly & HY). destruct (child_made w ds x y lx ly O (gr_has _ _ G _ _ HX) (gr_has _ _ G _ _ HY)) as (w' & E' & G' & O' & H' & I'). rewrite E'.
  assert (U : ~ known w (child_name (e_kp_id w))) by (now apply child_unknown).
  destruct (IH ds (children ++ [child_name (e_kp_id w)]) (pairs ++ [(x, y)]) w') as [R|(c' & p' & w'' & ds' & R & R1 & R2 & R3 & R4 & R5 & R6 & R7)]; [lia|exact O'|now apply (grows_trans w0 w w')| | | | |now left|].
  - apply nodup_snoc; [exact N|]. intros Z. rewrite Forall_forall in C. destruct (C _ Z) as (_ & Z2). tauto.
  - apply Forall_app. split; [eapply Forall_impl; [|exact C]; intros c (C1 & C2); split; [exact C1|now apply (grows_known w w')]|]. constructor; [|constructor]. split; [|eexists; exact H'].
    intros Z. apply U. now apply (grows_known w0 w).
  - apply Forall2_app; [eapply Forall2_weaken; [|exact F]; intros p c (l & C1 & C2); exists l; split; [exact C1|now apply G']|]. constructor; [|constructor]. exists (firstn 12 lx ++ skipn 12 ly). split; [|exact H'].
    split; [exact XY|]. split; [exact X|]. split; [exact Y|]. exists lx, ly. now repeat split.
  - rewrite app_length. cbn. lia.
  - right. exists c', p', w'', ds'. repeat (split; [assumption|]). rewrite app_length in R7. cbn [length] in R7. lia.
Qed.
Lemma two_spec low high w : 0 <= low <= high -> forall n ds, (length ds <= n)%nat -> two_indices low high w ds = Starved \/
  exists i j ds', two_indices low high w ds = Done (i, j) w ds' /\ i <> j /\ low <= Z.of_nat i <= high /\ low <= Z.of_nat j <= high.
Proof.
  intros B. induction n as [|n IH]; intros ds L; [destruct ds; [now left|cbn in L; lia]|]. destruct ds as [|d1 [|d2 ds]]; [now left|now left|]. cbn [two_indices length] in *.
  pose proof (Z.mod_pos_bound d1 (high - low + 1) ltac:(lia)) as M1. pose proof (Z.mod_pos_bound d2 (high - low + 1) ltac:(lia)) as M2.
  destruct (Z.eqb_spec (low + d1 mod (high - low + 1)) (low + d2 mod (high - low + 1))) as [E|E]; [apply IH; lia|]. right. eexists _, _, _. split; [reflexivity|]. lia.
Qed.
(** Tolerance that grows with the counter. *)
Definition slack (t : R) (w : world) : R := (t + IZR (e_kp_id w) / 2 ^ 51)%R.
Definition sound (t : R) (w : world) (n : string) : Prop := exists l, has w n l /\ profile_like (slack t w) l.
Lemma profile_like_mono e e' l : (e <= e')%R -> profile_like e l -> profile_like e' l.
Proof. intros E (L & F & A & B). split; [exact L|]. split; [exact F|]. split; lra. Qed.
Lemma sound_grows t w w' n : grows w w' -> sound t w n -> sound t w' n.
Proof.
  intros G (l & H & P). exists l. split; [now apply G|]. apply profile_like_mono with (2 := P). unfold slack. pose proof (IZR_le _ _ (gr_e _ _ G)). lra.
Qed.
Lemma sound_known t w n : sound t w n -> known w n.
Proof. intros (l & H & _). now exists l. Qed.
Definition variant (w w' : world) : string -> string -> Prop := variant_of one_half (profiles_in w) (profiles_in w').
Lemma mutated_one t w ds n : orderly w -> sound t w n -> (slack t w <= 1)%R -> mutate_profile n w ds = Starved \/
  exists r w' ds', mutate_profile n w ds = Done r w' ds' /\ grows w w' /\ orderly w' /\ sound t w' r /\ variant w w' n r /\ (r = n \/ coined w w' r) /\ e_kp_id w' <= e_kp_id w + 1.
Proof.
  intros O (l & H & P) T. unfold mutate_profile, seq_run, random. destruct ds as [|d ds]; [now left|].
  destruct (fgt kp_mutation_prob (unit_float d)); [|right; exists n, w, ds; split; [reflexivity|]; split; [apply grows_refl|]; split; [exact O|]; split; [exists l; now split|]; split; [|split; [now left|lia]]; exists l, l; repeat split; try assumption; now left].
  unfold look, change. cbn [w_kp next_e_kp e_kp_id choice]. destruct ds as [|d2 ds]; [now left|].
  set (rg := nth _ _ _). assert (RG : rg = (0, 11) \/ rg = (12, 23)).
  { pose proof (Z.mod_pos_bound d2 2 ltac:(lia)) as M. assert (R : d2 mod 2 = 0 \/ d2 mod 2 = 1) by lia. unfold rg. cbn [length Z.of_nat Pos.of_succ_nat Pos.succ]. destruct R as [-> | ->]; cbn; auto. }
  clearbody rg.
  assert (BR : 0 <= fst rg <= snd rg) by (destruct RG; subst rg; cbn; lia).
  match goal with |- context [two_indices _ _ ?w1 ds] => destruct (two_spec (fst rg) (snd rg) w1 BR (length ds) ds ltac:(lia)) as [->|(i & j & ds' & -> & N & I & J)] end; [now left|].
  assert (FE : fetch (w_kp w) n = Returns l) by (unfold fetch; unfold has, profiles_in in H; now rewrite H).
  destruct (mutated_profile (slack t w) l i j T P N) as (l' & M & MV & P'); [destruct RG; subst rg; cbn [fst snd] in *; lia|]. cbn [fst snd]. rewrite FE. cbn [lift]. rewrite M. unfold lift, ret.
  right. eexists _, _, _. split; [reflexivity|]. match goal with |- grows _ ?x /\ _ => set (w' := x) end.
  destruct (enters w w' (mutation_name (e_kp_id w)) l' (mutation_unknown w O)) as (G & H' & K); try reflexivity; try (cbn; lia).
  split; [exact G|]. split; [apply (orderly_mutation w w' O); try reflexivity; exact K|]. split.
  { exists l'. split; [exact H'|]. apply profile_like_mono with (2 := P'). unfold slack. change (e_kp_id w') with (e_kp_id w + 1). rewrite plus_IZR. lra. }
  split; [exists l, l'; split; [exact H|]; split; [exact H'|now right]|]. split; [|cbn; lia]. right. split; [now apply mutation_unknown|eexists; exact H'].
Qed.
Lemma mutated_all t names : forall w ds, orderly w -> Forall (sound t w) names -> NoDup names -> (slack t w + INR (length names) / 2 ^ 51 <= 1)%R ->
  each mutate_profile names w ds = Starved \/
  exists rs w' ds', each mutate_profile names w ds = Done rs w' ds' /\ grows w w' /\ orderly w' /\ Forall (sound t w') rs /\ Forall2 (variant w w') names rs /\ NoDup rs /\
    Forall (fun r => In r names \/ coined w w' r) rs /\ e_kp_id w' <= e_kp_id w + Z.of_nat (length names).
Proof.
  induction names as [|n names IH]; intros w ds O S N T.
  { right. exists [], w, ds. split; [reflexivity|]. split; [apply grows_refl|]. split; [exact O|]. repeat (split; [constructor|]). cbn. lia. }
  inversion S as [|? ? S1 S2]; subst. inversion N as [|? ? N1 N2]; subst. cbn [each]. unfold seq_run. cbn [length] in T. rewrite S_INR in T. pose proof (pos_INR (length names)) as LP.
  destruct (mutated_one t w ds n O S1) as [->|(r & w1 & ds1 & -> & G1 & O1 & Q1 & V1 & C1 & I1)]; [lra|now left|].
  destruct (IH w1 ds1 O1) as [->|(rs & w2 & ds2 & -> & G2 & O2 & Q2 & V2 & D2 & C2 & I2)].
  { eapply Forall_impl; [|exact S2]. intros x. now apply sound_grows. } { exact N2. }
  { unfold slack in *. pose proof (IZR_le _ _ I1) as I. rewrite plus_IZR in I. lra. } { now left. }
  right. exists (r :: rs), w2, ds2. split; [reflexivity|]. split; [now apply (grows_trans w w1 w2)|]. split; [exact O2|].
  split; [constructor; [now apply (sound_grows t w1)|exact Q2]|]. split.
  { constructor.
    - destruct V1 as (l & l' & A & B & C). exists l, l'. split; [exact A|]. split; [now apply G2|exact C].
    - assert (X : Forall (fun x => exists l, has w x l) names) by (eapply Forall_impl; [|exact S2]; intros x (l & Hx & _); now exists l).
      clear - V2 X G1. induction V2 as [|x y xs ys V V2 IH]; [constructor|]. inversion X as [|? ? (l & XL) X2]; subst. constructor; [|now apply IH].
      destruct V as (l1 & l' & A & B & C). rewrite (has_det w1 x l1 l A (gr_has _ _ G1 _ _ XL)) in *. exists l, l'. now repeat split. }
  rewrite Forall_forall in C2, S2. split.
  { constructor; [|exact D2]. intros R. apply sound_known in Q1. destruct (C2 r R) as [R1|(R1 & _)]; [|tauto]. destruct C1 as [->|(C1 & _)]; [tauto|]. apply C1. apply (sound_known t). now apply S2. }
  split; [|cbn [length]; lia]. constructor; [destruct C1 as [->|(C1 & CK)]; [left; now left|right; split; [exact C1|now apply (grows_known w1 w2)]]|].
  apply Forall_forall. intros x X. destruct (C2 x X) as [X1|(X1 & X2)]; [left; now right|right]. split; [|exact X2]. intros Z. apply X1. now apply (grows_known w w1).
Qed.
Lemma drawn_half_sum level maximum l : (forall i, 0 <= level i) -> 0 <= maximum <= 2 ^ 52 -> drawn_half level maximum l ->
  length l = 12%nat /\ Forall (fun x => is_finite x = true /\ (0 <= B2R x)%R) l /\ (Rabs (real_total l - 1) <= / 2 ^ 52)%R.
Proof.
  intros LV M (ns & L & D & T & F). pose proof (total_below level maximum ns LV ltac:(lia) D) as B. rewrite L in B.
  assert (P : Forall (fun x => 0 <= x) ns) by (apply Forall_forall; intros x I; apply In_nth_error in I; destruct I as (i & I); apply (D i x I)).
  assert (T2 : 0 < total ns <= 2 ^ 100) by lia. split; [now rewrite <- (Forall2_length_eq _ _ _ F)|]. split; [|exact (proj1 (shares_sum ns l P T2 ltac:(lia) F))].
  pose proof (shares_near ns l P T2 F) as N. clear - N. revert N. generalize (map (fun n => (IZR n / IZR (total ns))%R) ns) as vs. intros vs N. induction N as [|x v l vs (FX & V & NX) N IH]; [constructor|]. constructor; [|exact IH].
  split; [exact FX|]. exact (near_nonneg 1 _ _ V NX).
Qed.
Lemma drawn_profile_like maximum l : 8 <= maximum <= 2 ^ 52 -> drawn_profile maximum l -> profile_like (/ 2 ^ 52) l.
Proof.
  intros M (a & b & -> & A & B). destruct (drawn_half_sum major_level maximum a (fun i => proj1 (major_levels i)) ltac:(lia) A) as (LA & FA & SA). destruct (drawn_half_sum minor_level maximum b (fun i => proj1 (minor_levels i)) ltac:(lia) B) as (LB & FB & SB).
  split; [rewrite app_length; lia|]. split; [now apply Forall_app|]. rewrite firstn_exact, skipn_exact by exact LA. now split.
Qed.
Definition random_one (maximum : Z) (w : world) (n : string) : Prop := newly_drawn maximum (profiles_in w) n.
Lemma generated_one maximum w ds : 8 <= maximum <= 2 ^ 52 -> orderly w -> generate_key_profile maximum w ds = Starved \/ generate_key_profile maximum w ds = Fails ZeroDivisionError \/
  exists n w' ds', generate_key_profile maximum w ds = Done n w' ds' /\ grows w w' /\ orderly w' /\ coined w w' n /\ random_one maximum w' n /\ e_kp_id w' = e_kp_id w.
Proof.
  intros M O. destruct (Nat.lt_ge_cases (length ds) 24) as [L|L]; [destruct (profile_starved maximum w ds M L); tauto|].
  destruct (profile_generated maximum w ds M L) as [E|(ns & ms & la & lb & w' & E & A1 & A2 & A3 & A4 & B1 & B2 & B3 & B4 & (N1 & N2) & C1 & C2 & C3 & C4 & C5 & C6)]; [now right; left|]. right. right.
  assert (U := fresh_unknown w O). set (name := ("kp" ++ format_int (g_kp_id w))%string) in *. change (fresh_name (g_kp_id w)) with name in U.
  assert (K : forall n x, has w' n x -> n = name \/ has w n x). { intros n x H. destruct (String.eqb_spec n name); [now left|right]. unfold has, profiles_in in *. now rewrite <- N2. }
  exists name, w', (skipn 24 ds). split; [exact E|]. split.
  { split; try assumption; try lia. intros n l H. unfold profiles_in in *. rewrite N2; [exact H|]. intros ->. apply U. now exists l. }
  split; [apply (orderly_fresh w w' O); assumption|]. split; [split; [exact U|]; now exists (la ++ lb)|]. split; [|exact C5].
  exists (la ++ lb). split; [exact N1|]. exists la, lb. split; [reflexivity|]. split; [now exists ns|now exists ms].
Qed.
Lemma generated_all maximum k : 8 <= maximum <= 2 ^ 52 -> forall w ds, orderly w -> repeat_run k (generate_key_profile maximum) w ds = Starved \/ repeat_run k (generate_key_profile maximum) w ds = Fails ZeroDivisionError \/
  exists ns w' ds', repeat_run k (generate_key_profile maximum) w ds = Done ns w' ds' /\ length ns = k /\ grows w w' /\ orderly w' /\ NoDup ns /\ Forall (coined w w') ns /\ Forall (random_one maximum w') ns /\ e_kp_id w' = e_kp_id w.
Proof.
  intros M. induction k as [|k IH]; intros w ds O.
  { right. right. exists [], w, ds. split; [reflexivity|]. split; [reflexivity|]. split; [apply grows_refl|]. split; [exact O|]. repeat (split; [constructor|]). reflexivity. }
  cbn [repeat_run]. unfold seq_run. destruct (generated_one maximum w ds M O) as [->|[->|(n & w1 & ds1 & -> & G1 & O1 & (U1 & K1) & R1 & I1)]]; [tauto|tauto|].
  destruct (IH w1 ds1 O1) as [->|[->|(ns & w2 & ds2 & -> & L2 & G2 & O2 & N2 & C2 & R2 & I2)]]; [tauto|tauto|]. right. right.
  exists (n :: ns), w2, ds2. split; [reflexivity|]. split; [cbn; lia|]. split; [now apply (grows_trans w w1 w2)|]. split; [exact O2|]. rewrite Forall_forall in C2.
  split; [constructor; [|exact N2]; intros X; destruct (C2 n X); tauto|]. split; [|split; [|lia]].
  - constructor; [split; [exact U1|now apply (grows_known w1 w2)]|]. apply Forall_forall. intros x X. destruct (C2 x X) as (X1 & X2). split; [|exact X2]. intros Z. apply X1. now apply (grows_known w w1).
  - constructor; [|exact R2]. destruct R1 as (l & H & D). exists l. split; [now apply G2|exact D].
Qed.

(** ** A generation of profiles *)
Lemma nodup_two {A} (a b : list A) : NoDup a -> NoDup b -> (forall x, In x a -> In x b -> False) -> NoDup (a ++ b).
Proof. intros NA NB H. induction NA as [|x a X NA IH]; [exact NB|]. cbn. constructor; [|apply IH; intros y Y; apply H; now right]. rewrite in_app_iff. intros [Y|Y]; [tauto|]. apply (H x); [now left|exact Y]. Qed.
Lemma nodup_parts {A} (l : list A) k : NoDup l -> NoDup (firstn k l) /\ NoDup (skipn k l) /\ forall x, In x (firstn k l) -> In x (skipn k l) -> False.
Proof.
  intros N. rewrite <- (firstn_skipn k l) in N. revert N. generalize (firstn k l) as a, (skipn k l) as b. intros a b. induction a as [|x a IH]; cbn; intros N; [split; [constructor|]; split; [exact N|intros y []]|].
  inversion N as [|? ? X N']; subst. destruct (IH N') as (I1 & I2 & I3). rewrite in_app_iff in X. split; [constructor; tauto|]. split; [exact I2|]. intros y [<-|Y] Z; [tauto|]. now apply (I3 y).
Qed.
Lemma evolved maximum t kps w ds : 8 <= maximum <= 2 ^ 52 -> (/ 2 ^ 52 <= t)%R -> orderly w -> NoDup kps -> Forall (sound t w) kps -> length kps <> 4%nat -> Z.of_nat (length kps) <= 2 ^ 47 ->
  (slack t w + 2 * INR (length kps) / 2 ^ 51 <= 1)%R ->
  match evolve_key_profiles maximum kps w ds with
  | Starved => True
  | Fails x => x = ZeroDivisionError
  | Done new w' _ => next_generation maximum (profiles_in w) (profiles_in w') kps new /\ NoDup new /\ Forall (sound t w') new /\ orderly w' /\ grows w w' /\ e_kp_id w' <= e_kp_id w + 2 * Z.of_nat (length kps)
  end.
Proof.
  intros M T O N S N4 L SL. unfold evolve_key_profiles. rewrite share_fifth, share_three_tenths by exact L. set (n := length kps) in *. set (f := (n / 5)%nat). set (c := (3 * n / 10)%nat).
  assert (F5 : (5 * f <= n)%nat) by (apply Nat.mul_div_le; lia). assert (C10 : (10 * c <= 3 * n)%nat) by (apply Nat.mul_div_le; lia).
  assert (SMALL : f = 0%nat -> c = 0%nat).
  { intros Z. assert (n < 5)%nat by (destruct (Nat.lt_ge_cases n 5) as [Q|Q]; [exact Q|]; assert (1 <= n / 5)%nat by (apply Nat.div_le_lower_bound; lia); unfold f in Z; lia).
    unfold c. assert (n = 0 \/ n = 1 \/ n = 2 \/ n = 3)%nat as [-> | [-> | [-> | ->]]] by lia; reflexivity. }
  destruct (nodup_parts kps f N) as (NK & NS & DJ). set (kept := firstn f kps) in *. assert (LK : length kept = f) by (apply firstn_length_le; lia).
  assert (SK : forall x, In x kps -> sound t w x) by (now apply Forall_forall).
  assert (KI : forall x, In x kept -> In x kps) by (intros x X; rewrite <- (firstn_skipn f kps); apply in_app_iff; now left).
  assert (OI : forall x, In x (skipn f kps) -> In x kps) by (intros x X; rewrite <- (firstn_skipn f kps); apply in_app_iff; now right).
  assert (PK : pick_old (skipn f kps) kept f [] w ds = Starved \/ exists old ds1, pick_old (skipn f kps) kept f [] w ds = Done old w ds1 /\ length old = f /\ NoDup old /\ (forall x, In x old -> In x (skipn f kps) /\ ~ In x kept)).
  { destruct (Nat.eq_dec f 0) as [Z|Z].
    - right. exists [], ds. split; [destruct ds; cbn [pick_old length]; rewrite Z; reflexivity|]. rewrite Z. split; [reflexivity|]. split; [constructor|]. intros x [].
    - apply picked; [|constructor|intros x []|cbn; lia]. intros E. apply (f_equal (@length string)) in E. rewrite skipn_length in E. cbn [length] in E. fold n in E. lia. }
  unfold seq_run. destruct PK as [->|(old & ds1 & -> & LO & NO & IO)]; [exact I|]. set (parents := kept ++ old) in *.
  assert (NP : NoDup parents) by (apply nodup_two; [exact NK|exact NO|]; intros x X Y; destruct (IO x Y); tauto).
  assert (SP : forall x, In x parents -> sound t w x). { intros x X. apply in_app_iff in X. destruct X as [X|X]; apply SK; [now apply KI|apply OI; now apply IO]. }
  assert (CR : cross parents c [] w ds1 = Starved \/ exists children pairs w1 ds2, cross parents c [] w ds1 = Done children w1 ds2 /\ length children = c /\ orderly w1 /\ grows w w1 /\
    NoDup children /\ Forall (coined w w1) children /\ Forall2 (fun p c => exists l, joined (profiles_in w) parents p l /\ has w1 c l) pairs children /\ e_kp_id w1 - e_kp_id w = Z.of_nat (length children) - 0).
  { destruct (Nat.eq_dec f 0) as [Z|Z].
    - right. exists [], [], w, ds1. rewrite (SMALL Z). split; [destruct ds1 as [|? [|? ?]]; reflexivity|]. split; [reflexivity|]. split; [exact O|]. split; [apply grows_refl|]. repeat (split; [constructor|]). cbn. lia.
    - apply (crossed w parents c) with (n := length ds1) (pairs := []); [| |lia|exact O|apply grows_refl|constructor|constructor|constructor|cbn; lia].
      + intros E. apply (f_equal (@length string)) in E. unfold parents in E. rewrite app_length in E. cbn in E. lia.
      + intros x X. apply (sound_known t). now apply SP. }
  destruct CR as [->|(children & pairs & w1 & ds2 & -> & LC & O1 & G1 & NC & CC & FC & EC)]; [exact I|].
  assert (SC : Forall (sound t w1) children).
  { clear - FC G1 SP. induction FC as [|p x ps xs (l & (_ & P1 & P2 & la & lb & HA & HB & ->) & H) FC IH]; [constructor|]. constructor; [|exact IH]. exists (firstn 12 la ++ skipn 12 lb). split; [exact H|].
    apply profile_like_mono with (slack t w); [unfold slack; pose proof (IZR_le _ _ (gr_e _ _ G1)); lra|].
    destruct (SP _ P1) as (la' & HA' & (A1 & A2 & A3 & A4)). destruct (SP _ P2) as (lb' & HB' & (B1 & B2 & B3 & B4)). rewrite (has_det _ _ _ _ HA' HA) in *. rewrite (has_det _ _ _ _ HB' HB) in *.
    assert (L1 : length (firstn 12 la) = 12%nat) by (rewrite firstn_length; lia). split; [rewrite app_length, L1, skipn_length; lia|].
    rewrite <- (firstn_skipn 12 la) in A2. rewrite <- (firstn_skipn 12 lb) in B2. apply Forall_app in A2. apply Forall_app in B2. split; [apply Forall_app; split; [apply A2|apply B2]|].
    rewrite firstn_exact, skipn_exact by exact L1. now split. }
  rewrite Forall_forall in CC. assert (LP : length parents = (2 * f)%nat) by (unfold parents; rewrite app_length; lia).
  assert (IC : e_kp_id w1 = e_kp_id w + Z.of_nat c) by lia.
  destruct (mutated_all t (parents ++ children) w1 ds2 O1) as [->|(rs & w2 & ds3 & -> & G2 & O2 & Q2 & V2 & D2 & C2 & I2)].
  { apply Forall_app. split; [|exact SC]. apply Forall_forall. intros x X. apply (sound_grows t w); [exact G1|now apply SP]. }
  { apply nodup_two; [exact NP|exact NC|]. intros x X Y. destruct (CC x Y) as (Z & _). apply Z. apply (sound_known t). now apply SP. }
  { unfold slack in *. rewrite IC, plus_IZR, app_length, plus_INR, LP, LC. rewrite <- INR_IZR_INZ. assert (Q : (INR c + (INR (2 * f) + INR c) <= 2 * INR n)%R) by (change 2%R with (INR 2); rewrite <- !plus_INR, <- mult_INR; apply le_INR; lia).
    assert (H : (0 < / 2 ^ 51)%R) by lra. unfold Rdiv in *. nra. }
  { exact I. }
  assert (LR : length rs = (2 * f + c)%nat) by (rewrite <- (Forall2_length_eq _ _ _ V2), app_length, LP, LC; reflexivity). rewrite LR.
  destruct (generated_all maximum (n - (2 * f + c)) M w2 ds3 O2) as [->|[->|(D & w3 & ds4 & -> & LD & G3 & O3 & ND & CD & RD & I3)]]; [exact I|reflexivity|]. cbn [ret].
  apply Forall2_app_inv_l in V2. destruct V2 as (AB & C & VP & VC & ->). unfold parents in VP. apply Forall2_app_inv_l in VP. destruct VP as (A & B & VA & VB & ->).
  assert (G13 : grows w1 w3) by (now apply (grows_trans w1 w2 w3)).
  assert (LIFT : forall xs ys, (forall x, In x xs -> sound t w x) -> Forall2 (variant w1 w2) xs ys -> Forall2 (variant w w3) xs ys).
  { intros xs ys. clear - G1 G3. intros SX F. induction F as [|x y xs ys (l1 & l' & A & B & V) F IH]; [constructor|]. constructor; [|apply IH; intros z Z; apply SX; now right].
    destruct (SX x (or_introl eq_refl)) as (l & H & _). rewrite (has_det _ _ _ _ A (gr_has _ _ G1 _ _ H)) in *. exists l, l'. split; [exact H|]. split; [now apply G3|exact V]. }
  split; [|split; [|split; [|split; [|split]]]].
  - exists old, pairs, A, B, C, D. split; [now rewrite <- !app_assoc|]. split; [rewrite app_length, LR, LD; lia|]. split; [apply LIFT; [intros x X; apply SP, in_app_iff; now left|exact VA]|].
    split; [exact LO|]. split; [exact NO|]. split; [intros x X; now apply IO|]. split; [apply LIFT; [intros x X; apply SP, in_app_iff; now right|exact VB]|].
    split; [rewrite (Forall2_length_eq _ _ _ FC); exact LC|]. split; [|exact RD].
    change (Forall2 (child_of (profiles_in w) (profiles_in w3) parents) pairs C). clear - FC VC G3 G1. revert C VC. induction FC as [|p x ps xs (l & HL & HX) FC IH]; intros C VC; inversion VC as [|? y ? ys (l1 & l' & V1 & V2 & V3) VC']; subst; constructor; [|now apply IH].
    rewrite (has_det _ _ _ _ V1 HX) in *. exists l, l'. split; [exact HL|]. split; [now apply G3|exact V3].
  - apply nodup_two; [exact D2|exact ND|]. intros x X Y. rewrite Forall_forall in CD, Q2. destruct (CD x Y) as (Z & _). apply Z. apply (sound_known t). now apply Q2.
  - apply Forall_app. split; [eapply Forall_impl; [|exact Q2]; intros x; now apply sound_grows|]. eapply Forall_impl; [|exact RD]. intros x (l & H & DP). exists l. split; [exact H|].
    apply profile_like_mono with (2 := drawn_profile_like maximum l M DP). unfold slack. assert (0 <= IZR (e_kp_id w3))%R by (apply IZR_le; apply O3). lra.
  - exact O3.
  - apply (grows_trans w w1 w3); assumption.
  - rewrite app_length, LP, LC in I2. lia.
Qed.
Lemma four_fail maximum kps w ds : length kps = 4%nat -> evolve_key_profiles maximum kps w ds = Fails IndexError.
Proof.
  intros L. unfold evolve_key_profiles. rewrite share_fifth, share_three_tenths by (rewrite L; lia). rewrite L. change (4 / 5)%nat with 0%nat. change (3 * 4 / 10)%nat with 1%nat. unfold seq_run.
  destruct ds as [|? ?]; reflexivity.
Qed.

(** ** The built-in profiles *)
Definition units (x : SpecFloat.spec_float) : option Z := match x with SpecFloat.S754_zero _ => Some 0 | SpecFloat.S754_finite false m e => if -1074 <=? e then Some (Z.pos m * 2 ^ (e + 1074)) else None | _ => None end.
Lemma Some_inj {A} (a b : A) : Some a = Some b -> a = b. Proof. congruence. Qed.
Lemma units_R (x : b64) k : units (B2SF x) = Some k -> is_finite x = true /\ 0 <= k /\ B2R x = (IZR k * bpow radix2 (-1074))%R.
Proof.
  destruct x as [s|s| |s m e H]; cbn [B2SF units]; try discriminate.
  - intros [= <-]. split; [reflexivity|]. split; [lia|]. cbn [B2R]. ring.
  - destruct s; [discriminate|]. destruct (Z.leb_spec (-1074) e) as [E|E]; [|discriminate]. intros EQ. apply Some_inj in EQ. subst k. split; [reflexivity|]. split; [apply Z.mul_nonneg_nonneg; [lia|apply Z.pow_nonneg; lia]|].
    cbn [B2R]. unfold F2R. cbn [Fnum Fexp cond_Zopp]. rewrite mult_IZR. change (2 ^ (e + 1074)) with (radix2 ^ (e + 1074)). rewrite IZR_Zpower by lia. rewrite Rmult_assoc, <- bpow_plus. do 2 f_equal. lia.
Qed.
Fixpoint unit_sum (l : list SpecFloat.spec_float) : option Z := match l with [] => Some 0 | x :: l' => match units x, unit_sum l' with Some a, Some b => Some (a + b) | _, _ => None end end.
Lemma unit_sum_R (l : table) : forall k, unit_sum (map B2SF l) = Some k -> Forall (fun x : b64 => is_finite x = true /\ (0 <= B2R x)%R) l /\ real_total l = (IZR k * bpow radix2 (-1074))%R.
Proof.
  induction l as [|x l IH]; cbn [map unit_sum]; intros k E.
  - injection E as <-. split; [constructor|]. unfold real_total. cbn [map fold_right]. lra.
  - destruct (units (B2SF x)) as [a|] eqn:A; [|discriminate]. destruct (unit_sum (map B2SF l)) as [b|]; [|discriminate]. apply Some_inj in E. subst k. destruct (IH b eq_refl) as (F & R). destruct (units_R x a A) as (FX & P & RX). pose proof (bpow_gt_0 radix2 (-1074)) as Q.
    split; [constructor; [split; [exact FX|]|exact F]|unfold real_total in *; cbn [map fold_right]; rewrite RX, R, plus_IZR; ring]. rewrite RX. apply IZR_le in P. nra.
Qed.
Definition close (h : Z) (l : list SpecFloat.spec_float) : bool := match unit_sum l with Some k => Z.abs (k - 2 ^ 1074) * 2 ^ h <=? 2 ^ 1074 | None => false end.
Lemma close_R h (l : table) : 0 <= h -> close h (map B2SF l) = true -> Forall (fun x : b64 => is_finite x = true /\ (0 <= B2R x)%R) l /\ (Rabs (real_total l - 1) <= bpow radix2 (- h))%R.
Proof.
  intros H. unfold close. destruct (unit_sum (map B2SF l)) as [k|] eqn:E; [|discriminate]. intros C. apply Z.leb_le in C. destruct (unit_sum_R l k E) as (F & R). split; [exact F|]. rewrite R.
  assert (P : (0 < bpow radix2 (-1074))%R) by apply bpow_gt_0. assert (Q : (IZR (2 ^ 1074) * bpow radix2 (-1074) = 1)%R).
  { change (2 ^ 1074) with (radix2 ^ 1074). rewrite IZR_Zpower by lia. rewrite <- bpow_plus. reflexivity. }
  replace (IZR k * bpow radix2 (-1074) - 1)%R with (IZR (k - 2 ^ 1074) * bpow radix2 (-1074))%R by (rewrite minus_IZR, Rmult_minus_distr_r, Q; reflexivity).
  rewrite Rabs_mult, (Rabs_pos_eq (bpow radix2 (-1074))) by lra. rewrite <- abs_IZR. apply IZR_le in C. rewrite mult_IZR in C. change (2 ^ h) with (radix2 ^ h) in C. rewrite IZR_Zpower in C by exact H.
  apply (Rmult_le_compat_r (bpow radix2 (-1074) * bpow radix2 (- h))) in C; [|apply Rmult_le_pos; [lra|apply bpow_ge_0]].
  assert (HH : (bpow radix2 h * bpow radix2 (- h) = 1)%R) by (rewrite <- bpow_plus; replace (h + - h) with 0 by lia; reflexivity).
  replace (IZR (Z.abs (k - 2 ^ 1074)) * bpow radix2 h * (bpow radix2 (-1074) * bpow radix2 (- h)))%R with (IZR (Z.abs (k - 2 ^ 1074)) * bpow radix2 (-1074) * (bpow radix2 h * bpow radix2 (- h)))%R in C by ring.
  replace (IZR (2 ^ 1074) * (bpow radix2 (-1074) * bpow radix2 (- h)))%R with ((IZR (2 ^ 1074) * bpow radix2 (-1074)) * bpow radix2 (- h))%R in C by ring. rewrite HH, Q in C. lra.
Qed.
Definition fits (h : Z) (l : table) : bool := Nat.eqb (length l) 24 && close h (map B2SF (firstn 12 l)) && close h (map B2SF (skipn 12 l)).
Lemma fits_like h l : 0 <= h -> fits h l = true -> profile_like (bpow radix2 (- h)) l.
Proof.
  intros H E. unfold fits in E. apply andb_prop in E. destruct E as (E & C2). apply andb_prop in E. destruct E as (E & C1). apply Nat.eqb_eq in E. destruct (close_R h _ H C1) as (F1 & R1). destruct (close_R h _ H C2) as (F2 & R2).
  split; [exact E|]. split; [rewrite <- (firstn_skipn 12 l); now apply Forall_app|]. now split.
Qed.
Lemma assoc_in {V} n (d : list (string * V)) v : assoc String.eqb n d = Some v -> In (n, v) d.
Proof. induction d as [|[k x] d IH]; cbn; [discriminate|]. destruct (String.eqb_spec n k) as [->|_]; [intros [= ->]; now left|]. intros H. right. now apply IH. Qed.
Lemma built_in_profiles n l : profiles_in initial_world n = Some l -> profile_like (/ 2 ^ 8) l /\ (n <> "albrecht_shanahan1"%string -> profile_like (/ 2 ^ 20) l).
Proof.
  intros H. apply assoc_in in H. assert (C : forallb (fun e => fits 8 (snd e) && ((fst e =? "albrecht_shanahan1")%string || fits 20 (snd e))) initial_profiles = true) by (vm_compute; reflexivity).
  rewrite forallb_forall in C. specialize (C _ H). cbn [fst snd] in C. apply andb_prop in C. destruct C as (C1 & C2). split; [apply profile_like_mono with (2 := fits_like 8 l ltac:(lia) C1); change (bpow radix2 (- (8))) with (/ 256)%R; lra|].
  intros N. apply String.eqb_neq in N. rewrite N in C2. apply profile_like_mono with (2 := fits_like 20 l ltac:(lia) C2). change (bpow radix2 (- (20))) with (/ 1048576)%R. lra.
Qed.
Lemma initial_sound n : known initial_world n -> sound (/ 2 ^ 8) initial_world n.
Proof. intros (l & H). exists l. split; [exact H|]. destruct (built_in_profiles n l H) as (P & _). apply profile_like_mono with (2 := P). unfold slack. change (e_kp_id initial_world) with 0. lra. Qed.

(** ** The best one may go *)
Definition five : list string := firstn 5 (map fst initial_profiles).
Definition unlucky : list Z := [0; 0; 1; 0; 0; 0; 1; 0; 0; 0; 1; 0; 0; 0; 1] ++ repeat 1 48.
Definition same_units (a b : list SpecFloat.spec_float) : bool := forallb (fun p => match units (fst p), units (snd p) with Some x, Some y => x =? y | _, _ => true end) (combine a b).
Lemma same_units_refl a : same_units a a = true.
Proof. unfold same_units. induction a as [|x a IH]; [reflexivity|]. cbn [combine forallb fst snd]. rewrite IH. destruct (units x); [now rewrite Z.eqb_refl|reflexivity]. Qed.
Lemma unlucky_run : match evolve_key_profiles 256 five initial_world unlucky with
  | Done new w' _ => forallb (fun n => match profiles_in w' n with Some l => negb (same_units (map B2SF l) (map B2SF (match profiles_in initial_world (hd ""%string five) with Some l => l | None => [] end))) | None => true end) new
  | _ => false end = true.
Proof. vm_compute. reflexivity. Qed.
Lemma best_lost best l new w' ds' : hd_error five = Some best -> profiles_in initial_world best = Some l -> evolve_key_profiles 256 five initial_world unlucky = Done new w' ds' -> forall n, In n new -> profiles_in w' n = Some l -> False.
Proof.
  intros B H E n I P. pose proof unlucky_run as U. rewrite E in U. rewrite forallb_forall in U. specialize (U n I). rewrite P in U. change (hd ""%string five) with best in U || (assert (X : hd ""%string five = best) by (clear - B; injection B as <-; reflexivity); rewrite X in U).
  rewrite H, same_units_refl in U. discriminate.
Qed.
Lemma unlucky_done : match evolve_key_profiles 256 five initial_world unlucky with Done new _ _ => new = ["kpm1"; "kpm2"; "kpm3"; "kp0"; "kp1"]%string | _ => False end.
Proof. vm_compute. reflexivity. Qed.
Lemma best_not_always : ~ (forall maximum kps w ds best l new w' ds', 8 <= maximum <= 2 ^ 52 -> orderly w -> NoDup kps -> Forall (sound (/ 2 ^ 8) w) kps -> hd_error kps = Some best -> profiles_in w best = Some l ->
  evolve_key_profiles maximum kps w ds = Done new w' ds' -> exists n, In n new /\ profiles_in w' n = Some l).
Proof.
  intros A. pose proof unlucky_done as D. destruct (evolve_key_profiles 256 five initial_world unlucky) as [new w' ds'| |] eqn:E; [|contradiction|contradiction].
  assert (B : exists best l, hd_error five = Some best /\ profiles_in initial_world best = Some l) by (eexists _, _; split; reflexivity). destruct B as (best & l & B & H).
  assert (K : Forall (fun n => known initial_world n) five).
  { assert (C : forallb (fun n => match profiles_in initial_world n with Some _ => true | None => false end) five = true) by (vm_compute; reflexivity). rewrite forallb_forall in C. apply Forall_forall. intros x X. specialize (C x X). destruct (profiles_in initial_world x) as [y|] eqn:Y; [|discriminate]. now exists y. }
  destruct (A 256 five initial_world unlucky best l new w' ds') as (n & I & P); try assumption; [lia|apply initial_orderly| |eapply Forall_impl; [|exact K]; intros x; apply initial_sound|].
  - unfold five. cbn [map firstn fst initial_profiles]. repeat (constructor; [cbn; intuition discriminate|]). constructor.
  - exact (best_lost best l new w' ds' B H E n I P).
Qed.
