(** Facts about decimal digits as printed. *)
From Coq Require Import Lia Ascii.
From Verif Require Import Base BaseFacts Fp Key PitchClass Text Options MusicSpec TextSpec TextFacts.
From Coq Require Import ZifyBool ZifyNat.
Open Scope Z_scope.

(** The last [n] decimal digits of a number. *)
Fixpoint digits_of (n : nat) (v : Z) : list Z := match n with O => [] | S n' => digits_of n' (v / 10) ++ [v mod 10] end.
Lemma show_digits_app a b : show_digits (a ++ b) = (show_digits a ++ show_digits b)%string.
Proof. induction a; cbn; [reflexivity|]. now rewrite IHa. Qed.
Lemma show_digit_chr d : is_dig d -> show_digit d = chr (48 + d).
Proof.
  intros H. assert (B : forall i, 0 <= i < Z.of_nat 10 -> (show_digit i =? chr (48 + i))%char = true).
  { apply zseq_sweep. vm_compute. reflexivity. }
  apply Ascii.eqb_eq, B. unfold is_dig in H. lia.
Qed.
Lemma mod10 v : is_dig (v mod 10).
Proof. unfold is_dig. apply Z.mod_pos_bound. lia. Qed.
Lemma to_digits_show n v : to_digits n v = show_digits (digits_of n v).
Proof.
  revert v. induction n as [|n IH]; intros v; [reflexivity|]. cbn [to_digits digits_of]. rewrite IH, show_digits_app. f_equal. cbn [show_digits].
  now rewrite show_digit_chr by apply mod10.
Qed.
Lemma digits_of_dig n v : Forall is_dig (digits_of n v).
Proof. revert v. induction n as [|n IH]; intros v; [constructor|]. cbn [digits_of]. apply Forall_app. split; [apply IH|]. constructor; [apply mod10|constructor]. Qed.
Lemma digits_of_length n v : length (digits_of n v) = n.
Proof. revert v. induction n as [|n IH]; intros v; [reflexivity|]. cbn [digits_of]. rewrite app_length, IH. cbn. lia. Qed.
Lemma digits_value_snoc a d : digits_value (a ++ [d]) = 10 * digits_value a + d.
Proof. unfold digits_value. now rewrite fold_left_app. Qed.
Lemma digits_of_value n v : digits_value (digits_of n v) = v mod 10 ^ Z.of_nat n.
Proof.
  revert v. induction n as [|n IH]; intros v.
  - cbn [digits_of]. change (10 ^ Z.of_nat 0) with 1. now rewrite Z.mod_1_r.
  - cbn [digits_of]. rewrite digits_value_snoc, IH. rewrite Nat2Z.inj_succ, Z.pow_succ_r by lia.
    rewrite Z.rem_mul_r by lia. lia.
Qed.
Lemma width_loop_spec f v : 0 < v -> v < 2 ^ Z.of_nat f -> 0 < width_loop f v /\ 10 ^ (width_loop f v - 1) <= v < 10 ^ width_loop f v.
Proof.
  revert v. induction f as [|f IH]; intros v P L.
  - cbn in L. lia.
  - cbn [width_loop]. replace (v <=? 0) with false by lia. rewrite Nat2Z.inj_succ, Z.pow_succ_r in L by lia.
    destruct (Z.eq_dec (v / 10) 0) as [E|E].
    + rewrite E. assert (v < 10) by (apply Z.div_small_iff in E; lia). destruct f as [|f]; cbn [width_loop]; cbn; lia.
    + assert (0 < v / 10) by (pose proof (Z.div_pos v 10); lia).
      assert (v / 10 < 2 ^ Z.of_nat f) by (apply Z.div_lt_upper_bound; lia).
      destruct (IH (v / 10)) as (A & B & C); [assumption..|]. set (w := width_loop f (v / 10)) in *.
      split; [lia|]. replace (1 + w - 1) with (Z.succ (w - 1)) by lia. replace (1 + w) with (Z.succ w) by lia.
      rewrite !Z.pow_succ_r by lia. pose proof (Z.div_mod v 10). pose proof (Z.mod_pos_bound v 10). lia.
Qed.
Lemma width_spec v : 0 < v -> 0 < width v /\ 10 ^ (width v - 1) <= v < 10 ^ width v.
Proof.
  intros P. unfold width. apply width_loop_spec; [exact P|]. rewrite Nat2Z.inj_succ, Z2Nat.id by apply Z.log2_nonneg. apply Z.log2_spec. exact P.
Qed.
(** The text of a non-negative number: its digits, without leading zeros. *)
Lemma format_int_spec n : 0 <= n -> exists ds, format_int n = show_digits ds /\ Forall is_dig ds /\ digits_value ds = n /\ ds <> [] /\ (hd 0 ds = 0 -> ds = [0]).
Proof.
  intros H. unfold format_int. destruct (Z.eqb_spec n 0) as [->|N].
  - exists [0]. repeat split; try discriminate. constructor; [unfold is_dig; lia|constructor].
  - replace (n <? 0) with false by lia. cbn [append]. rewrite Z.abs_eq by lia. destruct (width_spec n ltac:(lia)) as (W & L & U).
    exists (digits_of (Z.to_nat (width n)) n). rewrite to_digits_show.
    split; [reflexivity|]. split; [apply digits_of_dig|].
    assert (V : digits_value (digits_of (Z.to_nat (width n)) n) = n).
    { rewrite digits_of_value, Z2Nat.id by lia. apply Z.mod_small. lia. }
    split; [exact V|]. pose proof (digits_of_length (Z.to_nat (width n)) n) as Len.
    split; [intros E; rewrite E in Len; cbn [length] in Len; lia|].
    intros Z0. exfalso. pose proof (digits_of_dig (Z.to_nat (width n)) n) as D. destruct (digits_of (Z.to_nat (width n)) n) as [|d l]; [cbn [length] in Len; lia|].
    cbn in Z0. subst d. assert (B : forall l a, Forall is_dig l -> 0 <= a -> fold_left (fun v d => 10 * v + d) l a < (a + 1) * 10 ^ Z.of_nat (length l)).
    { clear. induction l as [|d l IH]; intros a F A; [cbn; lia|]. cbn [fold_left length]. apply Forall_cons_iff in F. destruct F as [Fd F]. unfold is_dig in Fd.
      specialize (IH (10 * a + d) F ltac:(lia)). rewrite Nat2Z.inj_succ, Z.pow_succ_r by lia. nia. }
    apply Forall_cons_iff in D. destruct D as [_ D]. specialize (B l 0 D ltac:(lia)). unfold digits_value in V. cbn [fold_left] in V.
    change (10 * 0 + 0) with 0 in V. rewrite V in B. cbn [length] in Len. replace (Z.of_nat (length l)) with (width n - 1) in B by lia. lia.
Qed.
