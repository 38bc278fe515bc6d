(** nnls() in single precision: its comparisons obey the laws, and a negative answer can only come out of an overflow. *)
From Coq Require Import Reals Lra Lia.
From Flocq Require Import Core.Core IEEE754.BinarySingleNaN.
From Verif Require Import Base Fp Nnls NnlsArith NnlsFacts NnlsParts NnlsSteps NnlsLoop NnlsSafe NnlsExact NnlsVisited.
Open Scope Z_scope.

(** ** Comparisons *)
(** Where a number lies, infinity included. *)
Definition place (x : b32) : R := match x with B754_infinity true => (- bpow radix2 128)%R | B754_infinity false => bpow radix2 128 | _ => B2R x end.
Lemma place_finite (x : b32) : is_finite x = true -> place x = B2R x. Proof. now destruct x as [|[|]| |]. Qed.
Lemma finite_inside (x : b32) : is_finite x = true -> (- bpow radix2 128 < place x < bpow radix2 128)%R.
Proof. intros F. rewrite place_finite by exact F. assert (H := abs_B2R_lt_emax prec32 emax32 x). apply Rabs_lt_inv in H. exact H. Qed.
Lemma big_pos : (0 < bpow radix2 128)%R. Proof. apply bpow_gt_0. Qed.
Lemma lt_place (x y : b32) : is_nan x = false -> is_nan y = false -> Bltb x y = Rlt_bool (place x) (place y).
Proof.
  intros Nx Ny. assert (B := big_pos). destruct (is_finite x) eqn:Fx; destruct (is_finite y) eqn:Fy.
  - rewrite !place_finite by assumption. now apply Bltb_correct.
  - assert (I := finite_inside x Fx). destruct y as [|[|]| |]; try discriminate; cbn [place]; [rewrite Rlt_bool_false by lra|rewrite Rlt_bool_true by lra]; destruct x as [|[|]| |]; (reflexivity || discriminate).
  - assert (I := finite_inside y Fy). destruct x as [|[|]| |]; try discriminate; cbn [place]; [rewrite Rlt_bool_true by lra|rewrite Rlt_bool_false by lra]; destruct y as [|[|]| |]; (reflexivity || discriminate).
  - destruct x as [|[|]| |]; try discriminate; destruct y as [|[|]| |]; try discriminate; cbn [place]; ((rewrite Rlt_bool_false by lra) || (rewrite Rlt_bool_true by lra)); reflexivity.
Qed.
Lemma le_place (x y : b32) : is_nan x = false -> is_nan y = false -> Bleb x y = Rle_bool (place x) (place y).
Proof.
  intros Nx Ny. assert (B := big_pos). destruct (is_finite x) eqn:Fx; destruct (is_finite y) eqn:Fy.
  - rewrite !place_finite by assumption. now apply Bleb_correct.
  - assert (I := finite_inside x Fx). destruct y as [|[|]| |]; try discriminate; cbn [place]; [rewrite Rle_bool_false by lra|rewrite Rle_bool_true by lra]; destruct x as [|[|]| |]; (reflexivity || discriminate).
  - assert (I := finite_inside y Fy). destruct x as [|[|]| |]; try discriminate; cbn [place]; [rewrite Rle_bool_true by lra|rewrite Rle_bool_false by lra]; destruct y as [|[|]| |]; (reflexivity || discriminate).
  - destruct x as [|[|]| |]; try discriminate; destruct y as [|[|]| |]; try discriminate; cbn [place]; ((rewrite Rle_bool_false by lra) || (rewrite Rle_bool_true by lra)); reflexivity.
Qed.
Lemma lt_nan (x y : b32) : Bltb x y = true -> is_nan x = false /\ is_nan y = false.
Proof. destruct x as [| | |]; destruct y as [| | |]; cbn; intros; try discriminate; now split. Qed.
Lemma le_nan (x y : b32) : Bleb x y = true -> is_nan x = false /\ is_nan y = false.
Proof. destruct x as [| | |]; destruct y as [| | |]; cbn; intros; try discriminate; now split. Qed.
Lemma lt_iff (x y : b32) : Bltb x y = true <-> is_nan x = false /\ is_nan y = false /\ (place x < place y)%R.
Proof.
  split.
  - intros H. destruct (lt_nan x y H) as [Nx Ny]. rewrite lt_place in H by assumption. repeat split; try assumption. now destruct (Rlt_bool_spec (place x) (place y)).
  - intros (Nx & Ny & H). rewrite lt_place by assumption. now apply Rlt_bool_true.
Qed.
Lemma le_iff (x y : b32) : Bleb x y = true <-> is_nan x = false /\ is_nan y = false /\ (place x <= place y)%R.
Proof.
  split.
  - intros H. destruct (le_nan x y H) as [Nx Ny]. rewrite le_place in H by assumption. repeat split; try assumption. now destruct (Rle_bool_spec (place x) (place y)).
  - intros (Nx & Ny & H). rewrite le_place by assumption. now apply Rle_bool_true.
Qed.
Lemma bool_false b : (b = true -> False) -> b = false. Proof. destruct b; [intros H; now exfalso; apply H|reflexivity]. Qed.
Definition two32 : b32 := rat32 2 1.
Lemma two32_value : is_finite two32 = true /\ B2R two32 = 2%R.
Proof.
  split; [reflexivity|]. rewrite <- SF2R_B2SF. replace (B2SF two32) with (SpecFloat.S754_finite false 8388608 (-22)) by (vm_compute; reflexivity). cbn [SF2R cond_Zopp]. unfold F2R. cbn [Fnum Fexp]. change (bpow radix2 (-22)) with (/ IZR 4194304)%R. lra.
Qed.
Lemma single_lawful : lawful single.
Proof.
  assert (Pz : place (B754_zero false) = 0%R) by reflexivity. assert (P2 : place (rat32 2 1) = 2%R) by (rewrite place_finite by apply two32_value; apply two32_value).
  constructor; cbn [gtb geb leb eqb zero two single num].
  - intros a. apply bool_false. rewrite lt_iff. lra.
  - intros a b c. rewrite !lt_iff. intros (A & B & H) (C & D & H'). repeat split; try assumption. lra.
  - intros a. rewrite lt_iff. intros (A & B & H). apply bool_false. rewrite le_iff. lra.
  - reflexivity.
  - intros a b. rewrite !le_iff. intros (A & B & H) (C & D & H'). repeat split; try assumption. lra.
  - intros t H. apply lt_iff in H as (N & _ & H). apply bool_false. intros E. destruct t as [s|s| |s mm e Bd]; try discriminate E; try discriminate N; [destruct s; discriminate E|].
    rewrite Beqb_correct in E by reflexivity. rewrite place_finite in H by reflexivity. destruct two32_value as (_ & V). unfold two32 in V. rewrite V in E. rewrite P2 in H. destruct (Req_bool_spec (B2R (B754_finite s mm e Bd : b32)) 2); [lra|discriminate].
  - reflexivity.
Qed.

(** ** Negative coefficients *)
Notation vec := (@vec single).
Definition negative (x : b32) : bool := Bltb x (B754_zero false).
Lemma negative_iff (x : b32) : negative x = true <-> is_nan x = false /\ (place x < 0)%R.
Proof. unfold negative. rewrite lt_iff. cbn [place B2R]. split; [intros (A & _ & B); now split|intros (A & B); repeat split; assumption]. Qed.
Lemma not_negative (x : b32) : is_finite x = true -> negative x = false -> (0 <= B2R x)%R.
Proof. intros F N. destruct (Rlt_le_dec (B2R x) 0) as [L|L]; [|exact L]. assert (negative x = true) by (apply negative_iff; rewrite place_finite by exact F; split; [now destruct x|exact L]). congruence. Qed.
Notation fexp32 := (SpecFloat.fexp prec32 emax32).
Lemma b32_fmt (x : b32) : generic_format radix2 fexp32 (B2R x). Proof. apply generic_format_B2R. Qed.
(** A step towards a coefficient that is not positive, from a finite one that is not negative, is at most a whole one. *)
Lemma ratio_small (v z : b32) : is_finite v = true -> negative v = false -> Bleb z (B754_zero false) = true ->
  Bltb (fdiv32 (Bopp v) (Bminus mode_NE z v)) two32 = true \/ negative z = false.
Proof.
  intros Fv Nv Lz. assert (V0 := not_negative v Fv Nv). apply le_iff in Lz as (Nz & _ & Lz). cbn [place B2R] in Lz.
  assert (Inf : forall s, Bltb (fdiv32 (Bopp v) (B754_infinity s)) two32 = true).
  { intros s. destruct v as [sv|sv| |sv mv ev Bv]; try discriminate Fv; unfold fdiv32; cbn [Bopp Bdiv]; reflexivity. }
  destruct (is_finite z) eqn:Fz.
  2: { destruct z as [|[|]| |]; try discriminate; [|cbn [place] in Lz; pose proof big_pos; lra]. left. replace (Bminus mode_NE (B754_infinity true) v) with (B754_infinity true : b32) by (now destruct v). apply Inf. }
  rewrite place_finite in Lz by exact Fz.
  destruct (Req_dec (B2R z) 0) as [Z0|Z0]; [right; apply bool_false; rewrite negative_iff, place_finite by exact Fz; lra|]. left.
  assert (C := Bminus_correct prec32 emax32 prec32_gt_0 prec32_lt mode_NE z v Fz Fv). set (r := round radix2 fexp32 (round_mode mode_NE) (B2R z - B2R v)) in *.
  destruct (Rlt_bool_spec (Rabs r) (bpow radix2 emax32)) as [Sm|Sm].
  - destruct C as (Cv & Cf & _). set (d := Bminus mode_NE z v) in *.
    assert (Vex : Valid_exp fexp32) by (apply FLT_exp_valid; exact prec32_gt_0).
    assert (R1 : (r <= - B2R v)%R).
    { replace (- B2R v)%R with (round radix2 fexp32 (round_mode mode_NE) (- B2R v)) by (apply round_generic; [typeclasses eauto|apply generic_format_opp, b32_fmt]). apply round_le; [exact Vex|typeclasses eauto|lra]. }
    assert (R2 : (r <= B2R z)%R).
    { replace (B2R z) with (round radix2 fexp32 (round_mode mode_NE) (B2R z)) by (apply round_generic; [typeclasses eauto|apply b32_fmt]). apply round_le; [exact Vex|typeclasses eauto|lra]. }
    assert (Rn : (r < 0)%R) by lra.
    assert (D := Bdiv_correct prec32 emax32 prec32_gt_0 prec32_lt mode_NE (Bopp v) d ltac:(rewrite Cv; lra)). rewrite B2R_Bopp, Cv in D.
    assert (Q : (0 <= - B2R v / r <= 1)%R).
    { assert (I : (/ r < 0)%R) by now apply Rinv_lt_0_compat. split.
      - unfold Rdiv. nra.
      - replace 1%R with (r / r)%R by (field; lra). unfold Rdiv. rewrite !(Rmult_comm _ (/ r)). apply Rmult_le_compat_neg_l; lra. }
    set (q := round radix2 fexp32 (round_mode mode_NE) (- B2R v / r)) in *.
    assert (Q0 : (0 <= q)%R) by (replace 0%R with (round radix2 fexp32 (round_mode mode_NE) 0) by (apply round_0; typeclasses eauto); apply round_le; [exact Vex|typeclasses eauto|lra]).
    assert (Q1 : (q <= 1)%R).
    { replace 1%R with (round radix2 fexp32 (round_mode mode_NE) 1); [apply round_le; [exact Vex|typeclasses eauto|lra]|]. apply round_generic; [typeclasses eauto|]. change 1%R with (bpow radix2 0). apply generic_format_bpow. unfold SpecFloat.fexp, SpecFloat.emin, prec32, emax32. lia. }
    rewrite Rlt_bool_true in D.
    + destruct D as (Dv & Df & _). destruct two32_value as (F2 & V2). assert (Fq : is_finite (fdiv32 (Bopp v) d) = true) by (unfold fdiv32; rewrite Df; now rewrite is_finite_Bopp). apply lt_iff. split; [now destruct (fdiv32 (Bopp v) d)|]. split; [reflexivity|]. rewrite !place_finite by assumption. unfold fdiv32. rewrite Dv, V2. lra.
    + rewrite Rabs_pos_eq by exact Q0. apply Rle_lt_trans with 1%R; [exact Q1|]. change 1%R with (bpow radix2 0). apply bpow_lt. reflexivity.
  - destruct C as (Ce & _). unfold binary_overflow in Ce. cbn [overflow_to_inf] in Ce. destruct (Bminus mode_NE z v) as [s|s| |s mm e Bd] eqn:E; try discriminate Ce. apply Inf.
Qed.

Section Sign.
  Context (mda m n : Z) (m_pos : 0 < m) (m_mda : m <= mda) (n_pos : 0 < n).
  Definition sign_ok (l : label) (s : st single) : Prop :=
    match l with
    | L260 _ _ => forall q, nsetp s < q <= n -> negative (vec (vx s) (ent (vidx s) q)) = false
    | L330 => (forall j, 1 <= j <= n -> negative (vec (vx s) j) = false) /\ forall q, 1 <= q <= nsetp s -> negative (vec (vzz s) q) = false
    | _ => forall j, 1 <= j <= n -> negative (vec (vx s) j) = false
    end.
  Lemma not_le_zero (x : b32) : Bleb x (B754_zero false) = false -> negative x = false.
  Proof. intros H. apply bool_false. intros N. apply negative_iff in N as (A & B). assert (Bleb x (B754_zero false) = true) by (apply le_iff; repeat split; [exact A|cbn [place B2R]; lra]). congruence. Qed.
  Lemma sign_step l s : at_ok mda m n l s -> sign_ok l s -> (l = L210 -> forall j, 1 <= j <= n -> is_finite (vec (vx s) j) = true) -> l <> L350 -> ok (fun '(l', s') => sign_ok l' s') (step mda m n l s).
  Proof.
    intros (W & H) X Fin N. assert (W0 := W). destruct W. destruct l; cbn [step sign_ok] in *.
    - pose proof (step30_ok mda m n m_mda s wf_a wf_b wf_i wf_w ltac:(lia) ltac:(lia)) as S. destruct ((n <? iz1 s) || (m <=? nsetp s)); [rewrite S; apply ok_ret; exact X|]. eapply ok_weaken; [exact S|]. cbn beta. intros (l', s') (-> & w' & -> & _). exact X.
    - destruct H as (Hi & Hm & Hn & Hw). eapply ok_weaken; [apply (step60_ok single_lawful mda m n m_pos m_mda s); (assumption || lia)|]. cbn beta. intros (l', s'). destruct l'; try contradiction.
      + intros (iz & _ & _ & (_ & _ & _ & Ex & _)). cbn [sign_ok]. now rewrite Ex.
      + intros (iz & _ & _ & zz0 & _ & _ & _ & _ & _ & _ & _ & _ & _ & _ & _ & _ & _ & _ & Ex & _). cbn [sign_ok]. now rewrite Ex.
      + intros (-> & _). exact X.
    - destruct H as (Hi & Lz). eapply ok_weaken; [apply (step210_ok single_lawful m n s); assumption|]. cbn beta. intros (l', s'). destruct l'; try contradiction.
      + intros (_ & _ & _ & _ & _ & x' & -> & _ & _ & U). cbn [sign_ok with_x nsetp vx vidx]. intros q Q. rewrite U; [apply X; now apply wf_i; lia|]. intros ip Hip E. apply wf_i in E; lia.
      + intros (_ & -> & Nb). cbn [sign_ok with_x nsetp vx vidx vzz]. split; [exact X|]. intros q Q. destruct (Bleb (vec (vzz s) q) (B754_zero false)) eqn:Lq; [|now apply not_le_zero].
        assert (Rq : 1 <= ent (vidx s) q <= n) by (apply wf_i; lia). assert (Nq := Nb q (conj Q Lq)). destruct (ratio_small (vec (vx s) (ent (vidx s) q)) (vec (vzz s) q) (Fin eq_refl _ Rq) (X _ Rq) Lq) as [Y|Y]; [|exact Y]. unfold ratio in Nq. cbn [gtb two div opp sub single] in Nq. unfold two32 in Y. rewrite Y in Nq. discriminate.
      + intros (_ & ->). exact X.
    - destruct H as (Hi & Hj & ->). eapply ok_weaken; [apply (step260_ok mda m n m_pos m_mda n_pos (fun _ _ => True) s jj); (assumption || lia || exact Logic.I || idtac)|].
      + intros j a' b' i2 _ _ _ _ _ _. cbv zeta. destruct (g1 (mat mda a' (j - 1) (ent (vidx s) j)) (mat mda a' j (ent (vidx s) j))) as ((cc, ss), sig). intros. exact Logic.I.
      + cbn beta. intros (l', s') (_ & _ & Li & Rm & _ & Ex & _ & _ & En & _ & _ & _ & C).
        assert (Pm : perm n (vidx s')) by (apply (removed_perm n (vidx s) (vidx s') (nsetp s) jj); (assumption || lia)).
        assert (Off : forall q, nsetp s' < q <= n -> negative (vec (vx s') (ent (vidx s') q)) = false).
        { intros q Q. rewrite En in Q. rewrite Ex, vec_put. zdec (ent (vidx s') q =? ent (vidx s) jj); [reflexivity|]. rewrite Rm in E |- * by lia. replace (q <? jj) with false in * by (symmetry; apply Z.ltb_ge; lia). replace (q <? nsetp s) with false in * by (symmetry; apply Z.ltb_ge; lia). zdec (q =? nsetp s); [now destruct E|]. apply X. lia. }
        destruct l'; try contradiction.
        * destruct C as (Ps & _). cbn [sign_ok]. intros j J. destruct (perm_onto n (vidx s') j Pm J) as (q & Q & <-). destruct (Z_le_gt_dec q (nsetp s')) as [L|L]; [apply not_le_zero; apply Ps; lia|apply Off; lia].
        * exact Off.
    - destruct H as (Hi & Lz). destruct X as (X & Xz). eapply ok_weaken; [apply (step330_ok m n s); assumption|]. cbn beta. intros (l', s') (-> & x' & -> & _ & V & U). cbn [sign_ok with_x vx]. intros j J. destruct (perm_onto n (vidx s) j wf_i J) as (q & Q & <-). destruct (Z_le_gt_dec q (nsetp s)) as [L|L].
      + rewrite V by lia. apply Xz. lia.
      + rewrite U; [now apply X|]. intros ip Hip E. apply wf_i in E; lia.
    - congruence.
  Qed.
  Lemma nnls_sign (a b x w zz : array b32) (index : array Z) (fuel : nat) :
    live a (mda * n) -> live b m -> n <= size x -> n <= size w -> m <= size zz -> n <= size index -> (enough n <= fuel)%nat ->
    (forall s j, visited (A := single) mda m n a b x w zz index L210 s -> 0 <= j < n -> exists v, cell (vx s) j = Some v /\ is_finite v = true) ->
    exists r, nnls (A := single) a mda m n b x w zz index fuel = Some (Ret r) /\ forall j, 0 <= j < n -> exists v, cell (r_x r) j = Some v /\ Bltb v (B754_zero false) = false.
  Proof.
    intros La Lb Bx Bw Bz Bi Fu Fin.
    destruct (nnls_ok single_lawful mda m n m_pos m_mda n_pos (fun l s => visited (A := single) mda m n a b x w zz index l s /\ sign_ok l s) a b x w zz index fuel La Lb Bx Bw Bz Bi Fu) as (s & r & (W & _) & (_ & Sg) & E & _ & Ex & _).
    - intros x' i' Ei Lx Vx P V. split; [exact (first_state (A := single) mda m n a b x w zz index x' i' Ei)|intros j J; rewrite Vx by exact J; reflexivity].
    - intros l s H (Vi & Sg) N. destruct (sign_step l s H Sg) as ((l', s') & E & S'); [|exact N|].
      + intros -> j J. destruct (Fin s (j - 1) Vi ltac:(lia)) as (v & C & F). unfold NnlsParts.vec, get. now rewrite C.
      + exists (l', s'). split; [exact E|]. split; [exact (next_state (A := single) mda m n a b x w zz index l s l' s' Vi E)|exact S'].
    - exists r. split; [exact E|]. rewrite Ex. intros j J. destruct W. destruct wf_x as (_ & Lx). specialize (Lx j J). specialize (Sg (j + 1) ltac:(lia)). unfold NnlsParts.vec, get in Sg. replace (j + 1 - 1) with j in Sg by lia. destruct (cell (vx s) j) as [v|]; [|congruence]. exists v. split; [reflexivity|exact Sg].
  Qed.
End Sign.
