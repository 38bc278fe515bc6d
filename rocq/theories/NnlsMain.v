(** The answer of nnls() in real numbers is the best one. *)
From Coq Require Import Reals Lra Lia Permutation.
From Verif Require Import Base Nnls NnlsArith NnlsSpec NnlsFacts NnlsParts NnlsSteps NnlsLoop NnlsSafe NnlsSums NnlsExact NnlsKeep.
Open Scope Z_scope.

Section Optimal.
  Context (m n : Z) (A : Z -> Z -> R) (b : Z -> R).
  Notation dot := (dot m).
  Definition product (y : Z -> R) (l : Z) : R := sum 1 n (fun j => (A l j * y j)%R).
  Definition left_over (y : Z -> R) (l : Z) : R := (product y l - b l)%R.
  (** The negative gradient of half the squared residual. *)
  Definition dual (x : Z -> R) (j : Z) : R := dot (fun l => A l j) (fun l => (b l - product x l)%R).
  Lemma dot_product c y : dot c (product y) = sum 1 n (fun j => (y j * dot c (fun l => A l j))%R).
  Proof.
    unfold product. rewrite (dot_sum m c n (fun j l => (A l j * y j)%R)). apply sum_ext. intros j _. rewrite <- dot_scal. apply dot_ext; [reflexivity|]. intros. lra.
  Qed.
  Lemma kkt x : (forall j, 1 <= j <= n -> (0 <= x j /\ dual x j <= 0 /\ x j * dual x j = 0)%R) ->
    forall y, (forall j, 1 <= j <= n -> (0 <= y j)%R) -> (dot (left_over x) (left_over x) <= dot (left_over y) (left_over y))%R.
  Proof.
    intros H y Y. set (d := fun j => (y j - x j)%R).
    assert (E : forall l, left_over y l = (left_over x l + product d l)%R).
    { intros l. unfold left_over. enough (product y l = product x l + product d l)%R by lra. unfold product. rewrite <- sum_plus. apply sum_ext. intros j _. unfold d. ring. }
    rewrite (dot_ext m (left_over y) (left_over y) _ _ (fun l _ => E l) (fun l _ => E l)). rewrite dot_plus, !dot_plus_l. rewrite (dot_comm m (product d) (left_over x)).
    assert (N := dot_nonneg m (product d)). enough (0 <= dot (left_over x) (product d))%R by lra.
    rewrite dot_product. apply sum_nonneg. intros j J. destruct (H j J) as (X & D & C).
    replace (dot (left_over x) (fun l => A l j)) with (- dual x j)%R.
    - unfold d. specialize (Y j J). nra.
    - unfold dual, left_over. rewrite (dot_comm m (fun l => (product x l - b l)%R)). rewrite <- (Rmult_1_l (dot (fun l => A l j) (fun l => (b l - product x l)%R))). rewrite Ropp_mult_distr_l, <- dot_scal. apply dot_ext; [reflexivity|]. intros. lra.
  Qed.
End Optimal.

Section Answer.
  Context (mda m n : Z) (m_pos : 0 < m) (m_mda : m <= mda) (n_pos : 0 < n).
  Notation mat := (@mat exact mda).
  Notation vec := (@vec exact).
  Notation dot := (dot m).
  Context (M0 : Z -> Z -> R) (b0 : Z -> R).
  Lemma dual_kept M b x j : gram m n M0 b0 M b -> 1 <= j <= n -> dual m n M b x j = dual m n M0 b0 x j.
  Proof.
    intros (G1 & G2 & _) J. unfold dual.
    assert (E : forall A v, dot (fun l => A l j) (fun l => (v l - product n A x l)%R) = (dot (fun l => A l j) v - sum 1 n (fun k => x k * dot (fun l => A l j) (fun l => A l k)))%R).
    { intros A v. rewrite <- dot_product. unfold Rminus. rewrite <- (Rmult_1_l (dot (fun l => A l j) (product n A x))), Ropp_mult_distr_l, <- dot_scal, <- dot_plus. apply dot_ext; [reflexivity|]. intros. lra. }
    rewrite !E. rewrite G2 by exact J. f_equal. apply sum_ext. intros k Hk. now rewrite G1.
  Qed.
  Lemma left_over_kept M b x : gram m n M0 b0 M b -> dot (left_over n M b x) (left_over n M b x) = dot (left_over n M0 b0 x) (left_over n M0 b0 x).
  Proof.
    intros G. assert (E : forall A v, dot (left_over n A v x) (left_over n A v x) = (dot v v - sum 1 n (fun j => x j * (dual m n A v x j + dot (fun l => A l j) v)))%R).
    { intros A v. unfold left_over at 1 2, Rminus. rewrite dot_plus, !dot_plus_l.
      assert (O : forall c, dot c (fun l => (- v l)%R) = (- dot c v)%R) by (intros c; rewrite <- (Rmult_1_l (dot c v)), Ropp_mult_distr_l, <- dot_scal; apply dot_ext; [reflexivity|]; intros; lra).
      assert (O' : forall c, dot (fun l => (- v l)%R) c = (- dot v c)%R) by (intros c; rewrite dot_comm, O; now rewrite dot_comm).
      assert (D : sum 1 n (fun j => (x j * (dual m n A v x j + dot (fun l => A l j) v))%R) = (- dot (product n A x) (product n A x) + 2 * dot v (product n A x))%R).
      { rewrite !dot_product. rewrite <- sum_scal. rewrite <- (Rmult_1_l (sum 1 n (fun j => (x j * dot (product n A x) (fun l => A l j))%R))), Ropp_mult_distr_l, <- sum_scal, <- sum_plus. apply sum_ext. intros j _.
        unfold dual, Rminus. rewrite dot_plus. rewrite (dot_comm m v (fun l => A l j)), (dot_comm m (product n A x) (fun l => A l j)).
        replace (dot (fun l => A l j) (fun l => (- product n A x l)%R)) with (- dot (fun l => A l j) (product n A x))%R; [ring|]. rewrite <- (Rmult_1_l (dot (fun l => A l j) (product n A x))), Ropp_mult_distr_l, <- dot_scal. apply dot_ext; [reflexivity|]. intros; lra. }
      rewrite D, O, !O', O. rewrite (dot_comm m (product n A x) v). lra. }
    rewrite !E. destruct G as (G1 & G2 & G3). rewrite G3. f_equal. apply sum_ext. intros j J. rewrite (dual_kept M b) by (exact J || exact (conj G1 (conj G2 G3))). now rewrite G2.
  Qed.
  Lemma product_solved s : at_ok mda m n L350 s -> common mda m n M0 b0 s -> fits mda s ->
    forall l, 1 <= l <= m -> product n (mat (va s)) (vec (vx s)) l = if l <=? nsetp s then vec (vb s) l else 0%R.
  Proof.
    intros (W & _) (_ & T & _ & O) F l L. destruct W. unfold product. rewrite <- (sum_perm n (vidx s)) by exact wf_i. rewrite (sum_split 1 (nsetp s) n) by lia.
    rewrite (sum_zero (nsetp s + 1) n) by (intros q Q; rewrite O by lia; apply Rmult_0_r). rewrite Rplus_0_r. zdec (l <=? nsetp s).
    - rewrite (sum_split 1 (l - 1) (nsetp s)) by lia. rewrite (sum_zero 1 (l - 1)) by (intros q Q; rewrite (proj2 (T q ltac:(lia)) l ltac:(lia)); apply Rmult_0_l). replace (l - 1 + 1) with l by lia. rewrite (F l) by lia. apply Rplus_0_l.
    - apply sum_zero. intros q Q. rewrite (proj2 (T q ltac:(lia)) l ltac:(lia)). apply Rmult_0_l.
  Qed.
  Lemma finished s : at_ok mda m n L350 s -> K mda m n M0 b0 L350 s -> vmode s = 1 ->
    (forall j, 1 <= j <= n -> (0 <= vec (vx s) j /\ dual m n M0 b0 (vec (vx s)) j <= 0 /\ vec (vx s) j * dual m n M0 b0 (vec (vx s)) j = 0)%R) /\
    dot (left_over n M0 b0 (vec (vx s))) (left_over n M0 b0 (vec (vx s))) = sum (npp1 s) m (fun l => (vec (vb s) l * vec (vb s) l)%R).
  Proof.
    intros H (C & [V3|(_ & F & Gr)]) V; [rewrite V in V3; discriminate|]. assert (P := product_solved s H C F). destruct C as (G & T & X & O). destruct H as (W & _). destruct W.
    assert (D : forall j, 1 <= j <= n -> dual m n M0 b0 (vec (vx s)) j = gradient mda m s j).
    { intros j J. rewrite <- (dual_kept (mat (va s)) (vec (vb s))) by assumption. unfold dual, gradient, NnlsSums.dot. rewrite (sum_split 1 (nsetp s) m) by lia. rewrite (sum_zero 1 (nsetp s)).
      - rewrite Rplus_0_l. apply sum_ext. intros l L. rewrite P by lia. replace (l <=? nsetp s) with false by (symmetry; apply Z.leb_gt; lia). now rewrite Rminus_0_r.
      - intros l L. rewrite P by lia. replace (l <=? nsetp s) with true by (symmetry; apply Z.leb_le; lia). ring. }
    split.
    - intros j J. split; [now apply X|]. rewrite D by exact J. destruct (perm_onto n (vidx s) j wf_i J) as (q & Q & <-). destruct (Z_le_gt_dec q (nsetp s)) as [L|L].
      + assert (Z0 : gradient mda m s (ent (vidx s) q) = 0%R) by (apply sum_zero; intros l Hl; rewrite (proj2 (T q ltac:(lia)) l ltac:(lia)); apply Rmult_0_l). rewrite Z0. split; [lra|apply Rmult_0_r].
      + split; [apply Gr; lia|]. rewrite (O q) by lia. apply Rmult_0_l.
    - rewrite <- (left_over_kept (mat (va s)) (vec (vb s))) by exact G. unfold NnlsSums.dot. rewrite (sum_split 1 (nsetp s) m) by lia. rewrite (sum_zero 1 (nsetp s)).
      + rewrite Rplus_0_l, wf_npp1. apply sum_ext. intros l L. unfold left_over. rewrite P by lia. replace (l <=? nsetp s) with false by (symmetry; apply Z.leb_gt; lia). ring.
      + intros l L. unfold left_over. rewrite P by lia. replace (l <=? nsetp s) with true by (symmetry; apply Z.leb_le; lia). ring.
  Qed.
  (** The whole call in real numbers. *)
  Lemma nnls_exact a b x w zz index fuel :
    live a (mda * n) -> live b m -> n <= size x -> n <= size w -> m <= size zz -> n <= size index -> (enough n <= fuel)%nat ->
    M0 = mat a -> b0 = vec b ->
    exists r, nnls (A := exact) a mda m n b x w zz index fuel = Some (Ret r) /\ live (r_x r) n /\ (r_mode r = 1 \/ r_mode r = 3) /\
      (forall j, 1 <= j <= n -> (0 <= vec (r_x r) j)%R) /\
      (r_mode r = 1 ->
        (forall j, 1 <= j <= n -> (dual m n M0 b0 (vec (r_x r)) j <= 0 /\ vec (r_x r) j * dual m n M0 b0 (vec (r_x r)) j = 0)%R) /\
        r_norm r = Some (sqrt (dot (left_over n M0 b0 (vec (r_x r))) (left_over n M0 b0 (vec (r_x r)))))).
  Proof.
    intros La Lb Bx Bw Bz Bi Fu Ea Eb.
    destruct (nnls_ok exact_lawful mda m n m_pos m_mda n_pos (K mda m n M0 b0) a b x w zz index fuel La Lb Bx Bw Bz Bi Fu) as (s & r & H & HK & E & Em & Ex & En & _).
    - intros x' i' _ Lx Vx P V. split.
      + split; [subst M0 b0; now repeat split|]. split; [intros q Q; cbn in Q; lia|]. cbn [vx vidx nsetp]. split; [intros j J; rewrite Vx by exact J; cbn; lra|]. intros q Q. cbn [nsetp] in Q. apply Vx. apply P. lia.
      + split; [reflexivity|]. split; intros q Q; cbn in Q; lia.
    - intros l s H HK N. now apply K_step.
    - exists r. split; [exact E|]. split; [rewrite Ex; apply H|]. rewrite Em, Ex, En. split; [destruct HK as (_ & [V|(V & _)]); [now right|now left]|]. split; [apply HK|].
      intros V. destruct (finished s H HK V) as (F1 & F2). split; [intros j J; now apply F1|]. rewrite F2. cbn [root add mul zero exact]. rewrite (fold_left_sum (npp1 s) m (fun l => vec (vb s) l * vec (vb s) l)%R). now rewrite Rplus_0_l.
  Qed.
End Answer.

(** ** In the terms of the specification *)
Lemma total_sum k f : total k f = sum 1 (Z.of_nat k) (fun l => f (Z.to_nat (l - 1))).
Proof.
  induction k as [|k IH]; [reflexivity|]. cbn [total]. rewrite IH. rewrite (sum_snoc 1 (Z.of_nat (S k))) by lia. replace (Z.of_nat (S k) - 1) with (Z.of_nat k) by lia. now rewrite Nat2Z.id.
Qed.
Lemma live_of_list {T} (l : list T) k : k <= Z.of_nat (length l) -> live (of_list l) k.
Proof. intros H. split; [exact H|]. intros i Hi. cbn [of_list cell]. apply nth_error_Some. lia. Qed.
Lemma get_of_list {T} (d : T) l i : 0 <= i -> get d (of_list l) i = nth (Z.to_nat i) l d.
Proof. intros I. unfold get. cbn [of_list cell]. generalize (Z.to_nat i). clear i I. induction l as [|x l IH]; intros [|k]; cbn [nth_error nth]; auto. Qed.
Lemma nnls_best (mda m n : nat) (a b : list R) (x w zz : array R) (index : array Z) (fuel : nat) :
  (0 < m <= mda)%nat -> (0 < n)%nat -> (mda * n <= length a)%nat -> (m <= length b)%nat ->
  Z.of_nat n <= size x -> Z.of_nat n <= size w -> Z.of_nat m <= size zz -> Z.of_nat n <= size index -> ((3 * n + 2) * (n + 10) <= fuel)%nat ->
  exists r y, nnls (A := exact) (of_list a) (Z.of_nat mda) (Z.of_nat m) (Z.of_nat n) (of_list b) x w zz index fuel = Some (Ret r) /\
    (forall j, (j < n)%nat -> cell (r_x r) (Z.of_nat j) = Some (y j)) /\ nonnegative n y /\ (r_mode r = 1 \/ r_mode r = 3) /\
    (r_mode r = 1 -> best m n (stored mda a) (fun l => nth l b 0%R) y /\ r_norm r = Some (sqrt (squared_length m (residual n (stored mda a) (fun l => nth l b 0%R) y)))).
Proof.
  intros Hm Hn La Lb Bx Bw Bz Bi Fu.
  destruct (nnls_exact (Z.of_nat mda) (Z.of_nat m) (Z.of_nat n) ltac:(lia) ltac:(lia) ltac:(lia) (@mat exact (Z.of_nat mda) (of_list a)) (@vec exact (of_list b)) (of_list a) (of_list b) x w zz index fuel) as (r & E & Lx & Md & X & Best);
    [apply live_of_list; rewrite <- Nat2Z.inj_mul; apply inj_le; exact La|apply live_of_list; apply inj_le; exact Lb|exact Bx|exact Bw|exact Bz|exact Bi|unfold enough; nia|reflexivity|reflexivity|].
  set (xv := @vec exact (r_x r)) in *. set (y := fun j => xv (Z.of_nat j + 1)). exists r, y. split; [exact E|].
  split.
  { intros j J. destruct Lx as (_ & Lx). specialize (Lx (Z.of_nat j) ltac:(lia)). unfold y, xv, vec, get. replace (Z.of_nat j + 1 - 1) with (Z.of_nat j) by lia. now destruct (cell (r_x r) (Z.of_nat j)). }
  split; [intros j J; apply X; lia|]. split; [exact Md|]. intros M1. destruct (Best M1) as (Du & Nm). clear Best.
  set (A := @mat exact (Z.of_nat mda) (of_list a)) in *. set (bv := @vec exact (of_list b)) in *.
  assert (Ea : forall l j, 1 <= l -> 1 <= j -> stored mda a (Z.to_nat (l - 1)) (Z.to_nat (j - 1)) = A l j).
  { intros l j L J. unfold stored, A, mat, col. rewrite (@get_of_list R 0%R a) by nia. f_equal. nia. }
  assert (Eb : forall l, 1 <= l -> nth (Z.to_nat (l - 1)) b 0%R = bv l) by (intros l L; unfold bv, vec; now rewrite (@get_of_list R 0%R b) by lia).
  assert (Sq : forall v : nat -> R, squared_length m (residual n (stored mda a) (fun l => nth l b 0%R) v) =
                 NnlsSums.dot (Z.of_nat m) (left_over (Z.of_nat n) A bv (fun j => v (Z.to_nat (j - 1)))) (left_over (Z.of_nat n) A bv (fun j => v (Z.to_nat (j - 1))))).
  { intros v. unfold squared_length, NnlsSums.dot. rewrite total_sum. apply sum_ext. intros l L. assert (Rl : residual n (stored mda a) (fun l => nth l b 0%R) v (Z.to_nat (l - 1)) = left_over (Z.of_nat n) A bv (fun j => v (Z.to_nat (j - 1))) l).
    { unfold residual, left_over, product. rewrite total_sum. rewrite Eb by lia. f_equal. apply sum_ext. intros j J. now rewrite Ea by lia. }
    now rewrite Rl. }
  assert (Ey : forall j, 1 <= j -> y (Z.to_nat (j - 1)) = xv j) by (intros j J; unfold y; f_equal; lia).
  assert (Ly : forall l, left_over (Z.of_nat n) A bv (fun j => y (Z.to_nat (j - 1))) l = left_over (Z.of_nat n) A bv xv l) by (intros l; unfold left_over, product; f_equal; apply sum_ext; intros j J; now rewrite Ey by lia).
  assert (Sy : squared_length m (residual n (stored mda a) (fun l => nth l b 0%R) y) = NnlsSums.dot (Z.of_nat m) (left_over (Z.of_nat n) A bv xv) (left_over (Z.of_nat n) A bv xv)) by (rewrite Sq; apply dot_ext; intros; apply Ly).
  split.
  - split; [intros j J; apply X; lia|]. intros v V. rewrite Sy, Sq. apply kkt.
    + intros j J. destruct (Du j J). split; [now apply X|now split].
    + intros j J. apply V. lia.
  - now rewrite Sy.
Qed.
