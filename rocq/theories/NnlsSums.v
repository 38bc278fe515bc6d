(** Sums of real numbers, inner products, and the transformations that keep them. *)
From Coq Require Import Reals Lra Lia Permutation.
From Verif Require Import Base Nnls NnlsArith NnlsFacts NnlsParts.
Open Scope Z_scope.

(** ** Comparisons *)
Lemma gt_true a b : @gtb exact a b = true <-> (b < a)%R. Proof. cbn. destruct (Rlt_dec b a); split; intros; (lra || easy). Qed.
Lemma gt_false a b : @gtb exact a b = false <-> (a <= b)%R. Proof. cbn. destruct (Rlt_dec b a); split; intros; (lra || easy). Qed.
Lemma ge_true a b : @geb exact a b = true <-> (b <= a)%R. Proof. cbn. destruct (Rle_dec b a); split; intros; (lra || easy). Qed.
Lemma ge_false a b : @geb exact a b = false <-> (a < b)%R. Proof. cbn. destruct (Rle_dec b a); split; intros; (lra || easy). Qed.
Lemma le_true a b : @leb exact a b = true <-> (a <= b)%R. Proof. cbn. destruct (Rle_dec a b); split; intros; (lra || easy). Qed.
Lemma le_false a b : @leb exact a b = false <-> (b < a)%R. Proof. cbn. destruct (Rle_dec a b); split; intros; (lra || easy). Qed.
Lemma eq_true a b : @eqb exact a b = true <-> a = b. Proof. cbn. destruct (Req_EM_T a b); split; intros; (lra || easy). Qed.
Lemma eq_false a b : @eqb exact a b = false <-> a <> b. Proof. cbn. destruct (Req_EM_T a b); split; intros; (lra || easy). Qed.
Lemma exact_lawful : lawful exact.
Proof.
  constructor.
  - intros a. apply gt_false. lra.
  - intros a b c. rewrite !gt_true. lra.
  - intros a. rewrite gt_true, le_false. cbn. lra.
  - apply le_true. lra.
  - intros a b. rewrite ge_true, !le_true. cbn. lra.
  - intros t. rewrite gt_true, eq_false. cbn. lra.
  - now apply eq_true.
Qed.
Lemma absn_abs x : @absn exact x = Rabs x.
Proof. unfold absn. destruct (geb x zero) eqn:E; [apply ge_true in E|apply ge_false in E]; cbn in *; symmetry; [apply Rabs_right|apply Rabs_left]; lra. Qed.
Lemma maxn_max a b : @maxn exact a b = Rmax a b.
Proof. unfold maxn. destruct (geb a b) eqn:E; [apply ge_true in E|apply ge_false in E]; symmetry; [now apply Rmax_left|apply Rmax_right; lra]. Qed.

(** ** Sums *)
Definition sum (lo hi : Z) (f : Z -> R) : R := fold_right (fun l acc => (f l + acc)%R) 0%R (zrange lo hi).
Lemma sum_nil lo hi f : hi < lo -> sum lo hi f = 0%R. Proof. intros H. unfold sum. now rewrite zrange_nil. Qed.
Lemma sum_cons lo hi f : lo <= hi -> sum lo hi f = (f lo + sum (lo + 1) hi f)%R. Proof. intros H. unfold sum. now rewrite (zrange_cons lo hi). Qed.
Lemma sum_ext lo hi f g : (forall l, lo <= l <= hi -> f l = g l) -> sum lo hi f = sum lo hi g.
Proof.
  intros H. unfold sum. assert (F : forall l, In l (zrange lo hi) -> f l = g l) by (intros l L; apply H; now apply zrange_In). induction (zrange lo hi) as [|l r IH]; [reflexivity|]. cbn [fold_right]. rewrite (F l) by now left. f_equal. apply IH. intros k K. apply F. now right.
Qed.
Lemma sum_plus lo hi f g : sum lo hi (fun l => (f l + g l)%R) = (sum lo hi f + sum lo hi g)%R.
Proof. unfold sum. induction (zrange lo hi) as [|l r IH]; cbn [fold_right]; [lra|]. rewrite IH. lra. Qed.
Lemma sum_scal lo hi c f : sum lo hi (fun l => (c * f l)%R) = (c * sum lo hi f)%R.
Proof. unfold sum. induction (zrange lo hi) as [|l r IH]; cbn [fold_right]; [lra|]. rewrite IH. lra. Qed.
Lemma sum_zero lo hi f : (forall l, lo <= l <= hi -> f l = 0%R) -> sum lo hi f = 0%R.
Proof. intros H. rewrite (sum_ext lo hi f (fun l => (0 * 0)%R)); [rewrite (sum_scal lo hi 0 (fun _ => 0%R)); lra|]. intros l L. rewrite H by exact L. lra. Qed.
Lemma fold_right_shift (f : Z -> R) l t : fold_right (fun l acc => (f l + acc)%R) t l = (fold_right (fun l acc => (f l + acc)%R) 0%R l + t)%R.
Proof. induction l as [|x r IH]; cbn [fold_right]; [lra|]. rewrite IH. lra. Qed.
Lemma sum_at lo mid hi f : lo <= mid <= hi -> sum lo hi f = (sum lo (mid - 1) f + f mid + sum (mid + 1) hi f)%R.
Proof. intros H. unfold sum. rewrite (zrange_split lo mid hi) by exact H. rewrite fold_right_app. cbn [fold_right]. rewrite fold_right_shift. lra. Qed.
Lemma sum_split lo mid hi f : lo <= mid + 1 -> mid <= hi -> sum lo hi f = (sum lo mid f + sum (mid + 1) hi f)%R.
Proof.
  intros H1 H2. destruct (Z.eq_dec lo (mid + 1)) as [-> |N]; [rewrite (sum_nil (mid + 1) mid) by lia; lra|].
  rewrite (sum_at lo mid hi) by lia. rewrite (sum_at lo mid mid) by lia. rewrite (sum_nil (mid + 1) mid) by lia. lra.
Qed.
Lemma sum_snoc lo hi f : lo <= hi -> sum lo hi f = (sum lo (hi - 1) f + f hi)%R.
Proof. intros H. rewrite (sum_at lo hi hi) by lia. rewrite (sum_nil (hi + 1) hi) by lia. lra. Qed.
Lemma sum_nonneg lo hi f : (forall l, lo <= l <= hi -> (0 <= f l)%R) -> (0 <= sum lo hi f)%R.
Proof.
  intros H. unfold sum. assert (F : forall l, In l (zrange lo hi) -> (0 <= f l)%R) by (intros l L; apply H; now apply zrange_In). induction (zrange lo hi) as [|l r IH]; cbn [fold_right]; [lra|]. assert (X := F l (or_introl eq_refl)). assert (Y := IH (fun k K => F k (or_intror K))). lra.
Qed.
Lemma sum_ge_one lo hi f k : (forall l, lo <= l <= hi -> (0 <= f l)%R) -> lo <= k <= hi -> (f k <= sum lo hi f)%R.
Proof. intros H K. rewrite (sum_at lo k hi) by exact K. assert (X := sum_nonneg lo (k - 1) f ltac:(intros; apply H; lia)). assert (Y := sum_nonneg (k + 1) hi f ltac:(intros; apply H; lia)). lra. Qed.
Lemma sum_swap lo hi lo' hi' (f : Z -> Z -> R) : sum lo hi (fun i => sum lo' hi' (fun j => f i j)) = sum lo' hi' (fun j => sum lo hi (fun i => f i j)).
Proof.
  unfold sum at 1 4. induction (zrange lo hi) as [|i r IH]; cbn [fold_right].
  - symmetry. apply sum_zero. reflexivity.
  - rewrite IH. symmetry. rewrite <- sum_plus. reflexivity.
Qed.
Lemma fold_left_sum lo hi f s : fold_left (fun sm l => (sm + f l)%R) (zrange lo hi) s = (s + sum lo hi f)%R.
Proof. unfold sum. revert s. induction (zrange lo hi) as [|l r IH]; intros s; cbn [fold_left fold_right]; [lra|]. rewrite IH. lra. Qed.
Lemma sum_permutation (f : Z -> R) l l' : Permutation l l' -> fold_right (fun l acc => (f l + acc)%R) 0%R l = fold_right (fun l acc => (f l + acc)%R) 0%R l'.
Proof. induction 1; cbn [fold_right]; lra. Qed.
Lemma map_NoDup {T U} (f : T -> U) l : (forall x y, In x l -> In y l -> f x = f y -> x = y) -> NoDup l -> NoDup (map f l).
Proof.
  intros H N. induction N as [|x l X N IH]; [constructor|]. cbn [map]. constructor.
  - intros Y. apply in_map_iff in Y as (y & E & Y). apply X. rewrite (H x y); [exact Y|now left|now right|now symmetry].
  - apply IH. intros y z Y W. apply H; now right.
Qed.
Lemma fold_right_map (f : Z -> R) (g : Z -> Z) l : fold_right (fun l acc => (f l + acc)%R) 0%R (map g l) = fold_right (fun l acc => (f (g l) + acc)%R) 0%R l.
Proof. induction l as [|x r IH]; [reflexivity|]. cbn [map fold_right]. now rewrite IH. Qed.
Lemma sum_perm n idx f : perm n idx -> sum 1 n (fun q => f (ent idx q)) = sum 1 n f.
Proof.
  intros (_ & R & I). unfold sum. rewrite <- (fold_right_map f (ent idx)). apply sum_permutation. apply NoDup_Permutation_bis.
  - apply map_NoDup; [|apply zrange_NoDup]. intros x y X Y E. apply zrange_In in X, Y. now apply I.
  - now rewrite map_length.
  - intros j J. apply in_map_iff in J as (q & <- & Q). apply zrange_In in Q. apply zrange_In. now apply R.
Qed.

(** ** Inner products of vectors of m numbers *)
Section Dot.
  Context (m : Z).
  Definition dot (c d : Z -> R) : R := sum 1 m (fun l => (c l * d l)%R).
  Lemma dot_ext c d c' d' : (forall l, 1 <= l <= m -> c l = c' l) -> (forall l, 1 <= l <= m -> d l = d' l) -> dot c d = dot c' d'.
  Proof. intros H H'. apply sum_ext. intros l L. now rewrite H, H'. Qed.
  Lemma dot_comm c d : dot c d = dot d c. Proof. apply sum_ext. intros. lra. Qed.
  Lemma dot_plus c d e : dot c (fun l => (d l + e l)%R) = (dot c d + dot c e)%R.
  Proof. unfold dot. rewrite <- sum_plus. apply sum_ext. intros. lra. Qed.
  Lemma dot_scal c k d : dot c (fun l => (k * d l)%R) = (k * dot c d)%R.
  Proof. unfold dot. rewrite <- sum_scal. apply sum_ext. intros. lra. Qed.
  Lemma dot_plus_l c d e : dot (fun l => (d l + e l)%R) c = (dot d c + dot e c)%R.
  Proof. rewrite dot_comm, dot_plus. now rewrite !(dot_comm c). Qed.
  Lemma dot_scal_l c k d : dot (fun l => (k * d l)%R) c = (k * dot d c)%R.
  Proof. rewrite dot_comm, dot_scal. now rewrite (dot_comm c). Qed.
  Lemma dot_sum c n (d : Z -> Z -> R) : dot c (fun l => sum 1 n (fun j => d j l)) = sum 1 n (fun j => dot c (d j)).
  Proof. unfold dot. rewrite <- sum_swap. apply sum_ext. intros l L. now rewrite sum_scal. Qed.
  Lemma dot_nonneg c : (0 <= dot c c)%R. Proof. apply sum_nonneg. intros. nra. Qed.
  (** A reflection: c + (<c, h> / b) h with <h, h> = - 2 b. *)
  Definition reflected (h : Z -> R) (b : R) (c c' : Z -> R) : Prop := forall l, 1 <= l <= m -> c' l = (c l + dot c h / b * h l)%R.
  Lemma dot_reflected h b c d c' d' : b <> 0%R -> dot h h = (- 2 * b)%R -> reflected h b c c' -> reflected h b d d' -> dot c' d' = dot c d.
  Proof.
    intros B H C D. rewrite (dot_ext c' d' (fun l => c l + dot c h / b * h l)%R (fun l => d l + dot d h / b * h l)%R C D).
    rewrite dot_plus, !dot_plus_l, !dot_scal, !dot_scal_l, H, (dot_comm h d). field. exact B.
  Qed.
  (** A rotation of rows j - 1 and j. *)
  Definition rotated (j : Z) (cc ss : R) (c c' : Z -> R) : Prop :=
    forall l, 1 <= l <= m -> c' l = if l =? j - 1 then (cc * c (j - 1)%Z + ss * c j)%R else if l =? j then (- ss * c (j - 1)%Z + cc * c j)%R else c l.
  Lemma dot_rows j c d : 2 <= j <= m -> dot c d = (sum 1 (j - 2) (fun l => c l * d l) + c (j - 1)%Z * d (j - 1)%Z + c j * d j + sum (j + 1) m (fun l => c l * d l))%R.
  Proof.
    intros J. unfold dot. rewrite (sum_at 1 j m) by lia. rewrite (sum_at 1 (j - 1) (j - 1)) by lia. rewrite (sum_nil (j - 1 + 1)) by lia. replace (j - 1 - 1) with (j - 2) by lia. lra.
  Qed.
  Lemma dot_rotated j cc ss c d c' d' : 2 <= j <= m -> (cc * cc + ss * ss = 1)%R -> rotated j cc ss c c' -> rotated j cc ss d d' -> dot c' d' = dot c d.
  Proof.
    intros J E C D. rewrite !(dot_rows j) by exact J.
    rewrite (sum_ext 1 (j - 2) (fun l => c' l * d' l)%R (fun l => c l * d l)%R) by (intros l L; rewrite C, D by lia; zdec (l =? j - 1); [lia|]; zdec (l =? j); [lia|reflexivity]).
    rewrite (sum_ext (j + 1) m (fun l => c' l * d' l)%R (fun l => c l * d l)%R) by (intros l L; rewrite C, D by lia; zdec (l =? j - 1); [lia|]; zdec (l =? j); [lia|reflexivity]).
    rewrite (C (j - 1)), (D (j - 1)), (C j), (D j) by lia. rewrite !Z.eqb_refl. replace (j =? j - 1) with false by (symmetry; apply Z.eqb_neq; lia).
    replace ((cc * c (j - 1)%Z + ss * c j) * (cc * d (j - 1)%Z + ss * d j))%R with (cc * cc * (c (j - 1)%Z * d (j - 1)%Z) + ss * ss * (c j * d j) + cc * ss * (c (j - 1)%Z * d j + c j * d (j - 1)%Z))%R by ring.
    replace ((- ss * c (j - 1)%Z + cc * c j) * (- ss * d (j - 1)%Z + cc * d j))%R with (ss * ss * (c (j - 1)%Z * d (j - 1)%Z) + cc * cc * (c j * d j) - cc * ss * (c (j - 1)%Z * d j + c j * d (j - 1)%Z))%R by ring.
    replace (ss * ss)%R with (1 - cc * cc)%R by lra. lra.
  Qed.
End Dot.

(** ** g1 *)
Lemma d_sign_value a b : (0 <= a)%R -> @d_sign exact a b = if Rle_dec 0 b then a else (- a)%R.
Proof. intros A. unfold d_sign. cbn. destruct (Rle_dec 0 a); [|lra]. now destruct (Rle_dec 0 b). Qed.
Lemma rotation_facts a x y i : a <> 0%R -> (0 < y)%R -> (y * y = x * x + 1)%R -> (i * y = 1)%R ->
  (i * i + (i * x) * (i * x) = 1 /\ i * a + (i * x) * (x * a) = a * y /\ - (i * x) * a + i * (x * a) = 0 /\ a * y <> 0)%R.
Proof.
  intros A Y S I. split; [|split; [|split]].
  - replace (i * i + i * x * (i * x))%R with (i * i * (x * x + 1))%R by ring. rewrite <- S. replace (i * i * (y * y))%R with ((i * y) * (i * y))%R by ring. rewrite I. ring.
  - replace (i * a + i * x * (x * a))%R with (i * a * (x * x + 1))%R by ring. rewrite <- S. replace (i * a * (y * y))%R with ((i * y) * (a * y))%R by ring. rewrite I. ring.
  - ring.
  - apply Rmult_integral_contrapositive. split; [exact A|lra].
Qed.
Lemma g1_rotates a b : b <> 0%R -> let '(cc, ss, sig) := @g1 exact a b in (cc * cc + ss * ss = 1 /\ cc * a + ss * b = sig /\ - ss * a + cc * b = 0 /\ sig <> 0)%R.
Proof.
  intros B. unfold g1. rewrite !absn_abs.
  assert (Y : forall x, (0 < sqrt (x * x + 1) /\ sqrt (x * x + 1) * sqrt (x * x + 1) = x * x + 1)%R) by (intros x; split; [apply sqrt_lt_R0; nra|apply sqrt_sqrt; nra]).
  destruct (@gtb exact (Rabs a) (Rabs b)) eqn:G.
  - apply gt_true in G. cbn [div mul inv hyp exact]. assert (A : a <> 0%R) by (intros ->; rewrite Rabs_R0 in G; pose proof (Rabs_pos b); lra).
    destruct (Y (b / a)%R) as [Yp Ys]. set (yr := sqrt _) in *. assert (Ip : (0 < / yr)%R) by now apply Rinv_0_lt_compat. rewrite d_sign_value by lra. assert (Iy : (/ yr * yr = 1)%R) by (apply Rinv_l; lra).
    set (iy := (/ yr)%R) in *. assert (Bx : (b / a * a = b)%R) by (field; exact A). set (xr := (b / a)%R) in *. clearbody iy xr yr.
    destruct (Rle_dec 0 a) as [La|La].
    + rewrite Rabs_right by lra. rewrite <- Bx. now apply rotation_facts.
    + rewrite Rabs_left by lra. rewrite <- Bx. destruct (rotation_facts (- a) xr yr iy) as (F1 & F2 & F3 & F4); try assumption; [lra|]. split; [lra|]. split; [lra|]. split; [lra|exact F4].
  - assert (N : @eqb exact b zero = false) by (apply eq_false; exact B). rewrite N. cbn [negb div mul inv hyp exact].
    destruct (Y (a / b)%R) as [Yp Ys]. set (yr := sqrt _) in *. assert (Ip : (0 < / yr)%R) by now apply Rinv_0_lt_compat. rewrite d_sign_value by lra. assert (Iy : (/ yr * yr = 1)%R) by (apply Rinv_l; lra).
    set (iy := (/ yr)%R) in *. assert (Ax : (a / b * b = a)%R) by (field; exact B). set (xr := (a / b)%R) in *. clearbody iy xr yr.
    destruct (Rle_dec 0 b) as [Lb|Lb].
    + rewrite Rabs_right by lra. rewrite <- Ax. destruct (rotation_facts b xr yr iy) as (F1 & F2 & F3 & F4); try assumption. split; [lra|]. split; [lra|]. split; [lra|exact F4].
    + rewrite Rabs_left by lra. rewrite <- Ax. destruct (rotation_facts (- b) xr yr iy) as (F1 & F2 & F3 & F4); try assumption; [lra|]. split; [lra|]. split; [lra|]. split; [lra|exact F4].
Qed.
