(** nnls() in real numbers: the transformations keep all inner products, and what is returned satisfies the conditions of Kuhn and Tucker. *)
From Coq Require Import Reals Lra Lia Permutation.
From Verif Require Import Base Nnls NnlsArith NnlsFacts NnlsParts NnlsSteps NnlsLoop NnlsSafe NnlsSums.
Open Scope Z_scope.

Lemma perm_onto n idx k : perm n idx -> 1 <= k <= n -> exists q, 1 <= q <= n /\ ent idx q = k.
Proof.
  intros (_ & R & I) K. assert (X : incl (zrange 1 n) (map (ent idx) (zrange 1 n))).
  { apply NoDup_length_incl.
    - apply map_NoDup; [|apply zrange_NoDup]. intros x y X Y E. apply zrange_In in X, Y. now apply I.
    - now rewrite map_length.
    - intros j J. apply in_map_iff in J as (q & <- & Q). apply zrange_In in Q. apply zrange_In. now apply R. }
  assert (Y := X k ltac:(now apply zrange_In)). apply in_map_iff in Y as (q & E & Q). apply zrange_In in Q. now exists q.
Qed.

(** ** The Householder transformation *)
Section House.
  Context (m p : Z) (p_range : 1 <= p < m) (u0 : Z -> R).
  Notation h_max := (@h_max exact). Notation h_sum := (@h_sum exact). Notation h_pivot := (@h_pivot exact). Notation h_effect := (@h_effect exact).
  Lemma h_max_ge l : p <= l <= m -> (Rabs (u0 l) <= h_max u0 p m)%R.
  Proof.
    intros L. unfold NnlsFacts.h_max. assert (G : forall r c, (c <= fold_left (fun cl l => @maxn exact (@absn exact (u0 l)) cl) r c)%R /\ forall l, In l r -> (Rabs (u0 l) <= fold_left (fun cl l => @maxn exact (@absn exact (u0 l)) cl) r c)%R).
    { induction r as [|k r IH]; intros c; cbn [fold_left]; [split; [lra|intros ? []]|]. destruct (IH (@maxn exact (@absn exact (u0 k)) c)) as [H1 H2]. rewrite maxn_max, absn_abs in *. pose proof (Rmax_l (Rabs (u0 k)) c). pose proof (Rmax_r (Rabs (u0 k)) c).
      split; [lra|]. intros l' [<- |L']; [lra|now apply H2]. }
    destruct (G (zrange (p + 1) m) (@absn exact (u0 p))) as [H1 H2]. destruct (Z.eq_dec l p) as [-> |N]; [now rewrite absn_abs in H1 at 1|]. apply H2. apply zrange_In. lia.
  Qed.
  Lemma h_sum_value ci : h_sum u0 p m ci = (ci * ci * sum p m (fun l => u0 l * u0 l))%R.
  Proof.
    unfold NnlsFacts.h_sum. cbn [mul add exact]. rewrite (fold_left_sum (p + 1) m (fun l => u0 l * ci * (u0 l * ci))%R). rewrite (sum_cons p m) by lia. rewrite Rmult_plus_distr_l, <- sum_scal. f_equal; [ring|]. apply sum_ext. intros. ring.
  Qed.
  Context (s2_pos : (0 < sum p m (fun l => u0 l * u0 l))%R).
  Lemma h_max_pos : (0 < h_max u0 p m)%R.
  Proof.
    destruct (Rlt_le_dec 0 (h_max u0 p m)) as [H|H]; [exact H|exfalso]. rewrite (sum_zero p m) in s2_pos; [lra|]. intros l L. assert (X := h_max_ge l L). assert (Y := Rabs_pos (u0 l)). assert (Z0 : Rabs (u0 l) = 0%R) by lra. destruct (Req_dec (u0 l) 0) as [-> |N]; [ring|]. now apply Rabs_no_R0 in N.
  Qed.
  Let pivot : R := h_pivot u0 p m.
  Lemma pivot_facts : (pivot * pivot = sum p m (fun l => u0 l * u0 l) /\ pivot * u0 p <= 0 /\ pivot <> 0)%R.
  Proof.
    assert (H := h_max_pos). unfold pivot, NnlsFacts.h_pivot. cbn [mul_root inv opp exact]. rewrite h_sum_value. set (c := h_max u0 p m) in *. set (s2 := sum p m _) in *.
    assert (Cq : (0 < / c)%R) by now apply Rinv_0_lt_compat. assert (Q : (0 < / c * / c * s2)%R) by (apply Rmult_lt_0_compat; [nra|exact s2_pos]).
    assert (S1 := sqrt_lt_R0 _ Q). assert (S2 : (sqrt (/ c * / c * s2) * sqrt (/ c * / c * s2) = / c * / c * s2)%R) by (apply sqrt_sqrt; lra). set (r := sqrt _) in *.
    assert (V : (c * r * (c * r) = s2)%R) by (replace (c * r * (c * r))%R with (c * c * (r * r))%R by ring; rewrite S2; field; lra). assert (Pos : (0 < c * r)%R) by now apply Rmult_lt_0_compat.
    change (@zero exact) with 0%R; destruct (@leb exact (u0 p) 0%R) eqn:E; [apply le_true in E|apply le_false in E]; cbn in E; set (t := (c * r)%R) in *; clearbody t; (split; [|split]); [lra|nra|apply Rgt_not_eq; exact Pos|lra|nra|apply Rlt_not_eq; lra].
  Qed.
  Let up : R := (u0 p - pivot)%R.
  Let b : R := (up * pivot)%R.
  Let h (l : Z) : R := if l <? p then 0%R else if l =? p then up else u0 l.
  Lemma b_neg : (b < 0)%R.
  Proof. destruct pivot_facts as (_ & H1 & H2). unfold b, up. assert (0 < pivot * pivot)%R by nra. nra. Qed.
  Lemma dot_h c : dot m c h = (c p * up + sum (p + 1) m (fun l => c l * u0 l))%R.
  Proof.
    unfold dot. rewrite (sum_at 1 p m) by lia. rewrite (sum_zero 1 (p - 1)).
    - unfold h at 1. rewrite Z.ltb_irrefl, Z.eqb_refl. rewrite (sum_ext (p + 1) m _ (fun l => c l * u0 l)%R); [lra|]. intros l L. unfold h. replace (l <? p) with false by (symmetry; apply Z.ltb_ge; lia). replace (l =? p) with false by (symmetry; apply Z.eqb_neq; lia). reflexivity.
    - intros l L. unfold h. replace (l <? p) with true by (symmetry; apply Z.ltb_lt; lia). ring.
  Qed.
  Lemma dot_hh : dot m h h = (- 2 * b)%R.
  Proof.
    rewrite dot_h. unfold h at 1. rewrite Z.ltb_irrefl, Z.eqb_refl. rewrite (sum_ext (p + 1) m (fun l => h l * u0 l)%R (fun l => u0 l * u0 l)%R).
    - destruct pivot_facts as (H & _). rewrite (sum_cons p m) in H by lia. unfold b, up. nra.
    - intros l L. unfold h. replace (l <? p) with false by (symmetry; apply Z.ltb_ge; lia). replace (l =? p) with false by (symmetry; apply Z.eqb_neq; lia). reflexivity.
  Qed.
  (** The column as it is after mode 1 of h12(). *)
  Context (u : Z -> R) (u_val : forall l, 1 <= l <= m -> u l = if l =? p then pivot else u0 l).
  Lemma effect_reflects c : reflected m h b c (h_effect m u c p (Some up)).
  Proof.
    intros l L. assert (Up : u p = pivot) by (rewrite u_val by lia; now rewrite Z.eqb_refl). unfold NnlsFacts.h_effect. replace (p <? m) with true by (symmetry; apply Z.ltb_lt; lia). rewrite absn_abs, Up. destruct pivot_facts as (_ & _ & Np). assert (Bn := b_neg).
    replace (@leb exact (Rabs pivot) (@zero exact)) with false by (symmetry; apply le_false; cbn; now apply Rabs_pos_lt).
    change (@mul exact up pivot) with b. replace (@geb exact b (@zero exact)) with false by (symmetry; apply ge_false; exact Bn).
    unfold h_apply. assert (D : @h_dot exact c u p m up = dot m c h).
    { unfold h_dot. cbn [add mul exact]. rewrite (fold_left_sum (p + 1) m (fun l => c l * u l)%R), dot_h. f_equal. apply sum_ext. intros k K. rewrite u_val by lia. replace (k =? p) with false by (symmetry; apply Z.eqb_neq; lia). reflexivity. }
    rewrite D. cbn [add mul inv exact]. destruct (@eqb exact (dot m c h) (@zero exact)) eqn:E.
    - apply eq_true in E. cbn in E. rewrite E. unfold Rdiv. lra.
    - unfold h. zdec (l =? p).
      + subst l. rewrite Z.ltb_irrefl. unfold Rdiv. ring.
      + zdec (l <? p).
        * replace (p + 1 <=? l) with false by (symmetry; apply Z.leb_gt; lia). cbn [andb]. unfold Rdiv. lra.
        * replace (p + 1 <=? l) with true by (symmetry; apply Z.leb_le; lia). replace (l <=? m) with true by (symmetry; apply Z.leb_le; lia). cbn [andb]. rewrite u_val by lia. replace (l =? p) with false by (symmetry; apply Z.eqb_neq; lia). unfold Rdiv. ring.
  Qed.
  Lemma column_reflects : reflected m h b u0 (fun l => if l <=? p then u l else 0%R).
  Proof.
    assert (D : dot m u0 h = (- b)%R) by (rewrite dot_h; destruct pivot_facts as (H & _); rewrite (sum_cons p m) in H by lia; unfold b, up; nra).
    intros l L. cbn beta. rewrite D. replace (- b / b)%R with (-1)%R by (field; assert (X := b_neg); lra). unfold h. zdec (l <=? p).
    - rewrite u_val by lia. zdec (l <? p); [replace (l =? p) with false by (symmetry; apply Z.eqb_neq; lia); ring|]. replace (l =? p) with true by (symmetry; apply Z.eqb_eq; lia). unfold up. replace l with p by lia. ring.
    - replace (l <? p) with false by (symmetry; apply Z.ltb_ge; lia). replace (l =? p) with false by (symmetry; apply Z.eqb_neq; lia). ring.
  Qed.
  Lemma new_row c : (pivot * h_effect m u c p (Some up) p = sum p m (fun l => u0 l * c l))%R.
  Proof.
    assert (Bn := b_neg). assert (E := dot_reflected m h b u0 c _ _ ltac:(lra) dot_hh column_reflects (effect_reflects c)). unfold dot in E. rewrite (sum_at 1 p m) in E by lia. rewrite Z.leb_refl in E. rewrite (sum_zero (p + 1) m) in E.
    - rewrite (sum_split 1 (p - 1) m (fun l => u0 l * c l)%R) in E by lia. replace (p - 1 + 1) with p in E by lia. rewrite (u_val p), Z.eqb_refl in E by lia.
      rewrite (sum_ext 1 (p - 1) _ (fun l => u0 l * c l)%R) in E; [lra|]. intros l L. replace (l <=? p) with true by (symmetry; apply Z.leb_le; lia). rewrite u_val by lia. replace (l =? p) with false by (symmetry; apply Z.eqb_neq; lia). f_equal.
      rewrite (effect_reflects c l) by lia. unfold h. replace (l <? p) with true by (symmetry; apply Z.ltb_lt; lia). match goal with |- ?x = ?y => change (@eq R x y) end. ring.
    - intros l L. replace (l <=? p) with false by (symmetry; apply Z.leb_gt; lia). ring.
  Qed.
End House.
