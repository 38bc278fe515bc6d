(** nnls() as called: it always ends, and never outside its arrays. *)
From Coq Require Import Reals Lra Lia.
From Flocq Require Import Core.Core IEEE754.BinarySingleNaN.
From Verif Require Import Base BaseFacts Fp Nnls NnlsArith NnlsFacts NnlsParts NnlsSafe NnlsSums NnlsMain NnlsSingle NnlsVisited.
Open Scope Z_scope.

Section Generic.
  Context {A : arith} (LA : lawful A).
  Lemma nnls_ends (mda m n : nat) (a b : list (num A)) (x w zz : array (num A)) (index : array Z) (fuel : nat) :
    (0 < m <= mda)%nat -> (0 < n)%nat -> (mda * n <= length a)%nat -> (m <= length b)%nat ->
    Z.of_nat n <= size x -> Z.of_nat n <= size w -> Z.of_nat m <= size zz -> Z.of_nat n <= size index -> ((3 * n + 2) * (n + 10) <= fuel)%nat ->
    exists r y, nnls (of_list a) (Z.of_nat mda) (Z.of_nat m) (Z.of_nat n) (of_list b) x w zz index fuel = Some (Ret r) /\
      (forall j, (j < n)%nat -> cell (r_x r) (Z.of_nat j) = Some (y j)) /\ (r_mode r = 1 \/ r_mode r = 3).
  Proof.
    intros Hm Hn La Lb Bx Bw Bz Bi Fu.
    destruct (nnls_safe LA (Z.of_nat mda) (Z.of_nat m) (Z.of_nat n) ltac:(lia) ltac:(lia) ltac:(lia) (of_list a) (of_list b) x w zz index fuel) as (r & E & (_ & Lx) & Md);
      [apply live_of_list; rewrite <- Nat2Z.inj_mul; apply inj_le; exact La|apply live_of_list; apply inj_le; exact Lb|exact Bx|exact Bw|exact Bz|exact Bi|unfold enough; nia|].
    exists r, (fun j => match cell (r_x r) (Z.of_nat j) with Some v => v | None => zero end). split; [exact E|]. split; [|exact Md].
    intros j J. specialize (Lx (Z.of_nat j) ltac:(lia)). now destruct (cell (r_x r) (Z.of_nat j)).
  Qed.
End Generic.
Section Short.
  Context {A : arith}.
  Definition init_body : array (num A) * array Z -> Z -> outcome (array (num A) * array Z) := fun '(x, idx) i => do x <- wr x (i - 1) zero; do idx <- wr idx (i - 1) i; Ret (x, idx).
  Lemma init_short lo hi x idx : 1 <= lo -> lo <= hi -> size x < hi \/ size idx < hi -> loop lo hi init_body (x, idx) = Undef OutOfBounds.
  Proof.
    unfold loop. intros P L. remember (Z.to_nat (hi - lo)) as k eqn:E. revert lo x idx P L E. induction k as [|k IH]; intros lo x idx P L E Sh.
    - assert (lo = hi) by lia. subst lo. rewrite zrange_cons by lia. cbn [each]. unfold init_body at 1, wr. destruct ((0 <=? hi - 1) && (hi - 1 <? size x)) eqn:B; [|reflexivity].
      apply andb_prop in B as (B1 & B2). apply Z.ltb_lt in B2. cbn [bind]. replace (hi - 1 <? size idx) with false by (symmetry; apply Z.ltb_ge; lia). rewrite andb_false_r. reflexivity.
    - rewrite zrange_cons by lia. cbn [each]. unfold init_body at 1, wr. destruct ((0 <=? lo - 1) && (lo - 1 <? size x)); [|reflexivity]. cbn [bind]. destruct ((0 <=? lo - 1) && (lo - 1 <? size idx)); [|reflexivity]. cbn [bind]. apply IH; [lia|lia|lia|exact Sh].
  Qed.
  Lemma nnls_short (a b x w zz : array (num A)) index mda m n fuel : 0 < m -> 0 < n -> size x < n \/ size index < n -> nnls a mda m n b x w zz index fuel = Some (Undef OutOfBounds).
  Proof.
    intros M N Sh. unfold nnls. replace (m <=? 0) with false by (symmetry; apply Z.leb_gt; lia). replace (n <=? 0) with false by (symmetry; apply Z.leb_gt; lia). cbn [orb].
    assert (E := init_short 1 n x index ltac:(lia) ltac:(lia) Sh). unfold init_body in E. fold (initial n x index) in E. rewrite E. reflexivity.
  Qed.
  Lemma nnls_empty (a b x w zz : array (num A)) index mda m n fuel : m <= 0 \/ n <= 0 -> nnls a mda m n b x w zz index fuel = Some (Ret (mkRes 2 x None w a b)).
  Proof. intros H. unfold nnls. replace ((m <=? 0) || (n <=? 0)) with true by (symmetry; apply orb_true_iff; rewrite !Z.leb_le; exact H). reflexivity. Qed.
End Short.
Lemma nnls_not_negative (mda m n : nat) (a b : list b32) (x w zz : array b32) (index : array Z) (fuel : nat) :
  (0 < m <= mda)%nat -> (0 < n)%nat -> (mda * n <= length a)%nat -> (m <= length b)%nat ->
  Z.of_nat n <= size x -> Z.of_nat n <= size w -> Z.of_nat m <= size zz -> Z.of_nat n <= size index -> ((3 * n + 2) * (n + 10) <= fuel)%nat ->
  (forall s j, visited (A := single) (Z.of_nat mda) (Z.of_nat m) (Z.of_nat n) (of_list a) (of_list b) x w zz index L210 s -> (j < n)%nat -> exists v, cell (vx s) (Z.of_nat j) = Some v /\ is_finite v = true) ->
  exists r y, nnls (A := single) (of_list a) (Z.of_nat mda) (Z.of_nat m) (Z.of_nat n) (of_list b) x w zz index fuel = Some (Ret r) /\
    forall j, (j < n)%nat -> cell (r_x r) (Z.of_nat j) = Some (y j) /\ Bltb (y j) (B754_zero false) = false.
Proof.
  intros Hm Hn La Lb Bx Bw Bz Bi Fu Fin.
  destruct (nnls_sign (Z.of_nat mda) (Z.of_nat m) (Z.of_nat n) ltac:(lia) ltac:(lia) ltac:(lia) (of_list a) (of_list b) x w zz index fuel) as (r & E & X);
    [apply live_of_list; rewrite <- Nat2Z.inj_mul; apply inj_le; exact La|apply live_of_list; apply inj_le; exact Lb|exact Bx|exact Bw|exact Bz|exact Bi|unfold enough; nia| |].
  { intros s j V J. destruct (Fin s (Z.to_nat j) V ltac:(lia)) as (v & C & F). rewrite Z2Nat.id in C by lia. exists v. split; assumption. }
  exists r, (fun j => match cell (r_x r) (Z.of_nat j) with Some v => v | None => B754_zero false end). split; [exact E|].
  intros j J. destruct (X (Z.of_nat j) ltac:(lia)) as (v & C & F). rewrite C. split; [reflexivity|exact F].
Qed.
(** ** All states of a run on given numbers *)
Section Check.
  Context {A : arith} (mda m n : Z) (a b x w zz : array (num A)) (index : array Z) (check : label -> st A -> bool).
  Fixpoint checked (fuel : nat) (l : label) (s : st A) : bool :=
    check l s && match l with L350 => true | _ => match fuel with O => false | S f => match step mda m n l s with Ret (l', s') => checked f l' s' | _ => true end end end.
  Lemma checked_visited x' i' fuel : initial n x index = Ret (x', i') -> checked fuel L30 (mkSt a b x' w zz i' 0 0 1 1 None 1) = true -> forall l s, visited mda m n a b x w zz index l s -> check l s = true.
  Proof.
    intros Ei C l s V. assert (X : exists f, checked f l s = true).
    { induction V as [x2 i2 E2|l s l' s' V (f & IH) St]; [rewrite Ei in E2; apply Ret_inj, pair_equal_spec in E2 as (<- & <-); exists fuel; exact C|].
      destruct l; try (destruct f as [|f]; cbn [checked] in IH; apply andb_prop in IH as (_ & IH); [discriminate IH|]; rewrite St in IH; exists f; exact IH).
      cbn [step] in St. apply Ret_inj, pair_equal_spec in St as (<- & <-). exists f. exact IH. }
    destruct X as (f & X). destruct f; cbn [checked] in X; apply andb_prop in X as (X & _); exact X.
  Qed.
End Check.
