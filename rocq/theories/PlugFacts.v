(** Facts for the chroma plug-in: lists, and signs of floats. *)
From Coq Require Import Reals Lra Lia.
From Flocq Require Import Core.Core IEEE754.BinarySingleNaN.
From Verif Require Import Base BaseFacts Fp Options Chromagram ChromaFacts Nnls NnlsArith NnlsFacts NnlsSafe NnlsSingle Plug.
Open Scope Z_scope.

(** ** Lists *)
Section Lists.
  Context {T : Type} (d : T).
  Lemma elt_ok (l : list T) i : 0 <= i < Z.of_nat (length l) -> elt l i = Ret (znth d l i).
  Proof. intros H. unfold elt, znth. replace (i <? 0) with false by (symmetry; apply Z.ltb_ge; lia). destruct (nth_error l (Z.to_nat i)) eqn:E; [now rewrite (nth_error_nth _ _ d E)|]. apply nth_error_None in E. lia. Qed.
  Lemma upd_ok (l : list T) i v : 0 <= i < Z.of_nat (length l) -> upd l i v = Ret (replace_nth l (Z.to_nat i) v).
  Proof. intros H. unfold upd. replace ((0 <=? i) && (i <? Z.of_nat (length l))) with true; [reflexivity|]. symmetry. apply andb_true_intro. split; [apply Z.leb_le|apply Z.ltb_lt]; lia. Qed.
  Lemma znth_replace (l : list T) i k v : 0 <= i < Z.of_nat (length l) -> 0 <= k -> znth d (replace_nth l (Z.to_nat i) v) k = if k =? i then v else znth d l k.
  Proof. intros I K. unfold znth. destruct (k =? i) eqn:E; [apply Z.eqb_eq in E; subst k; apply replace_nth_same; lia|apply Z.eqb_neq in E; apply replace_nth_other; lia]. Qed.
  Lemma Forall_znth (P : T -> Prop) (l : list T) i : Forall P l -> 0 <= i < Z.of_nat (length l) -> P (znth d l i).
  Proof. intros F H. unfold znth. rewrite Forall_forall in F. apply F. apply nth_In. lia. Qed.
  Lemma znth_Forall (P : T -> Prop) (l : list T) : (forall i, 0 <= i < Z.of_nat (length l) -> P (znth d l i)) -> Forall P l.
  Proof. intros H. apply Forall_forall. intros x Hx. destruct (In_nth _ _ d Hx) as (n & L & E). specialize (H (Z.of_nat n) ltac:(lia)). unfold znth in H. rewrite Nat2Z.id in H. now rewrite E in H. Qed.
End Lists.
Lemma Forall_replace {T} (P : T -> Prop) l n v : Forall P l -> P v -> Forall P (replace_nth l n v).
Proof. intros F V. revert n. induction F as [|x l Hx F IH]; intros [|n]; cbn; constructor; auto. Qed.
Lemma ok_over {S T} (Inv : S -> Prop) (body : S -> T -> outcome S) l s : Inv s -> (forall s x, In x l -> Inv s -> ok Inv (body s x)) -> ok Inv (over body l s).
Proof.
  intros H B. revert s H. induction l as [|x l IH]; intros s H; cbn [over]; [now apply ok_ret|]. apply ok_bind with (P := Inv); [apply B; [now left|exact H]|]. intros s' H'. apply IH; [|exact H']. intros s2 y Y. apply B. now right.
Qed.
(** Progress through a list: the invariant speaks of the part done. *)
Lemma ok_over_at {S T} (Inv : list T -> S -> Prop) (body : S -> T -> outcome S) l s : Inv [] s -> (forall done x rest s, l = done ++ x :: rest -> Inv done s -> ok (Inv (done ++ [x])) (body s x)) -> ok (Inv l) (over body l s).
Proof.
  intros H B. assert (G : forall rest done s, l = done ++ rest -> Inv done s -> ok (Inv l) (over body rest s)).
  { induction rest as [|x rest IH]; intros done s0 E H0; cbn [over]; [rewrite app_nil_r in E; subst done; now apply ok_ret|].
    apply ok_bind with (P := Inv (done ++ [x])); [now apply (B done x rest)|]. intros s' H'. apply (IH (done ++ [x])); [now rewrite <- app_assoc|exact H']. }
  now apply (G l []).
Qed.
Lemma each_over {S} (body : S -> Z -> outcome S) l s : each body l s = over body l s.
Proof. revert s. induction l as [|i l IH]; intros s; cbn; [reflexivity|]. destruct (body s i); [apply IH|reflexivity|reflexivity]. Qed.

(** ** Signs *)
(** Not below 0; not-a-number counts. *)
Definition nn (x : b32) : Prop := Bltb x z32 = false.
Lemma nn_iff (x : b32) : nn x <-> match x with B754_infinity true | B754_finite true _ _ _ => False | _ => True end.
Proof. unfold nn. destruct x as [[|]|[|]| |[|] m e H]; cbn; split; (reflexivity || discriminate || auto; intros F; try now destruct F). Qed.
Lemma nn_sign (x : b32) : Bsign x = false -> nn x. Proof. intros H. apply nn_iff. destruct x as [|[|]| |[|]]; cbn in H; (exact Logic.I || discriminate). Qed.
Lemma nn_zero : nn z32. Proof. reflexivity. Qed.
Lemma nn_value (x : b32) : is_finite x = true -> (0 <= B2R x)%R -> nn x.
Proof. intros F H. apply nn_iff. destruct x as [| | |[|] m e B]; try exact Logic.I; try discriminate. exfalso. cbn [B2R] in H. assert (X := Float_prop.F2R_lt_0 radix2 (Defs.Float radix2 (Z.neg m) e) eq_refl). unfold SpecFloat.cond_Zopp in H. cbn in H, X. lra. Qed.
Lemma nn_pos (x : b32) : nn x -> (0 <= B2R x)%R.
Proof. intros H. apply nn_iff in H. destruct x as [| | |[|] m e B]; try contradiction; cbn [B2R]; try lra. apply Float_prop.F2R_ge_0. easy. Qed.
Lemma round_nn (r : R) : (0 <= r)%R -> (0 <= round radix2 (SpecFloat.fexp prec32 emax32) (round_mode mode_NE) r)%R.
Proof. intros H. rewrite <- (round_0 radix2 (SpecFloat.fexp prec32 emax32) (round_mode mode_NE)). apply round_le; [apply fexp_correct; reflexivity|apply valid_rnd_round_mode|exact H]. Qed.
Lemma overflow_nn (x : b32) : B2SF x = binary_overflow prec32 emax32 mode_NE false -> nn x.
Proof. intros H. apply nn_iff. cbn in H. destruct x as [|[|]| |[|]]; try exact Logic.I; discriminate. Qed.
Lemma nn_add (x y : b32) : nn x -> nn y -> nn (fadd32 x y).
Proof.
  intros X Y. unfold fadd32. destruct x as [sx|sx| |sx mx ex Hx], y as [sy|sy| |sy my ey Hy]; try (apply nn_iff in X; apply nn_iff in Y; apply nn_iff; repeat match goal with s : bool |- _ => destruct s end; cbn; (exact Logic.I || contradiction)).
  set (x := B754_finite sx mx ex Hx) in *. set (y := B754_finite sy my ey Hy) in *. assert (H := Bplus_correct prec32 emax32 _ _ mode_NE x y eq_refl eq_refl). destruct (Rlt_bool _ _).
  - destruct H as (H1 & H2 & _). apply nn_value; [exact H2|]. rewrite H1. apply round_nn. assert (A := nn_pos x X). assert (B := nn_pos y Y). lra.
  - destruct H as (H & _). apply overflow_nn. rewrite H. apply nn_iff in X. destruct sx; [contradiction|reflexivity].
Qed.
Lemma nn_mul (x y : b32) : nn x -> nn y -> nn (mul32 x y).
Proof.
  intros X Y. unfold mul32. destruct x as [sx|sx| |sx mx ex Hx], y as [sy|sy| |sy my ey Hy]; try (apply nn_iff in X; apply nn_iff in Y; apply nn_iff; repeat match goal with s : bool |- _ => destruct s end; cbn; (exact Logic.I || contradiction)).
  set (x := B754_finite sx mx ex Hx) in *. set (y := B754_finite sy my ey Hy) in *. assert (H := Bmult_correct prec32 emax32 _ _ mode_NE x y). destruct (Rlt_bool _ _).
  - destruct H as (H1 & H2 & _). apply nn_value; [exact H2|]. rewrite H1. apply round_nn. assert (A := nn_pos x X). assert (B := nn_pos y Y). now apply Rmult_le_pos.
  - apply overflow_nn. rewrite H. apply nn_iff in X. apply nn_iff in Y. destruct sx, sy; try contradiction. reflexivity.
Qed.
Lemma nn_div (x y : b32) : gt32 x z32 = true -> Bsign y = false -> nn (fdiv32 x y).
Proof.
  intros X Y. unfold fdiv32. assert (SX : Bsign x = false) by (destruct x as [sx|[|]| |[|]]; try discriminate X; reflexivity).
  destruct x as [sx|sx| |sx mx ex Hx], y as [sy|sy| |sy my ey Hy]; try discriminate X; cbn [Bsign] in SX, Y; try subst sx; try subst sy; try (apply nn_iff; exact Logic.I).
  set (x := B754_finite false mx ex Hx) in *. set (y := B754_finite false my ey Hy) in *.
  assert (PY : (0 < B2R y)%R) by (cbn [B2R y]; now apply Float_prop.F2R_gt_0).
  assert (H := Bdiv_correct prec32 emax32 _ _ mode_NE x y (Rgt_not_eq _ _ PY)). destruct (Rlt_bool _ _).
  - destruct H as (H1 & H2 & _). apply nn_value; [exact H2|]. rewrite H1. apply round_nn. assert (A : (0 <= B2R x)%R) by (apply nn_pos, nn_iff; exact Logic.I). apply Rmult_le_pos; [exact A|]. left. apply Rinv_0_lt_compat. lra.
  - apply overflow_nn. exact H.
Qed.
Lemma nn_sqrt (x : b32) : nn (sqrt32 x).
Proof.
  unfold sqrt32. destruct x as [[|]|[|]| |[|] m e H]; try (apply nn_iff; exact Logic.I).
  assert (C := Bsqrt_correct prec32 emax32 _ _ mode_NE (B754_finite false m e H)). cbn [is_finite] in C. destruct C as (C1 & C2 & C3). apply nn_value; [exact C2|]. rewrite C1. apply round_nn. apply sqrt_pos.
Qed.
