(** Facts about the common vocabulary (lists, association lists, rotation, finite sweeps). *)
From Coq Require Import Lia Permutation.
From Verif Require Import Base.
From Coq Require Import ZifyBool ZifyNat.
Ltac Zify.zify_post_hook ::= Z.div_mod_to_equations.

Lemma Some_inj {A} (x y : A) : Some x = Some y -> x = y.
Proof. now injection 1. Qed.

Lemma Ret_inj {A} (x y : A) : Ret x = Ret y -> x = y.
Proof. now injection 1. Qed.

(** ** Finite sweeps *)
Definition all_ascii : list ascii := map ascii_of_nat (seq 0 256).
Lemma all_ascii_In c : In c all_ascii.
Proof.
  unfold all_ascii. apply in_map_iff. exists (nat_of_ascii c). split.
  - apply ascii_nat_embedding.
  - apply in_seq. pose proof (nat_ascii_bounded c). lia.
Qed.
Lemma ascii_sweep (P : ascii -> bool) : forallb P all_ascii = true -> forall c, P c = true.
Proof. intros H c. exact (proj1 (forallb_forall P all_ascii) H c (all_ascii_In c)). Qed.
Lemma ascii_sweep2 (P : ascii -> ascii -> bool) :
  forallb (fun a => forallb (P a) all_ascii) all_ascii = true -> forall a b, P a b = true.
Proof.
  intros H a b. apply ascii_sweep. exact (ascii_sweep (fun a => forallb (P a) all_ascii) H a).
Qed.

Lemma zseq_In n i : In i (zseq n) <-> 0 <= i < Z.of_nat n.
Proof.
  unfold zseq. rewrite in_map_iff. split.
  - intros (k & Hk & Hin). apply in_seq in Hin. lia.
  - intros H. exists (Z.to_nat i). split; [lia|]. apply in_seq. lia.
Qed.
Lemma zseq_sweep n (P : Z -> bool) : forallb P (zseq n) = true -> forall i, 0 <= i < Z.of_nat n -> P i = true.
Proof. intros H i Hi. apply (proj1 (forallb_forall P (zseq n)) H). apply zseq_In. exact Hi. Qed.
Lemma zseq_sweep2 n m (P : Z -> Z -> bool) :
  forallb (fun i => forallb (P i) (zseq m)) (zseq n) = true ->
  forall i j, 0 <= i < Z.of_nat n -> 0 <= j < Z.of_nat m -> P i j = true.
Proof.
  intros H i j Hi Hj. apply (zseq_sweep m); [|exact Hj].
  exact (zseq_sweep n (fun i => forallb (P i) (zseq m)) H i Hi).
Qed.
Lemma zseq_length n : length (zseq n) = n.
Proof. unfold zseq. now rewrite map_length, seq_length. Qed.
Lemma zseq_NoDup n : NoDup (zseq n).
Proof.
  unfold zseq. apply FinFun.Injective_map_NoDup; [|apply seq_NoDup]. intros x y H. lia.
Qed.
Lemma nth_zseq n i d : (i < n)%nat -> nth i (zseq n) d = Z.of_nat i.
Proof.
  intros H. unfold zseq. rewrite nth_indep with (d' := Z.of_nat 0) by (rewrite map_length, seq_length; lia).
  rewrite map_nth, seq_nth by lia. reflexivity.
Qed.

(** ** Association lists *)
Section Assoc.
  Context {K V : Type} (eqb : K -> K -> bool) (eqb_spec : forall x y, reflect (x = y) (eqb x y)).
  Lemma assoc_In k v (m : list (K * V)) : assoc eqb k m = Some v -> In (k, v) m.
  Proof.
    induction m as [|[k' v'] m IH]; simpl; [discriminate|].
    destruct (eqb_spec k k') as [->|]; [injection 1 as ->; now left|]. intros H. right. now apply IH.
  Qed.
  Lemma assoc_None k (m : list (K * V)) : assoc eqb k m = None <-> ~ In k (map fst m).
  Proof.
    induction m as [|[k' v'] m IH]; simpl; [tauto|].
    destruct (eqb_spec k k') as [->|H]; [split; [discriminate|intros X; exfalso; apply X; now left]|].
    rewrite IH. split; [intros A [B|B]; [congruence|contradiction]|tauto].
  Qed.
  Lemma assoc_Some_In k (m : list (K * V)) : In k (map fst m) -> exists v, assoc eqb k m = Some v.
  Proof.
    intros H. destruct (assoc eqb k m) as [v|] eqn:E; [now exists v|]. apply assoc_None in E. contradiction.
  Qed.
  Lemma assoc_assign_same k v (m : list (K * V)) : assoc eqb k (assign eqb k v m) = Some v.
  Proof.
    induction m as [|[k' v'] m IH]; simpl.
    - now destruct (eqb_spec k k).
    - destruct (eqb_spec k k') as [->|H]; simpl.
      + now destruct (eqb_spec k' k').
      + destruct (eqb_spec k k'); [contradiction|exact IH].
  Qed.
  Lemma assoc_assign_other k k' v (m : list (K * V)) : k <> k' -> assoc eqb k (assign eqb k' v m) = assoc eqb k m.
  Proof.
    intros Hne. induction m as [|[k2 v2] m IH]; simpl.
    - now destruct (eqb_spec k k').
    - destruct (eqb_spec k' k2) as [->|H]; simpl.
      + destruct (eqb_spec k k2); [contradiction|reflexivity].
      + destruct (eqb_spec k k2); [reflexivity|exact IH].
  Qed.
  Lemma assign_keys k v (m : list (K * V)) x : In x (map fst (assign eqb k v m)) <-> x = k \/ In x (map fst m).
  Proof.
    induction m as [|[k' v'] m IH]; simpl; [intuition congruence|].
    destruct (eqb_spec k k') as [->|H]; simpl; [intuition congruence|]. rewrite IH. tauto.
  Qed.
  Lemma assign_NoDup k v (m : list (K * V)) : NoDup (map fst m) -> NoDup (map fst (assign eqb k v m)).
  Proof.
    induction m as [|[k' v'] m IH]; simpl; intros H.
    - constructor; [easy|constructor].
    - inversion H as [|? ? Hn Hd]; subst. destruct (eqb_spec k k') as [->|Hne]; simpl; [now constructor|].
      constructor; [|now apply IH]. intros X. apply assign_keys in X. destruct X as [X|X]; congruence.
  Qed.
  Lemma assoc_map_fun {V'} (f : K -> V') k l :
    In k l -> assoc eqb k (map (fun x => (x, f x)) l) = Some (f k).
  Proof.
    induction l as [|x l IH]; simpl; [contradiction|].
    destruct (eqb_spec k x) as [->|H]; [reflexivity|]. intros [X|X]; [congruence|now apply IH].
  Qed.
  Lemma NoDup_assoc k v (m : list (K * V)) : NoDup (map fst m) -> In (k, v) m -> assoc eqb k m = Some v.
  Proof.
    induction m as [|[k' v'] m IH]; simpl; [easy|]. intros Hn Hin. inversion Hn as [|? ? Hx Hd]; subst.
    destruct Hin as [E|Hin].
    - injection E as -> ->. now destruct (eqb_spec k k).
    - destruct (eqb_spec k k') as [->|]; [|now apply IH].
      exfalso. apply Hx. apply in_map_iff. now exists (k', v).
  Qed.
End Assoc.

Lemma Zeqb_spec' x y : reflect (x = y) (x =? y). Proof. apply Z.eqb_spec. Qed.
Lemma Seqb_spec' x y : reflect (x = y) (String.eqb x y). Proof. apply String.eqb_spec. Qed.

(** ** Rotation *)
Lemma rotate_length {A} k (l : list A) : length (rotate k l) = length l.
Proof. unfold rotate. rewrite app_length, skipn_length, firstn_length. lia. Qed.
Lemma rotate_permutation {A} k (l : list A) : Permutation (rotate k l) l.
Proof. unfold rotate. rewrite <- (firstn_skipn k l) at 3. apply Permutation_app_comm. Qed.
Lemma nth_firstn {A} n i (l : list A) d : (i < n)%nat -> nth i (firstn n l) d = nth i l d.
Proof.
  revert n l. induction i as [|i IH]; intros [|n] [|x l] H; simpl; try lia; try reflexivity.
  apply IH. lia.
Qed.
Lemma nth_skipn {A} n i (l : list A) d : nth i (skipn n l) d = nth (n + i) l d.
Proof.
  revert l. induction n as [|n IH]; intros l; simpl; [reflexivity|].
  destruct l as [|x l]; [now destruct i|]. apply IH.
Qed.
Lemma rotate_nth {A} k (l : list A) i d :
  (k <= length l)%nat -> (i < length l)%nat ->
  nth i (rotate k l) d = nth ((i + k) mod length l) l d.
Proof.
  intros Hk Hi. unfold rotate. destruct (Nat.lt_ge_cases i (length l - k)) as [H|H].
  - rewrite app_nth1 by (rewrite skipn_length; lia). rewrite nth_skipn. f_equal.
    rewrite Nat.mod_small by lia. lia.
  - rewrite app_nth2 by (rewrite skipn_length; lia). rewrite skipn_length.
    rewrite nth_firstn by lia. f_equal.
    replace (i + k)%nat with (i - (length l - k) + 1 * length l)%nat by lia.
    rewrite Nat.mod_add by lia. rewrite Nat.mod_small by lia. reflexivity.
Qed.
Lemma znth_rotate {A} k (l : list A) i d n :
  length l = Z.to_nat n -> 0 <= k <= n -> 0 <= i < n ->
  znth d (rotate (Z.to_nat k) l) i = znth d l ((i + k) mod n).
Proof.
  intros Hl Hk Hi. unfold znth. rewrite rotate_nth by lia. f_equal. rewrite Hl.
  rewrite <- Z2Nat.inj_add by lia. rewrite <- Z2Nat.inj_mod by lia. reflexivity.
Qed.
