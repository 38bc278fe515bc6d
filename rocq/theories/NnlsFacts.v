(** Facts about nnls.c that hold in every arithmetic: what each part reads and writes. *)
From Coq Require Import Lia Permutation.
From Verif Require Import Base Nnls.
Open Scope Z_scope.

(** ** Calls that return *)
Definition ok {A} (Q : A -> Prop) (o : outcome A) : Prop := exists v, o = Ret v /\ Q v.
Lemma ok_ret {A} (Q : A -> Prop) v : Q v -> ok Q (Ret v). Proof. intros H. now exists v. Qed.
Lemma ok_bind {A B} (P : A -> Prop) (Q : B -> Prop) o f : ok P o -> (forall v, P v -> ok Q (f v)) -> ok Q (bind o f).
Proof. intros (v & -> & Hv) H. exact (H v Hv). Qed.
Lemma ok_eq {A B} (Q : B -> Prop) (o : outcome A) v f : o = Ret v -> ok Q (f v) -> ok Q (bind o f).
Proof. intros -> H. exact H. Qed.
Lemma ok_weaken {A} (P Q : A -> Prop) o : ok P o -> (forall v, P v -> Q v) -> ok Q o.
Proof. intros (v & -> & Hv) H. exists v. split; [reflexivity|]. now apply H. Qed.

(** ** Ranges and loops *)
Lemma zrange_In lo hi i : In i (zrange lo hi) <-> lo <= i <= hi.
Proof.
  unfold zrange. rewrite in_map_iff. split.
  - intros (k & <- & I). apply in_seq in I. lia.
  - intros H. exists (Z.to_nat (i - lo)). split; [lia|]. apply in_seq. lia.
Qed.
Lemma zrange_nil lo hi : hi < lo -> zrange lo hi = [].
Proof. intros H. unfold zrange. replace (Z.to_nat (hi - lo + 1)) with O by lia. reflexivity. Qed.
Lemma zrange_cons lo hi : lo <= hi -> zrange lo hi = lo :: zrange (lo + 1) hi.
Proof.
  intros H. unfold zrange. replace (Z.to_nat (hi - lo + 1)) with (S (Z.to_nat (hi - (lo + 1) + 1))) by lia. cbn [seq map]. f_equal; [lia|]. rewrite <- seq_shift, map_map. apply map_ext. intros k. lia.
Qed.
Lemma zrange_snoc lo hi : lo <= hi + 1 -> zrange lo (hi + 1) = zrange lo hi ++ [hi + 1].
Proof.
  intros H. unfold zrange. replace (Z.to_nat (hi + 1 - lo + 1)) with (Z.to_nat (hi - lo + 1) + 1)%nat by lia. rewrite seq_app, map_app. f_equal. cbn. f_equal. lia.
Qed.
Lemma zrange_length lo hi : length (zrange lo hi) = Z.to_nat (hi - lo + 1).
Proof. unfold zrange. now rewrite map_length, seq_length. Qed.
Lemma zrange_NoDup lo hi : NoDup (zrange lo hi).
Proof. unfold zrange. apply FinFun.Injective_map_NoDup; [intros a b E; lia|apply seq_NoDup]. Qed.
Lemma zrange_split lo mid hi : lo <= mid <= hi -> zrange lo hi = zrange lo (mid - 1) ++ mid :: zrange (mid + 1) hi.
Proof.
  intros H. remember (Z.to_nat (mid - lo)) as k eqn:E. revert lo H E. induction k as [|k IH]; intros lo H E.
  - assert (lo = mid) by lia. subst lo. rewrite (zrange_nil mid (mid - 1)) by lia. cbn. apply zrange_cons. lia.
  - rewrite (zrange_cons lo hi), (zrange_cons lo (mid - 1)) by lia. cbn [app]. f_equal. apply IH; lia.
Qed.
Lemma ok_each {S} (Inv : Z -> S -> Prop) body lo hi s : lo <= hi + 1 -> Inv lo s -> (forall i s, lo <= i <= hi -> Inv i s -> ok (Inv (i + 1)) (body s i)) -> ok (Inv (hi + 1)) (loop lo hi body s).
Proof.
  intros L H B. unfold loop. remember (Z.to_nat (hi + 1 - lo)) as k eqn:E. revert lo s L H B E. induction k as [|k IH]; intros lo s L H B E.
  - assert (lo = hi + 1) by lia. subst lo. rewrite zrange_nil by lia. now apply ok_ret.
  - rewrite zrange_cons by lia. cbn [each]. apply ok_bind with (P := Inv (lo + 1)); [apply B; [lia|exact H]|]. intros s' H'. apply IH; [lia|exact H'| |lia]. intros i s2 I2. apply B. lia.
Qed.
(** A loop that keeps a property, whatever the bounds. *)
Lemma ok_keep {S} (Inv : S -> Prop) body lo hi s : Inv s -> (forall i s, lo <= i <= hi -> Inv s -> ok Inv (body s i)) -> ok Inv (loop lo hi body s).
Proof.
  intros H B. destruct (Z_le_gt_dec lo (hi + 1)) as [L|L].
  - apply (ok_each (fun _ => Inv)); assumption.
  - unfold loop. rewrite zrange_nil by lia. now apply ok_ret.
Qed.
Lemma each_pure {S} (body : S -> Z -> outcome S) h l s : (forall s i, In i l -> body s i = Ret (h s i)) -> each body l s = Ret (fold_left h l s).
Proof. revert s. induction l as [|i l IH]; intros s H; [reflexivity|]. cbn [each fold_left]. rewrite H by now left. cbn [bind]. apply IH. intros s' j J. apply H. now right. Qed.
Lemma loop_pure {S} (body : S -> Z -> outcome S) h lo hi s : (forall s i, lo <= i <= hi -> body s i = Ret (h s i)) -> loop lo hi body s = Ret (fold_left h (zrange lo hi) s).
Proof. intros H. apply each_pure. intros s' i I. apply H. now apply zrange_In. Qed.

(** ** Arrays *)
Section Arrays.
  Context {T : Type} (d : T).
  Definition get (a : array T) (i : Z) : T := match cell a i with Some v => v | None => d end.
  Definition live (a : array T) (n : Z) : Prop := n <= size a /\ forall i, 0 <= i < n -> cell a i <> None.
  Definition put (a : array T) (i : Z) (v : T) : array T := mkArray (size a) (fun k => if k =? i then Some v else cell a k).
  Lemma rd_live a n i : live a n -> 0 <= i < n -> rd a i = Ret (get a i).
  Proof.
    intros (B & L) H. unfold rd, get. replace ((0 <=? i) && (i <? size a)) with true by (symmetry; apply andb_true_intro; split; [apply Z.leb_le|apply Z.ltb_lt]; lia). specialize (L i H). now destruct (cell a i).
  Qed.
  Lemma wr_ok a i v : 0 <= i < size a -> wr a i v = Ret (put a i v).
  Proof. intros H. unfold wr, put. replace ((0 <=? i) && (i <? size a)) with true by (symmetry; apply andb_true_intro; split; [apply Z.leb_le|apply Z.ltb_lt]; lia). reflexivity. Qed.
  Lemma get_put a i v k : get (put a i v) k = if k =? i then v else get a k.
  Proof. unfold get, put. cbn [cell]. now destruct (k =? i). Qed.
  Lemma live_put a n i v : live a n -> live (put a i v) n.
  Proof. intros (B & L). split; [exact B|]. intros k K. unfold put. cbn [cell]. destruct (k =? i); [discriminate|now apply L]. Qed.
  Lemma live_le a n n' : live a n -> n' <= n -> live a n'.
  Proof. intros (B & L) H. split; [lia|]. intros i I. apply L. lia. Qed.
  (** The first [n] elements become live one by one. *)
  Lemma live_extend a i v : live a i -> 0 <= i < size a -> live (put a i v) (i + 1).
  Proof. intros (B & L) H. split; [cbn; lia|]. intros k K. unfold put. cbn [cell]. destruct (k =? i) eqn:E; [discriminate|]. apply L. apply Z.eqb_neq in E. lia. Qed.
  Lemma live_0 a : 0 <= size a -> live a 0.
  Proof. intros H. split; [exact H|]. intros i I. lia. Qed.
End Arrays.

(** ** Laws that every arithmetic of the program obeys, NaN included *)
Record lawful (A : arith) : Prop := mkLawful {
  gt_irrefl : forall a : num A, gtb a a = false;
  gt_trans : forall a b c : num A, gtb a b = true -> gtb b c = true -> gtb a c = true;
  gt_not_le : forall a : num A, gtb a zero = true -> leb a zero = false;
  le_zero : leb (@zero A) zero = true;
  ge_le : forall a b : num A, geb a b = true -> leb a zero = true -> leb b zero = true;
  below_two : forall t : num A, gtb two t = true -> eqb t two = false;
  two_two : eqb (@two A) two = true }.

Section Parts.
  Context {A : arith}.
  Notation num := (num A).
  Notation gt := (get (@zero A)).
  (** The element of row l and column j. *)
  Definition mat (mda : Z) (a : array num) (l j : Z) : num := gt a (col mda j + (l - 1)).
  Lemma col_range mda n l j : 1 <= l <= mda -> 1 <= j <= n -> 0 <= col mda j + (l - 1) < mda * n.
  Proof. intros L J. unfold col. nia. Qed.
  Lemma col_inj mda l j l' j' : 1 <= l <= mda -> 1 <= l' <= mda -> col mda j + (l - 1) = col mda j' + (l' - 1) -> l = l' /\ j = j'.
  Proof. intros L L' E. unfold col in E. assert (j = j') by nia. subst j'. lia. Qed.
  Lemma rda_ok mda n a l j : live a (mda * n) -> 1 <= l <= mda -> 1 <= j <= n -> rda mda a l j = Ret (mat mda a l j).
  Proof. intros V L J. apply rd_live with (n := mda * n); [exact V|]. now apply col_range with (n := n). Qed.
  Definition puta (mda : Z) (a : array num) (l j : Z) (v : num) : array num := put a (col mda j + (l - 1)) v.
  Lemma wra_ok mda n a l j v : live a (mda * n) -> 1 <= l <= mda -> 1 <= j <= n -> wra mda a l j v = Ret (puta mda a l j v).
  Proof. intros (B & _) L J. apply wr_ok. pose proof (col_range mda n l j L J). lia. Qed.
  Lemma mat_puta mda a l j v l' j' : 1 <= l <= mda -> 1 <= l' <= mda -> mat mda (puta mda a l j v) l' j' = if (l' =? l) && (j' =? j) then v else mat mda a l' j'.
  Proof.
    intros L L'. unfold mat, puta. rewrite get_put. destruct (col mda j' + (l' - 1) =? col mda j + (l - 1)) eqn:E.
    - apply Z.eqb_eq in E. apply col_inj in E; [|assumption|assumption]. destruct E as (-> & ->). now rewrite !Z.eqb_refl.
    - destruct ((l' =? l) && (j' =? j)) eqn:F; [|reflexivity]. apply andb_true_iff in F. destruct F as (F1 & F2). apply Z.eqb_eq in F1, F2. subst. now rewrite Z.eqb_refl in E.
  Qed.
  Lemma puta_live mda a n l j v : live a n -> live (puta mda a l j v) n.
  Proof. apply live_put. Qed.

  (** *** Householder *)
  (** The scale: the largest absolute value of u from the pivot on. *)
  Definition h_max (u : Z -> num) (p m : Z) : num := fold_left (fun cl l => maxn (absn (u l)) cl) (zrange (p + 1) m) (absn (u p)).
  Definition h_sum (u : Z -> num) (p m : Z) (clinv : num) : num := fold_left (fun sm l => let d := mul (u l) clinv in add sm (mul d d)) (zrange (p + 1) m) (let d := mul (u p) clinv in mul d d).
  (** The new pivot. *)
  Definition h_pivot (u : Z -> num) (p m : Z) : num :=
    let cl := mul_root (h_max u p m) (h_sum u p m (inv (h_max u p m))) in if leb (u p) zero then cl else opp cl.
  Definition h_dot (c u : Z -> num) (p m : Z) (up : num) : num := fold_left (fun sm l => add sm (mul (c l) (u l))) (zrange (p + 1) m) (mul (c p) up).
  (** The vector c after the transformation. *)
  Definition h_apply (c u : Z -> num) (p m : Z) (up b : num) (l : Z) : num :=
    let sm := h_dot c u p m up in
    if eqb sm zero then c l else if l =? p then add (c p) (mul (mul sm b) up) else if (p + 1 <=? l) && (l <=? m) then add (c l) (mul (mul sm b) (u l)) else c l.
  Section H12.
    Context {S : Type} (rdu : S -> Z -> outcome num) (wru : S -> Z -> num -> outcome S) (rdc : S -> Z -> outcome num) (wrc : S -> Z -> num -> outcome S).
    Context (good : S -> Prop) (m : Z) (u : Z -> num) (c : S -> Z -> num).
    Hypothesis rdu_ok : forall s l, good s -> 1 <= l <= m -> rdu s (l - 1) = Ret (u l).
    Lemma construct_ok p s : good s -> 1 <= p -> p < m ->
      h12_construct rdu wru p (p + 1) m 1 (u p) s =
        if leb (h_max u p m) zero then Ret None else do s' <- wru s (p - 1) (h_pivot u p m); Ret (Some (s', Some (sub (u p) (h_pivot u p m)))).
    Proof.
      intros G P M. unfold h12_construct. rewrite (loop_pure _ (fun cl l => maxn (absn (u l)) cl)) by (intros cl l L; rewrite Z.mul_1_r, rdu_ok by (assumption || lia); reflexivity). cbn [bind]. fold (h_max u p m).
      destruct (leb (h_max u p m) zero); [reflexivity|].
      rewrite (loop_pure _ (fun sm l => let d := mul (u l) (inv (h_max u p m)) in add sm (mul d d))) by (intros sm l L; rewrite Z.mul_1_r, rdu_ok by (assumption || lia); reflexivity). cbn [bind]. fold (h_sum u p m (inv (h_max u p m))).
      rewrite Z.mul_1_r. reflexivity.
    Qed.
    Hypothesis rdc_ok : forall s l, good s -> 1 <= l <= m -> rdc s (l - 1) = Ret (c s l).
    Hypothesis wrc_ok : forall s l v, good s -> 1 <= l <= m -> exists s', wrc s (l - 1) v = Ret s' /\ good s' /\ forall k, 1 <= k <= m -> c s' k = if k =? l then v else c s k.
    Lemma vector_ok p s uv b : good s -> 1 <= p -> p < m ->
      ok (fun s' => good s' /\ forall l, 1 <= l <= m -> c s' l = h_apply (c s) u p m uv b l) (h12_vector rdu rdc wrc (p + 1) m 1 uv b 1 1 p s).
    Proof.
      intros G P M. unfold h12_vector. rewrite rdc_ok by (assumption || lia). cbn [bind].
      assert (D : forall lo sm, p + 1 <= lo <= m + 1 -> each (fun '(sm, i3) i => do c0 <- rdc s (i3 - 1); do v <- rdu s ((i - 1) * 1); Ret (add sm (mul c0 v), i3 + 1)) (zrange lo m) (sm, lo) = Ret (fold_left (fun sm l => add sm (mul (c s l) (u l))) (zrange lo m) sm, m + 1)).
      { intros lo. remember (Z.to_nat (m + 1 - lo)) as k eqn:E. revert lo E. induction k as [|k IH]; intros lo E sm L.
        - assert (lo = m + 1) by lia. subst lo. rewrite zrange_nil by lia. reflexivity.
        - rewrite zrange_cons by lia. cbn [each fold_left]. rewrite rdc_ok by (assumption || lia). cbn [bind]. rewrite Z.mul_1_r, rdu_ok by (assumption || lia). cbn [bind]. apply IH; lia. }
      unfold loop at 1. rewrite D by lia. cbn [bind]. fold (h_dot (c s) u p m uv). unfold h_apply. cbv zeta. set (sm := h_dot (c s) u p m uv).
      destruct (eqb sm zero); [apply ok_ret; now split|].
      destruct (wrc_ok s p (add (c s p) (mul (mul sm b) uv)) G) as (s1 & W & G1 & C1); [lia|]. rewrite W. cbn [bind].
      eapply ok_bind.
      - apply (ok_each (fun l '(s', i4) => good s' /\ i4 = l /\ forall k, 1 <= k <= m -> c s' k = if k =? p then add (c s p) (mul (mul sm b) uv) else if (p + 1 <=? k) && (k <? l) then add (c s k) (mul (mul sm b) (u k)) else c s k)); [lia| |].
        + split; [exact G1|]. split; [reflexivity|]. intros k K. rewrite C1 by exact K. destruct (k =? p); [reflexivity|]. replace ((p + 1 <=? k) && (k <? p + 1)) with false; [reflexivity|]. symmetry. apply andb_false_iff. rewrite Z.leb_gt, Z.ltb_ge. lia.
        + intros l (s2, i4) L (G2 & -> & C2). rewrite rdc_ok by (assumption || lia). cbn [bind]. rewrite Z.mul_1_r, rdu_ok by (assumption || lia). cbn [bind].
          destruct (wrc_ok s2 l (add (c s2 l) (mul (mul sm b) (u l))) G2) as (s3 & W3 & G3 & C3); [lia|]. rewrite W3. cbn [bind]. apply ok_ret. split; [exact G3|]. split; [reflexivity|].
          intros k K. rewrite C3 by exact K. destruct (k =? l) eqn:E.
          * apply Z.eqb_eq in E. subst k. rewrite C2 by exact K. replace (l =? p) with false by (symmetry; apply Z.eqb_neq; lia). replace (l <? l) with false by (symmetry; apply Z.ltb_irrefl). rewrite andb_false_r. replace (l <? l + 1) with true by (symmetry; apply Z.ltb_lt; lia). replace (p + 1 <=? l) with true by (symmetry; apply Z.leb_le; lia). reflexivity.
          * rewrite C2 by exact K. destruct (k =? p); [reflexivity|]. apply Z.eqb_neq in E. replace (k <? l + 1) with (k <? l); [reflexivity|]. destruct (k <? l) eqn:F; symmetry; [apply Z.ltb_lt in F; apply Z.ltb_lt|apply Z.ltb_ge in F; apply Z.ltb_ge]; lia.
      - intros (s2, i4) (G2 & _ & C2). apply ok_ret. split; [exact G2|]. intros l L. rewrite C2 by exact L. destruct (l =? p) eqn:E; [reflexivity|]. replace (l <? m + 1) with (l <=? m); [reflexivity|]. destruct (l <=? m) eqn:F; symmetry; [apply Z.leb_le in F; apply Z.ltb_lt|apply Z.leb_gt in F; apply Z.ltb_ge]; lia.
    Qed.
    (** Mode 2, one vector c. *)
    Definition h_effect (cs : Z -> num) (p : Z) (up : option num) (l : Z) : num :=
      if p <? m then
        if leb (absn (u p)) zero then cs l else
        match up with None => cs l | Some uv => let b := mul uv (u p) in if geb b zero then cs l else h_apply cs u p m uv (inv b) l end
      else cs l.
    Lemma apply_ok p s up icv : good s -> 1 <= p <= m -> (up <> None \/ leb (absn (u p)) zero = true \/ p = m) ->
      ok (fun '(s', up') => good s' /\ up' = up /\ forall l, 1 <= l <= m -> c s' l = h_effect (c s) p up l) (h12 rdu wru rdc wrc 2 p (p + 1) m 1 up 1 icv 1 s).
    Proof.
      intros G P U. unfold h12, h_effect. replace ((0 >=? p) || (p >=? p + 1)) with false by (symmetry; apply orb_false_iff; split; rewrite Z.geb_leb; apply Z.leb_gt; lia). cbn [orb].
      destruct (p <? m) eqn:PM.
      2: { apply Z.ltb_ge in PM. replace (p + 1 >? m) with true by (symmetry; apply Z.gtb_lt; lia). apply ok_ret. now repeat split. }
      apply Z.ltb_lt in PM. replace (p + 1 >? m) with false by (symmetry; rewrite Z.gtb_ltb; apply Z.ltb_ge; lia). rewrite Z.mul_1_r, rdu_ok by (assumption || lia). cbn [bind Z.eqb Pos.eqb].
      destruct (leb (absn (u p)) zero); [apply ok_ret; now repeat split|]. cbn [Z.leb Z.compare]. destruct up as [uv|]; [|destruct U as [U|[U|U]]; [congruence|discriminate|lia]]. cbn [used bind]. rewrite rdu_ok by (assumption || lia). cbn [bind].
      destruct (geb (mul uv (u p)) zero); [apply ok_ret; now repeat split|].
      unfold loop. cbn [zrange]. replace (zrange 1 1) with [1] by reflexivity. cbn [each].
      replace (1 - icv + 1 * (p - 1) + icv) with p by lia. replace (1 * (p + 1 - p)) with 1 by lia.
      destruct (vector_ok p s uv (inv (mul uv (u p))) G (proj1 P) PM) as (s' & E & G' & C'). rewrite E. cbn [bind]. apply ok_ret. split; [exact G'|]. split; [reflexivity|exact C'].
    Qed.
  End H12.
End Parts.
