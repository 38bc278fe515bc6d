(** What each part of nnls() reads and writes, in every arithmetic. *)
From Coq Require Import Lia.
From Verif Require Import Base Nnls NnlsFacts.
Open Scope Z_scope.

Ltac zb := repeat match goal with
  | H : (_ =? _) = true |- _ => apply Z.eqb_eq in H
  | H : (_ =? _) = false |- _ => apply Z.eqb_neq in H
  | H : (_ <=? _) = true |- _ => apply Z.leb_le in H
  | H : (_ <=? _) = false |- _ => apply Z.leb_gt in H
  | H : (_ <? _) = true |- _ => apply Z.ltb_lt in H
  | H : (_ <? _) = false |- _ => apply Z.ltb_ge in H
  | H : (_ >? _) = _ |- _ => rewrite Z.gtb_ltb in H
  | H : (_ >=? _) = _ |- _ => rewrite Z.geb_leb in H
  | H : _ && _ = true |- _ => apply andb_true_iff in H; destruct H
  | H : _ || _ = false |- _ => apply orb_false_iff in H; destruct H
  end.
Ltac zdec e := let E := fresh "E" in destruct e eqn:E; zb.

Section Writes.
  Context {T : Type} (d : T) (I : Z -> Z).
  (** A loop that overwrites the elements I lo, ..., I hi of an array. *)
  Lemma scatter_ok (keep : array T -> Prop) (g : Z -> T -> T) body lo hi (x : array T) :
    (forall i k, lo <= i <= hi -> lo <= k <= hi -> I i = I k -> i = k) ->
    (forall y i v, lo <= i <= hi -> keep y -> keep (put y (I i - 1) v)) ->
    (forall y i, lo <= i <= hi -> keep y -> body y i = Ret (put y (I i - 1) (g i (get d y (I i - 1))))) ->
    keep x -> lo <= hi + 1 ->
    ok (fun y => keep y /\ (forall i, lo <= i <= hi -> cell y (I i - 1) = Some (g i (get d x (I i - 1)))) /\
                 forall k, (forall i, lo <= i <= hi -> I i - 1 <> k) -> cell y k = cell x k) (loop lo hi body x).
  Proof.
    intros Inj K B K0 L.
    eapply ok_weaken; [apply (ok_each (fun c y => keep y /\ (forall i, lo <= i < c -> cell y (I i - 1) = Some (g i (get d x (I i - 1)))) /\ forall k, (forall i, lo <= i < c -> I i - 1 <> k) -> cell y k = cell x k)); [exact L| |]|].
    - split; [exact K0|]. split; [intros i H; lia|reflexivity].
    - intros c y C (Ky & W & U). rewrite B by assumption. apply ok_ret. split; [now apply K|].
      assert (F : get d y (I c - 1) = get d x (I c - 1)).
      { unfold get. rewrite U; [reflexivity|]. intros i H E. assert (i = c) by (apply Inj; lia). lia. }
      split.
      + intros i H. unfold put. cbn [cell]. zdec (I i - 1 =? I c - 1).
        * assert (i = c) by (apply Inj; lia). subst i. now rewrite F.
        * apply W. enough (i <> c) by lia. intros ->. lia.
      + intros k H. unfold put. cbn [cell]. zdec (k =? I c - 1); [exfalso; apply (H c); lia|]. apply U. intros i J. apply H. lia.
    - cbn beta. intros y (Ky & W & U). split; [exact Ky|]. split; [intros i H; apply W; lia|intros k H; apply U; intros i J; apply H; lia].
  Qed.
End Writes.

Section Parts.
  Context {A : arith}.
  Notation num := (num A).
  Context (mda m n : Z) (m_pos : 0 < m) (m_mda : m <= mda) (n_pos : 0 < n).
  Notation mat := (@mat A mda).
  Notation puta := (@puta A mda).
  (** The element l of a vector and the entry ip of the index vector. *)
  Definition vec (b : array num) (l : Z) : num := get zero b (l - 1).
  Definition ent (idx : array Z) (ip : Z) : Z := get 0 idx (ip - 1).
  (** The index vector holds each column once. *)
  Definition perm (idx : array Z) : Prop :=
    live idx n /\ (forall ip, 1 <= ip <= n -> 1 <= ent idx ip <= n) /\ forall ip iq, 1 <= ip <= n -> 1 <= iq <= n -> ent idx ip = ent idx iq -> ip = iq.
  Lemma rd_ent idx ip : perm idx -> 1 <= ip <= n -> rd idx (ip - 1) = Ret (ent idx ip).
  Proof. intros (L & _) H. apply rd_live with (n := n); [exact L|lia]. Qed.
  Lemma rd_vec b k l : live b k -> 1 <= l <= k -> rd b (l - 1) = Ret (vec b l).
  Proof. intros L H. apply rd_live with (n := k); [exact L|lia]. Qed.
  Lemma vec_put b l v k : vec (put b (l - 1) v) k = if k =? l then v else vec b k.
  Proof. unfold vec. rewrite get_put. zdec (k - 1 =? l - 1); zdec (k =? l); try reflexivity; lia. Qed.
  Lemma ent_put idx ip v k : ent (put idx (ip - 1) v) k = if k =? ip then v else ent idx k.
  Proof. unfold ent. rewrite get_put. zdec (k - 1 =? ip - 1); zdec (k =? ip); try reflexivity; lia. Qed.
  Lemma rd_mat a l j : live a (mda * n) -> 1 <= l <= mda -> 1 <= j <= n -> rda mda a l j = Ret (mat a l j).
  Proof. apply rda_ok. Qed.
  Lemma wr_mat a l j v : live a (mda * n) -> 1 <= l <= mda -> 1 <= j <= n -> wra mda a l j v = Ret (puta a l j v).
  Proof. apply wra_ok. Qed.

  Lemma copy_ok from to : live from m -> m <= size to -> ok (fun t => live t m /\ forall l, 1 <= l <= m -> vec t l = vec from l) (copy m from to).
  Proof.
    intros L B. unfold copy. eapply ok_weaken; [apply (ok_each (fun c t => size t = size to /\ live t (c - 1) /\ forall l, 1 <= l < c -> vec t l = vec from l)); [lia| |]|].
    - split; [reflexivity|]. split; [apply live_0; lia|intros l H; lia].
    - intros c t C (Z & V & E). rewrite rd_vec with (k := m) by (assumption || lia). cbn [bind]. rewrite wr_ok by lia. apply ok_ret. split; [exact Z|]. split.
      + replace (c + 1 - 1) with (c - 1 + 1) by lia. apply live_extend; [exact V|lia].
      + intros l H. rewrite vec_put. zdec (l =? c); [now subst l|]. apply E. lia.
    - cbn beta. intros t (_ & V & E). split; [now replace m with (m + 1 - 1) by lia|]. intros l H. apply E. lia.
  Qed.

  (** 270-284: the vector w. *)
  Definition negative_gradient (a b : array num) (p j : Z) : num := fold_left (fun sm l => add sm (mul (mat a l j) (vec b l))) (zrange p m) zero.
  Lemma step30_ok (s : st A) : live (va s) (mda * n) -> live (vb s) m -> perm (vidx s) -> n <= size (vw s) -> 1 <= npp1 s -> 1 <= iz1 s ->
    if (n <? iz1 s) || (m <=? nsetp s) then step30 mda m n s = Ret (L350, s)
    else ok (fun '(l, s') => l = L60 /\ exists w, s' = mkSt (va s) (vb s) (vx s) w (vzz s) (vidx s) (iter s) (nsetp s) (npp1 s) (iz1 s) (vup s) (vmode s) /\
              size w = size (vw s) /\ (forall iz, iz1 s <= iz <= n -> cell w (ent (vidx s) iz - 1) = Some (negative_gradient (va s) (vb s) (npp1 s) (ent (vidx s) iz))) /\
              forall k, (forall iz, iz1 s <= iz <= n -> ent (vidx s) iz - 1 <> k) -> cell w k = cell (vw s) k) (step30 mda m n s).
  Proof.
    intros La Lb P Bw Np Iz. unfold step30. rewrite Z.gtb_ltb, Z.geb_leb. destruct ((n <? iz1 s) || (m <=? nsetp s)) eqn:E; [reflexivity|]. zb.
    eapply ok_bind.
    - apply (scatter_ok (@zero A) (ent (vidx s)) (fun w => size w = size (vw s)) (fun iz _ => negative_gradient (va s) (vb s) (npp1 s) (ent (vidx s) iz))); [| | | |lia].
      + intros i k Hi Hk. apply P; lia.
      + intros y i v Hi Hy. exact Hy.
      + intros y i Hi Hy. cbn beta. rewrite rd_ent by (assumption || lia). cbn [bind]. destruct P as (P1 & P2 & P3). specialize (P2 i ltac:(lia)).
        rewrite (loop_pure _ (fun sm l => add sm (mul (mat (va s) l (ent (vidx s) i)) (vec (vb s) l)))).
        * cbn [bind]. apply wr_ok. lia.
        * intros sm l L. rewrite rd_mat by (assumption || lia). cbn [bind]. rewrite rd_vec with (k := m) by (assumption || lia). reflexivity.
      + reflexivity.
    - intros w (Sw & W & U). apply ok_ret. split; [reflexivity|]. exists w. now repeat split.
  Qed.

  (** 289-298 *)
  Lemma largest_ok (LA : lawful A) (s : st A) : perm (vidx s) -> n <= size (vw s) -> (forall iz, iz1 s <= iz <= n -> cell (vw s) (ent (vidx s) iz - 1) <> None) -> 1 <= iz1 s <= n ->
    ok (fun '(wmax, izmax) =>
          (forall iz, iz1 s <= iz <= n -> gtb (vec (vw s) (ent (vidx s) iz)) wmax = false) /\
          match izmax with None => wmax = zero | Some iz => iz1 s <= iz <= n /\ wmax = vec (vw s) (ent (vidx s) iz) /\ gtb wmax zero = true end) (largest n s).
  Proof.
    intros P Bw Lw Iz. unfold largest. eapply ok_weaken; [apply (ok_each (fun c '(wmax, izmax) =>
          (forall iz, iz1 s <= iz < c -> gtb (vec (vw s) (ent (vidx s) iz)) wmax = false) /\
          match izmax with None => wmax = zero | Some iz => iz1 s <= iz < c /\ wmax = vec (vw s) (ent (vidx s) iz) /\ gtb wmax zero = true end)); [lia| |]|].
    - split; [intros iz H; lia|reflexivity].
    - intros c (wmax, izmax) C (U & M). rewrite rd_ent by (assumption || lia). cbn [bind].
      assert (R : rd (vw s) (ent (vidx s) c - 1) = Ret (vec (vw s) (ent (vidx s) c))).
      { specialize (Lw c C). destruct P as (_ & P2 & _). specialize (P2 c ltac:(lia)). unfold rd, vec, get. replace ((0 <=? _) && (_ <? _)) with true by (symmetry; apply andb_true_intro; split; [apply Z.leb_le|apply Z.ltb_lt]; lia). now destruct (cell (vw s) _). }
      rewrite R. cbn [bind]. destruct (gtb (vec (vw s) (ent (vidx s) c)) wmax) eqn:G; apply ok_ret.
      + split.
        * intros iz H. destruct (gtb (vec (vw s) (ent (vidx s) iz)) (vec (vw s) (ent (vidx s) c))) eqn:F; [|reflexivity].
          assert (H' : iz1 s <= iz < c \/ iz = c) by lia. destruct H' as [H'| ->].
          -- rewrite <- (U iz H'). symmetry. exact (gt_trans A LA _ _ _ F G).
          -- now rewrite (gt_irrefl A LA) in F.
        * split; [lia|]. split; [reflexivity|]. destruct izmax as [iz|]; [|now subst wmax]. destruct M as (_ & _ & M). exact (gt_trans A LA _ _ _ G M).
      + split.
        * intros iz H. assert (H' : iz1 s <= iz < c \/ iz = c) by lia. destruct H' as [H'| ->]; [now apply U|exact G].
        * destruct izmax as [iz|]; [|exact M]. destruct M as (M1 & M2). split; [lia|exact M2].
    - cbn beta. intros (wmax, izmax) (U & M). split; [intros iz H; apply U; lia|]. destruct izmax as [iz|]; [|exact M]. destruct M as (M1 & M2). split; [lia|exact M2].
  Qed.

  (** 318-328 *)
  Definition unorm (a : array num) (k j : Z) : num := root (fold_left (fun u l => add u (mul (mat a l j) (mat a l j))) (zrange 1 k) zero).
  Lemma upper_norm_ok a k j : live a (mda * n) -> 0 <= k <= m -> 1 <= j <= n -> upper_norm mda k a j = Ret (unorm a k j).
  Proof.
    intros L K J. unfold upper_norm, unorm. zdec (k =? 0); [now subst k|].
    rewrite (loop_pure _ (fun u l => add u (mul (mat a l j) (mat a l j)))); [reflexivity|]. intros u l H. rewrite rd_mat by (assumption || lia). reflexivity.
  Qed.

  (** 565-579: each unknown from the later ones. *)
  Definition eliminated (a : array num) (idx : array Z) (k : Z) (z : Z -> num) (ip lo : Z) (start : num) : num :=
    fold_left (fun acc q => sub acc (mul (mat a ip (ent idx q)) (z q))) (rev (zrange lo k)) start.
  Lemma eliminated_snoc a idx k z ip lo start : lo <= k -> eliminated a idx k z ip lo start = sub (eliminated a idx k z ip (lo + 1) start) (mul (mat a ip (ent idx lo)) (z lo)).
  Proof. intros H. unfold eliminated. rewrite (zrange_cons lo k) by exact H. cbn [rev]. now rewrite fold_left_app. Qed.
  Lemma eliminated_ext a idx k z z' ip lo start : (forall q, lo <= q <= k -> z q = z' q) -> eliminated a idx k z ip lo start = eliminated a idx k z' ip lo start.
  Proof.
    intros H. unfold eliminated. assert (F : forall q, In q (rev (zrange lo k)) -> z q = z' q) by (intros q Q; apply H; apply in_rev in Q; now apply zrange_In in Q). revert start F. induction (rev (zrange lo k)) as [|q l IH]; intros start F; [reflexivity|]. cbn [fold_left]. rewrite (F q) by now left. apply IH. intros q' Q. apply F. now right.
  Qed.
  Lemma solve_ok a idx k zz : live a (mda * n) -> perm idx -> 0 <= k <= n -> k <= m -> live zz m ->
    ok (fun z => live z m /\ (forall ip, 1 <= ip <= k -> vec z ip = div (eliminated a idx k (vec z) ip (ip + 1) (vec zz ip)) (mat a ip (ent idx ip))) /\
                 forall l, k < l <= m -> vec z l = vec zz l) (solve mda a idx k zz).
  Proof.
    intros La P K Km Lz. unfold solve. eapply ok_bind.
    - apply (ok_each (fun c '(z, jj) => live z m /\ (1 < c -> jj = ent idx (k + 2 - c)) /\
        (forall ip, k + 1 - c < ip <= k -> vec z ip = div (eliminated a idx k (vec z) ip (ip + 1) (vec zz ip)) (mat a ip (ent idx ip))) /\
        (forall ip, 1 <= ip <= k + 1 - c -> vec z ip = eliminated a idx k (vec z) ip (k + 3 - c) (vec zz ip)) /\
        forall l, k < l <= m -> vec z l = vec zz l)); [lia| |].
      + split; [exact Lz|]. split; [lia|]. split; [intros; lia|]. split; [|reflexivity]. intros ip H. unfold eliminated. now rewrite zrange_nil by lia.
      + intros c (z, jj) C (L & J & D & T & R). set (ip := k + 1 - c) in *. cbn beta iota. replace (k + 2 - c) with (ip + 1) in J by lia. replace (k + 3 - c) with (ip + 2) in T by lia.
        apply ok_bind with (P := fun z' => live z' m /\ (forall q, ip < q <= m -> vec z' q = vec z q) /\ forall q, 1 <= q <= ip -> vec z' q = eliminated a idx k (vec z) q (ip + 1) (vec zz q)).
        * zdec (c =? 1).
          -- apply ok_ret. split; [exact L|]. split; [reflexivity|]. intros q H. rewrite T by exact H. unfold eliminated. now rewrite !zrange_nil by lia.
          -- assert (J' : jj = ent idx (ip + 1)) by (apply J; lia). subst jj. assert (J2 := proj1 (proj2 P) (ip + 1) ltac:(lia)).
             eapply ok_weaken; [apply (ok_each (fun i z' => live z' m /\ (forall q, i <= q <= m -> vec z' q = vec z q) /\ forall q, 1 <= q < i -> vec z' q = eliminated a idx k (vec z) q (ip + 1) (vec zz q))); [lia| |]|].
             ++ split; [exact L|]. split; [reflexivity|]. intros q H. lia.
             ++ intros i z' Hi (L' & U' & D'). rewrite rd_vec with (k := m) by (assumption || lia). cbn [bind]. rewrite rd_mat by (assumption || lia). cbn [bind].
                rewrite rd_vec with (k := m) by (assumption || lia). cbn [bind]. rewrite wr_ok by (destruct L'; lia). apply ok_ret. split; [now apply live_put|]. split.
                ** intros q H. rewrite vec_put. zdec (q =? i); [lia|]. apply U'. lia.
                ** intros q H. rewrite vec_put. zdec (q =? i); [|apply D'; lia]. subst q. rewrite !U' by lia. rewrite (eliminated_snoc _ _ _ _ _ (ip + 1)) by lia. replace (ip + 1 + 1) with (ip + 2) by lia. rewrite <- T by lia. reflexivity.
             ++ cbn beta. intros z' (L' & U' & D'). split; [exact L'|]. split; [intros q H; apply U'; lia|intros q H; apply D'; lia].
        * intros z' (L' & U' & D'). rewrite rd_ent by (assumption || lia). cbn [bind]. rewrite rd_vec with (k := m) by (assumption || lia). cbn [bind]. assert (J2 := proj1 (proj2 P) ip ltac:(lia)). rewrite rd_mat by (assumption || lia). cbn [bind]. rewrite wr_ok by (destruct L'; lia). cbn [bind]. apply ok_ret.
          set (z2 := put z' (ip - 1) _). assert (V : forall q, q <> ip -> vec z2 q = vec z' q) by (intros q Q; unfold z2; rewrite vec_put; zdec (q =? ip); [lia|reflexivity]).
          assert (V0 : vec z2 ip = div (vec z' ip) (mat a ip (ent idx ip))) by (unfold z2; rewrite vec_put, Z.eqb_refl; reflexivity).
          assert (X : forall q lo start, ip < lo -> eliminated a idx k (vec z2) q lo start = eliminated a idx k (vec z) q lo start).
          { intros q lo start Hl. apply eliminated_ext. intros r Hr. rewrite V by lia. apply U'. lia. }
          split; [now apply live_put|]. split; [intros _; f_equal; lia|]. split; [|split].
          -- intros q H. rewrite X by lia. assert (H' : q = ip \/ ip < q) by lia. destruct H' as [-> |H'].
             ++ rewrite V0. f_equal. apply D'. lia.
             ++ rewrite V by lia. rewrite U' by lia. apply D. lia.
          -- intros q H. rewrite V by lia. rewrite D' by lia. replace (k + 3 - (c + 1)) with (ip + 1) by lia. symmetry. apply X. lia.
          -- intros l H. rewrite V by lia. rewrite U' by lia. now apply R.
    - cbn beta. intros (z, jj) (L & _ & D & _ & R). apply ok_ret. split; [exact L|]. split; [|exact R]. intros ip H. apply D. lia.
  Qed.
End Parts.
