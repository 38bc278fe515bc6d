(** What the steps L60, L210, L260 and L330 of nnls() do, in every arithmetic. *)
From Coq Require Import Lia.
From Verif Require Import Base Nnls NnlsFacts NnlsParts.
Open Scope Z_scope.

Section Steps.
  Context {A : arith} (LA : lawful A).
  Notation num := (num A).
  Context (mda m n : Z) (m_pos : 0 < m) (m_mda : m <= mda) (n_pos : 0 < n).
  Notation mat := (@mat A mda).
  Notation puta := (@puta A mda).
  Notation vec := (@vec A).
  Notation perm := (perm n).

  (** 312-317: column j with its new pivot, and the value of up. *)
  Definition constructs (a : array num) (p j : Z) : bool := (p <? m) && negb (leb (h_max (fun l => mat a l j) p m) zero).
  Definition built (a : array num) (p j : Z) (up : option num) : array num * option num :=
    let u l := mat a l j in
    if constructs a p j then (puta a p j (h_pivot u p m), Some (sub (u p) (h_pivot u p m))) else (a, up).
  Lemma build_ok (rdc : array num -> Z -> outcome num) wrc a p j up : live a (mda * n) -> 1 <= p <= m -> 1 <= j <= n ->
    h12 (fun a k => rd a (col mda j + k)) (fun a k v => wr a (col mda j + k) v) rdc wrc 1 p (p + 1) m 1 up 1 1 0 a = Ret (built a p j up).
  Proof.
    intros L P J. unfold h12, built, constructs. replace ((0 >=? p) || (p >=? p + 1)) with false by (symmetry; apply orb_false_iff; split; rewrite Z.geb_leb; apply Z.leb_gt; lia). cbn [orb]. rewrite Z.gtb_ltb.
    zdec (p <? m).
    2: { replace (m <? p + 1) with true by (symmetry; apply Z.ltb_lt; lia). reflexivity. }
    replace (m <? p + 1) with false by (symmetry; apply Z.ltb_ge; lia). rewrite Z.mul_1_r.
    assert (R : forall s l, s = a -> 1 <= l <= m -> rd s (col mda j + (l - 1)) = Ret (mat a l j)) by (intros s l -> H; apply rda_ok with (n := n); (assumption || lia)).
    rewrite R by (reflexivity || lia). cbn [bind Z.eqb Pos.eqb].
    rewrite (construct_ok (fun a k => rd a (col mda j + k)) (fun a k v => wr a (col mda j + k) v) (fun s => s = a) m (fun l => mat a l j) R) by (reflexivity || lia).
    destruct (leb (h_max (fun l => mat a l j) p m) zero); [reflexivity|].
    assert (W := wr_mat mda n a p j (h_pivot (fun l => mat a l j) p m) L ltac:(lia) J). unfold wra in W. rewrite W. reflexivity.
  Qed.
  Lemma built_live a p j up : live a (mda * n) -> live (fst (built a p j up)) (mda * n).
  Proof. intros L. unfold built. destruct (constructs a p j); [now apply puta_live|exact L]. Qed.
  Lemma built_mat a p j up l jj : 1 <= p <= m -> 1 <= l <= mda ->
    mat (fst (built a p j up)) l jj = if (l =? p) && (jj =? j) && constructs a p j then h_pivot (fun l => mat a l j) p m else mat a l jj.
  Proof. intros P L. unfold built. destruct (constructs a p j); cbn [fst]; [rewrite mat_puta by lia; now rewrite andb_true_r|now rewrite andb_false_r]. Qed.
  (** If up has no value then the pivot does not count as different from zero. *)
  Lemma h_max_le u p : leb (h_max u p m) zero = true -> leb (absn (u p)) (@zero A) = true.
  Proof.
    unfold h_max. generalize (absn (u p)). induction (zrange (p + 1) m) as [|l r IH]; intros c H; [exact H|]. cbn [fold_left] in H. apply IH in H. unfold maxn in H. destruct (geb (absn (u l)) c) eqn:E; [|exact H]. exact (ge_le A LA _ _ E H).
  Qed.
  Lemma built_up a p j up : 1 <= p <= m -> 
    let u l := mat (fst (built a p j up)) l j in snd (built a p j up) <> None \/ leb (absn (u p)) (@zero A) = true \/ p = m.
  Proof.
    intros P u. unfold u, built, constructs. zdec (p <? m); [|right; right; lia]. cbn [andb]. destruct (leb (h_max (fun l => mat a l j) p m) zero) eqn:F; cbn [negb fst snd].
    - right; left. exact (h_max_le (fun l => mat a l j) p F).
    - left. discriminate.
  Qed.

  (** 336-343: the vector zz, transformed. *)
  Lemma transform_zz_ok a zz p j up : live a (mda * n) -> live zz m -> 1 <= p <= m -> 1 <= j <= n ->
    (up <> None \/ leb (absn (mat a p j)) (@zero A) = true \/ p = m) ->
    ok (fun '((a', z), up') => a' = a /\ up' = up /\ live z m /\ forall l, 1 <= l <= m -> vec z l = h_effect m (fun l => mat a l j) (vec zz) p up l)
      (h12 (fun s k => rd (fst s) (col mda j + k)) (fun s k v => do a <- wr (fst s) (col mda j + k) v; Ret (a, snd s))
           (fun s k => rd (snd s) k) (fun s k v => do z <- wr (snd s) k v; Ret (fst s, z)) 2 p (p + 1) m 1 up 1 1 1 (a, zz)).
  Proof.
    intros La Lz P J U.
    eapply ok_weaken; [apply (apply_ok (fun s k => rd (fst s) (col mda j + k)) (fun s k v => do a <- wr (fst s) (col mda j + k) v; Ret (a, snd s)) (fun s k => rd (snd s) k) (fun s k v => do z <- wr (snd s) k v; Ret (fst s, z))
      (fun s => fst s = a /\ live (snd s) m) m (fun l => mat a l j) (fun s => vec (snd s))); [| | | |exact P|exact U]|].
    - intros s l (-> & _) H. apply rda_ok with (n := n); (assumption || lia).
    - intros s l (_ & L) H. now apply rd_vec with (k := m).
    - intros (a', z) l v (Ea & L) H. cbn [fst snd] in *. exists (a', put z (l - 1) v). rewrite wr_ok by (destruct L; lia). split; [reflexivity|]. split; [split; [exact Ea|now apply live_put]|]. intros k K. cbn [snd]. apply vec_put.
    - now split.
    - intros ((a', z), up') ((Ea & L) & Eu & V). cbn [fst snd] in *. split; [exact Ea|]. split; [exact Eu|]. split; [exact L|exact V].
  Qed.
  (** 384-390: a column of the set Z, transformed. *)
  Lemma transform_column_ok a p j jj up : live a (mda * n) -> 1 <= p <= m -> 1 <= j <= n -> 1 <= jj <= n -> jj <> j ->
    (up <> None \/ leb (absn (mat a p j)) (@zero A) = true \/ p = m) ->
    ok (fun '(a', up') => live a' (mda * n) /\ up' = up /\ (forall l, 1 <= l <= m -> mat a' l jj = h_effect m (fun l => mat a l j) (fun l => mat a l jj) p up l) /\
                          forall l k, 1 <= l <= m -> k <> jj -> mat a' l k = mat a l k)
      (h12 (fun a k => rd a (col mda j + k)) (fun a k v => wr a (col mda j + k) v) (fun a k => rd a (col mda jj + k)) (fun a k v => wr a (col mda jj + k) v) 2 p (p + 1) m 1 up 1 mda 1 a).
  Proof.
    intros La P J JJ D U.
    eapply ok_weaken; [apply (apply_ok (fun a k => rd a (col mda j + k)) (fun a k v => wr a (col mda j + k) v) (fun a k => rd a (col mda jj + k)) (fun a k v => wr a (col mda jj + k) v)
      (fun s => live s (mda * n) /\ forall l k, 1 <= l <= m -> k <> jj -> mat s l k = mat a l k) m (fun l => mat a l j) (fun s l => mat s l jj)); [| | | |exact P|exact U]|].
    - intros s l (L & F) H. rewrite <- F by (assumption || lia). apply rda_ok with (n := n); (assumption || lia).
    - intros s l (L & _) H. apply rda_ok with (n := n); (assumption || lia).
    - intros s l v (L & F) H. exists (puta s l jj v). split; [apply wra_ok with (n := n); (assumption || lia)|]. split; [split|].
      + now apply puta_live.
      + intros l' k L' K. rewrite mat_puta by lia. zdec (k =? jj); [lia|]. rewrite andb_false_r. now apply F.
      + intros k K. rewrite mat_puta by lia. now rewrite Z.eqb_refl, andb_true_r.
    - split; [exact La|]. reflexivity.
    - intros (a', up') ((L & F) & Eu & V). split; [exact L|]. split; [exact Eu|]. split; [exact V|exact F].
  Qed.

  (** What L60 leaves if column j = index[iz] enters the set P. *)
  Definition swapped (idx idx' : array Z) (p iz : Z) : Prop :=
    forall ip, 1 <= ip <= n -> ent idx' ip = if ip =? p then ent idx iz else if ip =? iz then ent idx p else ent idx ip.
  Lemma swapped_perm idx idx' p iz : perm idx -> live idx' n -> 1 <= p <= iz -> iz <= n -> swapped idx idx' p iz -> perm idx'.
  Proof.
    intros (L & R & Inj) L' P Iz S. split; [exact L'|]. split.
    - intros ip H. rewrite S by exact H. zdec (ip =? p); [apply R; lia|]. zdec (ip =? iz); apply R; lia.
    - intros ip iq Hp Hq. rewrite !S by assumption. zdec (ip =? p); zdec (iq =? p); zdec (ip =? iz); zdec (iq =? iz); intros F; try (apply Inj in F; lia); lia.
  Qed.
  Definition entered (s s' : st A) (iz : Z) : Prop :=
    let p := npp1 s in let j := ent (vidx s) iz in
    let a1 := fst (built (va s) p j (vup s)) in let up := snd (built (va s) p j (vup s)) in let u l := mat a1 l j in
    exists zz0,
    gtb (sub (grown (unorm mda a1 (nsetp s) j) (absn (u p))) (unorm mda a1 (nsetp s) j)) zero = true /\
    (forall l, 1 <= l <= m -> vec zz0 l = h_effect m u (vec (vb s)) p up l) /\
    gtb (div (vec zz0 p) (u p)) zero = true /\
    live (vb s') m /\ (forall l, 1 <= l <= m -> vec (vb s') l = vec zz0 l) /\
    live (va s') (mda * n) /\
    (forall l, 1 <= l <= m -> mat (va s') l j = if l <=? p then u l else zero) /\
    (forall l q, 1 <= l <= m -> p < q <= n -> mat (va s') l (ent (vidx s') q) = h_effect m u (fun l => mat (va s) l (ent (vidx s') q)) p up l) /\
    (forall l q, 1 <= l <= m -> 1 <= q < p -> mat (va s') l (ent (vidx s') q) = mat (va s) l (ent (vidx s') q)) /\
    live (vidx s') n /\ swapped (vidx s) (vidx s') p iz /\
    live (vzz s') m /\
    (forall ip, 1 <= ip <= p -> vec (vzz s') ip = div (eliminated mda (va s') (vidx s') p (vec (vzz s')) ip (ip + 1) (vec zz0 ip)) (mat (va s') ip (ent (vidx s') ip))) /\
    (forall l, p < l <= m -> vec (vzz s') l = vec zz0 l) /\
    vx s' = vx s /\ size (vw s') = size (vw s) /\ iter s' = iter s /\ nsetp s' = p /\ npp1 s' = p + 1 /\ iz1 s' = p + 1 /\ vmode s' = vmode s.
  Lemma enter_ok s iz j zz0 a1 up : live (vb s) m -> perm (vidx s) -> n <= size (vw s) -> npp1 s = nsetp s + 1 -> iz1 s = nsetp s + 1 -> 0 <= nsetp s < m -> iz1 s <= iz <= n ->
    j = ent (vidx s) iz -> live a1 (mda * n) -> live zz0 m -> (up <> None \/ leb (absn (mat a1 (npp1 s) j)) (@zero A) = true \/ npp1 s = m) ->
    ok (fun '(l, s') => l = L210 /\
      let p := npp1 s in
      live (vb s') m /\ (forall l, 1 <= l <= m -> vec (vb s') l = vec zz0 l) /\
      live (va s') (mda * n) /\
      (forall l, 1 <= l <= m -> mat (va s') l j = if l <=? p then mat a1 l j else zero) /\
      (forall l q, 1 <= l <= m -> p < q <= n -> mat (va s') l (ent (vidx s') q) = h_effect m (fun l => mat a1 l j) (fun l => mat a1 l (ent (vidx s') q)) p up l) /\
      (forall l q, 1 <= l <= m -> 1 <= q < p -> mat (va s') l (ent (vidx s') q) = mat a1 l (ent (vidx s') q)) /\
      live (vidx s') n /\ swapped (vidx s) (vidx s') p iz /\
      live (vzz s') m /\
      (forall ip, 1 <= ip <= p -> vec (vzz s') ip = div (eliminated mda (va s') (vidx s') p (vec (vzz s')) ip (ip + 1) (vec zz0 ip)) (mat (va s') ip (ent (vidx s') ip))) /\
      (forall l, p < l <= m -> vec (vzz s') l = vec zz0 l) /\
      vx s' = vx s /\ size (vw s') = size (vw s) /\ iter s' = iter s /\ nsetp s' = p /\ npp1 s' = p + 1 /\ iz1 s' = p + 1 /\ vmode s' = vmode s) (enter mda m n s iz j a1 zz0 up).
  Proof.
    intros Lb P Bw Np Iz1 Ns Iz Ej La Lz U. unfold enter. cbv zeta. set (p := npp1 s) in *. assert (Ep : iz1 s = p) by lia. rewrite Ep in *.
    destruct (copy_ok m m_pos zz0 (vb s) Lz (proj1 Lb)) as (b & Eb & Lb' & Vb). rewrite Eb. cbn [bind].
    rewrite (rd_ent n (vidx s) p P) by lia. cbn [bind]. assert (Li := proj1 P). rewrite wr_ok by (destruct Li; lia). cbn [bind]. rewrite wr_ok by (destruct Li; cbn [size put]; lia). cbn [bind].
    set (idx := put (put (vidx s) (iz - 1) (ent (vidx s) p)) (p - 1) j).
    assert (Li' : live idx n) by (do 2 apply live_put; exact Li).
    assert (Sw : swapped (vidx s) idx p iz).
    { intros ip H. unfold idx. rewrite !ent_put. subst j. reflexivity. }
    assert (P' : perm idx) by (apply (swapped_perm (vidx s) idx p iz); (assumption || lia)).
    assert (Ij : ent idx p = j) by (rewrite Sw by lia; now rewrite Z.eqb_refl).
    assert (Rj : 1 <= j <= n) by (rewrite <- Ij; apply P'; lia).
    assert (Nj : forall q, 1 <= q <= n -> q <> p -> ent idx q <> j) by (intros q Q1 Q2 E; rewrite <- Ij in E; apply P' in E; lia).
    set (u := fun l => mat a1 l j).
    apply ok_bind with (P := fun '(a, up') => live a (mda * n) /\ up' = up /\ (forall l q, 1 <= l <= m -> p < q <= n -> mat a l (ent idx q) = h_effect m u (fun l => mat a1 l (ent idx q)) p up l) /\
       forall l k, 1 <= l <= m -> (forall q, p < q <= n -> ent idx q <> k) -> mat a l k = mat a1 l k).
    { eapply ok_weaken; [apply (ok_each (fun c '(a, up') => live a (mda * n) /\ up' = up /\ (forall l q, 1 <= l <= m -> p < q < c -> mat a l (ent idx q) = h_effect m u (fun l => mat a1 l (ent idx q)) p up l) /\
       forall l k, 1 <= l <= m -> (forall q, p < q < c -> ent idx q <> k) -> mat a l k = mat a1 l k)); [lia| |]|].
      - split; [exact La|]. split; [reflexivity|]. split; [intros; lia|reflexivity].
      - intros c (a, up') C (L & -> & E & F). cbn beta iota. rewrite (rd_ent n idx c P') by lia. cbn [bind].
        assert (Fj : forall l, 1 <= l <= m -> mat a l j = mat a1 l j) by (intros l H; apply F; [exact H|]; intros q Q; apply Nj; lia).
        eapply ok_weaken; [apply (transform_column_ok a p j (ent idx c) up L ltac:(lia) Rj); [apply P'; lia|apply Nj; lia|]|].
        + rewrite Fj by lia. exact U.
        + cbn beta. intros (a', up') (L' & -> & V & W). split; [exact L'|]. split; [reflexivity|].
          assert (Fc : forall l, 1 <= l <= m -> mat a l (ent idx c) = mat a1 l (ent idx c)).
          { intros l H. apply F; [exact H|]. intros q Q E'. apply P' in E'; lia. }
          split.
          * intros l q H Q. assert (Q' : q = c \/ p < q < c) by lia. destruct Q' as [-> |Q'].
            -- rewrite V by exact H. unfold h_effect, u. rewrite (Fj p) by lia.
               destruct (p <? m) eqn:Epm; [|now apply Fc]. destruct (leb (absn (mat a1 p j)) zero); [now apply Fc|]. destruct up as [uv|]; [|now apply Fc]. cbv zeta.
               destruct (geb (mul uv (mat a1 p j)) zero); [now apply Fc|]. unfold h_apply. cbv zeta. zb.
               assert (Dt : h_dot (fun l => mat a l (ent idx c)) (fun l => mat a l j) p m uv = h_dot (fun l => mat a1 l (ent idx c)) (fun l => mat a1 l j) p m uv).
               { unfold h_dot. rewrite (Fc p) by lia. assert (Y : forall i, In i (zrange (p + 1) m) -> 1 <= i <= m) by (intros i Hi; apply zrange_In in Hi; lia). revert Y. generalize (mul (mat a1 p (ent idx c)) uv). induction (zrange (p + 1) m) as [|i r IH]; intros x Y; [reflexivity|]. cbn [fold_left]. rewrite Fc, Fj by (apply Y; now left). apply IH. intros i' Hi'. apply Y. now right. }
               rewrite Dt. destruct (eqb _ zero); [now apply Fc|]. zdec (l =? p); [now rewrite (Fc p) by lia|]. destruct ((p + 1 <=? l) && (l <=? m)); [now rewrite Fc, Fj by exact H|now apply Fc].
            -- rewrite W; [now apply E|exact H|]. intros E'. apply P' in E'; lia.
          * intros l k H K. rewrite W; [|exact H|intros ->; apply (K c); lia]. apply F; [exact H|]. intros q Q. apply K. lia.
      - cbn beta. intros (a, up') (L & E1 & E & F). split; [exact L|]. split; [exact E1|]. split; [intros l q H Q; apply E; [exact H|lia]|intros l k H K; apply F; [exact H|]; intros q Q; apply K; lia]. }
    intros (a2, up2) (L2 & -> & V2 & F2).
    assert (F2j : forall l, 1 <= l <= m -> mat a2 l j = mat a1 l j) by (intros l H; apply F2; [exact H|]; intros q Q; apply Nj; lia).
    apply ok_bind with (P := fun a => live a (mda * n) /\ (forall l, 1 <= l <= m -> mat a l j = if l <=? p then mat a1 l j else zero) /\ forall l k, 1 <= l <= m -> k <> j -> mat a l k = mat a2 l k).
    { zdec (p =? m).
      - apply ok_ret. split; [exact L2|]. split; [|reflexivity]. intros l H. replace (l <=? p) with true by (symmetry; apply Z.leb_le; lia). now apply F2j.
      - eapply ok_weaken; [apply (ok_each (fun c a => live a (mda * n) /\ (forall l, 1 <= l <= m -> mat a l j = if (l <=? p) || (c <=? l) then mat a1 l j else zero) /\ forall l k, 1 <= l <= m -> k <> j -> mat a l k = mat a2 l k)); [lia| |]|].
        + split; [exact L2|]. split; [|reflexivity]. intros l H. rewrite F2j by exact H. zdec (l <=? p); [reflexivity|]. replace (p + 1 <=? l) with true by (symmetry; apply Z.leb_le; lia). reflexivity.
        + intros c a C (L & V & W). rewrite (wr_mat mda n) by (assumption || lia). apply ok_ret. split; [now apply puta_live|]. split.
          * intros l H. rewrite mat_puta by lia. rewrite Z.eqb_refl, andb_true_r. zdec (l =? c).
            -- subst l. replace (c <=? p) with false by (symmetry; apply Z.leb_gt; lia). replace (c + 1 <=? c) with false by (symmetry; apply Z.leb_gt; lia). reflexivity.
            -- rewrite V by exact H. replace (c + 1 <=? l) with (c <=? l); [reflexivity|]. zdec (c <=? l); symmetry; [apply Z.leb_le|apply Z.leb_gt]; lia.
          * intros l k H K. rewrite mat_puta by lia. zdec (k =? j); [lia|]. rewrite andb_false_r. now apply W.
        + cbn beta. intros a (L & V & W). split; [exact L|]. split; [|exact W]. intros l H. rewrite V by exact H. replace (m + 1 <=? l) with false by (symmetry; apply Z.leb_gt; lia). now rewrite orb_false_r. }
    intros a3 (L3 & V3 & F3). rewrite wr_ok by lia. cbn [bind].
    destruct (solve_ok mda m n m_mda a3 idx p zz0 L3 P' ltac:(lia) ltac:(lia) Lz) as (z & Ez & Lz' & Vz & Rz). rewrite Ez. cbn [bind]. apply ok_ret. cbn [va vb vx vw vzz vidx iter nsetp npp1 iz1 vmode]. split; [reflexivity|].
    split; [exact Lb'|]. split; [exact Vb|]. split; [exact L3|]. split; [exact V3|].
    split; [intros l q H Q; rewrite F3 by (exact H || (apply Nj; lia)); now apply V2|].
    split; [intros l q H Q; rewrite F3 by (exact H || (apply Nj; lia)); apply F2; [exact H|]; intros r R E; apply P' in E; lia|].
    split; [exact Li'|]. split; [exact Sw|]. split; [exact Lz'|]. split; [exact Vz|]. split; [exact Rz|]. do 5 (split; [reflexivity|]). split; [lia|reflexivity].
  Qed.

  (** 288-404 as a whole. *)
  Definition rejected (s s' : st A) (iz : Z) : Prop :=
    let p := npp1 s in let j := ent (vidx s) iz in
    live (va s') (mda * n) /\ (forall l k, 1 <= l <= m -> mat (va s') l k = mat (va s) l k) /\ vb s' = vb s /\ vx s' = vx s /\
    vw s' = put (vw s) (j - 1) zero /\ m <= size (vzz s') /\ vidx s' = vidx s /\ iter s' = iter s /\ nsetp s' = nsetp s /\ npp1 s' = npp1 s /\ iz1 s' = iz1 s /\ vmode s' = vmode s /\
    let a1 := fst (built (va s) p j (vup s)) in let up := snd (built (va s) p j (vup s)) in let u l := mat a1 l j in
    (gtb (sub (grown (unorm mda a1 (nsetp s) j) (absn (u p))) (unorm mda a1 (nsetp s) j)) zero = false \/ gtb (div (h_effect m u (vec (vb s)) p up p) (u p)) zero = false).
  Lemma step60_ok s : live (va s) (mda * n) -> live (vb s) m -> perm (vidx s) -> n <= size (vw s) -> m <= size (vzz s) -> npp1 s = nsetp s + 1 -> iz1 s = nsetp s + 1 -> 0 <= nsetp s < m -> nsetp s < n ->
    (forall iz, iz1 s <= iz <= n -> cell (vw s) (ent (vidx s) iz - 1) <> None) ->
    ok (fun '(l, s') => match l with
       | L350 => s' = s /\ forall iz, iz1 s <= iz <= n -> gtb (vec (vw s) (ent (vidx s) iz)) zero = false
       | L60 => exists iz, iz1 s <= iz <= n /\ gtb (vec (vw s) (ent (vidx s) iz)) zero = true /\ rejected s s' iz
       | L210 => exists iz, iz1 s <= iz <= n /\ gtb (vec (vw s) (ent (vidx s) iz)) zero = true /\ entered s s' iz
       | _ => False end) (step60 mda m n s).
  Proof.
    intros La Lb P Bw Bz Np Iz1 Ns Nn Lw. unfold step60.
    destruct (largest_ok n LA s P Bw Lw ltac:(lia)) as ((wmax, izmax) & El & Max & M). rewrite El. cbn [bind].
    destruct izmax as [iz|].
    2: { subst wmax. rewrite (le_zero A LA). apply ok_ret. split; [reflexivity|exact Max]. }
    destruct M as (Riz & Ew & Pos). rewrite (gt_not_le A LA _ Pos). cbn [used bind]. rewrite (rd_ent n _ iz P) by lia. cbn [bind]. set (j := ent (vidx s) iz). assert (Rj : 1 <= j <= n) by (apply P; lia).
    rewrite (rd_mat mda n) by (assumption || lia). cbn [bind]. rewrite build_ok by (assumption || lia).
    destruct (built (va s) (npp1 s) j (vup s)) as (a1, up) eqn:Eb. cbn [bind].
    assert (L1 : live a1 (mda * n)) by (replace a1 with (fst (built (va s) (npp1 s) j (vup s))) by (now rewrite Eb); now apply built_live).
    assert (V1 : forall l jj, 1 <= l <= m -> mat a1 l jj = if (l =? npp1 s) && (jj =? j) && constructs (va s) (npp1 s) j then h_pivot (fun l => mat (va s) l j) (npp1 s) m else mat (va s) l jj).
    { intros l jj H. replace a1 with (fst (built (va s) (npp1 s) j (vup s))) by now rewrite Eb. apply built_mat; lia. }
    assert (U1 : up <> None \/ leb (absn (mat a1 (npp1 s) j)) (@zero A) = true \/ npp1 s = m).
    { assert (X := built_up (va s) (npp1 s) j (vup s) ltac:(lia)). rewrite Eb in X. exact X. }
    rewrite (upper_norm_ok mda m n m_mda) by (assumption || lia). cbn [bind]. rewrite (rd_mat mda n a1) by (assumption || lia). cbn [bind].
    assert (Rej : forall zz, m <= size zz -> (gtb (sub (grown (unorm mda a1 (nsetp s) j) (absn (mat a1 (npp1 s) j))) (unorm mda a1 (nsetp s) j)) zero = false \/ gtb (div (h_effect m (fun l => mat a1 l j) (vec (vb s)) (npp1 s) up (npp1 s)) (mat a1 (npp1 s) j)) zero = false) ->
      ok (fun '(l, s') => match l with
       | L350 => s' = s /\ forall iz, iz1 s <= iz <= n -> gtb (vec (vw s) (ent (vidx s) iz)) zero = false
       | L60 => exists iz, iz1 s <= iz <= n /\ gtb (vec (vw s) (ent (vidx s) iz)) zero = true /\ rejected s s' iz
       | L210 => exists iz, iz1 s <= iz <= n /\ gtb (vec (vw s) (ent (vidx s) iz)) zero = true /\ entered s s' iz
       | _ => False end)
       (do a <- wra mda a1 (npp1 s) j (mat (va s) (npp1 s) j); do w <- wr (vw s) (j - 1) zero; Ret (L60, mkSt a (vb s) (vx s) w zz (vidx s) (iter s) (nsetp s) (npp1 s) (iz1 s) up (vmode s)))).
    { intros zz Bzz Why. rewrite (wr_mat mda n) by (assumption || lia). cbn [bind]. rewrite wr_ok by lia. cbn [bind]. apply ok_ret. exists iz. split; [exact Riz|]. split; [now rewrite <- Ew|].
      unfold rejected. cbn [va vb vx vw vzz vidx iter nsetp npp1 iz1 vmode]. fold j. rewrite Eb. cbn [fst snd]. split; [now apply puta_live|]. split.
      - intros l k H. rewrite mat_puta by lia. destruct ((l =? npp1 s) && (k =? j)) eqn:E; [zb; now subst|]. rewrite V1 by exact H. now rewrite E.
      - do 3 (split; [reflexivity|]). split; [exact Bzz|]. do 6 (split; [reflexivity|]). exact Why. }
    destruct (gtb (sub (grown (unorm mda a1 (nsetp s) j) (absn (mat a1 (npp1 s) j))) (unorm mda a1 (nsetp s) j)) zero) eqn:G.
    2: { cbn [bind]. apply Rej; [exact Bz|now left]. }
    destruct (copy_ok m m_pos (vb s) (vzz s) Lb Bz) as (zc & Ec & Lc & Vc). rewrite Ec. cbn [bind].
    destruct (transform_zz_ok a1 zc (npp1 s) j up L1 Lc ltac:(lia) Rj U1) as (((a', z), up') & Et & Ha & Hu & Lz & Vz). subst a' up'. rewrite Et. cbn [bind].
    rewrite (rd_vec _ m) by (assumption || lia). cbn [bind]. rewrite (rd_mat mda n a1) by (assumption || lia). cbn [bind].
    assert (Vz' : forall l, 1 <= l <= m -> vec z l = h_effect m (fun l => mat a1 l j) (vec (vb s)) (npp1 s) up l).
    { intros l H. rewrite Vz by exact H. unfold h_effect. destruct (npp1 s <? m); [|now apply Vc]. destruct (leb _ zero); [now apply Vc|]. destruct up as [uv|]; [|now apply Vc]. cbv zeta. destruct (geb _ zero); [now apply Vc|].
      unfold h_apply. cbv zeta. assert (Dt : h_dot (vec zc) (fun l => mat a1 l j) (npp1 s) m uv = h_dot (vec (vb s)) (fun l => mat a1 l j) (npp1 s) m uv).
      { unfold h_dot. rewrite (Vc (npp1 s)) by lia. assert (Y : forall i, In i (zrange (npp1 s + 1) m) -> 1 <= i <= m) by (intros i Hi; apply zrange_In in Hi; lia). revert Y. generalize (mul (vec (vb s) (npp1 s)) uv). induction (zrange (npp1 s + 1) m) as [|i r IH]; intros x Y; [reflexivity|]. cbn [fold_left]. rewrite Vc by (apply Y; now left). apply IH. intros i' Hi'. apply Y. now right. }
      rewrite Dt. rewrite (Vc (npp1 s)) by lia. rewrite (Vc l) by exact H. reflexivity. }
    destruct (gtb (div (vec z (npp1 s)) (mat a1 (npp1 s) j)) zero) eqn:T.
    2: { apply Rej; [exact (proj1 Lz)|]. right. now rewrite <- Vz' by lia. }
    eapply ok_weaken; [apply (enter_ok s iz j z a1 up); (assumption || reflexivity || lia)|].
    cbn beta. intros (l, s') (-> & H). exists iz. split; [exact Riz|]. split; [now rewrite <- Ew|]. unfold entered. fold j. rewrite Eb. cbn [fst snd]. exists z.
    split; [exact G|]. split; [exact Vz'|]. split; [exact T|]. cbv zeta in H. destruct H as (H1 & H2 & H3 & H4 & H5 & H6 & H7 & H8 & H9). do 4 (split; [assumption|]).
    assert (Idj : forall q, 1 <= q <= n -> q <> npp1 s -> ent (vidx s') q <> j).
    { intros q Q1 Q2 E. assert (P' : perm (vidx s')) by (apply (swapped_perm (vidx s) (vidx s') (npp1 s) iz); (assumption || lia)). assert (Ij : ent (vidx s') (npp1 s) = j) by (rewrite H8 by lia; now rewrite Z.eqb_refl). rewrite <- Ij in E. apply P' in E; lia. }
    split; [|split; [|now split]].
    - intros l q H Q. rewrite H5 by assumption. assert (X : forall l, 1 <= l <= m -> mat a1 l (ent (vidx s') q) = mat (va s) l (ent (vidx s') q)).
      { intros l' H'. rewrite V1 by exact H'. zdec (ent (vidx s') q =? j); [exfalso; apply (Idj q); lia|]. now rewrite andb_false_r. }
      unfold h_effect. destruct (npp1 s <? m); [|now apply X]. destruct (leb _ zero); [now apply X|]. destruct up as [uv|]; [|now apply X]. cbv zeta. destruct (geb _ zero); [now apply X|].
      unfold h_apply. cbv zeta. assert (Dt : h_dot (fun l => mat a1 l (ent (vidx s') q)) (fun l => mat a1 l j) (npp1 s) m uv = h_dot (fun l => mat (va s) l (ent (vidx s') q)) (fun l => mat a1 l j) (npp1 s) m uv).
      { unfold h_dot. rewrite X by lia. assert (Y : forall i, In i (zrange (npp1 s + 1) m) -> 1 <= i <= m) by (intros i Hi; apply zrange_In in Hi; lia). revert Y. generalize (mul (mat (va s) (npp1 s) (ent (vidx s') q)) uv). induction (zrange (npp1 s + 1) m) as [|i r IH]; intros x Y; [reflexivity|]. cbn [fold_left]. rewrite X by (apply Y; now left). apply IH. intros i' Hi'. apply Y. now right. }
      rewrite Dt. rewrite (X (npp1 s)) by lia. rewrite (X l) by exact H. reflexivity.
    - intros l q H Q. rewrite H6 by assumption. rewrite V1 by exact H. zdec (ent (vidx s') q =? j); [exfalso; apply (Idj q); lia|]. now rewrite andb_false_r.
  Qed.
End Steps.
