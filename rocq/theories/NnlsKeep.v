(** What every step of nnls() keeps in real numbers. *)
From Coq Require Import Reals Lra Lia Permutation.
From Verif Require Import Base Nnls NnlsArith NnlsFacts NnlsParts NnlsSteps NnlsLoop NnlsSafe NnlsSums NnlsExact.
Open Scope Z_scope.

Section Keep.
  Context (mda m n : Z) (m_pos : 0 < m) (m_mda : m <= mda) (n_pos : 0 < n).
  Notation mat := (@mat exact mda).
  Notation vec := (@vec exact).
  Notation perm := (perm n).
  Notation dot := (dot m).
  (** The problem as it was given. *)
  Context (M0 : Z -> Z -> R) (b0 : Z -> R).
  Definition gram (M : Z -> Z -> R) (b : Z -> R) : Prop :=
    (forall j k, 1 <= j <= n -> 1 <= k <= n -> dot (fun l => M l j) (fun l => M l k) = dot (fun l => M0 l j) (fun l => M0 l k)) /\
    (forall j, 1 <= j <= n -> dot (fun l => M l j) b = dot (fun l => M0 l j) b0) /\ dot b b = dot b0 b0.
  Lemma gram_moved M b M' b' :
    (forall c d c' d', (exists j, 1 <= j <= n /\ (forall l, c l = M l j) /\ (forall l, c' l = M' l j)) \/ (c = b /\ c' = b') ->
                       (exists j, 1 <= j <= n /\ (forall l, d l = M l j) /\ (forall l, d' l = M' l j)) \/ (d = b /\ d' = b') -> dot c' d' = dot c d) ->
    gram M b -> gram M' b'.
  Proof.
    intros H (G1 & G2 & G3). split; [|split].
    - intros j k J K. rewrite <- G1 by assumption. apply H; left; [exists j|exists k]; now repeat split.
    - intros j J. rewrite <- G2 by assumption. apply H; [left; exists j|right]; now repeat split.
    - rewrite <- G3. apply H; right; now split.
  Qed.
  Lemma gram_reflected h b M v M' v' : b <> 0%R -> dot h h = (- 2 * b)%R ->
    (forall j, 1 <= j <= n -> reflected m h b (fun l => M l j) (fun l => M' l j)) -> reflected m h b v v' -> gram M v -> gram M' v'.
  Proof.
    intros B H HM Hv. apply gram_moved.
    assert (R : forall c c', (exists j, 1 <= j <= n /\ (forall l, c l = M l j) /\ (forall l, c' l = M' l j)) \/ (c = v /\ c' = v') -> reflected m h b c c').
    { intros c c' [(j & J & C & C')|(-> & ->)]; [|exact Hv]. intros l L. rewrite C, C'. rewrite (HM j J l L). now rewrite (dot_ext m c h (fun l => M l j) h) by auto. }
    intros c d c' d' C D. apply (dot_reflected m h b); auto.
  Qed.
  Lemma gram_rotated q cc ss M v M' v' : 2 <= q <= m -> (cc * cc + ss * ss = 1)%R ->
    (forall j, 1 <= j <= n -> rotated m q cc ss (fun l => M l j) (fun l => M' l j)) -> rotated m q cc ss v v' -> gram M v -> gram M' v'.
  Proof.
    intros B H HM Hv. apply gram_moved.
    assert (R : forall c c', (exists j, 1 <= j <= n /\ (forall l, c l = M l j) /\ (forall l, c' l = M' l j)) \/ (c = v /\ c' = v') -> rotated m q cc ss c c').
    { intros c c' [(j & J & C & C')|(-> & ->)]; [|exact Hv]. intros l L. rewrite !C, C'. now rewrite (HM j J l L). }
    intros c d c' d' C D. apply (dot_rotated m q cc ss); auto.
  Qed.
  Lemma gram_same M v M' v' : (forall j l, 1 <= j <= n -> 1 <= l <= m -> M' l j = M l j) -> (forall l, 1 <= l <= m -> v' l = v l) -> gram M v -> gram M' v'.
  Proof.
    intros HM Hv. apply gram_moved.
    assert (R : forall c c', (exists j, 1 <= j <= n /\ (forall l, c l = M l j) /\ (forall l, c' l = M' l j)) \/ (c = v /\ c' = v') -> forall l, 1 <= l <= m -> c' l = c l).
    { intros c c' [(j & J & C & C')|(-> & ->)]; [|exact Hv]. intros l L. rewrite C, C'. now apply HM. }
    intros c d c' d' C D. apply dot_ext; [now apply R|now apply R].
  Qed.
  (** The columns of the set P are triangular. *)
  Definition triangular (M : Z -> Z -> R) (idx : array Z) (k : Z) : Prop :=
    forall q, 1 <= q <= k -> M q (ent idx q) <> 0%R /\ forall l, q < l <= m -> M l (ent idx q) = 0%R.
  Definition solved (M : Z -> Z -> R) (idx : array Z) (k : Z) (z b : Z -> R) : Prop :=
    forall ip, 1 <= ip <= k -> sum ip k (fun q => (M ip (ent idx q) * z q)%R) = b ip.
  Lemma solved_ok a idx k z b : k <= m -> (forall ip, 1 <= ip <= k -> mat a ip (ent idx ip) <> 0%R) ->
    (forall ip, 1 <= ip <= k -> z ip = @div exact (eliminated mda a idx k z ip (ip + 1) (b ip)) (mat a ip (ent idx ip))) -> solved (mat a) idx k z b.
  Proof.
    intros Km D S ip H. rewrite (sum_cons ip k) by lia.
    assert (E : forall s, @eliminated exact mda a idx k z ip (ip + 1) s = (s - sum (ip + 1) k (fun q => mat a ip (ent idx q) * z q))%R).
    { intros s. unfold eliminated. cbn [sub mul exact]. assert (F : forall l s, fold_left (fun acc q => (acc - mat a ip (ent idx q) * z q)%R) l s = (s - fold_right (fun q acc => (mat a ip (ent idx q) * z q + acc)%R) 0%R l)%R).
      { induction l as [|q l IH]; intros t; cbn [fold_left fold_right]; [lra|]. rewrite IH. lra. }
      rewrite F. unfold sum. now rewrite (sum_permutation (fun q => (mat a ip (ent idx q) * z q)%R) _ _ (Permutation_sym (Permutation_rev (zrange (ip + 1) k)))). }
    rewrite (S ip H), E. cbn [div exact]. specialize (D ip H). field_simplify_eq; [|exact D]. reflexivity.
  Qed.
  Definition off_zero (s : st exact) : Prop := forall q, nsetp s < q <= n -> vec (vx s) (ent (vidx s) q) = 0%R.
  Definition gradient (s : st exact) (j : Z) : R := sum (nsetp s + 1) m (fun l => (mat (va s) l j * vec (vb s) l)%R).
  Lemma gradient_ok s j : npp1 s = nsetp s + 1 -> @negative_gradient exact mda m (va s) (vb s) (npp1 s) j = gradient s j.
  Proof. intros E. unfold negative_gradient, gradient. cbn [add mul zero exact]. rewrite (fold_left_sum (npp1 s) m (fun l => mat (va s) l j * vec (vb s) l)%R), E. lra. Qed.
  Definition fits (s : st exact) : Prop := solved (mat (va s)) (vidx s) (nsetp s) (fun q => vec (vx s) (ent (vidx s) q)) (vec (vb s)).
  Definition aims (s : st exact) : Prop := solved (mat (va s)) (vidx s) (nsetp s) (vec (vzz s)) (vec (vb s)).
  Definition common (s : st exact) : Prop :=
    gram (mat (va s)) (vec (vb s)) /\ triangular (mat (va s)) (vidx s) (nsetp s) /\ (forall j, 1 <= j <= n -> (0 <= vec (vx s) j)%R) /\ off_zero s.
  Definition inside (s : st exact) : Prop := forall q, 1 <= q <= nsetp s -> (0 < vec (vx s) (ent (vidx s) q))%R.
  Definition K (l : label) (s : st exact) : Prop :=
    common s /\ match l with
    | L30 => vmode s = 1 /\ fits s /\ inside s
    | L60 => vmode s = 1 /\ fits s /\ inside s /\ forall q, nsetp s < q <= n -> vec (vw s) (ent (vidx s) q) = gradient s (ent (vidx s) q)
    | L210 => vmode s = 1 /\ aims s /\ forall q, 1 <= q <= nsetp s -> (0 < vec (vx s) (ent (vidx s) q) \/ 0 < vec (vzz s) q)%R
    | L260 jj _ => vmode s = 1
    | L330 => vmode s = 1 /\ aims s /\ forall q, 1 <= q <= nsetp s -> (0 < vec (vzz s) q)%R
    | L350 => vmode s = 3 \/ (vmode s = 1 /\ fits s /\ forall q, nsetp s < q <= n -> (gradient s (ent (vidx s) q) <= 0)%R)
    end.

  Lemma K30 s : at_ok mda m n L30 s -> K L30 s -> ok (fun '(l, s') => K l s') (step30 mda m n s).
  Proof.
    intros (W & _) (C & Md & F & I). destruct W. pose proof (step30_ok mda m n m_mda s wf_a wf_b wf_i wf_w ltac:(lia) ltac:(lia)) as S. destruct ((n <? iz1 s) || (m <=? nsetp s)) eqn:E.
    - rewrite S. apply ok_ret. split; [exact C|]. right. split; [exact Md|]. split; [exact F|]. intros q Q. apply orb_prop in E. rewrite Z.ltb_lt, Z.leb_le in E. unfold gradient. rewrite sum_nil by lia. lra.
    - eapply ok_weaken; [exact S|]. cbn beta. intros (l', s') (-> & w & -> & Sw & V & U). split; [exact C|]. split; [exact Md|]. split; [exact F|]. split; [exact I|]. cbn [nsetp vw vidx]. intros q Q. unfold vec at 1, get. rewrite V by lia. rewrite gradient_ok by exact wf_npp1. reflexivity.
  Qed.

  (** The column that enters: its pivot is not zero, and ztest is positive. *)
  Lemma column_enters s j : 1 <= nsetp s + 1 <= m -> npp1 s = nsetp s + 1 -> 1 <= j <= n -> (0 < gradient s j)%R ->
    let p := npp1 s in let a1 := fst (built mda m (va s) p j (vup s)) in let up := snd (built mda m (va s) p j (vup s)) in let u l := mat a1 l j in
    u p <> 0%R /\ (0 < h_effect m u (vec (vb s)) p up p / u p)%R /\
    ((p = m /\ forall l k, 1 <= l <= m -> mat a1 l k = mat (va s) l k) \/
     (p < m /\ exists h b, b <> 0%R /\ dot h h = (- 2 * b)%R /\ (forall l, 1 <= l < p -> h l = 0%R) /\ (forall c, reflected m h b c (h_effect m u c p up)) /\
               reflected m h b (fun l => mat (va s) l j) (fun l => if l <=? p then u l else 0%R))).
  Proof.
    intros P Np J G p a1 up u. set (u0 := fun l => mat (va s) l j). assert (G' : (0 < sum p m (fun l => u0 l * vec (vb s) l))%R) by (unfold gradient in G; unfold p; rewrite Np; exact G). assert (Rp : 1 <= p <= m) by (unfold p; lia). clearbody p.
    destruct (Z.eq_dec p m) as [E|N].
    - assert (Same : built mda m (va s) p j (vup s) = (va s, vup s)) by (unfold built, constructs; replace (p <? m) with false by (symmetry; apply Z.ltb_ge; lia); reflexivity).
      unfold u, a1, up. rewrite Same. cbn [fst snd]. rewrite E, (sum_cons m m), (sum_nil (m + 1)) in G' by lia. unfold h_effect. replace (p <? m) with false by (symmetry; apply Z.ltb_ge; lia). rewrite E. fold (u0 m).
      assert (Nz : u0 m <> 0%R) by (intros Z0; rewrite Z0 in G'; lra). split; [exact Nz|]. split; [|left; now split].
      replace (vec (vb s) m / u0 m)%R with ((u0 m * vec (vb s) m) * (/ u0 m * / u0 m))%R by (field; exact Nz). apply Rmult_lt_0_compat; [lra|]. assert (/ u0 m <> 0)%R by now apply Rinv_neq_0_compat. nra.
    - assert (Pm : 1 <= p < m) by lia. assert (S2 : (0 < sum p m (fun l => u0 l * u0 l))%R).
      { destruct (Rlt_le_dec 0 (sum p m (fun l => u0 l * u0 l)%R)) as [S|S]; [exact S|exfalso]. rewrite (sum_zero p m) in G'; [lra|]. intros l L. assert (X := sum_ge_one p m (fun l => u0 l * u0 l)%R l ltac:(intros; nra) L). cbn beta in X. assert (u0 l = 0)%R by nra. rewrite H. ring. }
      assert (Cs : constructs mda m (va s) p j = true) by (unfold constructs; apply andb_true_intro; split; [apply Z.ltb_lt; lia|]; apply negb_true_iff; apply le_false; exact (h_max_pos m p u0 S2)).
      set (pivot := @h_pivot exact u0 p m).
      assert (Bu : built mda m (va s) p j (vup s) = (puta mda (va s) p j pivot, Some (u0 p - pivot)%R)) by (unfold built; rewrite Cs; reflexivity).
      assert (Uv : forall l, 1 <= l <= m -> u l = if l =? p then pivot else u0 l).
      { intros l L. unfold u, a1. rewrite Bu. cbn [fst]. rewrite mat_puta by lia. rewrite Z.eqb_refl, andb_true_r. reflexivity. }
      assert (Up : u p = pivot) by (rewrite Uv by lia; now rewrite Z.eqb_refl). destruct (pivot_facts m p Pm u0 S2) as (_ & _ & Nz).
      assert (Eu : up = Some (u0 p - pivot)%R) by (unfold up; now rewrite Bu). rewrite Eu. rewrite Up. split; [exact Nz|]. split.
      + assert (Nr := new_row m p Pm u0 S2 u Uv (vec (vb s))). fold pivot in Nr. set (t := h_effect m u (vec (vb s)) p (Some (u0 p - pivot)%R) p) in *. change (num exact) with R in t. clearbody t.
        replace (t / pivot)%R with ((pivot * t) * (/ pivot * / pivot))%R by (field; exact Nz). rewrite Nr. apply Rmult_lt_0_compat; [exact G'|]. assert (/ pivot <> 0)%R by now apply Rinv_neq_0_compat. nra.
      + right. split; [lia|]. eexists _, _. split; [apply Rlt_not_eq; exact (b_neg m p Pm u0 S2)|]. split; [exact (dot_hh m p Pm u0 S2)|]. split; [|split].
        * intros l L. cbn beta. now replace (l <? p) with true by (symmetry; apply Z.ltb_lt; lia).
        * intros c. exact (effect_reflects m p Pm u0 S2 u Uv c).
        * exact (column_reflects m p Pm u0 S2 u Uv).
  Qed.
  Lemma K60 s : at_ok mda m n L60 s -> K L60 s -> ok (fun '(l, s') => K l s') (step60 mda m n s).
  Proof.
    intros (W & Hi & Hm & Hn & Hw) ((G & T & X & O) & Md & F & I & Wg). destruct W. eapply ok_weaken; [apply (step60_ok exact_lawful mda m n m_pos m_mda s); (assumption || lia)|]. cbn beta. intros (l', s'). destruct l'; try contradiction.
    - intros (iz & Hz & Gz & (_ & _ & _ & _ & _ & _ & _ & _ & _ & _ & _ & _ & Tst)). exfalso. assert (Rj : 1 <= ent (vidx s) iz <= n) by (apply wf_i; lia). apply gt_true in Gz. rewrite Wg in Gz by lia.
      destruct (column_enters s (ent (vidx s) iz) ltac:(lia) wf_npp1 Rj Gz) as (Nz & Zt & _). destruct Tst as [Tst|Tst]; apply gt_false in Tst; cbn [sub grown div zero exact] in Tst; [|lra]. rewrite absn_abs in Tst.
      apply Rabs_pos_lt in Nz. lra.
    - intros (iz & Hz & Gz & zz0 & T1 & Z0 & T2 & Lb & Vb & La & Vj & Vq & Vo & Li & Sw & Lz & Sv & _ & Ex & _ & Eit & En & En1 & Ez1 & Em).
      apply gt_true in Gz. rewrite Wg in Gz by lia. set (j := ent (vidx s) iz) in *. assert (Rj : 1 <= j <= n) by (apply wf_i; lia).
      destruct (column_enters s j ltac:(lia) wf_npp1 Rj Gz) as (Nz & Zt & Cases). set (p := npp1 s) in *. set (a1 := fst (built mda m (va s) p j (vup s))) in *. set (up := snd (built mda m (va s) p j (vup s))) in *.
      assert (Pp : perm (vidx s')) by (apply (swapped_perm n (vidx s) (vidx s') p iz); (assumption || lia)).
      assert (Ep : ent (vidx s') p = j) by (rewrite Sw by lia; now rewrite Z.eqb_refl).
      assert (Eq : forall q, 1 <= q < p -> ent (vidx s') q = ent (vidx s) q) by (intros q Q; rewrite Sw by lia; zdec (q =? p); [lia|]; zdec (q =? iz); [lia|reflexivity]).
      assert (Up : forall l, 1 <= l <= p -> mat (va s') l j = mat a1 l j) by (intros l L; rewrite Vj by lia; now replace (l <=? p) with true by (symmetry; apply Z.leb_le; lia)).
      assert (Tr : triangular (mat (va s')) (vidx s') p).
      { intros q Q. destruct (Z.eq_dec q p) as [-> |N].
        - rewrite Ep, Up by lia. split; [exact Nz|]. intros l L. rewrite Vj by lia. now replace (l <=? p) with false by (symmetry; apply Z.leb_gt; lia).
        - rewrite Vo by lia. rewrite Eq by lia. destruct (T q ltac:(lia)) as [T3 T4]. split; [exact T3|]. intros l L. rewrite <- Eq by lia. rewrite Vo by lia. rewrite Eq by lia. now apply T4. }
      split; [split; [|rewrite En; split; [exact Tr|split]]|].
      + destruct Cases as [(E & Same)|(Lt & h & b & Bn & Hh & H0 & Hc & Hj)].
        * apply (gram_same (mat (va s)) (vec (vb s))); [| |exact G].
          -- intros k l Hk Hl. destruct (perm_onto n (vidx s') k Pp Hk) as (q & Hq & <-). destruct (Z_lt_le_dec q p) as [L|L]; [now apply Vo|]. destruct (Z.eq_dec q p) as [-> |N].
             ++ rewrite Ep, Up by lia. now apply Same.
             ++ rewrite Vq by lia. unfold h_effect. replace (p <? m) with false by (symmetry; apply Z.ltb_ge; lia). reflexivity.
          -- intros l Hl. rewrite Vb, Z0 by lia. unfold h_effect. replace (p <? m) with false by (symmetry; apply Z.ltb_ge; lia). reflexivity.
        * apply (gram_reflected h b (mat (va s)) (vec (vb s))); [exact Bn|exact Hh| | |exact G].
          -- intros k Hk. destruct (perm_onto n (vidx s') k Pp Hk) as (q & Hq & <-). destruct (Z_lt_le_dec q p) as [L|L]; [|destruct (Z.eq_dec q p) as [-> |N]].
             ++ intros l Hl. rewrite Vo by lia. replace (dot (fun l0 => mat (va s) l0 (ent (vidx s') q)) h) with 0%R; [unfold Rdiv; lra|]. symmetry. apply sum_zero. intros l' L'. destruct (Z_lt_le_dec l' p) as [Lp|Lp]; [rewrite H0 by lia; ring|]. rewrite Eq by lia. rewrite (proj2 (T q ltac:(lia)) l' ltac:(lia)). ring.
             ++ rewrite Ep. intros l Hl. rewrite Vj by exact Hl. exact (Hj l Hl).
             ++ intros l Hl. rewrite Vq by lia. exact (Hc _ l Hl).
          -- intros l Hl. rewrite Vb, Z0 by exact Hl. exact (Hc _ l Hl).
      + rewrite Ex. exact X.
      + intros q Q. rewrite En in Q. rewrite Ex, Sw by lia. zdec (q =? p); [lia|]. zdec (q =? iz); apply O; lia.
      + rewrite Em. split; [exact Md|]. rewrite En. split.
        * unfold aims. rewrite En. apply solved_ok; [lia| |].
          -- intros ip Hip. apply Tr. exact Hip.
          -- intros ip Hip. rewrite Sv by exact Hip. now rewrite Vb by lia.
        * intros q Q. rewrite Ex. destruct (Z.eq_dec q p) as [-> |N]; [|left; rewrite Eq by lia; apply I; lia]. right. rewrite Sv by lia. unfold eliminated. rewrite zrange_nil by lia. cbn [rev fold_left]. rewrite Ep, Up by lia. now apply gt_true in T2.
    - intros (-> & Mx). split; [exact (conj G (conj T (conj X O)))|]. right. split; [exact Md|]. split; [exact F|]. intros q Q. rewrite <- Wg by exact Q. apply gt_false. apply Mx. lia.
  Qed.

  Lemma K210 s : at_ok mda m n L210 s -> K L210 s -> ok (fun '(l, s') => K l s') (step210 n s).
  Proof.
    intros (W & Hi & Lz) ((G & T & X & O) & Md & A & Pos). destruct W. eapply ok_weaken; [apply (step210_ok exact_lawful m n s); assumption|]. cbn beta.
    assert (Rt : forall ip, blocking s ip -> let v := vec (vx s) (ent (vidx s) ip) in let z := vec (vzz s) ip in (z <= 0 /\ 0 < v - z /\ 0 < v /\ ratio s ip * (v - z) = v /\ 0 <= ratio s ip <= 1)%R).
    { intros ip (Rip & Le) v z. apply le_true in Le. change (z <= 0)%R in Le. assert (V : (0 < v)%R) by (destruct (Pos ip Rip) as [V|V]; [exact V|fold z in V; lra]).
      assert (E : ratio s ip = (- v / (z - v))%R) by reflexivity. assert (Q : (ratio s ip * (v - z) = v)%R) by (rewrite E; field; lra). split; [exact Le|]. split; [lra|]. split; [exact V|]. split; [exact Q|]. generalize (ratio s ip : R) Q. intros r Qr. split; nra. }
    intros (l', s'). destruct l'; try contradiction.
    - intros (It & -> & Bl & _ & Mn & x & -> & Lx & V & U). assert (Rj := Rt jj Bl). cbv zeta in Rj. set (al := ratio s jj) in *. change (num exact) with R in al. clearbody al.
      split; [|exact Md]. split; [exact G|]. split; [exact T|]. split.
      + cbn [with_x vx]. intros k Hk. destruct (perm_onto n (vidx s) k wf_i Hk) as (q & Hq & <-). destruct (Z_le_gt_dec q (nsetp s)) as [L|L].
        * rewrite V by lia. cbn [add mul sub exact]. set (v := vec (vx s) (ent (vidx s) q)). set (z := vec (vzz s) q). assert (V0 : (0 <= v)%R) by (apply X; now apply wf_i).
          destruct (Rlt_le_dec 0 z) as [Zp|Zp]; [change (num exact) with R in v, z; nra|]. assert (Bq : blocking s q) by (split; [lia|apply le_true; exact Zp]). assert (Mq := Mn q Bq). apply gt_false in Mq. assert (Rq := Rt q Bq). cbv zeta in Rq. fold v z in Rq. generalize (ratio s q : R) Mq Rq. intros rq Mq' Rq'. change (num exact) with R in v, z. clearbody v z. nra.
        * rewrite U; [apply X; now apply wf_i|]. intros ip Hip E. apply wf_i in E; lia.
      + intros q Q. cbn [with_x nsetp vx vidx] in *. rewrite U; [now apply O|]. intros ip Hip E. apply wf_i in E; lia.
    - intros (It & -> & Nb). split; [exact (conj G (conj T (conj X O)))|]. cbn [with_x vmode nsetp vzz]. split; [exact Md|]. split; [exact A|]. intros q Q. destruct (Rlt_le_dec 0 (vec (vzz s) q)) as [H|H]; [exact H|exfalso]. assert (Bq : blocking s q) by (split; [exact Q|apply le_true; exact H]).
      assert (N := Nb q Bq). apply gt_false in N. destruct (Rt q Bq) as (_ & _ & _ & _ & _ & Q2). cbn [two exact] in N. lra.
    - intros (It & ->). split; [exact (conj G (conj T (conj X O)))|]. now left.
  Qed.

  Lemma K330 s : at_ok mda m n L330 s -> K L330 s -> ok (fun '(l, s') => K l s') (step330 s).
  Proof.
    intros (W & Hi & Lz) ((G & T & X & O) & Md & A & Pos). destruct W. eapply ok_weaken; [apply (step330_ok m n s); assumption|]. cbn beta. intros (l', s') (-> & x & -> & Lx & V & U).
    split; [|cbn [with_x vmode]; split; [exact Md|split]].
    - split; [exact G|]. split; [exact T|]. cbn [with_x vx nsetp vidx]. split.
      + intros k Hk. destruct (perm_onto n (vidx s) k wf_i Hk) as (q & Hq & <-). destruct (Z_le_gt_dec q (nsetp s)) as [L|L].
        * rewrite V by lia. apply Rlt_le. apply Pos. lia.
        * rewrite U; [apply X; now apply wf_i|]. intros ip Hip E. apply wf_i in E; lia.
      + intros q Q. cbn [with_x nsetp vx vidx] in *. rewrite U; [now apply O|]. intros ip Hip E. apply wf_i in E; lia.
    - intros ip Hip. cbn [with_x nsetp vx vidx va vb] in *. rewrite <- (A ip Hip). apply sum_ext. intros q Q. now rewrite V by lia.
    - intros q Q. cbn [with_x nsetp vx vidx] in *. rewrite V by exact Q. now apply Pos.
  Qed.

  Lemma K260 s jj i : at_ok mda m n (L260 jj i) s -> K (L260 jj i) s -> ok (fun '(l, s') => K l s') (step260 mda m n jj i s).
  Proof.
    intros (W & Hi & Hj & ->) ((G & T & X & O) & Md). destruct W. set (k := nsetp s) in *. set (idx := vidx s) in *.
    set (depth := fun j q => if (jj <? q) && (q <? j) then q - 1 else q).
    eapply ok_weaken; [apply (step260_ok mda m n m_pos m_mda n_pos (fun j '(a, b, _) => gram (mat a) (vec b) /\ forall q, 1 <= q <= k -> q <> jj -> mat a (depth j q) (ent idx q) <> 0%R /\ forall l, depth j q < l <= m -> mat a l (ent idx q) = 0%R) s jj); (assumption || lia || idtac)|].
    - split; [exact G|]. intros q Q N. unfold depth. replace ((jj <? q) && (q <? jj + 1)) with false by (symmetry; apply andb_false_iff; rewrite !Z.ltb_ge; lia). now apply T.
    - intros j a b i2 Rj La Lb Li _ (Gk & Tk). cbv zeta. fold idx. set (ii := ent idx j). assert (Rii : 1 <= ii <= n) by (apply wf_i; lia).
      destruct (Tk j ltac:(lia) ltac:(lia)) as (Nz & _). unfold depth in Nz at 1. rewrite Z.ltb_irrefl, andb_false_r in Nz. fold ii in Nz.
      pose proof (g1_rotates (mat a (j - 1) ii) (mat a j ii) Nz) as Rot. destruct (g1 (mat a (j - 1) ii) (mat a j ii)) as ((cc, ss), sig). destruct Rot as (R1 & R2 & R3 & R4).
      intros a' b' i3 La' Lb' Va Vb. cbn [add mul opp exact] in Va, Vb.
      assert (Rc : forall c, 1 <= c <= n -> rotated m j cc ss (fun l => mat a l c) (fun l => mat a' l c)).
      { intros c Hc l L. cbn beta. rewrite Va by assumption. zdec (l =? j - 1); [zdec (c =? ii); [subst c; now symmetry|reflexivity]|]. zdec (l =? j); [zdec (c =? ii); [subst c; now symmetry|reflexivity]|reflexivity]. }
      split.
      + apply (gram_rotated j cc ss (mat a) (vec b)); [lia|exact R1|exact Rc| |exact Gk]. intros l L. now rewrite Vb.
      + intros q Q N. destruct (Tk q Q N) as (D1 & D2). assert (Rq : 1 <= ent idx q <= n) by (apply wf_i; lia).
        assert (Zr : forall l, 1 <= l <= m -> (l = j - 1 \/ l = j -> depth j q < j - 1) -> mat a' l (ent idx q) = mat a l (ent idx q)).
        { intros l L H. rewrite (Rc _ Rq l L). zdec (l =? j - 1); [|zdec (l =? j); [|reflexivity]].
          - assert (H' := H (or_introl E)). rewrite E, (D2 (j - 1)), (D2 j) by lia. match goal with |- ?x = ?y => change (@eq R x y) end. ring.
          - assert (H' := H (or_intror E0)). rewrite E0, (D2 (j - 1)), (D2 j) by lia. match goal with |- ?x = ?y => change (@eq R x y) end. ring. }
        destruct (Z.eq_dec q j) as [-> |Nj].
        * assert (Dj : depth j j = j) by (unfold depth; now rewrite Z.ltb_irrefl, andb_false_r). assert (Dj' : depth (j + 1) j = j - 1) by (unfold depth; replace ((jj <? j) && (j <? j + 1)) with true by (symmetry; apply andb_true_intro; rewrite !Z.ltb_lt; lia); reflexivity). rewrite Dj in *. rewrite Dj'. fold ii in D1, D2 |- *. split.
          -- rewrite Va, !Z.eqb_refl by lia. exact R4.
          -- intros l L. rewrite Va by lia. zdec (l =? j - 1); [lia|]. rewrite Z.eqb_refl. zdec (l =? j); [reflexivity|]. apply D2. lia.
        * assert (Dq : depth (j + 1) q = depth j q) by (unfold depth; destruct (jj <? q); cbn [andb]; [|reflexivity]; zdec (q <? j); [replace (q <? j + 1) with true by (symmetry; apply Z.ltb_lt; lia); reflexivity|replace (q <? j + 1) with false by (symmetry; apply Z.ltb_ge; lia); reflexivity]). rewrite Dq.
          assert (Db : depth j q < j - 1 \/ j < depth j q).
          { unfold depth. zdec (jj <? q); cbn [andb]; [|left; lia]. zdec (q <? j); [left; lia|right; lia]. }
          assert (Dr : 1 <= depth j q <= m) by (unfold depth; zdec (jj <? q); cbn [andb]; [zdec (q <? j)|]; lia).
          split; [rewrite Zr by lia; exact D1|]. intros l L. rewrite Zr by lia. now apply D2.
    - cbn beta. intros (l', s') (La & Lb & Li & Rm & (i2 & Gk & Tk) & Ex & Ew & Eit & En & En1 & Ez1 & Em & R). fold idx k in Rm, En, En1, Ez1. fold k in Gk, Tk. fold idx in Ex.
      assert (Pm : perm (vidx s')) by (apply (removed_perm n idx (vidx s') k jj); (assumption || lia)).
      assert (C : common s').
      { split; [exact Gk|]. split; [|split].
        - rewrite En. intros q Q. rewrite Rm by lia. zdec (q <? jj).
          + destruct (Tk q ltac:(lia) ltac:(lia)) as (D1 & D2). unfold depth in D1, D2. replace (jj <? q) with false in D1, D2 by (symmetry; apply Z.ltb_ge; lia). now split.
          + replace (q <? k) with true by (symmetry; apply Z.ltb_lt; lia). destruct (Tk (q + 1) ltac:(lia) ltac:(lia)) as (D1 & D2). unfold depth in D1, D2. replace ((jj <? q + 1) && (q + 1 <? k + 1)) with true in D1, D2 by (symmetry; apply andb_true_intro; rewrite !Z.ltb_lt; lia). replace (q + 1 - 1) with q in D1, D2 by lia. now split.
        - intros j J. rewrite Ex, vec_put. destruct (j =? _); [cbn; lra|now apply X].
        - intros q Q. rewrite En in Q. rewrite Ex, vec_put. zdec (ent (vidx s') q =? ent idx jj); [reflexivity|]. destruct (Z.eq_dec q k) as [-> |N].
          + exfalso. apply E. rewrite Rm by lia. replace (k <? jj) with false by (symmetry; apply Z.ltb_ge; lia). now rewrite Z.ltb_irrefl, Z.eqb_refl.
          + rewrite Rm by lia. replace (q <? jj) with false by (symmetry; apply Z.ltb_ge; lia). replace (q <? k) with false by (symmetry; apply Z.ltb_ge; lia). replace (q =? k) with false by (symmetry; apply Z.eqb_neq; lia). apply O. fold k. lia. }
      destruct l'; try contradiction.
      + destruct R as (Ps & Lz & Sv). split; [exact C|]. rewrite Em. split; [exact Md|]. split.
        * apply solved_ok; [lia| |exact Sv]. intros ip Hip. now apply C.
        * intros q Q. left. apply le_false. now apply Ps.
      + split; [exact C|]. now rewrite Em.
  Qed.
  Lemma K_step l s : at_ok mda m n l s -> K l s -> l <> L350 -> ok (fun '(l', s') => K l' s') (step mda m n l s).
  Proof. intros H HK N. destruct l; cbn [step]; [now apply K30|now apply K60|now apply K210|now apply K260|now apply K330|congruence]. Qed.
End Keep.
