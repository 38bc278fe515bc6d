(** nnls() stays inside its arrays, reads nothing that has not been written, and comes to an end. *)
From Coq Require Import Lia.
From Verif Require Import Base Nnls NnlsFacts NnlsParts NnlsSteps NnlsLoop.
Open Scope Z_scope.

Lemma ok_and {T} (P Q : T -> Prop) o : ok P o -> ok Q o -> ok (fun v => P v /\ Q v) o.
Proof. intros (v & E & H) (v' & E' & H'). rewrite E in E'. injection E' as <-. exists v. now repeat split. Qed.

Lemma filter_shorter {T} (f : T -> bool) l : (length (filter f l) <= length l)%nat.
Proof. induction l as [|x l IH]; [reflexivity|]. cbn [filter]. destruct (f x); cbn [length]; lia. Qed.

Section Safe.
  Context {A : arith} (LA : lawful A).
  Notation num := (num A).
  Context (mda m n : Z) (m_pos : 0 < m) (m_mda : m <= mda) (n_pos : 0 < n).
  Notation mat := (@mat A mda).
  Notation vec := (@vec A).
  Notation perm := (perm n).

  Record wf (s : st A) : Prop := mkWf {
    wf_a : live (va s) (mda * n); wf_b : live (vb s) m; wf_x : live (vx s) n; wf_w : n <= size (vw s); wf_z : m <= size (vzz s); wf_i : perm (vidx s);
    wf_npp1 : npp1 s = nsetp s + 1; wf_iz1 : iz1 s = nsetp s + 1; wf_n : 0 <= nsetp s <= n; wf_m : nsetp s <= m; wf_iter : 0 <= iter s }.
  Definition at_ok (l : label) (s : st A) : Prop :=
    wf s /\ match l with
    | L30 => iter s <= 3 * n
    | L60 => iter s <= 3 * n /\ nsetp s < m /\ nsetp s < n /\ forall iz, iz1 s <= iz <= n -> cell (vw s) (ent (vidx s) iz - 1) <> None
    | L210 => iter s <= 3 * n /\ live (vzz s) m
    | L260 jj i => iter s <= 3 * n /\ 1 <= jj <= nsetp s /\ i = ent (vidx s) jj
    | L330 => iter s <= 3 * n /\ live (vzz s) m
    | L350 => True
    end.
  (** A bound on the number of jumps still to come. *)
  Definition positives (s : st A) : Z := Z.of_nat (length (filter (fun iz => gtb (vec (vw s) (ent (vidx s) iz)) zero) (zrange (iz1 s) n))).
  Definition rank (l : label) (s : st A) : Z :=
    match l with
    | L350 => 0
    | _ => (3 * n + 1 - iter s) * (n + 10) + match l with L30 => n + 3 | L60 => positives s + 1 | L210 => 0 | L260 _ _ => nsetp s + 1 | L330 => n + 4 | L350 => 0 end
    end.
  Lemma positives_range s : wf s -> 0 <= positives s <= n.
  Proof. intros W. unfold positives. split; [lia|]. apply Z.le_trans with (Z.of_nat (length (zrange (iz1 s) n))); [apply inj_le, filter_shorter|]. rewrite zrange_length. destruct W. lia. Qed.
  Lemma filter_fewer {T} (f g : T -> bool) l x : In x l -> (forall y, In y l -> g y = true -> f y = true) -> f x = true -> g x = false -> (length (filter g l) < length (filter f l))%nat.
  Proof.
    intros I H F G. induction l as [|y l IH]; [destruct I|]. cbn [filter].
    assert (Le : (length (filter g l) <= length (filter f l))%nat).
    { clear IH I. induction l as [|z l IH]; [reflexivity|]. cbn [filter]. assert (X := H z (or_intror (or_introl eq_refl))). assert (IH' : (length (filter g l) <= length (filter f l))%nat) by (apply IH; intros w W; apply H; destruct W as [-> |W]; [now left|right; now right]).
      destruct (g z); [rewrite X by reflexivity; cbn; lia|]. destruct (f z); cbn; lia. }
    destruct I as [-> |I].
    - rewrite F, G. cbn. lia.
    - assert (IH' := IH I (fun w W => H w (or_intror W))). assert (X := H y (or_introl eq_refl)). destruct (g y); [rewrite X by reflexivity; cbn; lia|]. destruct (f y); cbn; lia.
  Qed.
  Lemma rank_pos l s : at_ok l s -> l <> L350 -> 0 <= rank l s.
  Proof.
    intros (W & H) N. assert (Pr := positives_range s W). destruct W. unfold rank. destruct l; try congruence; try (destruct H as (H & _)); cbn [at_ok] in H; try nia.
  Qed.
  Lemma step_ok l s : at_ok l s -> l <> L350 -> ok (fun '(l', s') => at_ok l' s' /\ rank l' s' < rank l s) (step mda m n l s).
  Proof.
    intros (W & H) N. assert (R0 := rank_pos l s (conj W H) N). assert (Pr := positives_range s W). assert (W0 := W). destruct W. destruct l; cbn [step].
    - (* L30 *)
      pose proof (step30_ok mda m n m_mda s wf_a0 wf_b0 wf_i0 wf_w0 ltac:(lia) ltac:(lia)) as S. destruct ((n <? iz1 s) || (m <=? nsetp s)) eqn:E.
      + rewrite S. apply ok_ret. split; [split; [exact W0|exact Logic.I]|]. cbn [rank] in *. unfold rank. nia.
      + zb. eapply ok_weaken; [exact S|]. cbn beta. intros (l', s') (-> & w & -> & Sw & V & F).
        assert (W1 : wf (mkSt (va s) (vb s) (vx s) w (vzz s) (vidx s) (iter s) (nsetp s) (npp1 s) (iz1 s) (vup s) (vmode s))) by (constructor; cbn [va vb vx vw vzz vidx iter nsetp npp1 iz1]; (assumption || lia)).
        split.
        * split; [exact W1|]. cbn [va vb vx vw vzz vidx iter nsetp npp1 iz1]. split; [exact H|]. split; [lia|]. split; [lia|]. intros iz Hz. rewrite V by exact Hz. discriminate.
        * assert (P1 := positives_range _ W1). unfold rank in *. cbn [iter] in *. lia.
    - (* L60 *)
      destruct H as (Hi & Hm & Hn & Hw).
      eapply ok_weaken; [apply (step60_ok LA mda m n m_pos m_mda s); (assumption || lia)|]. cbn beta. intros (l', s'). destruct l'; try contradiction.
      + intros (iz & Hz & Gz & (La & Va & Eb & Ex & Ew & Bz & Ei & Eit & En & En1 & Ez1 & Em & _)).
        assert (Rj : 1 <= ent (vidx s) iz <= n) by (apply wf_i0; lia).
        assert (W1 : wf s') by (constructor; rewrite ?Eb, ?Ex, ?Ew, ?Ei, ?Eit, ?En, ?En1, ?Ez1; (assumption || (cbn [size put]; lia) || lia)).
        split.
        * split; [exact W1|]. rewrite Eit, En. split; [exact Hi|]. split; [lia|]. split; [lia|]. intros iq Hq. rewrite Ez1 in Hq. rewrite Ew, Ei. unfold put. cbn [cell]. destruct (_ =? _); [discriminate|now apply Hw].
        * unfold rank. rewrite Eit. enough (positives s' < positives s) by lia. unfold positives. rewrite Ez1, Ei. apply inj_lt. apply filter_fewer with (x := iz).
          -- apply zrange_In. lia.
          -- intros y Hy. rewrite Ew, vec_put. zdec (ent (vidx s) y =? ent (vidx s) iz); [|auto]. intros G. now rewrite (gt_irrefl A LA) in G.
          -- exact Gz.
          -- rewrite Ew, vec_put, Z.eqb_refl. apply (gt_irrefl A LA).
      + intros (iz & Hz & Gz & zz0 & _ & _ & _ & Lb & _ & La & _ & _ & _ & Li & Sw & Lz & _ & _ & Ex & Bw & Eit & En & En1 & Ez1 & Em).
        assert (Pm : perm (vidx s')) by (apply (swapped_perm n (vidx s) (vidx s') (npp1 s) iz); (assumption || lia)).
        split.
        * split; [|rewrite Eit; split; [exact Hi|exact Lz]]. constructor; rewrite ?Ex, ?Bw, ?Eit, ?En, ?En1, ?Ez1; (assumption || (destruct Lz; lia) || lia).
        * unfold rank. rewrite Eit. lia.
      + intros (-> & _). split; [split; [exact W0|exact Logic.I]|]. unfold rank in *. nia.
    - (* L210 *)
      destruct H as (Hi & Lz). eapply ok_weaken; [apply (step210_ok LA m n s); assumption|]. cbn beta. intros (l', s'). destruct l'; try contradiction.
      + intros (It & -> & (Rj & _) & _ & _ & x & -> & Lx & _).
        split; [split|].
        * constructor; cbn [with_x va vb vx vw vzz vidx iter nsetp npp1 iz1]; (assumption || lia).
        * cbn [with_x va vb vx vw vzz vidx iter nsetp npp1 iz1]. split; [lia|]. split; [exact Rj|reflexivity].
        * unfold rank. cbn [with_x iter nsetp]. nia.
      + intros (It & -> & _). split; [split|].
        * constructor; cbn [with_x va vb vx vw vzz vidx iter nsetp npp1 iz1]; (assumption || lia).
        * cbn [with_x vzz iter]. split; [lia|exact Lz].
        * unfold rank. cbn [with_x iter nsetp]. nia.
      + intros (It & ->). split; [split; [|exact Logic.I]|].
        * constructor; cbn [with_x va vb vx vw vzz vidx iter nsetp npp1 iz1]; (assumption || lia).
        * unfold rank in *. nia.
    - (* L260 *)
      destruct H as (Hi & Hj & ->).
      eapply ok_weaken; [apply (step260_ok mda m n m_pos m_mda n_pos (fun _ _ => True) s jj); (assumption || lia || exact Logic.I || idtac)|].
      + intros j a b i2 _ _ _ _ _ _. cbv zeta. destruct (g1 (mat a (j - 1) (ent (vidx s) j)) (mat a j (ent (vidx s) j))) as ((cc, ss), sig). intros. exact Logic.I.
      + cbn beta. intros (l', s') (La & Lb & Li & Rm & _ & Ex & Ew & Eit & En & En1 & Ez1 & Em & K).
        assert (Pm : perm (vidx s')) by (apply (removed_perm n (vidx s) (vidx s') (nsetp s) jj); (assumption || lia)).
        assert (Lx : live (vx s') n) by (rewrite Ex; now apply live_put).
        destruct l'; try contradiction.
        * destruct K as (_ & Lz & _). split; [split; [|rewrite Eit; now split]|].
          -- constructor; rewrite ?Ew, ?Eit, ?En, ?En1, ?Ez1; (assumption || (destruct Lz; lia) || lia).
          -- unfold rank. rewrite Eit. lia.
        * destruct K as (Hj' & Ej & _ & Ez). split; [split; [|rewrite Eit; now repeat split]|].
          -- constructor; rewrite ?Ew, ?Eit, ?En, ?En1, ?Ez1, ?Ez; (assumption || lia).
          -- unfold rank. rewrite Eit, En. lia.
    - (* L330 *)
      destruct H as (Hi & Lz). eapply ok_weaken; [apply (step330_ok m n s); assumption|]. cbn beta. intros (l', s') (-> & x & -> & Lx & _). split; [split|].
      + constructor; cbn [with_x va vb vx vw vzz vidx iter nsetp npp1 iz1]; assumption.
      + cbn [with_x iter]. exact Hi.
      + unfold rank. cbn [with_x iter]. lia.
    - congruence.
  Qed.
  Lemma run_ok (J : label -> st A -> Prop) fuel l s :
    (forall l s, J l s -> l <> L350 -> ok (fun '(l', s') => J l' s' /\ rank l' s' < rank l s) (step mda m n l s)) -> (forall l s, J l s -> l <> L350 -> 0 <= rank l s) ->
    J l s -> rank l s < Z.of_nat fuel -> exists s', J L350 s' /\ run mda m n fuel l s = Some (finish m n s').
  Proof.
    intros St Rk. revert l s. induction fuel as [|fuel IH]; intros l s H F.
    - destruct l; exfalso; solve [discriminate F | assert (X := Rk _ _ H ltac:(discriminate)); lia].
    - assert (D : l = L350 \/ l <> L350) by (destruct l; (now left) || (right; discriminate)). destruct D as [-> |D]; [exists s; split; [exact H|reflexivity]|].
      destruct (St l s H D) as ((l', s') & E & H' & R'). destruct (IH l' s' H' ltac:(lia)) as (s2 & H2 & E2). exists s2. split; [exact H2|].
      destruct l; try congruence; cbn [run]; rewrite E; exact E2.
  Qed.
  (** As many jumps as are ever needed. *)
  Definition enough : nat := Z.to_nat ((3 * n + 2) * (n + 10)).
  Lemma init_ok (x : array num) (idx : array Z) : n <= size x -> n <= size idx ->
    ok (fun '(x', i') => live x' n /\ (forall j, 1 <= j <= n -> vec x' j = zero) /\ perm i' /\ forall ip, 1 <= ip <= n -> ent i' ip = ip)
      (initial n x idx).
  Proof.
    intros Bx Bi. unfold initial. eapply ok_weaken; [apply (ok_each (fun c '(x', i') => size x' = size x /\ size i' = size idx /\ live x' (c - 1) /\ live i' (c - 1) /\ (forall j, 1 <= j < c -> vec x' j = zero) /\ forall j, 1 <= j < c -> ent i' j = j)); [lia| |]|].
    - do 2 (split; [reflexivity|]). split; [apply live_0; lia|]. split; [apply live_0; lia|]. split; intros j H; lia.
    - intros c (x', i') C (S1 & S2 & L1 & L2 & V1 & V2). rewrite !wr_ok by lia. cbn [bind]. apply ok_ret. split; [exact S1|]. split; [exact S2|]. replace (c + 1 - 1) with (c - 1 + 1) by lia.
      split; [apply live_extend; [exact L1|lia]|]. split; [apply live_extend; [exact L2|lia]|]. split; intros j H; rewrite ?vec_put, ?ent_put; zdec (j =? c); try reflexivity; try lia; [apply V1|apply V2]; lia.
    - cbn beta. intros (x', i') (S1 & S2 & L1 & L2 & V1 & V2). replace (n + 1 - 1) with n in * by lia. split; [exact L1|]. split; [intros j H; apply V1; lia|]. assert (V : forall ip, 1 <= ip <= n -> ent i' ip = ip) by (intros j H; apply V2; lia). split; [|exact V].
      split; [exact L2|]. split; [intros ip H; rewrite V by exact H; exact H|]. intros ip iq Hp Hq. now rewrite !V.
  Qed.
  (** The whole call, with any further property of the states that the steps keep. *)
  Lemma nnls_ok (K : label -> st A -> Prop) a b x w zz index fuel :
    live a (mda * n) -> live b m -> n <= size x -> n <= size w -> m <= size zz -> n <= size index -> (enough <= fuel)%nat ->
    (forall x' i', initial n x index = Ret (x', i') -> live x' n -> (forall j, 1 <= j <= n -> vec x' j = zero) -> perm i' -> (forall ip, 1 <= ip <= n -> ent i' ip = ip) -> K L30 (mkSt a b x' w zz i' 0 0 1 1 None 1)) ->
    (forall l s, at_ok l s -> K l s -> l <> L350 -> ok (fun '(l', s') => K l' s') (step mda m n l s)) ->
    exists s r, at_ok L350 s /\ K L350 s /\ nnls a mda m n b x w zz index fuel = Some (Ret r) /\
      r_mode r = vmode s /\ r_x r = vx s /\ r_norm r = Some (root (fold_left (fun sm l => add sm (mul (vec (vb s) l) (vec (vb s) l))) (zrange (npp1 s) m) zero)) /\
      (npp1 s <= m -> r_w r = vw s) /\ (m < npp1 s -> live (r_w r) n /\ forall j, 1 <= j <= n -> vec (r_w r) j = zero).
  Proof.
    intros La Lb Bx Bw Bz Bi Fu K0 KS. unfold nnls. replace ((m <=? 0) || (n <=? 0)) with false by (symmetry; apply orb_false_iff; rewrite !Z.leb_gt; lia).
    destruct (init_ok x index Bx Bi) as ((x', i') & E & Lx & Vx & P & V). rewrite E.
    set (s0 := mkSt a b x' w zz i' 0 0 1 1 None 1).
    assert (W0 : wf s0) by (constructor; cbn; (assumption || lia)).
    destruct (run_ok (fun l s => at_ok l s /\ K l s) fuel L30 s0) as (s & (Hs & Ks) & Er).
    - intros l s (H & HK) N. destruct (ok_and _ _ _ (step_ok l s H N) (KS l s H HK N)) as ((l', s') & Es & (H1 & H2) & H3). exists (l', s'). split; [exact Es|]. split; [split; [exact H1|exact H3]|exact H2].
    - intros l s (H & _) N. now apply rank_pos.
    - split; [split; [exact W0|cbn [iter s0]; lia]|]. now apply K0.
    - unfold rank. cbn [iter s0]. unfold enough in Fu. lia.
    - rewrite Er. destruct Hs as (W & _). destruct (finish_ok m n n_pos s (wf_b s W) (wf_w s W)) as ((r, s2) & Ef & Rr & Ex & Em & Ea & Eb & Ew1 & Ew2); [destruct W; lia|]. rewrite Ef. cbn [bind].
      exists s, (mkRes (vmode s2) (vx s2) (Some r) (vw s2) (va s2) (vb s2)). split; [split; [exact W|exact Logic.I]|]. split; [exact Ks|]. split; [reflexivity|]. cbn [r_mode r_x r_norm r_w].
      split; [exact Em|]. split; [exact Ex|]. split; [now rewrite Rr|]. split; [exact Ew1|exact Ew2].
  Qed.
  Lemma nnls_safe (a b x w zz : array num) index fuel :
    live a (mda * n) -> live b m -> n <= size x -> n <= size w -> m <= size zz -> n <= size index -> (enough <= fuel)%nat ->
    exists r, nnls a mda m n b x w zz index fuel = Some (Ret r) /\ live (r_x r) n /\ (r_mode r = 1 \/ r_mode r = 3).
  Proof.
    intros La Lb Bx Bw Bz Bi Fu.
    destruct (nnls_ok (fun l s => vmode s = 1 \/ (vmode s = 3 /\ l = L350)) a b x w zz index fuel La Lb Bx Bw Bz Bi Fu) as (s & r & (W & _) & Km & E & Em & Ex & _).
    - intros. now left.
    - intros l s (W & H) K N. assert (M : vmode s = 1) by (destruct K as [K|(_ & K)]; [exact K|congruence]). clear K. assert (W0 := W). destruct W. destruct l; cbn [step].
      + pose proof (step30_ok mda m n m_mda s wf_a0 wf_b0 wf_i0 wf_w0 ltac:(lia) ltac:(lia)) as S. destruct ((n <? iz1 s) || (m <=? nsetp s)); [rewrite S; apply ok_ret; now left|]. eapply ok_weaken; [exact S|]. cbn beta. intros (l', s') (-> & w' & -> & _). now left.
      + destruct H as (Hi & Hm & Hn & Hw). eapply ok_weaken; [apply (step60_ok LA mda m n m_pos m_mda s); (assumption || lia)|]. cbn beta. intros (l', s'). destruct l'; try contradiction.
        * intros (iz & _ & _ & (_ & _ & _ & _ & _ & _ & _ & _ & _ & _ & _ & Em & _)). left. now rewrite Em.
        * intros (iz & _ & _ & zz0 & _ & _ & _ & _ & _ & _ & _ & _ & _ & _ & _ & _ & _ & _ & _ & _ & _ & _ & _ & _ & Em). left. now rewrite Em.
        * intros (-> & _). now left.
      + destruct H as (Hi & Lz). eapply ok_weaken; [apply (step210_ok LA m n s); assumption|]. cbn beta. intros (l', s'). destruct l'; try contradiction.
        * intros (_ & _ & _ & _ & _ & x' & -> & _). now left.
        * intros (_ & -> & _). now left.
        * intros (_ & ->). now right.
      + destruct H as (Hi & Hj & ->). eapply ok_weaken; [apply (step260_ok mda m n m_pos m_mda n_pos (fun _ _ => True) s jj); (assumption || lia || exact Logic.I || idtac)|].
        * intros j a' b' i2 _ _ _ _ _ _. cbv zeta. destruct (g1 (mat a' (j - 1) (ent (vidx s) j)) (mat a' j (ent (vidx s) j))) as ((cc, ss), sig). intros. exact Logic.I.
        * cbn beta. intros (l', s') (_ & _ & _ & _ & _ & _ & _ & _ & _ & _ & _ & Em & _). left. now rewrite Em.
      + destruct H as (Hi & Lz). eapply ok_weaken; [apply (step330_ok m n s); assumption|]. cbn beta. intros (l', s') (-> & x' & -> & _). now left.
      + congruence.
    - exists r. split; [exact E|]. split; [rewrite Ex; apply W|]. rewrite Em. destruct Km as [Km|(Km & _)]; [now left|now right].
  Qed.
End Safe.
