(** What the steps L210, L260 and L330 of nnls() do, in every arithmetic. *)
From Coq Require Import Lia.
From Verif Require Import Base Nnls NnlsFacts NnlsParts.
Open Scope Z_scope.

Section Loop.
  Context {A : arith} (LA : lawful A).
  Notation num := (num A).
  Context (mda m n : Z) (m_pos : 0 < m) (m_mda : m <= mda) (n_pos : 0 < n).
  Notation mat := (@mat A mda).
  Notation puta := (@puta A mda).
  Notation vec := (@vec A).
  Notation perm := (perm n).

  (** 411-455 *)
  Definition ratio (s : st A) (ip : Z) : num := let v := vec (vx s) (ent (vidx s) ip) in div (opp v) (sub (vec (vzz s) ip) v).
  Definition blocking (s : st A) (ip : Z) : Prop := 1 <= ip <= nsetp s /\ leb (vec (vzz s) ip) zero = true.
  Definition with_x (s : st A) x it mode : st A := mkSt (va s) (vb s) x (vw s) (vzz s) (vidx s) it (nsetp s) (npp1 s) (iz1 s) (vup s) mode.
  Lemma step210_ok (s : st A) : perm (vidx s) -> live (vx s) n -> live (vzz s) m -> 0 <= nsetp s <= n -> nsetp s <= m ->
    ok (fun '(l, s') => match l with
       | L350 => n * 3 < iter s + 1 /\ s' = with_x s (vx s) (iter s + 1) 3
       | L330 => iter s + 1 <= n * 3 /\ s' = with_x s (vx s) (iter s + 1) (vmode s) /\ forall ip, blocking s ip -> gtb two (ratio s ip) = false
       | L260 jj i => iter s + 1 <= n * 3 /\ i = ent (vidx s) jj /\ blocking s jj /\ gtb two (ratio s jj) = true /\
           (forall ip, blocking s ip -> gtb (ratio s jj) (ratio s ip) = false) /\
           exists x, s' = with_x s x (iter s + 1) (vmode s) /\ live x n /\
             (forall ip, 1 <= ip <= nsetp s -> vec x (ent (vidx s) ip) = let v := vec (vx s) (ent (vidx s) ip) in add v (mul (ratio s jj) (sub (vec (vzz s) ip) v))) /\
             forall k, (forall ip, 1 <= ip <= nsetp s -> ent (vidx s) ip <> k) -> vec x k = vec (vx s) k
       | _ => False end) (step210 n s).
  Proof.
    intros P Lx Lz Ns Nm. unfold step210. cbv zeta. rewrite Z.gtb_ltb. zdec (n * 3 <? iter s + 1); [apply ok_ret; now split|].
    apply ok_bind with (P := fun '(alpha, jj) => match jj with
       | None => alpha = two /\ forall ip, blocking s ip -> gtb two (ratio s ip) = false
       | Some jj => blocking s jj /\ alpha = ratio s jj /\ gtb two alpha = true /\ forall ip, blocking s ip -> gtb alpha (ratio s ip) = false end).
    { eapply ok_weaken; [apply (ok_each (fun c '(alpha, jj) => match jj with
       | None => alpha = two /\ forall ip, ip < c -> blocking s ip -> gtb two (ratio s ip) = false
       | Some jj => blocking s jj /\ alpha = ratio s jj /\ gtb two alpha = true /\ forall ip, ip < c -> blocking s ip -> gtb alpha (ratio s ip) = false end)); [lia| |]|].
      - split; [reflexivity|]. intros ip H (H1 & _). lia.
      - intros c (alpha, jj) C Inv. rewrite (rd_ent n) by (assumption || lia). cbn [bind]. rewrite (rd_vec _ m) by (assumption || lia). cbn [bind].
        destruct (leb (vec (vzz s) c) zero) eqn:B.
        + assert (Rc : 1 <= ent (vidx s) c <= n) by (apply P; lia). rewrite (rd_vec _ n) by assumption. cbn [bind]. fold (ratio s c). assert (Bc : blocking s c) by (split; [exact C|exact B]).
          destruct (gtb alpha (ratio s c)) eqn:G; apply ok_ret.
          * split; [exact Bc|]. split; [reflexivity|]. destruct jj as [jj|].
            -- destruct Inv as (_ & Ea & T & U). split; [exact (gt_trans A LA _ _ _ T G)|]. intros ip H Bi. destruct (gtb (ratio s c) (ratio s ip)) eqn:F; [|reflexivity].
               assert (H' : ip < c \/ ip = c) by lia. destruct H' as [H'| ->]; [|now rewrite (gt_irrefl A LA) in F]. rewrite <- (U ip H' Bi). symmetry. exact (gt_trans A LA _ _ _ G F).
            -- destruct Inv as (-> & U). split; [exact G|]. intros ip H Bi. destruct (gtb (ratio s c) (ratio s ip)) eqn:F; [|reflexivity].
               assert (H' : ip < c \/ ip = c) by lia. destruct H' as [H'| ->]; [|now rewrite (gt_irrefl A LA) in F]. rewrite <- (U ip H' Bi). symmetry. exact (gt_trans A LA _ _ _ G F).
          * destruct jj as [jj|].
            -- destruct Inv as (Bj & Ea & T & U). split; [exact Bj|]. split; [exact Ea|]. split; [exact T|]. intros ip H Bi. assert (H' : ip < c \/ ip = c) by lia. destruct H' as [H'| ->]; [now apply U|exact G].
            -- destruct Inv as (-> & U). split; [reflexivity|]. intros ip H Bi. assert (H' : ip < c \/ ip = c) by lia. destruct H' as [H'| ->]; [now apply U|exact G].
        + apply ok_ret. destruct jj as [jj|].
          * destruct Inv as (Bj & Ea & T & U). split; [exact Bj|]. split; [exact Ea|]. split; [exact T|]. intros ip H Bi. apply U; [|exact Bi]. assert (ip <> c) by (intros ->; destruct Bi; congruence). lia.
          * destruct Inv as (-> & U). split; [reflexivity|]. intros ip H Bi. apply U; [|exact Bi]. assert (ip <> c) by (intros ->; destruct Bi; congruence). lia.
      - cbn beta. intros (alpha, [jj|]); [intros (Bj & Ea & T & U)|intros (-> & U)].
        + split; [exact Bj|]. split; [exact Ea|]. split; [exact T|]. intros ip Bi. apply U; [destruct Bi; lia|exact Bi].
        + split; [reflexivity|]. intros ip Bi. apply U; [destruct Bi; lia|exact Bi]. }
    intros (alpha, jj) Inv. destruct jj as [jj|].
    2: { destruct Inv as (-> & U). rewrite (two_two A LA). apply ok_ret. split; [lia|]. split; [reflexivity|exact U]. }
    destruct Inv as (Bj & Ea & T & U). rewrite (below_two A LA _ T). assert (Rjj := proj1 Bj).
    eapply ok_bind.
    - apply (scatter_ok (@zero A) (ent (vidx s)) (fun x => live x n) (fun ip v => add v (mul alpha (sub (vec (vzz s) ip) v)))); [| | |exact Lx|lia].
      + intros i k Hi Hk. apply P; lia.
      + intros y i v Hi Hy. now apply live_put.
      + intros y i Hi Hy. rewrite (rd_ent n) by (assumption || lia). cbn [bind]. assert (Ri : 1 <= ent (vidx s) i <= n) by (apply P; lia).
        rewrite (rd_vec _ n) by assumption. cbn [bind]. rewrite (rd_vec _ m) by (assumption || lia). cbn [bind]. apply wr_ok. destruct Hy. lia.
    - intros x (Lx' & W & F). cbn [used bind]. rewrite (rd_ent n) by (assumption || lia). cbn [bind]. apply ok_ret. split; [lia|]. split; [reflexivity|]. split; [exact Bj|]. rewrite <- Ea. split; [exact T|]. split; [exact U|].
      exists x. split; [reflexivity|]. split; [exact Lx'|]. split.
      + intros ip H. unfold vec at 1, get. rewrite W by exact H. reflexivity.
      + intros k K. unfold vec, get. rewrite F; [reflexivity|]. intros i Hi E'. apply (K i Hi). lia.
  Qed.

  (** 463-488 *)
  Lemma rotate_ok a b idx j : live a (mda * n) -> live b m -> live idx n -> (forall ip, 1 <= ip <= n -> 1 <= ent idx ip <= n) -> 2 <= j <= n -> j <= m ->
    let ii := ent idx j in let '(cc, ss, sig) := g1 (mat a (j - 1) ii) (mat a j ii) in
    ok (fun '(a', b', idx') => live a' (mda * n) /\ live b' m /\ idx' = put idx (j - 1 - 1) ii /\
      (forall l k, 1 <= l <= m -> 1 <= k <= n -> mat a' l k =
        if l =? j - 1 then (if k =? ii then sig else add (mul cc (mat a (j - 1) k)) (mul ss (mat a j k)))
        else if l =? j then (if k =? ii then zero else add (mul (opp ss) (mat a (j - 1) k)) (mul cc (mat a j k))) else mat a l k) /\
      forall l, 1 <= l <= m -> vec b' l =
        if l =? j - 1 then add (mul cc (vec b (j - 1))) (mul ss (vec b j)) else if l =? j then add (mul (opp ss) (vec b (j - 1))) (mul cc (vec b j)) else vec b l)
      (rotate_rows mda n j (a, b, idx)).
  Proof.
    intros La Lb Li R J Jm ii. destruct (g1 (mat a (j - 1) ii) (mat a j ii)) as ((cc, ss), sig) eqn:Eg. unfold rotate_rows.
    assert (Ei : rd idx (j - 1) = Ret ii) by (apply rd_live with (n := n); [exact Li|lia]). rewrite Ei. cbn [bind]. assert (Ri : 1 <= ii <= n) by (apply R; lia).
    rewrite wr_ok by (destruct Li; lia). cbn [bind]. rewrite !(rd_mat mda n) by (assumption || lia). cbn [bind]. rewrite Eg. rewrite !(wr_mat mda n a) by (assumption || lia). cbn [bind].
    set (a1 := puta a (j - 1) ii sig). assert (L1 : live a1 (mda * n)) by now apply puta_live. rewrite (wr_mat mda n a1) by (assumption || lia). cbn [bind]. set (a2 := puta a1 j ii zero). assert (L2 : live a2 (mda * n)) by now apply puta_live.
    assert (M2 : forall l k, 1 <= l <= m -> mat a2 l k = if k =? ii then (if l =? j then zero else if l =? j - 1 then sig else mat a l k) else mat a l k).
    { intros l k H. unfold a2, a1. rewrite !mat_puta by lia. zdec (k =? ii); [|now rewrite !andb_false_r]. rewrite !andb_true_r. reflexivity. }
    apply ok_bind with (P := fun a' => live a' (mda * n) /\ forall l k, 1 <= l <= m -> 1 <= k <= n -> mat a' l k =
        if l =? j - 1 then (if k =? ii then sig else add (mul cc (mat a (j - 1) k)) (mul ss (mat a j k)))
        else if l =? j then (if k =? ii then zero else add (mul (opp ss) (mat a (j - 1) k)) (mul cc (mat a j k))) else mat a l k).
    { eapply ok_weaken; [apply (ok_each (fun c a' => live a' (mda * n) /\ forall l k, 1 <= l <= m -> 1 <= k <= n -> mat a' l k =
        if (k <? c) && negb (k =? ii) then (if l =? j - 1 then add (mul cc (mat a (j - 1) k)) (mul ss (mat a j k)) else if l =? j then add (mul (opp ss) (mat a (j - 1) k)) (mul cc (mat a j k)) else mat a l k)
        else mat a2 l k)); [lia| |]|].
      - split; [exact L2|]. intros l k H K. replace (k <? 1) with false by (symmetry; apply Z.ltb_ge; lia). reflexivity.
      - intros c a' C (L' & V). zdec (c =? ii).
        + apply ok_ret. split; [exact L'|]. intros l k H K. rewrite V by assumption. replace ((k <? c + 1) && negb (k =? ii)) with ((k <? c) && negb (k =? ii)); [reflexivity|]. zdec (k =? ii); [now rewrite !andb_false_r|]. rewrite !andb_true_r. zdec (k <? c); symmetry; [apply Z.ltb_lt|apply Z.ltb_ge]; lia.
        + assert (V0 : forall l, 1 <= l <= m -> mat a' l c = mat a l c).
          { intros l H. rewrite V by assumption. rewrite Z.ltb_irrefl. cbn [andb]. rewrite M2 by exact H. zdec (c =? ii); [lia|reflexivity]. }
          rewrite !(rd_mat mda n a') by (assumption || lia). cbn [bind]. rewrite (wr_mat mda n a') by (assumption || lia). cbn [bind].
          set (a3 := puta a' (j - 1) c _). assert (L3 : live a3 (mda * n)) by now apply puta_live. rewrite (rd_mat mda n a3) by (assumption || lia). cbn [bind]. rewrite (wr_mat mda n a3) by (assumption || lia). apply ok_ret.
          split; [now apply puta_live|]. intros l k H K. rewrite mat_puta by lia. unfold a3. rewrite !mat_puta by lia.
          zdec (k =? c).
          * subst k. replace (c <? c + 1) with true by (symmetry; apply Z.ltb_lt; lia). zdec (c =? ii); [lia|]. rewrite !andb_true_r. cbn [negb]. rewrite !V0 by lia. replace (j =? j - 1) with false by (symmetry; apply Z.eqb_neq; lia).
            zdec (l =? j); [subst l; replace (j =? j - 1) with false by (symmetry; apply Z.eqb_neq; lia); reflexivity|]. zdec (l =? j - 1); reflexivity.
          * rewrite !andb_false_r. rewrite V by assumption. replace (k <? c + 1) with (k <? c); [reflexivity|]. zdec (k <? c); symmetry; [apply Z.ltb_lt|apply Z.ltb_ge]; lia.
      - cbn beta. intros a' (L' & V). split; [exact L'|]. intros l k H K. rewrite V by assumption. replace (k <? n + 1) with true by (symmetry; apply Z.ltb_lt; lia). cbn [andb]. rewrite M2 by exact H.
        zdec (k =? ii); cbn [negb]; [|reflexivity]. subst k. zdec (l =? j); [subst l; replace (j =? j - 1) with false by (symmetry; apply Z.eqb_neq; lia); reflexivity|]. reflexivity. }
    intros a3 (L3 & V3). rewrite !(rd_vec b m) by (assumption || lia). cbn [bind]. rewrite wr_ok by (destruct Lb; lia). cbn [bind]. rewrite (rd_vec _ m) by ((now apply live_put) || lia). cbn [bind]. rewrite wr_ok by (destruct Lb; cbn [size put]; lia). cbn [bind]. apply ok_ret.
    split; [exact L3|]. split; [now do 2 apply live_put|]. split; [reflexivity|]. split; [exact V3|]. intros l H. rewrite !vec_put. replace (j =? j - 1) with false by (symmetry; apply Z.eqb_neq; lia). zdec (l =? j); [subst l; replace (j =? j - 1) with false by (symmetry; apply Z.eqb_neq; lia); reflexivity|]. reflexivity.
  Qed.
  (** 505-512 *)
  Lemma first_infeasible_ok x idx l : live x n -> perm idx -> (forall ip, In ip l -> 1 <= ip <= n) ->
    ok (fun r => match r with None => forall ip, In ip l -> leb (vec x (ent idx ip)) (@zero A) = false
                            | Some (jj, i) => In jj l /\ i = ent idx jj /\ leb (vec x i) (@zero A) = true end) (first_infeasible x idx l).
  Proof.
    intros Lx P. induction l as [|ip l IH]; intros H; cbn [first_infeasible]; [apply ok_ret; intros ip []|].
    rewrite (rd_ent n) by (assumption || (apply H; now left)). cbn [bind]. rewrite (rd_vec _ n) by (assumption || (apply P; apply H; now left)). cbn [bind].
    destruct (leb (vec x (ent idx ip)) zero) eqn:E.
    - apply ok_ret. split; [now left|]. split; [reflexivity|exact E].
    - eapply ok_weaken; [apply IH; intros iq Q; apply H; now right|]. cbn beta. intros [(jj, i)|].
      + intros (F1 & F2 & F3). split; [now right|now split].
      + intros F iq [<- |Q]; [exact E|now apply F].
  Qed.
  (** 456-524: the index vector after column jj has left the set P. *)
  Definition removed (idx idx' : array Z) (k jj : Z) : Prop :=
    forall ip, 1 <= ip <= n -> ent idx' ip = if ip <? jj then ent idx ip else if ip <? k then ent idx (ip + 1) else if ip =? k then ent idx jj else ent idx ip.
  Lemma removed_perm idx idx' k jj : perm idx -> live idx' n -> 1 <= jj <= k -> k <= n -> removed idx idx' k jj -> perm idx'.
  Proof.
    intros (L & R & Inj) L' J K S. split; [exact L'|]. split.
    - intros ip H. rewrite S by exact H. zdec (ip <? jj); [apply R; lia|]. zdec (ip <? k); [apply R; lia|]. zdec (ip =? k); apply R; lia.
    - intros ip iq Hp Hq. rewrite !S by assumption. zdec (ip <? jj); zdec (iq <? jj); zdec (ip <? k); zdec (iq <? k); zdec (ip =? k); zdec (iq =? k); intros F; try (apply Inj in F; lia); lia.
  Qed.
  (** The rotations, with whatever they keep. *)
  Lemma rotations_ok (keep : Z -> array num * array num * array Z -> Prop) a b idx k jj :
    live a (mda * n) -> live b m -> perm idx -> 1 <= jj <= k -> k <= n -> k <= m ->
    keep (jj + 1) (a, b, idx) ->
    (forall j a b i2, jj + 1 <= j <= k -> live a (mda * n) -> live b m -> live i2 n ->
       (forall ip, 1 <= ip <= n -> ent i2 ip = if (jj <=? ip) && (ip <? j - 1) then ent idx (ip + 1) else ent idx ip) ->
       keep j (a, b, i2) ->
       let ii := ent idx j in let '(cc, ss, sig) := g1 (mat a (j - 1) ii) (mat a j ii) in
       forall a' b' i3, live a' (mda * n) -> live b' m ->
       (forall l k, 1 <= l <= m -> 1 <= k <= n -> mat a' l k =
        if l =? j - 1 then (if k =? ii then sig else add (mul cc (mat a (j - 1) k)) (mul ss (mat a j k)))
        else if l =? j then (if k =? ii then zero else add (mul (opp ss) (mat a (j - 1) k)) (mul cc (mat a j k))) else mat a l k) ->
       (forall l, 1 <= l <= m -> vec b' l =
        if l =? j - 1 then add (mul cc (vec b (j - 1))) (mul ss (vec b j)) else if l =? j then add (mul (opp ss) (vec b (j - 1))) (mul cc (vec b j)) else vec b l) ->
       keep (j + 1) (a', b', i3)) ->
    ok (fun '(a', b', i2) => live a' (mda * n) /\ live b' m /\ live i2 n /\ (forall ip, 1 <= ip <= n -> ent i2 ip = if (jj <=? ip) && (ip <? k) then ent idx (ip + 1) else ent idx ip) /\ keep (k + 1) (a', b', i2))
      (loop (jj + 1) k (fun t j => rotate_rows mda n j t) (a, b, idx)).
  Proof.
    intros La Lb P J Kn Km K0 Step. eapply ok_weaken; [apply (ok_each (fun j '(a', b', i2) => live a' (mda * n) /\ live b' m /\ live i2 n /\ (forall ip, 1 <= ip <= n -> ent i2 ip = if (jj <=? ip) && (ip <? j - 1) then ent idx (ip + 1) else ent idx ip) /\ keep j (a', b', i2))); [lia| |]|].
    - split; [exact La|]. split; [exact Lb|]. split; [apply P|]. split; [|exact K0]. intros ip H. replace ((jj <=? ip) && (ip <? jj + 1 - 1)) with false; [reflexivity|]. symmetry. apply andb_false_iff. rewrite Z.leb_gt, Z.ltb_ge. lia.
    - intros j ((a', b'), i2) Hj (La' & Lb' & Li & E & K).
      assert (Ii : ent i2 j = ent idx j) by (rewrite E by lia; replace (j <? j - 1) with false by (symmetry; apply Z.ltb_ge; lia); now rewrite andb_false_r).
      assert (R : forall ip, 1 <= ip <= n -> 1 <= ent i2 ip <= n) by (intros ip H; rewrite E by exact H; destruct ((jj <=? ip) && (ip <? j - 1)) eqn:F; zb; apply P; lia).
      pose proof (rotate_ok a' b' i2 j La' Lb' Li R ltac:(lia) ltac:(lia)) as Rot. pose proof (Step j a' b' i2 Hj La' Lb' Li E K) as Stp. cbv zeta in Rot, Stp. rewrite Ii in Rot. destruct (g1 (mat a' (j - 1) (ent idx j)) (mat a' j (ent idx j))) as ((cc, ss), sig).
      eapply ok_weaken; [exact Rot|]. cbn beta. intros ((a2, b2), i3) (L1 & L2 & Ei & V1 & V2). split; [exact L1|]. split; [exact L2|]. split; [rewrite Ei; now apply live_put|]. split.
      + intros ip H. rewrite Ei, ent_put. zdec (ip =? j - 1).
        * subst ip. replace ((jj <=? j - 1) && (j - 1 <? j + 1 - 1)) with true by (symmetry; apply andb_true_intro; split; [apply Z.leb_le|apply Z.ltb_lt]; lia). f_equal. lia.
        * rewrite E by exact H. replace (ip <? j + 1 - 1) with (ip <? j - 1); [reflexivity|]. zdec (ip <? j - 1); symmetry; [apply Z.ltb_lt|apply Z.ltb_ge]; lia.
      + now apply Stp.
    - cbn beta. intros ((a2, b2), i3) (L1 & L2 & L3 & E & K). split; [exact L1|]. split; [exact L2|]. split; [exact L3|]. split; [|exact K]. intros ip H. rewrite E by exact H. now replace (k + 1 - 1) with k by lia.
  Qed.
  Lemma step260_ok (keep : Z -> array num * array num * array Z -> Prop) (s : st A) jj :
    live (va s) (mda * n) -> live (vb s) m -> live (vx s) n -> m <= size (vzz s) -> perm (vidx s) -> npp1 s = nsetp s + 1 -> iz1 s = nsetp s + 1 -> 1 <= jj <= nsetp s -> nsetp s <= n -> nsetp s <= m ->
    keep (jj + 1) (va s, vb s, vidx s) ->
    (forall j a b i2, jj + 1 <= j <= nsetp s -> live a (mda * n) -> live b m -> live i2 n ->
       (forall ip, 1 <= ip <= n -> ent i2 ip = if (jj <=? ip) && (ip <? j - 1) then ent (vidx s) (ip + 1) else ent (vidx s) ip) ->
       keep j (a, b, i2) ->
       let ii := ent (vidx s) j in let '(cc, ss, sig) := g1 (mat a (j - 1) ii) (mat a j ii) in
       forall a' b' i3, live a' (mda * n) -> live b' m ->
       (forall l k, 1 <= l <= m -> 1 <= k <= n -> mat a' l k =
        if l =? j - 1 then (if k =? ii then sig else add (mul cc (mat a (j - 1) k)) (mul ss (mat a j k)))
        else if l =? j then (if k =? ii then zero else add (mul (opp ss) (mat a (j - 1) k)) (mul cc (mat a j k))) else mat a l k) ->
       (forall l, 1 <= l <= m -> vec b' l =
        if l =? j - 1 then add (mul cc (vec b (j - 1))) (mul ss (vec b j)) else if l =? j then add (mul (opp ss) (vec b (j - 1))) (mul cc (vec b j)) else vec b l) ->
       keep (j + 1) (a', b', i3)) ->
    ok (fun '(l, s') => live (va s') (mda * n) /\ live (vb s') m /\ live (vidx s') n /\ removed (vidx s) (vidx s') (nsetp s) jj /\
      (exists i2, keep (nsetp s + 1) (va s', vb s', i2)) /\
      vx s' = put (vx s) (ent (vidx s) jj - 1) zero /\ vw s' = vw s /\ iter s' = iter s /\ nsetp s' = nsetp s - 1 /\ npp1 s' = nsetp s /\ iz1 s' = nsetp s /\ vmode s' = vmode s /\
      match l with
      | L260 j i => 1 <= j <= nsetp s' /\ i = ent (vidx s') j /\ leb (vec (vx s') i) (@zero A) = true /\ vzz s' = vzz s
      | L210 => (forall ip, 1 <= ip <= nsetp s' -> leb (vec (vx s') (ent (vidx s') ip)) (@zero A) = false) /\ live (vzz s') m /\
          (forall ip, 1 <= ip <= nsetp s' -> vec (vzz s') ip = div (eliminated mda (va s') (vidx s') (nsetp s') (vec (vzz s')) ip (ip + 1) (vec (vb s') ip)) (mat (va s') ip (ent (vidx s') ip)))
      | _ => False end) (step260 mda m n jj (ent (vidx s) jj) s).
  Proof.
    intros La Lb Lx Lz P Np Iz J Kn Km K0 Step. unfold step260. assert (Rj : 1 <= ent (vidx s) jj <= n) by (apply P; lia). rewrite wr_ok by (destruct Lx; lia). cbn [bind].
    apply ok_bind with (P := fun '(a', b', i2) => live a' (mda * n) /\ live b' m /\ live i2 n /\ (forall ip, 1 <= ip <= n -> ent i2 ip = if (jj <=? ip) && (ip <? nsetp s) then ent (vidx s) (ip + 1) else ent (vidx s) ip) /\ keep (nsetp s + 1) (a', b', i2)).
    { zdec (jj =? nsetp s).
      - apply ok_ret. split; [exact La|]. split; [exact Lb|]. split; [apply P|]. split; [|now rewrite <- E]. intros ip H. replace ((jj <=? ip) && (ip <? nsetp s)) with false; [reflexivity|]. symmetry. apply andb_false_iff. rewrite Z.leb_gt, Z.ltb_ge. lia.
      - apply (rotations_ok keep); assumption. }
    intros ((a', b'), i2) (La' & Lb' & Li & E & K). cbv zeta. replace (iz1 s - 1) with (nsetp s) by lia. rewrite wr_ok by (destruct Li; lia). cbn [bind]. set (i3 := put i2 (nsetp s - 1) (ent (vidx s) jj)).
    assert (L3 : live i3 n) by now apply live_put.
    assert (Rm : removed (vidx s) i3 (nsetp s) jj).
    { intros ip H. unfold i3. rewrite ent_put. zdec (ip =? nsetp s).
      - subst ip. replace (nsetp s <? jj) with false by (symmetry; apply Z.ltb_ge; lia). now rewrite Z.ltb_irrefl.
      - rewrite E by exact H. zdec (ip <? jj); [replace (jj <=? ip) with false by (symmetry; apply Z.leb_gt; lia); reflexivity|]. replace (jj <=? ip) with true by (symmetry; apply Z.leb_le; lia). reflexivity. }
    assert (P3 : perm i3) by (apply (removed_perm (vidx s) i3 (nsetp s) jj); assumption).
    assert (Lx' : live (put (vx s) (ent (vidx s) jj - 1) zero) n) by now apply live_put.
    destruct (first_infeasible_ok (put (vx s) (ent (vidx s) jj - 1) zero) i3 (zrange 1 (nsetp s - 1)) Lx' P3) as (r & Er & Hr); [intros ip H; apply zrange_In in H; lia|]. rewrite Er. cbn [bind].
    destruct r as [(j2, i)|].
    - destruct Hr as (H1 & H2 & H3). apply zrange_In in H1. apply ok_ret. cbn [va vb vx vw vzz vidx iter nsetp npp1 iz1 vmode]. split; [exact La'|]. split; [exact Lb'|]. split; [exact L3|]. split; [exact Rm|]. split; [now exists i2|]. do 7 (split; [reflexivity|]). split; [lia|]. split; [exact H2|]. split; [exact H3|reflexivity].
    - destruct (copy_ok m m_pos b' (vzz s) Lb' Lz) as (zc & Ec & Lc & Vc). rewrite Ec. cbn [bind].
      destruct (solve_ok mda m n m_mda a' i3 (nsetp s - 1) zc La' P3 ltac:(lia) ltac:(lia) Lc) as (z & Ez & Lz' & Vz & _). rewrite Ez. cbn [bind]. apply ok_ret. cbn [va vb vx vw vzz vidx iter nsetp npp1 iz1 vmode].
      split; [exact La'|]. split; [exact Lb'|]. split; [exact L3|]. split; [exact Rm|]. split; [now exists i2|]. do 7 (split; [reflexivity|]). split; [intros ip H; apply Hr; apply zrange_In; lia|]. split; [exact Lz'|]. intros ip H. rewrite Vz by exact H. now rewrite (Vc ip) by lia.
  Qed.

  (** 527-535 *)
  Lemma step330_ok (s : st A) : perm (vidx s) -> live (vx s) n -> live (vzz s) m -> 0 <= nsetp s <= n -> nsetp s <= m ->
    ok (fun '(l, s') => l = L30 /\ exists x, s' = with_x s x (iter s) (vmode s) /\ live x n /\
      (forall ip, 1 <= ip <= nsetp s -> vec x (ent (vidx s) ip) = vec (vzz s) ip) /\
      forall k, (forall ip, 1 <= ip <= nsetp s -> ent (vidx s) ip <> k) -> vec x k = vec (vx s) k) (step330 s).
  Proof.
    intros P Lx Lz Ns Nm. unfold step330. eapply ok_bind.
    - apply (scatter_ok (@zero A) (ent (vidx s)) (fun x => live x n) (fun ip _ => vec (vzz s) ip)); [| | |exact Lx|lia].
      + intros i k Hi Hk. apply P; lia.
      + intros y i v Hi Hy. now apply live_put.
      + intros y i Hi Hy. rewrite (rd_ent n) by (assumption || lia). cbn [bind]. rewrite (rd_vec _ m) by (assumption || lia). cbn [bind]. assert (Ri : 1 <= ent (vidx s) i <= n) by (apply P; lia). apply wr_ok. destruct Hy. lia.
    - intros x (Lx' & W & F). apply ok_ret. split; [reflexivity|]. exists x. split; [reflexivity|]. split; [exact Lx'|]. split.
      + intros ip H. unfold vec at 1, get. rewrite W by exact H. reflexivity.
      + intros k K. unfold vec, get. rewrite F; [reflexivity|]. intros i Hi E'. apply (K i Hi). lia.
  Qed.

  (** 542-560 *)
  Lemma finish_ok (s : st A) : live (vb s) m -> n <= size (vw s) -> 1 <= npp1 s ->
    ok (fun '(r, s') => r = root (fold_left (fun sm l => add sm (mul (vec (vb s) l) (vec (vb s) l))) (zrange (npp1 s) m) zero) /\
      vx s' = vx s /\ vmode s' = vmode s /\ va s' = va s /\ vb s' = vb s /\
      (npp1 s <= m -> vw s' = vw s) /\ (m < npp1 s -> live (vw s') n /\ forall j, 1 <= j <= n -> vec (vw s') j = zero)) (finish m n s).
  Proof.
    intros Lb Bw Np. unfold finish. zdec (npp1 s <=? m).
    - rewrite (loop_pure _ (fun sm l => add sm (mul (vec (vb s) l) (vec (vb s) l)))).
      + cbn [bind]. apply ok_ret. do 5 (split; [reflexivity|]). split; [reflexivity|lia].
      + intros sm l H. rewrite (rd_vec _ m) by (assumption || lia). reflexivity.
    - apply ok_bind with (P := fun '(sm, w) => sm = zero /\ live w n /\ forall j, 1 <= j <= n -> vec w j = zero).
      + eapply ok_bind; [apply (ok_each (fun c w => size w = size (vw s) /\ live w (c - 1) /\ forall j, 1 <= j < c -> vec w j = zero)); [lia| |]|].
        * split; [reflexivity|]. split; [apply live_0; lia|intros j H; lia].
        * intros c w C (Sw & L & V). rewrite wr_ok by lia. apply ok_ret. split; [exact Sw|]. split; [replace (c + 1 - 1) with (c - 1 + 1) by lia; apply live_extend; [exact L|lia]|]. intros j H. rewrite vec_put. zdec (j =? c); [reflexivity|]. apply V. lia.
        * cbn beta. intros w (_ & L & V). apply ok_ret. split; [reflexivity|]. split; [now replace n with (n + 1 - 1) by lia|]. intros j H. apply V. lia.
      + intros (sm, w) (-> & L & V). apply ok_ret. rewrite zrange_nil by lia. do 5 (split; [reflexivity|]). split; [lia|]. intros _. now split.
  Qed.
End Loop.
