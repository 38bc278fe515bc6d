(** The chord decoder in real numbers: the path is a most probable one. *)
From Coq Require Import Reals Lra Lia.
From Verif Require Import Base BaseFacts Nnls NnlsFacts PlugFacts PlugNan ChordViterbi ChordSpec ChordFacts.
Open Scope Z_scope.

Section Exact.
  Context (n : Z) (P : 0 < n).
  Notation rl := (list R).
  Definition rent (l : list R) (i : Z) : R := znth 0%R l i.
  Notation ent := rent.
  Lemma rent_eq : entry (W := reals) = rent. Proof. reflexivity. Qed.
  Definition nonneg (l : rl) : Prop := Forall (fun x => 0 <= x)%R l.
  Lemma nonneg_entry l i : nonneg l -> (0 <= ent l i)%R.
  Proof. intros H. unfold rent, znth. destruct (nth_in_or_default (Z.to_nat i) l (0%R : R)) as [I|E]; [exact (proj1 (Forall_forall _ _) H _ I)|]. apply Req_le. symmetry. exact E. Qed.
  Lemma nonneg_znth (l : list rl) i : Forall nonneg l -> nonneg (znth [] l i).
  Proof. intros H. unfold znth. destruct (nth_in_or_default (Z.to_nat i) l []) as [I|E]; [exact (proj1 (Forall_forall _ _) H _ I)|]. rewrite E. constructor. Qed.
  (** Sums of numbers that are not negative. *)
  Lemma sum_from (l : rl) a : fold_left Rplus l a = (a + fold_left Rplus l 0)%R.
  Proof. revert a. induction l as [|x l IH]; intros a; cbn [fold_left]; [ring|]. rewrite IH, (IH (0 + x)%R). ring. Qed.
  Lemma sum_nonneg (l : rl) : nonneg l -> (0 <= sum_of (W := reals) l)%R.
  Proof. intros H. change (0 <= fold_left Rplus l 0)%R. induction H as [|x l Hx H IH]; cbn [fold_left]; [lra|]. rewrite sum_from. lra. Qed.
  Lemma sum_in (l : rl) x : nonneg l -> In x l -> (x <= sum_of (W := reals) l)%R.
  Proof.
    intros H. change (In x l -> (x <= fold_left Rplus l 0)%R). induction H as [|y l Hy H IH]; [intros []|]. cbn [fold_left]. rewrite sum_from. pose proof (sum_nonneg l H) as S. change (0 <= fold_left Rplus l 0)%R in S. intros [->|I]; [lra|]. specialize (IH I). lra.
  Qed.
  Lemma sum_div (l : rl) c : sum_of (W := reals) (map (fun d => d / c)%R l) = (sum_of (W := reals) l / c)%R.
  Proof. change (fold_left Rplus (map (fun d => d / c)%R l) 0 = fold_left Rplus l 0 / c)%R. induction l as [|x l IH]; cbn [map fold_left]; [unfold Rdiv; ring|]. rewrite sum_from, (sum_from l). rewrite IH. unfold Rdiv. ring. Qed.
  Lemma share_sum (l : rl) : (0 < sum_of (W := reals) l)%R -> sum_of (W := reals) (share (W := reals) l) = 1%R.
  Proof. intros H. unfold share. cbn [v_div reals]. rewrite sum_div. now apply Rinv_r, Rgt_not_eq. Qed.
  Lemma share_nonneg (l : rl) : nonneg l -> (0 < sum_of (W := reals) l)%R -> nonneg (share (W := reals) l).
  Proof. intros H S. unfold share. apply Forall_map. revert H. apply Forall_impl. intros x Hx. cbn [v_div reals]. apply Rmult_le_pos; [exact Hx|]. apply Rlt_le, Rinv_0_lt_compat, S. Qed.
  Lemma share_entry (l : rl) i : Z.of_nat (length l) = n -> 0 <= i < n -> ent (share (W := reals) l) i = (ent l i / sum_of (W := reals) l)%R.
  Proof. intros L I. unfold rent, share, znth. cbn [v0 v_div reals]. rewrite (nth_indep _ 0%R (0 / sum_of (W := reals) l)%R) by (rewrite map_length; change (Z.of_nat (@length R l) = n) in L; change (Z.to_nat i < @length R l)%nat; lia). exact (map_nth (fun d => d / sum_of (W := reals) l)%R l 0%R (Z.to_nat i)). Qed.
  (** The choice. *)
  Lemma choose_best (f : Z -> R) : (forall i, 0 <= i < n -> (0 <= f i)%R) -> let b := choose (W := reals) n f in snd b = f (fst b) /\ forall i, 0 <= i < n -> (f i <= snd b)%R.
  Proof.
    intros H. set (h := fun (b : Z * R) i => if v_gt (w := reals) (f i) (snd b) then (i, f i) else b).
    assert (G : forall l b, let r := fold_left h l b in (snd b <= snd r)%R /\ (forall i, In i l -> (f i <= snd r)%R) /\ (r = b \/ In (fst r) l /\ snd r = f (fst r))).
    { induction l as [|i l IH]; intros b; cbn [fold_left]; [split; [lra|]; split; [intros j []|now left]|]. destruct (IH (h b i)) as (A & B & C). cbv zeta in *. set (r := fold_left h l (h b i)) in *.
      assert (Q : (snd b <= snd (h b i) /\ f i <= snd (h b i))%R /\ (h b i = b \/ h b i = (i, f i))). { unfold h. cbn [v_gt reals]. destruct (Rlt_dec (snd b) (f i)) as [X|X]; cbn [snd]; (split; [lra|auto]). }
      split; [lra|]. split; [intros j [->|J]; [lra|now apply B]|]. destruct C as [C|(C1 & C2)]; [|right; split; [now right|exact C2]]. destruct Q as (_ & [Q|Q]); [left; congruence|]. right. rewrite C, Q. split; [now left|reflexivity]. }
    cbv zeta. unfold choose. destruct (G (states n) (n - 1, 0%R)) as (A & B & C). cbv zeta in A, B, C. fold h. cbn [v0 reals] in *. set (r := fold_left h (states n) (n - 1, 0%R)) in *. cbn [snd] in A.
    assert (B' : forall i, 0 <= i < n -> (f i <= snd r)%R) by (intros i I; apply B, zrange_In; lia). split; [|exact B']. change (snd r = f (fst r)). destruct C as [C|(_ & C)]; [|exact C]. rewrite C. cbn [fst snd]. specialize (B' (n - 1) ltac:(lia)) as X. rewrite C in X. cbn [snd] in X. specialize (H (n - 1) ltac:(lia)). lra.
  Qed.

  Section Frames.
    Context (trans : list rl) (TR : Forall nonneg trans).
    Notation tr i j := (ent (znth [] trans i) j).
    Lemma reached_best row o j : nonneg row -> nonneg o -> 0 <= j < n -> let b := reached (W := reals) n trans row o j in
      (snd b * ent o j = ent row (fst b) * tr (fst b) j * ent o j)%R /\ (0 <= snd b)%R /\ forall i, 0 <= i < n -> (ent row i * tr i j * ent o j <= snd b * ent o j)%R.
    Proof.
      intros Hr Ho J. cbv zeta. unfold reached. cbn [v_gt v0 reals]. rewrite rent_eq. pose proof (nonneg_entry o j Ho) as O. destruct (Rlt_dec 0 (ent o j)) as [Q|Q].
      - match goal with |- context [choose n ?f] => destruct (choose_best f) as (E & B); [intros i I; apply Rmult_le_pos; apply nonneg_entry; [exact Hr|now apply nonneg_znth]|]; set (b := choose n f) in * end.
        cbn [v_mul reals] in E, B. split; [rewrite E; reflexivity|]. split.
        + apply Rle_trans with (ent row 0 * tr 0 j)%R; [apply Rmult_le_pos; apply nonneg_entry; [exact Hr|now apply nonneg_znth]|apply B; lia].
        + intros i I. apply Rmult_le_compat_r; [lra|]. now apply B.
      - assert (Z0 : ent o j = 0%R) by lra. cbn [fst snd]. rewrite Z0. split; [ring|]. split; [lra|]. intros i I. lra.
    Qed.
    Lemma raw_entry row o j : 0 <= j < n -> ent (raw_row (W := reals) n trans row o) j = (snd (reached (W := reals) n trans row o j) * ent o j)%R.
    Proof. intros J. unfold raw_row. rewrite <- rent_eq. now rewrite entry_map by exact J. Qed.
    Lemma raw_nonneg row o : nonneg row -> nonneg o -> nonneg (raw_row (W := reals) n trans row o).
    Proof. intros Hr Ho. unfold raw_row. apply Forall_map, Forall_forall. intros j J. apply zrange_In in J. cbn [v_mul reals]. apply Rmult_le_pos; [apply (reached_best row o j Hr Ho); lia|now apply nonneg_entry]. Qed.
    Lemma raw_length row o : Z.of_nat (length (raw_row (W := reals) n trans row o)) = n.
    Proof. unfold raw_row, states. rewrite map_length, zrange_length. lia. Qed.
    Definition raw_sum row o : R := sum_of (W := reals) (raw_row (W := reals) n trans row o).
    Lemma next_share row o : (0 < raw_sum row o)%R -> next_row (W := reals) n trans row o = share (W := reals) (raw_row (W := reals) n trans row o) /\ next_scale (W := reals) n trans row o = (/ raw_sum row o)%R.
    Proof. intros H. unfold next_row, next_scale. cbn [v_gt v0 v1 v_div reals]. fold (raw_sum row o). destruct (Rlt_dec 0 (raw_sum row o)) as [_|N]; [|contradiction]. split; [reflexivity|]. change (1 / raw_sum row o = / raw_sum row o)%R. unfold Rdiv. apply Rmult_1_l. Qed.
    Lemma next_reset row o : (raw_sum row o <= 0)%R -> next_row (W := reals) n trans row o = repeat (1 / IZR n)%R (Z.to_nat n) /\ next_scale (W := reals) n trans row o = 1%R.
    Proof. intros H. unfold next_row, next_scale. cbn [v_gt v0 v1 v_div v_count reals]. fold (raw_sum row o). destruct (Rlt_dec 0 (raw_sum row o)) as [N|_]; [lra|]. now split. Qed.
    Lemma next_nonneg row o : nonneg row -> nonneg o -> nonneg (next_row (W := reals) n trans row o).
    Proof.
      intros Hr Ho. destruct (Rlt_dec 0 (raw_sum row o)) as [S|S].
      - rewrite (proj1 (next_share row o S)). apply share_nonneg; [now apply raw_nonneg|exact S].
      - rewrite (proj1 (next_reset row o ltac:(lra))). apply Forall_forall. intros x X. apply repeat_spec in X. subst x. apply Rmult_le_pos; [lra|]. apply Rlt_le, Rinv_0_lt_compat, IZR_lt. lia.
    Qed.
    Lemma next_sum row o : nonneg row -> nonneg o -> sum_of (W := reals) (next_row (W := reals) n trans row o) = 1%R.
    Proof.
      intros Hr Ho. destruct (Rlt_dec 0 (raw_sum row o)) as [S|S].
      - rewrite (proj1 (next_share row o S)). now apply share_sum.
      - rewrite (proj1 (next_reset row o ltac:(lra))). change (fold_left Rplus (repeat (1 / IZR n)%R (Z.to_nat n)) 0 = 1)%R.
        assert (G : forall k c, fold_left Rplus (repeat c k) 0%R = (INR k * c)%R). { induction k as [|k IH]; intros c; [cbn; ring|]. cbn [repeat fold_left]. rewrite sum_from, IH, S_INR. ring. }
        rewrite G, INR_IZR_INZ, Z2Nat.id by lia. field. apply not_0_IZR. lia.
    Qed.
    (** The product of some numbers. *)
    Definition product (l : rl) : R := fold_right Rmult 1%R l.
    Fixpoint flowing (row : rl) (os : list rl) : Prop := match os with [] => True | o :: os' => (0 < raw_sum row o)%R /\ flowing (next_row (W := reals) n trans row o) os' end.
    Lemma going_nonneg os : Forall nonneg os -> forall s p, (0 <= going trans s os p)%R.
    Proof. induction 1 as [|o os Ho H IH]; intros s [|j p]; cbn [going]; try lra. apply Rmult_le_pos; [apply Rmult_le_pos; apply nonneg_entry; [now apply nonneg_znth|exact Ho]|apply IH]. Qed.
    Lemma last_rows row o os : last (rows_from (W := reals) n trans row (o :: os)) [] = last (rows_from (W := reals) n trans (next_row (W := reals) n trans row o) os) [].
    Proof. destruct os; reflexivity. Qed.
    Lemma flows_best os : Forall nonneg os -> forall row, nonneg row -> flowing row os -> let k := product (scales_from (W := reals) n trans row os) in let fin := last (rows_from (W := reals) n trans row os) [] in
      (0 < k)%R /\
      (forall s p, 0 <= s < n -> length p = length os -> Forall (fun s => 0 <= s < n) p -> (k * (ent row s * going trans s os p) <= ent fin (last p s))%R) /\
      (forall e, 0 <= e < n -> exists s p, way (origins_from (W := reals) n trans row os) e = s :: p /\ ent fin e = (k * (ent row s * going trans s os p))%R).
    Proof.
      induction 1 as [|o os Ho H IH]; intros row Hr F; cbv zeta.
      - cbn [scales_from rows_from origins_from product fold_right last]. split; [lra|]. split.
        + intros s [|? ?] _ L _; [|discriminate L]. cbn. lra.
        + intros e E. exists e, []. split; [reflexivity|]. cbn. ring.
      - cbn [flowing] in F. destruct F as (S & F). destruct (next_share row o S) as (EN & ES). destruct (IH _ (next_nonneg row o Hr Ho) F) as (K & A & B). cbv zeta in K, A, B.
        rewrite last_rows. cbn [scales_from origins_from product fold_right]. fold (product (scales_from (W := reals) n trans (next_row (W := reals) n trans row o) os)). set (k' := product (scales_from (W := reals) n trans (next_row (W := reals) n trans row o) os)) in *. set (row' := next_row (W := reals) n trans row o) in *.
        assert (D : forall j, 0 <= j < n -> ent row' j = (/ raw_sum row o * (snd (reached (W := reals) n trans row o j) * ent o j))%R).
        { intros j J. rewrite EN, share_entry by (try apply raw_length; exact J). rewrite raw_entry by exact J. unfold raw_sum, Rdiv. ring. }
        assert (I0 : (0 < / raw_sum row o)%R) by now apply Rinv_0_lt_compat. rewrite ES. split; [now apply Rmult_lt_0_compat|]. split.
        + intros s [|j p] Hs L Fp; [discriminate L|]. injection L as L. inversion Fp as [|? ? J Fp']; subst. cbn [going]. change (last (j :: p) s) with (match p with [] => j | _ => last p s end).
          replace (match p with [] => j | _ => last p s end) with (last p j) by (clear; destruct p as [|x p]; [reflexivity|]; revert x; induction p as [|y p IHp]; intros x; [reflexivity|]; exact (IHp y)).
          apply Rle_trans with (k' * (ent row' j * going trans j os p))%R; [|now apply A]. destruct (reached_best row o j Hr Ho J) as (_ & _ & Q). specialize (Q s Hs). rewrite D by exact J.
          pose proof (going_nonneg os H j p) as G. replace (/ raw_sum row o * k' * (ent row s * (znth 0 (znth [] trans s) j * znth 0 o j * going trans j os p)))%R with (k' * (/ raw_sum row o * (ent row s * tr s j * ent o j) * going trans j os p))%R by (unfold rent; ring).
          apply Rmult_le_compat_l; [lra|]. apply Rmult_le_compat_r; [exact G|]. apply Rmult_le_compat_l; [lra|exact Q].
        + intros e E. destruct (B e E) as (j & p & EW & EF). assert (J : 0 <= j < n).
          { clear - EW E P Ho H Hr. assert (X : Forall (fun s => 0 <= s < n) (way (origins_from (W := reals) n trans row' os) e)).
            { apply way_range; [exact E|]. clear - P. generalize row'. induction os as [|o' os IH]; intros r; constructor; [|apply IH]. unfold origins. split; [unfold states; rewrite map_length, zrange_length; lia|]. apply Forall_map, Forall_forall. intros j _. unfold reached. destruct (v_gt _ _); [now apply choose_range|cbn; lia]. }
            rewrite EW in X. now inversion X. }
          cbn [way]. rewrite EW. cbn [hd]. exists (znth 0 (origins (W := reals) n trans row o) j), (j :: p). split; [reflexivity|]. rewrite EF. cbn [going].
          assert (EO : znth 0 (origins (W := reals) n trans row o) j = fst (reached (W := reals) n trans row o j)) by (unfold origins, states; now rewrite znth_map by lia). rewrite EO, D by exact J.
          destruct (reached_best row o j Hr Ho J) as (Q & _ & _). rewrite Q. unfold rent. ring.
    Qed.
    Lemma positive_flows os : Forall nonneg os -> forall row s p, nonneg row -> 0 <= s < n -> length p = length os -> Forall (fun s => 0 <= s < n) p -> (0 < ent row s * going trans s os p)%R -> flowing row os.
    Proof.
      induction 1 as [|o os Ho H IH]; intros row s [|j p] Hr Hs L Fp G; try discriminate L; [exact Logic.I|]. injection L as L. inversion Fp as [|? ? J Fp']; subst. cbn [going] in G. cbn [flowing].
      assert (X : (0 < ent row s * tr s j * ent o j)%R /\ (0 < going trans j os p)%R).
      { pose proof (going_nonneg os H j p) as G1. assert (G2 : (0 <= ent row s * tr s j * ent o j)%R) by (apply Rmult_le_pos; [apply Rmult_le_pos|]; apply nonneg_entry; [exact Hr|now apply nonneg_znth|exact Ho]).
        replace (ent row s * (znth 0 (znth [] trans s) j * znth 0 o j * going trans j os p))%R with ((ent row s * tr s j * ent o j) * going trans j os p)%R in G by (unfold rent; ring).
        destruct G2 as [G2|G2]; [|rewrite <- G2 in G; lra]. destruct G1 as [G1|G1]; [|rewrite <- G1 in G; lra]. now split. }
      destruct X as (X & Y). destruct (reached_best row o j Hr Ho J) as (_ & _ & Q). specialize (Q s Hs).
      assert (R0 : (0 < ent (raw_row (W := reals) n trans row o) j)%R) by (rewrite raw_entry by exact J; lra).
      assert (S : (0 < raw_sum row o)%R). { apply Rlt_le_trans with (1 := R0). apply sum_in; [now apply raw_nonneg|]. unfold rent, znth. apply nth_In. pose proof (raw_length row o) as L'. change (Z.of_nat (@length R (raw_row (W := reals) n trans row o)) = n) in L'. lia. }
      split; [exact S|]. apply (IH _ j p); [now apply next_nonneg|exact J|exact L|exact Fp'|]. apply Rmult_lt_0_compat; [|exact Y]. rewrite (proj1 (next_share row o S)). rewrite share_entry by (try apply raw_length; exact J). apply Rmult_lt_0_compat; [exact R0|now apply Rinv_0_lt_compat].
    Qed.
    Lemma rows_nonneg os : Forall nonneg os -> forall row, nonneg row -> Forall nonneg (rows_from (W := reals) n trans row os).
    Proof. induction 1 as [|o os Ho H IH]; intros row Hr; [repeat constructor; exact Hr|]. cbn [rows_from]. constructor; [exact Hr|]. apply IH. now apply next_nonneg. Qed.
    Lemma rows_sum os : Forall nonneg os -> forall row, nonneg row -> sum_of (W := reals) row = 1%R -> Forall (fun r => sum_of (W := reals) r = 1%R) (rows_from (W := reals) n trans row os).
    Proof. induction 1 as [|o os Ho H IH]; intros row Hr S; [repeat constructor; exact S|]. cbn [rows_from]. constructor; [exact S|]. apply IH; [now apply next_nonneg|]. now apply next_sum. Qed.
    Lemma scales_positive os : forall row, flowing row os -> Forall (fun s => 0 < s)%R (scales_from (W := reals) n trans row os).
    Proof. induction os as [|o os IH]; intros row F; [constructor|]. destruct F as (S & F). cbn [scales_from]. constructor; [|now apply IH]. rewrite (proj2 (next_share row o S)). now apply Rinv_0_lt_compat. Qed.
    (** After a frame that no path reaches, everything starts again. *)
    Lemma raw_zero row o : nonneg row -> nonneg o -> (raw_sum row o <= 0)%R -> forall j, 0 <= j < n -> (snd (reached (W := reals) n trans row o j) * ent o j = 0)%R.
    Proof.
      intros Hr Ho S j J. rewrite <- raw_entry by exact J. assert (A : (0 <= ent (raw_row (W := reals) n trans row o) j)%R) by (apply nonneg_entry, raw_nonneg; assumption).
      assert (B : (ent (raw_row (W := reals) n trans row o) j <= raw_sum row o)%R) by (apply sum_in; [now apply raw_nonneg|]; unfold rent, znth; apply nth_In; pose proof (raw_length row o) as L; change (Z.of_nat (@length R (raw_row (W := reals) n trans row o)) = n) in L; lia). lra.
    Qed.
    Lemma origins_reset row o j : nonneg row -> nonneg o -> (raw_sum row o <= 0)%R -> 0 <= j < n -> znth 0 (origins (W := reals) n trans row o) j = n - 1.
    Proof.
      intros Hr Ho S J. pose proof (raw_zero row o Hr Ho S j J) as Z0. unfold origins, states. rewrite znth_map by lia. unfold reached in *. cbn [v_gt v0 reals] in *. rewrite rent_eq in *. destruct (Rlt_dec 0 (ent o j)) as [Q|Q]; [|reflexivity].
      match goal with |- fst (choose n ?f) = _ => set (g := f) in * end. assert (M : snd (choose (W := reals) n g) = 0%R) by (apply Rmult_integral in Z0; destruct Z0 as [Z0|Z0]; [exact Z0|lra]).
      assert (B : forall i, 0 <= i < n -> (g i <= 0)%R). { intros i I. rewrite <- M. apply choose_best; [|exact I]. intros k K. unfold g. apply Rmult_le_pos; apply nonneg_entry; [exact Hr|now apply nonneg_znth]. }
      unfold choose. assert (G : forall l, Forall (fun i => 0 <= i < n) l -> fold_left (fun b i => if v_gt (w := reals) (g i) (snd b) then (i, g i) else b) l (n - 1, 0%R) = (n - 1, 0%R)).
      { induction l as [|i l IH]; intros F; [reflexivity|]. inversion F; subst. cbn [fold_left v_gt reals snd]. specialize (B i H1). destruct (Rlt_dec 0 (g i)) as [X|_]; [lra|]. now apply IH. }
      cbn [v0 reals]. rewrite G; [reflexivity|]. apply Forall_forall. intros i I. apply zrange_In in I. lia.
    Qed.
  End Frames.

  Section Whole.
    Context (init : rl) (HI : nonneg init) (trans : list rl) (TR : Forall nonneg trans).
    Lemma start_nonneg o : nonneg o -> nonneg (start_row (W := reals) n init o).
    Proof. intros Ho. unfold start_row. apply Forall_map, Forall_forall. intros i _. cbn [v_mul reals]. rewrite rent_eq. apply Rmult_le_pos; now apply nonneg_entry. Qed.
    Lemma start_length o : Z.of_nat (length (start_row (W := reals) n init o)) = n.
    Proof. unfold start_row, states. rewrite map_length, zrange_length. lia. Qed.
    Lemma start_entry o s : 0 <= s < n -> ent (start_row (W := reals) n init o) s = (ent init s * ent o s)%R.
    Proof. intros H. unfold start_row. rewrite <- rent_eq. now rewrite entry_map by exact H. Qed.
    Lemma best_of_all (obs : list rl) q : fitting (W := reals) n init trans obs -> Forall nonneg obs -> a_path n obs q -> (0 < probability init trans obs q)%R ->
      let p := path_of (W := reals) n init trans obs in let k := product (scales_of (W := reals) n init trans obs) in
      a_path n obs p /\ (forall p', a_path n obs p' -> probability init trans obs p' <= probability init trans obs p)%R /\
      Forall (fun s => 0 < s)%R (scales_of (W := reals) n init trans obs) /\ Forall (fun r => sum_of (W := reals) r = 1%R) (rows_of (W := reals) n init trans obs) /\
      (k * probability init trans obs p = ent (last (rows_of (W := reals) n init trans obs) []) (last p 0%Z))%R.
    Proof.
      intros FIT HO (LQ & RQ) POS. assert (PR := path_of_range (W := reals) n init trans obs FIT). cbv zeta. destruct obs as [|o os]; [now destruct FIT as (_ & _ & _ & _ & X & _)|]. apply Forall_cons_iff in HO. destruct HO as (Ho & HO').
      destruct q as [|s0 q]; [discriminate LQ|]. injection LQ as LQ. apply Forall_cons_iff in RQ. destruct RQ as (S0 & RQ). cbn [probability] in POS. set (st := start_row (W := reals) n init o). set (sum := sum_of (W := reals) st).
      assert (G0 := going_nonneg trans TR os HO' s0 q).
      assert (A0 : (0 < ent init s0 * ent o s0)%R /\ (0 < going trans s0 os q)%R).
      { assert (A1 : (0 <= ent init s0 * ent o s0)%R) by (apply Rmult_le_pos; now apply nonneg_entry). unfold rent in *. destruct A1 as [A1|A1]; [|rewrite <- A1 in POS; lra]. destruct G0 as [G0|G0]; [|rewrite <- G0 in POS; lra]. now split. }
      destruct A0 as (A0 & G1). assert (SP : (0 < sum)%R). { apply Rlt_le_trans with (1 := A0). rewrite <- (start_entry o s0 S0). apply sum_in; [now apply start_nonneg|]. unfold rent, znth. apply nth_In. pose proof (start_length o) as L. change (Z.of_nat (@length R (start_row (W := reals) n init o)) = n) in L. change (Z.to_nat s0 < @length R (start_row (W := reals) n init o))%nat. lia. }
      set (row0 := first_row (W := reals) n init (o :: os)) in *. assert (E0 : row0 = share (W := reals) st) by reflexivity. assert (N0 : nonneg row0) by (rewrite E0; apply share_nonneg; [now apply start_nonneg|exact SP]).
      assert (D0 : forall s, 0 <= s < n -> ent row0 s = (ent init s * ent o s / sum)%R) by (intros s Hs; rewrite E0, share_entry by (try apply start_length; exact Hs); unfold st; now rewrite start_entry by exact Hs).
      assert (F : flowing trans row0 os). { apply (positive_flows trans TR os HO' row0 s0 q); try assumption. rewrite D0 by exact S0. apply Rmult_lt_0_compat; [|exact G1]. apply Rmult_lt_0_compat; [exact A0|now apply Rinv_0_lt_compat]. }
      destruct (flows_best trans TR os HO' row0 N0 F) as (K & UB & LB). cbv zeta in K, UB, LB. set (k' := product (scales_from (W := reals) n trans row0 os)) in *. set (fin := last (rows_from (W := reals) n trans row0 os) []) in *.
      assert (NF : nonneg fin). { assert (X := rows_nonneg trans TR os HO' row0 N0). unfold fin. apply (proj1 (Forall_forall _ _) X). destruct (rows_from (W := reals) n trans row0 os) as [|r rs] eqn:E; [destruct os; discriminate E|]. clear. revert r. induction rs as [|r' rs IH]; intros r; [now left|]. right. apply IH. }
      destruct (choose_best (entry fin)) as (_ & BE); [intros i _; rewrite rent_eq; now apply nonneg_entry|]. assert (BE' := proj1 (choose_best (entry (W := reals) fin) ltac:(intros i _; rewrite rent_eq; now apply nonneg_entry))).
      set (e := fst (choose (W := reals) n (entry fin))) in *. cbv zeta in BE, BE'. rewrite BE' in BE. rewrite rent_eq in BE.
      assert (RE : 0 <= e < n) by (apply choose_range; exact P). destruct (LB e RE) as (s & p & EW & EF).
      assert (EP : path_of (W := reals) n init trans (o :: os) = s :: p) by exact EW. rewrite EP in *. destruct PR as (PL & PR).
      assert (LP : last (s :: p) 0 = e) by (rewrite <- EW; apply way_last).
      apply Forall_cons_iff in PR. destruct PR as (RS & RP). injection PL as PL.
      assert (V : forall s p, 0 <= s < n -> (k' * (ent row0 s * going trans s os p) = / sum * k' * probability init trans (o :: os) (s :: p))%R).
      { intros s' p' Hs'. rewrite D0 by exact Hs'. cbn [probability]. unfold rent, Rdiv. ring. }
      assert (IP : (0 < / sum)%R) by now apply Rinv_0_lt_compat.
      split; [split; [cbn [length]; now rewrite PL|now constructor]|]. split; [|split; [|split]].
      - intros [|s' p'] (L' & R'); [discriminate L'|]. injection L' as L'. apply Forall_cons_iff in R'. destruct R' as (Rs' & Rp'). pose proof (UB s' p' Rs' L' Rp') as U. rewrite V in U by exact Rs'. rewrite EF, V in BE by exact RS.
        assert (RL : 0 <= last p' s' < n). { clear - Rs' Rp'. revert s' Rs'. induction Rp' as [|x p' Hx Rp' IH]; intros s' Rs'; [exact Rs'|]. cbn [last]. destruct p'; [exact Hx|]. now apply IH. }
        specialize (BE _ RL). apply Rmult_le_reg_l with (/ sum * k')%R; [now apply Rmult_lt_0_compat|]. lra.
      - unfold scales_of. constructor; [|now apply scales_positive]. cbn [v_div v1 reals]. change (0 < 1 / sum)%R. unfold Rdiv. lra.
      - unfold rows_of. apply rows_sum; try assumption. exact (share_sum st SP).
      - rewrite LP. unfold rows_of. cbn [tl]. fold row0. fold fin. rewrite EF. unfold scales_of. cbn [tl product fold_right]. fold row0. fold (product (scales_from (W := reals) n trans row0 os)). fold k'. rewrite V by exact RS. cbn [v_div v1 reals hd]. fold st. fold sum. unfold Rdiv. ring.
    Qed.

    (** A frame that ends all paths. *)
    Lemma way_app a b e : way (a ++ b) e = way a (hd 0 (way b e)) ++ tl (way b e).
    Proof.
      induction a as [|psi a IH]; cbn [app way]; [destruct b as [|psi b]; [reflexivity|]; cbn [way hd tl]; reflexivity|]. rewrite IH. cbn [app]. f_equal. f_equal. destruct (way a (hd 0 (way b e))) eqn:E; [exfalso; destruct a; discriminate E|reflexivity].
    Qed.
    Lemma origins_split a o b row : origins_from (W := reals) n trans row (a ++ o :: b) =
      origins_from (W := reals) n trans row a ++ origins (W := reals) n trans (last (rows_from (W := reals) n trans row a) []) o :: origins_from (W := reals) n trans (next_row (W := reals) n trans (last (rows_from (W := reals) n trans row a) []) o) b.
    Proof. revert row. induction a as [|x a IH]; intros row; [reflexivity|]. cbn [app origins_from]. rewrite IH, last_rows. reflexivity. Qed.
    Lemma scales_split a o b row : scales_from (W := reals) n trans row (a ++ o :: b) =
      scales_from (W := reals) n trans row a ++ next_scale (W := reals) n trans (last (rows_from (W := reals) n trans row a) []) o :: scales_from (W := reals) n trans (next_row (W := reals) n trans (last (rows_from (W := reals) n trans row a) []) o) b.
    Proof. revert row. induction a as [|x a IH]; intros row; [reflexivity|]. cbn [app scales_from]. rewrite IH, last_rows. reflexivity. Qed.
    Lemma rows_split a o b row : last (rows_from (W := reals) n trans row (a ++ o :: b)) [] = last (rows_from (W := reals) n trans (next_row (W := reals) n trans (last (rows_from (W := reals) n trans row a) []) o) b) [].
    Proof. revert row. induction a as [|x a IH]; intros row; [apply last_rows|]. cbn [app]. rewrite !last_rows. apply IH. Qed.
    Lemma scales_length os row : length (scales_from (W := reals) n trans row os) = length os.
    Proof. revert row. induction os as [|o os IH]; intros row; [reflexivity|]. cbn. now rewrite IH. Qed.
    Lemma last_in (p : list Z) s : 0 <= s < n -> Forall (fun s => 0 <= s < n) p -> 0 <= last p s < n.
    Proof. intros Hs F. revert s Hs. induction F as [|x p Hx F IH]; intros s Hs; [exact Hs|]. cbn [last]. destruct p; [exact Hx|]. now apply IH. Qed.
    Lemma last_default (p : list Z) s d : last (s :: p) d = last p s.
    Proof. revert s d. induction p as [|x p IH]; intros s d; [reflexivity|]. change (last (x :: p) d = last (x :: p) s). now rewrite !IH. Qed.
    Lemma going_app a o b s p j q : length p = length a -> going trans s (a ++ o :: b) (p ++ j :: q) = (going trans s a p * (znth 0 (znth [] trans (last p s)) j * znth 0 o j * going trans j b q))%R.
    Proof.
      revert s p. induction a as [|x a IH]; intros s [|y p] L; try discriminate L; [cbn; ring|]. injection L as L. cbn [app going]. rewrite IH by exact L. rewrite last_default. ring.
    Qed.
    Definition ones : rl := repeat 1%R (Z.to_nat n).
    Lemma ones_entry i : 0 <= i < n -> ent ones i = 1%R.
    Proof. intros H. unfold rent, ones, znth. apply nth_error_nth with (d := 0%R). apply nth_error_repeat. lia. Qed.
    Lemma ones_start : share (W := reals) (start_row (W := reals) n ones ones) = repeat (1 / IZR n)%R (Z.to_nat n).
    Proof.
      assert (E : start_row (W := reals) n ones ones = ones).
      { unfold start_row, states. cbn [v_mul reals]. rewrite rent_eq. transitivity (map (fun _ : Z => 1%R) (zrange 0 (n - 1))); [apply map_ext_in; intros i I; apply zrange_In in I; rewrite ones_entry by lia; ring|].
        unfold ones. replace (Z.to_nat n) with (length (zrange 0 (n - 1))) by (rewrite zrange_length; lia). generalize (zrange 0 (n - 1)). clear. induction l as [|x l IH]; [reflexivity|]. cbn. now rewrite IH. }
      rewrite E. unfold share. cbn [v_div reals]. assert (S : sum_of (W := reals) ones = IZR n).
      { change (fold_left Rplus ones 0 = IZR n)%R. unfold ones. assert (G : forall k, fold_left Rplus (repeat 1%R k) 0%R = INR k) by (induction k as [|k IH]; [reflexivity|]; cbn [repeat fold_left]; rewrite sum_from, IH, S_INR; ring). rewrite G, INR_IZR_INZ, Z2Nat.id by lia. reflexivity. }
      rewrite S. unfold ones. generalize (Z.to_nat n). clear. induction n0 as [|k IH]; [reflexivity|]. cbn [repeat map]. now rewrite IH.
    Qed.
    Lemma dead_frame (pre : list rl) o (post : list rl) q : fitting (W := reals) n init trans (pre ++ o :: post) -> Forall nonneg (pre ++ o :: post) -> pre <> [] ->
      a_path n pre q -> (0 < probability init trans pre q)%R -> (forall q', a_path n (pre ++ [o]) q' -> probability init trans (pre ++ [o]) q' = 0%R) ->
      exists p1 p2, path_of (W := reals) n init trans (pre ++ o :: post) = p1 ++ p2 /\ a_path n pre p1 /\ last p1 0 = n - 1 /\
        (forall p', a_path n pre p' -> last p' 0 = n - 1 -> (probability init trans pre p' <= probability init trans pre p1)%R) /\
        p2 = path_of (W := reals) n ones trans (ones :: post) /\ znth 0%R (scales_of (W := reals) n init trans (pre ++ o :: post)) (Z.of_nat (length pre)) = 1%R.
    Proof.
      intros FIT HO NE (LQ & RQ) POS DEAD. destruct pre as [|o0 os]; [now destruct NE|]. clear NE. cbn [app] in *. apply Forall_cons_iff in HO. destruct HO as (Ho0 & HO). apply Forall_app in HO. destruct HO as (HO & HO2). apply Forall_cons_iff in HO2. destruct HO2 as (Ho & HO2).
      destruct q as [|s0 q]; [discriminate LQ|]. injection LQ as LQ. apply Forall_cons_iff in RQ. destruct RQ as (S0 & RQ). cbn [probability] in POS. set (st := start_row (W := reals) n init o0). set (sum := sum_of (W := reals) st).
      assert (G0 := going_nonneg trans TR os HO s0 q).
      assert (A0 : (0 < ent init s0 * ent o0 s0)%R /\ (0 < going trans s0 os q)%R).
      { assert (A1 : (0 <= ent init s0 * ent o0 s0)%R) by (apply Rmult_le_pos; now apply nonneg_entry). unfold rent in *. destruct A1 as [A1|A1]; [|rewrite <- A1 in POS; lra]. destruct G0 as [G0|G0]; [|rewrite <- G0 in POS; lra]. now split. }
      destruct A0 as (A0 & G1). assert (SP : (0 < sum)%R). { apply Rlt_le_trans with (1 := A0). rewrite <- (start_entry o0 s0 S0). apply sum_in; [now apply start_nonneg|]. unfold rent, znth. apply nth_In. pose proof (start_length o0) as L. change (Z.of_nat (@length R (start_row (W := reals) n init o0)) = n) in L. change (Z.to_nat s0 < @length R (start_row (W := reals) n init o0))%nat. lia. }
      set (row0 := share (W := reals) st) in *. assert (N0 : nonneg row0) by (apply share_nonneg; [now apply start_nonneg|exact SP]).
      assert (D0 : forall s, 0 <= s < n -> ent row0 s = (ent init s * ent o0 s / sum)%R) by (intros s Hs; unfold row0; rewrite share_entry by (try apply start_length; exact Hs); unfold st; now rewrite start_entry by exact Hs).
      assert (F : flowing trans row0 os). { apply (positive_flows trans TR os HO row0 s0 q); try assumption. rewrite D0 by exact S0. apply Rmult_lt_0_compat; [|exact G1]. apply Rmult_lt_0_compat; [exact A0|now apply Rinv_0_lt_compat]. }
      destruct (flows_best trans TR os HO row0 N0 F) as (K & UB & LB). cbv zeta in K, UB, LB. set (k' := product (scales_from (W := reals) n trans row0 os)) in *. set (fin := last (rows_from (W := reals) n trans row0 os) []) in *.
      assert (NF : nonneg fin). { assert (X := rows_nonneg trans TR os HO row0 N0). unfold fin. apply (proj1 (Forall_forall _ _) X). destruct (rows_from (W := reals) n trans row0 os) as [|r rs] eqn:E; [destruct os; discriminate E|]. clear. revert r. induction rs as [|r' rs IH]; intros r; [now left|]. right. apply IH. }
      assert (V : forall s p, 0 <= s < n -> (k' * (ent row0 s * going trans s os p) = / sum * k' * probability init trans (o0 :: os) (s :: p))%R).
      { intros s' p' Hs'. rewrite D0 by exact Hs'. cbn [probability]. unfold rent, Rdiv. ring. }
      assert (IP : (0 < / sum)%R) by now apply Rinv_0_lt_compat. assert (IK : (0 < / sum * k')%R) by now apply Rmult_lt_0_compat.
      assert (WR : forall e, 0 <= e < n -> Forall (fun s => 0 <= s < n) (way (origins_from (W := reals) n trans row0 os) e) /\ length (way (origins_from (W := reals) n trans row0 os) e) = S (length os)).
      { intros e E. split; [apply way_range; [exact E|exact (origins_pointers (W := reals) n init trans _ FIT _ _)]|]. rewrite way_length. f_equal. exact (origins_length (W := reals) n trans row0 os). }
      assert (Z0 : (raw_sum trans fin o <= 0)%R).
      { destruct (Rle_or_lt (raw_sum trans fin o) 0) as [X|X]; [exact X|exfalso].
        assert (Y : exists j, 0 <= j < n /\ (0 < ent (raw_row (W := reals) n trans fin o) j)%R).
        { assert (D : forall l : rl, nonneg l -> (0 < sum_of (W := reals) l)%R -> exists x, In x l /\ (0 < x)%R).
          { intros l H. change ((0 < fold_left Rplus l 0)%R -> exists x, In x l /\ (0 < x)%R). induction H as [|x l Hx H IH]; cbn [fold_left]; [lra|]. rewrite sum_from. intros Q. destruct Hx as [Hx|Hx]; [exists x; split; [now left|exact Hx]|]. destruct IH as (y & I & Y); [lra|]. exists y. split; [now right|exact Y]. }
          destruct (D _ (raw_nonneg trans TR fin o NF Ho) X) as (x & I & Q). apply (In_nth _ _ 0%R) in I. destruct I as (k & KL & KE). exists (Z.of_nat k). pose proof (raw_length trans fin o) as L. change (Z.of_nat (@length R (raw_row (W := reals) n trans fin o)) = n) in L. change (k < @length R (raw_row (W := reals) n trans fin o))%nat in KL. split; [lia|]. unfold rent, znth. rewrite Nat2Z.id, KE. exact Q. }
        destruct Y as (j & J & Y). rewrite raw_entry in Y by exact J. destruct (reached_best trans TR fin o j NF Ho J) as (Q & _ & _). rewrite Q in Y. set (i := fst (reached (W := reals) n trans fin o j)) in *.
        assert (I0 : 0 <= i < n) by (unfold i, reached; destruct (v_gt _ _); [now apply choose_range|cbn; lia]). destruct (LB i I0) as (s & p & EW & EF). destruct (WR i I0) as (W1 & W2). pose proof (way_last (origins_from (W := reals) n trans row0 os) i 0) as W3. rewrite EW in W1, W2, W3. injection W2 as W2. apply Forall_cons_iff in W1. destruct W1 as (RS & RP). rewrite last_default in W3.
        specialize (DEAD (s :: p ++ [j])). assert (AP : a_path n (o0 :: os ++ [o]) (s :: p ++ [j])) by (split; [cbn [length]; rewrite !app_length; cbn; lia|constructor; [exact RS|]; apply Forall_app; split; [exact RP|repeat constructor; lia]]). specialize (DEAD AP). cbn [probability] in DEAD. rewrite going_app in DEAD by exact W2. rewrite W3 in DEAD. cbn [going] in DEAD.
        rewrite EF, V in Y by exact RS. cbn [probability] in Y. unfold rent in Y.
        assert (B : (/ sum * k' * (znth 0 init s * znth 0 o0 s * (going trans s os p * (znth 0 (znth [] trans i) j * znth 0 o j * 1))) = 0)%R) by (rewrite DEAD; ring). lra. }
      assert (EN := next_reset trans fin o Z0). destruct EN as (EN & ES).
      set (e := final_state (W := reals) n (rows_of (W := reals) n init trans (o0 :: os ++ o :: post))). set (p2 := path_of (W := reals) n ones trans (ones :: post)).
      assert (E2 : way (origins_from (W := reals) n trans (next_row (W := reals) n trans fin o) post) e = p2).
      { unfold p2, path_of. cbn [tl]. unfold first_row. cbn [hd]. rewrite ones_start, EN. f_equal. unfold e, final_state. do 2 f_equal. unfold rows_of. cbn [tl hd]. unfold first_row. cbn [hd]. fold st. fold row0. rewrite rows_split. fold fin. rewrite EN, ones_start. reflexivity. }
      assert (H2 : 0 <= hd 0 p2 < n). { rewrite <- E2. assert (X : Forall (fun s => 0 <= s < n) (way (origins_from (W := reals) n trans (next_row (W := reals) n trans fin o) post) e)) by (apply way_range; [now apply choose_range|exact (origins_pointers (W := reals) n init trans _ FIT _ _)]). destruct (way (origins_from (W := reals) n trans (next_row (W := reals) n trans fin o) post) e) as [|x w] eqn:E; [destruct post; discriminate E|]. now inversion X. }
      destruct (LB (n - 1) ltac:(lia)) as (s & p & EW & EF). destruct (WR (n - 1) ltac:(lia)) as (W1 & W2). pose proof (way_last (origins_from (W := reals) n trans row0 os) (n - 1) 0) as W3. rewrite EW in W1, W2, W3.
      exists (s :: p), p2. split; [|split; [|split; [|split; [|split]]]].
      - unfold path_of. cbn [tl]. fold e. unfold first_row. cbn [hd]. fold st. fold row0. rewrite origins_split. fold fin. rewrite way_app. cbn [way hd tl]. rewrite E2. rewrite (origins_reset trans TR fin o (hd 0 p2) NF Ho Z0 H2), EW. reflexivity.
      - split; [exact W2|exact W1].
      - exact W3.
      - intros [|s' p'] (L' & R') LA; [discriminate L'|]. injection L' as L'. apply Forall_cons_iff in R'. destruct R' as (Rs' & Rp'). rewrite last_default in LA. pose proof (UB s' p' Rs' L' Rp') as U. rewrite LA, V in U by exact Rs'. apply Forall_cons_iff in W1. rewrite EF, V in U by exact (proj1 W1). apply Rmult_le_reg_l with (/ sum * k')%R; [exact IK|exact U].
      - reflexivity.
      - unfold scales_of. cbn [tl length]. unfold first_row. cbn [hd]. fold st. fold row0. rewrite scales_split. fold fin. rewrite ES. unfold znth. rewrite Nat2Z.id. cbn [nth]. pose proof (scales_length os row0) as SL. change (@length R (scales_from (W := reals) n trans row0 os) = @length (list R) os) in SL. change (nth (@length (list R) os) (scales_from (W := reals) n trans row0 os ++ 1%R :: scales_from (W := reals) n trans (next_row (W := reals) n trans fin o) post) 0%R = 1%R). rewrite <- SL. exact (nth_middle (scales_from (W := reals) n trans row0 os) _ 1%R 0%R).
    Qed.
  End Whole.
End Exact.

Lemma most_probable n init trans obs q : fitting (W := reals) n init trans obs -> nonneg init -> Forall nonneg trans -> Forall nonneg obs -> a_path n obs q -> (0 < probability init trans obs q)%R ->
  let p := path_of (W := reals) n init trans obs in let k := product (scales_of (W := reals) n init trans obs) in
  a_path n obs p /\ (forall p', a_path n obs p' -> probability init trans obs p' <= probability init trans obs p)%R /\
  Forall (fun s => 0 < s)%R (scales_of (W := reals) n init trans obs) /\ Forall (fun r => fold_left Rplus r 0 = 1)%R (rows_of (W := reals) n init trans obs) /\
  (k * probability init trans obs p = znth 0 (last (rows_of (W := reals) n init trans obs) []) (last p 0%Z))%R.
Proof. intros F HI TR HO A POS. exact (best_of_all n (proj1 F) init HI trans TR obs q F HO A POS). Qed.
Lemma frame_without_paths n init trans pre o post q : fitting (W := reals) n init trans (pre ++ o :: post) -> nonneg init -> Forall nonneg trans -> Forall nonneg (pre ++ o :: post) ->
  a_path n pre q -> (0 < probability init trans pre q)%R -> pre <> [] -> (forall q', a_path n (pre ++ [o]) q' -> probability init trans (pre ++ [o]) q' = 0%R) ->
  let ones := repeat 1%R (Z.to_nat n) in
  exists p1 p2, path_of (W := reals) n init trans (pre ++ o :: post) = p1 ++ p2 /\ a_path n pre p1 /\ last p1 0 = n - 1 /\
    (forall p', a_path n pre p' -> last p' 0 = n - 1 -> (probability init trans pre p' <= probability init trans pre p1)%R) /\
    p2 = path_of (W := reals) n ones trans (ones :: post) /\ znth 0%R (scales_of (W := reals) n init trans (pre ++ o :: post)) (Z.of_nat (length pre)) = 1%R.
Proof. intros F HI TR HO A POS NE DEAD. exact (dead_frame n (proj1 F) init HI trans TR pre o post q F HO NE A POS DEAD). Qed.
