(** The chord decoder follows the lists of ChordSpec, in every arithmetic. *)
From Coq Require Import Lia Reals.
From Verif Require Import Base BaseFacts Options Nnls NnlsFacts Plug PlugFacts PlugNan ChordViterbi ChordSpec.
Open Scope Z_scope.

Lemma elt_ret {T} (d : T) (l : list T) i v : 0 <= i < Z.of_nat (length l) -> znth d l i = v -> elt l i = Ret v.
Proof. intros H <-. now apply elt_ok. Qed.
Lemma fold_map {A B C} (f : A -> B -> A) (g : C -> B) l a : fold_left f (map g l) a = fold_left (fun a c => f a (g c)) l a.
Proof. revert a. induction l as [|c l IH]; intros a; [reflexivity|]. cbn. apply IH. Qed.
Lemma fold_ext_in {A B} (f g : A -> B -> A) l a : (forall a b, In b l -> f a b = g a b) -> fold_left f l a = fold_left g l a.
Proof. revert a. induction l as [|b l IH]; intros a H; [reflexivity|]. cbn. rewrite H by now left. apply IH. intros. apply H. now right. Qed.
Lemma znth_app_l {T} (d : T) l l' i : 0 <= i < Z.of_nat (length l) -> znth d (l ++ l') i = znth d l i.
Proof. intros H. unfold znth. apply app_nth1. lia. Qed.
Lemma znth_app_at {T} (d : T) l x l' i : i = Z.of_nat (length l) -> znth d (l ++ x :: l') i = x.
Proof. intros ->. unfold znth. rewrite Nat2Z.id, app_nth2, Nat.sub_diag by lia. reflexivity. Qed.
Lemma upd_app {T} (l : list T) x l' i v : i = Z.of_nat (length l) -> upd (l ++ x :: l') i v = Ret (l ++ v :: l').
Proof.
  intros ->. rewrite upd_ok by (rewrite app_length; cbn; lia). f_equal. rewrite Nat2Z.id. induction l as [|y l IH]; [reflexivity|]. cbn. now rewrite IH.
Qed.

Section Decoder.
  Context {W : weights}.
  Notation num := (v_num W).
  (** [row] lies in memory from place [k] on. *)
  Definition lies (n k : Z) (delta : array num) (row : list num) : Prop := forall i, 0 <= i < n -> cell delta (k + i) = Some (entry row i).
  Lemma rd_cell (a : array num) i v : 0 <= i < size a -> cell a i = Some v -> rd a i = Ret v.
  Proof. intros H E. unfold rd. replace ((0 <=? i) && (i <? size a)) with true by (symmetry; apply andb_true_intro; split; [apply Z.leb_le|apply Z.ltb_lt]; lia). now rewrite E. Qed.
  Lemma put_same (a : array num) i v : cell (put a i v) i = Some v.
  Proof. cbn. now rewrite Z.eqb_refl. Qed.
  Lemma put_other (a : array num) i v k : k <> i -> cell (put a i v) k = cell a k.
  Proof. intros H. cbn. apply Z.eqb_neq in H. now rewrite H. Qed.
  Lemma entry_map (f : Z -> num) n i : 0 <= i < n -> entry (map f (states n)) i = f i.
  Proof. intros H. unfold entry, states. now rewrite znth_map by lia. Qed.
  Lemma sum_map (f : Z -> num) n : sum_of (map f (states n)) = fold_left (fun s i => v_add s (f i)) (states n) v0.
  Proof. apply fold_map. Qed.

  Lemma share_loop n k (delta : array num) row s : 0 <= n -> 0 <= k -> k + n <= size delta -> lies n k delta row ->
    ok (fun delta' => size delta' = size delta /\ (forall i, 0 <= i < n -> cell delta' (k + i) = Some (v_div (entry row i) s)) /\ forall i, ~ (k <= i < k + n) -> cell delta' i = cell delta i)
      (loop 0 (n - 1) (fun delta iState => do d <- rd delta (k + iState); wr delta (k + iState) (v_div d s)) delta).
  Proof.
    intros N K B H. set (Inv := fun j (d : array num) => size d = size delta /\ (forall i, 0 <= i < n -> cell d (k + i) = Some (if i <? j then v_div (entry row i) s else entry row i)) /\ forall i, ~ (k <= i < k + n) -> cell d i = cell delta i).
    apply ok_weaken with (P := Inv (n - 1 + 1)); [apply ok_each; [lia| |]|].
    - split; [reflexivity|]. split; [|reflexivity]. intros i I. rewrite H by lia. replace (i <? 0) with false by (symmetry; apply Z.ltb_ge; lia). reflexivity.
    - intros j d J (S & C & O). specialize (C j ltac:(lia)) as Cj. rewrite Z.ltb_irrefl in Cj. apply ok_eq with (v := entry row j); [apply rd_cell; [lia|exact Cj]|]. rewrite wr_ok by lia. apply ok_ret.
      split; [exact S|]. split.
      + intros i I. destruct (Z.eq_dec i j) as [->|E]; [rewrite put_same; replace (j <? j + 1) with true by (symmetry; apply Z.ltb_lt; lia); reflexivity|]. rewrite put_other by lia. rewrite C by lia. destruct (i <? j) eqn:Q; destruct (i <? j + 1) eqn:Q'; try reflexivity; apply Z.ltb_lt in Q || apply Z.ltb_ge in Q; apply Z.ltb_lt in Q' || apply Z.ltb_ge in Q'; lia.
      + intros i I. rewrite put_other by lia. now apply O.
    - intros d (S & C & O). split; [exact S|]. split; [|exact O]. intros i I. rewrite C by lia. replace (i <? n - 1 + 1) with true by (symmetry; apply Z.ltb_lt; lia). reflexivity.
  Qed.
  Lemma fill_loop n k (delta : array num) v : 0 <= n -> 0 <= k -> k + n <= size delta ->
    ok (fun delta' => size delta' = size delta /\ (forall i, 0 <= i < n -> cell delta' (k + i) = Some v) /\ forall i, ~ (k <= i < k + n) -> cell delta' i = cell delta i)
      (loop 0 (n - 1) (fun delta iState => wr delta (k + iState) v) delta).
  Proof.
    intros N K B. set (Inv := fun j (d : array num) => size d = size delta /\ (forall i, 0 <= i < j -> cell d (k + i) = Some v) /\ forall i, ~ (k <= i < k + n) -> cell d i = cell delta i).
    apply ok_weaken with (P := Inv (n - 1 + 1)); [apply ok_each; [lia| |]|].
    - split; [reflexivity|]. split; [lia|reflexivity].
    - intros j d J (S & C & O). rewrite wr_ok by lia. apply ok_ret. split; [exact S|]. split.
      + intros i I. destruct (Z.eq_dec i j) as [->|E]; [apply put_same|]. rewrite put_other by lia. apply C. lia.
      + intros i I. rewrite put_other by lia. now apply O.
    - intros d (S & C & O). split; [exact S|]. split; [|exact O]. intros i I. apply C. lia.
  Qed.

  Section Shapes.
    Context (n : Z) (init : list num) (trans obs : list (list num)) (FIT : fitting n init trans obs).
    Lemma obs_row t : 0 <= t < Z.of_nat (length obs) -> exists o, elt obs t = Ret o /\ znth [] obs t = o /\ Z.of_nat (length o) = n.
    Proof. intros T. destruct FIT as (_ & _ & _ & _ & _ & F). exists (znth [] obs t). split; [now apply elt_ok|]. split; [reflexivity|]. now apply (Forall_znth [] _ _ _ F). Qed.
    Lemma trans_row i : 0 <= i < n -> exists r, elt trans i = Ret r /\ znth [] trans i = r /\ Z.of_nat (length r) = n.
    Proof. intros H. destruct FIT as (_ & _ & L & F & _). exists (znth [] trans i). split; [apply elt_ok; lia|]. split; [reflexivity|]. apply (Forall_znth [] _ _ _ F). lia. Qed.
    Lemma frames_pos : 0 < Z.of_nat (length obs).
    Proof. destruct FIT as (_ & _ & _ & _ & N & _). destruct obs; [now elim N|]. cbn [length]. lia. Qed.
    Lemma obs_hd : znth [] obs 0 = hd [] obs.
    Proof. now destruct obs. Qed.
    Lemma consistent_ok : consistent n trans obs = Ret true.
    Proof.
      destruct (trans_row 0) as (r & E & _ & L); [destruct FIT; lia|]. destruct (obs_row 0) as (o & Eo & _ & Lo); [pose proof frames_pos; lia|]. unfold consistent. rewrite E. cbn [bind]. destruct FIT as (_ & _ & LT & _). rewrite L, LT, Z.eqb_refl. cbn [andb]. rewrite Eo. cbn [bind]. now rewrite Lo, Z.eqb_refl.
    Qed.
    Lemma first_frame_ok delta : n <= size delta ->
      ok (fun '(delta', s) => size delta' = size delta /\ s = sum_of (start_row n init (hd [] obs)) /\ lies n 0 delta' (first_row n init obs) /\ forall i, ~ (0 <= i < n) -> cell delta' i = cell delta i) (first_frame n init obs delta).
    Proof.
      intros B. assert (P : 0 < n) by (destruct FIT; lia). set (f := fun i => v_mul (entry init i) (entry (hd [] obs) i)).
      set (Inv := fun j (x : array num * num) => size (fst x) = size delta /\ snd x = fold_left (fun s i => v_add s (f i)) (zrange 0 (j - 1)) v0 /\ (forall i, 0 <= i < j -> cell (fst x) i = Some (f i)) /\ forall i, ~ (0 <= i < n) -> cell (fst x) i = cell delta i).
      unfold first_frame. apply ok_bind with (P := Inv (n - 1 + 1)); [apply ok_each; [lia| |]|].
      - split; [reflexivity|]. split; [reflexivity|]. split; [lia|reflexivity].
      - intros j (d & s) J (S & E & C & O). cbn [fst snd] in *. apply ok_eq with (v := entry init j); [apply elt_ok; destruct FIT as (_ & -> & _); lia|].
        destruct (obs_row 0) as (o & Eo & Ho & Lo); [pose proof frames_pos; lia|]. apply ok_eq with (v := o); [exact Eo|]. apply ok_eq with (v := entry o j); [apply elt_ok; lia|]. rewrite obs_hd in Ho. rewrite <- Ho. fold (f j).
        rewrite wr_ok by lia. cbn [bind]. apply ok_eq with (v := f j); [apply rd_cell; [cbn; lia|apply put_same]|]. apply ok_ret. split; [exact S|]. cbn [fst snd]. split; [|split].
        + replace (j + 1 - 1) with (j - 1 + 1) by lia. rewrite zrange_snoc by lia. rewrite fold_left_app, <- E. cbn [fold_left]. now replace (j - 1 + 1) with j by lia.
        + intros i I. destruct (Z.eq_dec i j) as [->|Q]; [apply put_same|]. rewrite put_other by lia. apply C. lia.
        + intros i I. rewrite put_other by lia. now apply O.
      - intros (d & s) (S & E & C & O). cbn [fst snd] in *. replace (n - 1 + 1 - 1) with (n - 1) in E by lia.
        assert (E' : s = sum_of (start_row n init (hd [] obs))) by (unfold start_row; rewrite sum_map; exact E).
        apply ok_bind with (P := fun delta' => size delta' = size d /\ (forall i, 0 <= i < n -> cell delta' (0 + i) = Some (v_div (entry (map f (states n)) i) s)) /\ forall i, ~ (0 <= i < 0 + n) -> cell delta' i = cell d i).
        + apply (share_loop n 0 d (map f (states n)) s); [lia|lia|lia|]. intros i I. rewrite entry_map by lia. apply C. lia.
        + intros d' (S' & C' & O'). apply ok_ret. split; [congruence|]. split; [exact E'|]. split.
          * intros i I. rewrite C' by lia. f_equal. unfold first_row, share. rewrite <- E'. unfold start_row. fold f. rewrite map_map. rewrite !entry_map by lia. reflexivity.
          * intros i I. rewrite O' by lia. now apply O.
    Qed.
    Lemma best_before_ok t delta row j o : 1 <= t < Z.of_nat (length obs) -> 0 <= j < n -> t * n <= size delta -> lies n ((t - 1) * n) delta row -> znth [] obs t = o ->
      best_before n t j trans obs delta = Ret (reached n trans row o j).
    Proof.
      intros T J B H Ho. destruct (obs_row t) as (o' & Eo & Ho' & Lo); [lia|]. rewrite Ho in Ho'. subst o'. unfold best_before, reached. rewrite Eo. cbn [bind]. rewrite (elt_ok v0) by lia. cbn [bind]. fold (entry o j). destruct (v_gt (entry o j) v0); [|reflexivity].
      rewrite (loop_pure _ (fun b i => if v_gt (v_mul (entry row i) (entry (znth [] trans i) j)) (snd b) then (i, v_mul (entry row i) (entry (znth [] trans i) j)) else b)); [reflexivity|].
      intros (bs & bv) i I. rewrite (rd_cell delta _ (entry row i)); [|nia|apply H; lia]. cbn [bind]. destruct (trans_row i) as (r & Er & <- & Lr); [lia|]. rewrite Er. cbn [bind]. rewrite (elt_ok v0) by lia. reflexivity.
    Qed.
    Lemma later_frame_ok t delta scale psi row o : 1 <= t < Z.of_nat (length obs) -> (t + 1) * n <= size delta -> lies n ((t - 1) * n) delta row -> znth [] obs t = o -> Z.of_nat (length psi) = t ->
      ok (fun '(delta', scale', psi') => size delta' = size delta /\ lies n (t * n) delta' (next_row n trans row o) /\ (forall i, ~ (t * n <= i < t * n + n) -> cell delta' i = cell delta i) /\
        scale' = scale ++ [next_scale n trans row o] /\ psi' = psi ++ [origins n trans row o]) (later_frame n trans obs (delta, scale, psi) t).
    Proof.
      intros T B H Ho LP. assert (P : 0 < n) by (destruct FIT; lia). unfold later_frame. set (f := fun j => v_mul (snd (reached n trans row o j)) (entry o j)). set (g := fun j => fst (reached n trans row o j)).
      set (Inv := fun j (x : array num * num * list (list Z)) => size (fst (fst x)) = size delta /\ snd (fst x) = fold_left (fun s i => v_add s (f i)) (zrange 0 (j - 1)) v0 /\ (forall i, 0 <= i < j -> cell (fst (fst x)) (t * n + i) = Some (f i)) /\ (forall i, ~ (t * n <= i < t * n + n) -> cell (fst (fst x)) i = cell delta i) /\
        snd x = psi ++ [map g (zrange 0 (j - 1)) ++ repeat 0 (Z.to_nat (n - j))]).
      apply ok_bind with (P := Inv (n - 1 + 1)); [apply ok_each; [lia| |]|].
      - split; [reflexivity|]. split; [reflexivity|]. split; [lia|]. split; [reflexivity|]. cbn [snd]. now replace (n - 0) with n by lia.
      - intros j ((d & s) & ps) J (S & E & C & O & EP). cbn [fst snd] in *. rewrite (best_before_ok t d row j o); [|lia|lia|nia| |exact Ho].
        2:{ intros i I. rewrite O by nia. now apply H. }
        cbn [bind]. rewrite (surjective_pairing (reached n trans row o j)). destruct (obs_row t) as (o' & Eo & Ho' & Lo); [lia|]. rewrite Ho in Ho'. subst o'. rewrite Eo. cbn [bind]. rewrite (elt_ok v0) by lia. cbn [bind]. fold (entry o j). fold (f j) (g j).
        rewrite wr_ok by nia. cbn [bind]. rewrite (rd_cell _ _ (f j)); [|cbn; nia|apply put_same]. cbn [bind]. rewrite EP.
        rewrite (elt_ret [] _ _ (map g (zrange 0 (j - 1)) ++ repeat 0 (Z.to_nat (n - j)))); [|rewrite app_length; cbn; lia|now apply znth_app_at]. cbn [bind].
        replace (Z.to_nat (n - j)) with (Datatypes.S (Z.to_nat (n - (j + 1)))) by lia. cbn [repeat]. rewrite upd_app by (rewrite map_length, zrange_length; lia). cbn [bind]. rewrite upd_app by lia. cbn [bind].
        apply ok_ret. split; [exact S|]. cbn [fst snd]. split; [|split; [|split]].
        + replace (j + 1 - 1) with (j - 1 + 1) by lia. rewrite zrange_snoc by lia. rewrite fold_left_app, <- E. cbn [fold_left]. now replace (j - 1 + 1) with j by lia.
        + intros i I. destruct (Z.eq_dec i j) as [->|Q]; [apply put_same|]. rewrite put_other by lia. apply C. lia.
        + intros i I. rewrite put_other by lia. now apply O.
        + f_equal. f_equal. replace (j + 1 - 1) with (j - 1 + 1) by lia. rewrite zrange_snoc by lia. rewrite map_app, <- app_assoc. cbn [map app]. now replace (j - 1 + 1) with j by lia.
      - intros ((d & s) & ps) (S & E & C & O & EP). cbn [fst snd] in *. replace (n - 1 + 1 - 1) with (n - 1) in * by lia.
        assert (E' : s = sum_of (raw_row n trans row o)) by (unfold raw_row; rewrite sum_map; exact E).
        assert (EP' : ps = psi ++ [origins n trans row o]). { rewrite EP. replace (n - (n - 1 + 1)) with 0 by lia. cbn [Z.to_nat repeat]. now rewrite app_nil_r. }
        assert (L : lies n (t * n) d (raw_row n trans row o)). { intros i I. unfold raw_row. rewrite entry_map by lia. apply C. lia. }
        unfold next_row, next_scale. rewrite <- E'. destruct (v_gt s v0).
        + apply ok_bind with (P := fun delta' => size delta' = size d /\ (forall i, 0 <= i < n -> cell delta' (t * n + i) = Some (v_div (entry (raw_row n trans row o) i) s)) /\ forall i, ~ (t * n <= i < t * n + n) -> cell delta' i = cell d i).
          * apply share_loop; [lia|nia|nia|exact L].
          * intros d' (S' & C' & O'). apply ok_ret. split; [congruence|]. split; [|split; [|split; [reflexivity|exact EP']]].
            -- intros i I. rewrite C' by lia. f_equal. unfold share. rewrite <- E'. unfold raw_row. rewrite map_map. rewrite !entry_map by lia. reflexivity.
            -- intros i I. rewrite O' by lia. now apply O.
        + apply ok_bind with (P := fun delta' => size delta' = size d /\ (forall i, 0 <= i < n -> cell delta' (t * n + i) = Some (v_div v1 (v_count n))) /\ forall i, ~ (t * n <= i < t * n + n) -> cell delta' i = cell d i).
          * apply fill_loop; [lia|nia|nia].
          * intros d' (S' & C' & O'). apply ok_ret. split; [congruence|]. split; [|split; [|split; [reflexivity|exact EP']]].
            -- intros i I. rewrite C' by lia. f_equal. unfold entry, znth. symmetry. rewrite (nth_indep _ v0 (v_div v1 (v_count n))) by (rewrite repeat_length; lia). apply nth_repeat.
            -- intros i I. rewrite O' by lia. now apply O.
    Qed.

    (** ** The lists from frame to frame *)
    Lemma rows_snoc row os o : rows_from n trans row (os ++ [o]) = rows_from n trans row os ++ [next_row n trans (last (rows_from n trans row os) []) o].
    Proof.
      revert row. induction os as [|o' os IH]; intros row; [reflexivity|]. cbn [app rows_from]. rewrite IH. cbn [app]. f_equal. f_equal. f_equal. f_equal. destruct os; reflexivity.
    Qed.
    Lemma scales_snoc row os o : scales_from n trans row (os ++ [o]) = scales_from n trans row os ++ [next_scale n trans (last (rows_from n trans row os) []) o].
    Proof. revert row. induction os as [|o' os IH]; intros row; [reflexivity|]. cbn [app scales_from rows_from]. rewrite IH. cbn [app]. f_equal. f_equal. f_equal. f_equal. destruct os; reflexivity. Qed.
    Lemma origins_snoc row os o : origins_from n trans row (os ++ [o]) = origins_from n trans row os ++ [origins n trans (last (rows_from n trans row os) []) o].
    Proof. revert row. induction os as [|o' os IH]; intros row; [reflexivity|]. cbn [app origins_from rows_from]. rewrite IH. cbn [app]. f_equal. f_equal. f_equal. f_equal. destruct os; reflexivity. Qed.
    Lemma rows_length row os : length (rows_from n trans row os) = Datatypes.S (length os).
    Proof. revert row. induction os as [|o os IH]; intros row; [reflexivity|]. cbn [rows_from length]. now rewrite IH. Qed.
    Lemma origins_length row os : length (origins_from n trans row os) = length os.
    Proof. revert row. induction os as [|o os IH]; intros row; [reflexivity|]. cbn [origins_from length]. now rewrite IH. Qed.
    Lemma scales_length row os : length (scales_from n trans row os) = length os.
    Proof. revert row. induction os as [|o os IH]; intros row; [reflexivity|]. cbn [scales_from length]. now rewrite IH. Qed.
    Lemma last_znth {T} (d : T) l : l <> [] -> last l d = znth d l (Z.of_nat (length l) - 1).
    Proof. intros N. destruct (exists_last N) as (l' & x & ->). rewrite last_last, znth_app_at; [reflexivity|]. rewrite app_length. cbn [length]. lia. Qed.
    Lemma firstn_obs t : 1 <= t < Z.of_nat (length obs) -> firstn (Z.to_nat t) (tl obs) = firstn (Z.to_nat (t - 1)) (tl obs) ++ [znth [] obs t].
    Proof.
      intros T. destruct obs as [|o0 os]; [cbn in T; lia|]. cbn [tl length] in *. replace (Z.to_nat t) with (Datatypes.S (Z.to_nat (t - 1))) by lia. unfold znth. replace (Z.to_nat t) with (Datatypes.S (Z.to_nat (t - 1))) by lia. cbn [nth].
      assert (K : (Z.to_nat (t - 1) < length os)%nat) by lia. revert K. generalize (Z.to_nat (t - 1)) as k. clear. intros k. revert os. induction k as [|k IH]; intros [|o os] K; cbn in K; try lia; [reflexivity|]. cbn [firstn app nth]. f_equal. apply IH. lia.
    Qed.

    (** ** Back from the last frame *)
    Lemma choose_range (f : Z -> num) : 0 < n -> 0 <= fst (choose n f) < n.
    Proof.
      intros P. unfold choose. assert (G : forall l b, Forall (fun i => 0 <= i < n) l -> 0 <= fst b < n -> 0 <= fst (fold_left (fun b i => if v_gt (f i) (snd b) then (i, f i) else b) l b) < n).
      { induction l as [|i l IH]; intros b F B; [exact B|]. inversion F; subst. cbn [fold_left]. apply IH; [assumption|]. destruct (v_gt (f i) (snd b)); assumption. }
      apply G; [|cbn; lia]. apply Forall_forall. intros i I. apply zrange_In in I. lia.
    Qed.
    Definition pointers (psi : list Z) : Prop := Z.of_nat (length psi) = n /\ Forall (fun s => 0 <= s < n) psi.
    Lemma origins_pointers row os : Forall pointers (origins_from n trans row os).
    Proof.
      assert (P : 0 < n) by (destruct FIT; lia). revert row. induction os as [|o os IH]; intros row; constructor; [|apply IH]. unfold origins. split; [unfold states; rewrite map_length, zrange_length; lia|]. apply Forall_map, Forall_forall. intros j _. unfold reached. destruct (v_gt _ _); [now apply choose_range|cbn; lia].
    Qed.
    Lemma way_range psis s : 0 <= s < n -> Forall pointers psis -> Forall (fun s => 0 <= s < n) (way psis s).
    Proof.
      intros R F. induction F as [|psi psis (L & H) F IH]; [now constructor|]. cbn [way]. constructor; [|exact IH]. apply (Forall_znth 0 _ _ _ H). destruct (way psis s) eqn:E; [destruct psis; discriminate E|]. inversion IH; subst. cbn [hd]. lia.
    Qed.
    Lemma way_length psis s : length (way psis s) = Datatypes.S (length psis).
    Proof. induction psis as [|psi psis IH]; [reflexivity|]. cbn. now rewrite IH. Qed.
    Lemma way_last psis s d : last (way psis s) d = s.
    Proof. induction psis as [|psi psis IH]; [reflexivity|]. cbn [way last]. destruct (way psis s) eqn:E; [destruct psis; discriminate E|]. exact IH. Qed.
    Lemma back_loop psis s extra k : 0 <= s < n -> Forall pointers psis -> (k <= length psis)%nat ->
      each (fun path iFrame => do next <- elt path (iFrame + 1); do row <- elt (extra :: psis) (iFrame + 1); do s <- elt row next; upd path iFrame s) (rev (zrange 0 (Z.of_nat k - 1))) (repeat (n - 1) k ++ way (skipn k psis) s) = Ret (way psis s).
    Proof.
      intros R F. induction k as [|k IH]; intros K.
      - rewrite zrange_nil by lia. reflexivity.
      - replace (Z.of_nat (Datatypes.S k) - 1) with (Z.of_nat k - 1 + 1) by lia. rewrite zrange_snoc by lia. rewrite rev_app_distr. cbn [rev app each].
        assert (Q : exists psi, skipn k psis = psi :: skipn (Datatypes.S k) psis /\ znth [] (extra :: psis) (Z.of_nat k + 1) = psi /\ pointers psi).
        { clear IH. revert psis F K. induction k as [|k IH]; intros [|x psis] F K; cbn in K; try lia; inversion F; subst.
          - exists x. split; [reflexivity|]. split; [reflexivity|assumption].
          - destruct (IH psis) as (psi & E & Z & Q); [assumption|lia|]. exists psi. split; [exact E|]. split; [|exact Q]. unfold znth in *. replace (Z.to_nat (Z.of_nat (Datatypes.S k) + 1)) with (Datatypes.S (Datatypes.S k)) by lia. replace (Z.to_nat (Z.of_nat k + 1)) with (Datatypes.S k) in Z by lia. exact Z. }
        destruct Q as (psi & E & Z & L & H). assert (G : Forall (fun s => 0 <= s < n) (way (skipn (Datatypes.S k) psis) s)) by (apply way_range; [exact R|]; rewrite <- (firstn_skipn (Datatypes.S k) psis) in F; apply Forall_app in F; tauto).
        replace (Z.of_nat k - 1 + 1) with (Z.of_nat k) by lia.
        destruct (way (skipn (Datatypes.S k) psis) s) as [|next w] eqn:EW; [destruct (skipn (Datatypes.S k) psis); discriminate EW|]. inversion G; subst.
        rewrite (elt_ret 0 _ _ next); [|rewrite app_length, repeat_length; cbn [length]; lia|apply znth_app_at; rewrite repeat_length; lia]. cbn [bind].
        rewrite (elt_ok []) by (cbn [length]; lia). cbn [bind]. rewrite (elt_ok 0) by lia. cbn [bind].
        replace (repeat (n - 1) (Datatypes.S k)) with (repeat (n - 1) k ++ [n - 1]) by (rewrite <- repeat_cons; reflexivity). rewrite <- app_assoc. cbn [app]. rewrite upd_app by (rewrite repeat_length; lia). cbn [bind].
        rewrite <- IH by lia. rewrite E. cbn [way]. rewrite EW. reflexivity.
    Qed.
    Lemma backwards_ok delta row psis extra : Z.of_nat (length obs) * n <= size delta -> lies n ((Z.of_nat (length obs) - 1) * n) delta row -> Forall pointers psis -> Datatypes.S (length psis) = length obs ->
      backwards n (Z.of_nat (length obs)) delta (extra :: psis) = Ret (way psis (fst (choose n (entry row)))).
    Proof.
      intros B H F L. assert (P : 0 < n) by (destruct FIT; lia). pose proof frames_pos as FP. unfold backwards. set (h := fun (b : Z * num) i => if v_gt (entry row i) (snd b) then (i, entry row i) else b).
      set (Inv := fun j (x : list Z * num) => x = (repeat (n - 1) (length psis) ++ [fst (fold_left h (zrange 0 (j - 1)) (n - 1, v0))], snd (fold_left h (zrange 0 (j - 1)) (n - 1, v0)))).
      assert (X : ok (Inv (n - 1 + 1)) (loop 0 (n - 1) (fun '(path, bestValue) iState => do currentValue <- rd delta ((Z.of_nat (length obs) - 1) * n + iState); if v_gt currentValue bestValue then do path <- upd path (Z.of_nat (length obs) - 1) iState; Ret (path, currentValue) else Ret (path, bestValue)) (repeat (n - 1) (Z.to_nat (Z.of_nat (length obs))), v0))).
      { apply ok_each; [lia| |].
        - unfold Inv. f_equal. rewrite Nat2Z.id, <- L. cbn [fold_left zrange]. rewrite <- repeat_cons. reflexivity.
        - intros j x J E. unfold Inv in E. subst x. rewrite (rd_cell delta _ (entry row j)); [|nia|apply H; lia]. cbn [bind]. unfold Inv. replace (j + 1 - 1) with (j - 1 + 1) by lia. rewrite zrange_snoc by lia. rewrite fold_left_app. cbn [fold_left]. replace (j - 1 + 1) with j by lia.
          destruct (fold_left h (zrange 0 (j - 1)) (n - 1, v0)) as (bs & bv). cbn [fst snd]. unfold h. cbn [snd]. destruct (v_gt (entry row j) bv).
          + rewrite upd_app by (rewrite repeat_length; lia). cbn [bind]. apply ok_ret. reflexivity.
          + apply ok_ret. reflexivity. }
      destruct X as (x & -> & E). unfold Inv in E. subst x. cbn [bind]. replace (n - 1 + 1 - 1) with (n - 1) by lia. replace (Z.of_nat (length obs) - 2) with (Z.of_nat (length psis) - 1) by lia.
      pose proof (back_loop psis (fst (choose n (entry row))) extra (length psis) (choose_range _ P) F (le_n _)) as Y. rewrite skipn_all in Y. exact Y.
    Qed.

    (** ** The whole *)
    Lemma viterbi_path_ok delta scale : Z.of_nat (length obs) * n <= size delta ->
      ok (fun r => d_path r = path_of n init trans obs /\ d_scale r = scale ++ scales_of n init trans obs /\ d_errors r = 0 /\ size (d_delta r) = size delta /\
        (forall t, 0 <= t < Z.of_nat (length obs) -> lies n (t * n) (d_delta r) (znth [] (rows_of n init trans obs) t)) /\ forall i, ~ (0 <= i < Z.of_nat (length obs) * n) -> cell (d_delta r) i = cell delta i) (viterbi_path init trans obs delta scale).
    Proof.
      intros B. assert (P : 0 < n) by (destruct FIT; lia). pose proof frames_pos as FP. assert (LN : Z.of_nat (length init) = n) by apply FIT. unfold viterbi_path. rewrite LN. rewrite consistent_ok. cbn [bind].
      eapply ok_bind; [apply first_frame_ok; nia|]. intros (d0 & s0) (S0 & E0 & L0 & O0). set (row0 := first_row n init obs) in *.
      set (os := fun t => firstn (Z.to_nat (t - 1)) (tl obs)).
      set (Inv := fun t (x : array num * list num * list (list Z)) => size (fst (fst x)) = size delta /\ snd (fst x) = scale ++ v_div v1 s0 :: scales_from n trans row0 (os t) /\ snd x = repeat 0 (Z.to_nat n) :: origins_from n trans row0 (os t) /\
        (forall k, 0 <= k < t -> lies n (k * n) (fst (fst x)) (znth [] (rows_from n trans row0 (os t)) k)) /\ forall i, ~ (0 <= i < t * n) -> cell (fst (fst x)) i = cell delta i).
      assert (LO : forall t, 1 <= t <= Z.of_nat (length obs) -> Z.of_nat (length (os t)) = t - 1). { intros t T. unfold os. rewrite firstn_length. destruct obs; [cbn in FP; lia|]. cbn [tl length] in *. lia. }
      apply ok_bind with (P := Inv (Z.of_nat (length obs) - 1 + 1)); [apply ok_each; [lia| |]|].
      - split; [exact S0|]. split; [reflexivity|]. split; [reflexivity|]. split.
        + intros k K. assert (k = 0) by lia. subst k. exact L0.
        + intros i I. apply O0. lia.
      - intros t ((d & sc) & ps) T (S & E & EP & H & O). cbn [fst snd] in *. set (row := znth [] (rows_from n trans row0 (os t)) (t - 1)).
        eapply ok_weaken; [apply (later_frame_ok t d sc ps row (znth [] obs t)); [lia|nia|apply H; lia|reflexivity|rewrite EP; cbn [length]; rewrite origins_length; rewrite Nat2Z.inj_succ, LO by lia; lia]|].
        intros ((d' & sc') & ps') (S' & L' & O' & Esc & Eps).
        assert (EO : os (t + 1) = os t ++ [znth [] obs t]). { unfold os. replace (t + 1 - 1) with t by lia. apply firstn_obs. lia. }
        assert (ER : row = last (rows_from n trans row0 (os t)) []). { rewrite last_znth by (intros X; apply (f_equal (@length _)) in X; rewrite rows_length in X; discriminate X). rewrite rows_length. unfold row. f_equal. rewrite Nat2Z.inj_succ, LO by lia. lia. }
        split; [cbn; congruence|]. cbn [fst snd]. rewrite EO. split; [|split; [|split]].
        + rewrite Esc, E, scales_snoc, <- ER, <- app_assoc. reflexivity.
        + rewrite Eps, EP, origins_snoc, <- ER. reflexivity.
        + intros k K. rewrite rows_snoc, <- ER. destruct (Z.eq_dec k t) as [->|Q].
          * rewrite znth_app_at by (rewrite rows_length, Nat2Z.inj_succ, LO by lia; lia). exact L'.
          * rewrite znth_app_l by (rewrite rows_length, Nat2Z.inj_succ, LO by lia; lia). intros i I. rewrite O' by nia. apply H; lia.
        + intros i I. rewrite O' by nia. apply O. nia.
      - intros ((d & sc) & ps) (S & E & EP & H & O). cbn [fst snd] in *. replace (Z.of_nat (length obs) - 1 + 1) with (Z.of_nat (length obs)) in * by lia.
        assert (EO : os (Z.of_nat (length obs)) = tl obs). { unfold os. apply firstn_all2. destruct obs; cbn [tl length]; lia. }
        rewrite EO in *. assert (LR : Z.of_nat (length (rows_from n trans row0 (tl obs))) = Z.of_nat (length obs)) by (rewrite rows_length; destruct obs; [cbn in FP; lia|reflexivity]).
        rewrite EP. apply ok_eq with (v := path_of n init trans obs).
        + unfold path_of, final_state, rows_of. fold row0. rewrite last_znth, LR by (intros X; apply (f_equal (@length _)) in X; rewrite rows_length in X; discriminate X). apply backwards_ok; [lia|apply H; lia|apply origins_pointers|rewrite origins_length; destruct obs; [cbn in FP; lia|reflexivity]].
        + apply ok_ret. cbn [d_path d_scale d_errors d_delta]. split; [reflexivity|]. split; [rewrite E, E0; reflexivity|]. split; [reflexivity|]. split; [exact S|]. split; [exact H|exact O].
    Qed.
    Lemma path_of_range : length (path_of n init trans obs) = length obs /\ Forall (fun s => 0 <= s < n) (path_of n init trans obs).
    Proof.
      assert (P : 0 < n) by (destruct FIT; lia). pose proof frames_pos as FP. unfold path_of. split; [rewrite way_length, origins_length; destruct obs; [cbn in FP; lia|reflexivity]|]. apply way_range; [now apply choose_range|apply origins_pointers].
    Qed.
  End Shapes.
End Decoder.

Lemma decoder_runs (W : weights) n (init : list (v_num W)) (trans obs : list (list (v_num W))) delta scale : fitting n init trans obs -> Z.of_nat (length obs) * n <= size delta ->
  exists r, viterbi_path init trans obs delta scale = Ret r /\ d_errors r = 0 /\ d_path r = path_of n init trans obs /\ length (d_path r) = length obs /\ Forall (fun s => 0 <= s < n) (d_path r) /\
    d_scale r = scale ++ scales_of n init trans obs /\ size (d_delta r) = size delta /\
    (forall t i, 0 <= t < Z.of_nat (length obs) -> 0 <= i < n -> cell (d_delta r) (t * n + i) = Some (entry (znth [] (rows_of n init trans obs) t) i)) /\
    forall i, ~ (0 <= i < Z.of_nat (length obs) * n) -> cell (d_delta r) i = cell delta i.
Proof.
  intros F B. destruct (viterbi_path_ok n init trans obs F delta scale B) as (r & E & D1 & D2 & D3 & D4 & D5 & D6). destruct (path_of_range n init trans obs F) as (L & RR). exists r. repeat (split; [congruence || (rewrite D1; assumption)|]). split; [|exact D6]. intros t i T Ti. now apply D5.
Qed.
Lemma decoder_empty (W : weights) (init : list (v_num W)) (trans obs : list (list (v_num W))) delta scale : trans = [] \/ obs = [] /\ fitting (Z.of_nat (length init)) init trans [init] -> viterbi_path init trans obs delta scale = Undef OutOfBounds.
Proof.
  intros [->|(-> & F)]; [reflexivity|]. destruct F as (P & _ & L & FT & _). unfold viterbi_path, consistent. destruct trans as [|t0 ts]; [cbn [length] in L; lia|]. change (elt (t0 :: ts) 0) with (Ret (A := list (v_num W)) t0). cbn [bind]. inversion FT; subst. rewrite H1, L, Z.eqb_refl. reflexivity.
Qed.
Lemma check_does_not_protect : ~ forall (init : list (v_num doubles)) (trans obs : list (list (v_num doubles))) delta scale, trans <> [] -> obs <> [] -> Z.of_nat (length obs) * Z.of_nat (length init) <= size delta -> viterbi_path init trans obs delta scale <> Undef OutOfBounds.
Proof. intros H. apply (H [v1 (w := doubles); v1 (w := doubles)] [[v1 (w := doubles)]] [[v1 (w := doubles)]] (fresh 2) []); [discriminate|discriminate|cbn; lia|reflexivity]. Qed.
