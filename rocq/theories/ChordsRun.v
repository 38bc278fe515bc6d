(** Facts about the transcription: the first chord, the changes and the notes. *)
From Coq Require Import String Lia Reals.
From Flocq Require Import Core.Core IEEE754.BinarySingleNaN.
From Verif Require Import Base BaseFacts Fp Options Chromagram Nnls NnlsArith NnlsFacts Plug PlugFacts PlugNan ChordViterbi ChordSpec ChordFacts Chords ChordsSpec ChordsFacts.
Open Scope Z_scope.

(** ** The first chord *)
(** Numbers that are never larger than zero, whatever they are multiplied with or divided by. *)
Definition dull (x : b64) : Prop := match x with B754_zero _ | B754_nan => True | _ => False end.
Lemma dull_mul x y : dull x -> dull (fmul x y). Proof. destruct x; try contradiction; intros _; destruct y; exact Logic.I. Qed.
Lemma dull_div x y : dull x -> dull (Bdiv mode_NE x y). Proof. destruct x; try contradiction; intros _; destruct y; exact Logic.I. Qed.
Lemma dull_gt x y : dull x -> dull y -> fgt x y = false. Proof. destruct x as [s| | |]; try contradiction; destruct y as [s'| | |]; try contradiction; intros _ _; reflexivity. Qed.
Section Start.
  Context (n : Z) (P : 0 < n).
  Lemma start_length : Z.of_nat (length (chord_start n)) = n.
  Proof. unfold chord_start. rewrite app_length, repeat_length. cbn [length]. lia. Qed.
  Lemma start_entry i : 0 <= i < n - 1 -> entry (W := doubles) (chord_start n) i = fzero.
  Proof. intros H. unfold entry, znth, chord_start. cbn [v0 doubles]. rewrite app_nth1 by (rewrite repeat_length; lia). apply nth_repeat. Qed.
  Lemma moves_length : Z.of_nat (length (chord_moves n)) = n.
  Proof. unfold chord_moves. rewrite map_length, zrange_length. lia. Qed.
  Lemma moves_rows : Forall (fun r => Z.of_nat (length r) = n) (chord_moves n).
  Proof. apply Forall_map, Forall_forall. intros i _. rewrite map_length, zrange_length. lia. Qed.
  Lemma chord_fitting obs : obs <> [] -> Forall (fun o => Z.of_nat (length o) = n) obs -> fitting (W := doubles) n (chord_start n) (chord_moves n) obs.
  Proof. intros NE F. split; [exact P|]. split; [apply start_length|]. split; [apply moves_length|]. split; [apply moves_rows|]. now split. Qed.
  Lemma choose_last (f : Z -> b64) : (forall i, 0 <= i < n - 1 -> dull (f i)) -> fst (choose (W := doubles) n f) = n - 1.
  Proof.
    intros D. unfold choose, states. assert (E : zrange 0 (n - 1) = zrange 0 (n - 2) ++ [n - 1]) by (replace (n - 1) with (n - 2 + 1) by lia; apply zrange_snoc; lia). rewrite E. rewrite fold_left_app. set (h := fun (b : Z * v_num doubles) i => if v_gt (w := doubles) (f i) (snd b) then (i, f i) else b).
    assert (G : forall l, Forall (fun i => 0 <= i < n - 1) l -> fold_left h l (n - 1, v0 (w := doubles)) = (n - 1, v0 (w := doubles))).
    { induction l as [|i l IH]; intros F; [reflexivity|]. inversion F; subst. cbn [fold_left]. unfold h at 2. cbn [snd v_gt v0 doubles]. rewrite dull_gt; [now apply IH|now apply D|exact Logic.I]. }
    rewrite G by (apply Forall_forall; intros i I; apply zrange_In in I; lia). cbn [fold_left]. unfold h. destruct (v_gt _ _); cbn [fst]; lia.
  Qed.
  Lemma first_dull obs i : 0 <= i < n - 1 -> dull (entry (W := doubles) (first_row (W := doubles) n (chord_start n) obs) i).
  Proof.
    intros I. unfold first_row, share. cbn [v_div doubles]. unfold entry, znth. set (r := start_row (W := doubles) n (chord_start n) (hd [] obs)). assert (L : length r = Z.to_nat n) by (unfold r, start_row, states; rewrite map_length, zrange_length; lia).
    change (dull (nth (Z.to_nat i) (map (fun d => Bdiv mode_NE d (sum_of (W := doubles) r)) r) (v0 (w := doubles)))). set (g := fun d : b64 => Bdiv mode_NE d (sum_of (W := doubles) r)).
    rewrite (nth_indep _ _ (g (v0 (w := doubles)))) by (rewrite map_length; change (Z.to_nat i < length r)%nat; lia). rewrite map_nth. apply dull_div.
    change (dull (entry (W := doubles) r i)). unfold r, start_row. rewrite entry_map by lia. cbn [v_mul doubles]. rewrite start_entry by exact I. apply dull_mul. exact Logic.I.
  Qed.
  Lemma first_chord obs : obs <> [] -> Forall (fun o => Z.of_nat (length o) = n) obs -> exists p, path_of (W := doubles) n (chord_start n) (chord_moves n) obs = (n - 1) :: p.
  Proof.
    intros NE F. assert (FT := chord_fitting obs NE F). destruct obs as [|o [|o' os]]; [now destruct NE| |].
    - exists []. unfold path_of. cbn [tl origins_from way]. f_equal. unfold final_state, rows_of. cbn [tl rows_from last]. apply choose_last. intros i I. now apply first_dull.
    - unfold path_of. cbn [tl origins_from way]. set (w := way _ _). exists w. f_equal. set (row := first_row (W := doubles) n (chord_start n) (o :: o' :: os)).
      assert (H : 0 <= hd 0 w < n). { unfold w. set (l := origins_from _ _ _ _). assert (X : Forall (fun s => 0 <= s < n) (way l (final_state (W := doubles) n (rows_of (W := doubles) n (chord_start n) (chord_moves n) (o :: o' :: os))))) by (apply way_range; [now apply choose_range|exact (origins_pointers (W := doubles) n (chord_start n) (chord_moves n) _ FT _ _)]). destruct (way l _) eqn:E; [destruct l; discriminate E|]. now inversion X. }
      unfold origins, states. rewrite znth_map by lia. unfold reached. destruct (v_gt _ _); [|reflexivity]. apply choose_last. intros i I. cbn [v_mul doubles]. apply dull_mul. now apply first_dull.
  Qed.
End Start.

(** ** The changes *)
Lemma changes_snoc i old p s : changes_from i old (p ++ [s]) = changes_from i old p ++ (if s =? last p old then [] else [(i + Z.of_nat (length p), s)]).
Proof.
  revert i old. induction p as [|x p IH]; intros i old; cbn [app changes_from]; [cbn [last length]; rewrite Z.add_0_r; destruct (s =? old); reflexivity|].
  assert (L : last (x :: p) old = last p x) by (clear; revert x old; induction p as [|y p IH]; intros x old; [reflexivity|]; change (last (y :: p) old = last (y :: p) x); now rewrite !IH). rewrite L.
  destruct (Z.eqb_spec x old) as [->|N]; rewrite IH; cbn [app length]; replace (i + 1 + Z.of_nat (length p)) with (i + Z.of_nat (S (length p))) by lia; reflexivity.
Qed.
Lemma spans_snoc times t l i s : spans times t (l ++ [(i, s)]) = spans times (znth 0 times i) l ++ [(znth 0 times i, t, s)].
Proof. induction l as [|(j & c) l IH]; [reflexivity|]. cbn [app spans]. rewrite IH. cbn [app]. f_equal. f_equal. destruct l as [|(j' & c') l]; reflexivity. Qed.
Section Report.
  Context (log : b64 -> b64) (chords : list chord) (times : list Z) (path : list Z).
  Notation n := (Z.of_nat (length chords)).
  Context (PT : length path = length times) (PR : Forall (fun s => 0 <= s < n) path) (NE : path <> []).
  Lemma last_znth (i : Z) : 1 <= i <= Z.of_nat (length path) -> forall d, last (firstn (Z.to_nat i) path) d = znth 0 path (i - 1).
  Proof.
    intros I d. assert (E : firstn (Z.to_nat i) path = firstn (Z.to_nat (i - 1)) path ++ [znth 0 path (i - 1)]).
    { replace (Z.to_nat i) with (S (Z.to_nat (i - 1))) by lia. unfold znth. generalize (Z.to_nat (i - 1)) (ltac:(lia) : (Z.to_nat (i - 1) < length path)%nat). clear. induction path as [|x p IH]; intros [|k] K; cbn [length] in K; try lia; [reflexivity|]. change (x :: firstn (S k) p = x :: firstn k p ++ [nth k p 0]). f_equal. apply IH. lia. }
    rewrite E. apply last_last.
  Qed.
  Lemma firstn_snoc (i : Z) : 0 <= i < Z.of_nat (length path) -> firstn (Z.to_nat (i + 1)) path = firstn (Z.to_nat i) path ++ [znth 0 path i].
  Proof.
    intros I. replace (Z.to_nat (i + 1)) with (S (Z.to_nat i)) by lia. unfold znth. generalize (Z.to_nat i) (ltac:(lia) : (Z.to_nat i < length path)%nat). clear. induction path as [|x p IH]; intros [|k] K; cbn [length] in K; try lia; [reflexivity|]. change (x :: firstn (S k) p = x :: firstn k p ++ [nth k p 0]). f_equal. apply IH. lia.
  Qed.
  (** The steps, from the frame after the first on, when the first chord is the last of the list. *)
  Lemma steps_ok : hd 0 path = n - 1 -> c_notes (znth no_chord chords (n - 1)) = [] -> ok (fun s => let '(_, out, notes, oldnotes) := s in let l := changes_from 0 (-1) path in
      out = map (named chords times) l /\ forall t, notes ++ ended t oldnotes = flat_map (span_notes chords) (spans times t l))
    (loop 1 (Z.of_nat (length path) - 1) (step chords times path) (n - 1, [(znth 0 times 0, c_name (znth no_chord chords (n - 1)))], [], [])).
  Proof.
    intros H0 NN. assert (LP : 1 <= Z.of_nat (length path)) by (destruct path; [now destruct NE|cbn [length]; lia]).
    assert (N1 : 0 <= n - 1). { destruct path as [|x p]; [now destruct NE|]. inversion PR; subst. lia. }
    set (inv := fun i (s : Z * list (Z * string) * list note * list note) => let '(old, out, notes, oldnotes) := s in let l := changes_from 0 (-1) (firstn (Z.to_nat i) path) in
      old = last (firstn (Z.to_nat i) path) (-1) /\ out = map (named chords times) l /\ forall t, notes ++ ended t oldnotes = flat_map (span_notes chords) (spans times t l)).
    eapply ok_weaken; [apply (ok_each inv)|].
    - lia.
    - unfold inv. change (Z.to_nat 1) with 1%nat. destruct path as [|x p]; [now destruct NE|]. cbn [hd] in H0. subst x. cbn [firstn changes_from last]. destruct (Z.eqb_spec (n - 1) (-1)) as [|_]; [lia|]. split; [reflexivity|]. split; [reflexivity|]. intros t. cbn [spans flat_map]. unfold span_notes. cbn [fst snd]. rewrite NN. reflexivity.
    - intros i (((old & out) & notes) & oldnotes) I (Hold & Hout & Hn). unfold step. rewrite (elt_ok 0) by lia. cbn [bind]. assert (R := Forall_znth 0 _ _ i PR ltac:(lia)). cbv beta in R.
      unfold inv. rewrite firstn_snoc by lia. rewrite changes_snoc, <- Hold. rewrite firstn_length. rewrite last_last.
      destruct (Z.eqb_spec (znth 0 path i) old) as [E|N]; cbn [negb].
      + apply ok_ret. rewrite app_nil_r. split; [now symmetry|]. now split.
      + rewrite (elt_ok 0) by lia. cbn [bind]. rewrite (elt_ok no_chord) by lia. cbn [bind]. apply ok_ret. replace (0 + Z.of_nat (Nat.min (Z.to_nat i) (length path))) with i by lia. split; [reflexivity|]. split; [rewrite map_app, Hout; reflexivity|].
        intros t. rewrite spans_snoc, flat_map_app, <- Hn. f_equal. cbn [flat_map]. rewrite app_nil_r. unfold ended, span_notes. cbn [fst snd]. rewrite map_map. apply map_ext. intros m. cbn [n_time n_duration n_pitch]. f_equal. lia.
    - intros (((old & out) & notes) & oldnotes) (_ & Hout & Hn). replace (Z.to_nat (Z.of_nat (length path) - 1 + 1)) with (length path) in * by lia. rewrite firstn_all in *. now split.
  Qed.
End Report.
Lemma pushes {T} (f : Z -> T) (body : list T -> Z -> outcome (list T)) lo hi : (forall l i, lo <= i <= hi -> body l i = Ret (l ++ [f i])) -> loop lo hi body [] = Ret (map f (zrange lo hi)).
Proof.
  intros H. rewrite (loop_pure _ (fun l i => l ++ [f i])) by exact H. f_equal. assert (G : forall k l, fold_left (fun l i => l ++ [f i]) k l = l ++ map f k) by (induction k as [|x k IH]; intros l; cbn [fold_left map]; [now rewrite app_nil_r|]; rewrite IH, <- app_assoc; reflexivity). apply G.
Qed.

Lemma list_as_map {T} (d : T) (l : list T) : l = map (znth d l) (zrange 0 (Z.of_nat (length l) - 1)).
Proof.
  apply nth_ext with (d := d) (d' := znth d l 0); [rewrite map_length, zrange_length; lia|]. intros k K. rewrite (map_nth (znth d l)).
  assert (E : nth k (zrange 0 (Z.of_nat (length l) - 1)) 0 = Z.of_nat k). { unfold zrange. rewrite (nth_indep _ 0 ((fun k => 0 + Z.of_nat k) O)) by (rewrite map_length, seq_length; lia). rewrite (map_nth (fun k => 0 + Z.of_nat k)). rewrite seq_nth by lia. lia. }
  rewrite E. unfold znth. now rewrite Nat2Z.id.
Qed.
Lemma change_ok log n (delta : array b64) iFrame a b : Z.of_nat (length a) = n -> Z.of_nat (length b) = n -> 1 <= iFrame -> (iFrame + 1) * n <= size delta ->
  (forall i, 0 <= i < n -> cell delta ((iFrame - 1) * n + i) = Some (znth fzero a i)) -> (forall i, 0 <= i < n -> cell delta (iFrame * n + i) = Some (znth fzero b i)) -> change log n delta iFrame = Ret (divergence log a b).
Proof.
  intros LA LB F SZ CA CB. unfold change. rewrite (loop_pure _ (fun c i => f64_to_32 (fadd (f32_to_64 c) (fmul (znth fzero a i) (log (fadd (Bdiv mode_NE (znth fzero a i) (if flt (znth fzero b i) eps then eps else znth fzero b i)) eps)))))).
  - f_equal. unfold divergence. replace (combine a b) with (map (fun i => (znth fzero a i, znth fzero b i)) (zrange 0 (n - 1))).
    + generalize (zrange 0 (n - 1)). intros l. generalize z32. induction l as [|i l IH]; intros c; [reflexivity|]. cbn [map fold_left]. apply IH.
    + assert (EA := list_as_map fzero a). assert (EB := list_as_map fzero b). rewrite LA in EA. rewrite LB in EB. transitivity (combine (map (znth fzero a) (zrange 0 (n - 1))) (map (znth fzero b) (zrange 0 (n - 1)))); [|now rewrite <- EA, <- EB]. clear. generalize (zrange 0 (n - 1)). induction l as [|i l IH]; [reflexivity|]. cbn [map combine]. now rewrite IH.
  - intros c i I. unfold rd. rewrite CA, CB by lia. replace ((0 <=? (iFrame - 1) * n + i) && ((iFrame - 1) * n + i <? size delta)) with true by (symmetry; apply andb_true_intro; split; [apply Z.leb_le|apply Z.ltb_lt]; nia). replace ((0 <=? iFrame * n + i) && (iFrame * n + i <? size delta)) with true by (symmetry; apply andb_true_intro; split; [apply Z.leb_le|apply Z.ltb_lt]; nia). reflexivity.
Qed.
Section Whole.
  Context (log : b64 -> b64) (chords : list chord) (times : list Z) (obs : list (list b64)).
  Notation n := (Z.of_nat (length chords)).
  Notation rows := (rows_of (W := doubles) n (chord_start n) (chord_moves n) obs).
  Notation scales := (scales_of (W := doubles) n (chord_start n) (chord_moves n) obs).
  Notation path := (path_of (W := doubles) n (chord_start n) (chord_moves n) obs).
  Lemma transcription_ok : chords <> [] -> c_notes (znth no_chord chords (n - 1)) = [] -> obs <> [] -> length obs = length times -> Forall (fun o => Z.of_nat (length o) = n) obs ->
    exists r, transcribe_chords log chords times obs = Ret r /\ transcription_of log chords times obs r.
  Proof.
    intros NC NN NO LT F. assert (P : 0 < n) by (destruct chords; [now destruct NC|cbn [length]; lia]). assert (FT := chord_fitting n P obs NO F). assert (LO : 1 <= Z.of_nat (length obs)) by (destruct obs; [now destruct NO|cbn [length]; lia]).
    destruct (first_chord n P obs NO F) as (p & EP). destruct (path_of_range (W := doubles) n (chord_start n) (chord_moves n) obs FT) as (PL & PR).
    unfold transcribe_chords. destruct (decoder_runs doubles n (chord_start n) (chord_moves n) obs (fresh (Z.of_nat (length times) * n)) [] FT) as (r & ER & _ & RP & _ & _ & RS & RZ & RD & _); [cbn [size fresh]; change (Z.of_nat (@length (list b64) obs) * n <= Z.of_nat (length times) * n); lia|].
    change (v_num doubles) with b64 in *. rewrite ER. cbn [bind]. unfold transcribed. rewrite RP. assert (PL' : length path = length times) by (rewrite PL; exact LT). assert (PN : path <> []) by (rewrite EP; discriminate).
    assert (H0 : hd 0 path = n - 1) by now rewrite EP. assert (Z0 : znth 0 path 0 = n - 1) by now rewrite EP.
    rewrite (elt_ok 0) by lia. cbn [bind]. rewrite Z0. rewrite (elt_ok 0) by lia. cbn [bind]. rewrite (elt_ok no_chord) by lia. cbn [bind].
    destruct (steps_ok chords times path PL' PR PN H0 NN) as ((((old & out) & notes) & oldnotes) & ES & EO & EN). rewrite ES. cbn [bind].
    assert (LR : length scales = length times) by (unfold scales_of; cbn [length]; rewrite <- LT; destruct obs as [|o os]; [now destruct NO|]; cbn [tl length]; f_equal; generalize (first_row (W := doubles) n (chord_start n) (o :: os)); clear; induction os as [|o os IH]; intros row; [reflexivity|]; cbn [scales_from length]; f_equal; apply IH).
    cbn [app] in RS. change (@length b64 scales = length times) in LR.
    assert (RL : forall row os, Z.of_nat (length row) = n -> Forall (fun r => Z.of_nat (length r) = n) (rows_from (W := doubles) n (chord_moves n) row os)).
    { intros row os. revert row. induction os as [|o os IH]; intros row Hr; [repeat constructor; exact Hr|]. cbn [rows_from]. constructor; [exact Hr|]. apply IH. unfold next_row. destruct (v_gt _ _); [unfold share, raw_row, states; rewrite !map_length, zrange_length; lia|rewrite repeat_length; lia]. }
    assert (RR : Forall (fun r : list b64 => Z.of_nat (length r) = n) rows) by (apply RL; unfold first_row, share, start_row, states; rewrite !map_length, zrange_length; lia).
    assert (NR : Z.of_nat (length rows) = Z.of_nat (length times)). { rewrite <- LT. unfold rows_of. generalize (first_row (W := doubles) n (chord_start n) obs). destruct obs as [|o os]; [now destruct NO|]. cbn [tl]. clear. revert o. induction os as [|o' os IH]; intros o row; [reflexivity|]. cbn [rows_from length]. rewrite !Nat2Z.inj_succ. f_equal. rewrite <- Nat2Z.inj_succ. apply (IH o'). }
    change (Z.of_nat (@length (list b64) rows) = Z.of_nat (length times)) in NR.
    rewrite (pushes (fun i => divergence log (znth [] rows (i - 1)) (znth [] rows i))).
    2: { intros l i I. rewrite (change_ok log n (d_delta r) i (znth [] rows (i - 1)) (znth [] rows i)); [reflexivity|apply (Forall_znth [] _ _ _ RR); change (0 <= i - 1 < Z.of_nat (@length (list b64) rows)); lia|apply (Forall_znth [] _ _ _ RR); change (0 <= i < Z.of_nat (@length (list b64) rows)); lia|lia| | |].
         - rewrite RZ. cbn [size fresh]. nia.
         - intros k K. apply RD; [change (0 <= i - 1 < Z.of_nat (@length (list b64) obs)); lia|exact K].
         - intros k K. apply RD; [change (0 <= i < Z.of_nat (@length (list b64) obs)); lia|exact K]. }
    cbn [bind]. rewrite RS. rewrite (pushes (fun i => f64_to_32 (Bopp (log (znth fzero scales i))))). 2: { intros l i I. rewrite (elt_ok fzero); [reflexivity|]. change (0 <= i < Z.of_nat (@length b64 scales)). lia. }
    cbn [bind]. rewrite (elt_ok 0) by lia. cbn [bind]. assert (LL : znth 0 times (Z.of_nat (length times) - 1) = last times 0).
    { unfold znth. destruct times as [|t ts]; [cbn [length] in LT; lia|]. replace (Z.to_nat (Z.of_nat (length (t :: ts)) - 1)) with (length ts) by (cbn [length]; lia). clear. revert t. induction ts as [|t' ts IH]; intros t; [reflexivity|]. exact (IH t'). }
    rewrite LL. eexists. split; [reflexivity|]. split; [exact H0|]. split; [exact PL'|]. split; [exact PR|]. cbn [t_chords t_notes t_likelihood t_change]. split; [now rewrite EO|]. split; [apply EN|]. split; [|split; [exact LR|now rewrite PL']].
    assert (EL := list_as_map fzero scales). rewrite LR in EL. assert (G : forall l, map (fun i => f64_to_32 (Bopp (log (znth fzero scales i)))) l = map (fun s => f64_to_32 (Bopp (log s))) (map (znth fzero scales) l)) by (clear; induction l as [|i l IH]; [reflexivity|]; cbn [map]; now rewrite IH). rewrite G, <- EL. reflexivity.
  Qed.
End Whole.
