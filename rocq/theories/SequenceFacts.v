(** Facts about malformed files, discretisation and the note sequence of a chromagram. *)
From Coq Require Import Lia Lra Ascii Reals Sorted Permutation.
From Flocq Require Import Core.Core IEEE754.BinarySingleNaN.
From Verif Require Import Base BaseFacts Fp Key PitchClass Text Options Output Chromagram MusicSpec TextSpec TextFacts NumberFacts ReadFacts ChromaSpec ChromaFacts.
From Coq Require Import ZifyBool ZifyNat.
Open Scope Z_scope.

(** ** C35 *)
Lemma tokens_throw t1 : forall ys tok t2 t m es j e, Forall2 token_value t1 ys -> (t1 <> [] -> is_nan t = false) -> clean es -> shows m es -> stof tok = Throws e ->
  csv_tokens (Z.of_nat (S j)) t m (t1 ++ tok :: t2) = Throws e.
Proof.
  induction t1 as [|a t1 IH]; intros ys tok t2 t m es j e F T C S E; inversion F as [|? y ? ys' Fa F']; subst.
  - cbn [app csv_tokens]. rewrite E. reflexivity.
  - destruct (token_stof a y Fa) as (x & Ex & Ey). cbn [app csv_tokens]. rewrite Ex. cbn [bind].
    replace (Z.of_nat (Datatypes.S j) =? 0) with false by lia. rewrite Ey. specialize (T ltac:(discriminate)). rewrite set_cell_ok by exact T. cbn [bind].
    replace (Z.of_nat (Datatypes.S j) - 1) with (Z.of_nat j) by lia. rewrite column_index_mod by lia.
    assert (P : 0 <= (9 + Z.of_nat j) mod 12 < 12) by (apply Z.mod_pos_bound; lia).
    pose proof (shows_snoc m es t ((9 + Z.of_nat j) mod 12) y C S T P) as S'.
    replace (Z.of_nat (Datatypes.S j) + 1) with (Z.of_nat (Datatypes.S (Datatypes.S j))) by lia.
    eapply IH; [exact F'|intros _; exact T| |exact S'|exact E].
    apply clean_app. split; [exact C|]. constructor; [split; [exact T|exact P]|constructor].
Qed.
Lemma row_throw line t1 ys tok t2 t m es e : fields "," line (t1 ++ tok :: t2) -> Forall2 token_value t1 ys -> proper_row ys -> clean es -> shows m es -> stof tok = Throws e ->
  csv_tokens 0 t m (pieces "," line) = Throws e.
Proof.
  intros Fd F P C S E. apply fields_iff in Fd. rewrite Fd. destruct F as [|a y t1 ys Fa F].
  - cbn [app csv_tokens]. rewrite E. reflexivity.
  - destruct (token_stof a y Fa) as (x & Ex & Ey). cbn [app csv_tokens]. rewrite Ex. cbn [bind Z.eqb]. rewrite Ey.
    apply (tokens_throw t1 ys tok t2 y m es 0 e F); [|exact C|exact S|exact E]. intros N. destruct F; [now elim N|]. exact P.
Qed.
Lemma lines_throw l1 rows bad l2 t1 ys tok t2 e : Forall2 row_text l1 rows -> Forall proper_row rows ->
  fields "," bad (t1 ++ tok :: t2) -> Forall2 token_value t1 ys -> proper_row ys -> stof tok = Throws e ->
  forall t m es, clean es -> shows m es -> csv_lines t m (l1 ++ bad :: l2) = Throws e.
Proof.
  intros F P Fd Ft Py E. induction F as [|line row l1 rows R F IH]; intros t m es C S.
  - cbn [app csv_lines]. now rewrite (row_throw bad t1 ys tok t2 t m es e Fd Ft Py C S E).
  - apply Forall_cons_iff in P. destruct P as [P Ps]. destruct (row_values line row t m es R P C S) as (t' & m' & E' & S'). cbn [app csv_lines]. rewrite E'. cbn [bind fst snd].
    apply (IH Ps t' m' (es ++ row_events row)); [apply clean_app; split; [exact C|now apply row_clean]|exact S'].
Qed.
(** Everything before the first bad field can be read. *)
Definition first_bad (content : string) (tok : string) : Prop :=
  exists l1 rows bad l2 t1 ys t2, fields "010" content (l1 ++ bad :: l2) /\ Forall2 row_text l1 rows /\ Forall proper_row rows /\
    fields "," bad (t1 ++ tok :: t2) /\ Forall2 token_value t1 ys /\ proper_row ys.
Lemma bad_throw content tok e : first_bad content tok -> stof tok = Throws e -> chromagram_from_csv (Some content) = Throws e.
Proof.
  intros (l1 & rows & bad & l2 & t1 & ys & t2 & Fc & F & P & Fd & Ft & Py) E. apply fields_iff in Fc. unfold chromagram_from_csv. change (chr 10) with "010"%char.
  rewrite Fc. now rewrite (lines_throw l1 rows bad l2 t1 ys tok t2 e F P Fd Ft Py E fzero [] [] (Forall_nil _) shows_nil).
Qed.
Lemma C35_invalid_proof content tok : first_bad content tok -> ~ begins_number tok -> chromagram_from_csv (Some content) = Throws StdInvalidArgument.
Proof. intros B N. apply (bad_throw content tok); [exact B|]. now apply stof_invalid. Qed.
Lemma C35_range_proof content ws d r : first_bad content (ws ++ show_decimal d ++ r) -> spaces ws -> well_formed d -> ends_here d r ->
  overflows 24 128 d \/ underflows32 d -> chromagram_from_csv (Some content) = Throws StdOutOfRange.
Proof. intros B W K E O. apply (bad_throw content (ws ++ show_decimal d ++ r)); [exact B|]. now apply stof_range. Qed.
(** Wherever the bad field is, the file is not read. *)
Lemma tokens_ret toks : forall i t m r, csv_tokens i t m toks = Ret r -> Forall (fun tok => exists x, stof tok = Ret x) toks.
Proof.
  induction toks as [|tok toks IH]; intros i t m r E; [constructor|]. cbn [csv_tokens] in E. destruct (stof tok) as [x| |] eqn:X; try discriminate. cbn [bind] in E.
  constructor; [now exists x|]. destruct (i =? 0); [now apply IH in E|]. destruct (set_cell _ _ _ _); try discriminate. cbn [bind] in E. now apply IH in E.
Qed.
Lemma lines_ret lines : forall t m r, csv_lines t m lines = Ret r -> Forall (fun line => Forall (fun tok => exists x, stof tok = Ret x) (pieces "," line)) lines.
Proof.
  induction lines as [|line lines IH]; intros t m r E; [constructor|]. cbn [csv_lines] in E. destruct (csv_tokens _ _ _ _) as [tm| |] eqn:X; try discriminate. cbn [bind] in E.
  constructor; [now apply tokens_ret in X|]. now apply IH in E.
Qed.
Lemma C35_never_read_proof content lines line toks tok : fields "010" content lines -> In line lines -> fields "," line toks -> In tok toks -> ~ begins_number tok ->
  forall r, chromagram_from_csv (Some content) <> Ret r.
Proof.
  intros Fc Il Fd It N r E. apply fields_iff in Fc, Fd. unfold chromagram_from_csv in E. change (chr 10) with "010"%char in E. rewrite Fc in E.
  destruct (csv_lines fzero [] lines) as [m| |] eqn:X; try discriminate. apply lines_ret in X. rewrite Forall_forall in X. specialize (X line Il). rewrite Fd in X.
  rewrite Forall_forall in X. destruct (X tok It) as (x & Ex). apply stof_invalid in N. congruence.
Qed.

(** ** C36 *)
Lemma update_new_last t f m : is_nan t = false -> Forall (fun g => earlier (fst g) t) m -> map_update t f m = m ++ [(t, f zero_vector)].
Proof.
  intros T. induction m as [|[u v] m IH]; intros F; [reflexivity|]. apply Forall_cons_iff in F. destruct F as [Fu F]. cbn [fst] in Fu. cbn [map_update app].
  replace (flt t u) with false.
  2:{ symmetry. apply not_true_is_false. intros X. pose proof (earlier_trans t u t X Fu) as Y. exact (earlier_not_same _ _ Y (same_time_refl t T)). }
  replace (flt u t) with true by (symmetry; exact Fu). now rewrite IH.
Qed.
Lemma update_last t f m v : is_nan t = false -> Forall (fun g => earlier (fst g) t) m -> map_update t f (m ++ [(t, v)]) = m ++ [(t, f v)].
Proof.
  intros T. induction m as [|[u w] m IH]; intros F.
  - cbn [app map_update]. replace (flt t t) with false; [reflexivity|]. symmetry. apply not_true_is_false. intros X. exact (earlier_not_same t t X (same_time_refl t T)).
  - apply Forall_cons_iff in F. destruct F as [Fu F]. cbn [fst] in Fu. cbn [map_update app].
    replace (flt t u) with false.
    2:{ symmetry. apply not_true_is_false. intros X. pose proof (earlier_trans t u t X Fu) as Y. exact (earlier_not_same _ _ Y (same_time_refl t T)). }
    replace (flt u t) with true by (symmetry; exact Fu). now rewrite IH.
Qed.
Lemma twelve {A} (v : list A) : length v = 12%nat -> exists a b c d e f g h i j k l, v = [a; b; c; d; e; f; g; h; i; j; k; l].
Proof.
  intros H. do 12 (destruct v as [|? v]; [discriminate|]). destruct v; [|discriminate]. repeat eexists.
Qed.
Lemma discretize_frame_spec m t v : is_nan t = false -> Forall (fun g => earlier (fst g) t) m -> length v = 12%nat ->
  discretize_frame m (t, v) = m ++ [(t, map ffloor v)].
Proof.
  intros T F L. unfold discretize_frame. cbn [fst snd]. change (zseq 12) with [0;1;2;3;4;5;6;7;8;9;10;11]. cbn [fold_left].
  rewrite (update_new_last t _ m T F). do 11 rewrite (update_last t _ m _ T F).
  destruct (twelve v L) as (a & b & c & d & e & f & g & h & i & j & k & l & ->). reflexivity.
Qed.
Lemma discretize_spec m : ordered m -> no_nan m -> Forall (fun f => length (snd f) = 12%nat) m ->
  discretize m = map (fun f => (fst f, map ffloor (snd f))) m.
Proof.
  intros O N W. unfold discretize.
  assert (G : forall acc, Forall (fun f => Forall (fun g => earlier (fst g) (fst f)) acc) m ->
     fold_left discretize_frame m acc = acc ++ map (fun f => (fst f, map ffloor (snd f))) m).
  { induction m as [|[t v] m IH]; intros acc A; [now rewrite app_nil_r|]. apply Forall_cons_iff in A, N, W. destruct A as [At A], N as [Nt N], W as [Wt W]. cbn [fst snd] in *.
    apply StronglySorted_inv in O. destruct O as [O L]. cbn [fold_left map fst snd]. rewrite discretize_frame_spec by assumption. rewrite IH; try assumption.
    - rewrite <- app_assoc. reflexivity.
    - apply Forall_forall. intros f I. apply Forall_app. split; [rewrite Forall_forall in A; now apply A|]. constructor; [|constructor]. cbn [fst]. rewrite Forall_forall in L. now apply L. }
  apply G. clear. induction m; constructor; auto.
Qed.
Lemma ffloor_floored x : floored x (ffloor x).
Proof.
  intros F. unfold ffloor. destruct (Bnearbyint_correct prec64 emax64 prec64_lt mode_DN x) as (A & B & C). split; [etransitivity; [exact B|exact F]|].
  etransitivity; [exact A|]. unfold round, scaled_mantissa, F2R, cexp, FIX_exp. cbn. now rewrite !Rmult_1_r.
Qed.
Lemma ffloor_whole x n : is_finite x = true -> B2R x = IZR n -> ffloor x = x.
Proof.
  intros F E. destruct (ffloor_floored x F) as [F' V]. apply B2R_Bsign_inj; [exact F'|exact F| |].
  - rewrite V, E. now rewrite Zfloor_IZR.
  - unfold ffloor. destruct (Bnearbyint_correct prec64 emax64 prec64_lt mode_DN x) as (_ & _ & C). apply C. unfold ffloor in F'.
    destruct (Bnearbyint mode_DN x); try discriminate; reflexivity.
Qed.
Lemma C36_proof content rows : csv_text content rows -> Forall proper_row rows ->
  exists c, chromagram_csv (Some content) = Ret c /\ ch_status c = CHROMAGRAM_DISCRETE_READY /\ shows (ch_original c) (rows_events rows) /\
    map fst (ch_discrete c) = map fst (ch_original c) /\ Forall2 (fun f g => Forall2 floored (snd f) (snd g)) (ch_original c) (ch_discrete c).
Proof.
  intros T P. destruct (C33_proof content rows T P) as (m & E & S). exists (mkChromagram CHROMAGRAM_DISCRETE_READY m (discretize m)).
  unfold chromagram_csv, chromagram_of. rewrite E. cbn [bind]. split; [reflexivity|]. split; [reflexivity|]. cbn [ch_original ch_discrete]. split; [exact S|].
  rewrite discretize_spec.
  - rewrite map_map. split; [now apply map_ext|]. clear. induction m as [|[t v] m IH]; constructor; [|exact IH]. cbn [snd]. induction v; constructor; [apply ffloor_floored|assumption].
  - exact (sh_sorted _ _ S).
  - apply (shows_no_nan m (rows_events rows)); [now apply rows_clean|exact S].
  - apply Forall_forall. intros [t v] I. exact (sh_width _ _ S t v I).
Qed.

(** ** The counting loop *)
Lemma loop_up pc fuel : forall n acc, 0 <= n ->
  run_loop fuel (count_body pc) (n, acc) =
  if n <? Zpos fuel then inr (Ret (acc ++ repeat (pc_of_int pc) (Z.to_nat n)))
  else inl (n - Zpos fuel, acc ++ repeat (pc_of_int pc) (Pos.to_nat fuel)).
Proof.
  assert (B : forall n acc, 0 <= n -> count_body pc (n, acc) = if n =? 0 then inr (Ret acc) else inl (n - 1, acc ++ [pc_of_int pc])).
  { intros n acc N. unfold count_body, decr. destruct (n =? 0) eqn:Z; [reflexivity|]. change INT_MIN with (-2147483648). now replace (n =? -2147483648) with false by lia. }
  induction fuel as [p IH|p IH|]; intros n acc N; cbn [run_loop].
  - rewrite B by exact N. destruct (n =? 0) eqn:Z.
    + apply Z.eqb_eq in Z. subst n. now rewrite app_nil_r.
    + apply Z.eqb_neq in Z. rewrite IH by lia. destruct (n - 1 <? Zpos p) eqn:A.
      * replace (n <? Zpos p~1) with true by lia. rewrite <- app_assoc. do 3 f_equal. replace (Z.to_nat n) with (Datatypes.S (Z.to_nat (n - 1))) by lia. reflexivity.
      * rewrite IH by lia. rewrite <- !app_assoc. destruct (n - 1 - Zpos p <? Zpos p) eqn:C.
        -- replace (n <? Zpos p~1) with true by lia. do 3 f_equal. rewrite <- repeat_app. change [pc_of_int pc] with (repeat (pc_of_int pc) 1). rewrite <- repeat_app. f_equal. lia.
        -- replace (n <? Zpos p~1) with false by lia. f_equal. f_equal; [lia|]. f_equal. change [pc_of_int pc] with (repeat (pc_of_int pc) 1). rewrite <- !repeat_app. f_equal. lia.
  - rewrite IH by lia. destruct (n <? Zpos p) eqn:A; [now replace (n <? Zpos p~0) with true by lia|]. rewrite IH by lia. rewrite <- !app_assoc, <- !repeat_app.
    destruct (n - Zpos p <? Zpos p) eqn:C.
    + replace (n <? Zpos p~0) with true by lia. do 4 f_equal. lia.
    + replace (n <? Zpos p~0) with false by lia. f_equal. f_equal; [lia|]. do 2 f_equal. lia.
  - rewrite B by exact N. destruct (n =? 0) eqn:Z.
    + apply Z.eqb_eq in Z. subst n. now rewrite app_nil_r.
    + now replace (n <? 1) with false by lia.
Qed.
Lemma loop_down pc fuel : forall n acc, INT_MIN <= n < 0 ->
  run_loop fuel (count_body pc) (n, acc) =
  if n - INT_MIN <? Zpos fuel then inr (Undef SignedOverflow) else inl (n - Zpos fuel, acc ++ repeat (pc_of_int pc) (Pos.to_nat fuel)).
Proof.
  change INT_MIN with (-2147483648).
  assert (B : forall n acc, n < 0 -> count_body pc (n, acc) = if n =? INT_MIN then inr (Undef SignedOverflow) else inl (n - 1, acc ++ [pc_of_int pc])).
  { intros n acc N. unfold count_body, decr. replace (n =? 0) with false by lia. now destruct (n =? INT_MIN). }
  change INT_MIN with (-2147483648) in B.
  induction fuel as [p IH|p IH|]; intros n acc N; cbn [run_loop].
  - rewrite B by lia. destruct (n =? -2147483648) eqn:Z; [now replace (n - -2147483648 <? Zpos p~1) with true by lia|]. rewrite IH by lia.
    destruct (n - 1 - -2147483648 <? Zpos p) eqn:A; [now replace (n - -2147483648 <? Zpos p~1) with true by lia|]. rewrite IH by lia. rewrite <- !app_assoc.
    destruct (n - 1 - Zpos p - -2147483648 <? Zpos p) eqn:C; [now replace (n - -2147483648 <? Zpos p~1) with true by lia|].
    replace (n - -2147483648 <? Zpos p~1) with false by lia. f_equal. f_equal; [lia|]. f_equal. change [pc_of_int pc] with (repeat (pc_of_int pc) 1). rewrite <- !repeat_app. f_equal. lia.
  - rewrite IH by lia. destruct (n - -2147483648 <? Zpos p) eqn:A; [now replace (n - -2147483648 <? Zpos p~0) with true by lia|]. rewrite IH by lia. rewrite <- !app_assoc, <- !repeat_app.
    destruct (n - Zpos p - -2147483648 <? Zpos p) eqn:C; [now replace (n - -2147483648 <? Zpos p~0) with true by lia|].
    replace (n - -2147483648 <? Zpos p~0) with false by lia. f_equal. f_equal; [lia|]. do 2 f_equal. lia.
  - rewrite B by lia. destruct (n =? -2147483648) eqn:Z; [now replace (n - -2147483648 <? 1) with true by lia|]. now replace (n - -2147483648 <? 1) with false by lia.
Qed.
Lemma count_up pc n : 0 <= n < 2 ^ 33 -> count_loop pc n = Ret (repeat (pc_of_int pc) (Z.to_nat n)).
Proof. intros H. unfold count_loop. rewrite loop_up by lia. now replace (n <? Zpos (2 ^ 33)) with true by lia. Qed.
Lemma count_down pc n : INT_MIN <= n < 0 -> count_loop pc n = Undef SignedOverflow.
Proof. intros H. unfold count_loop. rewrite loop_down by exact H. change INT_MIN with (-2147483648) in *. now replace (n - -2147483648 <? Zpos (2 ^ 33)) with true by lia. Qed.

(** ** Whole numbers *)
Lemma trunc_whole x n : is_finite x = true -> B2R x = IZR n -> trunc x = n.
Proof.
  intros F E. destruct x as [s|s| |s m e B]; try discriminate.
  - apply eq_IZR. exact E.
  - cbn [trunc]. cbn [B2R] in E. destruct (e <? 0) eqn:L.
    + assert (P : 0 < 2 ^ (- e)) by (apply Z.pow_pos_nonneg; lia).
      assert (Q : cond_Zopp s (Zpos m) = n * 2 ^ (- e)).
      { apply eq_IZR. rewrite mult_IZR, <- E. unfold F2R. cbn [Fnum Fexp]. change 2 with (radix_val radix2). rewrite IZR_Zpower by lia. rewrite Rmult_assoc, <- bpow_plus.
        replace (e + - e) with 0 by lia. cbn [bpow]. now rewrite Rmult_1_r. }
      destruct s; cbn [cond_Zopp] in *.
      * replace (Zpos m) with ((- n) * 2 ^ (- e)) by lia. rewrite Z.div_mul by lia. lia.
      * rewrite Q. apply Z.div_mul. lia.
    + apply eq_IZR. rewrite <- E. unfold F2R. cbn [Fnum Fexp]. rewrite <- (IZR_Zpower radix2) by lia. change (radix_val radix2) with 2. rewrite <- mult_IZR. f_equal. destruct s; cbn [cond_Zopp]; lia.
Qed.
Lemma to_int_whole x n : whole x n -> to_int x = Ret n.
Proof.
  intros (F & E & R). unfold to_int. rewrite (trunc_whole x n F E). change INT_MIN with (-2147483648); change INT_MAX with 2147483647.
  rewrite (F : is_finite (x : b64) = true). replace (-2147483648 <=? n) with true by lia. now replace (n <=? 2147483647) with true by lia.
Qed.
Lemma pitch_up pc x n : whole x n -> 0 <= n -> pitch_notes pc x = Ret (repeat (pc_of_int pc) (Z.to_nat (n - 1))).
Proof.
  intros W N. unfold pitch_notes. rewrite (to_int_whole x n W). cbn [bind]. destruct W as (_ & _ & R). destruct (n =? 0) eqn:Z.
  - apply Z.eqb_eq in Z. subst n. cbn [bind]. now rewrite count_up by lia.
  - unfold decr; change INT_MIN with (-2147483648). replace (n =? -2147483648) with false by lia. cbn [bind]. now rewrite count_up by lia.
Qed.
Lemma pitch_down pc x n : whole x n -> n < 0 -> pitch_notes pc x = Undef SignedOverflow.
Proof.
  intros W N. unfold pitch_notes. rewrite (to_int_whole x n W). cbn [bind]. destruct W as (_ & _ & R). replace (n =? 0) with false by lia.
  unfold decr; change INT_MIN with (-2147483648). destruct (n =? -2147483648) eqn:M; [reflexivity|]. cbn [bind]. apply count_down. change INT_MIN with (-2147483648). lia.
Qed.
Lemma frame_up vec ns : Forall2 whole vec ns -> Forall (fun n => 0 <= n) ns -> forall k,
  frame_notes (Z.of_nat k) vec = Ret (map pc_of_int (flat_map (fun pn => repeat (fst pn) (Z.to_nat (snd pn - 1))) (combine (map Z.of_nat (seq k (length ns))) ns))).
Proof.
  induction 1 as [|x n vec ns W F IH]; intros P k; [reflexivity|]. apply Forall_cons_iff in P. destruct P as [Pn P]. cbn [frame_notes]. rewrite (pitch_up _ x n W Pn). cbn [bind].
  replace (Z.of_nat k + 1) with (Z.of_nat (Datatypes.S k)) by lia. rewrite IH by exact P. cbn [bind length seq map combine flat_map fst snd]. rewrite map_app. f_equal. f_equal.
  generalize (Z.to_nat (n - 1)). intros j. induction j; cbn [repeat map]; [reflexivity|]. now rewrite <- IHj.
Qed.
Lemma frame_down vec ns : Forall2 whole vec ns -> Exists (fun n => n < 0) ns -> forall pc, frame_notes pc vec = Undef SignedOverflow.
Proof.
  induction 1 as [|x n vec ns W F IH]; intros P pc; [inversion P|]. cbn [frame_notes]. destruct (Z_lt_le_dec n 0) as [L|L].
  - now rewrite (pitch_down pc x n W L).
  - rewrite (pitch_up pc x n W L). cbn [bind]. inversion P; [lia|]. subst. now rewrite IH.
Qed.
Lemma frame_whole vec ns pc : Forall2 whole vec ns -> (exists l, frame_notes pc vec = Ret l) \/ frame_notes pc vec = Undef SignedOverflow.
Proof.
  intros F. revert pc. induction F as [|x n vec ns W F IH]; intros pc; [left; eexists; reflexivity|]. cbn [frame_notes]. destruct (Z_lt_le_dec n 0) as [L|L].
  - right. now rewrite (pitch_down pc x n W L).
  - rewrite (pitch_up pc x n W L). cbn [bind]. destruct (IH (pc + 1)) as [(l & ->)| ->]; cbn [bind]; [left; eexists; reflexivity|now right].
Qed.
Lemma vector_eqb_iff a b : vector_eqb a b = true <-> same_values a b.
Proof.
  revert b. induction a as [|x a IH]; intros [|y b]; cbn [vector_eqb]; split; intros H; try discriminate; try (inversion H; fail); try constructor; try reflexivity.
  - apply andb_prop in H. exact (proj1 H).
  - apply IH. apply andb_prop in H. exact (proj2 H).
  - inversion H; subst. apply andb_true_intro. split; [assumption|]. now apply IH.
Qed.
Lemma next_past past (m : chroma_map) : match m with (_, v) :: _ => Ret v | [] => Ret past end = Ret (hd past (map snd m)).
Proof. now destruct m as [|[t v] m]. Qed.

(** ** C37-C39 *)
Lemma C38_proof past m l notes : kept past (map snd m) l -> Forall2 spelled l notes -> sequence (Some past) m = Ret (map pc_of_int (concat notes)).
Proof.
  revert l notes. induction m as [|[t vec] m IH]; intros l notes K S; cbn [map snd] in K.
  - inversion K; subst. inversion S; subst. reflexivity.
  - cbn [sequence]. rewrite (next_past past m). cbn [bind]. inversion K as [|v m' l' E K'|v m' l' E K']; subst.
    + apply vector_eqb_iff in E. rewrite E. now apply (IH l).
    + destruct (vector_eqb vec (hd past (map snd m))) eqn:Q; [apply vector_eqb_iff in Q; contradiction|]. inversion S as [|? n0 ? ns (zs & W & P & ->) S']; subst.
      rewrite (frame_up vec zs W P 0 : frame_notes 0 vec = _). cbn [bind]. rewrite (IH l' ns K' S'). cbn [bind concat]. now rewrite map_app.
Qed.
Lemma kept_total past m : exists l, kept past m l.
Proof.
  induction m as [|v m (l & K)]; [eexists; constructor|]. destruct (vector_eqb v (hd past m)) eqn:E.
  - exists l. constructor; [now apply vector_eqb_iff|exact K].
  - exists (v :: l). constructor; [|exact K]. intros X. apply vector_eqb_iff in X. congruence.
Qed.
Lemma kept_unique past m : forall l l', kept past m l -> kept past m l' -> l = l'.
Proof. induction m as [|v m IH]; intros l l' A B; inversion A; inversion B; subst; try reflexivity; try contradiction; [now apply IH|f_equal; now apply IH]. Qed.
Lemma C39_proof past m l : kept past (map snd m) l -> Forall (fun vec => exists ns, Forall2 whole vec ns) l ->
  Exists (fun vec => Exists (fun x => is_finite x = true /\ (B2R x < 0)%R) vec) l -> sequence (Some past) m = Undef SignedOverflow.
Proof.
  revert l. induction m as [|[t vec] m IH]; intros l K W X; cbn [map snd] in K.
  - inversion K; subst. inversion X.
  - cbn [sequence]. rewrite (next_past past m). cbn [bind]. inversion K as [|v m' l' E K'|v m' l' E K']; subst.
    + apply vector_eqb_iff in E. rewrite E. now apply (IH l).
    + destruct (vector_eqb vec (hd past (map snd m))) eqn:Q; [apply vector_eqb_iff in Q; contradiction|]. apply Forall_cons_iff in W. destruct W as [(ns & Wv) W].
      apply Exists_cons in X. destruct X as [X|X].
      * rewrite (frame_down vec ns); [reflexivity|exact Wv|]. clear - Wv X. induction Wv as [|x n vec ns (F & V & R) Wv IH]; inversion X as [? ? (_ & L)|]; subst; [|right; now apply IH].
        left. apply lt_IZR. now rewrite <- V.
      * destruct (frame_whole vec ns 0 Wv) as [(a & ->)| ->]; cbn [bind]; [|reflexivity]. now rewrite (IH l' K' W X).
Qed.
Lemma trunc_negative x : is_finite x = true -> (B2R x <= -1)%R -> trunc x < 0.
Proof.
  intros F L. destruct x as [s|s| |s m e B]; try discriminate.
  - cbn [B2R] in L. lra.
  - cbn [B2R] in L. assert (Q : s = true).
    { destruct s; [reflexivity|]. exfalso. assert (0 <= F2R (Float radix2 (cond_Zopp false (Zpos m)) e))%R by (apply F2R_ge_0; cbn; lia). lra. }
    subst s. cbn [trunc cond_Zopp]. destruct (e <? 0) eqn:N.
    + assert (P : 0 < 2 ^ (- e)) by (apply Z.pow_pos_nonneg; lia).
      assert (2 ^ (- e) <= Zpos m); [|enough (1 <= Zpos m / 2 ^ (- e)) by lia; apply Z.div_le_lower_bound; lia].
      apply le_IZR. change 2 with (radix_val radix2). rewrite IZR_Zpower by lia.
      unfold F2R in L. cbn [Fnum Fexp cond_Zopp] in L. change (Zneg m) with (- Zpos m) in L. rewrite opp_IZR in L. pose proof (bpow_gt_0 radix2 (- e)) as G.
      assert (H : (bpow radix2 e * bpow radix2 (- e) = 1)%R) by (rewrite <- bpow_plus; now replace (e + - e) with 0 by lia). nra.
    + pose proof (Z.pow_pos_nonneg 2 e). lia.
Qed.
Lemma frame_not_throws vec : forall pc e, frame_notes pc vec <> Throws e.
Proof.
  assert (P : forall pc x, (exists l, pitch_notes pc x = Ret l) \/ exists u, pitch_notes pc x = Undef u).
  { intros pc x. unfold pitch_notes, to_int. destruct (is_finite x && _ && _) eqn:C; cbn [bind]; [|right; eexists; reflexivity].
    assert (R : INT_MIN <= trunc x <= INT_MAX) by lia. destruct (trunc x =? 0) eqn:Z; cbn [bind].
    - apply Z.eqb_eq in Z. rewrite Z, count_up by lia. left; eexists; reflexivity.
    - unfold decr. destruct (trunc x =? INT_MIN) eqn:M; cbn [bind]; [right; eexists; reflexivity|]. change INT_MIN with (-2147483648) in *; change INT_MAX with 2147483647 in *. destruct (Z_lt_le_dec (trunc x) 0).
      + rewrite count_down by (change INT_MIN with (-2147483648); lia). right; eexists; reflexivity.
      + rewrite count_up by lia. left; eexists; reflexivity. }
  induction vec as [|x vec IH]; intros pc e; cbn [frame_notes]; [discriminate|]. destruct (P pc x) as [(l & ->)|(u & ->)]; cbn [bind]; [|discriminate].
  specialize (IH (pc + 1)). destruct (frame_notes (pc + 1) vec) as [b|e'|u]; cbn [bind]; [discriminate|now elim (IH e')|discriminate].
Qed.
Lemma frame_outcome vec pc : (exists l, frame_notes pc vec = Ret l) \/ exists u, frame_notes pc vec = Undef u.
Proof. pose proof (frame_not_throws vec pc) as T. destruct (frame_notes pc vec) as [l|e|u]; [left; now exists l|now elim (T e)|right; now exists u]. Qed.
Lemma frame_negative vec : Exists (fun x => is_finite x = true /\ (B2R x <= -1)%R) vec -> forall pc, exists u, frame_notes pc vec = Undef u.
Proof.
  induction 1 as [x vec (F & L)|x vec X IH]; intros pc.
  - pose proof (trunc_negative x F L) as N. cbn [frame_notes]. unfold pitch_notes, to_int. destruct (is_finite x && _ && _) eqn:C; cbn [bind]; [|eexists; reflexivity].
    replace (trunc x =? 0) with false by lia. unfold decr. destruct (trunc x =? INT_MIN) eqn:M; cbn [bind]; [eexists; reflexivity|]. rewrite count_down by lia. eexists; reflexivity.
  - destruct (frame_outcome (x :: vec) pc) as [(l & E)|H]; [|exact H]. exfalso. cbn [frame_notes] in E. destruct (pitch_notes pc x) as [a| |]; try discriminate. cbn [bind] in E.
    destruct (IH (pc + 1)) as (u & E'). rewrite E' in E. discriminate.
Qed.
Lemma C39_any_proof past m l : kept past (map snd m) l -> Exists (Exists (fun x => is_finite x = true /\ (B2R x <= -1)%R)) l -> exists u, sequence (Some past) m = Undef u.
Proof.
  revert l. induction m as [|[t vec] m IH]; intros l K X; cbn [map snd] in K.
  - inversion K; subst. inversion X.
  - cbn [sequence]. rewrite (next_past past m). cbn [bind]. inversion K as [|v m' l' E K'|v m' l' E K']; subst.
    + apply vector_eqb_iff in E. rewrite E. now apply (IH l).
    + destruct (vector_eqb vec (hd past (map snd m))) eqn:Q; [apply vector_eqb_iff in Q; contradiction|]. apply Exists_cons in X. destruct X as [X|X].
      * destruct (frame_negative vec X 0) as (u & ->). eexists; reflexivity.
      * destruct (frame_outcome vec 0) as [(a & ->)|(u & ->)]; cbn [bind]; [|eexists; reflexivity]. destruct (IH l' K' X) as (u & ->). eexists; reflexivity.
Qed.
Lemma C37_proof m : m <> [] -> exists u, sequence None m = Undef u.
Proof.
  induction m as [|[t vec] m IH]; intros N; [now elim N|]. cbn [sequence]. destruct m as [|[t' vec'] m].
  - cbn [bind]. now exists EndDeref.
  - cbn [bind]. destruct (IH ltac:(discriminate)) as (u & E). destruct (vector_eqb vec vec'); [now exists u|].
    pose proof (frame_not_throws vec 0) as T. destruct (frame_notes 0 vec) as [a|e|u']; cbn [bind]; [|now elim (T e)|now exists u']. rewrite E. now exists u.
Qed.
Lemma C37_end_proof m : m <> [] -> Forall (fun f => exists ns, Forall2 whole (snd f) ns /\ Forall (fun n => 0 <= n) ns) m -> sequence None m = Undef EndDeref.
Proof.
  induction m as [|[t vec] m IH]; intros N W; [now elim N|]. cbn [sequence]. destruct m as [|[t' vec'] m]; [reflexivity|].
  apply Forall_cons_iff in W. destruct W as [(ns & Wv & P) W]. cbn [snd] in Wv. cbn [bind]. specialize (IH ltac:(discriminate) W). destruct (vector_eqb vec vec'); [exact IH|].
  rewrite (frame_up vec ns Wv P 0 : frame_notes 0 vec = _). cbn [bind]. now rewrite IH.
Qed.
(** Repeating a frame changes nothing. *)
Lemma same_refl v : Forall (fun x => is_nan x = false) v -> same_values v v.
Proof. induction 1 as [|x v N F IH]; constructor; [|exact IH]. now apply same_time_refl. Qed.
Lemma C38_repeat_proof past a t t' vec b : Forall (fun x => is_nan x = false) vec ->
  sequence past (a ++ (t, vec) :: (t', vec) :: b) = sequence past (a ++ (t', vec) :: b).
Proof.
  intros N. induction a as [|[u w] a IH].
  - cbn [app]. cbn [sequence]. cbn [bind]. replace (vector_eqb vec vec) with true; [reflexivity|]. symmetry. apply vector_eqb_iff. now apply same_refl.
  - cbn [app sequence]. fold (sequence past). rewrite IH. destruct a as [|[u' w'] a]; reflexivity.
Qed.
