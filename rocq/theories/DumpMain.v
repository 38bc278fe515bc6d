(** Facts about the chromagram dump and reading it back. *)
From Coq Require Import Lia Ascii Reals Lra Sorted.
From Flocq Require Import Core.Core IEEE754.BinarySingleNaN.
From Verif Require Import Base BaseFacts Fp Key PitchClass Text Options Output Chromagram MusicSpec TextSpec TextFacts NumberFacts ReadFacts FormatFacts
  ChromaSpec ChromaFacts PrintSpec PrintFacts PrintUnique DumpFacts.
From Coq Require Import ZifyBool ZifyNat.
Open Scope Z_scope.

(** ** The text of a dump *)
Lemma print_line_join t values : print_line t values = (join "," (map format_g (t :: values)) ++ nl)%string.
Proof.
  unfold print_line. revert t. induction values as [|v values IH]; intros t; [reflexivity|]. cbn [fold_right].
  change (join "," (map format_g (t :: v :: values))) with (format_g t ++ String "," (join "," (map format_g (v :: values))))%string.
  rewrite app_string_assoc. cbn [append]. rewrite <- IH. reflexivity.
Qed.
Lemma columns_from_A vec : length vec = 12%nat -> map (fun i => znth fzero vec (column_index i)) (zseq 12) = from_A vec.
Proof.
  intros L. do 12 (destruct vec as [|? vec]; [discriminate|]). destruct vec; [|discriminate]. reflexivity.
Qed.
Definition ready (c : chromagram) : Prop := ch_status c = CHROMAGRAM_DISCRETE_READY.
Lemma in_print_format l : Forall2 in_print l (map format_g l).
Proof. induction l as [|x l IH]; [constructor|]. constructor; [apply format_in_print|exact IH]. Qed.
Lemma in_print_map l toks : Forall2 in_print l toks -> toks = map format_g l.
Proof. induction 1 as [|x s l toks P F IH]; [reflexivity|]. apply in_print_iff in P. cbn. congruence. Qed.
Lemma print_original_dump c : ready c -> Forall (fun f => length (snd f) = 12%nat) (ch_original c) -> dump_text (ch_original c) (print_original true c).
Proof.
  intros E W. unfold print_original. rewrite E. cbn [Z.eqb negb andb CHROMAGRAM_DISCRETE_READY CHROMAGRAM_ORIGINAL_READY Pos.eqb].
  induction W as [|f m L W IH]; [constructor|]. cbn [fold_right]. rewrite print_line_join, columns_from_A by exact L. rewrite app_string_assoc.
  change (nl ++ ?x)%string with (String "010" x). constructor; [|exact IH]. exists (map format_g (frame_row f)). split; [apply in_print_format|reflexivity].
Qed.
Lemma dump_unique m s s' : dump_text m s -> dump_text m s' -> s = s'.
Proof.
  intros D. revert s'. induction D as [|f m line rest L D IH]; intros s' D'; inversion_clear D' as [|? ? line' rest' L' D'']; [reflexivity|].
  destruct L as (toks & F & ->). destruct L' as (toks' & F' & ->). apply in_print_map in F, F'. subst. now rewrite (IH rest' D'').
Qed.

(** ** Reading it back *)
Definition odd_char (c : ascii) : Prop := ~ In c digit_chars /\ ~ In c ["."; "-"; "+"; "e"; "E"]%char.
Lemma lacks_app c a b : lacks c (a ++ b)%string <-> lacks c a /\ lacks c b.
Proof. unfold lacks. rewrite chars_app, in_app_iff. tauto. Qed.
Lemma lacks_nil c : lacks c "".
Proof. exact (fun x => x). Qed.
Lemma lacks_digits c ds : odd_char c -> Forall is_dig ds -> lacks c (show_digits ds).
Proof.
  intros (O & _) F. induction F as [|d ds D F IH]; [apply lacks_nil|]. cbn [show_digits]. apply lacks_cons. split; [|exact IH]. intros <-. apply O, show_digit_ok, D.
Qed.
Lemma lacks_decimal c d : odd_char c -> well_formed d -> lacks c (show_decimal d).
Proof.
  intros O (W & _ & E). unfold mantissa in W. apply Forall_app in W. destruct W as (W1 & W2). pose proof O as (_ & O2). cbn [In] in O2. unfold show_decimal.
  assert (MK : forall m, lacks c (show_mark m)) by (intros m; destruct m; cbn [show_mark]; [apply lacks_nil|apply lacks_cons; split; [intros <-; tauto|apply lacks_nil]..]).
  apply lacks_app. split; [apply MK|]. apply lacks_app. split; [apply lacks_digits; assumption|]. apply lacks_app. split.
  - unfold frac_digits in W2. destruct (d_frac d) as [f|]; [|apply lacks_nil]. cbn [show_frac append]. apply lacks_cons. split; [intros <-; tauto|]. apply lacks_digits; assumption.
  - destruct (d_exp d) as [((u, m), ds)|]; [|apply lacks_nil]. cbn [show_exp]. apply lacks_app. split; [destruct u; (apply lacks_cons; split; [intros <-; tauto|apply lacks_nil])|].
    apply lacks_app. split; [apply MK|]. apply lacks_digits; [exact O|apply E].
Qed.
Lemma lacks_print c x s : odd_char c -> ~ In c ["i"; "n"; "f"; "a"]%char -> in_print x s -> lacks c s.
Proof.
  intros O N [y d F P|b|].
  - apply lacks_decimal; [exact O|apply (pr_formed y d P)].
  - destruct O as (_ & O). cbn [In] in *. destruct b; repeat (apply lacks_cons; split; [intros <-; tauto|]); apply lacks_nil.
  - destruct O as (_ & O). cbn [In] in *. repeat (apply lacks_cons; split; [intros <-; tauto|]); apply lacks_nil.
Qed.
Lemma print_nonempty x s : in_print x s -> s <> ""%string.
Proof.
  intros [y d F P|b|]; [|destruct b; discriminate|discriminate]. pose proof (tidy_int d (pr_tidy y d P)) as (T & _). unfold show_decimal. destruct (d_mark d); cbn [show_mark append]; try discriminate.
  destruct (d_int d); [now elim T|]. discriminate.
Qed.
Lemma odd_comma : odd_char ",". Proof. split; intros H; cbn in H; repeat (destruct H as [H|H]; [discriminate|]); destruct H. Qed.
Lemma odd_newline : odd_char "010". Proof. split; intros H; cbn in H; repeat (destruct H as [H|H]; [discriminate|]); destruct H. Qed.
Lemma lacks_join c a l : a <> c -> Forall (lacks c) l -> lacks c (join a l).
Proof.
  intros N F. induction F as [|s l S F IH]; [apply lacks_nil|]. cbn [join]. destruct l as [|s' l]; [exact S|]. apply lacks_app. split; [exact S|]. apply lacks_cons. split; [exact N|exact IH].
Qed.
Lemma prints_lack c l toks : odd_char c -> ~ In c ["i"; "n"; "f"; "a"]%char -> Forall2 in_print l toks -> Forall (lacks c) toks.
Proof. intros O N. induction 1 as [|x s l toks P F IH]; constructor; [now apply (lacks_print c x)|exact IH]. Qed.
Lemma last_print l toks d : Forall2 in_print l toks -> d <> ""%string -> last toks d <> ""%string.
Proof.
  intros F N. induction F as [|x s l toks P F IH]; [exact N|]. destruct F as [|x' s' l toks P' F]; [apply (print_nonempty x s P)|exact IH].
Qed.
Lemma letters_not : ~ In ","%char ["i"; "n"; "f"; "a"]%char /\ ~ In "010"%char ["i"; "n"; "f"; "a"]%char.
Proof. split; intros H; cbn in H; repeat (destruct H as [H|H]; [discriminate|]); destruct H. Qed.
Lemma reread_row row row' toks : Forall2 reread row row' -> Forall2 in_print row toks -> Forall2 token_value toks row'.
Proof.
  intros R. revert toks. induction R as [|x y row row' X R IH]; intros toks F; inversion_clear F as [|? s ? toks' P F']; [constructor|]. constructor; [|now apply IH].
  destruct X as (s' & P' & T). apply in_print_iff in P, P'. subst. exact T.
Qed.
Lemma dump_csv m s rows' : dump_text m s -> Forall2 (fun f row' => Forall2 reread (frame_row f) row') m rows' -> csv_text s rows'.
Proof.
  intros D R. assert (H : exists lines, Forall (lacks "010") lines /\ (s = join "010" lines /\ lines = [] \/ s = (join "010" lines ++ String "010" "")%string /\ lines <> []) /\ Forall2 row_text lines rows').
  { revert rows' R. induction D as [|f m line rest L D IH]; intros rows' R; inversion_clear R as [|? row' ? rows'' R1 R2].
    - exists []. repeat split; [constructor|left; split; reflexivity|constructor].
    - destruct (IH rows'' R2) as (lines & F & S & T). destruct L as (toks & P & ->).
      exists (join "," toks :: lines). split; [constructor; [apply lacks_join; [discriminate|apply (prints_lack _ _ _ odd_newline (proj2 letters_not) P)]|exact F]|]. split.
      + right. split; [|discriminate]. destruct S as [(-> & ->)|(-> & N)]; [reflexivity|]. destruct lines as [|l lines]; [now elim N|].
        change (join "010" (join "," toks :: l :: lines)) with (join "," toks ++ String "010" (join "010" (l :: lines)))%string. rewrite app_string_assoc. reflexivity.
      + constructor; [|exact T]. exists toks. split; [|apply (reread_row _ _ _ R1 P)]. split; [apply (prints_lack _ _ _ odd_comma (proj1 letters_not) P)|].
        left. split; [reflexivity|]. apply (last_print _ _ _ P). discriminate. }
  destruct H as (lines & F & S & T). exists lines. split; [|exact T]. split; [exact F|]. destruct S as [(-> & ->)|S]; [left; split; [reflexivity|discriminate]|right; exact S].
Qed.
(** A chromagram holds the values of its own rows. *)
Lemma from_A_length vec : length (from_A vec) = 12%nat.
Proof. reflexivity. Qed.
Lemma frame_giving f : giving (frame_row f).
Proof. exact I. Qed.
Lemma row_cell f p : is_nan (fst f) = false -> length (snd f) = 12%nat -> 0 <= p < 12 -> cellv (row_events (frame_row f)) (fst f) p fzero = nth (Z.to_nat p) (snd f) B754_nan.
Proof.
  destruct f as (t, vec). cbn [fst snd]. intros N L P. do 12 (destruct vec as [|? vec]; [discriminate|]). destruct vec; [|discriminate].
  assert (M : forall q, matches t p (t, q, B754_nan) = (q =? p)) by (intros q; unfold matches, e_time, e_pitch; cbn [fst snd]; rewrite (same_time_refl t N : Beqb t t = true); reflexivity).
  assert (M' : forall q v, matches t p (t, q, v) = (q =? p)) by (intros q v; exact (M q)).
  cbn -[Z.add Z.modulo matches Z.to_nat nth]. unfold cellv. cbn [fold_left snd]. rewrite !M'.
  assert (C : In p [0;1;2;3;4;5;6;7;8;9;10;11]) by (cbn; lia). cbn [In] in C.
  repeat (destruct C as [<-|C]; [reflexivity|]). destruct C.
Qed.
Lemma sorted_distinct m : ordered m -> distinct_times (map frame_row m).
Proof.
  intros O. induction O as [|f m O IH L]; [constructor|]. constructor; [|exact IH]. apply Forall_forall. intros r R. apply in_map_iff in R. destruct R as (g & <- & G).
  rewrite Forall_forall in L. intros _ _. apply earlier_not_same. apply L. exact G.
Qed.
Lemma frames_shown m : frames m -> shows m (rows_events (map frame_row m)).
Proof.
  intros [O N W]. pose proof (sorted_distinct m O) as D. rewrite Forall_forall in N, W. split.
  - exact O.
  - intros t vec H. apply (W (t, vec) H).
  - intros t. rewrite (distinct_first _ t D). rewrite in_map_iff. split.
    + intros (f & <- & F). exists (frame_row f). repeat split. apply in_map. exact F.
    + intros (r & R & _ & <-). apply in_map_iff in R. destruct R as (f & <- & F). exists f. split; [reflexivity|exact F].
  - intros t vec p H P. apply last_given_cellv. pose proof (distinct_cell (map frame_row m) (frame_row (t, vec)) p D (in_map _ _ _ H) I) as C.
    change (row_time (frame_row (t, vec))) with t in C. rewrite C. symmetry. exact (row_cell (t, vec) p (N _ H) (W _ H) P).
Qed.
Lemma reread_from_A vec vec' : length vec = 12%nat -> Forall2 reread vec vec' -> Forall2 reread (from_A vec) (from_A vec').
Proof.
  intros L R. assert (L' : length vec' = 12%nat) by (rewrite <- L; symmetry; apply (Forall2_length R) || (clear L; induction R; cbn; congruence)).
  do 12 (destruct vec as [|? vec]; [discriminate|]). destruct vec; [|discriminate]. do 12 (destruct vec' as [|? vec']; [discriminate|]). destruct vec'; [|discriminate].
  repeat match goal with H : Forall2 _ (_ :: _) (_ :: _) |- _ => inversion H; subst; clear H end.
  unfold from_A. cbn. repeat (constructor; [assumption|]). constructor.
Qed.
Lemma Forall2_total {A B} (P : A -> Prop) (R : A -> B -> Prop) l : (forall x, P x -> exists y, R x y) -> Forall P l -> exists l', Forall2 R l l'.
Proof. intros H F. induction F as [|x l X F (l' & IH)]; [exists []; constructor|]. destruct (H x X) as (y & Y). exists (y :: l'). now constructor. Qed.
Lemma reread_frames_exist m : all_safe m -> exists m', Forall2 reread_frame m m'.
Proof.
  apply Forall2_total. intros (t, vec) (S & F). cbn [fst snd] in *. destruct (reread_total t S) as (t' & T). destruct (Forall2_total safe reread vec reread_total F) as (vec' & V).
  exists (t', vec'). split; assumption.
Qed.
Lemma reread_rows m m' : Forall (fun f => length (snd f) = 12%nat) m -> Forall2 reread_frame m m' -> Forall2 (fun f row' => Forall2 reread (frame_row f) row') m (map frame_row m').
Proof.
  intros W R. revert W. induction R as [|f f' m m' (T & V) R IH]; intros W; [constructor|]. apply Forall_cons_iff in W. destruct W as (L & W). cbn [map]. constructor; [|now apply IH].
  constructor; [exact T|]. now apply reread_from_A.
Qed.
(** Any dump of safe values can be read back; values that come to the same time are merged. *)
Lemma C40_reread_merged m s m' : Forall (fun f => is_nan (fst f) = false) m -> Forall (fun f => length (snd f) = 12%nat) m -> all_safe m -> dump_text m s -> Forall2 reread_frame m m' ->
  exists m'', chromagram_from_csv (Some s) = Ret (CHROMAGRAM_ORIGINAL_READY, m'') /\ shows m'' (rows_events (map frame_row m')).
Proof.
  intros N W S D R. pose proof (dump_csv m s (map frame_row m') D (reread_rows m m' W R)) as T. apply (C33_proof s (map frame_row m') T).
  clear -N S R. revert N S. induction R as [|f f' m m' (T & V) R IH]; intros N S; [constructor|]. apply Forall_cons_iff in N, S. destruct N as (N & N'), S as ((S & _) & S'). cbn [map].
  constructor; [|now apply IH]. change (is_nan (fst f') = false). rewrite (reread_nan _ _ S T). exact N.
Qed.
Lemma reread_width vec vec' : Forall2 reread vec vec' -> length vec' = length vec.
Proof. induction 1; cbn; congruence. Qed.
Lemma reread_frames m m' : frames m -> all_safe m -> times_differ m -> Forall2 reread_frame m m' -> frames m'.
Proof.
  intros [O N W] S D R. revert O N W S D. induction R as [|f f' m m' (T & V) R IH]; intros O N W S D; [split; constructor|].
  apply StronglySorted_inv in O. destruct O as (O & L). apply Forall_cons_iff in N, W, S. destruct N as (N & N'), W as (W & W'), S as ((S & SV) & S').
  inversion_clear D as [|? ? D1 D2]. destruct (IH O N' W' S' D2) as [O' N'' W'']. split.
  - constructor; [exact O'|]. clear -R S T L D1 S'. revert L D1 S'. induction R as [|g g' m m' (T' & V') R IH]; intros L D1 S'; [constructor|].
    apply Forall_cons_iff in L, D1, S'. destruct L as (L & L'), D1 as (D & D'), S' as ((G & _) & G'). constructor; [|now apply IH].
    exact (reread_order _ _ _ _ S G T T' L D).
  - constructor; [|exact N'']. rewrite (reread_nan _ _ S T). exact N.
  - constructor; [|exact W'']. rewrite (reread_width _ _ V). exact W.
Qed.
Lemma reread_dump m m' s : Forall (fun f => length (snd f) = 12%nat) m -> all_safe m -> Forall2 reread_frame m m' -> dump_text m s -> dump_text m' s.
Proof.
  intros W S R D. revert m' R W S. induction D as [|f m line rest L D IH]; intros m' R W S; inversion_clear R as [|? f' ? m'' (T & V) R']; [constructor|].
  apply Forall_cons_iff in W, S. destruct W as (W & W'), S as ((S & SV) & S'). constructor; [|now apply IH]. destruct L as (toks & P & ->). exists toks. split; [|reflexivity].
  assert (SR : Forall safe (frame_row f)).
  { constructor; [exact S|]. apply Forall_forall. rewrite Forall_forall in SV. intros y Y. apply in_map_iff in Y. destruct Y as (j & <- & J). apply SV. apply nth_In. rewrite W. apply Nat.mod_upper_bound. discriminate. }
  assert (RR : Forall2 reread (frame_row f) (frame_row f')) by (constructor; [exact T|now apply reread_from_A]).
  clear -P SR RR. revert toks P SR. induction RR as [|x y l l' X RR IH]; intros toks P SR; inversion_clear P as [|? s ? toks' P1 P2]; [constructor|].
  apply Forall_cons_iff in SR. destruct SR as (SX & SR). constructor; [exact (reread_print x y s SX X P1)|now apply IH].
Qed.
(** With times that differ in print every frame comes back, and a second dump is the same text. *)
Lemma C40_reread_proof m s : frames m -> all_safe m -> times_differ m -> dump_text m s ->
  exists m', chromagram_from_csv (Some s) = Ret (CHROMAGRAM_ORIGINAL_READY, m') /\ Forall2 reread_frame m m' /\ frames m' /\ dump_text m' s.
Proof.
  intros F S D T. destruct (reread_frames_exist m S) as (m' & R). exists m'.
  destruct (C40_reread_merged m s m' (fr_time m F) (fr_width m F) S T R) as (m'' & E & H).
  pose proof (reread_frames m m' F S D R) as F'. rewrite (C33_unique_proof m'' m' _ H (frames_shown m' F')) in E.
  split; [exact E|]. split; [exact R|]. split; [exact F'|]. exact (reread_dump m m' s (fr_width m F) S R T).
Qed.
(** ** The dump of what was read from a file *)
Lemma chromagram_of_ready m : chromagram_of (Ret (CHROMAGRAM_ORIGINAL_READY, m)) = Ret (mkChromagram CHROMAGRAM_DISCRETE_READY m (discretize m)).
Proof. reflexivity. Qed.
Lemma shows_width m es : shows m es -> Forall (fun f => length (snd f) = 12%nat) m.
Proof. intros S. apply Forall_forall. intros (t, vec) H. exact (sh_width m es S t vec H). Qed.
Lemma C40_dump_proof content rows : csv_text content rows -> Forall proper_row rows ->
  exists c, chromagram_csv (Some content) = Ret c /\ shows (ch_original c) (rows_events rows) /\ forall s, print_original true c = s <-> dump_text (ch_original c) s.
Proof.
  intros T P. destruct (C33_proof content rows T P) as (m & E & S). exists (mkChromagram CHROMAGRAM_DISCRETE_READY m (discretize m)).
  split; [unfold chromagram_csv; rewrite E; reflexivity|]. split; [exact S|]. cbn [ch_original]. intros s.
  pose proof (print_original_dump (mkChromagram CHROMAGRAM_DISCRETE_READY m (discretize m)) eq_refl (shows_width m _ S)) as D. cbn [ch_original] in D.
  split; [intros <-; exact D|]. intros D'. exact (dump_unique m _ _ D D').
Qed.
Lemma back_exact n : Z.abs n < 1000000 -> back (IZR n) = IZR n.
Proof.
  intros H. unfold back. pose proof (six_exact n 0 H) as E. rewrite Rmult_1_r in E. rewrite E. unfold rounded. apply round_generic; [typeclasses eauto|].
  apply generic_format_FLT. exists (Float radix2 n 0); [unfold F2R; cbn; ring|cbn; lia|cbn; lia].
Qed.
Lemma C40_value_proof x y : safe x -> reread x y ->
  (is_finite x = false -> y = x) /\
  (is_finite x = true -> is_finite y = true /\ Bsign y = Bsign x /\ (Rabs (B2R y - B2R x) <= 6 / 1000000 * Rabs (B2R x))%R) /\
  (forall n, is_finite x = true -> B2R x = IZR n -> Z.abs n < 1000000 -> B2R y = IZR n).
Proof.
  intros S R. split; [intros F; exact (reread_other x y F R)|]. split.
  - intros F. destruct (reread_value x y S F R) as (Fy & V & G). split; [exact Fy|]. split; [exact G|]. rewrite V. apply back_error. exact (S F).
  - intros n F E L. destruct (reread_value x y S F R) as (_ & V & _). rewrite V, E. now apply back_exact.
Qed.
