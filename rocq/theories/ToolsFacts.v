(** Proofs about the scripts that prepare datasets. *)
From Coq Require Import Lia Ascii Permutation Reals Lra.
From Flocq Require Import Core.Core IEEE754.BinarySingleNaN.
From Verif Require Import Base BaseFacts Fp Text PitchClass Py Optimizer Creator MusicSpec TextSpec TextFacts ChromaSpec Chromagram ChromaFacts DatasetSpec CreatorSpec CreatorFacts CreatorLoop CreatorStore SearchFacts FpFacts NumFacts OptFacts EvoFacts Tools ToolsSpec.
Open Scope list_scope.
Open Scope Z_scope.

(** ** Columns *)
Lemma join_with_join l : join_with "," l = join "," l.
Proof. induction l as [|s [|t l] IH]; [reflexivity..|]. change (join_with "," (s :: t :: l)) with (s ++ "," ++ join_with "," (t :: l))%string. rewrite IH. reflexivity. Qed.
Lemma split_join l : l <> [] -> Forall (lacks ",") l -> split_on "," (join "," l) = l.
Proof.
  induction l as [|d l IH]; [contradiction|]. intros _ H. apply Forall_cons_iff in H as (D & H). destruct l as [|e l]; [now apply split_on_lacks|]. change (join "," (d :: e :: l)) with (d ++ String "," (join "," (e :: l)))%string. rewrite split_on_piece by exact D. f_equal. apply IH; [discriminate|exact H].
Qed.
Lemma join_empty l : join "," l = ""%string -> l = [] \/ l = [""%string].
Proof. destruct l as [|s [|t l]]; cbn [join]; [now left|intros ->; now right|]. destruct s; discriminate. Qed.
Lemma csv_row_join l : Forall (lacks ",") l -> l <> [""%string] -> csv_row (join "," l) = l.
Proof.
  intros F N. unfold csv_row. destruct (String.eqb_spec (join "," l) "") as [E|E]; [apply join_empty in E as [->|E]; [reflexivity|contradiction]|]. apply split_join; [intros ->; now apply E|exact F].
Qed.
Lemma lacks_app c a b : lacks c a -> lacks c b -> lacks c (a ++ b).
Proof. intros A B I. rewrite chars_app in I. apply in_app_or in I as [I|I]; [now apply A|now apply B]. Qed.
Lemma lacks_join c l : c <> ","%char -> Forall (lacks c) l -> lacks c (join "," l).
Proof.
  intros C. induction l as [|s [|t l] IH]; intros F; [intros []|now apply Forall_inv in F|]. apply Forall_cons_iff in F as (S & F). change (join "," (s :: t :: l)) with (s ++ String "," (join "," (t :: l)))%string. apply lacks_app; [exact S|]. apply lacks_cons. split; [congruence|now apply IH].
Qed.
Definition plain_row (r : list string) : Prop := Forall plain_field r.
Lemma plain_comma r : plain_row r -> Forall (lacks ",") r. Proof. apply Forall_impl. now intros s (A & _). Qed.
Lemma plain_within r : plain_row r -> within_line (join "," r).
Proof. intros P. split; apply lacks_join; try discriminate; eapply Forall_impl; [|exact P| |exact P]; intros s (_ & (A & B) & _); assumption. Qed.
Lemma has_lacks c s : lacks c s -> has_char c s = false.
Proof. induction s as [|d s IH]; intros L; [reflexivity|]. apply lacks_cons in L as (N & L). cbn [has_char]. destruct (Ascii.eqb_spec d c); [congruence|now apply IH]. Qed.
Lemma table_lacks c rows : c <> ","%char -> c <> newline -> Forall (Forall (lacks c)) rows -> lacks c (table rows).
Proof.
  intros A B. induction 1 as [|r rows R _ IH]; [intros []|]. cbn [table]. apply lacks_app; [now apply lacks_join|]. apply lacks_cons. split; [congruence|exact IH].
Qed.
Lemma ends_with_app c s : ends_with c (s ++ String c "") = true.
Proof. induction s as [|d s IH]; [cbn; apply Ascii.eqb_refl|]. cbn [append ends_with]. destruct (s ++ String c "")%string eqn:E; [destruct s; discriminate E|exact IH]. Qed.
Lemma chomp_line l : chomp (l ++ String LF "") = l.
Proof.
  unfold chomp. rewrite ends_with_app. unfold drop_last. replace (String.length (l ++ String LF "") - 1)%nat with (String.length l); [apply substring_0_app|]. assert (E : String.length (l ++ String LF "") = (String.length l + 1)%nat); [|lia].
  induction l as [|d l IH]; [reflexivity|]. cbn [append String.length]. now rewrite IH.
Qed.
Lemma table_lines rows : Forall plain_row rows -> readlines true (table rows) = map (fun r => (join "," r ++ String LF "")%string) rows.
Proof. induction 1 as [|r rows R _ IH]; [reflexivity|]. cbn [table map]. change newline with LF. rewrite readlines_LF by now apply plain_within. now rewrite IH. Qed.
Lemma reader_table rows : Forall plain_row rows -> Forall (fun r => r <> [""%string]) rows -> csv_reader (table rows) = Some rows.
Proof.
  intros P N. unfold csv_reader. rewrite !has_lacks.
  - cbn [orb]. f_equal. rewrite (table_lines rows P), map_map. rewrite <- (map_id rows) at 2. apply map_ext_in. intros r R. rewrite Forall_forall in P, N. rewrite chomp_line. apply csv_row_join; [now apply plain_comma, P|now apply N].
  - apply table_lacks; try discriminate. eapply Forall_impl; [|exact P]. intros r. apply Forall_impl. intros s (_ & _ & _ & B). exact B.
  - apply table_lacks; try discriminate. eapply Forall_impl; [|exact P]. intros r. apply Forall_impl. intros s (_ & _ & B & _). exact B.
Qed.
Lemma convert_table keep rows : Forall plain_row rows -> Forall (fun r => r <> [""%string]) rows -> convert keep (table rows) = Some (table (map keep rows)).
Proof.
  intros P N. unfold convert. rewrite (reader_table rows P N). f_equal. clear P N. induction rows as [|r rows IH]; [reflexivity|]. cbn [fold_right map table]. rewrite IH, join_with_join. reflexivity.
Qed.
Lemma token_ne s v : token_value s v -> s <> ""%string.
Proof. intros T ->. destruct (token_stof "" v T) as (x & E & _). discriminate E. Qed.
Lemma table_fields rows : Forall plain_row rows -> fields newline (table rows) (map (join ",") rows).
Proof.
  intros P. split.
  - apply Forall_forall. intros s S. apply in_map_iff in S as (r & <- & R). rewrite Forall_forall in P. now apply plain_within, P.
  - destruct rows as [|r rows]; [left; split; [reflexivity|discriminate]|right; split; [|discriminate]]. clear P. revert r. induction rows as [|q rows IH]; intros r; [reflexivity|].
    cbn [table map]. change (join newline (join "," r :: join "," q :: map (join ",") rows)) with (join "," r ++ String newline (join newline (map (join ",") (q :: rows))))%string. rewrite app_string_assoc. cbn [append]. rewrite <- IH. reflexivity.
Qed.
Lemma table_csv rows values : Forall plain_row rows -> Forall2 row_values rows values -> csv_text (table rows) values.
Proof.
  intros P V. exists (map (join ",") rows). split; [now apply table_fields|]. induction V as [|r v rows values H V IH]; [constructor|]. apply Forall_cons_iff in P as (R & P). cbn [map]. constructor; [|now apply IH]. exists r. split; [|exact H].
  split; [now apply plain_comma|]. left. split; [reflexivity|]. clear - H. destruct (in_dec string_dec ""%string r) as [I|I].
  - exfalso. induction H as [|s x r v T H IH]; [destruct I|]. destruct I as [->|I]; [now apply token_ne in T|now apply IH].
  - intros E. destruct r as [|s r]; [discriminate E|]. apply I. rewrite <- E. destruct (exists_last (l := s :: r) ltac:(discriminate)) as (a & b & ->). rewrite last_last. apply in_or_app. right. now left.
Qed.
Lemma treble_row n t b tr : length b = 12%nat -> treble_columns (n :: t :: b ++ tr) = t :: tr.
Proof.
  intros L. unfold treble_columns. change (skipn 14 (n :: t :: b ++ tr)) with (skipn 12 (b ++ tr)). rewrite <- L. clear L. change (firstn 1 (skipn 1 (n :: t :: b ++ tr))) with [t]. cbn [app]. f_equal. induction b as [|x b IH]; [reflexivity|exact IH].
Qed.

(** ** Names before the first dot *)
Lemma split_head c s : exists p l, split_on c s = p :: l /\ lacks c p /\ (l = [] /\ s = p \/ exists r, s = (p ++ String c r)%string).
Proof.
  induction s as [|d s (p & l & E & L & H)]; cbn [split_on]; [exists ""%string, []; repeat split; [intros []|now left]|]. destruct (Ascii.eqb_spec d c) as [->|N].
  - exists ""%string, (split_on c s). repeat split; [intros []|]. right. now exists s.
  - rewrite E. exists (String d p), l. split; [reflexivity|]. split; [apply lacks_cons; auto|]. destruct H as [(-> & ->)|(r & ->)]; [now left|right; now exists r].
Qed.
Lemma first_part_iff f p : before_dot f p <-> first_part f = p.
Proof.
  unfold first_part. split.
  - intros (L & [->|(r & ->)]); [now rewrite split_on_lacks|]. change ("." ++ r)%string with (String "." r). now rewrite split_on_piece.
  - intros <-. destruct (split_head "." f) as (q & l & E & L & H). rewrite E. cbn [hd]. split; [exact L|]. destruct H as [(_ & ->)|(r & ->)]; [now left|right; now exists r].
Qed.
Lemma filter_iff annotations features f : In f (filter_features annotations features) <-> In f features /\ exists a p, In a annotations /\ before_dot a p /\ before_dot f p.
Proof.
  unfold filter_features, allowed. rewrite filter_In. split; intros (I & H); (split; [exact I|]).
  - apply existsb_exists in H as (p & P & E). apply String.eqb_eq in E. apply in_map_iff in P as (a & A & P). exists a, p. now rewrite !first_part_iff.
  - destruct H as (a & p & A & B & C). rewrite first_part_iff in B, C. apply existsb_exists. exists p. split; [rewrite <- B; now apply in_map|now rewrite C, String.eqb_refl].
Qed.

(** ** Duplicates *)
Lemma notes_eqb_iff a : forall b, notes_eqb a b = true <-> a = b.
Proof.
  induction a as [|x a IH]; intros [|y b]; cbn [notes_eqb]; split; intros H; try discriminate H; try reflexivity.
  - apply andb_prop in H as (X & Y). apply Z.eqb_eq in X as ->. f_equal. now apply IH.
  - injection H as -> ->. rewrite Z.eqb_refl. now apply IH.
Qed.
Lemma set_item_fresh {V} (d : list (string * V)) k v : ~ In k (map fst d) -> set_item d k v = d ++ [(k, v)].
Proof.
  induction d as [|(k', v') d IH]; intros N; [reflexivity|]. cbn [set_item map fst] in *. destruct (String.eqb_spec k' k) as [->|_]; [destruct N; now left|]. cbn [app]. f_equal. apply IH. intros I. apply N. now right.
Qed.
Lemma find_dup_spec notes unique : (forall kv, In kv unique -> snd kv <> notes) /\ find_dup notes unique = ""%string \/ exists k, In (k, notes) unique /\ find_dup notes unique = k.
Proof.
  unfold find_dup. induction unique as [|(k, v) unique IH] using rev_ind; [left; split; [intros ? []|reflexivity]|]. rewrite fold_left_app. cbn [fold_left fst snd]. destruct (notes_eqb notes v) eqn:E.
  - apply notes_eqb_iff in E as <-. right. exists k. split; [apply in_or_app; right; now left|reflexivity].
  - destruct IH as [(H & ->)|(q & Q & ->)]; [left; split; [|reflexivity]|right; exists q; split; [apply in_or_app; now left|reflexivity]]. intros kv I. apply in_app_or in I as [I|[<-|[]]]; [now apply H|]. cbn [snd]. intros ->. rewrite (proj2 (notes_eqb_iff _ _) eq_refl) in E. discriminate E.
Qed.
Section Duplicates.
  Context (mid : string -> list message) (files : list string).
  Hypothesis ND : NoDup files.
  Hypothesis NE : ~ In ""%string files.
  Definition nt (f : string) : list Z := notes_of (mid f).
  (** [g] is the first of the files with its notes. *)
  Definition leads (g : string) : Prop := exists a b, files = a ++ g :: b /\ forall h, In h a -> nt h <> nt g.
  Lemma leads_unique g h : leads g -> leads h -> nt g = nt h -> g = h.
  Proof.
    intros (a & b & E & A) (c & d & F & C) N. rewrite E in F. destruct (in_dec string_dec g c) as [I|I]; [now destruct (C g I)|]. destruct (in_dec string_dec h a) as [J|J]; [destruct (A h J); congruence|].
    clear - F I J. revert c F I J. induction a as [|x a IH]; intros [|y c] F I J; cbn [app] in F.
    - now injection F.
    - injection F as -> _. destruct I. now left.
    - injection F as -> _. destruct J. now left.
    - injection F as -> F. apply (IH c F); intros X; [apply I|apply J]; now right.
  Qed.
  Lemma leader f : forall done rest, files = done ++ rest -> (exists g, In g done /\ nt g = nt f) -> exists g, In g done /\ nt g = nt f /\ leads g.
  Proof.
    induction done as [|x done IH] using rev_ind; intros rest E (g & G & N); [destruct G|]. rewrite <- app_assoc in E. cbn [app] in E.
    destruct (in_dec (list_eq_dec Z.eq_dec) (nt f) (map nt done)) as [I|I].
    - apply in_map_iff in I as (h & H & I). destruct (IH _ E (ex_intro _ h (conj I H))) as (k & K & KN & KL). exists k. split; [apply in_or_app; now left|auto].
    - apply in_app_or in G as [G|[->|[]]]; [destruct I; rewrite <- N; now apply in_map|]. exists g. split; [apply in_or_app; right; now left|]. split; [exact N|]. exists done, rest. split; [exact E|]. intros h H. intros X. apply I. rewrite <- N, <- X. now apply in_map.
  Qed.
  Record marked (done : list string) (u : list (string * list Z)) (d : list (string * string)) : Prop := {
    mk_keys : Permutation (map fst u ++ map fst d) done;
    mk_unique : forall f v, In (f, v) u <-> In f done /\ leads f /\ v = nt f;
    mk_dups : forall f k, In (f, k) d <-> In f done /\ k <> f /\ leads k /\ nt k = nt f }.
  Lemma find_duplicates_marks rest : forall done u d, files = done ++ rest -> marked done u d -> let '(u', d') := find_duplicates mid rest u d in marked files u' d'.
  Proof.
    induction rest as [|f rest IH]; intros done u d E M; cbn [find_duplicates]; [rewrite app_nil_r in E; now subst done|]. destruct M as [MK MU MD]. fold (nt f).
    assert (FD : ~ In f done) by (rewrite E in ND; apply NoDup_remove_2 in ND; intros I; apply ND, in_or_app; now left).
    assert (KU : ~ In f (map fst u)) by (intros I; apply FD; eapply Permutation_in; [exact MK|]; apply in_or_app; now left).
    assert (KD : ~ In f (map fst d)) by (intros I; apply FD; eapply Permutation_in; [exact MK|]; apply in_or_app; now right).
    assert (E' : files = (done ++ [f]) ++ rest) by now rewrite <- app_assoc.
    destruct (find_dup_spec (nt f) u) as [(H & ->)|(k & K & ->)].
    - cbn [String.eqb negb]. rewrite (set_item_fresh u f (nt f) KU). apply (IH (done ++ [f]) _ _ E').
      assert (NL : forall g, In g done -> nt g <> nt f). { intros g G X. destruct (leader f done _ E (ex_intro _ g (conj G X))) as (h & I & N & L). apply (H (h, nt h)); [now apply MU|exact N]. }
      assert (LF : leads f) by (exists done, rest; auto). constructor.
      + rewrite map_app. cbn [map fst]. rewrite <- app_assoc. cbn [app]. rewrite <- Permutation_middle. rewrite <- Permutation_cons_append. now constructor.
      + intros g v. rewrite !in_app_iff, MU. cbn [In]. split.
        * intros [(A & B & C)|[X|[]]]; [auto|injection X as <- <-; auto].
        * intros ([A|[->|[]]] & B & C); [now left|right; left; now rewrite C].
      + intros g k. rewrite MD, in_app_iff. cbn [In]. split; [intros (A & B); auto|]. intros ([A|[->|[]]] & B & C & D); [auto|]. exfalso. apply B. now apply leads_unique.
    - apply MU in K as (KI & KL & KN). assert (N0 : k <> ""%string) by (intros ->; apply NE; rewrite E; apply in_or_app; now left). apply String.eqb_neq in N0. rewrite N0. cbn [negb]. rewrite (set_item_fresh d f k KD). apply (IH (done ++ [f]) _ _ E').
      assert (KF : k <> f) by (intros ->; contradiction). assert (NLF : ~ leads f) by (intros L; apply KF; apply leads_unique; auto). constructor.
      + rewrite map_app. cbn [map fst]. rewrite app_assoc. now apply Permutation_app_tail.
      + intros g v. rewrite MU, in_app_iff. cbn [In]. split; [intros (A & B); auto|]. intros ([A|[->|[]]] & B & C); [auto|contradiction].
      + intros g q. rewrite !in_app_iff, MD. cbn [In]. split.
        * intros [(A & B)|[X|[]]]; [auto|injection X as <- <-; auto].
        * intros ([A|[->|[]]] & B & C & D); [now left|]. right. left. f_equal. apply leads_unique; auto. congruence.
  Qed.
  Lemma find_duplicates_all : let '(u, d) := find_duplicates mid files [] [] in marked files u d.
  Proof. apply (find_duplicates_marks files [] [] []); [reflexivity|]. constructor; [constructor| |]; intros f v; cbn; intuition. Qed.
End Duplicates.
Lemma notes_sequence es : Forall proper_event es -> Midi.midi_loop es = Ret (map pc_of_int (notes_of (map decode es))).
Proof.
  induction 1 as [|e es (s & r & -> & H) _ IH]; [reflexivity|]. cbn [Midi.midi_loop map]. change (Midi.byte_at (s :: r) 0) with (Ret (A := Z) s). cbn [bind]. cbn [notes_of]. unfold decode at 1 2 3. cbn [is_note_on msg_velocity msg_note nth].
  destruct (Z.eqb_spec (Z.land s 240) 144) as [E|E]; cbn [negb orb]; [|exact IH]. destruct (H E) as (n & v & -> & N). change (Midi.byte_at [s; n; v] 2) with (Ret (A := Z) v). change (Midi.byte_at [s; n; v] 1) with (Ret (A := Z) n). cbn [bind nth].
  destruct (v =? 0); cbn [negb]; [exact IH|]. rewrite IH. cbn [bind map]. now rewrite Z.rem_mod_nonneg by lia.
Qed.

(** ** Samples *)
Lemma fifth : is_finite (rat64 1 5) = true /\ B2R (rat64 1 5) = (3602879701896397 / 18014398509481984)%R.
Proof.
  assert (E : B2SF (rat64 1 5) = SpecFloat.S754_finite false 7205759403792794 (-55)) by (vm_compute; reflexivity).
  assert (F : is_finite (rat64 1 5) = true) by (rewrite <- is_finite_SF_B2SF, E; reflexivity). split; [exact F|].
  rewrite <- SF2R_B2SF, E. unfold SF2R, F2R. cbn [Fnum Fexp cond_Zopp]. change (bpow radix2 (-55)) with (/ 36028797018963968)%R. lra.
Qed.
Lemma sample_size_fifth n : 0 <= n <= 2 ^ 49 -> sample_size n = n / 5.
Proof.
  intros N. destruct fifth as (F & E). unfold sample_size. rewrite rounded_product; [|lia|exact F|rewrite E; lra]. rewrite E. assert (D := Z.div_mod n 5 ltac:(lia)). assert (M := Z.mod_pos_bound n 5 ltac:(lia)). set (k := n / 5) in *.
  apply whole_part; [lia|]. assert (A : (5 * IZR k <= IZR n <= 5 * IZR k + 4)%R) by (rewrite <- mult_IZR; split; [apply IZR_le; lia|change 4%R with (IZR 4); rewrite <- plus_IZR; apply IZR_le; lia]).
  assert (B : (0 <= IZR n <= 562949953421312)%R) by (split; [apply IZR_le; lia|apply (IZR_le n (2 ^ 49)); lia]). lra.
Qed.
Lemma sample_permutation files draw : NoDup files -> NoDup draw -> Forall (fun i => (i < length files)%nat) draw ->
  Permutation (filter (fun x => negb (existsb (String.eqb x) (sample_of files draw))) files ++ sample_of files draw) files.
Proof.
  intros ND NI B. rewrite Forall_forall in B. assert (S : forall x, existsb (String.eqb x) (sample_of files draw) = true <-> In x (sample_of files draw)).
  { intros x. rewrite existsb_exists. split; [intros (y & I & E); apply String.eqb_eq in E; now subst y|intros I; exists x; split; [exact I|apply String.eqb_refl]]. }
  assert (SF : forall x, In x (sample_of files draw) -> In x files) by (intros x X; apply in_map_iff in X as (i & <- & I); apply nth_In; now apply B).
  assert (NS : NoDup (sample_of files draw)).
  { unfold sample_of. clear S SF. induction NI as [|i draw I NI IH]; [constructor|]. cbn [map]. constructor; [|apply IH; intros j J; apply B; now right]. intros X. apply in_map_iff in X as (j & E & J). apply I.
    rewrite NoDup_nth in ND. specialize (ND i j (B i (or_introl eq_refl)) (B j (or_intror J)) (eq_sym E)). now subst j. }
  apply NoDup_Permutation; [|exact ND|].
  - clear - ND NS S. remember (sample_of files draw) as sm. clear Heqsm. assert (H : forall l, NoDup l -> (forall x, In x l -> ~ In x sm) -> NoDup (l ++ sm)).
    { induction 1 as [|x l X N IH]; intros D; [exact NS|]. cbn [app]. constructor; [|apply IH; intros y Y; apply D; now right]. intros I. apply in_app_or in I as [I|I]; [contradiction|]. now apply (D x (or_introl eq_refl)). }
    apply H; [now apply NoDup_filter|]. intros x X. apply filter_In in X as (_ & X). intros I. apply S in I. now rewrite I in X.
  - intros x. rewrite in_app_iff, filter_In. split; [intros [(I & _)|I]; auto|]. intros I. destruct (existsb (String.eqb x) (sample_of files draw)) eqn:E; [right; now apply S|left; auto].
Qed.
