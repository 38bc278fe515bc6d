(** Facts about the stored dataset: the file names and texts that are written and how class Dataset reads them. *)
From Coq Require Import Lia Ascii Permutation.
From Flocq Require Import IEEE754.BinarySingleNaN.
From Verif Require Import Base BaseFacts Fp Text PitchClass Py Output OptTables Main Dataset Ensemble Creator.
From Verif Require Import MusicSpec TextSpec TextFacts OptionFacts DatasetSpec LabelFacts EnsembleRun CreatorSpec CreatorFacts CreatorLoop.
Open Scope Z_scope.

(** ** The text about the tables *)
Lemma readlines_LF t l rest : within_line l -> readlines t (l ++ String LF rest) = (l ++ String LF "")%string :: readlines t rest.
Proof.
  intros (W1 & W2). induction l as [|c l IH]; [reflexivity|]. apply lacks_cons in W1, W2. destruct W1 as (N1 & W1). destruct W2 as (N2 & W2). cbn [append readlines].
  destruct (Ascii.eqb_spec c LF) as [->|_]; [now contradict N1|]. destruct (Ascii.eqb_spec c CR) as [->|_]; [now contradict N2|]. now rewrite (IH W1 W2).
Qed.
Lemma split_on_piece c a b : lacks c a -> split_on c (a ++ String c b) = a :: split_on c b.
Proof.
  induction a as [|d a IH]; intros L; [cbn; now rewrite Ascii.eqb_refl|]. apply lacks_cons in L. destruct L as (N & L). cbn. destruct (Ascii.eqb_spec d c) as [->|_]; [congruence|]. now rewrite (IH L).
Qed.
Lemma blank_space : blank " ". Proof. cbn. auto 12. Qed.
Lemma trimmed_name a n b : all_blank a -> all_blank b -> listable n -> py_strip (a ++ n ++ b) = n.
Proof. intros A B (_ & _ & U). apply strip_trimmed. now exists a, b. Qed.
Lemma split_names names a e : names <> [] -> Forall listable names -> all_blank a -> all_blank e -> lacks "," a -> lacks "," e ->
  map py_strip (split_on "," (a ++ join_with ", " names ++ e)) = names.
Proof.
  intros N F. revert a. induction F as [|n names H F IH]; intros a A E LA LE; [congruence|]. destruct names as [|m names].
  - cbn [join_with]. rewrite split_on_lacks; [cbn [map]; now rewrite trimmed_name|]. unfold lacks. rewrite !chars_app. intros I. apply in_app_or in I. destruct I as [I|I]; [now apply LA|]. apply in_app_or in I. destruct I as [I|I]; [now apply (proj1 H)|now apply LE].
  - change (join_with ", " (n :: m :: names)) with (n ++ ", " ++ join_with ", " (m :: names))%string.
    replace (a ++ (n ++ ", " ++ join_with ", " (m :: names)) ++ e)%string with ((a ++ n) ++ String "," (" " ++ join_with ", " (m :: names) ++ e))%string by (rewrite !app_string_assoc; reflexivity).
    rewrite split_on_piece by (unfold lacks; rewrite chars_app; intros I; apply in_app_or in I; destruct I as [I|I]; [now apply LA|now apply (proj1 H)]). cbn [map].
    rewrite <- (app_string_nil n) at 1. rewrite trimmed_name by (try assumption; constructor). f_equal. apply IH; [discriminate| | | |exact LE].
    + constructor; [exact blank_space|constructor].
    + exact E.
    + unfold lacks; cbn; intuition discriminate.
Qed.
Lemma join_within names : Forall listable names -> within_line (join_with ", " names).
Proof.
  assert (C : within_line ", ") by (split; unfold lacks; cbn; intuition discriminate).
  assert (A : forall x y, within_line x -> within_line y -> within_line (x ++ y)) by (intros x y (X1 & X2) (Y1 & Y2); split; unfold lacks; rewrite chars_app; intros I; apply in_app_or in I; destruct I as [J|J]; ((now apply X1) || (now apply X2) || (now apply Y1) || (now apply Y2))).
  induction 1 as [|n names H F IH]; [split; intros []|]. destruct names as [|m names]; [apply H|]. change (join_with ", " (n :: m :: names)) with (n ++ ", " ++ join_with ", " (m :: names))%string. apply A; [apply H|]. now apply A.
Qed.
Lemma tables_round_trip ps ts mixed : ps <> [] -> ts <> [] -> Forall listable ps -> Forall listable ts -> read_ensemble (ensemble_text ps ts mixed) = Returns (ps, ts, false).
Proof.
  intros P T FP FT. unfold read_ensemble, ensemble_text. change nl with (String LF "").
  assert (Z : forall m, (join_with ", " ps ++ String LF "" ++ join_with ", " ts ++ String LF "" ++ m = join_with ", " ps ++ String LF (join_with ", " ts ++ String LF m))%string) by reflexivity. rewrite Z. clear Z.
  rewrite readlines_LF by now apply join_within. rewrite readlines_LF by now apply join_within.
  assert (X : readlines true ("mixed_profiles=" ++ show_bool mixed ++ String LF "") = [("mixed_profiles=" ++ show_bool mixed ++ String LF "")%string]) by (destruct mixed; reflexivity). rewrite X.
  assert (Y : split_on "=" ("mixed_profiles=" ++ show_bool mixed ++ String LF "") = ["mixed_profiles"%string; (show_bool mixed ++ String LF "")%string]) by (destruct mixed; reflexivity). rewrite Y.
  assert (E : all_blank (String LF "")) by (constructor; [cbn; auto|constructor]). assert (L : lacks "," (String LF "")) by (unfold lacks; cbn; intuition discriminate).
  pose proof (split_names ps "" (String LF "") P FP ltac:(constructor) E ltac:(intros []) L) as Q1. pose proof (split_names ts "" (String LF "") T FT ltac:(constructor) E ltac:(intros []) L) as Q2.
  change ("" ++ ?x)%string with x in Q1, Q2. rewrite Q1, Q2. destruct mixed; reflexivity.
Qed.

(** ** Words in file names *)
Lemma string_app_cases a b c d : (a ++ b = c ++ d)%string -> (exists e, c = (a ++ e)%string /\ b = (e ++ d)%string) \/ (exists e x, a = (c ++ String x e)%string /\ d = (String x e ++ b)%string).
Proof.
  revert c. induction a as [|x a IH]; intros c H; [left; now exists c|]. destruct c as [|y c].
  - right. exists a, x. split; [reflexivity|]. cbn in *. now rewrite <- H.
  - cbn in H. injection H as -> H. destruct (IH c H) as [(e & -> & ->)|(e & z & -> & ->)]; [left; exists e; split; reflexivity|right; exists e, z; split; reflexivity].
Qed.
Lemma lower_app a b : lower_string (a ++ b) = (lower_string a ++ lower_string b)%string.
Proof. induction a as [|c a IH]; [reflexivity|]. cbn. now rewrite IH. Qed.
Lemma never_cons h p c s : lower c <> h -> never_says (String h p) s -> never_says (String h p) (String c s).
Proof.
  intros N H a b d E L. destruct a as [|x a].
  - destruct b as [|y b]; [discriminate|]. cbn in E, L. injection E as <- _. injection L as L _. now apply N.
  - cbn in E. injection E as _ E. now apply (H a b d E).
Qed.
Lemma never_join h p a c q : ~ In (lower c) (chars p) -> never_says (String h p) a -> never_says (String h p) (String c q) -> never_says (String h p) (a ++ String c q).
Proof.
  intros N A Q x b y E L. destruct (string_app_cases a (String c q) x (b ++ y) E) as [(e & -> & E2)|(e & z & -> & E2)].
  - now apply (Q e b y).
  - symmetry in E2. change (String z e ++ String c q)%string with ((String z e) ++ (String c q))%string in E2. destruct (string_app_cases b y (String z e) (String c q) (eq_sym E2)) as [(g & G & E3)|(g & z' & -> & E3)].
    + apply (A x b g); [|exact L]. now rewrite G.
    + cbn in E3. injection E3 as <- _. rewrite lower_app in L. cbn in L. injection L as _ L. apply N. rewrite <- L. rewrite chars_app. apply in_or_app. right. now left.
Qed.
Lemma never_check p s : forallb (fun i => negb (lower_string (substring i (String.length p) s) =? p)%string) (seq 0 (S (String.length s))) = true -> never_says p s.
Proof.
  intros H a b c -> L. rewrite forallb_forall in H. specialize (H (String.length a)). rewrite in_seq, length_app in H. specialize (H ltac:(lia)). rewrite negb_true_iff in H. apply String.eqb_neq in H. apply H.
  rewrite <- (Nat.add_0_r (String.length a)) at 1. rewrite substring_skip. rewrite <- L at 1. rewrite lower_length. now rewrite substring_0_app.
Qed.
Definition small (d : ascii) : bool := low d && (py_lower d =? d)%char.
Lemma after_literal p rest s r : forallb small (list_ascii_of_string p) = true -> after (literal p ++ rest) s = Some r -> exists m t, s = (m ++ t)%string /\ lower_string m = p.
Proof.
  revert s. induction p as [|d p IH]; intros s F H; [exists ""%string, s; split; reflexivity|]. cbn in F. apply andb_true_iff in F. destruct F as (F1 & F2). destruct s as [|c s]; [discriminate|]. cbn in H.
  unfold small in F1. apply andb_true_iff in F1. destruct F1 as (F1 & D). apply Ascii.eqb_eq in D.
  rewrite D in H. rewrite (py_lower_low c d F1) in H. destruct (Ascii.eqb_spec (lower c) d) as [L|L]; [|discriminate]. destruct (IH s F2 H) as (m & t & -> & M). exists (String c m), t. split; [reflexivity|]. cbn. now rewrite L, M.
Qed.
Lemma greedy_none p s : (forall a b, s = (a ++ b)%string -> after p b = None) -> greedy p s = None.
Proof.
  induction s as [|c s IH]; intros H; cbn [greedy]; [now rewrite (H ""%string ""%string eq_refl)|]. rewrite (H ""%string (String c s) eq_refl).
  rewrite IH; [now destruct (c =? LF)%char|]. intros a b ->. now apply (H (String c a) b).
Qed.
Lemma after_suffix p s r : after p s = Some r -> exists a, s = (a ++ r)%string.
Proof.
  revert s. induction p as [|q p IH]; intros s H; [injection H as ->; now exists ""%string|]. destruct s as [|c s]; [discriminate|]. cbn in H.
  match type of H with (if ?b then _ else _) = _ => destruct b end; [|discriminate]. destruct (IH s H) as (a & ->). now exists (String c a).
Qed.
Lemma search_none name p s : (forall a b, s = (a ++ b)%string -> after p b = None) -> search name p s = None.
Proof.
  assert (M : forall s, (forall a b, s = (a ++ b)%string -> after p b = None) -> match_here name p s = None).
  { intros t H. unfold match_here. destruct (after (literal name) t) as [r|] eqn:A; [|reflexivity]. apply after_suffix in A. destruct A as (a & ->).
    assert (G : forall x y, r = (x ++ y)%string -> greedy p y = None) by (intros x y ->; apply greedy_none; intros u v ->; apply (H (a ++ x ++ u)%string v); now rewrite !app_string_assoc).
    destruct r as [|c r]; [apply (G ""%string ""%string eq_refl)|]. rewrite (G ""%string (String c r) eq_refl), (G (String c "") r eq_refl). now destruct (c =? "-")%char. }
  induction s as [|c s IH]; intros H; cbn [search]; rewrite (M _ H); [reflexivity|]. apply IH. intros a b ->. now apply (H (String c a) b).
Qed.
Lemma search_never name p rest s : forallb small (list_ascii_of_string p) = true -> never_says p s -> search name (literal p ++ rest) s = None.
Proof.
  intros L N. apply search_none. intros a b ->. destruct (after (literal p ++ rest) b) as [r|] eqn:A; [|reflexivity]. exfalso. destruct (after_literal p rest b r L A) as (m & t & -> & M). now apply (N a m t).
Qed.
Lemma after_short p s : (String.length s < length p)%nat -> after p s = None.
Proof.
  revert s. induction p as [|q p IH]; intros s H; [cbn in H; lia|]. destruct s as [|c s]; [reflexivity|]. cbn. rewrite IH by (cbn in H; lia). now destruct (match q with Some d => _ | None => _ end).
Qed.
Lemma greedy_short p s : (String.length s < length p)%nat -> greedy p s = None.
Proof. intros H. apply greedy_none. intros a b ->. apply after_short. rewrite length_app in H. lia. Qed.
Lemma greedy_group p k t r : lacks LF k -> after p t = Some r -> String.length t = length p -> greedy p (k ++ t) = Some k.
Proof.
  intros L A S. induction k as [|c k IH].
  - cbn [append]. destruct t as [|c t]; cbn [greedy]; rewrite A; [reflexivity|]. rewrite greedy_short by (cbn in S; lia). now destruct (c =? LF)%char.
  - apply lacks_cons in L. destruct L as (N & L). cbn [append greedy]. destruct (Ascii.eqb_spec c LF) as [->|_]; [congruence|]. now rewrite (IH L).
Qed.
Lemma after_own name s : after (literal name) (name ++ s) = Some s.
Proof. induction name as [|c name IH]; [reflexivity|]. cbn. now rewrite Ascii.eqb_refl. Qed.
Lemma search_here name p s g : match_here name p s = Some g -> search name p s = Some g.
Proof. intros H. destruct s; cbn [search]; now rewrite H. Qed.
Lemma search_whole name p t r : after p (String "_" t) = Some r -> String.length (String "_" t) = length p -> search name p (name ++ String "_" t) = Some ""%string.
Proof.
  intros A S. apply search_here. unfold match_here. rewrite after_own. change (("_" =? "-")%char) with false. cbv iota. apply (greedy_group p "" (String "_" t) r); [intros []|exact A|exact S].
Qed.
Lemma search_split name p k t r : lacks LF k -> after p t = Some r -> String.length t = length p -> search name p (name ++ "-" ++ k ++ t) = Some k.
Proof.
  intros L A S. apply search_here. unfold match_here. rewrite after_own. cbn [append]. change (("-" =? "-")%char) with true. cbv iota. now rewrite (greedy_group p k t r L A S).
Qed.

(** ** The five kinds of files *)
Definition quiet (n : string) : Prop := never_says "_features" n /\ never_says "_annotations" n.
Lemma never_underscore p a t : never_says (String "_" p) a -> ~ In "_"%char (chars p) -> never_says (String "_" p) (String "_" t) -> never_says (String "_" p) (a ++ String "_" t).
Proof. intros A N T. apply never_join; assumption. Qed.
Lemma never_dash p a k : never_says (String "_" p) a -> ~ In "-"%char (chars p) -> never_says (String "_" p) k -> never_says (String "_" p) (a ++ "-" ++ k).
Proof. intros A N K. cbn [append]. apply never_join; [exact N|exact A|]. apply never_cons; [discriminate|exact K]. Qed.
Lemma search_features_name name : search name features_tail (name ++ "_features.pkl") = Some ""%string.
Proof. apply (search_whole name features_tail "features.pkl" ""); vm_compute; reflexivity. Qed.
Lemma search_features_split name k : lacks LF k -> search name features_tail (name ++ "-" ++ k ++ "_features.pkl") = Some k.
Proof. intros L. apply (search_split name features_tail k "_features.pkl" ""); [exact L|vm_compute; reflexivity..]. Qed.
Lemma search_annotations_name name : search name annotations_tail (name ++ "_annotations.pkl") = Some ""%string.
Proof. apply (search_whole name annotations_tail "annotations.pkl" ""); vm_compute; reflexivity. Qed.
Lemma search_annotations_split name k : lacks LF k -> search name annotations_tail (name ++ "-" ++ k ++ "_annotations.pkl") = Some k.
Proof. intros L. apply (search_split name annotations_tail k "_annotations.pkl" ""); [exact L|vm_compute; reflexivity..]. Qed.
Lemma search_features_none name s : never_says "_features" s -> search name features_tail s = None.
Proof. intros N. apply search_never; [reflexivity|exact N]. Qed.
Lemma search_annotations_none name s : never_says "_annotations" s -> search name annotations_tail s = None.
Proof. intros N. apply search_never; [reflexivity|exact N]. Qed.
Lemma features_underscore a : never_says "_features" a -> never_says "_features" (a ++ "_annotations.pkl") /\ never_says "_features" (a ++ "_ensemble.txt").
Proof. intros A. split; (apply never_underscore; [exact A|cbn; intuition discriminate|apply never_check; vm_compute; reflexivity]). Qed.
Lemma annotations_underscore a : never_says "_annotations" a -> never_says "_annotations" (a ++ "_ensemble.txt").
Proof. intros A. apply never_underscore; [exact A|cbn; intuition discriminate|apply never_check; vm_compute; reflexivity]. Qed.
Lemma features_dash a k : never_says "_features" a -> never_says "_features" k -> never_says "_features" (a ++ "-" ++ k ++ "_annotations.pkl").
Proof. intros A K. apply never_dash; [exact A|cbn; intuition discriminate|]. now apply features_underscore. Qed.
Lemma prefix_own name s : String.prefix name (name ++ s) = true.
Proof. induction name as [|c name IH]; [now destruct s|]. cbn. destruct (ascii_dec c c); [exact IH|congruence]. Qed.
Lemma app_same_head a b c : (a ++ b = a ++ c)%string -> b = c.
Proof. induction a as [|x a IH]; [easy|]. cbn. injection 1 as H. now apply IH. Qed.
Lemma app_same_tail a b c : (a ++ c = b ++ c)%string -> a = b.
Proof. intros H. apply (f_equal string_rev) in H. rewrite !string_rev_app in H. apply app_same_head in H. apply (f_equal string_rev) in H. now rewrite !string_rev_rev in H. Qed.

(** ** Reading a folder *)
Definition tables_in (name : string) (f : string * content) : list (list string * list string * bool) :=
  if (fst f =? name ++ "_ensemble.txt")%string then match snd f with Plain text => match read_ensemble text with Returns e => [e] | Raises _ => [] end | _ => [] end else [].
Definition array_in (name : string) (f : string * content) : list (string * content) :=
  match search name features_tail (fst f) with
  | Some split => [(attribute split "X", snd f)]
  | None => match search name annotations_tail (fst f) with Some split => [(attribute split "y", snd f)] | None => [] end
  end.
Definition sound (name : string) (f : string * content) : Prop :=
  (fst f = (name ++ "_ensemble.txt")%string -> tables_in name f <> []) /\ (array_in name f <> [] -> forall s, snd f <> Plain s).
Lemma read_sound name ds f : String.prefix name (fst f) = true -> sound name f ->
  read_file name ds f = Returns (mkDataset (last (map Some (tables_in name f)) (ds_ensemble ds)) (record (array_in name f) (ds_arrays ds))).
Proof.
  intros P (S1 & S2). unfold read_file. rewrite P. cbn [negb]. unfold tables_in in *. destruct (String.eqb_spec (fst f) (name ++ "_ensemble.txt")) as [E|E].
  - specialize (S1 E). destruct (snd f) as [text| |] eqn:C; try (now contradict S1). destruct (read_ensemble text) as [e|]; [|now contradict S1]. cbn [pybind map last]. unfold array_in in *. rewrite C in *.
    destruct (search name features_tail (fst f)); [exfalso; now apply (S2 ltac:(discriminate) text)|]. destruct (search name annotations_tail (fst f)); [exfalso; now apply (S2 ltac:(discriminate) text)|]. reflexivity.
  - cbn [pybind map last]. unfold array_in in *. destruct (search name features_tail (fst f)) as [k|].
    + specialize (S2 ltac:(discriminate)). destruct (snd f) as [text| |]; [exfalso; now apply (S2 text)|reflexivity..].
    + destruct (search name annotations_tail (fst f)) as [k|]; [|reflexivity]. specialize (S2 ltac:(discriminate)). destruct (snd f) as [text| |]; [exfalso; now apply (S2 text)|reflexivity..].
Qed.
Definition relevant (name : string) (f : string * content) : bool := String.prefix name (fst f).
Lemma last_app_cons {A} (l m : list A) d : last (l ++ m) d = last m (last l d).
Proof. induction l as [|x l IH]; [reflexivity|]. destruct l as [|y l]; [|exact IH]. cbn [app last] in *. destruct m as [|z m]; [reflexivity|]. cbn [last]. clear. revert z x d. induction m as [|u m IH]; intros z x d; [reflexivity|exact (IH u x d)]. Qed.
Lemma record_app {V} (a b m : list (string * V)) : record (a ++ b) m = record b (record a m).
Proof. apply fold_left_app. Qed.
Lemma read_all name ds dir : Forall (sound name) (filter (relevant name) dir) ->
  read_files name ds dir = Returns (mkDataset (last (map Some (flat_map (tables_in name) (filter (relevant name) dir))) (ds_ensemble ds)) (record (flat_map (array_in name) (filter (relevant name) dir)) (ds_arrays ds))).
Proof.
  revert ds. induction dir as [|f dir IH]; intros ds H; [now destruct ds|]. cbn [read_files filter] in *. destruct (relevant name f) eqn:P.
  - apply Forall_cons_iff in H. destruct H as (S & H). rewrite (read_sound name ds f P S). cbn [pybind]. rewrite IH by exact H. cbn [ds_ensemble ds_arrays flat_map]. rewrite map_app, last_app_cons. rewrite record_app. reflexivity.
  - unfold relevant in P. unfold read_file. rewrite P. cbn [negb pybind]. now rewrite IH.
Qed.
