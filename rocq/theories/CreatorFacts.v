(** Facts about the texts of a dataset folder and about the loop that computes its features. *)
From Coq Require Import Lia Ascii.
From Flocq Require Import IEEE754.BinarySingleNaN.
From Verif Require Import Base BaseFacts Fp Text Py Output OptTables Main Dataset Ensemble Creator.
From Verif Require Import MusicSpec TextSpec TextFacts DatasetSpec LabelFacts EnsembleRun CreatorSpec.
Open Scope Z_scope.

(** ** Names *)
Lemma rsplit_dot_some stem ext : lacks "." ext -> rsplit_dot (stem ++ "." ++ ext) = (stem, Some ext).
Proof.
  intros L. unfold rsplit_dot. cbn [append]. rewrite (last_index_some "." stem ext 0 L). unfold size. rewrite Z.add_0_l, Nat2Z.id. rewrite substring_0_app. do 2 f_equal.
  replace (Z.to_nat (Z.of_nat (String.length stem) + 1)) with (String.length stem + 1)%nat by lia. rewrite substring_skip. cbn [substring]. apply substring_0_all. rewrite length_app. cbn. lia.
Qed.
Lemma rsplit_dot_none s : lacks "." s -> rsplit_dot s = (s, None).
Proof. intros L. unfold rsplit_dot. now rewrite last_index_none. Qed.
Lemma feature_file_ok f stem : music_file f stem -> feature_file f = Returns (f, stem).
Proof.
  intros (ext & -> & L & I). unfold feature_file. rewrite rsplit_dot_some by exact L.
  assert (X : elem ext ["mid"; "csv"; "wav"]%string = true) by (apply existsb_exists; exists ext; split; [exact I|apply String.eqb_refl]). now rewrite X.
Qed.
Lemma feature_file_inv f p : feature_file f = Returns p -> exists stem, p = (f, stem) /\ music_file f stem.
Proof.
  unfold feature_file. destruct (last_split "." f) as [L|(a & b & -> & L)].
  - rewrite rsplit_dot_none by exact L. discriminate.
  - change (String "." b) with ("." ++ b)%string. rewrite rsplit_dot_some by exact L. destruct (elem b _) eqn:E; [|discriminate]. injection 1 as <-. exists a. split; [reflexivity|]. exists b. split; [reflexivity|]. split; [exact L|].
    apply existsb_exists in E. destruct E as (x & X & E). apply String.eqb_eq in E. now subst x.
Qed.
Lemma feature_files_ok names stems : Forall2 music_file names stems -> pymap feature_file names = Returns (combine names stems).
Proof. induction 1 as [|f s names stems H _ IH]; [reflexivity|]. cbn. rewrite (feature_file_ok f s H). cbn. now rewrite IH. Qed.
Lemma feature_files_bad good stems f rest : Forall2 music_file good stems -> (forall s, ~ music_file f s) ->
  pymap feature_file (good ++ f :: rest) = Raises (if existsb (fun c => (c =? ".")%char) (chars f) then SystemExit else IndexError).
Proof.
  intros G B. induction G as [|g s good stems H _ IH]; [|cbn; rewrite (feature_file_ok g s H); cbn; now rewrite IH].
  cbn [app pymap]. destruct (feature_file f) as [p|u] eqn:E; [apply feature_file_inv in E; destruct E as (s & _ & E); now apply B in E|]. cbn [pybind]. f_equal. clear B.
  unfold feature_file in E. destruct (last_split "." f) as [L|(a & b & -> & L)].
  - rewrite rsplit_dot_none in E by exact L. injection E as <-. destruct (existsb _ (chars f)) eqn:X; [|reflexivity]. exfalso. apply existsb_exists in X. destruct X as (c & C & D). apply Ascii.eqb_eq in D. subst c. now apply L.
  - change (String "." b) with ("." ++ b)%string in E. rewrite rsplit_dot_some in E by exact L. destruct (elem b _); [discriminate|]. injection E as <-.
    assert (X : existsb (fun c => (c =? ".")%char) (chars (a ++ String "." b)) = true) by (apply existsb_exists; exists "."%char; split; [rewrite chars_app; apply in_or_app; right; now left|reflexivity]). now rewrite X.
Qed.

(** ** Lines *)
Lemma lines_of_line_end t e rest : line_end e rest -> exists e', readlines t (e ++ rest) = e' :: readlines t rest /\ all_blank e'.
Proof.
  assert (B1 : blank newline) by (cbn; auto). assert (B2 : blank return_) by (cbn; auto 6).
  intros [->|[->|(-> & N)]].
  - exists (String LF ""). split; [reflexivity|]. constructor; [exact B1|constructor].
  - exists (if t then String LF "" else String CR (String LF "")). split; [reflexivity|]. destruct t; repeat constructor; assumption.
  - exists (if t then String LF "" else String CR ""). split; [|destruct t; repeat constructor; assumption]. destruct rest as [|d r]; [reflexivity|].
    change (readlines t (String return_ "" ++ String d r)) with (if (d =? LF)%char then (if t then String LF "" else String CR (String LF "")) :: readlines t r else (if t then String LF "" else String CR "") :: readlines t (String d r)).
    destruct (Ascii.eqb_spec d LF) as [->|D]; [|reflexivity]. exfalso. apply N. now exists r.
Qed.
Lemma readlines_app t l e rest : within_line l -> line_end e rest -> exists e', readlines t (l ++ e ++ rest) = (l ++ e')%string :: readlines t rest /\ all_blank e'.
Proof.
  intros (W1 & W2) E. destruct (lines_of_line_end t e rest E) as (e' & R & B). exists e'. split; [|exact B].
  induction l as [|c l IH]; [exact R|]. apply lacks_cons in W1, W2. destruct W1 as (N1 & W1). destruct W2 as (N2 & W2). cbn [append readlines].
  destruct (Ascii.eqb_spec c LF) as [->|_]; [now contradict N1|]. destruct (Ascii.eqb_spec c CR) as [->|_]; [now contradict N2|]. now rewrite (IH W1 W2).
Qed.
Lemma readlines_one t l : within_line l -> l <> ""%string -> readlines t l = [l].
Proof.
  intros (W1 & W2). induction l as [|c l IH]; [congruence|]. intros _. apply lacks_cons in W1, W2. destruct W1 as (N1 & W1). destruct W2 as (N2 & W2). cbn [readlines].
  destruct (Ascii.eqb_spec c LF) as [->|_]; [now contradict N1|]. destruct (Ascii.eqb_spec c CR) as [->|_]; [now contradict N2|]. destruct l as [|d l]; [reflexivity|]. now rewrite (IH W1 W2).
Qed.
Lemma readlines_lines t s ls : lines s ls -> Forall2 (fun l r => exists e, r = (l ++ e)%string /\ all_blank e) ls (readlines t s).
Proof.
  induction 1 as [|l W N|l e rest ls W E _ IH].
  - constructor.
  - rewrite readlines_one by assumption. constructor; [|constructor]. exists ""%string. split; [now rewrite app_string_nil|constructor].
  - destruct (readlines_app t l e rest W E) as (e' & -> & B). constructor; [|exact IH]. now exists e'.
Qed.
Lemma first_end s : within_line s \/ exists l e rest, s = (l ++ e ++ rest)%string /\ within_line l /\ line_end e rest.
Proof.
  induction s as [|c s IH]; [left; split; intros []|]. destruct (ascii_dec c newline) as [->|N1].
  - right. exists ""%string, (String newline ""), s. split; [reflexivity|]. split; [split; intros []|now left].
  - destruct (ascii_dec c return_) as [->|N2].
    + right. destruct s as [|d s].
      * exists ""%string, (String return_ ""), ""%string. split; [reflexivity|]. split; [split; intros []|]. right. right. split; [reflexivity|]. intros (r & R). discriminate.
      * destruct (ascii_dec d newline) as [->|N3].
        -- exists ""%string, (String return_ (String newline "")), s. split; [reflexivity|]. split; [split; intros []|]. right. now left.
        -- exists ""%string, (String return_ ""), (String d s). split; [reflexivity|]. split; [split; intros []|]. right. right. split; [reflexivity|]. intros (r & R). congruence.
    + destruct IH as [(W1 & W2)|(l & e & rest & -> & (W1 & W2) & E)].
      * left. split; apply lacks_cons; auto.
      * right. exists (String c l), e, rest. split; [reflexivity|]. split; [|exact E]. split; apply lacks_cons; auto.
Qed.
Lemma lines_exist s : exists ls, lines s ls.
Proof.
  remember (String.length s) as n eqn:E. assert (L : (String.length s <= n)%nat) by lia. clear E. revert s L. induction n as [|n IH]; intros s L.
  - destruct s; [exists []; constructor|cbn in L; lia].
  - destruct (first_end s) as [W|(l & e & rest & -> & W & E)].
    + destruct s as [|c s]; [exists []; constructor|]. exists [String c s]. now constructor.
    + destruct (IH rest) as (ls & H). { rewrite !length_app in L. assert (1 <= String.length e)%nat by (destruct E as [->|[->|(-> & _)]]; cbn; lia). lia. }
      exists (l :: ls). now constructor.
Qed.

(** ** Strip *)
Lemma lstrip_blank b s : all_blank b -> lstrip py_space (b ++ s) = lstrip py_space s.
Proof. intros B. induction b as [|c b IH]; [reflexivity|]. inversion B; subst. cbn. apply space_blank in H1. rewrite H1. now apply IH. Qed.
Lemma lstrip_stop s : (forall c r, blank c -> s <> String c r) -> lstrip py_space s = s.
Proof. intros H. destruct s as [|c s]; [reflexivity|]. cbn. destruct (py_space c) eqn:E; [|reflexivity]. apply space_blank in E. now apply (H c s) in E. Qed.
Lemma string_rev_blank b : all_blank b -> all_blank (string_rev b).
Proof. intros B. unfold all_blank, string_rev. rewrite chars_text. now apply Forall_rev. Qed.
Lemma all_blank_app a b : all_blank (a ++ b) <-> all_blank a /\ all_blank b.
Proof. unfold all_blank. change list_ascii_of_string with chars. rewrite chars_app. apply Forall_app. Qed.
Lemma strip_trimmed l t : trimmed l t -> py_strip l = t.
Proof.
  intros (a & b & -> & A & B & U). unfold py_strip, strip_with. rewrite (lstrip_blank a) by exact A.
  destruct t as [|c t].
  - cbn [append]. rewrite <- (app_string_nil b), (lstrip_blank b "") by exact B. reflexivity.
  - rewrite (lstrip_stop (String c t ++ b)) by (intros d r D X; cbn in X; injection X as -> _; destruct (U d D) as (U1 & _); now apply (U1 t)).
    rewrite string_rev_app, lstrip_blank by now apply string_rev_blank. rewrite lstrip_stop; [apply string_rev_rev|].
    intros d r D X. apply (f_equal string_rev) in X. rewrite string_rev_rev in X. change (String d r) with (String d "" ++ r)%string in X. rewrite string_rev_app in X. destruct (U d D) as (_ & U2). now apply (U2 (string_rev r)).
Qed.
Lemma lstrip_shape s : exists a, s = (a ++ lstrip py_space s)%string /\ all_blank a /\ forall c r, blank c -> lstrip py_space s <> String c r.
Proof.
  induction s as [|c s (a & E & A & N)]; [exists ""%string; split; [reflexivity|]; split; [constructor|discriminate]|]. cbn. destruct (py_space c) eqn:S.
  - exists (String c a). split; [cbn; now rewrite <- E|]. split; [|exact N]. constructor; [now apply space_blank|exact A].
  - exists ""%string. split; [reflexivity|]. split; [constructor|]. intros d r D X. injection X as -> _. apply space_blank in D. congruence.
Qed.
Lemma trimmed_strip l : trimmed l (py_strip l).
Proof.
  destruct (lstrip_shape l) as (a & E & A & N). unfold py_strip, strip_with. set (t := lstrip py_space l) in *.
  destruct (lstrip_shape (string_rev t)) as (b & E' & B & N'). set (u := lstrip py_space (string_rev t)) in *.
  assert (T : t = (string_rev u ++ string_rev b)%string) by (rewrite <- (string_rev_rev t), E'; apply string_rev_app).
  exists a, (string_rev b). split; [now rewrite <- T|]. split; [exact A|]. split; [now apply string_rev_blank|].
  intros c C. split; intros r X.
  - rewrite T, X in N. now apply (N c (r ++ string_rev b)%string C).
  - apply (f_equal string_rev) in X. rewrite string_rev_rev, string_rev_app in X. now apply (N' c (string_rev r) C).
Qed.
Lemma trimmed_end l e t : all_blank e -> trimmed l t -> trimmed (l ++ e) t.
Proof. intros E (a & b & -> & A & B & U). exists a, (b ++ e)%string. split; [now rewrite !app_string_assoc|]. split; [exact A|]. split; [now apply all_blank_app|exact U]. Qed.
Lemma parse_label_end l e : all_blank e -> parse_label (l ++ e) = parse_label l.
Proof. intros E. unfold parse_label. rewrite (strip_trimmed (l ++ e) (py_strip l)); [reflexivity|]. apply trimmed_end; [exact E|apply trimmed_strip]. Qed.
Lemma annotated_label text k : annotated text k -> exists line rest, readlines false text = line :: rest /\ parse_label line = k.
Proof.
  intros (l & ls & ws & L & W & K). apply (readlines_lines false) in L. inversion L as [|? r ? rs (e & -> & E) R]; subst. exists (l ++ e)%string, rs. split; [reflexivity|]. rewrite parse_label_end by exact E.
  destruct K as [K|(-> & K)]; [apply (C51_label_proof l ws k W); [now apply (labelled_key ws)|exact K]|now apply (C51_unknown_proof l ws W)].
Qed.
Lemma label_annotated text line rest : readlines false text = line :: rest -> annotated text (parse_label line).
Proof.
  intros R. destruct (lines_exist text) as (ls & L). pose proof (readlines_lines false text ls L) as F. rewrite R in F. inversion F as [|l ? ls' ? (e & -> & E) _]; subst. exists l, ls'.
  destruct (C51_words_proof l) as (ws & W & _). exists ws. split; [exact L|]. split; [exact W|]. rewrite parse_label_end by exact E.
  destruct (lookup_none keys_single_letter keys_duple (py_split (py_strip l)) eq_refl eq_refl) as [N|P].
  - right. split; [exact N|]. apply (C51_unknown_proof l ws W). exact N.
  - left. apply (lookup_iff ws); [exact P|]. unfold parse_label. rewrite py_split_strip. now rewrite (worded_split l ws W).
Qed.
