(** Facts about words and key labels. *)
From Coq Require Import Lia ZifyBool Ascii.
From Verif Require Import Base BaseFacts Key KeyFacts PitchClass Text Py Dataset Output MusicSpec TextSpec TextFacts MainSpec OutputFacts DatasetSpec.
Open Scope Z_scope.

(** ** Words *)
Lemma space_blank c : py_space c = true <-> blank c.
Proof.
  assert (C : forallb (fun c => Bool.eqb (py_space c) (if in_dec N.eq_dec (N_of_ascii c) blank_codes then true else false)) all_ascii = true) by (vm_compute; reflexivity).
  pose proof (ascii_sweep _ C c) as S. cbv beta in S. apply Bool.eqb_prop in S. rewrite S. unfold blank. destruct (in_dec _ _ _); split; try tauto; discriminate.
Qed.
Lemma space_not_blank c : py_space c = false <-> ~ blank c.
Proof. rewrite <- space_blank. destruct (py_space c); split; congruence. Qed.
Notation text := string_of_list_ascii.
Lemma text_app a b : text (a ++ b) = (text a ++ text b)%string.
Proof. induction a as [|c a IH]; [reflexivity|]. cbn. now rewrite IH. Qed.
Lemma chars_text l : list_ascii_of_string (text l) = l. Proof. apply list_ascii_of_string_of_list_ascii. Qed.
Lemma text_chars s : text (list_ascii_of_string s) = s. Proof. apply string_of_list_ascii_of_string. Qed.
Lemma worded_blank c s l : blank c -> worded s l -> worded (String c s) l.
Proof.
  intros B W. destruct W as [s H|b w H1 H2 H3|b w d s l H1 H2 H3 H4 H5].
  - apply worded_none. now constructor.
  - apply (worded_last (String c b) w); [now constructor|assumption|assumption].
  - apply (worded_more (String c b) w d s l); try assumption. now constructor.
Qed.
Lemma text_rev_nonempty c cur : text (rev (c :: cur)) <> ""%string.
Proof. cbn. rewrite text_app. cbn. destruct (text (rev cur)); discriminate. Qed.
Lemma split_loop_worded s cur : Forall (fun c => ~ blank c) cur -> worded (text (rev cur) ++ s) (split_loop py_space cur s).
Proof.
  revert cur. induction s as [|c s IH]; intros cur H.
  - cbn [split_loop]. rewrite app_string_nil. destruct cur as [|c cur]; [apply worded_none; constructor|]. unfold flush.
    apply (worded_last "" (text (rev (c :: cur)))); [constructor| |apply text_rev_nonempty]. unfold no_blank. rewrite chars_text. now apply Forall_rev.
  - cbn [split_loop]. destruct (py_space c) eqn:E.
    + apply space_blank in E. pose proof (IH [] (Forall_nil _)) as W. cbn in W. destruct cur as [|a cur]; [now apply worded_blank|]. unfold flush.
      apply (worded_more "" (text (rev (a :: cur))) c s); try assumption; [constructor| |apply text_rev_nonempty]. unfold no_blank. rewrite chars_text. now apply Forall_rev.
    + apply space_not_blank in E. pose proof (IH (c :: cur) ltac:(now constructor)) as W. cbn [rev] in W. rewrite text_app in W. rewrite app_string_assoc in W. exact W.
Qed.
Lemma split_worded s : worded s (py_split s).
Proof. exact (split_loop_worded s [] (Forall_nil _)). Qed.
Lemma split_skip space b s : Forall (fun c => space c = true) (list_ascii_of_string b) -> split_loop space [] (b ++ s) = split_loop space [] s.
Proof. induction b as [|c b IH]; intros H; [reflexivity|]. inversion H; subst. cbn. rewrite H2. cbn. now apply IH. Qed.
Lemma split_run space w s cur : Forall (fun c => space c = false) (list_ascii_of_string w) -> split_loop space cur (w ++ s) = split_loop space (rev (list_ascii_of_string w) ++ cur) s.
Proof.
  revert cur. induction w as [|c w IH]; intros cur H; [reflexivity|]. inversion H; subst. cbn. rewrite H2. rewrite IH by assumption. f_equal. now rewrite <- app_assoc.
Qed.
Lemma flush_word w l : w <> ""%string -> flush (rev (list_ascii_of_string w) ++ []) l = w :: l.
Proof.
  intros H. rewrite app_nil_r. unfold flush. destruct (rev (list_ascii_of_string w)) as [|c r] eqn:E.
  - apply (f_equal (@rev ascii)) in E. rewrite rev_involutive in E. destruct w; [congruence|discriminate].
  - rewrite <- E, rev_involutive. f_equal. apply text_chars.
Qed.
Lemma worded_split s l : worded s l -> py_split s = l.
Proof.
  assert (SB : forall b, all_blank b -> Forall (fun c => py_space c = true) (list_ascii_of_string b)) by (intros b H; revert H; apply Forall_impl; intros c; apply space_blank).
  assert (SN : forall b, no_blank b -> Forall (fun c => py_space c = false) (list_ascii_of_string b)) by (intros b H; revert H; apply Forall_impl; intros c; apply space_not_blank).
  intros W. induction W as [s H|b w H1 H2 H3|b w d s l H1 H2 H3 H4 W IH]; unfold py_split, split_with.
  - rewrite <- (app_string_nil s). rewrite split_skip by auto. reflexivity.
  - rewrite split_skip by auto. rewrite <- (app_string_nil w) at 1. rewrite split_run by auto. cbn [split_loop]. now apply flush_word.
  - rewrite split_skip by auto. rewrite split_run by auto. cbn [split_loop]. apply space_blank in H4. rewrite H4. rewrite flush_word by exact H3. f_equal. exact IH.
Qed.
Lemma split_lstrip space s : split_loop space [] (lstrip space s) = split_loop space [] s.
Proof. induction s as [|c s IH]; [reflexivity|]. cbn. destruct (space c) eqn:E; [exact IH|]. cbn. now rewrite E. Qed.
Lemma split_end space b s cur : Forall (fun c => space c = true) (list_ascii_of_string b) -> split_loop space cur (s ++ b) = split_loop space cur s.
Proof.
  intros H. revert cur. induction s as [|c s IH]; intros cur.
  - cbn. destruct b as [|c b]; [reflexivity|]. inversion H; subst. cbn. rewrite H2. rewrite <- (app_string_nil b), split_skip by assumption. reflexivity.
  - cbn. destruct (space c); [now rewrite IH|apply IH].
Qed.
Lemma lstrip_split space s : exists b, Forall (fun c => space c = true) (list_ascii_of_string b) /\ s = (b ++ lstrip space s)%string.
Proof.
  induction s as [|c s (b & B & E)]; [exists ""%string; split; [constructor|reflexivity]|]. cbn. destruct (space c) eqn:H; [|exists ""%string; split; [constructor|reflexivity]].
  exists (String c b). split; [now constructor|]. cbn. now rewrite <- E.
Qed.
Lemma string_rev_app a b : string_rev (a ++ b) = (string_rev b ++ string_rev a)%string.
Proof. unfold string_rev. rewrite <- text_app, <- rev_app_distr. do 2 f_equal. apply chars_app. Qed.
Lemma string_rev_rev a : string_rev (string_rev a) = a.
Proof. unfold string_rev. rewrite chars_text, rev_involutive. apply text_chars. Qed.
Lemma strip_split space s : split_loop space [] (strip_with space s) = split_loop space [] s.
Proof.
  unfold strip_with. rewrite <- (split_lstrip space s). destruct (lstrip_split space (string_rev (lstrip space s))) as (b & B & E).
  apply (f_equal string_rev) in E. rewrite string_rev_rev, string_rev_app in E. rewrite E at 2. symmetry. apply split_end. unfold string_rev. rewrite chars_text. now apply Forall_rev.
Qed.
Lemma py_split_strip s : py_split (py_strip s) = py_split s.
Proof. apply strip_split. Qed.

(** ** Tables *)
Definition ordinaryb (s : string) : bool := negb (existsb (String.eqb (lower_string s)) ["cb"; "fb"; "e#"; "b#"]%string).
Lemma ordinaryb_spec s : ordinaryb s = true <-> ordinary s.
Proof.
  unfold ordinaryb, ordinary. rewrite negb_true_iff. split.
  - intros H I. apply not_true_iff_false in H. apply H. apply existsb_exists. exists (lower_string s). split; [exact I|apply String.eqb_refl].
  - intros H. apply not_true_iff_false. intros E. apply existsb_exists in E. destruct E as (x & I & E). apply String.eqb_eq in E. subst x. contradiction.
Qed.
Lemma single_correct s : assoc String.eqb s keys_single_letter = if ordinaryb s then named_key s else None.
Proof.
  destruct s as [|a [|b [|c s]]].
  - reflexivity.
  - apply optZ_eqb_eq. revert a. apply ascii_sweep. vm_compute. reflexivity.
  - apply optZ_eqb_eq. revert a b. apply ascii_sweep2. vm_compute. reflexivity.
  - rewrite assoc_long, named_key_long; [now destruct (ordinaryb _)|cbn; lia|vm_compute; reflexivity|cbn; lia].
Qed.
Definition note_names : list (string * Z) :=
  [("c", 0); ("c#", 1); ("db", 1); ("d", 2); ("d#", 3); ("eb", 3); ("e", 4); ("f", 5); ("f#", 6); ("gb", 6); ("g", 7); ("g#", 8);
   ("ab", 8); ("a", 9); ("a#", 10); ("bb", 10); ("b", 11)]%string.
Lemma lower_length s : String.length (lower_string s) = String.length s.
Proof. induction s as [|c s IH]; [reflexivity|]. cbn. now rewrite IH. Qed.
Lemma note_correct s : assoc String.eqb (lower_string s) note_names = if ordinaryb s then named_pc s else None.
Proof.
  destruct s as [|a [|b [|c s]]].
  - reflexivity.
  - apply optZ_eqb_eq. revert a. apply ascii_sweep. vm_compute. reflexivity.
  - apply optZ_eqb_eq. revert a b. apply ascii_sweep2. vm_compute. reflexivity.
  - rewrite assoc_long; [|vm_compute; reflexivity|rewrite lower_length; cbn; lia]. destruct (ordinaryb _); reflexivity.
Qed.
Definition low (c : ascii) : bool := code c <? 128.
Lemma py_lower_low c d : low d = true -> ((py_lower c =? d)%char = (lower c =? d)%char).
Proof.
  intros L. assert (C : forallb (fun c => forallb (fun d => implb (low d) (Bool.eqb (py_lower c =? d)%char (lower c =? d)%char)) all_ascii) all_ascii = true) by (vm_compute; reflexivity).
  pose proof (ascii_sweep2 _ C c d) as S. cbv beta in S. rewrite L in S. now apply Bool.eqb_prop.
Qed.
Lemma py_lower_string s t : forallb low (list_ascii_of_string t) = true -> String.eqb (string_map py_lower s) t = String.eqb (lower_string s) t.
Proof.
  revert t. induction s as [|c s IH]; intros [|d t] H; try reflexivity. cbn in H. apply andb_prop in H. destruct H as (H1 & H2). cbn [string_map lower_string String.eqb].
  rewrite py_lower_low by exact H1. destruct (lower c =? d)%char; [now apply IH|reflexivity].
Qed.
Lemma py_lower_table a b (m : list (string * string * Z)) :
  forallb (fun e => forallb low (list_ascii_of_string (fst (fst e))) && forallb low (list_ascii_of_string (snd (fst e)))) m = true ->
  assoc pair_eqb (string_map py_lower a, string_map py_lower b) m = assoc pair_eqb (lower_string a, lower_string b) m.
Proof.
  induction m as [|((x, y), k) m IH]; intros H; [reflexivity|]. cbn [forallb fst snd] in H. apply andb_prop in H. destruct H as (H & Hm). apply andb_prop in H. destruct H as (Hx & Hy).
  cbn [assoc]. unfold pair_eqb at 1 3. cbn [fst snd]. rewrite !py_lower_string by assumption. destruct (_ && _); [reflexivity|now apply IH].
Qed.
Lemma assoc_pair x y (m : list (string * string * Z)) :
  assoc pair_eqb (x, y) m = assoc String.eqb x (map (fun e => (fst (fst e), snd e)) (filter (fun e => String.eqb y (snd (fst e))) m)).
Proof.
  induction m as [|((a, b), k) m IH]; [reflexivity|]. cbn [assoc filter fst snd]. unfold pair_eqb at 1. cbn [fst snd].
  destruct (String.eqb y b); cbn [map assoc fst snd]; [|now rewrite andb_false_r]. rewrite andb_true_r. destruct (String.eqb x a); [reflexivity|exact IH].
Qed.
Lemma assoc_shift x (m : list (string * Z)) n : assoc String.eqb x (map (fun e => (fst e, n + snd e)) m) = option_map (Z.add n) (assoc String.eqb x m).
Proof. induction m as [|(a, k) m IH]; [reflexivity|]. cbn. destruct (String.eqb x a); [reflexivity|exact IH]. Qed.
Lemma filter_none x (m : list (string * string * Z)) : forallb (fun e => negb (String.eqb x (snd (fst e)))) m = true -> filter (fun e => String.eqb x (snd (fst e))) m = [].
Proof. induction m as [|e m IH]; [reflexivity|]. cbn. intros H. apply andb_prop in H. destruct H as (A & B). apply negb_true_iff in A. rewrite A. now apply IH. Qed.
Lemma duple_correct a b : assoc pair_eqb (string_map py_lower a, string_map py_lower b) keys_duple =
  if String.eqb (lower_string b) "major" then (if ordinaryb a then named_pc a else None)
  else if String.eqb (lower_string b) "minor" then option_map (Z.add 12) (if ordinaryb a then named_pc a else None) else None.
Proof.
  rewrite py_lower_table by (vm_compute; reflexivity). rewrite assoc_pair, <- note_correct.
  destruct (String.eqb_spec (lower_string b) "major") as [E|N1]; [rewrite E; reflexivity|]. destruct (String.eqb_spec (lower_string b) "minor") as [E|N2]; [rewrite E, <- assoc_shift; reflexivity|].
  rewrite filter_none; [reflexivity|]. apply forallb_forall. intros ((x, y), k) I. cbn [fst snd].
  assert (C : forallb (fun e => String.eqb (snd (fst e)) "major" || String.eqb (snd (fst e)) "minor") keys_duple = true) by (vm_compute; reflexivity).
  rewrite forallb_forall in C. specialize (C _ I). cbn [fst snd] in C. apply orb_prop in C. rewrite !String.eqb_eq in C. apply negb_true_iff, String.eqb_neq. destruct C as [-> | ->]; assumption.
Qed.

(** ** Labels *)
Lemma lookup_iff ws k : 0 <= k -> lookup keys_single_letter keys_duple ws = k <-> labelled ws k.
Proof.
  intros K. split.
  - destruct ws as [|a [|b [|c ws]]]; cbn [lookup]; try lia.
    + rewrite single_correct. destruct (ordinaryb a) eqn:O; [|lia]. apply ordinaryb_spec in O. destruct (named_key a) eqn:E; [|lia]. intros ->. now apply label_name.
    + rewrite duple_correct. destruct (ordinaryb a) eqn:O; [apply ordinaryb_spec in O|].
      * destruct (String.eqb_spec (lower_string b) "major") as [B|N1]; [destruct (named_pc a) eqn:E; [|lia]; intros ->; now apply label_major|].
        destruct (String.eqb_spec (lower_string b) "minor") as [B|N2]; [|lia]. destruct (named_pc a) eqn:E; cbn [option_map]; [|lia]. intros <-. now apply label_minor.
      * destruct (String.eqb _ _); [lia|]. destruct (String.eqb _ _); cbn [option_map]; lia.
  - intros H. destruct H as [n k E O|n m p E O M|n m p E O M]; cbn [lookup]; apply ordinaryb_spec in O; rewrite ?single_correct, ?duple_correct, O, E, ?M; reflexivity.
Qed.
Lemma named_pc_range n p : named_pc n = Some p -> 0 <= p < 12.
Proof.
  unfold named_pc, note_name. destruct (lower_string n) as [|a [|b [|c s]]]; try discriminate.
  - assert (H : forall a, match letter a with Some (p, _) => (0 <=? p) && (p <? 12) | None => true end = true) by (apply ascii_sweep; vm_compute; reflexivity).
    specialize (H a). destruct (letter a) as [(q, u)|]; [|discriminate]. intros E. apply Some_inj in E. lia.
  - destruct (letter a) as [(q, u)|]; [|discriminate]. destruct (accidental b) as [d|]; [|discriminate]. intros E. apply Some_inj in E. pose proof (Z.mod_pos_bound (q + d) 12 eq_refl). lia.
Qed.
Lemma labelled_key ws k : labelled ws k -> is_key k.
Proof. intros H. destruct H as [n k E O|n m p E O M|n m p E O M]; [now apply (named_key_range n)|apply named_pc_range in E; unfold is_key; lia|apply named_pc_range in E; unfold is_key; lia]. Qed.
Lemma lookup_none single duple ws : forallb (fun e => 0 <=? snd e) single = true -> forallb (fun e => 0 <=? snd e) duple = true -> lookup single duple ws = -1 \/ 0 <= lookup single duple ws.
Proof.
  intros H1 H2. rewrite forallb_forall in H1, H2. destruct ws as [|a [|b [|c ws]]]; cbn [lookup]; try lia.
  - destruct (assoc _ _ _) eqn:E; [|lia]. apply (assoc_In _ Seqb_spec') in E. specialize (H1 _ E). cbn in H1. lia.
  - destruct (assoc _ _ _) eqn:E; [|lia]. apply assoc_In in E; [specialize (H2 _ E); cbn in H2; lia|]. intros (x1, x2) (y1, y2). unfold pair_eqb. cbn. destruct (String.eqb_spec x1 y1), (String.eqb_spec x2 y2); constructor; congruence.
Qed.
Lemma C51_words_proof s : exists ws, worded s ws /\ forall ws', worded s ws' -> ws' = ws.
Proof. exists (py_split s). split; [apply split_worded|]. intros ws' W. symmetry. now apply worded_split. Qed.
Lemma C51_label_proof s ws k : worded s ws -> is_key k -> parse_label s = k <-> labelled ws k.
Proof. intros W K. unfold parse_label. rewrite py_split_strip, (worded_split _ _ W). apply lookup_iff. unfold is_key in K. lia. Qed.
Lemma C51_unknown_proof s ws : worded s ws -> (parse_label s = -1 <-> forall k, ~ labelled ws k).
Proof.
  intros W. unfold parse_label. rewrite py_split_strip, (worded_split _ _ W). split.
  - intros E k L. pose proof (labelled_key ws k L) as K. apply lookup_iff in L; unfold is_key in K; lia.
  - intros N. destruct (lookup_none keys_single_letter keys_duple ws) as [E|P]; [vm_compute; reflexivity|vm_compute; reflexivity|exact E|]. exfalso. apply (N (lookup keys_single_letter keys_duple ws)). now apply lookup_iff.
Qed.
(** With the German names. *)
Lemma assoc_app {K V} (eqb : K -> K -> bool) k (m n : list (K * V)) : assoc eqb k (m ++ n) = match assoc eqb k m with Some v => Some v | None => assoc eqb k n end.
Proof. induction m as [|(a, v) m IH]; [reflexivity|]. cbn. destruct (eqb k a); [reflexivity|exact IH]. Qed.
Lemma inline_iff ws k : 0 <= k -> lookup inline_single inline_duple ws = k <-> labelled_inline ws k.
Proof.
  intros K. split.
  - destruct ws as [|a [|b [|c ws]]]; cbn [lookup]; try lia.
    + unfold inline_single. rewrite assoc_app. destruct (assoc String.eqb a keys_single_letter) eqn:E.
      * intros ->. apply inline_same, lookup_iff; [exact K|]. cbn [lookup]. now rewrite E.
      * cbn [assoc]. destruct (String.eqb_spec a "H") as [->|]; [intros <-; apply inline_H|]. destruct (String.eqb_spec a "h") as [->|]; [intros <-; apply inline_h|lia].
    + unfold inline_duple. rewrite assoc_app. destruct (assoc pair_eqb _ keys_duple) eqn:E.
      * intros ->. apply inline_same, lookup_iff; [exact K|]. cbn [lookup]. now rewrite E.
      * rewrite py_lower_table by (vm_compute; reflexivity). cbn [assoc]. unfold pair_eqb. cbn [fst snd].
        destruct (String.eqb_spec (lower_string a) "h") as [A|]; cbn [andb]; [|lia]. destruct (String.eqb_spec (lower_string b) "major") as [B|]; [intros <-; now apply inline_H_major|].
        destruct (String.eqb_spec (lower_string b) "minor") as [B|]; [intros <-; now apply inline_H_minor|lia].
  - intros H. destruct H as [l k H| | |n m N M|n m N M]; [|reflexivity|reflexivity| |].
    + apply (proj2 (lookup_iff l k K)) in H. destruct l as [|a [|b [|c l]]]; cbn [lookup] in *; try lia; unfold inline_single, inline_duple; rewrite assoc_app; destruct (assoc _ _ _); lia.
    + cbn [lookup]. rewrite py_lower_table by (vm_compute; reflexivity). now rewrite N, M.
    + cbn [lookup]. rewrite py_lower_table by (vm_compute; reflexivity). now rewrite N, M.
Qed.
Lemma labelled_inline_key ws k : labelled_inline ws k -> is_key k.
Proof. intros H. destruct H as [l k H| | | |]; [now apply (labelled_key l)|unfold is_key; lia..]. Qed.
Lemma reverse_name k : is_key k -> assoc Z.eqb k keys_single_reverse = Some (get_string (key_of_int k)) /\ named_key (get_string (key_of_int k)) = Some k.
Proof.
  intros K. assert (C : forallb (fun k => match assoc Z.eqb k keys_single_reverse with Some s => String.eqb s (get_string (key_of_int k)) && optZ_eqb (named_key s) (Some k) | None => false end) (zseq 24) = true) by (vm_compute; reflexivity).
  pose proof (zseq_sweep 24 _ C k K) as S. cbv beta in S. destruct (assoc Z.eqb k keys_single_reverse) as [s|]; [|discriminate]. apply andb_prop in S. destruct S as (S1 & S2). apply String.eqb_eq in S1. apply optZ_eqb_eq in S2. subst s. now split.
Qed.
Lemma C51_normalize_proof s ws k : worded s ws -> labelled_inline ws k -> normalize_key_label s = Returns (get_string (key_of_int k)) /\ named_key (get_string (key_of_int k)) = Some k.
Proof.
  intros W L. pose proof (labelled_inline_key ws k L) as K. destruct (reverse_name k K) as (R & N). split; [|exact N]. unfold normalize_key_label. rewrite py_split_strip, (worded_split _ _ W).
  apply inline_iff in L; [|unfold is_key in K; lia]. now rewrite L, R.
Qed.
Lemma C51_normalize_unknown_proof s ws : worded s ws -> (forall k, ~ labelled_inline ws k) -> normalize_key_label s = Returns "Unknown"%string.
Proof.
  intros W N. unfold normalize_key_label. rewrite py_split_strip, (worded_split _ _ W). destruct (lookup_none inline_single inline_duple ws) as [E|P]; [vm_compute; reflexivity|vm_compute; reflexivity|now rewrite E|].
  exfalso. apply (N (lookup inline_single inline_duple ws)). now apply inline_iff.
Qed.

(** ** The file written and the ground truth read from its name *)
Lemma splitext_ok noext ext : lacks "." ext -> only_dots noext = false -> splitext (noext ++ "." ++ ext) = (noext, "." ++ ext)%string.
Proof.
  intros L D. unfold splitext. cbn [append]. rewrite (last_index_some "." noext ext 0 L). replace (Z.to_nat (0 + size noext)) with (String.length noext) by (unfold size; lia).
  rewrite substring_0_app, D. f_equal. replace (String.length noext) with (String.length noext + 0)%nat at 1 by lia. rewrite substring_skip. apply substring_0_all. rewrite length_app. lia.
Qed.
Lemma strip_worded s ws : worded s ws -> worded (py_strip s) ws.
Proof. intros W. pose proof (split_worded (py_strip s)) as V. now rewrite py_split_strip, (worded_split _ _ W) in V. Qed.
Lemma name_lacks k : is_key k -> lacks "_" (get_string (key_of_int k)) /\ lacks "." (get_string (key_of_int k)).
Proof.
  intros K. assert (C : forallb (fun k => forallb (fun c => negb (c =? "_")%char && negb (c =? ".")%char) (list_ascii_of_string (get_string (key_of_int k)))) (zseq 24) = true) by (vm_compute; reflexivity).
  pose proof (zseq_sweep 24 _ C k K) as S. cbv beta in S. rewrite forallb_forall in S. split; intros I; specialize (S _ I); rewrite Ascii.eqb_refl in S; cbn in S; rewrite ?andb_false_r in S; discriminate.
Qed.
Lemma C51_inline_proof dir noext ext s ws k : lacks "." ext -> lacks "_" ext -> (exists c, In c (chars noext) /\ c <> "."%char) -> worded s ws -> labelled_inline ws k ->
  sized (dir ++ noext ++ "_Ab." ++ ext) ->
  exists f KEY, new_filename (noext ++ "." ++ ext) s = Returns f /\ ground_truth (dir ++ f) = Ret (Some KEY) /\ named_key KEY = Some k.
Proof.
  intros D U (c & I & NC) W L SZ. destruct (C51_normalize_proof (py_strip s) ws k (strip_worded s ws W) L) as (E & N). pose proof (labelled_inline_key ws k L) as K. destruct (name_lacks k K) as (K1 & K2).
  assert (OD : only_dots noext = false). { apply not_true_iff_false. intros O. unfold only_dots in O. rewrite forallb_forall in O. apply O, Ascii.eqb_eq in I. contradiction. }
  unfold new_filename. rewrite splitext_ok by assumption. rewrite E. cbn [pybind]. do 2 eexists. split; [reflexivity|]. split; [|exact N].
  replace (dir ++ noext ++ "_" ++ get_string (key_of_int k) ++ "." ++ ext)%string with ((dir ++ noext) ++ "_" ++ get_string (key_of_int k) ++ "." ++ ext)%string by (now rewrite app_string_assoc).
  apply C27_name_proof; try assumption. unfold sized in *. rewrite !size_app in *. cbn [append] in *.
  assert (C : forallb (fun k => size (get_string (key_of_int k)) <=? 2) (zseq 24) = true) by (vm_compute; reflexivity). pose proof (zseq_sweep 24 _ C k K) as S. cbv beta in S.
  change (size "_Ab.") with 4 in SZ. change (size "_") with 1. change (size ".") with 1. lia.
Qed.
Lemma C51_inline_unknown_proof dir noext ext s ws K : lacks "." ext -> lacks "_" ext -> (exists c, In c (chars noext) /\ c <> "."%char) -> worded s ws -> (forall k, ~ labelled_inline ws k) ->
  sized (dir ++ noext ++ "_Unknown." ++ ext) ->
  exists f, new_filename (noext ++ "." ++ ext) s = Returns f /\ print_evaluation (dir ++ f) (key_of_int K) = Undef UninitRead.
Proof.
  intros D U (c & I & NC) W L SZ. pose proof (C51_normalize_unknown_proof (py_strip s) ws (strip_worded s ws W) L) as E.
  assert (OD : only_dots noext = false). { apply not_true_iff_false. intros O. unfold only_dots in O. rewrite forallb_forall in O. apply O, Ascii.eqb_eq in I. contradiction. }
  unfold new_filename. rewrite splitext_ok by assumption. rewrite E. cbn [pybind]. eexists. split; [reflexivity|]. apply (C27_not_a_key_proof _ "Unknown"); [|reflexivity].
  replace (dir ++ noext ++ "_" ++ "Unknown" ++ "." ++ ext)%string with ((dir ++ noext) ++ "_" ++ "Unknown" ++ "." ++ ext)%string by (now rewrite app_string_assoc).
  apply C27_name_proof; try assumption.
  - unfold sized in *. rewrite !size_app in *. cbn [append] in *. change (size "_Unknown.") with 9 in SZ. change (size "_") with 1. change (size ".") with 1. change (size "Unknown") with 7. lia.
  - intros X. cbn in X. repeat (destruct X as [X|X]; [discriminate|]). exact X.
  - intros X. cbn in X. repeat (destruct X as [X|X]; [discriminate|]). exact X.
Qed.
(** One word means the same to both programs, or only to the C++ program. *)
Lemma C51_cpp_proof s : no_blank s -> s <> ""%string -> 0 <= parse_label s -> key_of_string s = mkKey (Some (parse_label s)) s.
Proof.
  intros B NE P. assert (W : worded s [s]) by (apply (worded_last "" s); [constructor|assumption|assumption]).
  assert (E : lookup keys_single_letter keys_duple [s] = parse_label s) by (unfold parse_label; now rewrite py_split_strip, (worded_split _ _ W)).
  pose proof (proj1 (lookup_iff [s] (parse_label s) P) E) as L. inversion L as [n k N O| |]; subst. rewrite key_of_string_correct, N. reflexivity.
Qed.
Lemma C51_cpp_more_proof s k : no_blank s -> s <> ""%string -> named_key s = Some k -> parse_label s = -1 <-> In s ["Cb"; "Fb"; "E#"; "B#"; "cb"; "fb"; "e#"; "b#"]%string.
Proof.
  intros B NE N. assert (W : worded s [s]) by (apply (worded_last "" s); [constructor|assumption|assumption]). unfold parse_label. rewrite py_split_strip, (worded_split _ _ W). cbn [lookup]. rewrite single_correct, N.
  pose proof (named_key_range s k N) as K. unfold is_key in K. rewrite <- string_table_correct in N. apply (assoc_In _ Seqb_spec') in N.
  assert (C : forallb (fun e => Bool.eqb (negb (ordinaryb (fst e))) (existsb (String.eqb (fst e)) ["Cb"; "Fb"; "E#"; "B#"; "cb"; "fb"; "e#"; "b#"]%string)) string_to_int = true) by (vm_compute; reflexivity).
  rewrite forallb_forall in C. specialize (C _ N). cbn [fst] in C. apply Bool.eqb_prop in C. assert (X : In s ["Cb"; "Fb"; "E#"; "B#"; "cb"; "fb"; "e#"; "b#"]%string <-> ordinaryb s = false).
  { rewrite <- negb_true_iff, C. rewrite existsb_exists. split; [intros I; exists s; split; [exact I|apply String.eqb_refl]|intros (x & I & E); apply String.eqb_eq in E; now subst]. }
  rewrite X. destruct (ordinaryb s); split; (lia || congruence).
Qed.
