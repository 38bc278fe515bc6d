(** Facts about tools/albrecht/extract_keys.py. *)
From Coq Require Import Lia Ascii String.
From Verif Require Import Base BaseFacts Text Py Creator Rename Keys MusicSpec TextSpec TextFacts CreatorSpec CreatorFacts CreatorLoop KeysSpec.
Open Scope string_scope.
Open Scope list_scope.

Lemma length_app a b : String.length (a ++ b) = (String.length a + String.length b)%nat.
Proof. induction a as [|c a IH]; cbn; [reflexivity|]. now rewrite IH. Qed.
Lemma drop_ending a b n : String.length b = n -> drop_last n (a ++ b) = a.
Proof. intros <-. unfold drop_last. rewrite length_app. replace (String.length a + String.length b - String.length b)%nat with (String.length a) by lia. apply substring_0_app. Qed.
Lemma key_name_spec f g : with_key f g -> key_name f = g.
Proof. intros (stem & e & -> & L & ->). unfold key_name. now rewrite drop_ending. Qed.
Lemma after_star_some s r : after_star s = Some r <-> exists p, lacks "*" p /\ s = (p ++ String "*" r)%string.
Proof.
  induction s as [|c s IH]; cbn [after_star].
  - split; [discriminate|]. intros ([|d p] & _ & E); discriminate E.
  - destruct (Ascii.eqb_spec c "*") as [->|N].
    + split.
      * intros [= ->]. exists ""%string. split; [intros []|reflexivity].
      * intros ([|d p] & L & E); cbn in E; [now inversion E|]. inversion E; subst. exfalso. apply L. now left.
    + rewrite IH. split.
      * intros (p & L & ->). exists (String c p). split; [|reflexivity]. intros [X|X]; [congruence|now apply L].
      * intros ([|d p] & L & E); cbn in E; inversion E; subst; [congruence|]. exists p. split; [|reflexivity]. intros X. apply L. now right.
Qed.
Lemma ends_with_iff c r : ends_with c r = true <-> exists k, r = (k ++ String c "")%string.
Proof.
  split.
  - destruct (last_char r) as [->|(d & e & ->)]; [discriminate|]. rewrite ends_with_app. intros E%Ascii.eqb_eq. subst. now exists d.
  - intros (k & ->). rewrite ends_with_app. apply Ascii.eqb_refl.
Qed.
Lemma spine_key_spec s k : spine_key s = Some k <-> key_token s k.
Proof.
  unfold spine_key, key_token. split.
  - destruct (after_star s) as [r|] eqn:A; [|discriminate]. destruct (ends_with ":" r) eqn:E; [|discriminate]. intros [= <-]. apply ends_with_iff in E as (k & ->). rewrite (drop_ending k ":" 1) by reflexivity.
    apply after_star_some in A as (p & L & ->). now exists p.
  - intros (p & L & ->). assert (A : after_star (p ++ "*" ++ k ++ ":") = Some (k ++ ":")%string) by (apply after_star_some; now exists p). rewrite A.
    assert (E : ends_with ":" (k ++ ":") = true) by (apply ends_with_iff; now exists k). rewrite E. now rewrite drop_ending.
Qed.
Lemma scan_spec rows : Forall (fun r => r <> []) rows -> snd (scan rows) = false /\ keys_in rows (fst (scan rows)).
Proof.
  induction 1 as [|r rows N _ (F & K)]; [split; [reflexivity|constructor]|]. destruct r as [|s r]; [congruence|]. cbn [scan]. destruct (scan rows) as [printed failed]. cbn [fst snd] in *. split; [exact F|].
  destruct (spine_key s) as [k|] eqn:E.
  - constructor; [now apply spine_key_spec|exact K].
  - constructor; [|exact K]. intros k T. apply spine_key_spec in T. congruence.
Qed.
Lemma scan_fails rows : In [] rows -> snd (scan rows) = true.
Proof.
  induction rows as [|r rows IH]; [intros []|]. destruct r as [|s r]; [reflexivity|]. intros [X|X]; [discriminate X|]. specialize (IH X). cbn [scan]. destruct (scan rows). exact IH.
Qed.
Lemma keys_unique rows ks ks' : keys_in rows ks -> keys_in rows ks' -> ks = ks'.
Proof.
  intros K. revert ks'. induction K as [|s r rows k ks T _ IH|s r rows ks N _ IH]; intros ks' K'; inversion K'; subst; auto.
  - apply spine_key_spec in T. match goal with X : key_token s _ |- _ => apply spine_key_spec in X; rewrite T in X; inversion X; subst end. f_equal. auto.
  - exfalso. match goal with X : forall k, ~ key_token s k |- _ => now apply (X k) end.
  - exfalso. now apply (N k).
Qed.
(** ** The folder *)
Lemma put_same {T} (d : string -> option T) n v : put d n v n = v.
Proof. unfold put. now rewrite String.eqb_refl. Qed.
Lemma extracted rows names : forall files, let '(after, _, e) := extract_keys rows names files in
  (forall n, after n = Some ""%string \/ after n = files n) /\ (forall n, files n = Some ""%string -> after n = Some ""%string) /\ (e = None -> forall f, In f names -> after (key_name f) = Some ""%string).
Proof.
  induction names as [|f names IH]; intros files; cbn [extract_keys]; [repeat split; auto; intros _ f []|].
  set (files1 := put files (key_name f) (Some ""%string)).
  assert (A1 : forall n, files1 n = Some ""%string \/ files1 n = files n) by (intros n; unfold files1, put; destruct (n =? key_name f)%string; auto).
  assert (A2 : forall n, files n = Some ""%string -> files1 n = Some ""%string) by (intros n E; unfold files1, put; destruct (n =? key_name f)%string; auto).
  destruct (scan _) as [printed failed]. destruct failed; [repeat split; auto; discriminate|].
  specialize (IH files1). destruct (extract_keys rows names files1) as [[after more] e]. destruct IH as (B1 & B2 & B3). repeat split.
  - intros n. destruct (B1 n) as [X|X]; [auto|]. rewrite X. apply A1.
  - intros n E. auto.
  - intros E g [<-|I]; [apply B2; apply put_same|now apply B3].
Qed.
Lemma extracted_prints rows names : forall files, (forall f g, In f names -> In g names -> key_name f <> g) -> (forall f text, In f names -> files f = Some text -> Forall (fun r => r <> []) (rows text)) -> (forall f, In f names -> files f <> None) ->
  exists keys, snd (extract_keys rows names files) = None /\ snd (fst (extract_keys rows names files)) = concat (map (fun fk => fst fk :: snd fk) (combine names keys)) /\
    Forall2 (fun f ks => exists text, files f = Some text /\ keys_in (rows text) ks) names keys.
Proof.
  induction names as [|f names IH]; intros files D R S; [exists []; repeat split; constructor|]. cbn [extract_keys].
  set (files1 := put files (key_name f) (Some ""%string)).
  assert (U : forall g, In g (f :: names) -> files1 g = files g). { intros g I. unfold files1, put. destruct (String.eqb_spec g (key_name f)) as [->|]; [|reflexivity]. exfalso. now apply (D f (key_name f)); [now left|exact I|]. }
  destruct (files f) as [text|] eqn:E; [|exfalso; now apply (S f); [now left|]]. rewrite (U f) by now left. rewrite E.
  destruct (scan_spec (rows text)) as (F & K); [apply (R f); [now left|exact E]|]. destruct (scan (rows text)) as [printed failed]. cbn [fst snd] in *. subst failed.
  destruct (IH files1) as (keys & A & B & C).
  - intros a b I J. apply D; now right.
  - intros a t I. rewrite U by now right. apply R. now right.
  - intros a I. rewrite U by now right. apply S. now right.
  - destruct (extract_keys rows names files1) as [[after more] e]. cbn [fst snd] in *. exists (printed :: keys). repeat split.
    + exact A.
    + cbn [combine map concat fst snd]. now rewrite B.
    + constructor; [now exists text|]. clear - C U. assert (V : forall g, In g names -> files1 g = files g) by (intros; apply U; now right). clear U. induction C as [|g ks l keys (t & X & Y) _ IHC]; constructor.
      * exists t. rewrite <- V by now left. auto.
      * apply IHC. intros; apply V; now right.
Qed.
Lemma extracted_fails rows names : forall files f text, (forall f g, In f names -> In g names -> key_name f <> g) -> In f names -> files f = Some text -> In [] (rows text) ->
  snd (extract_keys rows names files) = Some IndexError.
Proof.
  induction names as [|g names IH]; intros files f text D I E X; [destruct I|]. cbn [extract_keys].
  set (files1 := put files (key_name g) (Some ""%string)).
  assert (U : forall h, In h (g :: names) -> files1 h = files h). { intros h J. unfold files1, put. destruct (String.eqb_spec h (key_name g)) as [->|]; [|reflexivity]. exfalso. now apply (D g (key_name g)); [now left|exact J|]. }
  destruct (scan _) as [printed failed] eqn:SC. destruct failed; [reflexivity|].
  destruct I as [->|I].
  - rewrite (U f), E in SC by now left. assert (Y := scan_fails _ X). rewrite SC in Y. discriminate Y.
  - specialize (IH files1 f text). destruct (extract_keys rows names files1) as [[after more] e]. cbn [snd] in *. apply IH; auto.
    + intros a b A B. apply D; now right.
    + rewrite U by now right. exact E.
Qed.
Lemma four_more f : (4 <= String.length f)%nat -> with_key f (key_name f).
Proof.
  intros L. exists (substring 0 (String.length f - 4) f), (substring (String.length f - 4) 4 f). assert (E : f = (substring 0 (String.length f - 4) f ++ substring (String.length f - 4) 4 f)%string).
    { clear - L. remember (String.length f - 4)%nat as m. assert (X : String.length f = (m + 4)%nat) by lia. clear L Heqm. revert f X. induction m as [|m IH]; intros f X.
      - destruct f as [|a [|b [|c [|d [|? ?]]]]]; try discriminate X. reflexivity.
      - destruct f as [|a f]; [discriminate X|]. cbn [substring append]. f_equal. apply IH. cbn in X. lia. }
    split; [exact E|]. split; [|reflexivity]. assert (Y := f_equal String.length E). rewrite length_app in Y. assert (Z := drop_ending (substring 0 (String.length f - 4) f) (substring (String.length f - 4) 4 f) _ eq_refl). rewrite <- E in Z.
    assert (W : String.length (substring 0 (String.length f - 4) f) = (String.length f - 4)%nat). { clear. remember (String.length f - 4)%nat as m. assert (X : (m <= String.length f)%nat) by lia. clear Heqm. revert m X. induction f as [|a f IH]; intros m X; [now replace m with 0%nat by (cbn in X; lia)|]. destruct m as [|m]; [reflexivity|]. cbn [substring String.length]. rewrite IH; [reflexivity|]. cbn in X. lia. }
    lia.
Qed.
Lemma names_apart names : (forall f g h, In f names -> In g names -> with_key f h -> h <> g) -> Forall (fun f => (4 <= String.length f)%nat) names -> forall f g, In f names -> In g names -> key_name f <> g.
Proof. intros D L f g I J. apply (D f g); [exact I|exact J|]. apply four_more. rewrite Forall_forall in L. auto. Qed.
