(** Facts about the command line: input type and custom tables. *)
From Coq Require Import Lia Ascii.
From Verif Require Import Base BaseFacts Fp Key PitchClass KeyProfile KeyTransition Pipeline Text Options MusicSpec TextSpec TextFacts NumberFacts ReadFacts MainSpec OutputFacts FormatFacts.
From Coq Require Import ZifyBool ZifyNat.
Open Scope Z_scope.

(** ** C28 *)
Lemma lower_map s : string_map tolower s = lower_string s.
Proof. induction s as [|c s IH]; [reflexivity|]. cbn. now rewrite IH, lower_tolower. Qed.
Lemma kind_unique ext a b : kind_of_extension ext a -> kind_of_extension ext b -> a = b.
Proof.
  unfold kind_of_extension. destruct a as [[| |]|], b as [[| |]|]; intros A B; try reflexivity; exfalso; cbn in A, B;
    repeat match goal with H : _ \/ _ |- _ => destruct H | H : lower_string ext = _ |- _ => rewrite H in * end; intuition discriminate.
Qed.
Lemma extension_value base ext : sized (base ++ "." ++ ext) -> lacks "." ext ->
  input_of_extension (base ++ "." ++ ext) =
  Ret (let e := lower_string ext in
       if (e =? "wav")%string then Go INPUT_WAV else if (e =? "csv")%string then Go INPUT_CSV
       else if (e =? "midi")%string || (e =? "mid")%string then Go INPUT_MIDI else Help neither_message).
Proof.
  intros S L. cbn [append] in *. unfold input_of_extension. rewrite (find_last_some "." base ext L).
  unfold sized in S. rewrite size_app in S. pose proof (size_nonneg base). rewrite substr_tail by (unfold npos; lia). cbn [bind].
  rewrite lower_map. cbn [lower_string]. change (lower ".") with "."%char. reflexivity.
Qed.
Lemma C28_proof base ext : sized (base ++ "." ++ ext) -> lacks "." ext ->
  exists kind, kind_of_extension ext kind /\
    input_of_extension (base ++ "." ++ ext) = Ret (match kind with Some t => Go t | None => Help neither_message end).
Proof.
  intros S L. rewrite (extension_value base ext S L). cbv zeta.
  destruct (String.eqb_spec (lower_string ext) "wav") as [E1|N1]; [exists (Some INPUT_WAV); now split|].
  destruct (String.eqb_spec (lower_string ext) "csv") as [E2|N2]; [exists (Some INPUT_CSV); now split|].
  destruct (String.eqb_spec (lower_string ext) "midi") as [E3|N3]; [exists (Some INPUT_MIDI); split; [now right|reflexivity]|].
  destruct (String.eqb_spec (lower_string ext) "mid") as [E4|N4]; [exists (Some INPUT_MIDI); split; [now left|reflexivity]|].
  exists None. split; [|reflexivity]. cbn. intuition congruence.
Qed.
Lemma C28_dotless_proof f : sized f -> lacks "." f -> input_of_extension f = Throws StdOutOfRange.
Proof.
  intros S L. unfold input_of_extension. rewrite (find_last_none _ _ L). unfold sized in S. rewrite substr_past; [reflexivity|]. unfold npos. lia.
Qed.
Lemma C28_split_proof f : lacks "." f \/ exists base ext, f = (base ++ "." ++ ext)%string /\ lacks "." ext.
Proof. exact (last_split "." f). Qed.

(** ** C30, C31 *)
Lemma replace_at {A} (p q : list A) x v : replace_nth (p ++ x :: q) (length p) v = p ++ v :: q.
Proof. induction p as [|y p IH]; [reflexivity|]. cbn. now rewrite IH. Qed.
Lemma store_at {A} (p q : list A) x v i : i = Z.of_nat (length p) -> store (p ++ x :: q) i v = Ret (p ++ v :: q).
Proof.
  intros ->. unfold store. rewrite app_length. cbn [length]. replace ((0 <=? _) && _) with true by lia. now rewrite Nat2Z.id, replace_at.
Qed.
Lemma incr_ok i : i < INT_MAX -> incr i = Ret (i + 1).
Proof. intros H. unfold incr. now replace (i =? INT_MAX) with false by lia. Qed.
Lemma replace_length {A} (l : list A) n v : length (replace_nth l n v) = length l.
Proof. revert n. induction l as [|x l IH]; intros [|n]; cbn; auto. Qed.

Lemma fill_profiles_major a b p q mino : length (p ++ q) = 12%nat -> (length a <= length q)%nat ->
  fill_profiles (a ++ b) (Z.of_nat (length p)) (p ++ q) mino =
  fill_profiles b (Z.of_nat (length p + length a)) (p ++ a ++ skipn (length a) q) mino.
Proof.
  revert p q. induction a as [|v a IH]; intros p q L H.
  - cbn [app length skipn]. now rewrite Nat.add_0_r.
  - destruct q as [|x q]; [cbn in H; lia|]. rewrite app_length in L. cbn [length] in L, H. cbn [app fill_profiles].
    replace (Z.of_nat (length p) <? FIRST_MINOR_KEY) with true by (unfold FIRST_MINOR_KEY; lia).
    rewrite (store_at p q x v) by reflexivity. cbn [bind]. rewrite incr_ok by (unfold INT_MAX; lia). cbn [bind].
    specialize (IH (p ++ [v]) q). rewrite !app_length, <- !app_assoc in IH. cbn [length app] in IH.
    replace (Z.of_nat (length p) + 1) with (Z.of_nat (length p + 1)) by lia. rewrite IH by lia. cbn [length skipn app]. f_equal; lia.
Qed.
Lemma fill_profiles_minor a b p q maj : length (p ++ q) = 12%nat -> (length a <= length q)%nat ->
  fill_profiles (a ++ b) (Z.of_nat (12 + length p)) maj (p ++ q) =
  fill_profiles b (Z.of_nat (12 + length p + length a)) maj (p ++ a ++ skipn (length a) q).
Proof.
  revert p q. induction a as [|v a IH]; intros p q L H.
  - cbn [app length skipn]. now rewrite Nat.add_0_r.
  - destruct q as [|x q]; [cbn in H; lia|]. rewrite app_length in L. cbn [length] in L, H. cbn [app fill_profiles].
    replace (Z.of_nat (12 + length p) <? FIRST_MINOR_KEY) with false by (unfold FIRST_MINOR_KEY; lia).
    rewrite (store_at p q x v).
    2:{ unfold NUMBER_OF_PITCHCLASSES. rewrite Z.rem_mod_nonneg by lia. replace (Z.of_nat (12 + length p)) with (Z.of_nat (length p) + 1 * 12) by lia.
        rewrite Z.mod_add by lia. apply Z.mod_small. lia. }
    cbn [bind]. rewrite incr_ok by (unfold INT_MAX; lia). cbn [bind].
    specialize (IH (p ++ [v]) q). rewrite !app_length, <- !app_assoc in IH. cbn [length app] in IH.
    replace (Z.of_nat (12 + length p) + 1) with (Z.of_nat (12 + (length p + 1))) by lia. rewrite IH by lia. cbn [length skipn app]. f_equal; lia.
Qed.
(** Any count: never outside the arrays. *)
Lemma fill_profiles_count vals i maj mino : 0 <= i -> i + Z.of_nat (length vals) <= INT_MAX -> length maj = 12%nat -> length mino = 12%nat ->
  exists maj' mino', fill_profiles vals i maj mino = Ret (i + Z.of_nat (length vals), maj', mino').
Proof.
  revert i maj mino. induction vals as [|v vals IH]; intros i maj mino P B L1 L2; cbn [fill_profiles length] in *.
  - exists maj, mino. do 3 f_equal. lia.
  - assert (B' : i < INT_MAX) by lia. destruct (Z.ltb_spec i FIRST_MINOR_KEY) as [H|H]; unfold FIRST_MINOR_KEY in H.
    + unfold store. rewrite L1. replace ((0 <=? i) && _) with true by lia. cbn [bind]. rewrite incr_ok by lia. cbn [bind].
      destruct (IH (i + 1) (replace_nth maj (Z.to_nat i) v) mino) as (a & b & E); try lia; [now rewrite replace_length|].
      exists a, b. rewrite E. do 3 f_equal. lia.
    + unfold store, NUMBER_OF_PITCHCLASSES. rewrite L2. assert (R : 0 <= Z.rem i 12 < 12) by (apply Z.rem_bound_pos; lia).
      replace ((0 <=? Z.rem i 12) && _) with true by lia. cbn [bind]. rewrite incr_ok by lia. cbn [bind].
      destruct (IH (i + 1) maj (replace_nth mino (Z.to_nat (Z.rem i 12)) v)) as (a & b & E); try lia; [now rewrite replace_length|].
      exists a, b. rewrite E. do 3 f_equal. lia.
Qed.
Definition short (s : string) : Prop := size s < 2 ^ 31.
Lemma reads_short s (vals : list b64) : short s -> reads s vals -> Z.of_nat (length vals) <= INT_MAX.
Proof. intros S R. pose proof (reads_length s vals R : (@length b64 vals <= _)%nat) as R'. unfold short, size, INT_MAX in *. lia. Qed.
Lemma count_shape what n : 0 <= n -> exists ds, Forall is_dig ds /\ digits_value ds = n /\ ds <> [] /\ (hd 0 ds = 0 -> ds = [0]) /\
  count_message what n = ("You must provide exactly 24 values for the custom key " ++ what ++ ". You provided " ++ show_digits ds ++ ".")%string.
Proof.
  intros H. destruct (format_int_spec n H) as (ds & E & D & V & N & Z0). exists ds. repeat split; try assumption. unfold count_message. now rewrite E.
Qed.
Lemma C30_accept_proof text (vals : list b64) g1 g2 : reads text vals -> length g1 = 12%nat -> length g2 = 12%nat -> length vals = 24%nat ->
  custom_profiles text g1 g2 = Ret (Go (firstn 12 vals, skipn 12 vals)).
Proof.
  intros R L1 L2 L. unfold custom_profiles. rewrite (proj2 (read_doubles_iff text vals) R).
  rewrite <- (firstn_skipn 12 vals) at 1. assert (F : length (firstn 12 vals) = 12%nat) by (rewrite firstn_length; lia).
  assert (K : length (skipn 12 vals) = 12%nat) by (rewrite skipn_length; lia).
  pose proof (fill_profiles_major (firstn 12 vals) (skipn 12 vals) [] g1 g2 L1 ltac:(eapply Nat.eq_le_incl; etransitivity; [exact F|symmetry; exact L1])) as E1. cbn [app length] in E1.
  change (Z.of_nat 0) with 0 in E1. rewrite E1. clear E1. rewrite F. rewrite (skipn_all2 g1) by (apply Nat.eq_le_incl; exact L1). rewrite app_nil_r.
  pose proof (fill_profiles_minor (skipn 12 vals) [] [] g2 (firstn 12 vals) L2 ltac:(eapply Nat.eq_le_incl; etransitivity; [exact K|symmetry; exact L2])) as E2. cbn [app length] in E2. rewrite app_nil_r in E2.
  change (Z.of_nat (12 + 0)) with (Z.of_nat (0 + 12)) in E2. rewrite E2, K. cbn [fill_profiles bind]. rewrite (skipn_all2 g2) by (apply Nat.eq_le_incl; exact L2). rewrite app_nil_r. reflexivity.
Qed.
Lemma C30_reject_proof text (vals : list b64) g1 g2 : short text -> reads text vals -> length g1 = 12%nat -> length g2 = 12%nat -> length vals <> 24%nat ->
  custom_profiles text g1 g2 = Ret (Help (count_message "profiles" (Z.of_nat (length vals)))).
Proof.
  intros S R L1 L2 L. pose proof (reads_short text vals S R) as B. unfold custom_profiles. rewrite (proj2 (read_doubles_iff text vals) R).
  destruct (fill_profiles_count vals 0 g1 g2 ltac:(lia) ltac:(lia) L1 L2) as (a & b & E). rewrite E. cbn [bind].
  replace (0 + Z.of_nat (length vals) =? NUMBER_OF_KEYS) with false by (unfold NUMBER_OF_KEYS; lia). reflexivity.
Qed.
Lemma fill_transitions_ok a p q : (length (p ++ q) <= 24)%nat -> (length a <= length q)%nat ->
  fill_transitions a (Z.of_nat (length p)) (p ++ q) = Ret (Z.of_nat (length p + length a), p ++ a ++ skipn (length a) q).
Proof.
  revert p q. induction a as [|v a IH]; intros p q L H.
  - cbn [app length skipn fill_transitions]. now rewrite Nat.add_0_r.
  - destruct q as [|x q]; [cbn in H; lia|]. rewrite app_length in L. cbn [length] in L, H. cbn [fill_transitions].
    rewrite (store_at p q x v) by reflexivity. cbn [bind]. rewrite incr_ok by (unfold INT_MAX; lia). cbn [bind].
    specialize (IH (p ++ [v]) q). rewrite !app_length, <- !app_assoc in IH. cbn [length app] in IH.
    replace (Z.of_nat (length p) + 1) with (Z.of_nat (length p + 1)) by lia. rewrite IH by lia. cbn [length skipn]. do 2 f_equal. lia.
Qed.
Lemma fill_transitions_over a p q : (length (p ++ q) <= 24)%nat -> (length q < length a)%nat ->
  fill_transitions a (Z.of_nat (length p)) (p ++ q) = Undef OutOfBounds.
Proof.
  revert p q. induction a as [|v a IH]; intros p q L H; [cbn in H; lia|]. cbn [fill_transitions]. destruct q as [|x q].
  - rewrite app_nil_r. unfold store. replace ((0 <=? _) && _) with false by lia. reflexivity.
  - rewrite app_length in L. cbn [length] in L, H.
    rewrite (store_at p q x v) by reflexivity. cbn [bind]. rewrite incr_ok by (unfold INT_MAX; lia). cbn [bind].
    specialize (IH (p ++ [v]) q). rewrite !app_length, <- !app_assoc in IH. cbn [length app] in IH.
    replace (Z.of_nat (length p) + 1) with (Z.of_nat (length p + 1)) by lia. apply IH; lia.
Qed.
Lemma C31_accept_proof text (vals : list b64) g : reads text vals -> length g = 24%nat -> length vals = 24%nat -> custom_transitions text g = Ret (Go vals).
Proof.
  intros R G L. unfold custom_transitions. rewrite (proj2 (read_doubles_iff text vals) R).
  pose proof (fill_transitions_ok vals [] g ltac:(cbn; lia) ltac:(lia)) as E. cbn [app length] in E. change (Z.of_nat 0) with 0 in E. rewrite E. cbn [bind].
  rewrite L, skipn_all2, app_nil_r by lia. reflexivity.
Qed.
Lemma C31_reject_proof text (vals : list b64) g : reads text vals -> length g = 24%nat -> (length vals < 24)%nat ->
  custom_transitions text g = Ret (Help (count_message "transitions" (Z.of_nat (length vals)))).
Proof.
  intros R G L. unfold custom_transitions. rewrite (proj2 (read_doubles_iff text vals) R).
  pose proof (fill_transitions_ok vals [] g ltac:(cbn; lia) ltac:(lia)) as E. cbn [app length] in E. change (Z.of_nat 0) with 0 in E. rewrite E. cbn [bind].
  replace (Z.of_nat (0 + length vals) =? NUMBER_OF_KEYS) with false by (unfold NUMBER_OF_KEYS; lia). reflexivity.
Qed.
Lemma C31_overrun_proof text (vals : list b64) g : reads text vals -> length g = 24%nat -> (24 < length vals)%nat -> custom_transitions text g = Undef OutOfBounds.
Proof.
  intros R G L. unfold custom_transitions. rewrite (proj2 (read_doubles_iff text vals) R).
  pose proof (fill_transitions_over vals [] g ltac:(cbn; lia) ltac:(lia)) as E. cbn [app length] in E. change (Z.of_nat 0) with 0 in E. now rewrite E.
Qed.
