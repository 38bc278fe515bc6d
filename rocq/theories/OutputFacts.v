(** Facts about the printed label, the evaluation score and the file name. *)
From Coq Require Import Lia Ascii.
From Verif Require Import Base BaseFacts Fp Key KeyFacts PitchClass Text Options Output MusicSpec TextSpec TextFacts MainSpec.
From Coq Require Import ZifyBool ZifyNat.
Open Scope Z_scope.

Lemma key_cases k : is_key k -> In k (zseq 24).
Proof. intros H. apply zseq_In. unfold is_key in H. lia. Qed.
Ltac key H := apply key_cases in H; cbv [zseq map seq Z.of_nat Pos.of_succ_nat Pos.succ] in H; repeat (destruct H as [<-|H]; [|]); [.. | destruct H].

(** ** C25 *)
Definition mode_word (k : Z) : string := if majorb k then "major" else "minor".
Lemma C25_label_proof k : is_key k -> exists t, print_label (key_of_int k) = Ret (t ++ tab ++ mode_word k ++ nl)%string /\
  note_name t = Some (tonic k, true) /\ lower_string t = lower_string (get_string (key_of_int k)).
Proof.
  intros H. exists (match get_string (key_of_int k) with String c s => String (toupper c) s | EmptyString => EmptyString end).
  key H; (split; [vm_compute; reflexivity|split; vm_compute; reflexivity]).
Qed.
Lemma C25_distinct_proof j k : is_key j -> is_key k -> print_label (key_of_int j) = print_label (key_of_int k) -> j = k.
Proof.
  intros Hj Hk E. destruct (C25_label_proof j Hj) as (t & E1 & N1 & _). destruct (C25_label_proof k Hk) as (t' & E2 & N2 & _).
  assert (B : forall j k, 0 <= j < Z.of_nat 24 -> 0 <= k < Z.of_nat 24 ->
     implb (match print_label (key_of_int j), print_label (key_of_int k) with Ret a, Ret b => (a =? b)%string | _, _ => true end) (j =? k) = true).
  { apply zseq_sweep2. vm_compute. reflexivity. }
  specialize (B j k ltac:(unfold is_key in Hj; lia) ltac:(unfold is_key in Hk; lia)). rewrite E, E2, String.eqb_refl in B. cbn in B. lia.
Qed.

(** ** C26 *)
Definition inb (p : Z) (l : list Z) : bool := existsb (Z.eqb p) l.
Definition same_notesb (K T : Z) : bool := forallb (fun p => Bool.eqb (inb p (scale K)) (inb p (scale T))) (zseq 12) && negb (Bool.eqb (majorb K) (majorb T)).
Definition fifthb (K T : Z) : bool := (tonic K =? (tonic T + 7) mod 12) && Bool.eqb (majorb K) (majorb T).
Definition paralb (K T : Z) : bool := (tonic K =? tonic T) && negb (Bool.eqb (majorb K) (majorb T)).
Lemma inb_spec p l : inb p l = true <-> In p l.
Proof. unfold inb. rewrite existsb_exists. split; [intros (x & H & E); apply Z.eqb_eq in E; now subst|intros H; exists p; split; [exact H|apply Z.eqb_refl]]. Qed.
Lemma scale_range k p : In p (scale k) -> 0 <= p < 12.
Proof. unfold scale. intros H. apply in_map_iff in H. destruct H as (d & <- & _). apply Z.mod_pos_bound. lia. Qed.
Lemma same_notesb_spec K T : same_notesb K T = true <-> same_notes K T.
Proof.
  unfold same_notesb, same_notes. rewrite andb_true_iff, negb_true_iff, eqb_false_iff, forallb_forall. split; intros [A B]; (split; [|exact B]); intros p.
  - split; intros H; specialize (A p ltac:(apply zseq_In; apply scale_range in H; lia)); apply eqb_prop in A; apply inb_spec; apply inb_spec in H; congruence.
  - intros _. apply eqb_true_iff. destruct (inb p (scale K)) eqn:E1, (inb p (scale T)) eqn:E2; try reflexivity; exfalso.
    + apply inb_spec in E1. apply A in E1. apply inb_spec in E1. congruence.
    + apply inb_spec in E2. apply A in E2. apply inb_spec in E2. congruence.
Qed.
Lemma fifthb_spec K T : fifthb K T = true <-> fifth_above K T.
Proof. unfold fifthb, fifth_above. rewrite andb_true_iff, Z.eqb_eq, eqb_true_iff. reflexivity. Qed.
Lemma paralb_spec K T : paralb K T = true <-> same_tonic K T.
Proof. unfold paralb, same_tonic. rewrite andb_true_iff, Z.eqb_eq, negb_true_iff, eqb_false_iff. reflexivity. Qed.
Definition score_text (r : outcome b64) : string := match r with Ret v => format_g v | _ => "?" end.
Definition creditb (K T : Z) (s : string) : bool :=
  ((s =? "1")%string && (K =? T)) || ((s =? "0.5")%string && fifthb K T) || ((s =? "0.3")%string && same_notesb K T) ||
  ((s =? "0.2")%string && paralb K T) || ((s =? "0")%string && negb (K =? T) && negb (fifthb K T) && negb (same_notesb K T) && negb (paralb K T)).
Lemma creditb_spec K T s : creditb K T s = true <-> credit K T s.
Proof.
  unfold creditb. split.
  - intros H. rewrite !orb_true_iff, !andb_true_iff, !negb_true_iff, !String.eqb_eq in H. destruct H as [[[[[-> H]|[-> H]]|[-> H]]|[-> H]]|[[[[-> A] B] C] D]].
    + apply credit_same. lia.
    + apply credit_fifth. now apply fifthb_spec.
    + apply credit_relative. now apply same_notesb_spec.
    + apply credit_parallel. now apply paralb_spec.
    + apply credit_other; [lia| | |]; intros X.
      * apply fifthb_spec in X. congruence.
      * apply same_notesb_spec in X. congruence.
      * apply paralb_spec in X. congruence.
  - intros H. destruct H as [H|H|H|H|A B C D].
    + apply Z.eqb_eq in H. now rewrite H.
    + apply fifthb_spec in H. now rewrite H, !orb_true_r.
    + apply same_notesb_spec in H. now rewrite H, !orb_true_r.
    + apply paralb_spec in H. now rewrite H, !orb_true_r.
    + apply Z.eqb_neq in A. rewrite <- fifthb_spec in B. rewrite <- same_notesb_spec in C. rewrite <- paralb_spec in D.
      apply not_true_is_false in B, C, D. rewrite A, B, C, D. reflexivity.
Qed.
Definition texts : list string := ["1"; "0.5"; "0.3"; "0.2"; "0"]%string.
(** Exactly one of the five texts is the credit, and it is the one computed. *)
Definition pair_ok (K T : Z) : bool :=
  match score (key_of_int K) (key_of_int T) with
  | Ret v => creditb K T (format_g v) && (length (filter (creditb K T) texts) =? 1)%nat
  | _ => false
  end.
Lemma all_pairs K T : is_key K -> is_key T -> pair_ok K T = true.
Proof.
  intros HK HT. assert (B : forall j k, 0 <= j < Z.of_nat 24 -> 0 <= k < Z.of_nat 24 -> pair_ok j k = true).
  { apply zseq_sweep2. vm_compute. reflexivity. }
  unfold is_key in *. apply B; lia.
Qed.
Lemma score_key K T : is_key K -> is_key T -> exists v, score (key_of_int K) (key_of_int T) = Ret v /\ credit K T (format_g v).
Proof.
  intros HK HT. pose proof (all_pairs K T HK HT) as P. unfold pair_ok in P. destruct (score _ _) as [v| |]; try discriminate.
  exists v. split; [reflexivity|]. apply andb_true_iff in P. now apply creditb_spec.
Qed.
Lemma credit_texts K T s : credit K T s -> In s texts.
Proof. intros []; cbn; auto 6. Qed.
Lemma filter_one {A} (f : A -> bool) l x y : length (filter f l) = 1%nat -> In x l -> In y l -> f x = true -> f y = true -> x = y.
Proof.
  intros L Hx Hy Fx Fy. assert (X : In x (filter f l)) by now apply filter_In. assert (Y : In y (filter f l)) by now apply filter_In.
  destruct (filter f l) as [|a [|b l']]; try discriminate. destruct X as [<-|[]], Y as [<-|[]]. reflexivity.
Qed.
Lemma C26_exclusive_proof K T : is_key K -> is_key T -> exists s, credit K T s /\ forall s', credit K T s' -> s' = s.
Proof.
  intros HK HT. destruct (score_key K T HK HT) as (v & _ & C). exists (format_g v). split; [exact C|]. intros s' C'.
  pose proof (all_pairs K T HK HT) as P. unfold pair_ok in P. destruct (score _ _); try discriminate. apply andb_true_iff in P. destruct P as [_ P].
  apply Nat.eqb_eq in P. apply (filter_one _ _ _ _ P); try (now apply (credit_texts K T)); now apply creditb_spec.
Qed.
(** Spelling does not matter for comparisons. *)
Lemma same_number a b k : kint a = Some k -> kint b = Some k -> forall m, score m a = score m b.
Proof.
  intros A B m. unfold score, key_eq, get_dominant, get_relative, get_parallel, get_int, is_major, is_minor. now rewrite A, B.
Qed.
Lemma C26_score_proof K s T : is_key K -> named_key s = Some T -> forall filename, ground_truth filename = Ret (Some s) ->
  exists text, print_evaluation filename (key_of_int K) = Ret (text ++ nl)%string /\ credit K T text.
Proof.
  intros HK HT f E. assert (R : is_key T) by now apply (named_key_range s). destruct (score_key K T HK R) as (v & S & C).
  exists (format_g v). split; [|exact C]. unfold print_evaluation. rewrite E. cbn [bind]. rewrite key_of_string_correct, HT.
  rewrite (same_number (mkKey (Some T) s) (key_of_int T) T); [now rewrite S|reflexivity|]. clear - R. key R; vm_compute; reflexivity.
Qed.
Lemma C26_only_right_proof K T : is_key K -> is_key T -> credit K T "1" -> K = T.
Proof. intros HK HT C. inversion C. assumption. Qed.
Lemma C26_subdominant_proof K T : is_key K -> is_key T -> fifth_above T K -> credit K T "0".
Proof.
  intros HK HT F. apply creditb_spec. apply fifthb_spec in F.
  assert (B : forall j k, 0 <= j < Z.of_nat 24 -> 0 <= k < Z.of_nat 24 -> implb (fifthb k j) (creditb j k "0") = true).
  { apply zseq_sweep2. vm_compute. reflexivity. }
  unfold is_key in *. specialize (B K T ltac:(lia) ltac:(lia)). now rewrite F in B.
Qed.
(** ** C27 *)
Definition sized (s : string) : Prop := size s < 2 ^ 63.
Lemma size_nonneg s : 0 <= size s. Proof. unfold size. lia. Qed.
Lemma size_cons c s : size (String c s) = 1 + size s. Proof. unfold size. cbn [String.length]. lia. Qed.
Lemma size_t_small z : 0 <= z < 2 ^ 64 -> size_t z = z.
Proof. intros H. unfold size_t. now rewrite Z.mod_small. Qed.
Lemma lacks_app c a b : lacks c (a ++ b)%string <-> lacks c a /\ lacks c b.
Proof. unfold lacks. rewrite chars_app, in_app_iff. tauto. Qed.
Lemma C27_name_proof prefix KEY ext : sized (prefix ++ "_" ++ KEY ++ "." ++ ext) ->
  lacks "_" KEY -> lacks "." KEY -> lacks "_" ext -> lacks "." ext -> ground_truth (prefix ++ "_" ++ KEY ++ "." ++ ext) = Ret (Some KEY).
Proof.
  intros S K1 K2 E1 E2. cbn [append] in *. unfold sized in S. rewrite size_app, size_cons, size_app, size_cons in S.
  pose proof (size_nonneg prefix). pose proof (size_nonneg KEY). pose proof (size_nonneg ext).
  unfold ground_truth. rewrite (find_last_some "_" prefix (KEY ++ String "." ext)%string).
  2:{ apply lacks_app. split; [exact K1|]. apply lacks_cons. split; [discriminate|exact E1]. }
  replace (prefix ++ String "_" (KEY ++ String "." ext))%string with ((prefix ++ String "_" KEY) ++ String "." ext)%string
    by now rewrite app_string_assoc.
  rewrite (find_last_some "." _ ext E2). rewrite size_app, size_cons.
  replace (size prefix =? npos) with false by (unfold npos; lia). replace (size prefix + (1 + size KEY) =? npos) with false by (unfold npos; lia).
  cbn [negb andb]. rewrite (size_t_small (size prefix + 1)) by lia. rewrite size_t_small by lia.
  replace ((prefix ++ String "_" KEY) ++ String "." ext)%string with ((prefix ++ "_") ++ KEY ++ String "." ext)%string
    by (rewrite !app_string_assoc; reflexivity).
  replace (size prefix + 1) with (size (prefix ++ "_")) by (rewrite size_app; reflexivity).
  rewrite substr_mid; [reflexivity|]. rewrite !size_app, !size_cons. change (size "") with 0. pose proof (size_nonneg ext). lia.
Qed.
Lemma C27_silent_proof f K : lacks "_" f \/ lacks "." f -> print_evaluation f K = Ret ""%string.
Proof.
  intros [H|H]; unfold print_evaluation, ground_truth; rewrite (find_last_none _ _ H); rewrite Z.eqb_refl; cbn [negb andb bind]; [reflexivity|].
  now rewrite andb_false_r.
Qed.
Lemma C27_not_a_key_proof f s K : ground_truth f = Ret (Some s) -> named_key s = None -> print_evaluation f (key_of_int K) = Undef UninitRead.
Proof.
  intros E N. unfold print_evaluation. rewrite E. cbn. rewrite key_of_string_correct, N. unfold score, key_eq, get_int. cbn.
  destruct (kint (key_of_int K)); reflexivity.
Qed.
(** An underscore after the last dot: the unsigned difference wraps and everything after the underscore is taken. *)
Lemma C27_wrap_proof prefix a b : sized (prefix ++ "." ++ a ++ "_" ++ b) -> lacks "." a -> lacks "." b -> lacks "_" b ->
  ground_truth (prefix ++ "." ++ a ++ "_" ++ b) = Ret (Some b).
Proof.
  intros S A1 B1 B2. cbn [append] in *. unfold sized in S. rewrite size_app, size_cons, size_app, size_cons in S.
  pose proof (size_nonneg prefix). pose proof (size_nonneg a). pose proof (size_nonneg b).
  unfold ground_truth. rewrite (find_last_some "." prefix (a ++ String "_" b)%string).
  2:{ apply lacks_app. split; [exact A1|]. apply lacks_cons. split; [discriminate|exact B1]. }
  replace (prefix ++ String "." (a ++ String "_" b))%string with ((prefix ++ String "." a) ++ String "_" b)%string
    by now rewrite app_string_assoc.
  rewrite (find_last_some "_" _ b B2). rewrite size_app, size_cons.
  replace (size prefix =? npos) with false by (unfold npos; lia). replace (size prefix + (1 + size a) =? npos) with false by (unfold npos; lia).
  cbn [negb andb]. rewrite (size_t_small (size prefix + (1 + size a) + 1)) by lia.
  replace ((prefix ++ String "." a) ++ String "_" b)%string with ((prefix ++ "." ++ a ++ "_") ++ b)%string
    by (rewrite !app_string_assoc; reflexivity).
  replace (size prefix + (1 + size a) + 1) with (size (prefix ++ "." ++ a ++ "_")) by (rewrite !size_app; change (size ".") with 1; change (size "_") with 1; lia).
  rewrite substr_tail; [reflexivity|].
  unfold size_t. rewrite !size_app. change (size ".") with 1. change (size "_") with 1.
  replace (size prefix - (size prefix + (1 + (size a + 1)))) with ((2 ^ 64 - (2 + size a)) + (-1) * 2 ^ 64) by lia.
  rewrite Z.mod_add by lia. rewrite Z.mod_small by lia. lia.
Qed.
