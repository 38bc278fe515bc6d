(** Proofs of C01-C05 in the exact form stated in PropsKey.v. *)
From Coq Require Import Lia ZifyBool.
From Verif Require Import Base BaseFacts Key PitchClass MusicSpec KeyFacts.
Ltac Zify.zify_post_hook ::= Z.div_mod_to_equations.

(** How keys come into being, and which of them hold a key. *)
Definition constructed (a : key) : Prop := (exists s, a = key_of_string s) \/ (exists k, - 2 ^ 31 <= k < 2 ^ 31 /\ a = key_of_int k).
Definition valid_key (a : key) : Prop :=
  (exists s k, named_key s = Some k /\ a = key_of_string s) \/ (exists k, is_key k /\ a = key_of_int k).

Lemma C01_proof : forall s : string,
  get_int (key_of_string s) = match named_key s with Some k => Ret k | None => Undef UninitRead end /\
  get_string (key_of_string s) = match named_key s with Some _ => s | None => ""%string end.
Proof. intros s. rewrite key_of_string_correct. destruct (named_key s); split; reflexivity. Qed.

Lemma C02_roundtrip_proof : forall k : Z, - 2 ^ 31 <= k < 2 ^ 31 ->
  (is_key k -> get_int (key_of_int k) = Ret k /\
               named_key (get_string (key_of_int k)) = Some k /\
               key_of_string (get_string (key_of_int k)) = key_of_int k) /\
  (~ is_key k -> get_int (key_of_int k) = Undef UninitRead /\ get_string (key_of_int k) = ""%string).
Proof.
  intros k Hr. split; intros H.
  - split; [now rewrite key_of_int_valid|]. pose proof (key_name_reparse k H) as E. split; [|exact E].
    rewrite key_of_string_correct in E. rewrite (key_of_int_valid k H) in *.
    destruct (named_key _); congruence.
  - rewrite key_of_int_invalid by assumption. split; reflexivity.
Qed.

Lemma C02_spelling_proof : forall s k, get_int (key_of_string s) = Ret k ->
  get_string (key_of_string s) = s /\ is_key k /\
  (get_string (key_of_string s) = get_string (key_of_int k) <-> key_of_string s = key_of_int k).
Proof.
  intros s k. rewrite key_of_string_correct. destruct (named_key s) as [k'|] eqn:E; [|discriminate].
  intros X. injection X as ->. pose proof (named_key_range s k E) as H. repeat split.
  - apply H. - apply H.
  - intros F. rewrite key_of_int_valid in * by exact H. cbn in F. now rewrite F.
  - now intros ->.
Qed.

Lemma C02_all_keys_proof : forall k, is_key k <-> exists key, In key all_keys /\ get_int key = Ret k.
Proof.
  intros k. split.
  - intros H. exists (key_of_int k). split; [|now rewrite key_of_int_valid].
    unfold all_keys. apply in_map. apply zseq_In. exact H.
  - intros (key & Hin & E). unfold all_keys in Hin. apply in_map_iff in Hin. destruct Hin as (j & <- & Hj).
    apply zseq_In in Hj. rewrite key_of_int_valid in E by exact Hj. injection E as <-. exact Hj.
Qed.

Lemma C03_relative_proof : forall k, is_key k -> exists r, is_key r /\
  get_relative (key_of_int k) = Ret (key_of_int r) /\
  majorb r = negb (majorb k) /\
  tonic r = (tonic k + (if majorb k then 9 else 3)) mod 12 /\
  (forall p, In p (scale k) <-> In p (scale r)) /\
  get_relative (key_of_int r) = Ret (key_of_int k).
Proof.
  intros k H. set (r := if majorb k then (tonic k + 9) mod 12 + 12 else (tonic k + 3) mod 12). exists r.
  assert (Hr : is_key r). { unfold r, is_key, majorb, tonic in *. destruct (Z.ltb_spec k 12); lia. }
  split; [exact Hr|]. split; [now apply get_relative_valid|].
  split; [unfold r, is_key, majorb, tonic in *; destruct (Z.ltb_spec k 12); lia|].
  split; [unfold r, is_key, majorb, tonic in *; destruct (Z.ltb_spec k 12); lia|].
  split; [intros p; now apply relative_scale|].
  rewrite get_relative_valid by exact Hr. do 2 f_equal.
  unfold r, is_key, majorb, tonic in *. destruct (Z.ltb_spec k 12).
  - destruct (Z.ltb_spec ((k mod 12 + 9) mod 12 + 12) 12); lia.
  - destruct (Z.ltb_spec ((k mod 12 + 3) mod 12) 12); lia.
Qed.

Lemma C03_parallel_proof : forall k, is_key k -> exists r, is_key r /\
  get_parallel (key_of_int k) = Ret (key_of_int r) /\
  majorb r = negb (majorb k) /\ tonic r = tonic k /\
  get_parallel (key_of_int r) = Ret (key_of_int k).
Proof.
  intros k H. set (r := if majorb k then tonic k + 12 else tonic k). exists r.
  assert (Hr : is_key r). { unfold r, is_key, majorb, tonic in *. destruct (Z.ltb_spec k 12); lia. }
  split; [exact Hr|]. split; [now apply get_parallel_valid|].
  split; [unfold r, is_key, majorb, tonic in *; destruct (Z.ltb_spec k 12); lia|].
  split; [unfold r, is_key, majorb, tonic in *; destruct (Z.ltb_spec k 12); lia|].
  rewrite get_parallel_valid by exact Hr. do 2 f_equal.
  unfold r, is_key, majorb, tonic in *. destruct (Z.ltb_spec k 12).
  - destruct (Z.ltb_spec (k mod 12 + 12) 12); lia.
  - destruct (Z.ltb_spec (k mod 12) 12); lia.
Qed.

Lemma transpose_key_mode t k : is_key k -> majorb (transpose_key t k) = majorb k.
Proof. unfold is_key, transpose_key, majorb, tonic. intros H. destruct (Z.ltb_spec k 12); lia. Qed.
Lemma transpose_key_tonic t k : is_key k -> tonic (transpose_key t k) = (tonic k + t) mod 12.
Proof. unfold is_key, transpose_key, majorb, tonic. intros H. destruct (Z.ltb_spec k 12); lia. Qed.

Lemma C03_dominant_proof : forall k, is_key k -> exists d s, is_key d /\ is_key s /\
  get_dominant (key_of_int k) = Ret (key_of_int d) /\ get_subdominant (key_of_int k) = Ret (key_of_int s) /\
  majorb d = majorb k /\ majorb s = majorb k /\
  tonic d = (tonic k + 7) mod 12 /\ tonic s = (tonic k + 5) mod 12 /\
  get_subdominant (key_of_int d) = Ret (key_of_int k) /\ get_dominant (key_of_int s) = Ret (key_of_int k).
Proof.
  intros k H. exists (transpose_key 7 k), (transpose_key 5 k).
  pose proof (transpose_key_range 7 k H). pose proof (transpose_key_range 5 k H).
  rewrite get_dominant_valid, get_subdominant_valid by assumption.
  rewrite !transpose_key_mode, !transpose_key_tonic by assumption.
  rewrite get_subdominant_valid, get_dominant_valid by assumption.
  rewrite !transpose_key_add by assumption.
  assert (E : transpose_key (5 + 7) k = k) by (apply transpose_key_period; [assumption|reflexivity]).
  rewrite !E. replace (7 + 5) with (5 + 7) by lia. rewrite E. repeat split; assumption || reflexivity || (unfold is_key in *; lia).
Qed.

Lemma C03_circle_proof : forall k n, is_key k ->
  exists r, is_key r /\ apply_ops (repeat get_dominant n) (key_of_int k) = Ret (key_of_int r) /\
            (r = k <-> (n mod 12 = 0)%nat) /\ majorb r = majorb k.
Proof.
  intros k n H. exists (transpose_key (7 * Z.of_nat n) k). split; [now apply transpose_key_range|].
  split; [now apply dominant_iter|]. split; [|now apply transpose_key_mode].
  rewrite transpose_key_period by exact H.
  pose proof (Nat.div_mod n 12 ltac:(lia)). pose proof (Nat.mod_upper_bound n 12 ltac:(lia)).
  set (q := (n / 12)%nat) in *. set (m := (n mod 12)%nat) in *. split; lia.
Qed.

Lemma C03_circle_complete_proof : forall j k, is_key j -> is_key k -> majorb j = majorb k ->
  exists n, (n < 12)%nat /\ apply_ops (repeat get_dominant n) (key_of_int j) = Ret (key_of_int k).
Proof.
  intros j k Hj Hk Hm. exists (Z.to_nat ((7 * (tonic k - tonic j)) mod 12)). split.
  - assert (0 <= (7 * (tonic k - tonic j)) mod 12 < 12) by (apply Z.mod_pos_bound; lia). lia.
  - rewrite dominant_iter by exact Hj. rewrite Z2Nat.id by (apply Z.mod_pos_bound; lia). do 2 f_equal.
    unfold transpose_key. rewrite Hm. unfold is_key, tonic, majorb in *.
    destruct (Z.ltb_spec k 12); destruct (Z.ltb_spec j 12); try discriminate; lia.
Qed.

Lemma C03_unset_proof : forall s f, named_key s = None -> neighbour f -> f (key_of_string s) = Undef UninitRead.
Proof.
  intros s f H [ -> | [ -> | [ -> | -> ]]]; rewrite key_of_string_correct, H; reflexivity.
Qed.

Lemma valid_key_int a : valid_key a -> exists k, is_key k /\ kint a = Some k.
Proof.
  intros [(s & k & E & ->)|(k & H & ->)].
  - exists k. split; [now apply named_key_range in E|]. now rewrite key_of_string_correct, E.
  - exists k. split; [exact H|]. now rewrite key_of_int_valid.
Qed.
Lemma C04_trichotomy_proof : forall a b, valid_key a -> valid_key b ->
  exists eq lt gt, key_eq a b = Ret eq /\ key_lt a b = Ret lt /\ key_lt b a = Ret gt /\
    key_ne a b = Ret (negb eq) /\
    ((eq = true /\ lt = false /\ gt = false) \/ (eq = false /\ lt = true /\ gt = false) \/
     (eq = false /\ lt = false /\ gt = true)).
Proof.
  intros a b Ha Hb. destruct (valid_key_int a Ha) as (i & _ & Ei). destruct (valid_key_int b Hb) as (j & _ & Ej).
  unfold key_eq, key_lt, key_ne. rewrite Ei, Ej. cbn [read_int bind].
  exists (i =? j), (i <? j), (j <? i). do 4 (split; [reflexivity|]). lia.
Qed.
Ltac inj_ret := repeat match goal with H : Ret _ = Ret _ |- _ => apply Ret_inj in H end.
Lemma C04_order_proof : forall a b c, valid_key a -> valid_key b -> valid_key c ->
  key_eq a a = Ret true /\
  (key_eq a b = Ret true -> key_eq b a = Ret true) /\
  (key_eq a b = Ret true -> key_eq b c = Ret true -> key_eq a c = Ret true) /\
  key_lt a a = Ret false /\
  (key_lt a b = Ret true -> key_lt b c = Ret true -> key_lt a c = Ret true) /\
  (key_eq a b = Ret true -> key_lt b c = key_lt a c /\ key_lt c b = key_lt c a).
Proof.
  intros a b c Ha Hb Hc. destruct (valid_key_int a Ha) as (i & _ & Ei). destruct (valid_key_int b Hb) as (j & _ & Ej).
  destruct (valid_key_int c Hc) as (k & _ & Ek).
  unfold key_eq, key_lt, key_ne. rewrite Ei, Ej, Ek. cbn [read_int bind].
  repeat split; intros; inj_ret; f_equal; lia.
Qed.
Lemma note_key s p up : note_name s = Some (p, up) -> named_key s = Some (if up then p else 12 + p) /\ 0 <= p < 12.
Proof.
  intros E. unfold named_key. rewrite E. split; [now destruct up|].
  assert (N : named_key s = Some (if up then p else 12 + p)) by (unfold named_key; rewrite E; now destruct up).
  unfold note_name in E. destruct s as [|a [|b [|c s]]]; try discriminate.
  - assert (H : forall a, match letter a with Some (p, _) => (0 <=? p) && (p <? 12) | None => true end = true).
    { apply ascii_sweep. vm_compute. reflexivity. }
    specialize (H a). rewrite E in H. lia.
  - destruct (letter a) as [[q u]|]; [|discriminate]. destruct (accidental b); [|discriminate].
    apply Some_inj in E. pose proof (f_equal fst E) as Y. cbn [fst] in Y. subst p. apply Z.mod_pos_bound. lia.
Qed.
Lemma C04_enharmonic_proof : forall s t p q up uq, note_name s = Some (p, up) -> note_name t = Some (q, uq) ->
  (key_eq (key_of_string s) (key_of_string t) = Ret true <-> p = q /\ up = uq).
Proof.
  intros s t p q up uq Hs Ht. apply note_key in Hs, Ht. destruct Hs as [Hs ?], Ht as [Ht ?].
  rewrite !key_of_string_correct, Hs, Ht. unfold key_eq. cbn [read_int bind kint].
  split.
  - intros E. apply Ret_inj in E. destruct up, uq; lia.
  - intros [ -> -> ]. f_equal. lia.
Qed.
Lemma C04_assignment_proof : forall target source, valid_key source ->
  key_eq (key_assign target source) source = Ret true /\
  get_string (key_assign target source) = get_string source.
Proof.
  intros t s H. destruct (valid_key_int s H) as (i & _ & Ei). unfold key_assign, key_eq, get_string. cbn [kint kname].
  rewrite Ei. cbn [read_int bind]. split; [f_equal; lia|reflexivity].
Qed.
Lemma constructed_cases a : constructed a -> valid_key a \/ kint a = None.
Proof.
  intros [(s & ->)|(k & Hr & ->)].
  - destruct (named_key s) as [k|] eqn:E; [left; left; now exists s, k|]. right. now rewrite key_of_string_correct, E.
  - destruct (Z_lt_le_dec k 0); [|destruct (Z_lt_le_dec k 24)].
    + right. rewrite key_of_int_invalid; [reflexivity|lia|unfold is_key; lia].
    + left. right. exists k. split; [unfold is_key; lia|reflexivity].
    + right. rewrite key_of_int_invalid; [reflexivity|lia|unfold is_key; lia].
Qed.
Lemma C04_unset_proof : forall a b, ~ (valid_key a /\ valid_key b) -> constructed a -> constructed b ->
  key_eq a b = Undef UninitRead /\ key_lt a b = Undef UninitRead /\ key_ne a b = Undef UninitRead.
Proof.
  intros a b H2 Ha Hb. apply constructed_cases in Ha, Hb. unfold key_eq, key_lt, key_ne.
  destruct Ha as [Ha|Ha]; destruct Hb as [Hb|Hb]; try tauto.
  - destruct (valid_key_int a Ha) as (i & _ & Ei). rewrite Ei, Hb. repeat split.
  - rewrite Ha. repeat split.
  - rewrite Ha. repeat split.
Qed.

Lemma C05_names_proof : forall s : string,
  pc_get_int (pc_of_string s) = match named_pc s with Some p => Ret p | None => Undef UninitRead end /\
  (forall p, named_pc s = Some p -> 0 <= p < 12 /\ pc_get_string (pc_of_string s) = pc_get_string (pc_of_int p)) /\
  (named_pc s = None -> pc_get_string (pc_of_string s) = ""%string).
Proof.
  intros s. split; [|split].
  - rewrite pc_of_string_correct. destruct (named_pc s); reflexivity.
  - intros p E. split; [now apply named_pc_range in E|]. now rewrite (pc_of_string_int s p E).
  - intros E. now rewrite pc_of_string_correct, E.
Qed.
Lemma C05_roundtrip_proof : forall p : Z,
  (0 <= p < 12 -> pc_get_int (pc_of_int p) = Ret p /\ pc_of_string (pc_get_string (pc_of_int p)) = pc_of_int p) /\
  (~ 0 <= p < 12 -> pc_get_int (pc_of_int p) = Undef UninitRead /\ pc_get_string (pc_of_int p) = ""%string).
Proof.
  intros p. split; intros H.
  - split; [|apply pc_of_string_int; now apply pc_name_reparse].
    rewrite pc_of_int_cases. destruct (Z.leb_spec 0 p); destruct (Z.ltb_spec p 12); try lia. reflexivity.
  - rewrite pc_of_int_cases. destruct (Z.leb_spec 0 p); destruct (Z.ltb_spec p 12); try lia; split; reflexivity.
Qed.
Lemma C05_case_proof : forall s t, lower_string s = lower_string t -> pc_of_string s = pc_of_string t.
Proof. intros s t H. rewrite !pc_of_string_correct. unfold named_pc. now rewrite H. Qed.
