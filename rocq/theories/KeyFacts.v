(** Proofs about keys and pitch classes. *)
From Coq Require Import Lia ZifyBool.
From Verif Require Import Base BaseFacts Key PitchClass MusicSpec.
Ltac Zify.zify_post_hook ::= Z.div_mod_to_equations.

Definition optZ_eqb (a b : option Z) : bool :=
  match a, b with Some x, Some y => x =? y | None, None => true | _, _ => false end.
Lemma optZ_eqb_eq a b : optZ_eqb a b = true -> a = b.
Proof. destruct a, b; simpl; try discriminate; try reflexivity. intros H. f_equal. lia. Qed.

Lemma assoc_long {V} (m : list (string * V)) (s : string) :
  forallb (fun p => Nat.leb (String.length (fst p)) 2) m = true -> (2 < String.length s)%nat ->
  assoc String.eqb s m = None.
Proof.
  intros Hm Hs. destruct (assoc String.eqb s m) as [v|] eqn:E; [|reflexivity].
  apply (assoc_In _ Seqb_spec') in E. pose proof (proj1 (forallb_forall _ _) Hm _ E) as H. simpl in H.
  apply Nat.leb_le in H. lia.
Qed.

(** ** C01 *)
Lemma named_key_long s : (2 < String.length s)%nat -> named_key s = None.
Proof. destruct s as [|a [|b [|c s]]]; simpl; intros H; try lia. reflexivity. Qed.

Lemma string_table_correct s : assoc String.eqb s string_to_int = named_key s.
Proof.
  destruct s as [|a [|b [|c s]]].
  - reflexivity.
  - apply optZ_eqb_eq. revert a. apply ascii_sweep. vm_compute. reflexivity.
  - apply optZ_eqb_eq. revert a b. apply ascii_sweep2. vm_compute. reflexivity.
  - rewrite assoc_long, named_key_long; simpl; try reflexivity; lia.
Qed.

Lemma key_of_string_correct s :
  key_of_string s = match named_key s with Some k => mkKey (Some k) s | None => mkKey None "" end.
Proof. unfold key_of_string. now rewrite string_table_correct. Qed.

Lemma named_key_range s k : named_key s = Some k -> is_key k.
Proof.
  unfold named_key, note_name, is_key. destruct s as [|a [|b [|c s]]]; try discriminate.
  - destruct (letter a) as [[p up]|] eqn:E; [|discriminate].
    assert (0 <= p < 12) as Hp.
    { revert a p up E. assert (H : forall a, match letter a with Some (p, _) => (0 <=? p) && (p <? 12) | None => true end = true).
      { apply ascii_sweep. vm_compute. reflexivity. }
      intros a p up E. specialize (H a). rewrite E in H. lia. }
    destruct up; intros X; apply Some_inj in X; lia.
  - destruct (letter a) as [[p up]|]; [|discriminate]. destruct (accidental b) as [d|]; [|discriminate].
    pose proof (Z.mod_pos_bound (p + d) 12 ltac:(lia)).
    destruct up; intros X; apply Some_inj in X; lia.
Qed.

(** ** C02 *)
Lemma key_of_int_valid k : is_key k -> key_of_int k = mkKey (Some k) (znth ""%string all_key_strings k).
Proof.
  intros H. unfold is_key in H. unfold key_of_int, to_uint32, NUMBER_OF_KEYS.
  rewrite Z.mod_small by lia. destruct (Z.ltb_spec k 24); [reflexivity|lia].
Qed.
Lemma key_of_int_invalid k : - 2 ^ 31 <= k < 2 ^ 31 -> ~ is_key k -> key_of_int k = mkKey None "".
Proof.
  intros Hr H. unfold is_key in H. unfold key_of_int, to_uint32, NUMBER_OF_KEYS.
  destruct (Z.ltb_spec (k mod 2 ^ 32) 24) as [Hl|]; [|reflexivity].
  exfalso. destruct (Z_lt_le_dec k 0).
  - rewrite <- (Z.mod_add k 1 (2 ^ 32)) in Hl by lia. rewrite Z.mod_small in Hl by lia. lia.
  - rewrite Z.mod_small in Hl by lia. lia.
Qed.
Lemma key_name_reparse k : is_key k -> key_of_string (get_string (key_of_int k)) = key_of_int k.
Proof.
  intros H. assert (E : (fun k => match kint (key_of_string (get_string (key_of_int k))) with
     | Some k' => (k' =? k) && String.eqb (kname (key_of_string (get_string (key_of_int k)))) (kname (key_of_int k))
     | None => false end) k = true).
  { revert k H. apply (zseq_sweep 24). vm_compute. reflexivity. }
  cbv beta in E. rewrite (key_of_int_valid k H) in *. cbn [get_string kname] in *.
  destruct (key_of_string (znth ""%string all_key_strings k)) as [ki kn]. cbn [kint kname] in E.
  destruct ki as [k'|]; [|discriminate]. apply andb_prop in E. destruct E as [E1 E2].
  apply Z.eqb_eq in E1. apply String.eqb_eq in E2. now subst.
Qed.
Lemma key_names_injective j k : is_key j -> is_key k ->
  get_string (key_of_int j) = get_string (key_of_int k) -> j = k.
Proof.
  intros Hj Hk E. pose proof (key_name_reparse j Hj) as Ej. pose proof (key_name_reparse k Hk) as Ek.
  rewrite E in Ej. rewrite Ej in Ek. rewrite (key_of_int_valid j Hj), (key_of_int_valid k Hk) in Ek. congruence.
Qed.

(** ** C03 *)
Lemma is_major_valid k : is_key k -> is_major (key_of_int k) = Ret (majorb k).
Proof.
  intros H. rewrite key_of_int_valid by exact H. unfold is_major, majorb. cbn. f_equal.
  unfold is_key in H. unfold FIRST_MAJOR_KEY, LAST_MAJOR_KEY. lia.
Qed.
Lemma is_minor_valid k : is_key k -> is_minor (key_of_int k) = Ret (negb (majorb k)).
Proof.
  intros H. rewrite key_of_int_valid by exact H. unfold is_minor, majorb. cbn. f_equal.
  unfold is_key in H. unfold FIRST_MINOR_KEY, LAST_MINOR_KEY. lia.
Qed.
Lemma get_relative_valid k : is_key k ->
  get_relative (key_of_int k) =
  Ret (key_of_int (if majorb k then (tonic k + 9) mod 12 + 12 else (tonic k + 3) mod 12)).
Proof.
  intros H. unfold get_relative. rewrite is_major_valid by exact H. rewrite key_of_int_valid by exact H.
  cbn [kint read_int bind]. do 2 f_equal. unfold is_key, majorb, tonic in *.
  destruct (Z.ltb_spec k 12); rewrite Z.rem_mod_nonneg by lia; lia.
Qed.
Lemma get_parallel_valid k : is_key k ->
  get_parallel (key_of_int k) = Ret (key_of_int (if majorb k then tonic k + 12 else tonic k)).
Proof.
  intros H. unfold get_parallel. rewrite is_major_valid by exact H. rewrite key_of_int_valid by exact H.
  cbn [kint read_int bind]. do 2 f_equal. unfold is_key, majorb, tonic in *. destruct (Z.ltb_spec k 12); lia.
Qed.
Lemma get_dominant_valid k : is_key k ->
  get_dominant (key_of_int k) = Ret (key_of_int (transpose_key 7 k)).
Proof.
  intros H. unfold get_dominant. rewrite is_minor_valid by exact H. rewrite key_of_int_valid by exact H.
  cbn [kint read_int bind]. do 2 f_equal. unfold is_key, transpose_key, majorb, tonic in *.
  rewrite Z.rem_mod_nonneg by lia. destruct (Z.ltb_spec k 12); cbn [negb]; lia.
Qed.
Lemma get_subdominant_valid k : is_key k ->
  get_subdominant (key_of_int k) = Ret (key_of_int (transpose_key 5 k)).
Proof.
  intros H. unfold get_subdominant. rewrite is_minor_valid by exact H. rewrite key_of_int_valid by exact H.
  cbn [kint read_int bind]. do 2 f_equal. unfold is_key, transpose_key, majorb, tonic in *.
  rewrite Z.rem_mod_nonneg by lia. destruct (Z.ltb_spec k 12); cbn [negb]; lia.
Qed.

(** The scale of a key is shared by its relative. *)
Lemma relative_scale k p : is_key k ->
  In p (scale k) <-> In p (scale (if majorb k then (tonic k + 9) mod 12 + 12 else (tonic k + 3) mod 12)).
Proof.
  intros H.
  assert (E : (fun k => let r := if majorb k then (tonic k + 9) mod 12 + 12 else (tonic k + 3) mod 12 in
    forallb (fun x => existsb (Z.eqb x) (scale r)) (scale k) && forallb (fun x => existsb (Z.eqb x) (scale k)) (scale r)) k = true).
  { revert k H. apply (zseq_sweep 24). vm_compute. reflexivity. }
  cbv beta in E. cbv zeta in E. apply andb_prop in E. destruct E as [E1 E2].
  assert (G : forall l m, forallb (fun x => existsb (Z.eqb x) m) l = true -> In p l -> In p m).
  { intros l m F Hin. pose proof (proj1 (forallb_forall _ _) F p Hin) as X. apply existsb_exists in X.
    destruct X as (y & Hy & Ey). apply Z.eqb_eq in Ey. now subst. }
  split; [apply (G _ _ E1) | apply (G _ _ E2)].
Qed.

(** Any sequence of neighbour operations. *)
Fixpoint apply_ops (ops : list (key -> outcome key)) (k : key) : outcome key :=
  match ops with [] => Ret k | f :: ops' => do k' <- f k; apply_ops ops' k' end.
Definition neighbour (f : key -> outcome key) : Prop :=
  f = get_relative \/ f = get_parallel \/ f = get_dominant \/ f = get_subdominant.

Lemma transpose_key_range t k : is_key k -> is_key (transpose_key t k).
Proof. unfold is_key, transpose_key, tonic, majorb. destruct (Z.ltb_spec k 12); lia. Qed.
Lemma neighbour_closed f k : neighbour f -> is_key k -> exists k', is_key k' /\ f (key_of_int k) = Ret (key_of_int k').
Proof.
  intros [ -> | [ -> | [ -> | -> ]]] H.
  - eexists. split; [|now apply get_relative_valid]. unfold is_key, majorb, tonic in *. destruct (Z.ltb_spec k 12); lia.
  - eexists. split; [|now apply get_parallel_valid]. unfold is_key, majorb, tonic in *. destruct (Z.ltb_spec k 12); lia.
  - eexists. split; [|now apply get_dominant_valid]. now apply transpose_key_range.
  - eexists. split; [|now apply get_subdominant_valid]. now apply transpose_key_range.
Qed.
Lemma neighbours_closed ops k : Forall neighbour ops -> is_key k ->
  exists k', is_key k' /\ apply_ops ops (key_of_int k) = Ret (key_of_int k').
Proof.
  intros H. revert k. induction H as [|f ops Hf _ IH]; intros k Hk; simpl; [now exists k|].
  destruct (neighbour_closed f k Hf Hk) as (k' & Hk' & ->). simpl. now apply IH.
Qed.
Lemma transpose_key_add a b k : is_key k -> transpose_key a (transpose_key b k) = transpose_key (a + b) k.
Proof.
  unfold is_key, transpose_key, tonic, majorb. intros H.
  destruct (Z.ltb_spec k 12) as [Hk|Hk].
  - replace ((k mod 12 + b) mod 12 + 0) with ((k mod 12 + b) mod 12) by lia.
    assert (0 <= (k mod 12 + b) mod 12 < 12) by (apply Z.mod_pos_bound; lia).
    destruct (Z.ltb_spec ((k mod 12 + b) mod 12) 12); [|lia].
    rewrite Zmod_mod, Zplus_mod_idemp_l. f_equal. f_equal. lia.
  - assert (0 <= (k mod 12 + b) mod 12 < 12) by (apply Z.mod_pos_bound; lia).
    destruct (Z.ltb_spec ((k mod 12 + b) mod 12 + 12) 12); [lia|].
    replace ((k mod 12 + b) mod 12 + 12) with ((k mod 12 + b) mod 12 + 1 * 12) by lia. rewrite Z.mod_add by lia.
    rewrite Zmod_mod, Zplus_mod_idemp_l. f_equal. f_equal. lia.
Qed.
Lemma transpose_key_0 k : is_key k -> transpose_key 0 k = k.
Proof. unfold is_key, transpose_key, tonic, majorb. destruct (Z.ltb_spec k 12); lia. Qed.
Lemma dominant_iter n k : is_key k ->
  apply_ops (repeat get_dominant n) (key_of_int k) = Ret (key_of_int (transpose_key (7 * Z.of_nat n) k)).
Proof.
  revert k. induction n as [|n IH]; intros k H; cbn [repeat apply_ops].
  - cbn. now rewrite transpose_key_0.
  - rewrite get_dominant_valid by exact H. cbn [bind]. rewrite IH by now apply transpose_key_range.
    rewrite transpose_key_add by exact H. do 3 f_equal. lia.
Qed.
Lemma transpose_key_period t k : is_key k -> (transpose_key t k = k <-> t mod 12 = 0).
Proof.
  unfold is_key, transpose_key, tonic, majorb. intros H. destruct (Z.ltb_spec k 12); lia.
Qed.
Lemma neighbours_connect j k : is_key j -> is_key k ->
  exists ops, Forall neighbour ops /\ apply_ops ops (key_of_int j) = Ret (key_of_int k).
Proof.
  intros Hj Hk.
  assert (Hdom : forall n, Forall neighbour (repeat get_dominant n)).
  { intros n. apply Forall_forall. intros f Hf. apply repeat_spec in Hf. subst. right. right. now left. }
  assert (Happ : forall o1 o2 x, apply_ops (o1 ++ o2) x = do y <- apply_ops o1 x; apply_ops o2 y).
  { induction o1 as [|f o1 IH]; intros o2 x; simpl; [reflexivity|]. destruct (f x); simpl; auto. }
  set (d := (tonic k - tonic j) mod 12).
  assert (Hd : 0 <= d < 12) by (apply Z.mod_pos_bound; lia).
  pose (n := Z.to_nat (7 * d)).
  destruct (Bool.bool_dec (majorb j) (majorb k)) as [Hm|Hm].
  - exists (repeat get_dominant n). split; [apply Hdom|]. rewrite dominant_iter by exact Hj. do 2 f_equal.
    unfold n. rewrite Z2Nat.id by lia. unfold transpose_key. rewrite Hm. unfold d, is_key, tonic, majorb in *.
    destruct (Z.ltb_spec k 12); destruct (Z.ltb_spec j 12); cbn in Hm; try discriminate; lia.
  - exists (repeat get_dominant n ++ [get_parallel]). split.
    + apply Forall_app. split; [apply Hdom|]. constructor; [right; now left|constructor].
    + rewrite Happ, dominant_iter by exact Hj. cbn [bind apply_ops].
      rewrite get_parallel_valid by now apply transpose_key_range. cbn [bind]. do 2 f_equal.
      unfold n. rewrite Z2Nat.id by lia. unfold transpose_key. unfold d, is_key, tonic, majorb in *.
      destruct (Z.ltb_spec k 12); destruct (Z.ltb_spec j 12); try congruence.
      * destruct (Z.ltb_spec ((j mod 12 + 7 * (7 * ((k mod 12 - j mod 12) mod 12))) mod 12 + 12) 12); lia.
      * destruct (Z.ltb_spec ((j mod 12 + 7 * (7 * ((k mod 12 - j mod 12) mod 12))) mod 12 + 0) 12); lia.
Qed.

(** ** C05 *)
Lemma tolower_spec c : tolower c = lower c.
Proof.
  assert (H : Ascii.eqb (tolower c) (lower c) = true). { revert c. apply ascii_sweep. vm_compute. reflexivity. }
  now apply Ascii.eqb_eq.
Qed.
Lemma tolower_string s : string_map tolower s = lower_string s.
Proof. induction s as [|c s IH]; simpl; [reflexivity|]. now rewrite tolower_spec, IH. Qed.
Lemma lower_string_length s : String.length (lower_string s) = String.length s.
Proof. induction s; simpl; congruence. Qed.

Lemma pc_table_correct s : assoc String.eqb (string_map tolower s) pc_string_to_int = named_pc s.
Proof.
  unfold named_pc. rewrite tolower_string.
  destruct s as [|a [|b [|c s]]].
  - reflexivity.
  - apply optZ_eqb_eq. revert a. apply ascii_sweep. vm_compute. reflexivity.
  - apply optZ_eqb_eq. revert a b. apply ascii_sweep2. vm_compute. reflexivity.
  - rewrite assoc_long; simpl; try reflexivity; lia.
Qed.
Lemma named_pc_range s p : named_pc s = Some p -> 0 <= p < 12.
Proof.
  unfold named_pc. destruct (note_name (lower_string s)) as [[q up]|] eqn:E; [|discriminate].
  intros X. apply Some_inj in X. subst.
  revert E. unfold note_name. destruct (lower_string s) as [|a [|b [|c s']]]; try discriminate.
  - intros E. assert (H : forall a, match letter a with Some (p, _) => (0 <=? p) && (p <? 12) | None => true end = true).
    { apply ascii_sweep. vm_compute. reflexivity. }
    specialize (H a). rewrite E in H. lia.
  - destruct (letter a) as [[q u]|]; [|discriminate]. destruct (accidental b); [|discriminate].
    intros X. apply Some_inj in X.  pose proof (f_equal fst X) as Y. cbn [fst] in Y. subst p. apply Z.mod_pos_bound. lia.
Qed.
Lemma pc_of_string_correct s :
  pc_of_string s = match named_pc s with Some p => mkPc (Some p) (znth ""%string all_pc_strings p) | None => mkPc None "" end.
Proof. unfold pc_of_string. now rewrite pc_table_correct. Qed.
Lemma pc_of_string_int s p : named_pc s = Some p -> pc_of_string s = pc_of_int p.
Proof.
  intros H. rewrite pc_of_string_correct, H. pose proof (named_pc_range s p H).
  unfold pc_of_int, NUMBER_OF_PITCHCLASSES. destruct (Z.leb_spec 0 p); destruct (Z.ltb_spec p 12); try lia. reflexivity.
Qed.
Lemma pc_name_reparse p : 0 <= p < 12 -> named_pc (pc_get_string (pc_of_int p)) = Some p.
Proof.
  intros H. apply optZ_eqb_eq. revert p H. apply (zseq_sweep 12). vm_compute. reflexivity.
Qed.
Lemma pc_of_int_cases p : pc_of_int p =
  if (0 <=? p) && (p <? 12) then mkPc (Some p) (znth ""%string all_pc_strings p) else mkPc None "".
Proof. reflexivity. Qed.
