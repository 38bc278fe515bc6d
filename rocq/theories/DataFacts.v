(** Facts about the stored tables and key names. *)
From Coq Require Import Reals Lra Lia ZifyBool Ascii.
From Flocq Require Import Core.Core IEEE754.BinarySingleNaN.
From Verif Require Import Base BaseFacts Fp FpFacts Key KeyFacts PitchClass KeyProfile KeyTransition Hmm MusicSpec ProfileFacts TransitionFacts NumFacts DataSpec.
Open Scope Z_scope.

(** ** Published profiles *)
Definition near_ratio (q : Z) (x : b64) (r s : Z) : bool := is_finite x && (Z.abs (scaled x * s - r * 2 ^ 1074) * q <=? s * 2 ^ 1074).
Lemma near_ratio_correct q x r s : 0 < q -> 0 < s -> near_ratio q x r s = true -> (Rabs (B2R x - IZR r / IZR s) <= / IZR q)%R.
Proof.
  intros Hq Hs H. apply andb_prop in H. destruct H as (F & H). rewrite scaled_correct by exact F. apply Z.leb_le in H. apply IZR_le in H. rewrite !mult_IZR, abs_IZR, minus_IZR, !mult_IZR in H.
  assert (E : IZR (2 ^ 1074) = bpow radix2 1074) by (change 2 with (radix_val radix2); now rewrite IZR_Zpower by lia).
  rewrite E in H. pose proof (bpow_gt_0 radix2 1074) as P1. pose proof (bpow_gt_0 radix2 (-1074)) as P2.
  assert (I : (bpow radix2 1074 * bpow radix2 (-1074) = 1)%R) by (rewrite <- bpow_plus; reflexivity).
  apply IZR_lt in Hq, Hs. set (b := bpow radix2 (-1074)) in *. set (B := bpow radix2 1074) in *.
  replace (IZR (scaled x) * b - IZR r / IZR s)%R with ((IZR (scaled x) * IZR s - IZR r * B) * (b / IZR s))%R.
  2: { replace (IZR r / IZR s)%R with (IZR r * (B * b) / IZR s)%R by (rewrite I; unfold Rdiv; ring). field. lra. }
  assert (BS : (0 < b / IZR s)%R) by (apply Rdiv_lt_0_compat; assumption).
  rewrite Rabs_mult, (Rabs_pos_eq (b / IZR s)) by lra.
  apply Rmult_le_reg_r with (IZR q); [exact Hq|]. rewrite Rinv_l by lra.
  replace (Rabs (IZR (scaled x) * IZR s - IZR r * B) * (b / IZR s) * IZR q)%R with ((Rabs (IZR (scaled x) * IZR s - IZR r * B) * IZR q) * (b / IZR s))%R by ring.
  replace 1%R with ((IZR s * B) * (b / IZR s))%R; [apply Rmult_le_compat_r; lra|]. unfold Rdiv. replace (IZR s * B * (b * / IZR s))%R with ((B * b) * (IZR s * / IZR s))%R by ring. rewrite I, Rinv_r by lra. ring.
Qed.
Definition profile_check (stored : list (string * list b64)) (e : string * Z * list Z) : bool :=
  let '(name, total, ratings) := e in
  (0 <? total) && match assoc String.eqb name stored with
  | Some arr => Nat.eqb (length arr) 12 && forallb (fun i => near_ratio (10 ^ 16) (znth fzero arr i) (znth 0 ratings i) total) (zseq 12)
  | None => false
  end.
Lemma published_check : forallb (profile_check builtin_major) published_major && forallb (profile_check builtin_minor) published_minor = true.
Proof. vm_compute. reflexivity. Qed.
Lemma profile_checked stored name total ratings i : profile_check stored (name, total, ratings) = true -> 0 <= i < 12 ->
  exists arr, assoc String.eqb name stored = Some arr /\ (Rabs (B2R (znth fzero arr i) - IZR (znth 0%Z ratings i) / IZR total) <= / 10 ^ 16)%R.
Proof.
  unfold profile_check. intros H Hi. apply andb_prop in H. destruct H as (T & H). destruct (assoc String.eqb name stored) as [arr|]; [|discriminate]. exists arr. split; [reflexivity|].
  apply andb_prop in H. destruct H as (_ & H). pose proof (zseq_sweep 12 _ H i Hi) as S. cbv beta in S. apply near_ratio_correct in S; [|reflexivity|lia].
  replace (10 ^ 16)%R with (IZR (10 ^ 16)); [exact S|]. change 10 with (Z.of_nat 10) at 1. rewrite (pow_IZR 10 16). reflexivity.
Qed.
Lemma names_not_custom : forallb (fun e : string * Z * list Z => negb (String.eqb (fst (fst e)) "custom")) (published_major ++ published_minor) = true.
Proof. reflexivity. Qed.
Lemma not_custom e : In e published_major \/ In e published_minor -> String.eqb (fst (fst e)) "custom" = false.
Proof. intros H. pose proof names_not_custom as C. rewrite forallb_forall in C. specialize (C e). cbv beta in C. rewrite in_app_iff in C. specialize (C H). now apply negb_true_iff. Qed.
Lemma C45_published_proof maj tmaj rmaj mino tmin rmin k p : In (maj, tmaj, rmaj) published_major -> In (mino, tmin, rmin) published_minor -> is_key k -> 0 <= p < 12 ->
  let degree := (p - tonic k) mod 12 in
  (Rabs (B2R (emission (keyprofile_new2 maj mino) k p) - (if majorb k then IZR (nth (Z.to_nat degree) rmaj 0%Z) / IZR tmaj else IZR (nth (Z.to_nat degree) rmin 0%Z) / IZR tmin)) <= / 10 ^ 16)%R.
Proof.
  intros H1 H2 Hk Hp degree. pose proof published_check as C. apply andb_prop in C. destruct C as (C1 & C2). rewrite forallb_forall in C1, C2. specialize (C1 _ H1). specialize (C2 _ H2).
  assert (D : 0 <= degree < 12) by (apply Z.mod_pos_bound; reflexivity).
  destruct (profile_checked _ _ _ _ degree C1 D) as (A & EA & VA). destruct (profile_checked _ _ _ _ degree C2 D) as (B & EB & VB).
  pose proof (not_custom _ (or_introl H1)) as N1. pose proof (not_custom _ (or_intror H2)) as N2. cbn [fst] in N1, N2.
  unfold keyprofile_new2. rewrite (C06_emission_proof maj mino zero_profile zero_profile A B k p eq_refl eq_refl); [|unfold chosen; rewrite N1; exact EA|unfold chosen; rewrite N2; exact EB|exact Hk|exact Hp].
  fold degree. assert (Z : forall l, znth 0 l degree = nth (Z.to_nat degree) l 0) by (intros l; unfold znth; replace (degree <? 0) with false by lia; reflexivity).
  rewrite Z in VA, VB. destruct (majorb k); assumption.
Qed.
Lemma C45_all_stored_proof name : (In name (map fst builtin_major) <-> In name (map (fun e => fst (fst e)) published_major)) /\ (In name (map fst builtin_minor) <-> In name (map (fun e => fst (fst e)) published_minor)).
Proof. cbn. tauto. Qed.

(** ** Key names *)
Definition spelling_check (e : string * Z) : bool :=
  let '(s, k) := e in
  match signature (get_string (key_of_int k)), signature s with
  | Some q, Some q' =>
      String.eqb s (get_string (key_of_int k)) || (k =? 20) || (Z.abs q <? Z.abs q') || ((k =? 6) && String.eqb s "Gb" && (Z.abs q =? Z.abs q')) || ((k =? 15) && String.eqb s "d#" && (Z.abs q =? Z.abs q'))
  | _, _ => false
  end.
Lemma spelling_swept : forallb spelling_check string_to_int = true.
Proof. vm_compute. reflexivity. Qed.
Lemma C46_proof k s : is_key k -> named_key s = Some k -> s <> get_string (key_of_int k) ->
  exists q q', signature (get_string (key_of_int k)) = Some q /\ signature s = Some q' /\
    (k = 20 \/ Z.abs q < Z.abs q' \/ (k = 6 /\ s = "Gb"%string /\ Z.abs q = Z.abs q') \/ (k = 15 /\ s = "d#"%string /\ Z.abs q = Z.abs q')).
Proof.
  intros K N D. rewrite <- string_table_correct in N. apply (assoc_In _ Seqb_spec') in N. pose proof spelling_swept as C. rewrite forallb_forall in C. specialize (C _ N). unfold spelling_check in C.
  destruct (signature (get_string (key_of_int k))) as [q|]; [|discriminate]. destruct (signature s) as [q'|]; [|discriminate]. exists q, q'. split; [reflexivity|]. split; [reflexivity|].
  rewrite !orb_true_iff, !andb_true_iff, !String.eqb_eq in C. destruct C as [[[[C|C]|C]|C]|C]; [contradiction|left; lia|right; left; lia|right; right; left|right; right; right]; repeat split; try apply C; lia.
Qed.
Lemma C46_range_proof k : is_key k -> exists q, signature (get_string (key_of_int k)) = Some q /\ (k <> 20 -> -6 <= q <= 6) /\ (7 * q + (if majorb k then 0 else 9)) mod 12 = tonic k.
Proof.
  intros K. assert (C : forallb (fun k => match signature (get_string (key_of_int k)) with Some q => ((k =? 20) || ((-6 <=? q) && (q <=? 6))) && ((7 * q + (if majorb k then 0 else 9)) mod 12 =? tonic k)  | None => false end) (zseq 24) = true) by (vm_compute; reflexivity).
  pose proof (zseq_sweep 24 _ C k K) as S. cbv beta in S. destruct (signature (get_string (key_of_int k))) as [q|]; [|discriminate]. exists q. split; [reflexivity|]. split; lia.
Qed.
Lemma C46_ab_proof : ~ (forall k s q q', is_key k -> named_key s = Some k -> signature (get_string (key_of_int k)) = Some q -> signature s = Some q' -> Z.abs q <= Z.abs q').
Proof. intros H. specialize (H 20 "g#"%string (-7) 5 ltac:(unfold is_key; lia) eq_refl eq_refl eq_refl). cbn in H. lia. Qed.

(** ** Classes of keys *)
Definition class_of (k : Z) : nat := nth (Z.to_nat k) [0; 5; 3; 3; 4; 1; 8; 1; 4; 3; 3; 5; 1; 7; 2; 6; 2; 2; 6; 2; 7; 1; 4; 4]%nat 9%nat.
Definition in_classb (r : nat) (k : Z) : bool := existsb (fun s => match named_key s with Some j => j =? k | None => false end) (nth r key_classes []).
Lemma in_classb_spec r a b : in_class r a b <-> in_classb r (as_from_C a b) = true.
Proof.
  unfold in_class, in_classb. rewrite existsb_exists. split; intros (s & I & H); exists s; (split; [exact I|]).
  - rewrite H. apply Z.eqb_refl.
  - destruct (named_key s) as [j|]; [|discriminate]. apply Z.eqb_eq in H. congruence.
Qed.
Lemma as_from_C_key a b : is_key a -> is_key b -> is_key (as_from_C a b).
Proof.
  intros A B. unfold is_key, as_from_C, transpose_key. destruct (majorb a), (majorb b);
  repeat match goal with |- context [?x mod 12] => pose proof (Z.mod_pos_bound x 12 eq_refl); generalize dependent (x mod 12); intros end; lia.
Qed.
Lemma class_sweep : forallb (fun k => forallb (fun r => Bool.eqb (in_classb r k) (Nat.eqb r (class_of k))) (seq 0 9)) (zseq 24) = true.
Proof. vm_compute. reflexivity. Qed.
Lemma in_class_iff r a b : is_key a -> is_key b -> in_class r a b <-> r = class_of (as_from_C a b).
Proof.
  intros A B. rewrite in_classb_spec. pose proof (as_from_C_key a b A B) as K. pose proof (zseq_sweep 24 _ class_sweep (as_from_C a b) K) as S. cbv beta in S. rewrite forallb_forall in S.
  destruct (Nat.lt_ge_cases r 9) as [L|L].
  - specialize (S r ltac:(apply in_seq; lia)). apply Bool.eqb_prop in S. rewrite S. apply Nat.eqb_eq.
  - unfold in_classb. rewrite nth_overflow by exact L. cbn. split; [discriminate|]. intros ->. exfalso.
    assert (C : forallb (fun k => Nat.ltb (class_of k) 9) (zseq 24) = true) by (vm_compute; reflexivity). pose proof (zseq_sweep 24 _ C (as_from_C a b) K) as S'. cbv beta in S'. apply Nat.ltb_lt in S'. exact (Nat.lt_irrefl _ (Nat.lt_le_trans _ _ _ S' L)).
Qed.
Lemma C47_classes_proof a b : is_key a -> is_key b -> exists r, (r < 9)%nat /\ in_class r a b /\ forall r', in_class r' a b -> r' = r.
Proof.
  intros A B. exists (class_of (as_from_C a b)). split; [|split].
  - assert (C : forallb (fun k => Nat.ltb (class_of k) 9) (zseq 24) = true) by (vm_compute; reflexivity). pose proof (zseq_sweep 24 _ C _ (as_from_C_key a b A B)) as S'. now apply Nat.ltb_lt.
  - now apply in_class_iff.
  - intros r' H. now apply in_class_iff.
Qed.
Definition SF_eqb (x y : SpecFloat.spec_float) : bool :=
  match x, y with
  | SpecFloat.S754_zero a, SpecFloat.S754_zero b => Bool.eqb a b
  | SpecFloat.S754_finite a m e, SpecFloat.S754_finite b n f => Bool.eqb a b && Pos.eqb m n && Z.eqb e f
  | _, _ => false
  end.
Lemma SF_eqb_eq x y : SF_eqb x y = true -> x = y.
Proof.
  destruct x, y; cbn; try discriminate; [intros H; apply Bool.eqb_prop in H; congruence|]. rewrite !andb_true_iff. intros ((A & B) & C).
  apply Bool.eqb_prop in A. apply Pos.eqb_eq in B. apply Z.eqb_eq in C. congruence.
Qed.
Definition weight_check (e : string * list b64) : bool :=
  forallb (fun a => forallb (fun b =>
    match class_weight (fst e) (class_of (as_from_C a b)) with
    | Some (n, d) => SF_eqb (B2SF (znth fzero (snd e) (interval_index a b))) (B2SF (rat64 n d))
    | None => false end) (zseq 24)) (zseq 24).
Lemma weights_swept : forallb weight_check builtin_transitions = true.
Proof. vm_compute. reflexivity. Qed.
Lemma builtin_24 name arr : In (name, arr) builtin_transitions -> length arr = 24%nat.
Proof. intros H. assert (C : forallb (fun e : string * list b64 => Nat.eqb (length (snd e)) 24) builtin_transitions = true) by reflexivity. rewrite forallb_forall in C. specialize (C _ H). now apply Nat.eqb_eq in C. Qed.
Lemma weight_value name arr a b : In (name, arr) builtin_transitions -> is_key a -> is_key b ->
  exists n d, class_weight name (class_of (as_from_C a b)) = Some (n, d) /\ transition arr a b = rat64 n d.
Proof.
  intros H A B. pose proof weights_swept as C. rewrite forallb_forall in C. specialize (C _ H). unfold weight_check in C. cbn [fst snd] in C.
  pose proof (zseq_sweep2 24 24 _ C a b A B) as S. cbv beta in S. destruct (class_weight name (class_of (as_from_C a b))) as [(n, d)|]; [|discriminate]. exists n, d. split; [reflexivity|].
  rewrite C10_entry_proof by (try assumption; now apply (builtin_24 name)). apply B2SF_inj. now apply SF_eqb_eq.
Qed.
Lemma C47_weights_proof name arr a b r : In (name, arr) builtin_transitions -> is_key a -> is_key b -> in_class r a b ->
  exists n d, class_weight name r = Some (n, d) /\ is_finite (transition arr a b) = true /\ B2R (transition arr a b) = rnd (IZR n / IZR (Zpos d)).
Proof.
  intros H A B R. apply in_class_iff in R; [|assumption..]. subst r. destruct (weight_value name arr a b H A B) as (n & d & W & E). exists n, d. split; [exact W|]. rewrite E.
  assert (K9 : forallb (fun k => forallb (fun nm => match class_weight nm (class_of k) with Some (n, d) => (0 <=? n) && ((n <=? Zpos d) || (Pos.eqb d 1 && (n <=? 9))) | None => false end) (map fst builtin_transitions)) (zseq 24) = true) by (vm_compute; reflexivity).
  pose proof (zseq_sweep 24 _ K9 _ (as_from_C_key a b A B)) as S. cbv beta in S. rewrite forallb_forall in S. specialize (S name (in_map fst _ _ H)). cbv beta in S. rewrite W in S. apply andb_prop in S. destruct S as (N & S). apply Z.leb_le in N.
  destruct (n <=? Zpos d) eqn:L; [apply rat64_unit; lia|]. cbn [orb] in S. apply andb_prop in S. destruct S as (D & U). apply Pos.eqb_eq in D. subst d. apply Z.leb_le in U.
  apply rat64_correct; [lia|]. unfold Rdiv. rewrite Rinv_1, Rmult_1_r.
  assert (G : rnd (IZR n) = IZR n).
  { apply round_generic; [apply valid_rnd_N|]. apply generic_format_FLT. exists (Float radix2 n 0); [unfold F2R; cbn; ring|cbn; lia|cbn; lia]. }
  rewrite G. rewrite Rabs_pos_eq by (apply IZR_le; lia). apply Rle_lt_trans with 9%R; [apply IZR_le; lia|]. apply Rlt_trans with (bpow radix2 4); [cbn; lra|apply bpow_lt; lia].
Qed.

(** ** Nearer keys are likelier *)
Definition stepb (a b : Z) : bool :=
  (Bool.eqb (majorb a) (majorb b) && ((tonic b =? (tonic a + 7) mod 12) || (tonic a =? (tonic b + 7) mod 12))) ||
  (Bool.eqb (majorb a) (negb (majorb b)) && (tonic a =? tonic b)) ||
  (majorb a && negb (majorb b) && (tonic b =? (tonic a + 9) mod 12)) || (negb (majorb a) && majorb b && (tonic a =? (tonic b + 9) mod 12)).
Lemma stepb_spec a b : one_step a b <-> stepb a b = true.
Proof.
  unfold one_step, stepb. rewrite !orb_true_iff, !andb_true_iff, !orb_true_iff, !negb_true_iff, !Z.eqb_eq, !Bool.eqb_true_iff. tauto.
Qed.
Lemma key_listed c : In c (zseq 24) <-> is_key c.
Proof. unfold is_key. rewrite zseq_In. lia. Qed.
Fixpoint reach (n : nat) (a : Z) : list Z :=
  match n with O => [a] | S m => a :: filter (fun c => existsb (fun b => stepb b c) (reach m a)) (zseq 24) end.
Lemma reach_S n a : reach (S n) a = a :: filter (fun c => existsb (fun b => stepb b c) (reach n a)) (zseq 24).
Proof. reflexivity. Qed.
Lemma In_cons {A} (x y : A) l : In x (y :: l) <-> y = x \/ In x l.
Proof. reflexivity. Qed.
Lemma reach_spec n a c : is_key a -> within n a c <-> In c (reach n a).
Proof.
  intros A. revert c. induction n as [|n IH]; intros c.
  - cbn. split; [intros H; inversion H; subst; auto|]. intros [<-|[]]. now constructor.
  - rewrite reach_S, In_cons, filter_In, existsb_exists. split.
    + intros H. inversion H; subst; [now left|]. right. split; [now apply key_listed|]. exists b. split; [now apply IH|now apply stepb_spec].
    + intros [<-|(Z' & b & I & T)]; [now constructor|]. apply key_listed in Z'. apply within_step with b; [now apply IH|now apply stepb_spec|exact Z'].
Qed.
(** The classes reached in 0, 1 and 2 steps. *)
Definition far (n : nat) : nat := nth n [0; 1; 3]%nat 0%nat.
Lemma reach_swept : forallb (fun a => forallb (fun c => forallb (fun n => Bool.eqb (existsb (Z.eqb c) (reach n a)) (Nat.leb (class_of (as_from_C a c)) (far n))) (seq 0 3)) (zseq 24)) (zseq 24) = true.
Proof. vm_compute. reflexivity. Qed.
Lemma within_class n a c : (n <= 2)%nat -> is_key a -> is_key c -> within n a c <-> (class_of (as_from_C a c) <= far n)%nat.
Proof.
  intros N A C. rewrite (reach_spec n a c A). pose proof (zseq_sweep2 24 24 _ reach_swept a c A C) as S. cbv beta in S. rewrite forallb_forall in S. specialize (S n ltac:(apply in_seq; lia)). apply Bool.eqb_prop in S.
  rewrite <- Nat.leb_le, <- S, existsb_exists. split; [intros I; exists c; split; [exact I|apply Z.eqb_refl]|]. intros (x & I & E). apply Z.eqb_eq in E. now subst x.
Qed.
Definition graded (name : string) : bool := existsb (String.eqb name) ["linear"; "exponential2"; "exponential10"]%string.
Lemma graded_swept : forallb (fun name => forallb (fun r => forallb (fun r' =>
  match class_weight name r, class_weight name r' with Some (n, d), Some (n', d') => negb (Nat.ltb r r') || (scaled (rat64 n' d') <? scaled (rat64 n d)) | _, _ => false end) (seq 0 9)) (seq 0 9)) ["linear"; "exponential2"; "exponential10"]%string = true.
Proof. vm_compute. reflexivity. Qed.
Lemma class_lt9 a b : is_key a -> is_key b -> (class_of (as_from_C a b) < 9)%nat.
Proof.
  intros A B. assert (C : forallb (fun k => Nat.ltb (class_of k) 9) (zseq 24) = true) by (vm_compute; reflexivity). pose proof (zseq_sweep 24 _ C _ (as_from_C_key a b A B)) as S'. now apply Nat.ltb_lt.
Qed.
Lemma graded_order name arr a b c : In name ["linear"; "exponential2"; "exponential10"]%string -> In (name, arr) builtin_transitions -> is_key a -> is_key b -> is_key c ->
  (class_of (as_from_C a b) < class_of (as_from_C a c))%nat -> (B2R (transition arr a c) < B2R (transition arr a b))%R.
Proof.
  intros N H A B C L. pose proof graded_swept as S. rewrite forallb_forall in S. specialize (S name N). cbv beta in S. rewrite forallb_forall in S.
  specialize (S (class_of (as_from_C a b)) ltac:(apply in_seq; pose proof (class_lt9 a b A B); lia)). cbv beta in S. rewrite forallb_forall in S.
  specialize (S (class_of (as_from_C a c)) ltac:(apply in_seq; pose proof (class_lt9 a c A C); lia)). cbv beta in S.
  destruct (C47_weights_proof name arr a b _ H A B (proj2 (in_class_iff _ a b A B) eq_refl)) as (n1 & d1 & W1 & F1 & _). destruct (weight_value name arr a b H A B) as (n & d & W & E).
  destruct (C47_weights_proof name arr a c _ H A C (proj2 (in_class_iff _ a c A C) eq_refl)) as (n2 & d2 & W2 & F2 & _). destruct (weight_value name arr a c H A C) as (n' & d' & W' & E').
  rewrite W, W' in S. apply Nat.ltb_lt in L. rewrite L in S. cbn [negb orb] in S. rewrite E in F1. rewrite E' in F2. rewrite E, E', !scaled_correct by assumption.
  apply Z.ltb_lt in S. apply Rmult_lt_compat_r; [apply bpow_gt_0|]. now apply IZR_lt.
Qed.
Lemma C47_nearer_proof name arr n a b c : In name ["linear"; "exponential2"; "exponential10"]%string -> In (name, arr) builtin_transitions -> (n <= 2)%nat ->
  is_key a -> is_key b -> is_key c -> within n a b -> ~ within n a c -> (B2R (transition arr a c) < B2R (transition arr a b))%R.
Proof.
  intros N H L A B C W1 W2. apply within_class in W1; [|assumption..]. rewrite within_class in W2 by assumption. apply (graded_order name); try assumption. lia.
Qed.
Lemma C47_three_steps_proof : ~ (forall name arr a b c, In name ["linear"; "exponential2"; "exponential10"]%string -> In (name, arr) builtin_transitions ->
  is_key a -> is_key b -> is_key c -> within 3 a b -> ~ within 3 a c -> (B2R (transition arr a c) < B2R (transition arr a b))%R).
Proof.
  intros H. destruct builtin_transitions as [|(nm, arr) t] eqn:E; [discriminate E|].
  assert (exists arr, In ("linear"%string, arr) builtin_transitions) as (ar & I).
  { assert (X : existsb (fun e => String.eqb "linear" (fst e)) builtin_transitions = true) by reflexivity. apply existsb_exists in X. destruct X as ((x & y) & X1 & X2). apply String.eqb_eq in X2. cbn in X2. subst x. now exists y. }
  rewrite <- E in H. assert (K0 : is_key 0) by (unfold is_key; lia). assert (K1 : is_key 1) by (unfold is_key; lia). assert (K15 : is_key 15) by (unfold is_key; lia).
  assert (P : (B2R (transition ar 0 1) < B2R (transition ar 0 15))%R).
  { apply (H "linear"%string ar 0 15 1); try assumption; [now left| |].
    - apply reach_spec; [assumption|]. vm_compute. tauto.
    - rewrite reach_spec by assumption. vm_compute. intuition discriminate. }
  assert (Q : (B2R (transition ar 0 15) < B2R (transition ar 0 1))%R).
  { apply (graded_order "linear"%string); try assumption; [now left|]. vm_compute. lia. }
  lra.
Qed.
