(** Proofs about key transitions (C10-C13). *)
From Coq Require Import Lia ZifyBool Permutation.
From Verif Require Import Base BaseFacts Fp Key PitchClass KeyTransition Hmm MusicSpec KeyFacts.
Ltac Zify.zify_post_hook ::= Z.div_mod_to_equations.

(** Specification: which array entry gives the probability of moving from one key to another. *)
Definition interval_index (from to : Z) : Z :=
  match majorb from, majorb to with
  | true, true => (tonic to - tonic from) mod 12
  | true, false => 12 + (tonic to - tonic from) mod 12
  | false, false => (tonic to - tonic from) mod 12
  | false, true => 12 + (tonic to - tonic from + 9) mod 12
  end.
(** The transition probability as read from the map of an array. *)
Definition transition (arr : list b64) (from to : Z) : b64 := at2 b64 fzero (transition_map_of arr) from to.

Lemma interval_index_range a b : is_key a -> is_key b -> is_key (interval_index a b).
Proof. intros Ha Hb. unfold interval_index, is_key. destruct (majorb a), (majorb b); lia. Qed.

Lemma row_length {A} (arr : list A) from : length arr = 24%nat -> length (transition_row arr from) = 24%nat.
Proof.
  intros H. unfold transition_row. rewrite app_length, !rotate_length.
  assert (L1 : length (firstn 12 arr) = 12%nat) by (rewrite firstn_length; lia).
  assert (L2 : length (firstn 12 (skipn 12 arr)) = 12%nat) by (rewrite firstn_length, skipn_length; lia).
  destruct (_ && _); [lia|]. rewrite rotate_length. lia.
Qed.
Lemma znth_app1 {A} (d : A) l m i n : length l = Z.to_nat n -> 0 <= i < n -> znth d (l ++ m) i = znth d l i.
Proof. intros Hl Hi. unfold znth. apply app_nth1. lia. Qed.
Lemma znth_app2 {A} (d : A) l m i n : length l = Z.to_nat n -> 0 <= n <= i -> znth d (l ++ m) i = znth d m (i - n).
Proof. intros Hl Hi. unfold znth. rewrite app_nth2 by lia. f_equal. lia. Qed.
Lemma znth_first {A} (d : A) arr i : 0 <= i < 12 -> znth d (firstn 12 arr) i = znth d arr i.
Proof. intros H. unfold znth. apply nth_firstn. lia. Qed.
Lemma znth_second {A} (d : A) arr i : 0 <= i < 12 -> znth d (firstn 12 (skipn 12 arr)) i = znth d arr (12 + i).
Proof. intros H. unfold znth. rewrite nth_firstn, nth_skipn by lia. f_equal. lia. Qed.

Lemma row_entry {A} (d : A) arr from to : length arr = 24%nat -> is_key from -> is_key to ->
  znth d (transition_row arr from) to = znth d arr (interval_index from to).
Proof.
  intros Hl Hf Ht. unfold is_key in *. unfold transition_row, FIRST_MAJOR_KEY, LAST_MAJOR_KEY, NUMBER_OF_PITCHCLASSES, PITCHCLASS_A_NATURAL.
  rewrite Z.rem_mod_nonneg by lia.
  assert (L1 : length (firstn 12 arr) = Z.to_nat 12) by (rewrite firstn_length; lia).
  assert (L2 : length (firstn 12 (skipn 12 arr)) = Z.to_nat 12) by (rewrite firstn_length, skipn_length; lia).
  unfold interval_index, majorb, tonic.
  destruct (Z.ltb_spec from 12) as [F|F].
  - replace ((0 <=? from) && (from <=? 11)) with true by lia.
    destruct (Z.ltb_spec to 12) as [T|T].
    + rewrite (znth_app1 d _ _ _ 12) by (rewrite ?rotate_length; lia).
      rewrite (znth_rotate _ _ _ _ 12) by lia. rewrite znth_first by lia. f_equal. lia.
    + rewrite (znth_app2 d _ _ _ 12) by (rewrite ?rotate_length; lia).
      rewrite (znth_rotate _ _ _ _ 12) by lia. rewrite znth_second by lia. f_equal. lia.
  - replace ((0 <=? from) && (from <=? 11)) with false by lia.
    destruct (Z.ltb_spec to 12) as [T|T].
    + rewrite (znth_app1 d _ _ _ 12) by (rewrite ?rotate_length; lia).
      rewrite (znth_rotate _ _ _ _ 12) by (rewrite ?rotate_length; lia).
      rewrite (znth_rotate _ _ _ _ 12) by lia. rewrite znth_second by lia. f_equal. lia.
    + rewrite (znth_app2 d _ _ _ 12) by (rewrite ?rotate_length; lia).
      rewrite (znth_rotate _ _ _ _ 12) by lia. rewrite znth_first by lia. f_equal. lia.
Qed.

Lemma transition_entry arr from to : is_key from -> is_key to ->
  transition arr from to = znth fzero (transition_row arr from) to.
Proof.
  intros Hf Ht. unfold transition, at2, transition_map_of.
  rewrite (assoc_map_fun _ Zeqb_spec' (fun from => map (fun to => (to, znth fzero (transition_row arr from) to)) (zseq 24))) by (apply zseq_In; exact Hf).
  unfold at1. rewrite (assoc_map_fun _ Zeqb_spec' (fun to => znth fzero (transition_row arr from) to)) by (apply zseq_In; exact Ht).
  reflexivity.
Qed.
Lemma C10_entry_proof : forall arr from to, length arr = 24%nat -> is_key from -> is_key to ->
  transition arr from to = znth fzero arr (interval_index from to).
Proof. intros arr from to Hl Hf Ht. rewrite transition_entry by assumption. now apply row_entry. Qed.

Lemma interval_index_transpose t a b : is_key a -> is_key b ->
  interval_index (transpose_key t a) (transpose_key t b) = interval_index a b.
Proof.
  intros Ha Hb.
  assert (M : forall k, is_key k -> majorb (transpose_key t k) = majorb k).
  { intros k H. unfold is_key, transpose_key, majorb, tonic in *. destruct (Z.ltb_spec k 12); lia. }
  assert (T : forall k, is_key k -> tonic (transpose_key t k) = (tonic k + t) mod 12).
  { intros k H. unfold is_key, transpose_key, majorb, tonic in *. destruct (Z.ltb_spec k 12); lia. }
  unfold interval_index. rewrite !M, !T by assumption. destruct (majorb a), (majorb b); lia.
Qed.
Lemma C10_transpose_proof : forall arr from to t, length arr = 24%nat -> is_key from -> is_key to ->
  transition arr (transpose_key t from) (transpose_key t to) = transition arr from to.
Proof.
  intros arr from to t Hl Hf Ht. rewrite !C10_entry_proof; try assumption; try now apply transpose_key_range.
  now rewrite interval_index_transpose.
Qed.
Lemma C10_shape_proof : forall arr, map fst (transition_map_of arr) = zseq 24 /\
  forall k row, In (k, row) (transition_map_of arr) -> map fst row = zseq 24.
Proof.
  intros arr. split; [reflexivity|]. intros k row H. apply in_map_iff in H. destruct H as (j & E & _).
  injection E as <- <-. reflexivity.
Qed.

(** ** C11 *)
Lemma znth_zseq {A} (d : A) l n : length l = n -> map (znth d l) (zseq n) = l.
Proof.
  intros <-. unfold zseq, znth. rewrite map_map.
  rewrite (map_ext _ (fun x => nth x l d)) by (intros x; now rewrite Nat2Z.id).
  induction l as [|x l IH]; [reflexivity|]. cbn [length seq map nth]. f_equal.
  rewrite <- seq_shift, map_map. exact IH.
Qed.
Lemma index_perm (f : Z -> Z) : 
  forallb (fun i => existsb (fun j => f j =? i) (zseq 24)) (zseq 24) = true -> 
  Permutation (zseq 24) (map f (zseq 24)).
Proof.
  intros H. apply NoDup_Permutation_bis.
  - apply zseq_NoDup.
  - rewrite map_length. apply Nat.le_refl.
  - intros i Hi. pose proof (proj1 (forallb_forall _ _) H i Hi) as X. apply existsb_exists in X.
    destruct X as (j & Hj & E). apply Z.eqb_eq in E. subst. now apply in_map.
Qed.
Lemma C11_rows_proof : forall arr k, length arr = 24%nat -> is_key k ->
  Permutation (map (transition arr k) (zseq 24)) arr.
Proof.
  intros arr k Hl Hk.
  rewrite (map_ext_in _ (fun to => znth fzero arr (interval_index k to))).
  2:{ intros to Ht. apply C10_entry_proof; try assumption. now apply zseq_In in Ht. }
  rewrite <- map_map. rewrite <- (znth_zseq fzero arr 24 Hl) at 2. apply Permutation_map. symmetry.
  apply index_perm. revert k Hk. apply (zseq_sweep 24). vm_compute. reflexivity.
Qed.
Lemma C11_columns_proof : forall arr k, length arr = 24%nat -> is_key k ->
  Permutation (map (fun from => transition arr from k) (zseq 24)) arr.
Proof.
  intros arr k Hl Hk.
  rewrite (map_ext_in _ (fun from => znth fzero arr (interval_index from k))).
  2:{ intros from Hf. apply C10_entry_proof; try assumption. now apply zseq_In in Hf. }
  rewrite <- (map_map (fun from => interval_index from k) (znth fzero arr)). rewrite <- (znth_zseq fzero arr 24 Hl) at 2. apply Permutation_map. symmetry.
  apply index_perm. revert k Hk. apply (zseq_sweep 24). vm_compute. reflexivity.
Qed.

(** ** C12 *)
Definition symmetric_array (arr : list b64) : Prop :=
  (forall d, 0 <= d < 12 -> znth fzero arr d = znth fzero arr ((- d) mod 12)) /\
  (forall d, 0 <= d < 12 -> znth fzero arr (12 + d) = znth fzero arr (12 + (9 - d) mod 12)).

Lemma C12_characterisation_proof : forall arr, length arr = 24%nat ->
  ((forall a b, is_key a -> is_key b -> transition arr a b = transition arr b a) <-> symmetric_array arr).
Proof.
  intros arr Hl. split.
  - intros H. split; intros d Hd.
    + specialize (H 0 d ltac:(unfold is_key; lia) ltac:(unfold is_key; lia)).
      rewrite !C10_entry_proof in H by (try assumption; unfold is_key; lia).
      unfold interval_index, majorb, tonic in H. destruct (Z.ltb_spec d 12); [|lia]. cbn [Z.ltb Z.compare] in H.
      change (0 <? 12) with true in H. cbv iota in H.
      replace ((d mod 12 - 0 mod 12) mod 12) with d in H by lia. replace ((0 mod 12 - d mod 12) mod 12) with ((- d) mod 12) in H by lia. exact H.
    + specialize (H 0 (12 + d) ltac:(unfold is_key; lia) ltac:(unfold is_key; lia)).
      rewrite !C10_entry_proof in H by (try assumption; unfold is_key; lia).
      unfold interval_index, majorb, tonic in H. destruct (Z.ltb_spec (12 + d) 12); [lia|].
      change (0 <? 12) with true in H. cbv iota in H.
      replace (((12 + d) mod 12 - 0 mod 12) mod 12) with d in H by lia.
      replace ((0 mod 12 - (12 + d) mod 12 + 9) mod 12) with ((9 - d) mod 12) in H by lia. exact H.
  - intros [H1 H2] a b Ha Hb. rewrite !C10_entry_proof by assumption. unfold interval_index.
    destruct (majorb a), (majorb b).
    + rewrite (H1 ((tonic b - tonic a) mod 12)) by (apply Z.mod_pos_bound; lia). f_equal. lia.
    + rewrite (H2 ((tonic b - tonic a) mod 12)) by (apply Z.mod_pos_bound; lia). f_equal. lia.
    + rewrite (H2 ((tonic b - tonic a + 9) mod 12)) by (apply Z.mod_pos_bound; lia). f_equal. lia.
    + rewrite (H1 ((tonic b - tonic a) mod 12)) by (apply Z.mod_pos_bound; lia). f_equal. lia.
Qed.

(** The numerators and the denominator of each stored array. *)
Definition builtin_fractions : list (string * (list Z * positive)) :=
  [("linear"%string, ([9; 4; 6; 6; 5; 8; 1; 8; 5; 6; 6; 4; 8; 2; 7; 3; 7; 7; 3; 7; 2; 8; 5; 5], 132%positive));
   ("exponential2"%string, ([256; 8; 32; 32; 16; 128; 1; 128; 16; 32; 32; 8; 128; 2; 64; 4; 64; 64; 4; 64; 2; 128; 16; 16], 1245%positive));
   ("exponential10"%string, ([100000000; 1000; 100000; 100000; 10000; 10000000; 1; 10000000; 10000; 100000; 100000; 1000; 10000000; 10; 1000000; 100; 1000000; 1000000; 100; 1000000; 10; 10000000; 10000; 10000], 144442221%positive));
   ("zero"%string, ([1; 0; 0; 0; 0; 0; 0; 0; 0; 0; 0; 0; 0; 0; 0; 0; 0; 0; 0; 0; 0; 0; 0; 0], 1%positive));
   ("symmetrical"%string, ([1; 1; 1; 1; 1; 1; 1; 1; 1; 1; 1; 1; 1; 1; 1; 1; 1; 1; 1; 1; 1; 1; 1; 1], 24%positive));
   ("heatmap"%string, ([1; 6; 4; 4; 5; 2; 9; 2; 5; 4; 4; 6; 2; 8; 3; 7; 3; 3; 7; 3; 8; 2; 5; 5], 1%positive))].
Definition quotients (f : list Z * positive) : list b64 := map (fun n => rat64 n (snd f)) (fst f).
Lemma builtin_as_quotients : builtin_transitions = map (fun e => (fst e, quotients (snd e))) builtin_fractions.
Proof. reflexivity. Qed.
Lemma quotients_nth f i : znth fzero (quotients f) i = rat64 (znth 0 (fst f) i) (snd f).
Proof. unfold quotients, znth. change fzero with ((fun n => rat64 n (snd f)) 0). apply map_nth. Qed.

Definition symmetric_numbers (l : list Z) : bool :=
  Nat.eqb (length l) 24 &&
  forallb (fun d => (znth 0 l d =? znth 0 l ((- d) mod 12)) && (znth 0 l (12 + d) =? znth 0 l (12 + (9 - d) mod 12))) (zseq 12).
Lemma builtin_numbers_symmetric : forallb (fun e => symmetric_numbers (fst (snd e))) builtin_fractions = true.
Proof. vm_compute. reflexivity. Qed.
Lemma builtin_symmetric name arr : In (name, arr) builtin_transitions -> length arr = 24%nat /\ symmetric_array arr.
Proof.
  intros H. rewrite builtin_as_quotients in H. apply in_map_iff in H. destruct H as ([n f] & E & Hin).
  cbn [fst snd] in E. injection E as <- <-.
  pose proof (proj1 (forallb_forall _ _) builtin_numbers_symmetric _ Hin) as S. cbn [fst snd] in S.
  unfold symmetric_numbers in S. apply andb_prop in S. destruct S as [S1 S2]. split.
  - unfold quotients. rewrite map_length. now apply Nat.eqb_eq.
  - split; intros d Hd; rewrite !quotients_nth; f_equal;
    pose proof (proj1 (forallb_forall _ _) S2 d (proj2 (zseq_In 12 d) Hd)) as X; cbv beta in X; apply andb_prop in X;
    destruct X as [X1 X2]; [apply Z.eqb_eq; exact X1|apply Z.eqb_eq; exact X2].
Qed.
Lemma C12_builtin_proof : forall name arr a b, In (name, arr) builtin_transitions -> is_key a -> is_key b ->
  transition arr a b = transition arr b a.
Proof.
  intros name arr a b H Ha Hb. destruct (builtin_symmetric name arr H) as [Hl Hs].
  now apply C12_characterisation_proof.
Qed.

(** The musical relations a user has in mind when filling the array. *)
Lemma C12_swap_proof : forall arr K k, length arr = 24%nat -> is_key K -> majorb K = true -> is_key k -> majorb k = false ->
  transition arr k (tonic k) = transition arr K ((tonic K + 9) mod 12 + 12) /\
  transition arr k ((tonic k + 3) mod 12) = transition arr K (tonic K + 12).
Proof.
  intros arr K k Hl HK MK Hk Mk. unfold is_key, majorb in *.
  assert (0 <= tonic K < 12) by (apply Z.mod_pos_bound; lia). assert (0 <= tonic k < 12) by (apply Z.mod_pos_bound; lia).
  assert (0 <= (tonic K + 9) mod 12 < 12) by (apply Z.mod_pos_bound; lia).
  assert (0 <= (tonic k + 3) mod 12 < 12) by (apply Z.mod_pos_bound; lia).
  rewrite !C10_entry_proof by (try assumption; unfold is_key; lia).
  unfold interval_index, majorb. rewrite MK, Mk.
  destruct (Z.ltb_spec (tonic k) 12); [|lia].
  destruct (Z.ltb_spec ((tonic K + 9) mod 12 + 12) 12); [lia|].
  destruct (Z.ltb_spec ((tonic k + 3) mod 12) 12); [|lia].
  destruct (Z.ltb_spec (tonic K + 12) 12); [lia|].
  split; f_equal; unfold tonic in *; lia.
Qed.

(** ** C13 names *)
Definition chosen_transition (name : string) (custom : list b64) : option (list b64) :=
  if String.eqb name "custom" then Some custom else assoc String.eqb name builtin_transitions.
Lemma kt_assoc name custom :
  assoc String.eqb name (if String.eqb name "custom" then assign String.eqb name custom builtin_transitions else builtin_transitions)
  = chosen_transition name custom.
Proof.
  unfold chosen_transition. destruct (String.eqb name "custom"); [|reflexivity]. apply (assoc_assign_same _ Seqb_spec').
Qed.
Lemma C13_names_proof : forall name custom,
  match chosen_transition name custom with
  | Some arr => which_transition (keytransition_new2 name custom) = name /\
                fst (get_transition_array (keytransition_new2 name custom)) = arr /\
                fst (get_transition_map (keytransition_new2 name custom)) = transition_map_of arr
  | None => which_transition (keytransition_new2 name custom) = ""%string /\
            fst (get_transition_array (keytransition_new2 name custom)) = zero_transition /\
            (forall a b, is_key a -> is_key b ->
               at2 b64 fzero (fst (get_transition_map (keytransition_new2 name custom))) a b = fzero)
  end.
Proof.
  intros name custom. unfold keytransition_new2, is_valid_transition. cbn [kt_arrays]. rewrite kt_assoc.
  destruct (chosen_transition name custom) as [arr|] eqn:E.
  - unfold get_transition_map, get_transition_array, which_transition. cbn [kt_arrays kt_name]. rewrite kt_assoc, E. repeat split.
  - assert (N : assoc String.eqb ""%string (if String.eqb name "custom" then assign String.eqb name custom builtin_transitions else builtin_transitions) = None).
    { unfold chosen_transition in E. destruct (String.eqb name "custom"); [discriminate|reflexivity]. }
    unfold get_transition_map, get_transition_array, which_transition. cbn [kt_arrays kt_name]. rewrite N. cbn [fst].
    repeat split. intros a b Ha Hb. fold (transition zero_transition a b). rewrite C10_entry_proof by (try assumption; reflexivity).
    unfold znth. destruct (nth_in_or_default (Z.to_nat (interval_index a b)) zero_transition fzero) as [X|X]; [now apply repeat_spec in X|exact X].
Qed.
