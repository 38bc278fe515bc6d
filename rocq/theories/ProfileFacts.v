(** Proofs about key profiles (C06-C08). *)
From Coq Require Import Lia ZifyBool Permutation.
From Verif Require Import Base BaseFacts Fp Key PitchClass KeyProfile Hmm MusicSpec KeyFacts.
Ltac Zify.zify_post_hook ::= Z.div_mod_to_equations.

(** The profile a name selects: the custom array for "custom", else the stored one. *)
Definition chosen (stored : list (string * list b64)) (name : string) (custom : list b64) : option (list b64) :=
  if String.eqb name "custom" then Some custom else assoc String.eqb name stored.
(** The emission probability of pitch class [p] in key [k] as read from the map. *)
Definition emission (kp : keyprofile) (k p : Z) : b64 := at2 b64 fzero (fst (get_profile_map kp)) k p.

Definition sel_major (kp : keyprofile) : list b64 :=
  match assoc String.eqb (kp_major_name kp) (kp_majors kp) with Some a => a | None => zero_profile end.
Definition sel_minor (kp : keyprofile) : list b64 :=
  match assoc String.eqb (kp_minor_name kp) (kp_minors kp) with Some a => a | None => zero_profile end.

Lemma get_major_fst kp : fst (get_major_profile kp) = sel_major kp.
Proof. unfold get_major_profile, sel_major. now destruct (assoc _ _ _). Qed.
Lemma get_minor_fst kp : fst (get_minor_profile kp) = sel_minor kp.
Proof. unfold get_minor_profile, sel_minor. now destruct (assoc _ _ _). Qed.
Lemma get_major_sel kp : sel_major (snd (get_major_profile kp)) = sel_major kp /\ sel_minor (snd (get_major_profile kp)) = sel_minor kp.
Proof.
  unfold get_major_profile, sel_major, sel_minor. destruct (assoc String.eqb (kp_major_name kp) (kp_majors kp)) as [a|] eqn:E; cbn.
  - now rewrite E.
  - rewrite (assoc_assign_same _ Seqb_spec'). split; reflexivity.
Qed.
Lemma get_minor_sel kp : sel_major (snd (get_minor_profile kp)) = sel_major kp /\ sel_minor (snd (get_minor_profile kp)) = sel_minor kp.
Proof.
  unfold get_minor_profile, sel_major, sel_minor. destruct (assoc String.eqb (kp_minor_name kp) (kp_minors kp)) as [a|] eqn:E; cbn.
  - now rewrite E.
  - rewrite (assoc_assign_same _ Seqb_spec'). split; reflexivity.
Qed.

Definition row_of (arr : list b64) (k : Z) : list (Z * b64) :=
  map (fun pc => (pc, znth fzero (rotate (Z.to_nat (12 - Z.rem k 12)) arr) pc)) (zseq 12).
Definition mode_profile (kp : keyprofile) (k : Z) : list b64 :=
  if (0 <=? k) && (k <=? 11) then sel_major kp else sel_minor kp.

Lemma profile_row_fst kp k : fst (profile_row kp k) = row_of (mode_profile kp k) k.
Proof.
  unfold profile_row, mode_profile, row_of, FIRST_MAJOR_KEY, LAST_MAJOR_KEY, NUMBER_OF_PITCHCLASSES.
  destruct ((0 <=? k) && (k <=? 11)).
  - rewrite <- get_major_fst. now destruct (get_major_profile kp).
  - rewrite <- get_minor_fst. now destruct (get_minor_profile kp).
Qed.
Lemma profile_row_snd kp k : snd (profile_row kp k) = snd (if (0 <=? k) && (k <=? 11) then get_major_profile kp else get_minor_profile kp).
Proof.
  unfold profile_row, FIRST_MAJOR_KEY, LAST_MAJOR_KEY. destruct ((0 <=? k) && (k <=? 11)).
  - now destruct (get_major_profile kp).
  - now destruct (get_minor_profile kp).
Qed.
Lemma profile_row_mode kp k j : mode_profile (snd (profile_row kp k)) j = mode_profile kp j.
Proof.
  rewrite profile_row_snd. unfold mode_profile.
  destruct ((0 <=? k) && (k <=? 11)); destruct (get_major_sel kp) as [H1 H2]; destruct (get_minor_sel kp) as [H3 H4];
  destruct ((0 <=? j) && (j <=? 11)); assumption.
Qed.
Lemma profile_rows_fst ks kp :
  fst (profile_rows ks kp) = map (fun k => (k, row_of (mode_profile kp k) k)) ks.
Proof.
  revert kp. induction ks as [|k ks IH]; intros kp; [reflexivity|]. cbn [profile_rows map].
  pose proof (profile_row_fst kp k) as E1. pose proof (profile_row_mode kp k) as E2.
  destruct (profile_row kp k) as [row kp1]. cbn [fst snd] in *. specialize (IH kp1).
  destruct (profile_rows ks kp1) as [rows kp2]. cbn [fst] in *. subst row. f_equal. rewrite IH.
  apply map_ext. intros j. now rewrite E2.
Qed.
Lemma profile_map_rows kp : fst (get_profile_map kp) = map (fun k => (k, row_of (mode_profile kp k) k)) (zseq 24).
Proof. apply profile_rows_fst. Qed.

Lemma sel_length_new4 maj mino mc nc : length mc = 12%nat -> length nc = 12%nat ->
  length (sel_major (keyprofile_new4 maj mino mc nc)) = 12%nat /\ length (sel_minor (keyprofile_new4 maj mino mc nc)) = 12%nat.
Proof.
  intros Hm Hn.
  assert (B : forall (stored : list (string * list b64)) name custom n2, length custom = 12%nat ->
     forallb (fun p => Nat.eqb (length (snd p)) 12) stored = true ->
     length (match assoc String.eqb n2 (if String.eqb name "custom" then assign String.eqb name custom stored else stored)
             with Some a => a | None => zero_profile end) = 12%nat).
  { intros stored name custom n2 Hc Hs.
    assert (S : forall x a, assoc String.eqb x stored = Some a -> length a = 12%nat).
    { intros x a E. apply (assoc_In _ Seqb_spec') in E.
      pose proof (proj1 (forallb_forall _ _) Hs _ E) as X. cbn in X. now apply Nat.eqb_eq. }
    destruct (String.eqb name "custom").
    - destruct (string_dec n2 name) as [->|Hne].
      + now rewrite (assoc_assign_same _ Seqb_spec').
      + rewrite (assoc_assign_other _ Seqb_spec') by exact Hne. destruct (assoc String.eqb n2 stored) eqn:E; [now apply S in E|reflexivity].
    - destruct (assoc String.eqb n2 stored) eqn:E; [now apply S in E|reflexivity]. }
  unfold keyprofile_new4. destruct (_ && _); unfold sel_major, sel_minor; cbn [kp_major_name kp_minor_name kp_majors kp_minors];
  split; apply B; try assumption; vm_compute; reflexivity.
Qed.

Lemma emission_eq kp k p : length (mode_profile kp k) = 12%nat -> is_key k -> 0 <= p < 12 ->
  emission kp k p = znth fzero (mode_profile kp k) ((p - tonic k) mod 12).
Proof.
  intros Hl Hk Hp. unfold emission, at2. rewrite profile_map_rows.
  rewrite (assoc_map_fun _ Zeqb_spec' (fun k => row_of (mode_profile kp k) k)) by (apply zseq_In; exact Hk).
  unfold at1, row_of. rewrite (assoc_map_fun _ Zeqb_spec' (fun pc => znth fzero (rotate (Z.to_nat (12 - Z.rem k 12)) (mode_profile kp k)) pc)) by (apply zseq_In; exact Hp).
  unfold is_key in Hk. rewrite Z.rem_mod_nonneg by lia.
  rewrite (znth_rotate _ _ _ _ 12) by (try lia; assumption). f_equal. unfold tonic.
  replace (p + (12 - k mod 12)) with (p - k mod 12 + 1 * 12) by lia. now rewrite Z.mod_add by lia.
Qed.

Lemma mode_profile_key kp k : is_key k -> mode_profile kp k = if majorb k then sel_major kp else sel_minor kp.
Proof.
  intros H. unfold is_key in H. unfold mode_profile, majorb.
  destruct (Z.leb_spec 0 k); destruct (Z.leb_spec k 11); destruct (Z.ltb_spec k 12); try lia; reflexivity.
Qed.

Lemma assoc_custom stored name custom :
  assoc String.eqb name (if String.eqb name "custom" then assign String.eqb name custom stored else stored)
  = (chosen stored name custom : option (list b64)).
Proof.
  unfold chosen. destruct (String.eqb name "custom"); [|reflexivity]. apply (assoc_assign_same _ Seqb_spec').
Qed.
Lemma new4_cases maj mino mc nc :
  let majors := if String.eqb maj "custom" then assign String.eqb maj mc builtin_major else builtin_major in
  let minors := if String.eqb mino "custom" then assign String.eqb mino nc builtin_minor else builtin_minor in
  keyprofile_new4 maj mino mc nc =
  match chosen builtin_major maj mc, chosen builtin_minor mino nc with
  | Some _, Some _ => mkKp maj mino majors minors
  | _, _ => mkKp "" "" majors minors
  end.
Proof.
  cbv zeta. unfold keyprofile_new4, is_valid_major, is_valid_minor. cbn [kp_majors kp_minors].
  rewrite !assoc_custom. now destruct (chosen builtin_major maj mc), (chosen builtin_minor mino nc).
Qed.
Lemma new4_sel maj mino mc nc A B :
  chosen builtin_major maj mc = Some A -> chosen builtin_minor mino nc = Some B ->
  sel_major (keyprofile_new4 maj mino mc nc) = A /\ sel_minor (keyprofile_new4 maj mino mc nc) = B /\
  which_major (keyprofile_new4 maj mino mc nc) = maj /\ which_minor (keyprofile_new4 maj mino mc nc) = mino.
Proof.
  intros HA HB. rewrite new4_cases, HA, HB. unfold sel_major, sel_minor. cbn [kp_majors kp_minors kp_major_name kp_minor_name].
  rewrite !assoc_custom, HA, HB. repeat split.
Qed.
Lemma empty_not_stored (stored : list (string * list b64)) name custom : assoc String.eqb ""%string stored = None ->
  assoc String.eqb ""%string (if String.eqb name "custom" then assign String.eqb name custom stored else stored) = None.
Proof.
  intros H. destruct (String.eqb name "custom") eqn:E; [|exact H]. apply String.eqb_eq in E. subst.
  rewrite (assoc_assign_other _ Seqb_spec') by discriminate. exact H.
Qed.
Lemma new4_unknown maj mino mc nc :
  chosen builtin_major maj mc = None \/ chosen builtin_minor mino nc = None ->
  which_major (keyprofile_new4 maj mino mc nc) = ""%string /\ which_minor (keyprofile_new4 maj mino mc nc) = ""%string /\
  sel_major (keyprofile_new4 maj mino mc nc) = zero_profile /\ sel_minor (keyprofile_new4 maj mino mc nc) = zero_profile /\
  is_valid_major (keyprofile_new4 maj mino mc nc) "" = false /\ is_valid_minor (keyprofile_new4 maj mino mc nc) "" = false.
Proof.
  intros H. rewrite new4_cases.
  assert (E : match chosen builtin_major maj mc, chosen builtin_minor mino nc with
    | Some _, Some _ => mkKp maj mino (if String.eqb maj "custom" then assign String.eqb maj mc builtin_major else builtin_major) (if String.eqb mino "custom" then assign String.eqb mino nc builtin_minor else builtin_minor)
    | _, _ => mkKp "" "" (if String.eqb maj "custom" then assign String.eqb maj mc builtin_major else builtin_major) (if String.eqb mino "custom" then assign String.eqb mino nc builtin_minor else builtin_minor)
    end = mkKp "" "" (if String.eqb maj "custom" then assign String.eqb maj mc builtin_major else builtin_major) (if String.eqb mino "custom" then assign String.eqb mino nc builtin_minor else builtin_minor)).
  { destruct H as [H|H]; rewrite H; [reflexivity|]. now destruct (chosen builtin_major maj mc). }
  rewrite E. unfold sel_major, sel_minor, is_valid_major, is_valid_minor. cbn [which_major which_minor kp_majors kp_minors kp_major_name kp_minor_name].
  rewrite !empty_not_stored by (vm_compute; reflexivity). repeat split.
Qed.

Lemma C06_emission_proof : forall maj mino mc nc A B k p, length mc = 12%nat -> length nc = 12%nat ->
  chosen builtin_major maj mc = Some A -> chosen builtin_minor mino nc = Some B -> is_key k -> 0 <= p < 12 ->
  emission (keyprofile_new4 maj mino mc nc) k p = znth fzero (if majorb k then A else B) ((p - tonic k) mod 12).
Proof.
  intros maj mino mc nc A B k p Hm Hn HA HB Hk Hp.
  destruct (sel_length_new4 maj mino mc nc Hm Hn) as [L1 L2].
  destruct (new4_sel maj mino mc nc A B HA HB) as (S1 & S2 & _).
  rewrite emission_eq; try assumption.
  - rewrite mode_profile_key by exact Hk. now rewrite S1, S2.
  - rewrite mode_profile_key by exact Hk. destruct (majorb k); assumption.
Qed.
Lemma C06_shape_proof : forall kp, map fst (fst (get_profile_map kp)) = zseq 24 /\
  (forall k row, In (k, row) (fst (get_profile_map kp)) -> map fst row = zseq 12).
Proof.
  intros kp. rewrite profile_map_rows. split; [reflexivity|].
  intros k row H. apply in_map_iff in H. destruct H as (j & E & _). injection E as <- <-. reflexivity.
Qed.
Lemma row_of_perm arr k : length arr = 12%nat -> is_key k -> Permutation (map snd (row_of arr k)) arr.
Proof.
  intros Hl Hk. unfold is_key in Hk.
  assert (E : map snd (row_of arr k) = rotate (Z.to_nat (12 - Z.rem k 12)) arr).
  { unfold row_of. rewrite map_map. cbn [snd]. set (r := rotate _ arr).
    assert (Hr : length r = 12%nat) by (unfold r; now rewrite rotate_length).
    clearbody r. do 12 (destruct r as [|? r]; [discriminate|]). destruct r; [reflexivity|discriminate]. }
  rewrite E. apply rotate_permutation.
Qed.
Lemma C06_row_proof : forall maj mino mc nc A B k, length mc = 12%nat -> length nc = 12%nat ->
  chosen builtin_major maj mc = Some A -> chosen builtin_minor mino nc = Some B -> is_key k ->
  exists row, In (k, row) (fst (get_profile_map (keyprofile_new4 maj mino mc nc))) /\
              Permutation (map snd row) (if majorb k then A else B).
Proof.
  intros maj mino mc nc A B k Hm Hn HA HB Hk.
  destruct (sel_length_new4 maj mino mc nc Hm Hn) as [L1 L2].
  destruct (new4_sel maj mino mc nc A B HA HB) as (S1 & S2 & _). rewrite profile_map_rows.
  eexists. split.
  - apply in_map_iff. exists k. split; [reflexivity|]. apply zseq_In. exact Hk.
  - rewrite mode_profile_key, S1, S2 by exact Hk. apply row_of_perm; [|exact Hk]. destruct (majorb k); congruence.
Qed.
Lemma C06_transposition_proof : forall maj mino mc nc k p t, length mc = 12%nat -> length nc = 12%nat ->
  is_key k -> 0 <= p < 12 ->
  emission (keyprofile_new4 maj mino mc nc) (transpose_key t k) (transpose_pc t p) =
  emission (keyprofile_new4 maj mino mc nc) k p.
Proof.
  intros maj mino mc nc k p t Hm Hn Hk Hp. destruct (sel_length_new4 maj mino mc nc Hm Hn) as [L1 L2].
  assert (Ht : is_key (transpose_key t k)) by now apply transpose_key_range.
  assert (M : majorb (transpose_key t k) = majorb k).
  { unfold is_key, transpose_key, majorb, tonic in *. destruct (Z.ltb_spec k 12); lia. }
  rewrite !emission_eq; try assumption.
  - rewrite !mode_profile_key, M by assumption. f_equal. unfold transpose_pc, transpose_key, tonic, is_key, majorb in *.
    destruct (Z.ltb_spec k 12); lia.
  - rewrite mode_profile_key by exact Hk. now destruct (majorb k).
  - rewrite mode_profile_key by exact Ht. now destruct (majorb (transpose_key t k)).
  - unfold transpose_pc. apply Z.mod_pos_bound. lia.
Qed.

Lemma C07_unknown_proof : forall maj mino mc nc,
  chosen builtin_major maj mc = None \/ chosen builtin_minor mino nc = None ->
  which_major (keyprofile_new4 maj mino mc nc) = ""%string /\ which_minor (keyprofile_new4 maj mino mc nc) = ""%string /\
  forall k p, emission (keyprofile_new4 maj mino mc nc) k p = fzero.
Proof.
  intros maj mino mc nc H. destruct (new4_unknown maj mino mc nc H) as (W1 & W2 & S1 & S2 & _).
  split; [exact W1|]. split; [exact W2|]. intros k p. unfold emission, at2. rewrite profile_map_rows.
  set (kp := keyprofile_new4 maj mino mc nc) in *.
  assert (Z : forall j, mode_profile kp j = zero_profile) by (intros j; unfold mode_profile; now destruct (_ && _)).
  destruct (in_dec Z.eq_dec k (zseq 24)) as [Hin|Hin].
  - rewrite (assoc_map_fun _ Zeqb_spec' (fun k => row_of (mode_profile kp k) k)) by exact Hin. rewrite Z. unfold at1, row_of.
    destruct (in_dec Z.eq_dec p (zseq 12)) as [Hp|Hp].
    + rewrite (assoc_map_fun _ Zeqb_spec' (fun pc => znth fzero (rotate (Z.to_nat (12 - Z.rem k 12)) zero_profile) pc)) by exact Hp.
      assert (R : forall x, In x (rotate (Z.to_nat (12 - Z.rem k 12)) zero_profile) -> x = fzero).
      { intros x Hx. apply (Permutation_in _ (rotate_permutation _ _)) in Hx. now apply repeat_spec in Hx. }
      unfold znth. destruct (nth_in_or_default (Z.to_nat p) (rotate (Z.to_nat (12 - Z.rem k 12)) zero_profile) fzero) as [X|X]; [now apply R|exact X].
    + assert (assoc Z.eqb p (map (fun pc => (pc, znth fzero (rotate (Z.to_nat (12 - Z.rem k 12)) zero_profile) pc)) (zseq 12)) = None) as ->; [|reflexivity].
      apply (assoc_None _ Zeqb_spec'). rewrite map_map, map_id. exact Hp.
  - match goal with |- match ?t with _ => _ end = _ => assert (N : t = None) end.
    { apply (assoc_None _ Zeqb_spec'). rewrite map_map, map_id. exact Hin. }
    rewrite N. reflexivity.
Qed.
Lemma C07_known_proof : forall maj mino mc nc A B,
  chosen builtin_major maj mc = Some A -> chosen builtin_minor mino nc = Some B ->
  which_major (keyprofile_new4 maj mino mc nc) = maj /\ which_minor (keyprofile_new4 maj mino mc nc) = mino /\
  fst (get_major_profile (keyprofile_new4 maj mino mc nc)) = A /\ fst (get_minor_profile (keyprofile_new4 maj mino mc nc)) = B.
Proof.
  intros maj mino mc nc A B HA HB. destruct (new4_sel maj mino mc nc A B HA HB) as (S1 & S2 & W1 & W2).
  rewrite get_major_fst, get_minor_fst. repeat split; assumption.
Qed.

(** ** C08: call histories *)
Inductive read_call := ReadMajor | ReadMinor | ReadMap.
Definition do_read (c : read_call) (kp : keyprofile) : keyprofile :=
  match c with
  | ReadMajor => snd (get_major_profile kp)
  | ReadMinor => snd (get_minor_profile kp)
  | ReadMap => snd (get_profile_map kp)
  end.
Definition after_reads (cs : list read_call) (kp : keyprofile) : keyprofile := fold_left (fun kp c => do_read c kp) cs kp.

Lemma major_read_stored kp a : assoc String.eqb (kp_major_name kp) (kp_majors kp) = Some a -> snd (get_major_profile kp) = kp.
Proof. intros H. unfold get_major_profile. now rewrite H. Qed.
Lemma minor_read_stored kp a : assoc String.eqb (kp_minor_name kp) (kp_minors kp) = Some a -> snd (get_minor_profile kp) = kp.
Proof. intros H. unfold get_minor_profile. now rewrite H. Qed.
Lemma rows_read_stored ks kp a b : assoc String.eqb (kp_major_name kp) (kp_majors kp) = Some a ->
  assoc String.eqb (kp_minor_name kp) (kp_minors kp) = Some b -> snd (profile_rows ks kp) = kp.
Proof.
  intros Ha Hb. induction ks as [|k ks IH]; [reflexivity|]. cbn [profile_rows].
  pose proof (profile_row_snd kp k) as E. destruct (profile_row kp k) as [row kp1]. cbn [snd] in E.
  assert (kp1 = kp) as ->.
  { rewrite E. destruct (_ && _); [now apply (major_read_stored kp a)|now apply (minor_read_stored kp b)]. }
  destruct (profile_rows ks kp) as [rows kp2]. exact IH.
Qed.
Lemma C08_stable_proof : forall maj mino mc nc A B cs,
  chosen builtin_major maj mc = Some A -> chosen builtin_minor mino nc = Some B ->
  after_reads cs (keyprofile_new4 maj mino mc nc) = keyprofile_new4 maj mino mc nc.
Proof.
  intros maj mino mc nc A B cs HA HB. rewrite new4_cases, HA, HB.
  set (kp := mkKp _ _ _ _).
  assert (Ea : assoc String.eqb (kp_major_name kp) (kp_majors kp) = Some A) by (unfold kp; cbn [kp_major_name kp_minor_name kp_majors kp_minors]; now rewrite assoc_custom).
  assert (Eb : assoc String.eqb (kp_minor_name kp) (kp_minors kp) = Some B) by (unfold kp; cbn [kp_major_name kp_minor_name kp_majors kp_minors]; now rewrite assoc_custom).
  clearbody kp. induction cs as [|c cs IH]; [reflexivity|]. unfold after_reads. cbn [fold_left].
  assert (do_read c kp = kp) as ->; [|exact IH].
  destruct c; cbn [do_read]; [now apply (major_read_stored kp A)|now apply (minor_read_stored kp B)|now apply (rows_read_stored _ kp A B)].
Qed.

(** General shape of the object after any reads: only the selected (possibly empty) name can become stored. *)
Definition reads_major (c : read_call) : bool := match c with ReadMajor | ReadMap => true | ReadMinor => false end.
Definition reads_minor (c : read_call) : bool := match c with ReadMinor | ReadMap => true | ReadMajor => false end.

Lemma assoc_assign_valid n m a (t : list (string * list b64)) :
  (match assoc String.eqb n (assign String.eqb m a t) with Some _ => true | None => false end) =
  (match assoc String.eqb n t with Some _ => true | None => false end) || String.eqb n m.
Proof.
  destruct (String.eqb_spec n m) as [->|H].
  - rewrite (assoc_assign_same _ Seqb_spec'). now rewrite orb_true_r.
  - rewrite (assoc_assign_other _ Seqb_spec') by exact H. now rewrite orb_false_r.
Qed.
Definition same_names (a b : keyprofile) : Prop := kp_major_name a = kp_major_name b /\ kp_minor_name a = kp_minor_name b.
Lemma get_major_valid kp n : same_names (snd (get_major_profile kp)) kp /\
  is_valid_major (snd (get_major_profile kp)) n = is_valid_major kp n || String.eqb n (kp_major_name kp) /\
  is_valid_minor (snd (get_major_profile kp)) n = is_valid_minor kp n.
Proof.
  unfold same_names, get_major_profile, is_valid_major, is_valid_minor.
  destruct (assoc String.eqb (kp_major_name kp) (kp_majors kp)) as [a|] eqn:E; cbn [snd kp_majors kp_minors kp_major_name kp_minor_name].
  - repeat split. destruct (String.eqb_spec n (kp_major_name kp)) as [->|H]; [now rewrite E|now rewrite orb_false_r].
  - repeat split. apply assoc_assign_valid.
Qed.
Lemma get_minor_valid kp n : same_names (snd (get_minor_profile kp)) kp /\
  is_valid_minor (snd (get_minor_profile kp)) n = is_valid_minor kp n || String.eqb n (kp_minor_name kp) /\
  is_valid_major (snd (get_minor_profile kp)) n = is_valid_major kp n.
Proof.
  unfold same_names, get_minor_profile, is_valid_major, is_valid_minor.
  destruct (assoc String.eqb (kp_minor_name kp) (kp_minors kp)) as [a|] eqn:E; cbn [snd kp_majors kp_minors kp_major_name kp_minor_name].
  - repeat split. destruct (String.eqb_spec n (kp_minor_name kp)) as [->|H]; [now rewrite E|now rewrite orb_false_r].
  - repeat split. apply assoc_assign_valid.
Qed.
Lemma orb_absorb a b : (a || b) || b = a || b. Proof. now destruct a, b. Qed.
Definition major_key (k : Z) : bool := (0 <=? k) && (k <=? 11).
Lemma rows_valid ks kp n : same_names (snd (profile_rows ks kp)) kp /\
  is_valid_major (snd (profile_rows ks kp)) n = is_valid_major kp n || (existsb major_key ks && String.eqb n (kp_major_name kp)) /\
  is_valid_minor (snd (profile_rows ks kp)) n = is_valid_minor kp n || (existsb (fun k => negb (major_key k)) ks && String.eqb n (kp_minor_name kp)).
Proof.
  revert kp. induction ks as [|k ks IH]; intros kp.
  - cbn. rewrite !orb_false_r. repeat split.
  - cbn [profile_rows existsb]. pose proof (profile_row_snd kp k) as E. destruct (profile_row kp k) as [row kp1]. cbn [snd] in E.
    specialize (IH kp1). destruct (profile_rows ks kp1) as [rows kp2]. cbn [snd] in *.
    destruct IH as ([N1 N2] & V1 & V2). fold (major_key k) in E.
    destruct (major_key k) eqn:M.
    + destruct (get_major_valid kp n) as ([M1 M2] & W1 & W2). rewrite <- E in *. unfold same_names.
      rewrite V1, V2, W1, W2, M1, M2, N1, N2, M1, M2. repeat split. cbn [orb].
      now destruct (is_valid_major kp n), (String.eqb n (kp_major_name kp)), (existsb major_key ks).
    + destruct (get_minor_valid kp n) as ([M1 M2] & W1 & W2). rewrite <- E in *. unfold same_names.
      rewrite V1, V2, W1, W2, M1, M2, N1, N2, M1, M2. repeat split. cbn [orb negb].
      now destruct (is_valid_minor kp n), (String.eqb n (kp_minor_name kp)), (existsb (fun k => negb (major_key k)) ks).
Qed.
Lemma do_read_valid c kp n : same_names (do_read c kp) kp /\
  is_valid_major (do_read c kp) n = is_valid_major kp n || (reads_major c && String.eqb n (kp_major_name kp)) /\
  is_valid_minor (do_read c kp) n = is_valid_minor kp n || (reads_minor c && String.eqb n (kp_minor_name kp)).
Proof.
  destruct c; cbn [do_read reads_major reads_minor andb].
  - destruct (get_major_valid kp n) as (A & B & C). rewrite B, C, orb_false_r. repeat split; apply A.
  - destruct (get_minor_valid kp n) as (A & B & C). rewrite B, C, orb_false_r. repeat split; apply A.
  - exact (rows_valid (zseq 24) kp n).
Qed.
Lemma after_reads_valid cs kp n : 
  is_valid_major (after_reads cs kp) n = is_valid_major kp n || (existsb reads_major cs && String.eqb n (kp_major_name kp)) /\
  is_valid_minor (after_reads cs kp) n = is_valid_minor kp n || (existsb reads_minor cs && String.eqb n (kp_minor_name kp)).
Proof.
  revert kp. induction cs as [|c cs IH]; intros kp; cbn [existsb after_reads fold_left].
  - now rewrite !orb_false_r.
  - destruct (do_read_valid c kp n) as ([N1 N2] & V1 & V2). specialize (IH (do_read c kp)). destruct IH as [I1 I2].
    unfold after_reads in I1, I2. rewrite I1, I2, V1, V2, N1, N2. split.
    + now destruct (is_valid_major kp n), (reads_major c), (existsb reads_major cs), (String.eqb n (kp_major_name kp)).
    + now destruct (is_valid_minor kp n), (reads_minor c), (existsb reads_minor cs), (String.eqb n (kp_minor_name kp)).
Qed.
Lemma C08_unknown_proof : forall maj mino mc nc cs n,
  chosen builtin_major maj mc = None \/ chosen builtin_minor mino nc = None ->
  let kp := keyprofile_new4 maj mino mc nc in
  is_valid_major kp "" = false /\ is_valid_minor kp "" = false /\
  is_valid_major (after_reads cs kp) n = is_valid_major kp n || (existsb reads_major cs && String.eqb n "") /\
  is_valid_minor (after_reads cs kp) n = is_valid_minor kp n || (existsb reads_minor cs && String.eqb n "").
Proof.
  intros maj mino mc nc cs n H kp. destruct (new4_unknown maj mino mc nc H) as (W1 & W2 & _ & _ & V1 & V2).
  split; [exact V1|]. split; [exact V2|]. pose proof (after_reads_valid cs kp n) as X.
  unfold which_major in W1. unfold which_minor in W2. fold kp in W1, W2. rewrite W1, W2 in X. exact X.
Qed.
Lemma C08_refuted_proof : exists maj mino cs n,
  is_valid_major (after_reads cs (keyprofile_new2 maj mino)) n <> is_valid_major (keyprofile_new2 maj mino) n.
Proof.
  exists "unheard_of"%string, "sapp"%string, [ReadMap], ""%string.
  assert (H : chosen builtin_major "unheard_of" zero_profile = None \/ chosen builtin_minor "sapp" zero_profile = None) by (left; reflexivity).
  destruct (C08_unknown_proof _ _ _ _ [ReadMap] ""%string H) as (A & _ & B & _). cbv zeta in *.
  unfold keyprofile_new2. rewrite B, A. discriminate.
Qed.
