(** Concrete cases of reading and printing numbers and of chromagram dumps. *)
From Coq Require Import Lia Ascii Reals Lra Sorted.
From Flocq Require Import Core.Core IEEE754.BinarySingleNaN.
From Verif Require Import Base BaseFacts Fp FpFacts Key PitchClass Text Options Output Chromagram MusicSpec TextSpec TextFacts NumberFacts ReadFacts FormatFacts
  ChromaSpec ChromaFacts ChromaCases PrintSpec PrintFacts PrintUnique DumpFacts DumpMain TextMain.
From Coq Require Import ZifyBool ZifyNat.
Open Scope Z_scope.

Lemma readers_differ : ~ (forall s, (exists x, stof s = Ret x) <-> (exists x r, extract_double s = Some (x, r))).
Proof.
  intros H. destruct (H "inf"%string) as (A & _). destruct A as (x & r & E).
  - exists (B754_infinity false). vm_compute. reflexivity.
  - vm_compute in E. discriminate.
Qed.
Lemma reading_cases : token_value "0.1kHz" (f32_to_64 (rat32 1 10)) /\ stof "1e39" = Throws StdOutOfRange /\ stof " abc" = Throws StdInvalidArgument /\
  ~ begins_hexadecimal "0.1kHz" /\ (exists x, stof "0x1p-1" = Ret x /\ B2R x = (1 / 2)%R) /\
  (exists x, extract_double " 2.5e1,3" = Some (x, ",3"%string) /\ B2R x = 25%R).
Proof.
  assert (NH : ~ begins_hexadecimal "0.1kHz").
  { intros (ws & m & t & E & W & (x & u & T & X & _)). subst t. destruct ws as [|c ws].
    - destruct m; cbn in E; try discriminate. injection E as <- _. destruct X; discriminate.
    - cbn in E. injection E as <- E. unfold spaces in W. cbn in W. apply Forall_cons_iff in W. destruct W as (W & _). cbn in W. intuition discriminate. }
  split; [|split; [vm_compute; reflexivity|split; [vm_compute; reflexivity|split; [exact NH|split]]]].
  - apply C43_stof_proof; [exact NH|]. exists (rat32 1 10). split; [|reflexivity]. assert (E : exists x, stof "0.1kHz" = Ret x /\ x = rat32 1 10).
    { unfold stof. destruct (scan "0.1kHz") as [(v, r)|] eqn:S; [|vm_compute in S; discriminate]. assert (v = Finite false 1 10 (-1)) as -> by (vm_compute in S; congruence).
      replace (erange32 (Finite false 1 10 (-1))) with false by (vm_compute; reflexivity). eexists. split; [reflexivity|]. reflexivity. }
    destruct E as (x & E & ->). exact E.
  - assert (C : match stof "0x1p-1" with Ret x => is_finite x && is_exactly x 1 2 | _ => false end = true) by (vm_compute; reflexivity).
    destruct (stof "0x1p-1") as [x| |]; try discriminate. apply andb_prop in C. destruct C as (F & C). exists x. split; [reflexivity|]. now apply is_exactly_spec in C.
  - assert (C : match extract_double " 2.5e1,3" with Some (x, r) => is_finite x && is_exactly x 25 1 && (r =? ",3")%string | None => false end = true) by (vm_compute; reflexivity).
    destruct (extract_double " 2.5e1,3") as [(x, r)|]; try discriminate. rewrite !andb_true_iff in C. destruct C as ((F & C) & R). apply String.eqb_eq in R. subst r. exists x. split; [reflexivity|].
    apply is_exactly_spec in C; [|exact F]. rewrite C. lra.
Qed.
Lemma prints_collide : ~ (forall x y, is_finite x = true -> is_finite y = true -> format_g x = format_g y -> x = y).
Proof.
  intros H. assert (E : rat64 1 3 = rat64 10000001 30000000).
  { apply H; vm_compute; reflexivity. }
  apply (f_equal B2SF) in E. vm_compute in E. discriminate.
Qed.
Definition tiny_csv : string := "0,1.17549435e-38".
Lemma dump_unreadable : ~ (forall content c, chromagram_csv (Some content) = Ret c -> exists c', chromagram_csv (Some (print_original true c)) = Ret c').
Proof.
  assert (X : match chromagram_csv (Some tiny_csv) with Ret c => match chromagram_csv (Some (print_original true c)) with Throws StdOutOfRange => true | _ => false end | _ => false end = true) by (vm_compute; reflexivity).
  intros H. specialize (H tiny_csv). destruct (chromagram_csv (Some tiny_csv)) as [c| |]; [|discriminate X..]. destruct (H c eq_refl) as (c' & E'). rewrite E' in X. discriminate X.
Qed.
(** The value of C at time 0 is a float just below 3. *)
Definition near_csv : string := ("0,0,0,0,2.9999998" ++ String "010" ("1,1" ++ String "010" ""))%string.
Definition note_count (o : outcome (list pitchclass)) : Z := match o with Ret l => Z.of_nat (length l) | _ => -1 end.
Lemma dump_changes_notes :
  ~ (forall past content c c', chromagram_csv (Some content) = Ret c -> chromagram_csv (Some (print_original true c)) = Ret c' -> get_sequence past c' = get_sequence past c).
Proof.
  assert (X : match chromagram_csv (Some near_csv) with Ret c => match chromagram_csv (Some (print_original true c)) with
    | Ret c' => note_count (get_sequence (Some zero_vector) c') =? note_count (get_sequence (Some zero_vector) c) | _ => true end | _ => true end = false) by (vm_compute; reflexivity).
  intros H. specialize (H (Some zero_vector) near_csv). destruct (chromagram_csv (Some near_csv)) as [c| |]; [|discriminate X..].
  destruct (chromagram_csv (Some (print_original true c))) as [c'| |] eqn:E'; [|discriminate X..]. rewrite (H c c' eq_refl E'), Z.eqb_refl in X. discriminate X.
Qed.
Definition close_csv : string := ("1000.01,1" ++ String "010" ("1000.012,2" ++ String "010" ""))%string.
Lemma dump_merges_frames :
  ~ (forall content c c', chromagram_csv (Some content) = Ret c -> chromagram_csv (Some (print_original true c)) = Ret c' -> length (ch_original c') = length (ch_original c)).
Proof.
  assert (X : match chromagram_csv (Some close_csv) with Ret c => match chromagram_csv (Some (print_original true c)) with
    | Ret c' => Nat.eqb (length (ch_original c')) (length (ch_original c)) | _ => true end | _ => true end = false) by (vm_compute; reflexivity).
  intros H. specialize (H close_csv). destruct (chromagram_csv (Some close_csv)) as [c| |]; [|discriminate X..].
  destruct (chromagram_csv (Some (print_original true c))) as [c'| |] eqn:E'; [|discriminate X..]. rewrite (H c c' eq_refl E'), Nat.eqb_refl in X. discriminate X.
Qed.
Definition demo_frames : list (dbl * list dbl) :=
  [ (fzero, [fzero; rat64 1 1; rat64 2 1; rat64 3 1; rat64 4 1; rat64 5 1; rat64 6 1; rat64 7 1; rat64 8 1; rat64 19 2; rat64 10 1; rat64 11 1]);
    (rat64 1 3, [rat64 2 3; fzero; fzero; fzero; rat64 12000000 1; fzero; fzero; fzero; fzero; fzero; fzero; fzero]) ].
Definition demo_dump : string := print_original true (mkChromagram CHROMAGRAM_DISCRETE_READY demo_frames []).
Definition safe_check (x : b64) : bool :=
  match x with
  | B754_finite _ m e _ => (-125 <=? e) && (Zpos m <? 2 ^ 53) && (e <=? 70) || ((-177 <=? e) && (2 ^ 52 <=? Zpos m) && (Zpos m <? 2 ^ 53) && (e <=? 70))
  | _ => true
  end.
Lemma safe_checked x : safe_check x = true -> safe x.
Proof.
  intros H F. destruct x as [s|s| |s m e B]; try discriminate; [now left|right]. unfold safe_check in H.
  assert (M : 1 <= Zpos m) by lia. assert (U : Zpos m < 2 ^ 53 /\ e <= 70) by lia. destruct U as (U1 & U2).
  unfold B2R. rewrite <- F2R_Zabs. assert (A : Z.abs (cond_Zopp s (Zpos m)) = Zpos m) by (destruct s; reflexivity). rewrite A. clear A. unfold F2R. cbn [Fnum Fexp]. split.
  - rewrite orb_true_iff in H. destruct H as [H|H].
    + apply Rle_trans with (bpow radix2 e); [apply bpow_le; lia|]. pose proof (bpow_gt_0 radix2 e). apply IZR_le in M. nra.
    + replace (bpow radix2 (-125)) with (IZR (2 ^ 52) * bpow radix2 (-177))%R.
      * assert (L : 2 ^ 52 <= Zpos m) by lia. apply IZR_le in L. apply Rmult_le_compat; [apply IZR_le; lia|apply bpow_ge_0|exact L|apply bpow_le; lia].
      * rewrite (IZR_Zpower radix2) by lia. rewrite <- bpow_plus. reflexivity.
  - apply Rle_trans with (bpow radix2 123).
    + replace (bpow radix2 123) with (IZR (2 ^ 53) * bpow radix2 70)%R by (rewrite (IZR_Zpower radix2) by lia; rewrite <- bpow_plus; reflexivity).
      apply Rmult_le_compat; [apply IZR_le; lia|apply bpow_ge_0|apply IZR_le; lia|apply bpow_le; lia].
    + unfold max_float. apply Rle_trans with (IZR (2 ^ 19) * bpow radix2 104)%R; [rewrite (IZR_Zpower radix2) by lia; rewrite <- bpow_plus; apply Rle_refl|].
      apply Rmult_le_compat_r; [apply bpow_ge_0|]. apply IZR_le. lia.
Qed.
Lemma safes_checked l : forallb safe_check l = true -> Forall safe l.
Proof. rewrite forallb_forall. intros H. apply Forall_forall. intros x X. now apply safe_checked, H. Qed.
Lemma demo_dump_case : frames demo_frames /\ all_safe demo_frames /\ times_differ demo_frames /\ dump_text demo_frames demo_dump /\
  demo_dump = ("0,9.5,10,11,0,1,2,3,4,5,6,7,8" ++ String "010" ("0.333333,0,0,0,0.666667,0,0,0,1.2e+07,0,0,0,0" ++ String "010" ""))%string.
Proof.
  split; [|split; [|split; [|split]]].
  - split.
    + constructor; [constructor; [constructor|constructor]|]. constructor; [|constructor]. vm_compute. reflexivity.
    + repeat constructor.
    + repeat constructor.
  - constructor; [|constructor; [|constructor]]; (split; [apply safe_checked|apply safes_checked]; vm_compute; reflexivity).
  - constructor; [|constructor; [constructor|constructor]]. constructor; [|constructor]. intros s A B. apply in_print_iff in A, B. subst s. vm_compute in B. discriminate.
  - apply (print_original_dump (mkChromagram CHROMAGRAM_DISCRETE_READY demo_frames [])); [reflexivity|repeat constructor].
  - vm_compute. reflexivity.
Qed.
