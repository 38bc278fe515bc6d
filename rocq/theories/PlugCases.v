(** Concrete cases for the chroma plug-in, and the property proofs that need some assembly. *)
From Coq Require Import Reals Lra Lia String.
From Flocq Require Import Core.Core IEEE754.BinarySingleNaN.
From Verif Require Import Base BaseFacts Fp Options Chromagram ChromaFacts FpFacts FloatKit Nnls NnlsArith NnlsFacts NnlsSafe NnlsSingle NnlsSums NnlsSpec NnlsMain NnlsEnds Plug PlugSpec PlugFacts PlugNum PlugSafe PlugFrame PlugChroma PlugMain PlugClean PlugTuning PlugNan PlugNotes PlugNorm.
Open Scope Z_scope.

(** ** Property proofs *)
Section Machine.
  Context (atan2 powf : b32 -> b32 -> b32) (ATAN : atan2_law atan2) (POW : forall s w, gt32 s z32 = true -> Bsign (powf s w) = false) {stamp : Type}.
  Implicit Types (c : setup).
  Notation long c frames := (Forall (fun f : stamp * list b32 => s_block c <= Z.of_nat (length (snd f))) frames).
  Lemma C72_cases_proof c (frames : list (stamp * list b32)) : ready c -> long c frames ->
    (exists o, analyse atan2 powf c frames = Ret o /\ map fst (o_tuned o) = map fst frames /\ stamped 256 (map fst frames) (o_tuned o) /\ stamped 84 (map fst frames) (o_notes o) /\ stamped 12 (map fst frames) (o_treble o) /\ stamped 12 (map fst frames) (o_bass o) /\ stamped 24 (map fst frames) (o_both o)) \/
    analyse atan2 powf c frames = Undef FloatCast.
  Proof.
    intros R F. destruct (analyse_cases atan2 powf ATAN POW c frames R F) as (p & _ & _ & _ & T1 & T2). assert (D : in_tune atan2 c p \/ ~ in_tune atan2 c p) by apply Classical_Prop.classic. destruct D as [D|D]; [left|right; now apply T2].
    destruct (T1 D) as (o & E & G1 & G2 & G3 & G4 & G5 & G6 & _). exists o. split; [exact E|]. split; [exact G1|]. split; [split; [exact G1|]; apply Forall_impl with (2 := G2); intros tf (L & _); unfold nNote in L; lia|]. now repeat (split; [assumption|]).
  Qed.
  Lemma C72_clean_proof c (frames : list (stamp * list b32)) : ready c -> moderate c -> long c frames -> Forall (fun f => Forall (fun v => is_nan v = false) (snd f)) frames -> Z.of_nat (length frames) < 2 ^ 18 -> exists o, analyse atan2 powf c frames = Ret o.
  Proof.
    intros R M F C N. destruct (analyse_cases atan2 powf ATAN POW c frames R F) as (p & E & _ & _ & T1 & _). destruct T1 as (o & Eo & _); [|now exists o]. apply clean_in_tune with (3 := M) (6 := E); [exact ATAN|exact R| |exact N].
    rewrite Forall_forall in *. intros f X. split; [now apply F|now apply C].
  Qed.
  Lemma C72_nan_proof c (before after : list (stamp * list b32)) t fbuf fft note v k : ready c -> s_block c <= 2 ^ 24 -> long c (before ++ (t, fbuf) :: after) -> In (fft, note, v) (s_kernel c) -> note < 162 -> znth z32 fbuf (2 * fft) = B754_nan \/ znth z32 fbuf (2 * fft + 1) = B754_nan ->
    0 <= k < s_block c / 2 -> Bleb (rat32 2 1) (znth z32 fbuf (2 * k)) = true -> is_nan (znth z32 fbuf (2 * k + 1)) = false -> analyse atan2 powf c (before ++ (t, fbuf) :: after) = Undef FloatCast.
  Proof.
    intros R B F K N Q Hk L1 L2. destruct (analyse_cases atan2 powf ATAN POW c _ R F) as (p & E & _ & _ & _ & T2). apply T2. assert (K0 := rd_kernel c R). rewrite Forall_forall in K0. destruct (K0 _ K) as (K1 & K2 & _). assert (M3 := Z.mod_pos_bound note 3 ltac:(lia)).
    apply (spoiled_run atan2 ATAN c before t fbuf after p (note mod 3) R F M3); [|exact E]. exists fft, note, v, k. split; [exact K|]. split; [lia|]. split; [reflexivity|]. split; [exact Q|]. split; [exact Hk|].
    assert (2 <= s_block c) by (destruct (Z_lt_ge_dec (s_block c) 2) as [X|X]; [|lia]; assert (R1 := rd_block c R); assert (s_block c / 2 <= 0) by (apply Z.lt_succ_r, Z.div_lt_upper_bound; lia); lia). apply magnitude_loud; [lia|exact L1|exact L2].
  Qed.
  Lemma C73_proof c (frames : list (stamp * list b32)) o : ready c -> long c frames -> analyse atan2 powf c frames = Ret o -> Forall (fun tf => Forall not_negative (snd tf)) (o_tuned o) /\ o_errors o = 0.
  Proof. intros R F E. destruct (analyse_frames atan2 powf ATAN POW c frames o R F E) as ((_ & G & _ & _ & _ & _ & G7) & _). split; [|exact G7]. apply Forall_impl with (2 := G). now intros tf (_ & X). Qed.
  Lemma strong_energy f2 k : strong (A := single) f2 k = has_energy f2 k.
  Proof. unfold strong, band3, has_energy. cbn [gtb add zero single]. cbv zeta. replace (3 + 3 * k - 1) with (3 * k + 2) by lia. replace (3 + 3 * k + 1) with (3 * k + 4) by lia. replace (3 + 3 * k) with (3 * k + 3) by lia. reflexivity. Qed.
  Lemma C74_notes_proof c (frames : list (stamp * list b32)) o : ready c -> long c frames -> analyse atan2 powf c frames = Ret o ->
    Forall2 (fun tf tn => fst tn = fst tf /\ length (snd tn) = 84%nat /\
      (Forall (fun v => gt32 v z32 = false) (snd tf) -> snd tn = repeat z32 84) /\
      (Exists (fun v => gt32 v z32 = true) (snd tf) -> Beqb (s_useNNLS c) z32 = true -> snd tn = map (fun k => smoothed (snd tf) (3 * k + 3)) (zrange 0 83)) /\
      (Exists (fun v => gt32 v z32 = true) (snd tf) -> Beqb (s_useNNLS c) z32 = false -> forall k, 0 <= k < 84 -> has_energy (snd tf) k = false -> znth z32 (snd tn) k = z32)) (o_tuned o) (o_notes o).
  Proof.
    intros R F E. destruct (analyse_frames atan2 powf ATAN POW c frames o R F E) as ((_ & G & _) & parts & _ & -> & _). assert (D := rd_dict c R). clear - G D. induction G as [|tf l (L & _) G IH]; [constructor|]. cbn [map]. constructor; [|exact IH]. cbn [fst snd]. split; [reflexivity|].
    split; [apply (notes_of_frame _ _ _ L D)|]. split; [intros S; now apply notes_of_silent|]. split.
    - intros S U. rewrite (notes_of_plain _ _ _ L S U). apply map_ext_in. intros k K. unfold smoothed, smooth3. cbn [fold_left]. change (weight (-1)) with (rat64 1 2). change (weight 0) with (rat64 1 1). change (weight 1) with (rat64 1 2). replace (3 + 3 * k) with (3 * k + 3) by lia. reflexivity.
    - intros S U k K H. destruct (notes_of_nnls _ _ _ k L D S U K) as (val & _ & -> & V). apply V. now rewrite strong_energy.
  Qed.
End Machine.
Lemma C74_windows_proof : (forall k, 0 <= k < 84 -> is_finite (znth z32 treblewindow k) = true /\ is_finite (znth z32 basswindow k) = true /\ not_negative (znth z32 treblewindow k) /\ not_negative (znth z32 basswindow k) /\ Bltb one32 (znth z32 treblewindow k) = false /\ Bltb one32 (znth z32 basswindow k) = false) /\
  (forall k, 0 <= k < 84 -> znth z32 treblewindow k = znth z32 treblewindow (83 - k)) /\ (forall k, 37 <= k < 84 -> znth z32 basswindow k = z32).
Proof.
  split; [|split].
  - assert (Q : forallb (fun k => let t := znth z32 treblewindow k in let b := znth z32 basswindow k in is_finite t && is_finite b && negb (Bltb t z32) && negb (Bltb b z32) && negb (Bltb one32 t) && negb (Bltb one32 b)) (zrange 0 83) = true) by (vm_compute; reflexivity).
    rewrite forallb_forall in Q. intros k K. specialize (Q k ltac:(apply zrange_In; lia)). cbv zeta in Q. repeat (apply andb_prop in Q as (Q & ?)). repeat match goal with H : negb _ = true |- _ => apply negb_true_iff in H end. now repeat split.
  - assert (Q : Forall (fun k => znth z32 treblewindow k = znth z32 treblewindow (83 - k)) (zrange 0 83)) by (change (zrange 0 83) with (map Z.of_nat (seq 0 84)); cbn [seq map]; repeat constructor).
    rewrite Forall_forall in Q. intros k K. apply Q. apply zrange_In. lia.
  - assert (Q : Forall (fun k => znth z32 basswindow k = z32) (zrange 37 83)) by (change (zrange 37 83) with (map Z.of_nat (seq 37 47)); cbn [seq map]; repeat constructor).
    rewrite Forall_forall in Q. intros k K. apply Q. apply zrange_In. lia.
Qed.
Lemma C75_best_proof (dict b : list R) : length b = 256%nat -> Z.of_nat (length dict) = 256 * 84 ->
  exists l val r, transcribe (A := exact) dict b = Ret (map (fun k => (k, val k)) l) /\ NoDup l /\ (forall k, In k l <-> 0 <= k < 84 /\ (0 < znth 0 b (3 * k + 2) + znth 0 b (3 * k + 3) + znth 0 b (3 * k + 4))%R) /\ (forall k, 0 <= val k)%R /\ called (A := exact) dict b = Some (Ret r) /\
    (r_mode r = 1 -> forall other, (forall k, 0 <= other k)%R -> (distance dict b l val <= distance dict b l other)%R).
Proof.
  intros L D. assert (L' : Z.of_nat (length b) = nNote) by (unfold nNote; lia). destruct (transcribe_best dict b L' D) as (val & r & T & E & P & B). exists (heard (A := exact) b), val, r. split; [exact T|]. split; [apply heard_NoDup|]. split; [|split; [exact P|split; [exact E|exact B]]].
  intros k. rewrite heard_In. unfold strong, band3. cbn [gtb add zero exact]. replace (3 + 3 * k - 1) with (3 * k + 2) by lia. replace (3 + 3 * k + 1) with (3 * k + 4) by lia. replace (3 + 3 * k) with (3 * k + 3) by lia.
  set (x := (znth 0 b (3 * k + 2) + znth 0 b (3 * k + 3) + znth 0 b (3 * k + 4))%R). match goal with |- context [Rlt_dec 0 ?e] => assert (X : e = x) by (change (0 + znth 0 b (3 * k + 2) + znth 0 b (3 * k + 3) + znth 0 b (3 * k + 4) = x)%R; unfold x; ring) end. rewrite X.
  destruct (Rlt_dec 0 x) as [Q|Q]; split; intros (K & H); (split; [lia|]); (assumption || reflexivity || discriminate H || contradiction).
Qed.

(** ** A small setup *)
Definition sample_atan2 (y x : b32) : b32 := if is_nan y || is_nan x then B754_nan else z32.
Definition sample_pow (_ _ : b32) : b32 := one32.
Lemma sample_atan2_law : atan2_law sample_atan2.
Proof. intros y x. unfold sample_atan2. split; [intros (-> & ->); split; [reflexivity|]; cbn; rewrite Rabs_R0; lra|intros [-> | ->]; [reflexivity|]; now destruct (is_nan y)]. Qed.
Lemma sample_pow_law : forall s w, gt32 s z32 = true -> Bsign (sample_pow s w) = false. Proof. reflexivity. Qed.
(** Four bins; bin 1 belongs to note 60 and bin 2 to note 61, of 256 notes; so both are in semitone 19. *)
Definition sample_setup (useNNLS : b32) : setup :=
  mkSetup (repeat one32 (Z.to_nat (nNote * 84))) [(1, 60, one32); (2, 61, one32)] [rat32 1 4; rat32 1 2; rat32 1 4] [z32; rat32 7 8; rat32 (-7) 8] [one32; rat32 (-1) 2; rat32 (-1) 2] 8 one32 useNNLS false z32 z32.
Lemma sample_ready u : ready (sample_setup u).
Proof.
  split; cbn [sample_setup s_dict s_kernel s_hw s_sin s_cos s_block s_normalize].
  - rewrite repeat_length, Z2Nat.id; unfold nNote; lia.
  - unfold nNote. repeat (constructor; [split; [split; [discriminate|reflexivity]|]; split; [split; [discriminate|reflexivity]|reflexivity]|]). constructor.
  - exists 1. cbn. lia.
  - reflexivity.
  - reflexivity.
  - lia.
  - intros H. discriminate H.
Qed.
Lemma sample_moderate u : moderate (sample_setup u).
Proof.
  split; cbn [sample_setup s_kernel s_sin s_cos s_block]; [lia| | |].
  - assert (U : upto (p2 60) one32) by (destruct (rat32_int 1 ltac:(lia)) as (A & B); split; [exact A|]; unfold one32; rewrite B; split; [lra|]; change 1%R with (bpow radix2 0); apply bpow_le; lia).
    split; [|cbn; lia]. unfold nNote. repeat (constructor; [split; [split; [discriminate|reflexivity]|]; split; [split; [discriminate|reflexivity]|exact U]|]). constructor.
  - assert (A : forall x s m, B2SF x = SpecFloat.S754_finite s m (-24) -> (Zpos m <= 2 ^ 24)%Z -> below x 1).
    { intros x s m E L. destruct (computed x s m (-24) E) as (F & V). split; [exact F|]. rewrite V, Rabs_mult, (Rabs_pos_eq (bpow _ _)) by apply bpow_ge_0. rewrite <- abs_IZR. replace (Z.abs (cond_Zopp s (Z.pos m))) with (Z.pos m) by now destruct s.
      apply Rle_trans with (IZR (2 ^ 24) * bpow radix2 (-24))%R; [apply Rmult_le_compat_r; [apply bpow_ge_0|now apply IZR_le]|]. change (IZR (2 ^ 24)) with (bpow radix2 24). rewrite <- bpow_plus. cbn. lra. }
    constructor; [split; [reflexivity|]; cbn; rewrite Rabs_R0; lra|]. constructor; [refine (A _ false 14680064%positive _ _); [vm_compute; reflexivity|lia]|]. constructor; [refine (A _ true 14680064%positive _ _); [vm_compute; reflexivity|lia]|constructor].
  - assert (A : forall x s m k, B2SF x = SpecFloat.S754_finite s m k -> (Zpos m <= 2 ^ 24)%Z -> (k <= -24)%Z -> below x 1).
    { intros x s m k E L K. destruct (computed x s m k E) as (F & V). split; [exact F|]. rewrite V, Rabs_mult, (Rabs_pos_eq (bpow _ _)) by apply bpow_ge_0. rewrite <- abs_IZR. replace (Z.abs (cond_Zopp s (Z.pos m))) with (Z.pos m) by now destruct s.
      apply Rle_trans with (IZR (2 ^ 24) * bpow radix2 (-24))%R; [apply Rmult_le_compat; [apply IZR_le; lia|apply bpow_ge_0|now apply IZR_le|now apply bpow_le]|]. change (IZR (2 ^ 24)) with (bpow radix2 24). rewrite <- bpow_plus. cbn. lra. }
    constructor; [destruct (rat32_int 1 ltac:(lia)) as (F & V); split; [exact F|]; unfold one32; rewrite V; rewrite Rabs_pos_eq; lra|].
    constructor; [refine (A _ true 8388608%positive (-24) _ _ _); [vm_compute; reflexivity|lia|lia]|]. constructor; [refine (A _ true 8388608%positive (-24) _ _ _); [vm_compute; reflexivity|lia|lia]|constructor].
Qed.
(** A frame with magnitudes 0, 3, 4 and 0. *)
Definition sample_frame : list b32 := [z32; z32; rat32 3 1; z32; z32; rat32 4 1; z32; z32].
Definition shown_run (o : outcome (@outputs string)) : option (list (string * list (Z * SpecFloat.spec_float)) * list (string * list SpecFloat.spec_float) * Z) :=
  match o with
  | Ret o => Some (map (fun tn => (fst tn, filter (fun x => negb (match snd x with SpecFloat.S754_zero _ => true | _ => false end)) (combine (zrange 0 83) (map B2SF (snd tn))))) (o_notes o), map (fun tn => (fst tn, map B2SF (snd tn))) (o_bass o), o_errors o)
  | _ => None
  end.
