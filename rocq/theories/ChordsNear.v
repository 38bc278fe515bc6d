(** The chords that the plug-in names follow a path that is nearly a most probable one. *)
From Coq Require Import String Reals Lra Lia.
From Flocq Require Import Core.Core IEEE754.BinarySingleNaN.
From Verif Require Import Base BaseFacts Fp Options Chromagram ChromaFacts FpFacts NumFacts HmmAccuracy FloatKit StlFacts Nnls NnlsArith NnlsFacts NnlsViterbiFacts Plug PlugSpec PlugFacts PlugNum PlugNan PlugSafe PlugFrame PlugChroma PlugMain PlugClean PlugTuning PlugNotes PlugNorm ChordViterbi ChordSpec ChordFacts ChordExact NearSpec ChordNear Chords ChordsSpec ChordsFacts ChordsRun ChordsWhole ChordsCases.
Open Scope Z_scope.

(** ** The moves *)
Lemma start_started n : 1 <= n -> started n (chord_start n).
Proof.
  intros N. assert (O1 : B2R (rat64 1 1) = 1%R) by (unfold B2R; vm_compute; field). assert (E : forall i, 0 <= i < n -> entry (W := doubles) (chord_start n) i = if i =? n - 1 then rat64 1 1 else fzero).
  { intros i I. unfold entry, chord_start, znth. destruct (Z.eqb_spec i (n - 1)) as [Q|Q].
    - change (nth (Z.to_nat i) (repeat fzero (Z.to_nat (n - 1)) ++ [rat64 1 1]) (v0 (w := doubles))) with (nth (Z.to_nat i) (repeat fzero (Z.to_nat (n - 1)) ++ [rat64 1 1]) fzero). rewrite app_nth2 by (rewrite repeat_length; lia). rewrite repeat_length. replace (Z.to_nat i - Z.to_nat (n - 1))%nat with O by lia. reflexivity.
    - change (nth (Z.to_nat i) (repeat fzero (Z.to_nat (n - 1)) ++ [rat64 1 1]) (v0 (w := doubles))) with (nth (Z.to_nat i) (repeat fzero (Z.to_nat (n - 1)) ++ [rat64 1 1]) fzero). rewrite app_nth1 by (rewrite repeat_length; lia). destruct (nth_in_or_default (Z.to_nat i) (repeat fzero (Z.to_nat (n - 1))) fzero) as [H| H]; [exact (repeat_spec _ _ _ H)|exact H]. }
  split.
  - intros i I. rewrite E by exact I. destruct (i =? n - 1); split.
    + split; [reflexivity|rewrite O1; lra].
    + right. rewrite O1. change 1%R with (p2 0). apply bpow_le. lia.
    + split; [reflexivity|cbn; lra].
    + now left.
  - exists (n - 1). split; [lia|]. rewrite E, Z.eqb_refl, O1 by lia. lra.
Qed.
Lemma moves_linked n : 1 <= n <= 2 ^ 20 -> linked n (chord_moves n).
Proof.
  intros N i j I J. assert (E : entry (W := doubles) (znth [] (chord_moves n) i) j = if j =? i then stay else move n). { unfold chord_moves, entry. rewrite znth_map by lia. now rewrite znth_map by lia. } rewrite E.
  assert (ST : at_least 40 stay). { destruct (rat64_unit 99 100) as (F & B); [lia|]. split; [split; [exact F|]; unfold stay; rewrite B; split; [apply rnd_ge0; lra|apply rnd_ub; [apply (bpow_format 0); lia|cbn; lra]]|]. unfold stay. rewrite B. apply rnd_lb; [apply bpow_format; lia|]. apply Rle_trans with (p2 (-1)); [apply bpow_le; lia|cbn; lra]. }
  destruct (Z.eqb_spec j i) as [_|NE]; [exact ST|].
  assert (D : is_finite (Bminus mode_NE (rat64 1 1) stay) = true /\ (p2 (-7) <= B2R (Bminus mode_NE (rat64 1 1) stay) <= p2 (-6))%R).
  { split; [vm_compute; reflexivity|]. rewrite <- SF2R_B2SF. replace (B2SF (Bminus mode_NE (rat64 1 1) stay)) with (SpecFloat.S754_finite false 5764607523034240 (-59)) by (vm_compute; reflexivity). unfold SF2R, F2R. cbn. lra. }
  destruct D as (DF & D). destruct (rat64_block (n - 1) ltac:(lia)) as (RF & RB). assert (N1 : (1 <= IZR (n - 1) <= p2 20)%R) by (split; [apply IZR_le; lia|rewrite <- IZR_bpow by lia; apply IZR_le; lia]).
  set (x := Bminus mode_NE (rat64 1 1) stay) in *. assert (Q : (p2 (-40) <= B2R x / IZR (n - 1) <= p2 0)%R).
  { assert (I1 : (p2 (-20) <= / IZR (n - 1) <= 1)%R) by (split; [change (-20) with (- (20)); rewrite bpow_opp; apply Rinv_le_contravar; lra|rewrite <- Rinv_1; apply Rinv_le_contravar; lra]). unfold Rdiv. split.
    - apply Rle_trans with (p2 (-7) * p2 (-20))%R; [rewrite <- bpow_plus; apply bpow_le; lia|]. apply Rmult_le_compat; try apply bpow_ge_0; lra.
    - apply Rle_trans with (p2 (-6) * 1)%R; [pose proof (bpow_ge_0 radix2 (-7)); apply Rmult_le_compat; try lra; pose proof (bpow_ge_0 radix2 (-20)); lra|]. rewrite Rmult_1_r. apply bpow_le. lia. }
  assert (P0 := bpow_ge_0 radix2 (-40)). unfold move. fold x. destruct (fdiv_R x (rat64 (n - 1) 1) DF RF) as (F & B); [rewrite RB; lra|rewrite RB, Rabs_pos_eq by lra; apply Rle_trans with (1 := proj2 Q); apply bpow_le; lia|]. rewrite RB in B. split; [split; [exact F|]|]; rewrite B; [split; [apply rnd_ge0; lra|change 1%R with (p2 0); apply rnd_ub; [apply bpow_format; lia|apply Q]]|apply rnd_lb; [apply bpow_format; lia|apply Q]].
Qed.

(** ** The saliences *)
Definition some64 (x : b64) : Prop := is_nan x = false /\ sg x.
Lemma some_add x y : some64 x -> some64 y -> some64 (fadd x y).
Proof.
  intros (Nx & Sx) (Ny & Sy). split; [|now apply sg_fadd]. unfold fadd. destruct x as [sx|[|]| |[|] mx ex Hx], y as [sy|[|]| |[|] my ey Hy]; try discriminate Nx; try discriminate Ny; try contradiction; try reflexivity.
  - cbn. destruct sx, sy; reflexivity.
  - set (x := B754_finite false mx ex Hx : b64) in *. set (y := B754_finite false my ey Hy : b64) in *. assert (C := Bplus_correct prec64 emax64 _ _ mode_NE x y eq_refl eq_refl). destruct (Rlt_bool _ _); [destruct C as (_ & C & _)|destruct C as (C & _)]; destruct (Bplus mode_NE x y); try reflexivity; try discriminate C.
Qed.
Lemma some_mul (d c : b32) : size32 d -> size32 c -> some64 (f32_to_64 (mul32 d c)).
Proof.
  intros (Fd & Nd) (Fc & Nc). assert (S : sg (f32_to_64 (mul32 d c))) by (apply sg_widen, nn_mul; assumption). split; [|exact S]. assert (X : is_nan (mul32 d c) = false).
  { unfold mul32. assert (C := Bmult_correct prec32 emax32 _ _ mode_NE d c). destruct (Rlt_bool _ _); [destruct C as (_ & C & _); rewrite Fd, Fc in C|]; destruct (Bmult mode_NE d c); try reflexivity; discriminate C. }
  set (m := mul32 d c) in *. clearbody m. destruct m as [s|s| |s k e H]; try discriminate X; try reflexivity. destruct (f32_to_64_value (B754_finite s k e H) eq_refl) as (F & _). destruct (f32_to_64 (B754_finite s k e H)); try reflexivity. discriminate F.
Qed.
Lemma product_some values chroma : Forall size32 values -> Forall size32 chroma -> some64 (product24 values chroma).
Proof.
  intros V C. unfold product24. assert (G : forall l a, Forall (fun p => size32 (fst p) /\ size32 (snd p)) l -> some64 a -> some64 (fold_left (fun v '(d, c) => fadd v (f32_to_64 (mul32 d c))) l a)).
  { induction l as [|(d, c) l IH]; intros a F A; [exact A|]. apply Forall_cons_iff in F as ((D & C') & F). cbn [fold_left fst snd] in *. apply IH; [exact F|]. apply some_add; [exact A|now apply some_mul]. }
  apply G; [|split; [reflexivity|exact Logic.I]]. apply Forall_forall. intros (d, c) P. rewrite Forall_forall in V, C. cbn [fst snd]. split; [apply V; exact (in_combine_l _ _ _ _ P)|apply C; exact (in_combine_r _ _ _ _ P)].
Qed.
Lemma some_less x : some64 x -> some64 (fmul x (rat64 7 10)).
Proof.
  intros (N & S). split; [|apply sg_fmul; [exact S|reflexivity]]. unfold fmul. destruct x as [s|[|]| |[|] m e H]; try discriminate N; try contradiction; try reflexivity. set (x := B754_finite false m e H : b64) in *. assert (C := Bmult_correct prec64 emax64 _ _ mode_NE x (rat64 7 10)). destruct (Rlt_bool _ _); [destruct C as (_ & C & _); change (is_finite x && is_finite (rat64 7 10))%bool with true in C|]; destruct (Bmult mode_NE x (rat64 7 10)); try reflexivity; discriminate C.
Qed.
Lemma between_range v : some64 v -> is_finite (between v) = true /\ (0 <= B2R (between v) <= 200)%R.
Proof.
  intros (N & S). assert (T : is_finite two_hundred = true /\ B2R two_hundred = 200%R). { split; [reflexivity|]. destruct (rat64_block 200 ltac:(lia)) as (_ & E). exact E. } destruct T as (TF & TB). unfold between.
  destruct v as [s|[|]| |[|] m e H]; try discriminate N; try contradiction.
  - replace (flt (B754_zero s) fzero) with false by (destruct s; reflexivity). replace (fgt (B754_zero s) two_hundred) with false by (destruct s; vm_compute; reflexivity). split; [reflexivity|cbn; lra].
  - replace (flt (B754_infinity false) fzero) with false by reflexivity. replace (fgt (B754_infinity false) two_hundred) with true by (vm_compute; reflexivity). rewrite TB. split; [exact TF|lra].
  - set (v := B754_finite false m e H : b64) in *. assert (V : (0 <= B2R v)%R) by now apply sg_pos. replace (flt v fzero) with false.
    pose proof (fgt_B2R v two_hundred eq_refl TF) as X. rewrite TB in X. destruct (fgt v two_hundred); [rewrite TB; split; [exact TF|lra]|]. split; [reflexivity|]. split; [exact V|]. apply Rnot_lt_le. intros Y. apply X in Y. discriminate Y.
Qed.
Lemma sum_large l : forall k (a : b64), Forall (fun x : b64 => is_finite x = true /\ (0 <= B2R x <= p2 80)%R) l -> is_finite a = true -> (0 <= B2R a <= IZR k * p2 80)%R -> 0 <= k -> k + Z.of_nat (length l) <= 2 ^ 50 ->
  let s := fold_left fadd l a in is_finite s = true /\ (B2R a <= B2R s <= IZR (k + Z.of_nat (length l)) * p2 80)%R /\ forall x, In x l -> (B2R x <= B2R s)%R.
Proof.
  induction l as [|y l IH]; intros k a U Fa Ha Hk Hl; cbv zeta; cbn [fold_left length]; [rewrite Z.add_0_r; split; [exact Fa|]; split; [lra|intros x []]|]. apply Forall_cons_iff in U as ((Fy & Uy) & U). cbn [length] in Hl.
  assert (P0 := bpow_gt_0 radix2 80). assert (K : (IZR k * p2 80 + p2 80 = IZR (k + 1) * p2 80)%R) by (rewrite plus_IZR; ring). assert (KB : (0 <= IZR (k + 1) <= IZR (2 ^ 50))%R) by (split; apply IZR_le; lia).
  destruct (fadd_R a y Fa Fy) as (F & E). { rewrite Rabs_pos_eq by lra. apply Rle_trans with (IZR (2 ^ 50) * p2 80)%R; [|rewrite IZR_bpow by lia; rewrite <- bpow_plus; apply bpow_le; lia]. apply Rle_trans with (IZR (k + 1) * p2 80)%R; [lra|]. apply Rmult_le_compat_r; lra. }
  assert (B : (0 <= B2R (fadd a y) <= IZR (k + 1) * p2 80)%R) by (rewrite E; split; [apply rnd_ge0; lra|apply rnd_ub; [apply grid_format; lia|lra]]). assert (B1 : (B2R a <= B2R (fadd a y))%R /\ (B2R y <= B2R (fadd a y))%R) by (rewrite E; split; apply rnd_lb; try apply generic_format_B2R; lra).
  destruct (IH (k + 1) (fadd a y) U F B ltac:(lia) ltac:(lia)) as (A1 & A2 & A3). cbv zeta in A1, A2, A3. replace (k + Z.of_nat (S (length l))) with (k + 1 + Z.of_nat (length l)) by lia. split; [exact A1|]. split; [lra|]. intros x [<-|X]; [lra|now apply A3].
Qed.
Lemma shares_heard l n : 1 <= n <= 2 ^ 20 -> Z.of_nat (length l) = n -> Forall (fun x : b64 => is_finite x = true /\ (1 <= B2R x <= 2 ^ 80)%R) l -> heard n (shares l).
Proof.
  intros N L F. assert (E80 : (2 ^ 80)%R = p2 80) by (rewrite <- IZR_bpow by lia; rewrite pow_IZR; reflexivity). assert (F' : Forall (fun x : b64 => is_finite x = true /\ (0 <= B2R x <= p2 80)%R) l) by (apply Forall_impl with (2 := F); intros x (A & B); rewrite <- E80; split; [exact A|lra]).
  destruct (sum_large l 0 fzero F' eq_refl) as (SF & S1 & S2); [cbn; lra|lia|lia|]. cbv zeta in SF, S1, S2. unfold shares. set (s := fold_left fadd l fzero) in *. rewrite Z.add_0_l, L in S1.
  assert (G : forall i, 0 <= i < n -> is_finite (znth fzero l i) = true /\ (1 <= B2R (znth fzero l i) <= 2 ^ 80)%R) by (intros i I; apply (Forall_znth fzero _ _ _ F); lia).
  assert (GS : forall i, 0 <= i < n -> (B2R (znth fzero l i) <= B2R s)%R) by (intros i I; apply S2; unfold znth; apply nth_In; lia). assert (S0 : (1 <= B2R s)%R) by (specialize (G 0 ltac:(lia)); specialize (GS 0 ltac:(lia)); lra).
  replace (fgt s fzero) with true by (symmetry; apply (fgt_B2R s fzero SF eq_refl); cbn; lra). intros i I. assert (EI : entry (W := doubles) (map (fun v => Bdiv mode_NE v s) l) i = Bdiv mode_NE (znth fzero l i) s) by (change (nth (Z.to_nat i) (map (fun v => Bdiv mode_NE v s) l) fzero = Bdiv mode_NE (znth fzero l i) s); rewrite (nth_indep _ fzero (Bdiv mode_NE fzero s)) by (rewrite map_length; lia); exact (map_nth (fun v => Bdiv mode_NE v s) l fzero (Z.to_nat i))). rewrite EI.
  destruct (G i I) as (Fx & Gx). specialize (GS i I). set (x := znth fzero l i) in *. assert (SU : (B2R s <= p2 100)%R) by (apply Rle_trans with (1 := proj2 S1); change (p2 100) with (p2 (20 + 80)); rewrite bpow_plus; apply Rmult_le_compat_r; [apply bpow_ge_0|]; rewrite <- IZR_bpow by lia; apply IZR_le; lia).
  assert (Q : (p2 (-140) <= B2R x / B2R s <= 1)%R). { split; [|apply (Rmult_le_reg_r (B2R s)); [lra|]; unfold Rdiv; rewrite Rmult_assoc, Rinv_l, Rmult_1_r by lra; lra]. apply Rle_trans with (p2 (-100)); [apply bpow_le; lia|]. apply Rle_trans with (1 * / B2R s)%R; [rewrite Rmult_1_l; change (-100) with (- (100)); rewrite bpow_opp; apply Rinv_le_contravar; lra|]. unfold Rdiv. apply Rmult_le_compat_r; [apply Rlt_le, Rinv_0_lt_compat; lra|lra]. }
  assert (P0 := bpow_ge_0 radix2 (-140)). destruct (fdiv_R x s Fx SF) as (FD & ED); [lra|rewrite Rabs_pos_eq by lra; apply Rle_trans with (1 := proj2 Q); change 1%R with (p2 0); apply bpow_le; lia|]. split; [split; [exact FD|]|]; rewrite ED; [split; [apply rnd_ge0; lra|change 1%R with (p2 0); apply rnd_ub; [apply bpow_format; lia|change (p2 0) with 1%R; apply Q]]|apply rnd_lb; [apply bpow_format; lia|apply Q]].
Qed.
Lemma saliences_heard pow chords none notes n : pow_law pow -> n = Z.of_nat (length (chords ++ [none])) -> n <= 2 ^ 20 -> Forall (fun c => Forall size32 (c_values c)) (chords ++ [none]) -> Forall size32 (chroma_of basswindow notes ++ chroma_of treblewindow notes) -> heard n (frame_saliences pow chords none notes).
Proof.
  intros P E N D C. rewrite app_length in E. cbn [length] in E. apply Forall_app in D as (D & D'). apply Forall_cons_iff in D' as (D' & _). unfold frame_saliences. apply shares_heard; [lia|unfold strengths; rewrite app_length, !map_length; cbn [length]; lia|]. unfold strengths. apply Forall_app. split.
  - rewrite map_map. apply Forall_map. apply Forall_impl with (2 := D). intros c V. unfold strength. apply P; apply between_range, product_some; assumption.
  - constructor; [|constructor]. unfold strength_of_none. apply P; apply between_range, some_less, product_some; assumption.
Qed.

(** ** Whole runs *)
Lemma lam_eq : lam = (1 + / 2 ^ 52)%R.
Proof. unfold lam. change (-52) with (- (52)). rewrite bpow_opp, <- IZR_bpow by lia. rewrite pow_IZR. reflexivity. Qed.
Lemma fine_eq x : fine_scale x -> is_finite x = true /\ (/ 2 ^ 20 <= B2R x <= 2 ^ 201)%R.
Proof. intros (F & A & B). split; [exact F|]. change (-20) with (- (20)) in A. rewrite bpow_opp, <- IZR_bpow in A by lia. rewrite <- IZR_bpow in B by lia. rewrite !pow_IZR. split; assumption. Qed.
Lemma path_nearly n init trans obs : 1 <= n <= 2 ^ 20 -> fitting (W := doubles) n init trans obs -> started n init -> linked n trans -> Forall (heard n) obs -> nearly_best n init trans obs (path_of (W := doubles) n init trans obs) /\ fine_scales (scales_of (W := doubles) n init trans obs).
Proof.
  intros N F S L H. assert (NE : obs <> []) by apply F. destruct (path_near n N trans L init obs S NE H) as (A & B). split; [|apply Forall_impl with (2 := A); exact fine_eq]. split.
  - destruct (path_of_range n init trans obs F) as (L1 & R1). split; [rewrite map_length; exact L1|exact R1].
  - intros q Q. rewrite <- lam_eq. now apply B.
Qed.
Lemma two_pow k : / 2 ^ k = p2 (- Z.of_nat k) :> R.
Proof. rewrite bpow_opp, <- IZR_bpow by lia. rewrite <- pow_IZR. reflexivity. Qed.
Lemma chance_at k x : chance k x -> at_least (Z.of_nat k) x.
Proof. intros (F & A). rewrite two_pow in A. assert (P := bpow_ge_0 radix2 (- Z.of_nat k)). split; [split; [exact F|lra]|apply A]. Qed.
Lemma decoder_nearly n init trans obs delta scale : n <= 2 ^ 20 -> fitting (W := doubles) n init trans obs -> Forall (fun x => x = fzero \/ chance 40 x) init -> Exists (fun x => x <> fzero) init -> Forall (Forall (chance 40)) trans -> Forall (Forall (chance 140)) obs -> Z.of_nat (length obs) * n <= size delta ->
  exists r scales, viterbi_path (W := doubles) init trans obs delta scale = Ret r /\ nearly_best n init trans obs (d_path r) /\ d_scale r = scale ++ scales /\ length scales = length obs /\ fine_scales scales.
Proof.
  intros N F FI EI FT FO B. destruct (decoder_runs doubles n init trans obs delta scale F B) as (r & E & _ & P & _ & _ & Q & _). pose proof F as (N0 & LI & LT & RT & NE & RO).
  assert (I1 : forall x, In x init -> x <> fzero -> at_least 40 x). { intros x X NX. rewrite Forall_forall in FI. destruct (FI x X) as [-> |C]; [now elim NX|exact (chance_at 40 x C)]. }
  destruct (path_nearly n init trans obs ltac:(lia) F) as (X & Y).
  - split.
    + intros i I. change (Z.of_nat (@length b64 init) = n) in LI. assert (Z0 : In (znth fzero init i) init) by (unfold znth; apply nth_In; lia). change (de init i) with (znth fzero init i). rewrite Forall_forall in FI. destruct (FI _ Z0) as [-> |C]; [split; [split; [reflexivity|cbn; lra]|now left]|exact (at_zero _ _ (chance_at 40 _ C))].
    + apply Exists_exists in EI as (x & X & NX). apply (In_nth _ _ fzero) in X as Y. destruct Y as (k & K1 & K2). exists (Z.of_nat k). change (Z.of_nat (@length b64 init) = n) in LI. split; [lia|]. change (de init (Z.of_nat k)) with (znth fzero init (Z.of_nat k)). unfold znth. rewrite Nat2Z.id, K2. exact (at_pos _ _ (I1 x X NX)).
  - intros i j I J. change (Z.of_nat (@length (list b64) trans) = n) in LT. apply (chance_at 40). pose proof (Forall_znth [] _ _ i FT ltac:(lia)) as R1. pose proof (Forall_znth [] _ _ i RT ltac:(change (0 <= i < Z.of_nat (@length (list b64) trans)); lia)) as R2. apply (Forall_znth fzero _ _ j R1). exact (eq_ind_r (fun m => 0 <= j < m) J R2).
  - apply Forall_forall. intros o O j J. rewrite Forall_forall in FO, RO. specialize (FO o O). specialize (RO o O). apply (chance_at 140). apply (Forall_znth fzero _ _ j FO). exact (eq_ind_r (fun m => 0 <= j < m) J RO).
  - exists r, (scales_of (W := doubles) n init trans obs). split; [exact E|]. rewrite P. split; [exact X|]. split; [exact Q|]. split; [|exact Y].
    transitivity (Datatypes.S (length (tl obs))); [unfold scales_of; cbn [length]; f_equal; exact (ChordFacts.scales_length (W := doubles) n trans _ _)|]. destruct obs; [now elim NE|reflexivity].
Qed.
(** It need not be exactly the best: 1 - 2^-52 and the square of 1 - 2^-53 are the same double. *)
Definition almost1 : b64 := rat64 (2 ^ 53 - 1) (2 ^ 53). Definition almost2 : b64 := rat64 (2 ^ 52 - 1) (2 ^ 52).
Lemma not_exactly_best : ~ forall init trans obs delta r q, fitting (W := doubles) 2 init trans obs -> Forall (chance 1) init -> Forall (Forall (chance 1)) trans -> Forall (Forall (chance 1)) obs -> viterbi_path (W := doubles) init trans obs delta [] = Ret r -> a_path 2 (map values obs) q ->
  (probability (values init) (map values trans) (map values obs) q <= probability (values init) (map values trans) (map values obs) (d_path r))%R.
Proof.
  intros H. set (init := [rat64 1 1; almost1]). set (trans := [[rat64 1 1; rat64 1 1]; [rat64 1 1; rat64 1 1]]). set (obs := [[almost2; almost1]]). assert (B1 : is_finite (rat64 1 1) = true /\ B2R (rat64 1 1) = 1%R) by (split; [reflexivity|unfold B2R; vm_compute; field]).
  assert (A1 : is_finite almost1 = true /\ B2R almost1 = (1 - / 2 ^ 53)%R). { split; [vm_compute; reflexivity|]. rewrite <- SF2R_B2SF. replace (B2SF almost1) with (SpecFloat.S754_finite false (2 ^ 53 - 1) (-53)) by (vm_compute; reflexivity). unfold SF2R, F2R. cbn [Fnum Fexp cond_Zopp]. change (-53) with (- Z.of_nat 53). rewrite <- (two_pow 53). rewrite pow_IZR. change (IZR (Z.pos (2 ^ 53 - 1))) with (IZR (2 ^ 53 - 1)). rewrite minus_IZR. change (2 ^ Z.of_nat 53) with (2 ^ 53). field. apply not_0_IZR. lia. }
  assert (A2 : is_finite almost2 = true /\ B2R almost2 = (1 - 2 * / 2 ^ 53)%R). { split; [vm_compute; reflexivity|]. rewrite <- SF2R_B2SF. replace (B2SF almost2) with (SpecFloat.S754_finite false (2 ^ 53 - 2) (-53)) by (vm_compute; reflexivity). unfold SF2R, F2R. cbn [Fnum Fexp cond_Zopp]. change (-53) with (- Z.of_nat 53). rewrite <- (two_pow 53). rewrite pow_IZR. change (IZR (Z.pos (2 ^ 53 - 2))) with (IZR (2 ^ 53 - 2)). rewrite minus_IZR. change (2 ^ Z.of_nat 53) with (2 ^ 53). field. apply not_0_IZR. lia. }
  set (u := (/ 2 ^ 53)%R) in *. assert (U : (0 < u <= / 1000)%R). { unfold u. rewrite two_pow. split; [apply bpow_gt_0|]. apply Rle_trans with (p2 (-10)); [apply bpow_le; lia|cbn; lra]. }
  assert (C1 : chance 1 (rat64 1 1)) by (destruct B1 as (F & E); split; [exact F|rewrite E; lra]). assert (C2 : chance 1 almost1) by (destruct A1 as (F & E); split; [exact F|rewrite E; lra]). assert (C3 : chance 1 almost2) by (destruct A2 as (F & E); split; [exact F|rewrite E; lra]).
  assert (X : exists r, viterbi_path (W := doubles) init trans obs (fresh 2) [] = Ret r /\ d_path r = [0]).
  { destruct (decoder_runs doubles 2 init trans obs (fresh 2) []) as (r & E & _ & P & _); [repeat split; repeat constructor; discriminate|cbn; lia|]. exists r. split; [exact E|]. rewrite P. vm_compute. reflexivity. }
  destruct X as (r & E & P). specialize (H init trans obs (fresh 2) r [1] ltac:(repeat split; repeat constructor; discriminate) ltac:(repeat (apply Forall_cons || apply Forall_nil); assumption) ltac:(repeat (apply Forall_cons || apply Forall_nil); assumption) ltac:(repeat (apply Forall_cons || apply Forall_nil); assumption) E ltac:(split; [reflexivity|repeat constructor; lia])).
  rewrite P in H. unfold probability, values, init, obs, znth in H. cbn [map nth going Z.to_nat Pos.to_nat Pos.iter_op] in H. change (Pos.to_nat 1) with 1%nat in H. cbn [nth] in H. rewrite (proj2 B1), (proj2 A1), (proj2 A2) in H. nra.
Qed.
Section Run.
  Context (atan2 powf : b32 -> b32 -> b32) (pow : b64 -> b64 -> b64) (log : b64 -> b64).
  Lemma chordino_nearly : atan2_law atan2 -> (forall s w, gt32 s z32 = true -> Bsign (powf s w) = false) -> pow_law pow -> forall c frames boost harte names values o,
    ready c -> Forall (fun f => s_block c <= Z.of_nat (length (snd f))) frames -> frames <> [] -> forall chords none, chord_dictionary powf boost harte names values = Ret (chords ++ [none]) -> Forall (fun c => Forall size32 (c_values c)) (chords ++ [none]) -> Z.of_nat (length chords) < 2 ^ 20 ->
    analyse atan2 powf c frames = Ret o -> Forall (fun tn => Forall size32 (chroma_of basswindow (snd tn) ++ chroma_of treblewindow (snd tn))) (o_notes o) ->
    let n := Z.of_nat (length chords) + 1 in let times := map fst frames in
    exists r p scales, chordino atan2 powf pow log c (chords ++ [none]) frames = Ret r /\ nearly_best n (chord_start n) (chord_moves n) (map (fun tn => frame_saliences pow chords none (snd tn)) (o_notes o)) p /\
      t_chords r = map (named (chords ++ [none]) times) (changes_from 0 (-1) p) ++ [(last times 0, "N"%string)] /\
      t_notes r = flat_map (span_notes (chords ++ [none])) (spans times (last times 0) (changes_from 0 (-1) p)) /\
      t_likelihood r = map (fun s => f64_to_32 (Bopp (log s))) scales /\ length scales = length frames /\ fine_scales scales.
  Proof.
    intros ATAN POW PL c frames boost harte names values o R F NE chords none ED SD NC EO SN. cbv zeta. destruct (chordino_cases atan2 powf pow log ATAN POW c frames boost harte names values (chords ++ [none]) R F ED) as [(o' & r & chords' & none' & E1 & E2 & E3 & _ & _ & T)|(E1 & _)]; [|rewrite EO in E1; discriminate E1].
    rewrite EO in E1. apply Ret_inj in E1. subst o'. apply app_inj_tail in E3 as (<- & <-). specialize (T NE). destruct T as (_ & T1 & T2 & T3 & T4 & T5 & T6 & _). assert (EN : Z.of_nat (length (chords ++ [none])) = Z.of_nat (length chords) + 1) by (rewrite app_length; cbn [length]; lia). rewrite EN in *. set (n := Z.of_nat (length chords) + 1) in *. set (obs := map (fun tn => frame_saliences pow chords none (snd tn)) (o_notes o)) in *.
    rewrite map_length in T6. assert (LO : length obs = length frames). { rewrite map_length in T1. rewrite <- T1. unfold path_of. rewrite way_length, origins_length. destruct obs as [|o0 os] eqn:OE; [|reflexivity]. exfalso. cbn [tl] in T1. unfold path_of in T1. rewrite way_length, origins_length in T1. cbn [tl length] in T1.
      unfold obs in OE. apply map_eq_nil in OE. destruct (analyse_cases atan2 powf ATAN POW c frames R F) as (p & _). destruct (analyse_frames atan2 powf ATAN POW c frames o R F EO) as (G & parts & _ & EN' & _). destruct G as (G1 & _). rewrite OE in EN'. symmetry in EN'. apply map_eq_nil in EN'. rewrite EN' in G1. destruct frames; [now apply NE|discriminate G1]. }
    assert (FIT : fitting (W := doubles) n (chord_start n) (chord_moves n) obs).
    { split; [lia|]. split; [unfold chord_start; change (v_num doubles) with b64; rewrite app_length, repeat_length; cbn [length]; lia|]. split; [unfold chord_moves; change (v_num doubles) with b64; rewrite map_length, zrange_length; lia|]. split; [apply Forall_map, Forall_forall; intros i _; change (v_num doubles) with b64; rewrite map_length, zrange_length; lia|]. split; [intros X; rewrite X in LO; destruct frames; [now apply NE|discriminate LO]|]. apply Forall_map, Forall_forall. intros tn _. change (v_num doubles) with b64. rewrite frame_saliences_length. lia. }
    assert (HO : Forall (heard n) obs) by (apply Forall_map; apply Forall_impl with (2 := SN); intros tn H; apply saliences_heard; try assumption; lia).
    destruct (path_nearly n (chord_start n) (chord_moves n) obs ltac:(lia) FIT (start_started n ltac:(lia)) (moves_linked n ltac:(lia)) HO) as (PN & PS). exists r, (path_of (W := doubles) n (chord_start n) (chord_moves n) obs), (scales_of (W := doubles) n (chord_start n) (chord_moves n) obs). repeat (split; [assumption|]). exact PS.
  Qed.
End Run.

(** A power function that meets the law: 1 + v. *)
Lemma plus_law : pow_law (fun _ v => fadd (rat64 1 1) v).
Proof.
  intros v F V. assert (O1 : B2R (rat64 1 1) = 1%R) by (unfold B2R; vm_compute; field). assert (P : (201 <= p2 8)%R) by (cbn; lra). destruct (fadd_R (rat64 1 1) v eq_refl F) as (A & B); [rewrite O1, Rabs_pos_eq by lra; apply Rle_trans with (p2 8); [lra|apply bpow_le; lia]|]. split; [exact A|]. rewrite B, O1. split; [change 1%R with (p2 0) at 1; apply rnd_lb; [apply bpow_format; lia|cbn; lra]|].
  apply Rle_trans with (p2 8); [apply rnd_ub; [apply bpow_format; lia|lra]|]. replace (2 ^ 80)%R with (p2 80) by (rewrite <- IZR_bpow by lia; rewrite pow_IZR; reflexivity). apply bpow_le. lia.
Qed.
