(** In real numbers a mixture of notes is transcribed as it was made. *)
From Coq Require Import Reals Lra Lia.
From Flocq Require Import Core.Core IEEE754.BinarySingleNaN.
From Verif Require Import Base BaseFacts Fp Options Chromagram ChromaFacts Nnls NnlsArith NnlsSpec NnlsFacts Plug PlugSpec PlugFacts PlugNotes PlugFrame PlugChroma PlugCases Setup SetupSpec SetupFacts.
Open Scope R_scope.

Lemma harmonic_nonneg i : 0 <= harmonic (S i).
Proof.
  unfold harmonic. apply Rmult_le_pos; [lra|]. assert (L2 : 0 < ln 2) by (rewrite <- ln_1; apply ln_increasing; lra). apply Rmult_le_pos; [|left; now apply Rinv_0_lt_compat].
  destruct i as [|i]; [cbn [INR]; rewrite ln_1; lra|]. left. rewrite <- ln_1. apply ln_increasing; [lra|]. rewrite !S_INR. assert (P := pos_INR i). lra.
Qed.
(** Nothing lies below the fundamental, and the bin before its own has a part of it. *)
Lemma sound_below s k row : (row < 3 * k + 2)%Z -> sound s k row = 0.
Proof.
  intros H. unfold sound. rewrite (total_ext 20 _ (fun _ => 0)); [rewrite total_const; ring|]. intros i _. replace (pulse _) with 0; [ring|]. unfold pulse. destruct (Rle_dec _ _) as [A|]; [|reflexivity]. exfalso.
  assert (B := harmonic_nonneg i). assert (C : IZR row <= IZR (3 * k + 1)) by (apply IZR_le; lia). replace (3 * k + 3)%Z with (3 * k + 1 + 2)%Z in A by lia. rewrite (plus_IZR _ 2) in A. apply Rabs_le_inv in A. lra.
Qed.
Lemma sound_edge s k : 0 <= s -> 0 < sound s k (3 * k + 2).
Proof.
  intros H. unfold sound. rewrite total_shift. replace (IZR (3 * k + 2) - IZR (3 * k + 3) - harmonic 1) with (-1).
  - assert (P : 0 < pulse (-1)).
    { unfold pulse. replace (-1) with (- (1)) by lra. rewrite Rabs_Ropp, Rabs_R1. destruct (Rle_dec 1 (3 / 2)) as [_|N]; [|lra]. replace (2 * PI * - (1) / 3) with (- (2 * (PI / 3))) by field. rewrite cos_neg. rewrite cos_2PI3. lra. }
    assert (Q : 0 <= total 19 (fun j => s ^ S j * pulse (IZR (3 * k + 2) - IZR (3 * k + 3) - harmonic (S (S j))))) by (apply total_nonneg; intros i _; apply Rmult_le_pos; [now apply pow_le|apply pulse_range]). rewrite pow_O. lra.
  - unfold harmonic. cbn [INR]. rewrite ln_1. rewrite !plus_IZR. field. apply Rgt_not_eq. rewrite <- ln_1. apply ln_increasing; lra.
Qed.
Lemma total_plus n f g : total n (fun i => f i + g i) = total n f + total n g.
Proof. induction n as [|n IH]; cbn [total]; [lra|]. rewrite IH. lra. Qed.
Lemma total_single n k c : (k < n)%nat -> total n (fun i => if Nat.eq_dec i k then c else 0) = c.
Proof.
  induction n as [|n IH]; intros H; [lia|]. cbn [total]. destruct (Nat.eq_dec n k) as [E|E].
  - rewrite (total_ext n _ (fun _ => 0)); [rewrite total_const; ring|]. intros j J. destruct (Nat.eq_dec j k); [lia|reflexivity].
  - rewrite IH by lia. ring.
Qed.
Lemma total_0 n f : (forall i, (i < n)%nat -> f i = 0) -> total n f = 0.
Proof. intros H. rewrite (total_ext n f (fun _ => 0)) by exact H. rewrite total_const. ring. Qed.
Lemma sum_over_total n l f : NoDup l -> (forall k, In k l -> (0 <= k < Z.of_nat n)%Z) -> sum_over l f = total n (fun i => if in_dec Z.eq_dec (Z.of_nat i) l then f (Z.of_nat i) else 0).
Proof.
  induction 1 as [|k l N D IH]; intros H.
  - cbn [sum_over]. symmetry. apply total_0. intros i _. destruct (in_dec Z.eq_dec (Z.of_nat i) []) as [X|X]; [destruct X|reflexivity].
  - cbn [sum_over]. rewrite IH by (intros k' K; apply H; now right). assert (K := H k (or_introl eq_refl)). rewrite <- (total_single n (Z.to_nat k) (f k)) by lia. rewrite <- total_plus. apply total_ext. intros i I0.
    destruct (Nat.eq_dec i (Z.to_nat k)) as [E|E].
    + replace (Z.of_nat i) with k by lia. destruct (in_dec Z.eq_dec k l) as [X|X]; [contradiction|]. destruct (in_dec Z.eq_dec k (k :: l)) as [Y|Y]; [ring|]. exfalso. apply Y. now left.
    + destruct (in_dec Z.eq_dec (Z.of_nat i) l) as [X|X], (in_dec Z.eq_dec (Z.of_nat i) (k :: l)) as [Y|Y]; try ring; exfalso; [apply Y; now right|]. destruct Y as [Y|Y]; [lia|contradiction].
Qed.
(** A mixture determines its volumes, since in bin 3k+2 no higher semitone sounds. *)
Lemma total_cut n k f : (k < n)%nat -> (forall i, (k < i < n)%nat -> f i = 0) -> total n f = total (S k) f.
Proof.
  induction n as [|n IH]; intros H Z0; [lia|]. destruct (Nat.eq_dec k n) as [->|N]; [reflexivity|]. change (total (S n) f) with (total n f + f n). rewrite (Z0 n) by lia. rewrite IH; [ring|lia|]. intros i I0. apply Z0. lia.
Qed.
Lemma mixture_cut s v k : (k < 84)%nat -> mixture s v (3 * Z.of_nat k + 2) = total k (fun i => v (Z.of_nat i) * sound s (Z.of_nat i) (3 * Z.of_nat k + 2)) + v (Z.of_nat k) * sound s (Z.of_nat k) (3 * Z.of_nat k + 2).
Proof. intros K. unfold mixture. rewrite (total_cut 84 k); [reflexivity|exact K|]. intros i I0. rewrite sound_below by lia. ring. Qed.
Lemma mixture_volumes s v w : 0 <= s -> (forall row, (0 <= row < 256)%Z -> mixture s v row = mixture s w row) -> forall k, (k < 84)%nat -> v (Z.of_nat k) = w (Z.of_nat k).
Proof.
  intros S0 H k. induction k as [k IH] using (well_founded_induction lt_wf). intros K. assert (E := H (3 * Z.of_nat k + 2)%Z ltac:(lia)). rewrite !mixture_cut in E by exact K.
  rewrite (total_ext k (fun i => v (Z.of_nat i) * sound s (Z.of_nat i) (3 * Z.of_nat k + 2)) (fun i => w (Z.of_nat i) * sound s (Z.of_nat i) (3 * Z.of_nat k + 2))) in E by (intros j J; rewrite (IH j J) by lia; reflexivity).
  apply Rplus_eq_reg_l in E. apply Rmult_eq_reg_r with (1 := E). apply Rgt_not_eq. now apply sound_edge.
Qed.
Lemma mixture_band s v k row : (forall k, 0 <= v k) -> 0 <= s -> (0 <= k < 84)%Z -> v k * sound s k row <= mixture s v row.
Proof.
  intros V S0 K. unfold mixture. rewrite <- (total_single 84 (Z.to_nat k) (v k * sound s k row)) by lia. apply total_le. intros i I0.
  destruct (Nat.eq_dec i (Z.to_nat k)) as [E|E]; [replace (Z.of_nat i) with k by lia; lra|]. apply Rmult_le_pos; [apply V|now apply sound_nonneg].
Qed.
Lemma total_sq_0 n f : total n (fun i => Rsqr (f i)) <= 0 -> forall i, (i < n)%nat -> f i = 0.
Proof.
  intros H i I0. assert (P : Rsqr (f i) <= total n (fun j => Rsqr (f j))). { rewrite <- (total_single n i (Rsqr (f i)) I0). apply total_le. intros j J. destruct (Nat.eq_dec j i) as [->|]; [lra|]. apply Rle_0_sqr. }
  apply Rsqr_eq_0. apply Rle_antisym; [lra|apply Rle_0_sqr].
Qed.
Lemma notes_are_found s v d b : 0 < s -> (forall k, 0 <= v k) -> dictionary_matrix ideal (repeat 0 (Z.to_nat (256 * 84))) s = Ret d -> length b = 256%nat -> (forall row, (0 <= row < 256)%Z -> znth 0 b row = mixture s v row) ->
  exists l val r, transcribe (A := exact) d b = Ret (map (fun k => (k, val k)) l) /\ called (A := exact) d b = Some (Ret r) /\ (forall k, (0 <= k < 84)%Z -> 0 < v k -> In k l) /\ (r_mode r = 1%Z -> forall k, In k l -> val k = v k).
Proof.
  intros S0 V E B M. set (zeros := repeat 0 (Z.to_nat (256 * 84))) in *. assert (LZ : Z.of_nat (length zeros) = (256 * 84)%Z) by (unfold zeros; rewrite repeat_length, Z2Nat.id; lia).
  destruct (dictionary_ideal zeros s S0 LZ) as (d' & E' & L & H). assert (d' = d) as -> by (apply (@Ret_inj (list R)); exact (eq_trans (eq_sym E') E)). clear E' E.
  assert (H0 : forall k row, (0 <= k < 84)%Z -> (0 <= row < 256)%Z -> znth 0 d (k * 256 + row) = sound s k row).
  { intros k row K Rw. rewrite (H k row K Rw). unfold znth, zeros. rewrite nth_repeat. ring. }
  destruct (C75_best_proof d b B L) as (l & val & r & T & ND & IN & NN & C & OPT). exists l, val, r. split; [exact T|]. split; [exact C|].
  assert (IL : forall k, (0 <= k < 84)%Z -> 0 < v k -> In k l).
  { intros k K P. apply IN. split; [exact K|]. rewrite !M by lia. assert (B1 := mixture_band s v k (3 * k + 2) V ltac:(lra) K). assert (B2 := mixture_band s v k (3 * k + 3) V ltac:(lra) K). assert (B3 := mixture_band s v k (3 * k + 4) V ltac:(lra) K).
    assert (Q1 : 0 < v k * sound s k (3 * k + 2)) by (apply Rmult_lt_0_compat; [exact P|apply sound_edge; lra]). assert (Q2 : 0 <= v k * sound s k (3 * k + 3)) by (apply Rmult_le_pos; [apply V|apply sound_nonneg; lra]). assert (Q3 : 0 <= v k * sound s k (3 * k + 4)) by (apply Rmult_le_pos; [apply V|apply sound_nonneg; lra]). lra. }
  split; [exact IL|]. intros MO. assert (RG : forall k, In k l -> (0 <= k < Z.of_nat 84)%Z) by (intros k K; apply IN in K as (K & _); exact K).
  (* a sum over the chosen semitones is a mixture *)
  assert (SUM : forall val' row, (0 <= row < 256)%Z -> sum_over l (fun k => znth 0 d (k * 256 + row) * val' k) = mixture s (fun k => if in_dec Z.eq_dec k l then val' k else 0) row).
  { intros val' row Rw. rewrite (sum_over_total 84 l _ ND RG). unfold mixture. apply total_ext. intros i I0. destruct (in_dec Z.eq_dec (Z.of_nat i) l); [|ring]. rewrite H0 by lia. ring. }
  assert (ZERO : distance d b l v = 0).
  { unfold distance. apply total_0. intros row Rw. rewrite SUM by lia. replace (nth row b 0) with (znth 0 b (Z.of_nat row)) by (unfold znth; now rewrite Nat2Z.id). rewrite M by lia. replace (mixture s (fun k => if in_dec Z.eq_dec k l then v k else 0) (Z.of_nat row)) with (mixture s v (Z.of_nat row)); [unfold Rsqr; ring|].
    unfold mixture. apply total_ext. intros i I0. destruct (in_dec Z.eq_dec (Z.of_nat i) l) as [X|X]; [reflexivity|]. f_equal. apply Rle_antisym; [|apply V]. apply Rnot_lt_le. intros P. apply X. apply IL; [lia|exact P]. }
  assert (Z0 := OPT MO v V). rewrite ZERO in Z0. unfold distance in Z0. assert (Q := total_sq_0 256 _ Z0).
  assert (SAME : forall k, (k < 84)%nat -> (if in_dec Z.eq_dec (Z.of_nat k) l then val (Z.of_nat k) else 0) = v (Z.of_nat k)).
  { apply (mixture_volumes s (fun k => if in_dec Z.eq_dec k l then val k else 0) v); [lra|]. intros row Rw. rewrite <- SUM by exact Rw. rewrite <- M by exact Rw. assert (W := Q (Z.to_nat row) ltac:(lia)). cbv beta in W. rewrite Z2Nat.id in W by lia. unfold znth in *. lra. }
  intros k K. assert (RK := RG k K). assert (W := SAME (Z.to_nat k) ltac:(lia)). rewrite Z2Nat.id in W by lia. destruct (in_dec Z.eq_dec k l); [exact W|contradiction].
Qed.
