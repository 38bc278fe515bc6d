(** The state of a plug-in after initialise(): the note dictionary, the matrix of log frequencies and what process() asks for. *)
From Coq Require Import Reals Lra Lia.
From Flocq Require Import Core.Core IEEE754.BinarySingleNaN.
From Verif Require Import Base BaseFacts Fp FpFacts Options Chromagram ChromaFacts Py FloatKit NumFacts Nnls NnlsArith NnlsSpec NnlsFacts Plug PlugSpec PlugFacts PlugNum PlugSafe PlugClean PlugTuning PlugNotes Setup SetupSpec SetupFacts SetupMachine.
Open Scope Z_scope.

Lemma fits_int n : 0 <= n <= 2 ^ 24 -> fits (IZR n).
Proof. intros N. rewrite <- (Rmult_1_r (IZR n)). apply (fits_scaled n 0); [exact N|lia|]. change (0 + 149) with 149. apply Z.le_lt_trans with (2 ^ 24 * 2 ^ 149); [apply Z.mul_le_mono_nonneg_r; lia|reflexivity]. Qed.
Section Laws.
  Context (L : libm) (LAW : libm_law L).
  Notation M := (machine L).
  (** ** The dictionary *)
  Lemma three_pw : pw (-20) 40 (rat32 3 1).
  Proof. destruct (rat32_int 3 ltac:(lia)) as (F & V). split; [exact F|]. rewrite V. split; [apply Rle_trans with (bpow radix2 0); [apply bpow_le; lia|cbn; lra]|apply Rle_trans with (bpow radix2 2); [cbn; lra|apply bpow_le; lia]]. Qed.
  Lemma amplitude_unit s h : upto 1 s -> 1 <= h <= 20 -> upto 1 (amplitude M s h).
  Proof. intros S0 H. unfold amplitude. cbn [machine f_pow f_int fl]. destruct (rat32_int (h - 1) ltac:(lia)) as (F & V). apply (law_powf L LAW); [exact S0|exact F|]. rewrite V. apply IZR_le. lia. Qed.
  Lemma touched_upto s k row v h n : upto 1 s -> 1 <= h <= 20 -> 0 <= n < 2 ^ 24 -> upto (IZR n) v -> upto (IZR (n + 1)) (touched M s k row v h) /\ (B2R v <= B2R (touched M s k row v h))%R.
  Proof.
    intros S0 H N V. unfold touched. destruct (d_ltb M _ _); [|split; [apply upto_le with (2 := V); apply IZR_le; lia|lra]].
    assert (W : upto 1 (f_mul M (cospuls M (down M (d_int M (row + 1))) (floatbin M k h) (f_int M nBPS)) (amplitude M s h))).
    { apply (upto_mul 1 1); [apply (cospuls_unit L LAW); exact three_pw|now apply amplitude_unit|apply (fits_int 1); lia|lra]. }
    set (w := f_mul M _ _) in *. change (f_add M v w) with (fadd32 v w). split; [apply (upto_add (IZR n) 1); [exact V|exact W|apply fits_int; lia|rewrite plus_IZR; lra]|].
    destruct V as (FV & V), W as (FW & W). destruct (fits_int (n + 1) ltac:(lia)) as (G1 & G2). destruct (add_R v w (IZR (n + 1)) FV FW G1 G2) as (_ & ->); [rewrite plus_IZR, Rabs_pos_eq; lra|].
    rewrite <- (rnd32_id (B2R v)) at 1 by apply fmt_float. apply rnd32_le. lra.
  Qed.
  Lemma harmonics_upto s k row l v n : upto 1 s -> (forall h, In h l -> 1 <= h <= 20) -> 0 <= n -> n + Z.of_nat (length l) <= 2 ^ 24 -> upto (IZR n) v ->
    upto (IZR (n + Z.of_nat (length l))) (fold_left (touched M s k row) l v) /\ (B2R v <= B2R (fold_left (touched M s k row) l v))%R.
  Proof.
    intros S0. revert v n. induction l as [|h l IH]; intros v n H N B V; cbn [fold_left length] in *; [rewrite Z.add_0_r; split; [exact V|lra]|].
    destruct (touched_upto s k row v h n S0 (H h (or_introl eq_refl)) ltac:(lia) V) as (A1 & A2). destruct (IH _ (n + 1) (fun h' H' => H h' (or_intror H')) ltac:(lia) ltac:(lia) A1) as (B1 & B2). split; [|lra].
    replace (n + Z.of_nat (S (length l))) with (n + 1 + Z.of_nat (length l)) by lia. exact B1.
  Qed.
  Lemma int64 n : 0 < n <= 2 ^ 40 -> is_finite (rat64 n 1) = true /\ B2R (rat64 n 1) = IZR n.
  Proof.
    intros N. assert (E : rnd (IZR n / 1) = IZR n) by (unfold Rdiv; rewrite Rinv_1, Rmult_1_r; apply rnd_id; apply int_format; lia).
    destruct (rat64_correct n 1) as (F & V); [lia|rewrite E, Rabs_pos_eq by (apply IZR_le; lia); apply Rle_lt_trans with (bpow radix2 40); [rewrite <- IZR_bpow by lia; apply IZR_le; lia|apply bpow_lt; lia]|]. split; [exact F|]. now rewrite V, E.
  Qed.
  Lemma int32 n : 0 < n <= 2 ^ 24 -> is_finite (f64_to_32 (rat64 n 1)) = true /\ B2R (f64_to_32 (rat64 n 1)) = IZR n.
  Proof.
    intros N. destruct (int64 n ltac:(lia)) as (F & V). destruct (fits_int n ltac:(lia)) as (G1 & G2). destruct (narrow_R _ (IZR n) F G1 G2) as (F' & V'); [rewrite V, Rabs_pos_eq; [lra|apply IZR_le; lia]|]. split; [exact F'|]. rewrite V', V. now apply rnd32_id.
  Qed.
  (** The fundamental lies in the bin of its semitone. *)
  Lemma floatbin_1 k : 0 <= k < 84 -> is_finite (floatbin M k 1) = true /\ B2R (floatbin M k 1) = IZR (3 * k + 4).
  Proof.
    intros K. unfold floatbin. cbn [machine up down f_int d_int d_half d_pi f_add f_sub f_mul f_abs d_add d_sub d_mul d_div d_abs d_leb d_ltb d_cos d_log2 fl db].
    replace ((k + 1) * nBPS + 1) with (3 * k + 4) by (unfold nBPS; lia). destruct (int64 (3 * k + 4) ltac:(lia)) as (F & V). destruct (int64 (nBPS * 12) ltac:(unfold nBPS; lia)) as (F2 & V2). destruct (law_log2 L LAW) as (F3 & V3).
    destruct (fmul_R _ _ F2 F3) as (F4 & V4); [rewrite V3, Rmult_0_r, Rabs_R0; unfold big; apply bpow_ge_0|]. rewrite V3, Rmult_0_r, (rnd_id 0) in V4 by apply generic_format_0.
    assert (P : (0 <= IZR (3 * k + 4) <= big)%R) by (split; [apply IZR_le; lia|]; apply Rle_trans with (bpow radix2 40); [rewrite <- IZR_bpow by lia; apply IZR_le; lia|unfold big; apply bpow_le; lia]).
    destruct (fadd_R _ _ F F4) as (F5 & V5); [rewrite V, V4, Rplus_0_r, Rabs_pos_eq; lra|]. rewrite V, V4, Rplus_0_r, (rnd_id (IZR (3 * k + 4))) in V5 by (apply int_format; lia).
    destruct (fits_int (3 * k + 4) ltac:(lia)) as (G1 & G2). destruct (narrow_R _ (IZR (3 * k + 4)) F5 G1 G2) as (F6 & V6); [rewrite V5, Rabs_pos_eq; lra|]. split; [exact F6|]. rewrite V6, V5. now apply rnd32_id.
  Qed.
  Lemma touched_centre s k v n : upto 1 s -> 0 <= k < 84 -> 0 <= n < 2 ^ 24 -> upto (IZR n) v -> (1 <= B2R (touched M s k (3 * k + 3) v 1))%R.
  Proof.
    intros S0 K N V. destruct (floatbin_1 k K) as (FB & VB). destruct (int32 (3 * k + 4) ltac:(lia)) as (FX & VX). destruct (int64 (3 * k + 4) ltac:(lia)) as (FX' & VX'). unfold touched. replace (3 * k + 3 + 1) with (3 * k + 4) by lia.
    assert (G : d_ltb M (d_abs M (d_sub M (d_int M (3 * k + 4)) (up M (floatbin M k 1)))) (d_int M 2) = true).
    { cbn [machine up d_ltb d_abs d_sub d_int fl db]. destruct (f32_to_64_value _ FB) as (FU & VU & _). rewrite VB in VU. destruct (int64 2 ltac:(lia)) as (F2 & V2).
      destruct (fsub_R _ _ FX' FU) as (FS & VS); [rewrite VX', VU; replace (IZR (3 * k + 4) - IZR (3 * k + 4))%R with 0%R by ring; rewrite Rabs_R0; unfold big; apply bpow_ge_0|].
      rewrite VX', VU in VS. replace (IZR (3 * k + 4) - IZR (3 * k + 4))%R with 0%R in VS by ring. rewrite (rnd_id 0) in VS by apply generic_format_0.
      change (sub64 (rat64 (3 * k + 4) 1) (f32_to_64 (floatbin M k 1))) with (fsub (rat64 (3 * k + 4) 1) (f32_to_64 (floatbin M k 1))). rewrite Bltb_correct by (rewrite ?is_finite_Babs; assumption). rewrite B2R_Babs, VS, Rabs_R0, V2. apply Rlt_bool_true. lra. }
    rewrite G. assert (C : B2R (cospuls M (down M (d_int M (3 * k + 4))) (floatbin M k 1) (f_int M nBPS)) = 1%R) by (apply (cospuls_centre L LAW); [exact FX|exact FB|rewrite VB; exact VX|exact three_pw]).
    assert (CU : upto 1 (cospuls M (down M (d_int M (3 * k + 4))) (floatbin M k 1) (f_int M nBPS))) by (apply (cospuls_unit L LAW); exact three_pw). assert (AU := amplitude_unit s 1 S0 ltac:(lia)).
    assert (A : B2R (amplitude M s 1) = 1%R) by exact (law_powf_0 L LAW s S0). set (c := cospuls M _ _ _) in *. set (a := amplitude M s 1) in *. change (f_add M v (f_mul M c a)) with (fadd32 v (mul32 c a)).
    destruct (fits_int 1 ltac:(lia)) as (G1 & G2). destruct (mul_R c a 1 (proj1 CU) (proj1 AU) G1 G2) as (FM & VM); [rewrite C, A, Rmult_1_l, Rabs_R1; lra|]. rewrite C, A, Rmult_1_l, (rnd32_id 1) in VM by exact G1.
    destruct V as (FV & V). destruct (fits_int (n + 1) ltac:(lia)) as (H1 & H2). destruct (add_R v (mul32 c a) (IZR (n + 1)) FV FM H1 H2) as (_ & ->); [rewrite VM, plus_IZR, Rabs_pos_eq; lra|].
    rewrite <- (rnd32_id 1) by exact G1. apply rnd32_le. rewrite VM. lra.
  Qed.
  Lemma dictionary_typed (dm : list b32) (s : b32) : Z.of_nat (length dm) = nNote * 84 -> exists d : list b32, dictionary_matrix M dm s = Ret d /\ Z.of_nat (length d) = nNote * 84 /\
    forall k row, 0 <= k < 84 -> 0 <= row < nNote -> znth z32 d (k * nNote + row) = all_harmonics M s k row (znth z32 dm (k * nNote + row)).
  Proof. exact (dictionary_ok M dm s). Qed.
  Lemma all_upto s k row v n : upto 1 s -> 0 <= n -> n + 20 <= 2 ^ 24 -> upto (IZR n) v -> upto (IZR (n + 20)) (all_harmonics M s k row v).
  Proof.
    intros S0 N B V. assert (LEN : length (zrange 1 20) = 20%nat) by now rewrite zrange_length. assert (IN : forall h, In h (zrange 1 20) -> 1 <= h <= 20) by (intros h; apply zrange_In).
    destruct (harmonics_upto s k row (zrange 1 20) v n S0 IN N ltac:(rewrite LEN; exact B) V) as (A & _). rewrite LEN in A. exact A.
  Qed.
  Lemma fold_cons {A B} (f : A -> B -> A) x l v : fold_left f (x :: l) v = fold_left f l (f v x). Proof. reflexivity. Qed.
  Lemma all_centre s k v n : upto 1 s -> 0 <= k < 84 -> 0 <= n -> n + 20 <= 2 ^ 24 -> upto (IZR n) v -> (1 <= B2R (all_harmonics M s k (3 * k + 3) v : b32))%R.
  Proof.
    intros S0 K N B V. unfold all_harmonics. rewrite zrange_cons by lia. rewrite fold_cons. assert (C := touched_centre s k v n S0 K ltac:(lia) V). destruct (touched_upto s k (3 * k + 3) v 1 n S0 ltac:(lia) ltac:(lia) V) as (V1 & _).
    assert (LEN : length (zrange (1 + 1) 20) = 19%nat) by now rewrite zrange_length. assert (IN : forall h, In h (zrange (1 + 1) 20) -> 1 <= h <= 20) by (intros h Hh; apply zrange_In in Hh; lia).
    destruct (harmonics_upto s k (3 * k + 3) (zrange (1 + 1) 20) _ (n + 1) S0 IN ltac:(lia) ltac:(rewrite LEN; lia) V1) as (_ & G). apply Rle_trans with (1 := C). exact G.
  Qed.
  Lemma dictionary_machine (dm : list b32) (s : b32) n : Z.of_nat (length dm) = nNote * 84 -> upto 1 s -> 0 <= n -> n + 20 <= 2 ^ 24 -> Forall (upto (IZR n)) dm ->
    exists d : list b32, dictionary_matrix M dm s = Ret d /\ Z.of_nat (length d) = nNote * 84 /\ Forall (upto (IZR (n + 20))) d /\ forall k, 0 <= k < 84 -> (1 <= B2R (znth z32 d (k * nNote + (3 * k + 3))))%R.
  Proof.
    intros F S0 N B D. destruct (dictionary_typed dm s F) as (d & E & LD & H). exists d. split; [exact E|]. split; [exact LD|].
    assert (DV : forall j, 0 <= j < nNote * 84 -> upto (IZR n) (znth z32 dm j)) by (intros j J; apply (Forall_znth z32); [exact D|rewrite F; exact J]).
    split.
    - apply (znth_Forall z32). intros j J. rewrite LD in J. assert (Q : (j / nNote) * nNote + j mod nNote = j /\ 0 <= j / nNote < 84 /\ 0 <= j mod nNote < nNote) by (unfold nNote in *; Z.div_mod_to_equations; lia). destruct Q as (Q & K & R0).
      assert (HJ := H _ _ K R0). rewrite Q in HJ. rewrite HJ. apply all_upto; [exact S0|exact N|exact B|]. now apply DV.
    - intros k K. rewrite (H k (3 * k + 3) K ltac:(unfold nNote; lia)). apply all_centre with (n := n); [exact S0|exact K|exact N|exact B|]. apply DV. unfold nNote. lia.
  Qed.

  (** ** The matrix of log frequencies *)
  Lemma elt_map_zrange {T} (f : Z -> T) n i : 0 <= i < n -> elt (map f (zrange 0 (n - 1))) i = Ret (f i).
  Proof.
    intros H. unfold elt, zrange. replace (i <? 0) with false by (symmetry; apply Z.ltb_ge; lia). rewrite map_map. rewrite nth_error_map. replace (n - 1 - 0 + 1) with n by lia.
    rewrite (nth_error_nth' _ 0%nat) by (rewrite seq_length; lia). rewrite seq_nth by lia. cbn [option_map]. do 2 f_equal. lia.
  Qed.
  Lemma flat_map_even {A B} (f : A -> list B) c l : (forall x, length (f x) = c) -> length (flat_map f l) = (length l * c)%nat.
  Proof. intros H. induction l as [|x l IH]; [reflexivity|]. cbn [flat_map length]. rewrite app_length, H, IH. reflexivity. Qed.
  Lemma cq_f_length : length (cq_f L) = 256%nat.
  Proof. unfold cq_f. rewrite app_length. cbn [length]. rewrite (flat_map_even _ 3%nat) by (intros; now rewrite map_length, zrange_length). rewrite zrange_length. reflexivity. Qed.
  Lemma two_pw : pw (-20) 40 (rat32 2 1).
  Proof. destruct (rat32_int 2 ltac:(lia)) as (F & V). split; [exact F|]. rewrite V. split; [apply Rle_trans with (bpow radix2 0); [apply bpow_le; lia|cbn; lra]|apply Rle_trans with (bpow radix2 1); [cbn; lra|apply bpow_le; lia]]. Qed.
  Notation ranges fs block := (1 <= fs < 2 ^ 31 /\ 4 <= block <= 2 ^ 15).
  Lemma hertz fs block : ranges fs block -> pw (-15) 31 (div64 (fmul (rat64 fs 1) one64) (rat64 block 1)).
  Proof. intros (F & B). apply (pw_le (0 + 0 - 15) (31 + 0 - 0)); [lia|lia|]. apply pw_div; [lia|lia| |apply pw_int; cbn; lia]. apply pw_mul; [lia|lia|apply pw_int; cbn; lia|apply pw_int; cbn; lia]. Qed.
  Lemma width_pw fs block : ranges fs block -> pw (-20) 40 (fft_width fs block).
  Proof. intros (F & B). unfold fft_width. apply pw_narrow; [lia|lia|]. apply (pw_le (0 + 1 - 15) (31 + 1 - 0)); [lia|lia|]. apply pw_div; [lia|lia| |apply pw_int; cbn; lia]. apply pw_mul; [lia|lia|apply pw_int; cbn; lia|apply pw_int; cbn; lia]. Qed.
  Lemma oversampled_pw fs block i : ranges fs block -> 1 <= i < oversampling * block / 2 -> pw (-22) 46 (oversampled_f fs block i).
  Proof.
    intros H I0. assert (IB : i <= 2 ^ 21) by (destruct H as (_ & H); unfold oversampling in *; Z.div_mod_to_equations; lia). unfold oversampled_f. apply pw_narrow; [lia|lia|].
    apply (pw_le (0 + (-15 - 7)) (21 + (31 - 6))); [lia|lia|]. apply pw_mul; [lia|lia|apply pw_int; cbn; lia|]. apply pw_div; [lia|lia|now apply hertz|]. apply pw_int; unfold oversampling; cbn; lia.
  Qed.
  Lemma oversampled_0 fs block : ranges fs block -> gt32 (oversampled_f fs block 0) z32 = false.
  Proof.
    intros H. unfold oversampled_f. assert (P : pw (-15 - 7) (31 - 6) (div64 (div64 (fmul (rat64 fs 1) one64) (rat64 block 1)) (rat64 oversampling 1))) by (apply pw_div; [lia|lia|now apply hertz|apply pw_int; unfold oversampling; cbn; lia]). set (x := div64 _ _) in *.
    change (rat64 0 1) with (@B754_zero prec64 emax64 false). destruct P as (F & _). unfold gt32. destruct x as [s|s| |s m e B]; try discriminate F; now destruct s.
  Qed.
  Lemma pitch_upto fs block i cq : ranges fs block -> 0 <= i < oversampling * block / 2 -> upto (bpow radix2 29) (pitch_cospuls L (oversampled_f fs block i) cq (nBPS * 12)).
  Proof.
    intros H I0. unfold pitch_cospuls. destruct (gt32 _ _) eqn:G; [|apply upto_0; apply bpow_ge_0]. destruct (Z.eq_dec i 0) as [->|NZ]; [rewrite oversampled_0 in G by exact H; discriminate G|].
    change 29 with (- (-29)). apply upto_div with (d := 41); [lia|apply (cospuls_unit L LAW); exact two_pw|]. change (-29) with (-7 + -22). change 41 with (-5 + 46). apply pw_mul32; [lia|lia| |apply oversampled_pw; [exact H|lia]].
    apply pw_narrow; [lia|lia|]. apply (pw_le (-1 - 6) (0 - 5)); [lia|lia|]. apply pw_div; [lia|lia| |apply pw_int; unfold nBPS; cbn; lia]. destruct (law_log L LAW) as (A & B). split; [exact A|exact B].
  Qed.
  (** One entry of the matrix, from 0. *)
  Notation value := (get z32).
  Lemma one_entry fs block (out : array b32) N e over act cq start : ranges fs block -> live out N -> 0 <= e < N -> value out e = z32 ->
    (forall i, start <= i < start + 160 -> exists j, elt over i = Ret (oversampled_f fs block j) /\ 0 <= j < oversampling * block / 2) ->
    (forall i, 0 <= i < 160 -> exists a, elt act i = Ret a /\ upto 1 a) ->
    ok (fun out' => size out' = size out /\ live out' N /\ upto (p2 60) (value out' e) /\ forall j, j <> e -> value out' j = value out j)
      (loop start (start + 160 - 1) (fun out iOS => do x <- elt over iOS; do a <- elt act (iOS - start); do v <- rd out e; wr out e (fadd32 v (mul32 (pitch_cospuls L x cq (nBPS * 12)) a))) out).
  Proof.
    intros H LV E0 Z0 OV AC.
    apply ok_weaken with (P := fun out' => size out' = size out /\ live out' N /\ upto (IZR (start + 160 - 1 + 1 - start) * p2 29) (value out' e) /\ forall j, j <> e -> value out' j = value out j).
    - apply (ok_each (fun i out' => size out' = size out /\ live out' N /\ upto (IZR (i - start) * p2 29) (value out' e) /\ forall j, j <> e -> value out' j = value out j)); [lia| |].
      + split; [reflexivity|]. split; [exact LV|]. split; [|reflexivity]. rewrite Z0. apply upto_0. replace (start - start) with 0 by lia. rewrite Rmult_0_l. lra.
      + intros i o I0 (S1 & S2 & S3 & S4). destruct (OV i ltac:(lia)) as (j & -> & J). destruct (AC (i - start) ltac:(lia)) as (a & -> & A). cbn [bind]. rewrite (rd_live z32 o N e S2 E0). cbn [bind].
        rewrite wr_ok by (destruct S2; lia). apply ok_ret. split; [exact S1|]. split; [now apply live_put|]. split.
        * rewrite get_put, Z.eqb_refl. apply (upto_add (IZR (i - start) * p2 29) (p2 29)).
          -- exact S3.
          -- apply (upto_mul (bpow radix2 29) 1); [now apply pitch_upto|exact A| |unfold p2; lra]. rewrite <- (Rmult_1_l (p2 29)). apply (fits_scaled 1); cbn; lia.
          -- apply (fits_scaled (i + 1 - start) 29); [lia|lia|]. apply Z.le_lt_trans with (2 ^ 8 * 2 ^ (29 + 149)); [apply Z.mul_le_mono_nonneg_r; lia|reflexivity].
          -- replace (i + 1 - start) with (i - start + 1) by lia. rewrite plus_IZR. lra.
        * intros k K. rewrite get_put. apply Z.eqb_neq in K. rewrite K. apply S4. now apply Z.eqb_neq.
    - intros o (S1 & S2 & S3 & S4). split; [exact S1|]. split; [exact S2|]. split; [|exact S4]. apply upto_le with (2 := S3). replace (start + 160 - 1 + 1 - start) with 160 by lia. apply Rle_trans with (p2 8 * p2 29)%R; [apply Rmult_le_compat_r; [apply bpow_ge_0|cbn; lra]|]. change (bpow radix2 8 * bpow radix2 29 <= bpow radix2 60)%R. rewrite <- bpow_plus. apply bpow_le. lia.
  Qed.
  Lemma same_cell h i k m q : 0 <= i < h -> 0 <= m < h -> i + h * k = m + h * q -> i = m /\ k = q.
  Proof. intros I0 M0 E. destruct (Z.lt_trichotomy k q) as [C|[C|C]]; [|subst k; lia|]; exfalso; [assert (h * (q - k) >= h * 1) by (apply Z.le_ge, Z.mul_le_mono_nonneg_l; lia)|assert (h * (k - q) >= h * 1) by (apply Z.le_ge, Z.mul_le_mono_nonneg_l; lia)]; lia. Qed.
  Lemma matrix_ok fs block : ranges fs block ->
    ok (fun out => live out (256 * (block / 2)) /\ (forall j, 0 <= j < 256 * (block / 2) -> upto (p2 60) (value out j)) /\ forall k, 0 <= k < 256 -> value out (block / 2 * k) = z32) (log_freq_matrix L fs block (fresh (nNote * block / 2))).
  Proof.
    intros H. assert (B := proj2 H). set (h := block / 2). assert (Hh : 2 <= h) by (unfold h; Z.div_mod_to_equations; lia). assert (HO : 80 * h <= oversampling * block / 2) by (unfold h, oversampling; Z.div_mod_to_equations; lia). assert (HS : 256 * h <= nNote * block / 2) by (unfold h, nNote; Z.div_mod_to_equations; lia).
    unfold log_freq_matrix. fold h. set (over := map (oversampled_f fs block) _). set (fft := map (fft_f fs block) _). rewrite cq_f_length. replace (Z.of_nat (length fft)) with h by (unfold fft; rewrite map_length, zrange_length; lia). change (Z.of_nat 256) with 256.
    assert (OV : forall i, 0 <= i < oversampling * block / 2 -> elt over i = Ret (oversampled_f fs block i)) by (intros i I0; now apply elt_map_zrange).
    assert (FF : forall i, 0 <= i < h -> elt fft i = Ret (fft_f fs block i)) by (intros i I0; now apply elt_map_zrange).
    apply ok_bind with (P := fun act => Z.of_nat (length act) = 160 /\ Forall (upto 1) act).
    { apply ok_weaken with (P := fun act => Z.of_nat (length act) = 2 * oversampling - 1 + 1 /\ Forall (upto 1) act); [|intros act A; exact A].
      apply (ok_each (fun i act => Z.of_nat (length act) = i /\ Forall (upto 1) act)); [unfold oversampling; lia|split; [reflexivity|constructor]|]. intros i act I0 (A1 & A2).
      rewrite OV by (unfold oversampling in *; lia). cbn [bind]. rewrite FF by lia. cbn [bind]. apply ok_ret. rewrite app_length. cbn [length]. split; [rewrite Nat2Z.inj_add; change (Z.of_nat 1) with 1; f_equal; exact A1|]. apply Forall_app. split; [exact A2|]. constructor; [|constructor]. apply (cospuls_unit L LAW). now apply width_pw. }
    intros act (AL & AF). assert (AC : forall i, 0 <= i < 160 -> exists a, elt act i = Ret a /\ upto 1 a) by (intros i I0; exists (znth z32 act i); split; [apply elt_ok; lia|apply (Forall_znth z32); [exact AF|lia]]).
    set (N := 256 * h) in *. apply ok_bind with (P := fun out => size out = nNote * block / 2 /\ live out N /\ forall j, 0 <= j < N -> value out j = z32).
    { replace (h * 256 - 1) with (N - 1) by (unfold N; lia). apply ok_weaken with (P := fun out => size out = nNote * block / 2 /\ live out (N - 1 + 1) /\ forall j, 0 <= j < N - 1 + 1 -> value out j = z32); [|replace (N - 1 + 1) with N by lia; intros out A; exact A].
      apply (ok_each (fun i out => size out = nNote * block / 2 /\ live out i /\ forall j, 0 <= j < i -> value out j = z32)); [unfold N; lia| |].
      - split; [reflexivity|]. split; [apply live_0; cbn [size fresh]; lia|intros j J; lia].
      - intros i o I0 (S1 & S2 & S3). rewrite wr_ok by lia. apply ok_ret. split; [exact S1|]. split; [apply live_extend; [exact S2|lia]|]. intros j J. rewrite get_put. destruct (Z.eqb_spec j i); [reflexivity|]. apply S3. lia. }
    intros out0 (S0 & L0 & V0).
    apply ok_weaken with (P := fun out => size out = nNote * block / 2 /\ live out N /\ (forall j, 0 <= j < N -> upto (p2 60) (value out j)) /\ (forall k, 0 <= k < 256 -> value out (h * k) = z32) /\ forall i k, h - 1 + 1 <= i < h -> 0 <= k < 256 -> value out (i + h * k) = z32).
    2: { intros out (A1 & A2 & A3 & A4 & _). split; [exact A2|]. split; [exact A3|exact A4]. }
    apply (ok_each (fun m out => size out = nNote * block / 2 /\ live out N /\ (forall j, 0 <= j < N -> upto (p2 60) (value out j)) /\ (forall k, 0 <= k < 256 -> value out (h * k) = z32) /\ forall i k, m <= i < h -> 0 <= k < 256 -> value out (i + h * k) = z32)); [lia| |].
    { split; [exact S0|]. split; [exact L0|]. split; [intros j J; rewrite (V0 j J); apply upto_0; apply bpow_ge_0|]. split; [intros k K; apply V0; unfold N; nia|]. intros i k I0 K. apply V0. unfold N. nia. }
    intros m out M0 (A1 & A2 & A3 & A4 & A5). cbv zeta.
    apply ok_weaken with (P := fun out => size out = nNote * block / 2 /\ live out N /\ (forall j, 0 <= j < N -> upto (p2 60) (value out j)) /\ (forall k, 0 <= k < 256 -> value out (h * k) = z32) /\ (forall i k, m + 1 <= i < h -> 0 <= k < 256 -> value out (i + h * k) = z32) /\ forall k, 256 - 1 + 1 <= k < 256 -> value out (m + h * k) = z32).
    2: { intros o (B1 & B2 & B3 & B4 & B5 & _). split; [exact B1|]. split; [exact B2|]. split; [exact B3|]. split; [exact B4|exact B5]. }
    apply (ok_each (fun q out => size out = nNote * block / 2 /\ live out N /\ (forall j, 0 <= j < N -> upto (p2 60) (value out j)) /\ (forall k, 0 <= k < 256 -> value out (h * k) = z32) /\ (forall i k, m + 1 <= i < h -> 0 <= k < 256 -> value out (i + h * k) = z32) /\ forall k, q <= k < 256 -> value out (m + h * k) = z32)); [lia| |].
    { split; [exact A1|]. split; [exact A2|]. split; [exact A3|]. split; [exact A4|]. split; [intros i k I0 K; apply A5; lia|]. intros k K. apply A5; lia. }
    intros q o Q (B1 & B2 & B3 & B4 & B5 & B6). rewrite (elt_ok z32 (cq_f L)) by (rewrite cq_f_length; lia). cbn [bind]. rewrite FF by lia. cbn [bind]. destruct (near_bin _ _ _ _).
    2: { apply ok_ret. split; [exact B1|]. split; [exact B2|]. split; [exact B3|]. split; [exact B4|]. split; [exact B5|]. intros k K. apply B6. lia. }
    set (e := m + h * q). assert (E0 : 0 <= e < N) by (unfold e, N; nia). assert (EN : forall i k, 0 <= i < h -> i <> m \/ k <> q -> i + h * k <> e) by (intros i k I0 D X; destruct (same_cell h i k m q I0 ltac:(lia) X); lia).
    unfold oversampling at 1 2 3 4. replace (80 * m + 80) with (80 * m - 80 + 160) by lia.
    assert (OX : forall i, 80 * m - 80 <= i < 80 * m - 80 + 160 -> exists j, elt over i = Ret (oversampled_f fs block j) /\ 0 <= j < oversampling * block / 2) by (intros i I0; exists i; split; [apply OV|]; lia).
    apply ok_weaken with (1 := one_entry fs block o N e over act (znth z32 (cq_f L) q) (80 * m - 80) H B2 E0 (B6 q ltac:(lia)) OX AC).
    intros o' (C1 & C2 & C3 & C4). split; [now rewrite C1|]. split; [exact C2|]. split; [intros j J; destruct (Z.eq_dec j e) as [->|D]; [exact C3|rewrite C4 by exact D; now apply B3]|].
    split; [intros k K; rewrite C4; [now apply B4|]; apply (EN 0 k); [lia|left; lia]|]. split; [intros i k I0 K; rewrite C4; [now apply B5|]; apply EN; [lia|left; lia]|]. intros k K. rewrite C4; [apply B6; lia|]. apply EN; [lia|right; lia].
  Qed.
End Laws.
