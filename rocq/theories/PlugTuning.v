(** The tunings of the chroma plug-in over a whole run. *)
From Coq Require Import Reals Lra Lia.
From Flocq Require Import Core.Core Relative IEEE754.BinarySingleNaN.
From Verif Require Import Base BaseFacts Fp Options Chromagram ChromaFacts NumberFacts Nnls NnlsArith NnlsFacts NnlsSafe NnlsSingle Plug PlugSpec PlugFacts PlugNum PlugSafe PlugMain PlugClean.
Open Scope Z_scope.

Lemma shaped_impl n (P Q : b32 -> Prop) l : (forall x, P x -> Q x) -> shaped n P l -> shaped n Q l.
Proof. intros H (L & F). split; [exact L|]. apply Forall_impl with (2 := F). exact H. Qed.
Lemma tones_length : length tones = 54%nat. Proof. reflexivity. Qed.
(** Bounds on the sums: 2^102 times a whole number. *)
Definition level (n : Z) : R := (IZR n * p2 102)%R.
Lemma level_le a b : a <= b -> (level a <= level b)%R. Proof. intros H. apply Rmult_le_compat_r; [apply p2_ge0|now apply IZR_le]. Qed.
Lemma level_0 a : 0 <= a -> (0 <= level a)%R. Proof. intros H. apply Rmult_le_pos; [now apply IZR_le|apply p2_ge0]. Qed.
Lemma level_1 : level 1 = p2 102. Proof. unfold level. ring. Qed.
Lemma level_fits n : 0 <= n <= 2 ^ 24 -> fits (level n).
Proof. intros N. apply fits_scaled; [exact N|lia|]. change (102 + 149) with 251. apply Z.le_lt_trans with (2 ^ 24 * 2 ^ 251); [apply Z.mul_le_mono_nonneg_r; lia|]. reflexivity. Qed.
Lemma local_kept x v : upto (p2 102) x -> upto (p2 102) v -> upto (p2 102) (fadd32 (mul32 x ratio_old) (mul32 v (sub32 one32 ratio_old))).
Proof.
  intros X V. destruct (computed ratio_old false 16726884 (-24) ltac:(vm_compute; reflexivity)) as (F1 & V1). destruct (computed (sub32 one32 ratio_old) false 12884992 (-32) ltac:(vm_compute; reflexivity)) as (F2 & V2). cbn [cond_Zopp] in *.
  assert (E24 : (p2 (-24) * p2 102 = p2 78)%R) by (rewrite <- bpow_plus; reflexivity). assert (E32 : (p2 (-32) * p2 102 = p2 70)%R) by (rewrite <- bpow_plus; reflexivity). assert (E78 : (p2 78 = 256 * p2 70)%R) by (change 78 with (8 + 70); rewrite bpow_plus; reflexivity).
  assert (G := bpow_gt_0 radix2 (-24)). assert (G' := bpow_gt_0 radix2 (-32)).
  assert (A : upto (IZR 16726884 * p2 78) (mul32 x ratio_old)).
  { apply upto_mul with (a := p2 102) (b := (16726884 * p2 (-24))%R); [exact X|split; [exact F1|rewrite V1; lra]|apply fits_scaled; [lia|lia|reflexivity]|]. rewrite <- E24. lra. }
  assert (B : upto (IZR 50332 * p2 78) (mul32 v (sub32 one32 ratio_old))).
  { apply upto_mul with (a := p2 102) (b := (12884992 * p2 (-32))%R); [exact V|split; [exact F2|rewrite V2; lra]|apply fits_scaled; [lia|lia|reflexivity]|]. rewrite E78, <- E32. lra. }
  apply upto_add with (1 := A) (2 := B); [rewrite <- level_1; apply level_fits; lia|]. rewrite <- Rmult_plus_distr_r, <- plus_IZR. change (16726884 + 50332) with (2 ^ 24). change (IZR (2 ^ 24)) with (p2 24). rewrite <- bpow_plus. right. reflexivity.
Qed.
Lemma update_tunings_clean n nm mean local : 1 <= n <= 2 ^ 18 - 1 -> shaped nNote (upto (p2 102)) nm -> shaped 3 (upto (level (64 * (n - 1)))) mean -> shaped 3 (upto (p2 102)) local ->
  ok (fun r => shaped 3 (upto (level (64 * n))) (fst r) /\ shaped 3 (upto (p2 102)) (snd r)) (update_tunings n nm mean local).
Proof.
  intros N (NL & NM) (ML & MM) L. unfold update_tunings. rewrite each_over. destruct (one_over n ltac:(lia)) as (U1 & U2). set (x := f64_to_32 _) in *. set (m0 := 64 * (n - 1)) in *. unfold nNote in NL.
  apply ok_weaken with (P := fun r : list b32 * list b32 => shaped 3 (upto (level (m0 + Z.of_nat (length tones)))) (fst r) /\ shaped 3 (upto (p2 102)) (snd r)).
  2: { intros r (A & B). split; [|exact B]. apply shaped_impl with (2 := A). intros y. apply upto_le. apply level_le. rewrite tones_length. lia. }
  apply (ok_over_at (fun done r => shaped 3 (upto (level (m0 + Z.of_nat (length done)))) (fst r) /\ shaped 3 (upto (p2 102)) (snd r))).
  - cbn [fst snd length Z.of_nat]. rewrite Z.add_0_r. split; [|exact L]. split; [now rewrite map_length|]. apply Forall_map. apply Forall_impl with (2 := MM). intros a A. apply upto_mul with (1 := A) (2 := U2); [apply level_fits; lia|lra].
  - intros done t rest (m, l) E (Hm & Hl). cbn [fst snd] in *. assert (T : In t tones) by (rewrite E; apply in_elt). apply tones_In in T. assert (LD : Z.of_nat (length done) + 1 <= 54) by (assert (Q := f_equal (@length Z) E); rewrite tones_length, app_length in Q; cbn [length] in Q; lia).
    rewrite app_length. cbn [length]. set (k := Z.of_nat (length done)) in *. replace (m0 + Z.of_nat (length done + 1)) with (m0 + k + 1) by lia.
    apply ok_bind with (P := shaped 3 (upto (level (m0 + k + 1)))).
    + apply ok_weaken with (P := fun m => Z.of_nat (length m) = 3 /\ forall j, 0 <= j < 3 -> upto (level (if j <? nBPS - 1 + 1 then m0 + k + 1 else m0 + k)) (znth z32 m j)).
      * apply (ok_each (fun i m => Z.of_nat (length m) = 3 /\ forall j, 0 <= j < 3 -> upto (level (if j <? i then m0 + k + 1 else m0 + k)) (znth z32 m j))); unfold nBPS; [lia| |].
        -- destruct Hm as (H1 & H2). split; [exact H1|]. intros j J. replace (j <? 0) with false by (symmetry; apply Z.ltb_ge; lia). apply Forall_znth; [exact H2|lia].
        -- intros i m' I (H1 & H2). at_elt z32. unfold addto. at_elt z32. rewrite upd_ok by lia. apply ok_ret. split; [now rewrite replace_nth_length|]. intros j J. rewrite znth_replace by lia. destruct (Z.eqb_spec j i) as [->|NE].
           ++ replace (i <? i + 1) with true by (symmetry; apply Z.ltb_lt; lia). apply upto_add with (a := level (m0 + k)) (b := p2 102); [specialize (H2 i ltac:(lia)); now rewrite Z.ltb_irrefl in H2| |apply level_fits; lia|].
              ** apply upto_mul with (a := p2 102) (b := 1%R); [apply Forall_znth; [exact NM|lia]|exact U1|rewrite <- level_1; apply level_fits; lia|lra].
              ** rewrite <- level_1. unfold level. rewrite !plus_IZR. lra.
           ++ specialize (H2 j J). destruct (Z.ltb_spec j i), (Z.ltb_spec j (i + 1)); try lia; exact H2.
      * intros m' (H1 & H2). split; [exact H1|]. apply (znth_Forall z32). intros j J. specialize (H2 j ltac:(lia)). unfold nBPS in H2. now replace (j <? 3 - 1 + 1) with true in H2 by (symmetry; apply Z.ltb_lt; lia).
    + intros m' Hm'. apply ok_bind with (P := shaped 3 (upto (p2 102))); [|intros l' Hl'; apply ok_ret; now split].
      apply ok_keep; [exact Hl|]. unfold nBPS. intros i l' I H. assert (H0 := H). destruct H as (H1 & H2). at_elt z32. at_elt z32. rewrite upd_ok by lia. apply ok_ret. apply shaped_replace; [exact H0|]. apply local_kept; apply Forall_znth; try assumption; lia.
Qed.
Lemma sums_clean sins coss tun : length sins = 3%nat -> length coss = 3%nat -> Forall (fun x => below x 1) sins -> Forall (fun x => below x 1) coss -> shaped 3 (upto (p2 126)) tun -> is_nan (fst (sums sins coss tun)) = false /\ is_nan (snd (sums sins coss tun)) = false.
Proof.
  intros S C HS HC (TL & HT). assert (G := p2_ge0 126).
  assert (F : forall k, 1 <= k <= 3 -> fits (IZR k * p2 126)) by (intros k K; apply fits_scaled; [lia|lia|]; change (126 + 149) with 275; apply Z.le_lt_trans with (3 * 2 ^ 275); [apply Z.mul_le_mono_nonneg_r; lia|reflexivity]).
  assert (PR : forall l i, length l = 3%nat -> Forall (fun x => below x 1) l -> 0 <= i < 3 -> below (mul32 (znth z32 tun i) (znth z32 l i)) (p2 126)).
  { intros l i L H I. destruct (Forall_znth z32 _ tun i HT ltac:(lia)) as (F1 & V1). destruct (Forall_znth z32 _ l i H ltac:(lia)) as (F2 & V2). destruct (F 1 ltac:(lia)) as (A & B). rewrite Rmult_1_l in A, B. apply below_mul; try assumption.
    rewrite Rabs_mult, (Rabs_pos_eq (B2R (znth z32 tun i))) by lra. apply Rle_trans with (p2 126 * 1)%R; [|lra]. apply Rmult_le_compat; try lra. apply Rabs_pos. }
  assert (AD : forall k x y, 0 <= k <= 2 -> below x (IZR k * p2 126) -> below y (p2 126) -> below (fadd32 x y) (IZR (k + 1) * p2 126)).
  { intros k x y K (F1 & V1) (F2 & V2). destruct (F (k + 1) ltac:(lia)) as (A & B). apply below_add; try assumption. apply Rle_trans with (1 := Rabs_triang _ _). rewrite plus_IZR. lra. }
  assert (Z0 : below z32 (IZR 0 * p2 126)) by (split; [reflexivity|]; cbn [B2R]; rewrite Rabs_R0; lra).
  assert (GO : forall l, length l = 3%nat -> Forall (fun x => below x 1) l -> is_finite (fadd32 (fadd32 (fadd32 z32 (mul32 (znth z32 tun 0) (znth z32 l 0))) (mul32 (znth z32 tun 1) (znth z32 l 1))) (mul32 (znth z32 tun 2) (znth z32 l 2))) = true).
  { intros l L H. apply (AD 2); [lia| |apply PR; try assumption; lia]. apply (AD 1); [lia| |apply PR; try assumption; lia]. apply (AD 0); [lia|exact Z0|apply PR; try assumption; lia]. }
  unfold sums. change (zrange 0 2) with [0; 1; 2]. cbn [fold_left fst snd]. assert (A := GO coss C HC). assert (B := GO sins S HS). split; [destruct (fadd32 (fadd32 (fadd32 z32 (mul32 _ (znth z32 coss 0))) _) _)|destruct (fadd32 (fadd32 (fadd32 z32 (mul32 _ (znth z32 sins 0))) _) _)]; (reflexivity || discriminate).
Qed.

(** ** Sound of numbers *)
Section Machine.
  Context (atan2 : b32 -> b32 -> b32) {stamp : Type}.
  Notation plug := (@plug stamp).
  Implicit Types (c : setup) (p : plug).
  Record moderate c : Prop := mkModerate {
    md_block : s_block c <= 2 ^ 20; md_kernel : kernel_fits (s_block c / 2) (s_kernel c);
    md_sin : Forall (fun x => below x 1) (s_sin c); md_cos : Forall (fun x => below x 1) (s_cos c) }.
  Record calm p : Prop := mkCalm {
    cm_frames : p_frames p = Z.of_nat (length (p_spectra p)); cm_mean : shaped 3 (upto (level (64 * p_frames p))) (p_mean p); cm_local : shaped 3 (upto (p2 102)) (p_local p); cm_tuning : Forall no_nan (p_tuning p) }.
  Lemma reset_calm : calm reset.
  Proof.
    split; cbn [reset p_frames p_mean p_local p_tuning p_spectra]; [reflexivity| | |constructor].
    - apply (shaped_repeat 3); [lia|]. apply upto_0. apply level_0. lia.
    - apply (shaped_repeat 3); [lia|]. apply upto_0. apply p2_ge0.
  Qed.
  Lemma turn_num (ATAN : atan2_law atan2) y x : is_nan y = false -> is_nan x = false -> no_nan (turn (atan2 y x)).
  Proof. intros Y X. destruct (ATAN y x) as (A & _). destruct A as (A1 & A2); [now split|]. destruct (turn_half _ A1 A2) as (F & _). intros E. rewrite E in F. discriminate F. Qed.
  Lemma process_calm (ATAN : atan2_law atan2) c p t fbuf : ready c -> moderate c -> kept_well p -> calm p -> s_block c <= Z.of_nat (length fbuf) -> Forall num fbuf -> Z.of_nat (length (p_spectra p)) < 2 ^ 18 - 1 ->
    ok (fun r => calm (fst r)) (process atan2 c p t fbuf).
  Proof.
    intros [Rd Rk Rh Rs Rc Rb Rn] [Mb Mk Ms Mc] [Km Kl Kt Kc Ks] [Cf Cm Cl Ct] B F NF. unfold process. rewrite magnitudes_eq by lia. cbn [bind]. set (mag := map _ _). set (mx := fold_left _ _ _).
    assert (D : 0 <= s_block c / 2) by (apply Z.div_pos; lia). assert (D2 := Z.mul_div_le (s_block c) 2 ltac:(lia)).
    assert (M : shaped (s_block c / 2) (upto (IZR (s_block c))) mag).
    { split; [unfold mag; rewrite map_length, zrange_length; lia|]. apply Forall_map. apply Forall_forall. intros k K. apply zrange_In in K. apply magnitude_clean; [lia|exact F|lia|lia]. }
    assert (Z0 : upto (IZR (s_block c)) z32) by (apply upto_0, IZR_le; lia).
    apply ok_bind with (1 := roll_on_ok (upto (IZR (s_block c))) (s_rollon c) _ mag Z0 M). intros mag' M'. cbv zeta. assert (Q := quiet_ok (upto (IZR (s_block c))) mx _ mag' Z0 M').
    apply ok_bind with (1 := note_magnitudes_clean (s_kernel c) _ (s_block c) _ ltac:(lia) Q Mk). intros nm N.
    assert (Cm' : shaped 3 (upto (level (64 * (p_frames p + 1 - 1)))) (p_mean p)) by now replace (p_frames p + 1 - 1) with (p_frames p) by lia.
    apply ok_bind with (1 := update_tunings_clean (p_frames p + 1) nm (p_mean p) (p_local p) ltac:(lia) N Cm' Cl). intros (mean, local) (Hm & Hl). cbn [fst snd] in *.
    rewrite (angle_eq atan2 _ _ _ Rs Rc (shaped3 _ _ Hl)). cbn [bind]. apply ok_ret. split; cbn [fst p_frames p_mean p_local p_tuning p_spectra]; [rewrite app_length; cbn [length]; lia|exact Hm|exact Hl|].
    apply Forall_app. split; [exact Ct|]. constructor; [|constructor]. assert (Hl' : shaped 3 (upto (p2 126)) local) by (apply shaped_impl with (2 := Hl); intros x; apply upto_le; apply bpow_le; lia).
    destruct (sums_clean (s_sin c) (s_cos c) local Rs Rc Ms Mc Hl') as (S1 & S2). now apply turn_num.
  Qed.
  Lemma processed_calm (ATAN : atan2_law atan2) c frames : ready c -> moderate c -> Forall (fun f => s_block c <= Z.of_nat (length (snd f)) /\ Forall num (snd f)) frames -> Z.of_nat (length frames) < 2 ^ 18 ->
    ok (fun p : plug => calm p /\ kept_well p /\ length (p_spectra p) = length frames) (processed atan2 c frames reset).
  Proof.
    intros R M F N. unfold processed. apply (ok_over_at (fun done (p : plug) => calm p /\ kept_well p /\ length (p_spectra p) = length done)); [split; [apply reset_calm|]; split; [apply reset_well|reflexivity]|].
    intros done (t, fbuf) rest p E (Cp & Kp & Lp). assert (B : s_block c <= Z.of_nat (length fbuf) /\ Forall num fbuf) by (rewrite E in F; apply Forall_app in F as (_ & F); now apply Forall_inv in F). destruct B as (B1 & B2).
    assert (LN : Z.of_nat (length (p_spectra p)) < 2 ^ 18 - 1) by (rewrite E, app_length in N; cbn [length] in N; lia).
    apply ok_bind with (1 := ok_and _ _ _ (process_calm ATAN c p t fbuf R M Kp Cp B1 B2 LN) (process_ok atan2 ATAN c p t fbuf R Kp B1)). intros (p', sp) (C' & K' & _ & S'). cbn [fst snd] in *. apply ok_ret. split; [exact C'|]. split; [exact K'|].
    apply (f_equal (@length _)) in S'. rewrite app_length, !map_length in S'. cbn [length] in S'. rewrite app_length. cbn [length]. lia.
  Qed.
  Lemma clean_in_tune (ATAN : atan2_law atan2) c frames p : ready c -> moderate c -> Forall (fun f => s_block c <= Z.of_nat (length (snd f)) /\ Forall num (snd f)) frames -> Z.of_nat (length frames) < 2 ^ 18 ->
    processed atan2 c frames reset = Ret p -> in_tune atan2 c p.
  Proof.
    intros R M F N E. destruct (processed_calm ATAN c frames R M F N) as (p' & E' & [Cf Cm Cl Ct] & K & L). rewrite E in E'. apply Ret_inj in E'. subst p'. right. split; [|now intros _]. unfold mean_angle.
    destruct R as [Rd Rk Rh Rs Rc Rb Rn]. destruct M as [Mb Mk Ms Mc]. assert (Cm' : shaped 3 (upto (p2 126)) (p_mean p)).
    { apply shaped_impl with (2 := Cm). intros x. apply upto_le. replace (p2 126) with (level (2 ^ 24)) by (unfold level; change (IZR (2 ^ 24)) with (p2 24); rewrite <- bpow_plus; reflexivity). apply level_le. lia. }
    destruct (sums_clean (s_sin c) (s_cos c) (p_mean p) Rs Rc Ms Mc Cm') as (S1 & S2). now apply turn_num.
  Qed.
End Machine.
