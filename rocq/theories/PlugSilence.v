(** Blocks without a loud bin are silent in every output of the chroma plug-in. *)
From Coq Require Import Reals Lra Lia.
From Flocq Require Import Core.Core IEEE754.BinarySingleNaN.
From Verif Require Import Base BaseFacts Fp Options Chromagram ChromaFacts FpFacts FloatKit Nnls NnlsArith NnlsFacts NnlsSafe NnlsSingle Plug PlugSpec PlugStageSpec PlugFacts PlugNum PlugSafe PlugFrame PlugChroma PlugMain PlugClean PlugTuning PlugNan PlugNotes PlugNorm PlugStages PlugRun.
Open Scope Z_scope.

Lemma zero_kept (x v : b32) : is_finite v = true -> fadd32 nil32 (times nil32 v) = nil32.
Proof. intros F. destruct v as [[|]|[|]| |[|] m e B]; try discriminate F; reflexivity. Qed.
Lemma silent_notes kernel block rollon fbuf : Forall (fun e : Z * Z * b32 => is_finite (snd e) = true) kernel -> audible (bin_sizes block fbuf) = false -> note_spectrum kernel block rollon fbuf = repeat nil32 256.
Proof.
  intros K A. unfold note_spectrum. apply (znth_ext nil32); [now rewrite map_length, zrange_length, repeat_length|]. intros k Hk. rewrite map_length, zrange_length in Hk. rewrite (znth_map nil32 _ 256) by lia. unfold znth. rewrite (nth_repeat nil32).
  rewrite (note_value_ext kernel _ (fun _ => nil32)) by (intros; unfold heard_bin; cbv zeta; now rewrite A). unfold note_value.
  induction kernel as [|((fft, note), v) kernel IH]; [reflexivity|]. apply Forall_inv in K as K1. apply Forall_inv_tail in K. cbn [filter]. destruct (note =? k); [|now apply IH]. cbn [fold_left]. cbn [snd] in K1. rewrite (zero_kept v v K1). now apply IH.
Qed.
Lemma rest_finite a : below a (1 / 2) -> is_finite (rest_of_bin a) = true /\ nn (rest_of_bin a) /\ is_finite (minus (rat32 1 1) (rest_of_bin a)) = true.
Proof.
  intros A. destruct (shifts_ok a A) as ((i, f) & E & I & N & N'). destruct (shifts_eq a i f E A) as (EI & EF). subst i f. split; [|split; [exact N|]].
  - destruct A as (F & H). destruct (rat32_int 3 ltac:(lia)) as (F3 & V3). apply Rabs_le_inv in H.
    assert (L8 : (8 < bpow radix2 emax32)%R) by (change 8%R with (bpow radix2 3); apply bpow_lt; unfold emax32; lia).
    destruct (below_mul a (rat32 3 1) 8 (fmt_int 8 ltac:(lia)) L8 F F3) as (Ft & Ht); [rewrite V3; apply Rabs_le; lra|]. unfold rest_of_bin. change (times a (rat32 3 1)) with (mul32 a (rat32 3 1)). set (t := mul32 a (rat32 3 1)) in *.
    destruct (rat32_int (whole_bins a) ltac:(lia)) as (Fi & Vi). assert (IZR (-2) <= IZR (whole_bins a) <= IZR 1)%R by (split; apply IZR_le; lia). apply Rabs_le_inv in Ht.
    apply (below_sub t (rat32 (whole_bins a) 1) 16 (fmt_int 16 ltac:(lia))); [change 16%R with (bpow radix2 4); apply bpow_lt; unfold emax32; lia|exact Ft|exact Fi|]. rewrite Vi. apply Rabs_le. lra.
  - destruct A as (F & H). destruct (rat32_int 3 ltac:(lia)) as (F3 & V3). apply Rabs_le_inv in H.
    assert (L8 : (8 < bpow radix2 emax32)%R) by (change 8%R with (bpow radix2 3); apply bpow_lt; unfold emax32; lia).
    destruct (below_mul a (rat32 3 1) 8 (fmt_int 8 ltac:(lia)) L8 F F3) as (Ft & Ht); [rewrite V3; apply Rabs_le; lra|]. unfold rest_of_bin. change (times a (rat32 3 1)) with (mul32 a (rat32 3 1)). set (t := mul32 a (rat32 3 1)) in *.
    destruct (rat32_int (whole_bins a) ltac:(lia)) as (Fi & Vi). assert (IZR (-2) <= IZR (whole_bins a) <= IZR 1)%R by (split; apply IZR_le; lia). apply Rabs_le_inv in Ht.
    destruct (below_sub t (rat32 (whole_bins a) 1) 16 (fmt_int 16 ltac:(lia))) as (Fs & Hs); [change 16%R with (bpow radix2 4); apply bpow_lt; unfold emax32; lia|exact Ft|exact Fi|rewrite Vi; apply Rabs_le; lra|].
    destruct (rat32_int 1 ltac:(lia)) as (F1 & V1). apply Rabs_le_inv in Hs.
    apply (below_sub (rat32 1 1) (sub32 t (rat32 (whole_bins a) 1)) 32 (fmt_int 32 ltac:(lia))); [change 32%R with (bpow radix2 5); apply bpow_lt; unfold emax32; lia|exact F1|exact Fs|]. rewrite V1. apply Rabs_le. lra.
Qed.
Lemma silent_at n k : at_bin (repeat nil32 n) k = nil32. Proof. apply (nth_repeat nil32). Qed.
Lemma silent_retuned a : below a (1 / 2) -> retuned a (repeat nil32 256) = repeat nil32 256.
Proof.
  intros A. destruct (rest_finite a A) as (F & N & F'). unfold retuned. cbv zeta. apply (znth_ext nil32); [now rewrite map_length, zrange_length, repeat_length|]. intros k Hk. rewrite map_length, zrange_length in Hk. rewrite (znth_map nil32 _ 256) by lia. rewrite (silent_at 256 k : znth nil32 _ k = nil32).
  destruct (_ && _); [|reflexivity]. rewrite !silent_at. set (g := minus (rat32 1 1) (rest_of_bin a)) in *. apply nn_iff in N. destruct (rest_of_bin a) as [[|]|[|]| |[|] m e B] eqn:EF; try discriminate F; try contradiction.
  - assert (G : Bsign g = false) by reflexivity. clearbody g. destruct g as [[|]|[|]| |[|] m e B]; try discriminate F'; try discriminate G; reflexivity.
  - clearbody g. destruct g as [[|]|[|]| |[|] m e B]; try discriminate F'; reflexivity.
  - clearbody g. destruct g as [[|]|[|]| |[|] m' e' B']; try discriminate F'; reflexivity.
Qed.
(** Zero of either sign, or not-a-number. *)
Definition naught (x : b32) : Prop := match x with B754_zero _ | B754_nan => True | _ => False end.
Lemma naught_times x y : naught x -> naught (times x y).
Proof. intros X. destruct x as [s|s| |s m e B]; try contradiction; destruct y as [s'|s'| |s' m' e' B']; exact Logic.I. Qed.
Lemma naught_add x y : naught x -> naught y -> naught (fadd32 x y).
Proof. intros X Y. destruct x as [[|]|s| |s m e B]; try contradiction; destruct y as [[|]|s'| |s' m' e' B']; try contradiction; exact Logic.I. Qed.
Lemma naught_minus x y : naught x -> naught y -> naught (minus x y).
Proof. intros X Y. destruct x as [[|]|s| |s m e B]; try contradiction; destruct y as [[|]|s'| |s' m' e' B']; try contradiction; exact Logic.I. Qed.
Lemma naught_root x : naught x -> naught (Bsqrt mode_NE x).
Proof. intros X. destruct x as [[|]|s| |s m e B]; try contradiction; exact Logic.I. Qed.
Lemma naught_not_above x : naught x -> Bltb nil32 x = false.
Proof. intros X. destruct x as [[|]|s| |s m e B]; try contradiction; reflexivity. Qed.
Lemma naught_running window l k : (forall i, naught (at_bin l i)) -> naught (running window l k).
Proof.
  intros H. unfold running. cbv zeta. generalize (zrange 0 (Z.of_nat (length window) - 1)). intros ms. assert (G : forall s, naught s -> naught (fold_left (fun s m => fadd32 s (times (at_bin l (Z.max (Z.of_nat (length window) / 2) (Z.min k (255 - Z.of_nat (length window) / 2)) + Z.of_nat (length window) / 2 - m)) (at_bin window m))) ms s)); [|now apply G].
  induction ms as [|m ms IH]; intros s S; cbn [fold_left]; [exact S|]. apply IH. apply naught_add; [exact S|]. apply naught_times, H.
Qed.
Lemma silent_whitened powf window w : whitened powf window w (repeat nil32 256) = repeat nil32 256.
Proof.
  unfold whitened. apply (znth_ext nil32); [now rewrite map_length, zrange_length, repeat_length|]. intros k Hk. rewrite map_length, zrange_length in Hk. rewrite (znth_map nil32 _ 256) by lia. rewrite naught_not_above; [reflexivity|]. unfold spread. apply naught_root, naught_running.
  intros i. unfold at_bin. assert (X : forall q, naught (times (excess window (repeat nil32 256) q) (excess window (repeat nil32 256) q))).
  { intros q. apply naught_times. unfold excess. apply naught_minus; [now rewrite silent_at|]. apply naught_running. intros j. now rewrite silent_at. }
  unfold znth. destruct (Nat.lt_ge_cases (Z.to_nat i) (length (zrange 0 255))) as [L|L].
  - rewrite (nth_indep _ nil32 ((fun k => times (excess window (repeat nil32 256) k) (excess window (repeat nil32 256) k)) 0)) by (rewrite map_length; exact L). rewrite map_nth with (f := fun k => times (excess window (repeat nil32 256) k) (excess window (repeat nil32 256) k)). apply X.
  - rewrite nth_overflow by (rewrite map_length; exact L). exact Logic.I.
Qed.
Lemma silent_chroma : chroma_of treblewindow (repeat z32 84) = repeat z32 12 /\ chroma_of basswindow (repeat z32 84) = repeat z32 12.
Proof. split; vm_compute; reflexivity. Qed.
Lemma silent_norms kind : norms kind (repeat z32 12) (repeat z32 12) (repeat z32 24) = (z32, z32, z32).
Proof. unfold norms. destruct (kind =? 1); [reflexivity|]. destruct (kind =? 2); [reflexivity|]. destruct (kind =? 3); reflexivity. Qed.
Lemma silent_normalised s r : normalised s (repeat z32 12) (repeat z32 12) = Ret r -> r = (repeat z32 12, repeat z32 12, repeat z32 24).
Proof.
  unfold normalised. change (repeat z32 12 ++ repeat z32 12) with (repeat z32 24). cbv zeta. destruct (gt32 s z32); [|intros E; now apply Ret_inj in E]. destruct (to_int _) as [kind| |]; try discriminate. cbn [bind]. rewrite silent_norms. intros E. apply Ret_inj in E. now subst r.
Qed.
Lemma nth_error_both {A B} (l : list A) (m : list B) k a b : nth_error l k = Some a -> nth_error m k = Some b -> nth_error (combine l m) k = Some (a, b).
Proof. revert l m. induction k as [|k IH]; intros [|x l] [|y m]; try discriminate; cbn; intros H1 H2; [congruence|now apply IH]. Qed.
Section Machine.
  Context (atan2 powf : b32 -> b32 -> b32) (ATAN : atan2_law atan2) (POW : forall s w, gt32 s z32 = true -> Bsign (powf s w) = false) {stamp : Type}.
  Implicit Types (c : setup).
  Lemma tunings_numbers c (frames : list (stamp * list b32)) o : ready c -> Forall (fun f => s_block c <= Z.of_nat (length (snd f))) frames -> analyse atan2 powf c frames = Ret o ->
    Forall (fun a => below a (1 / 2)) (tunings atan2 (s_tuneLocal c) (s_sin c) (s_cos c) (map (fun f => notes c (snd f)) frames)).
  Proof.
    intros R F E. destruct (analyse_cases atan2 powf ATAN POW c frames R F) as (p & Ep & K & S & T1 & T2). assert (D : in_tune atan2 c p \/ ~ in_tune atan2 c p) by apply Classical_Prop.classic. destruct D as [D|D]; [|rewrite T2 in E by exact D; discriminate E].
    rewrite (processed_eq atan2 powf c frames R F) in Ep. apply Ret_inj in Ep. subst p. set (spectra := map (fun f => notes c (snd f)) frames) in *.
    assert (H : forall a, half_turn a -> no_nan a -> below a (1 / 2)) by (intros a [A|A] N; [contradiction|exact A]). destruct D as [D|(D1 & D2)].
    - cbn [p_spectra] in D. assert (spectra = []) by (unfold spectra in *; destruct frames; [reflexivity|discriminate D]). unfold tunings. rewrite H0. constructor.
    - unfold tunings. destruct (s_tuneLocal c); [specialize (D2 eq_refl); cbn [p_tuning] in D2; rewrite Forall_forall in *; intros a X; apply H; [|now apply D2]; apply in_map_iff in X as (n & <- & _); now apply tuning_angle_half|].
      apply Forall_map, Forall_forall. intros n _. apply H; [now apply tuning_angle_half|]. exact D1.
  Qed.
  Lemma silence c (frames : list (stamp * list b32)) o : ready c -> Forall (fun e : Z * Z * b32 => is_finite (snd e) = true) (s_kernel c) -> Forall (fun f => s_block c <= Z.of_nat (length (snd f))) frames -> analyse atan2 powf c frames = Ret o ->
    forall k f, nth_error frames k = Some f -> audible (bin_sizes (s_block c) (snd f)) = false ->
      nth_error (o_tuned o) k = Some (fst f, repeat nil32 256) /\ nth_error (o_notes o) k = Some (fst f, repeat nil32 84) /\ nth_error (o_treble o) k = Some (fst f, repeat nil32 12) /\ nth_error (o_bass o) k = Some (fst f, repeat nil32 12) /\ nth_error (o_both o) k = Some (fst f, repeat nil32 24).
  Proof.
    intros R Q F E k f Hf A. assert (T := tunings_numbers c frames o R F E).
    assert (X : nth_error (o_tuned o) k = Some (fst f, repeat nil32 256)).
    { rewrite (analyse_tuned atan2 powf ATAN c frames o R F E). unfold tuned_frames. cbv zeta. set (spectra := map (fun f => notes c (snd f)) frames) in *. set (tun := tunings _ _ _ _ _) in *.
      assert (KL : (k < length frames)%nat) by (apply nth_error_Some; congruence). assert (LT : length tun = length spectra) by apply tunings_length. assert (LS : length spectra = length frames) by apply map_length.
      rewrite nth_error_map. assert (C : nth_error (combine (map fst frames) (combine tun spectra)) k = Some (fst f, (nth k tun z32, repeat nil32 256))).
      { assert (N1 : nth_error (map fst frames) k = Some (fst f)) by (rewrite nth_error_map, Hf; reflexivity). assert (N2 : nth_error tun k = Some (nth k tun z32)) by (apply nth_error_nth'; lia).
        assert (N3 : nth_error spectra k = Some (repeat nil32 256)) by (unfold spectra; rewrite nth_error_map, Hf; exact (f_equal Some (silent_notes _ _ _ _ Q A))).
        exact (nth_error_both _ _ _ _ _ N1 (nth_error_both _ _ _ _ _ N2 N3)). }
      rewrite C. cbn [option_map]. do 2 f_equal. rewrite silent_retuned, silent_whitened; [reflexivity|]. rewrite Forall_forall in T. apply T. apply nth_In. lia. }
    split; [exact X|]. destruct (analyse_frames atan2 powf ATAN POW c frames o R F E) as (G & parts & P & -> & -> & -> & ->). assert (SN : notes_of (s_useNNLS c) (s_dict c) (repeat nil32 256) = repeat z32 84).
    { apply notes_of_silent; [now rewrite repeat_length|]. apply Forall_forall. intros v V. apply repeat_spec in V. now subst v. }
    split; [rewrite nth_error_map, X; cbn [option_map fst snd]; now rewrite SN|].
    assert (B : nth_error parts k = Some (repeat z32 12, repeat z32 12, repeat z32 24)).
    { clear - P X SN. revert k X. induction P as [|tf abc l parts H P IH]; intros [|k] X; try discriminate X; cbn [nth_error] in X |- *; [|now apply IH]. apply Some_inj in X. subst tf. cbn [snd] in H. rewrite SN in H. destruct silent_chroma as (S1 & S2). rewrite S1, S2 in H. apply silent_normalised in H. now subst abc. }
    assert (C : forall (sel : list b32 * list b32 * list b32 -> list b32), nth_error (combine (map fst (o_tuned o)) (map sel parts)) k = Some (fst f, sel (repeat z32 12, repeat z32 12, repeat z32 24))).
    { intros sel. assert (N1 : nth_error (map fst (o_tuned o)) k = Some (fst f)) by (rewrite nth_error_map, X; reflexivity). assert (N2 : nth_error (map sel parts) k = Some (sel (repeat z32 12, repeat z32 12, repeat z32 24))) by (rewrite nth_error_map, B; reflexivity).
      exact (nth_error_both _ _ _ _ _ N1 N2). }
    split; [apply (C (fun abc => fst (fst abc)))|]. split; [apply (C (fun abc => snd (fst abc)))|apply (C snd)].
  Qed.
End Machine.

(** ** The size of the shift *)
Lemma shift_range a : below a (1 / 2) -> -2 <= whole_bins a <= 1 /\ is_finite (rest_of_bin a) = true /\ (0 <= B2R (rest_of_bin a) <= 1)%R.
Proof.
  intros A. destruct (shifts_ok a A) as ((i, f) & E & I & _). destruct (shifts_eq a i f E A) as (EI & _). subst i. split; [exact I|]. destruct A as (F & H). destruct (rat32_int 3 ltac:(lia)) as (F3 & V3). apply Rabs_le_inv in H.
  assert (L8 : (8 < bpow radix2 emax32)%R) by (change 8%R with (bpow radix2 3); apply bpow_lt; unfold emax32; lia). assert (L1 : (1 < bpow radix2 emax32)%R) by (change 1%R with (bpow radix2 0); apply bpow_lt; unfold emax32; lia).
  destruct (below_mul a (rat32 3 1) 8 (fmt_int 8 ltac:(lia)) L8 F F3) as (Ft & _); [rewrite V3; apply Rabs_le; lra|]. unfold rest_of_bin. change (times a (rat32 3 1)) with (mul32 a (rat32 3 1)). unfold whole_bins in *. change (times a (rat32 3 1)) with (mul32 a (rat32 3 1)) in I |- *.
  set (t := mul32 a (rat32 3 1)) in *. clearbody t. set (i := Zfloor (B2R t)) in *. destruct (rat32_int i ltac:(lia)) as (Fi & Vi). assert (P := Zfloor_lb (B2R t)). assert (Q := Zfloor_ub (B2R t)). fold i in P, Q.
  destruct (sub_R t (rat32 i 1) 1 Ft Fi (fmt_int 1 ltac:(lia)) L1) as (Fs & Vs); [rewrite Vi; apply Rabs_le; lra|]. rewrite Vi in Vs. split; [exact Fs|]. change (minus t (rat32 i 1)) with (sub32 t (rat32 i 1)). rewrite Vs.
  split; [apply round_nn; lra|]. rewrite <- (rnd32_id 1 (fmt_int 1 ltac:(lia))). apply rnd32_le. lra.
Qed.
