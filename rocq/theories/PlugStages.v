(** The chroma plug-in computes what PlugStageSpec.v says. *)
From Coq Require Import Reals Lra Lia.
From Flocq Require Import Core.Core IEEE754.BinarySingleNaN.
From Verif Require Import Base BaseFacts Fp Options Chromagram ChromaFacts TextSpec ChromaSpec NumberFacts SequenceFacts FpFacts HmmAccuracy FloatKit Nnls NnlsArith NnlsFacts NnlsSafe NnlsSingle Plug PlugSpec PlugStageSpec PlugFacts PlugNum PlugSafe PlugFrame PlugMain PlugClean PlugTuning PlugNan PlugNotes.
Open Scope Z_scope.

(** ** Lists *)
Lemma znth_ext {T} (d : T) (l l' : list T) : length l = length l' -> (forall k, 0 <= k < Z.of_nat (length l) -> znth d l k = znth d l' k) -> l = l'.
Proof. intros L H. apply (nth_ext l l' d d L). intros n N. specialize (H (Z.of_nat n) ltac:(lia)). unfold znth in H. now rewrite !Nat2Z.id in H. Qed.
Lemma map_znth (l : list b32) : map (at_bin l) (zrange 0 (Z.of_nat (length l) - 1)) = l.
Proof. apply (znth_ext nil32); [rewrite map_length, zrange_length; lia|]. intros k K. rewrite map_length, zrange_length in K. apply znth_map. lia. Qed.
Lemma appended {T} (g : Z -> T) l acc : fold_left (fun (r : list T) k => r ++ [g k]) l acc = acc ++ map g l.
Proof. revert acc. induction l as [|k l IH]; intros acc; cbn [fold_left map]; [now rewrite app_nil_r|]. rewrite IH, <- app_assoc. reflexivity. Qed.

(** ** From a block to notes *)
Lemma bin_magnitude block fbuf i : magnitude block fbuf i = bin_size block fbuf i. Proof. reflexivity. Qed.
Lemma power_energy l : fold_left energy l z32 = power l. Proof. reflexivity. Qed.
Lemma roll_on_eq rollon l : roll_on rollon l = Ret (map (fun k => if rolled_off rollon l k then nil32 else at_bin l k) (zrange 0 (Z.of_nat (length l) - 1))).
Proof.
  unfold roll_on. unfold rolled_off. change (gt32 rollon z32) with (Bltb nil32 rollon). destruct (Bltb nil32 rollon); [|cbn [andb]; now rewrite map_znth].
  cbn [andb]. rewrite power_energy. cbv zeta. change (mul32 (power l) rollon) with (times (power l) rollon). set (limit := fdiv32 _ _). set (small := fun j => Bltb (power (map (at_bin l) (zrange 2 j))) limit).
  set (n := Z.of_nat (length l)). destruct (Z_lt_ge_dec n 2) as [N|N].
  { unfold loop. rewrite zrange_nil by lia. cbn [each bind]. f_equal. rewrite <- map_znth at 1. apply map_ext_in. intros k K. apply zrange_In in K. replace (k + 2 <? n) with false by (symmetry; apply Z.ltb_ge; lia). reflexivity. }
  set (Inv := fun i (st : list b32 * b32 * bool) => let '(mag, cum, go) := st in exists b, 2 <= b <= i /\ (forall j, 2 <= j < b -> small j = true) /\ (go = true -> b = i /\ cum = power (map (at_bin l) (zrange 2 (i - 1)))) /\ (go = false -> b < i /\ small b = false) /\
    length mag = length l /\ forall k, 0 <= k < n -> znth z32 mag k = if k + 2 <? b then z32 else znth z32 l k).
  match goal with |- context [loop 2 (n - 1) ?f ?s] => assert (G : ok (Inv (n - 1 + 1)) (loop 2 (n - 1) f s)) end.
  { apply ok_each; [lia| |].
    - exists 2. split; [lia|]. split; [lia|]. split; [intros _; split; [reflexivity|]; now rewrite zrange_nil by lia|]. split; [discriminate|]. split; [reflexivity|]. intros k K. replace (k + 2 <? 2) with false by (symmetry; apply Z.ltb_ge; lia). reflexivity.
    - intros i ((mag, cum), go) I (b & B & S & G1 & G2 & L & M). destruct go.
      + destruct (G1 eq_refl) as (-> & ->). rewrite (elt_ok z32) by (unfold n in I; lia). cbn [bind]. rewrite M by lia. replace (i + 2 <? i) with false by (symmetry; apply Z.ltb_ge; lia).
        assert (C : energy (power (map (at_bin l) (zrange 2 (i - 1)))) (znth z32 l i) = power (map (at_bin l) (zrange 2 i))).
        { replace i with (i - 1 + 1) at 3 by lia. rewrite zrange_snoc, map_app by lia. unfold power at 2. rewrite fold_left_app. replace (i - 1 + 1) with i by lia. reflexivity. }
        rewrite C. cbv zeta. change (Bltb (power (map (at_bin l) (zrange 2 i))) limit) with (small i). destruct (small i) eqn:SI.
        * rewrite upd_ok by (unfold n in I; lia). cbn [bind]. apply ok_ret. exists (i + 1). split; [lia|]. split; [intros j J; destruct (Z.eq_dec j i) as [-> |J']; [exact SI|apply S; lia]|]. split; [intros _; split; [reflexivity|]; now replace (i + 1 - 1) with i by lia|]. split; [discriminate|].
          split; [rewrite replace_nth_length; exact L|]. intros k K. rewrite (znth_replace z32) by (unfold n in I; lia). rewrite M by exact K. destruct (k =? i - 2) eqn:E; [apply Z.eqb_eq in E; replace (k + 2 <? i + 1) with true by (symmetry; apply Z.ltb_lt; lia); reflexivity|apply Z.eqb_neq in E].
          destruct (k + 2 <? i) eqn:E2; [apply Z.ltb_lt in E2; replace (k + 2 <? i + 1) with true by (symmetry; apply Z.ltb_lt; lia)|apply Z.ltb_ge in E2; replace (k + 2 <? i + 1) with false by (symmetry; apply Z.ltb_ge; lia)]; reflexivity.
        * apply ok_ret. exists i. split; [lia|]. split; [exact S|]. split; [discriminate|]. split; [intros _; split; [lia|exact SI]|]. now split.
      + destruct (G2 eq_refl) as (G3 & G4). apply ok_ret. exists b. split; [lia|]. split; [exact S|]. split; [discriminate|]. split; [intros _; split; [lia|exact G4]|]. now split. }
  destruct G as (((mag, cum), go) & E & b & B & S & G1 & G2 & L & M). rewrite E. cbn [bind]. f_equal. apply (znth_ext z32); [rewrite map_length, zrange_length; unfold n; lia|].
  intros k K. rewrite L in K. fold n in K. rewrite M by exact K. rewrite (znth_map z32) by exact K. fold small. replace ((k + 2 <? n) && forallb small (zrange 2 (k + 2))) with (k + 2 <? b); [reflexivity|].
  replace (n - 1 + 1) with n in * by lia. destruct (k + 2 <? b) eqn:E1; symmetry.
  - apply Z.ltb_lt in E1. apply andb_true_intro. split; [apply Z.ltb_lt; lia|]. apply forallb_forall. intros j J. apply zrange_In in J. apply S. lia.
  - apply Z.ltb_ge in E1. destruct (k + 2 <? n) eqn:E2; [|reflexivity]. apply Z.ltb_lt in E2. cbn [andb]. destruct go; [destruct (G1 eq_refl); lia|]. destruct (G2 eq_refl) as (G3 & G4). destruct (forallb _ _) eqn:E3; [|reflexivity]. rewrite forallb_forall in E3. rewrite E3 in G4; [discriminate G4|]. apply zrange_In. lia.
Qed.
(** Quiet frames. *)
Lemma not_loud (v : b32) : num v -> Bleb (rat32 2 1) v = false -> Bltb v (rat32 2 1) = true.
Proof.
  intros V H. assert (F2 : is_finite (rat32 2 1) = true) by reflexivity. unfold Bleb, Bltb, SpecFloat.SFleb, SpecFloat.SFltb in *. assert (S := Bcompare_swap prec32 emax32 v (rat32 2 1)). unfold Bcompare in S.
  destruct (SpecFloat.SFcompare (B2SF (rat32 2 1)) (B2SF v)) as [[| |]|] eqn:C1; try discriminate H.
  - destruct (SpecFloat.SFcompare (B2SF v) (B2SF (rat32 2 1))) as [[| |]|]; try discriminate S. reflexivity.
  - exfalso. clear - C1 V. destruct (rat32_int 2 ltac:(lia)) as (F2 & _). destruct (rat32 2 1) as [s2|s2| |s2 m2 e2 B2]; try discriminate F2; destruct v as [s|s| |s m e B]; try discriminate V; cbn in C1; try (destruct s; discriminate C1); try (destruct s2; discriminate C1).
Qed.
Lemma quiet_iff l mx : num mx -> Bltb mx (rat32 2 1) = true -> Bltb (fold_left larger l mx) (rat32 2 1) = negb (audible l).
Proof.
  intros M H. destruct (audible l) eqn:A; cbn [negb].
  - apply loud_kept; [exact M|]. right. apply existsb_exists in A. now apply Exists_exists.
  - revert mx M H. induction l as [|v l IH]; intros mx M H; cbn [fold_left]; [exact H|]. unfold audible in A. cbn [existsb] in A. apply Bool.orb_false_iff in A as (A1 & A2).
    apply IH; [exact A2|now apply larger_num|]. unfold larger. destruct (Bltb mx v) eqn:E; [|exact H]. apply not_loud; [|exact A1]. assert (X := larger_num mx v M). unfold larger in X. now rewrite E in X.
Qed.
Lemma note_magnitudes_eq kernel mag : Forall (fun '(fft, note, _) => 0 <= fft < Z.of_nat (length mag) /\ 0 <= note < nNote) kernel -> note_magnitudes kernel mag = Ret (map (note_value kernel (at_bin mag)) (zrange 0 255)).
Proof.
  intros K. unfold note_magnitudes. enough (G : ok (fun nm => length nm = 256%nat /\ forall k, 0 <= k < 256 -> znth z32 nm k = note_value kernel (at_bin mag) k) (over (fun nm '(fft, note, v) => do m <- elt mag fft; addto nm note (mul32 m v)) kernel (repeat z32 (Z.to_nat nNote)))).
  { destruct G as (nm & -> & L & G). f_equal. apply (znth_ext z32); [now rewrite map_length, zrange_length|]. intros k H. rewrite L in H. rewrite G by lia. symmetry. apply (znth_map z32 _ 256). lia. }
  apply (ok_over_at (fun done nm => length nm = 256%nat /\ forall k, 0 <= k < 256 -> znth z32 nm k = note_value done (at_bin mag) k)).
  - split; [apply repeat_length|]. intros k H. unfold znth, note_value. cbn [filter fold_left]. apply (nth_repeat z32).
  - intros done ((fft, note), v) rest nm E (L & N). assert (B : 0 <= fft < Z.of_nat (length mag) /\ 0 <= note < nNote) by (rewrite E in K; apply Forall_app in K as (_ & K); now apply Forall_inv in K). destruct B as (B1 & B2). unfold nNote in B2.
    rewrite (elt_ok z32) by exact B1. cbn [bind]. unfold addto. rewrite (elt_ok z32) by lia. cbn [bind]. rewrite upd_ok by lia. apply ok_ret. split; [now rewrite replace_nth_length|]. intros k H. rewrite (znth_replace z32) by lia.
    unfold note_value. rewrite filter_app, fold_left_app. cbn [filter]. rewrite (Z.eqb_sym note k). destruct (k =? note) eqn:Q; [apply Z.eqb_eq in Q; subst k|]; cbn [fold_left]; [rewrite N by lia; reflexivity|now apply N].
Qed.
(** ** The tuning *)
Lemma tones_eq : tones = map (fun t => 3 * t) (zrange 0 53). Proof. reflexivity. Qed.
Lemma three (l : list b32) : length l = 3%nat -> l = [at_bin l 0; at_bin l 1; at_bin l 2].
Proof. destruct l as [|a [|b [|c [|]]]]; try discriminate. reflexivity. Qed.
Lemma update_tunings_eq n nm mean local : length nm = 256%nat -> length mean = 3%nat -> length local = 3%nat -> update_tunings n nm mean local = Ret (mean_next n mean nm, local_next local nm).
Proof.
  intros N M L. unfold update_tunings. set (part := f64_to_32 (Bdiv mode_NE (rat64 1 1) (rat64 n 1))). rewrite tones_eq. rewrite (three local L) at 1. rewrite (three mean M) at 1. cbn [map].
  unfold mean_next, local_next. fold part. cbn [map].
  assert (H : forall ts a b c x y z, (forall t, In t ts -> 0 <= t <= 53) -> each (fun '(mean, local) iTone =>
      do mean <- loop 0 (nBPS - 1) (fun mean i => do v <- elt nm (iTone + i); addto mean i (mul32 v part)) mean;
      do local <- loop 0 (nBPS - 1) (fun local i => do x <- elt local i; do v <- elt nm (iTone + i); upd local i (fadd32 (mul32 x ratio_old) (mul32 v (sub32 one32 ratio_old)))) local;
      Ret (mean, local)) (map (fun t => 3 * t) ts) ([a; b; c], [x; y; z]) =
    Ret ([fold_left (fun s tone => fadd32 s (times (at_bin nm (3 * tone + 0)) part)) ts a; fold_left (fun s tone => fadd32 s (times (at_bin nm (3 * tone + 1)) part)) ts b; fold_left (fun s tone => fadd32 s (times (at_bin nm (3 * tone + 2)) part)) ts c],
         [fold_left (fun s tone => fadd32 (times s old_part) (times (at_bin nm (3 * tone + 0)) (minus (rat32 1 1) old_part))) ts x; fold_left (fun s tone => fadd32 (times s old_part) (times (at_bin nm (3 * tone + 1)) (minus (rat32 1 1) old_part))) ts y;
          fold_left (fun s tone => fadd32 (times s old_part) (times (at_bin nm (3 * tone + 2)) (minus (rat32 1 1) old_part))) ts z])).
  { induction ts as [|t ts IH]; intros a b c x y z T; [reflexivity|]. cbn [map each fold_left]. assert (T0 := T t (or_introl eq_refl)). unfold loop at 1 2. change (zrange 0 (nBPS - 1)) with [0; 1; 2]. cbn [each].
    rewrite !(elt_ok z32 nm) by lia. cbn [bind]. unfold addto. change (elt [a; b; c] 0) with (Ret a). cbn [bind].
    match goal with |- context [upd [a; b; c] 0 ?v] => change (upd [a; b; c] 0 v) with (Ret [v; b; c]); set (a' := v) end. cbn [bind]. change (elt [a'; b; c] 1) with (Ret b). cbn [bind].
    match goal with |- context [upd [a'; b; c] 1 ?v] => change (upd [a'; b; c] 1 v) with (Ret [a'; v; c]); set (b' := v) end. cbn [bind]. change (elt [a'; b'; c] 2) with (Ret c). cbn [bind].
    match goal with |- context [upd [a'; b'; c] 2 ?v] => change (upd [a'; b'; c] 2 v) with (Ret [a'; b'; v]); set (c' := v) end. cbn [bind].
    change (elt [x; y; z] 0) with (Ret x). cbn [bind]. match goal with |- context [upd [x; y; z] 0 ?v] => change (upd [x; y; z] 0 v) with (Ret [v; y; z]); set (x' := v) end. cbn [bind]. change (elt [x'; y; z] 1) with (Ret y). cbn [bind].
    match goal with |- context [upd [x'; y; z] 1 ?v] => change (upd [x'; y; z] 1 v) with (Ret [x'; v; z]); set (y' := v) end. cbn [bind]. change (elt [x'; y'; z] 2) with (Ret z). cbn [bind].
    match goal with |- context [upd [x'; y'; z] 2 ?v] => change (upd [x'; y'; z] 2 v) with (Ret [x'; y'; v]); set (z' := v) end. cbn [bind].
    rewrite IH by (intros t' T'; apply T; now right). reflexivity. }
  rewrite H by (intros t T; now apply zrange_In in T). reflexivity.
Qed.
Lemma tuning_angle_eq atan2 sins coss l : length sins = 3%nat -> length coss = 3%nat -> length l = 3%nat -> angle atan2 sins coss l = Ret (tuning_angle atan2 sins coss l).
Proof. intros S C L. rewrite (angle_eq atan2 sins coss l S C L). reflexivity. Qed.
Lemma shifts_eq a i f : shifts a = Ret (i, f) -> below a (1 / 2) -> i = whole_bins a /\ f = rest_of_bin a.
Proof.
  intros E (F & H). unfold shifts in E. destruct (rat32_int 3 ltac:(lia)) as (F3 & V3).
  assert (B32 : fmt (3 / 2)) by (replace (3 / 2)%R with (3 * bpow radix2 (-1))%R by (change (bpow radix2 (-1)) with (/ 2)%R; lra); apply fmt_scaled; lia).
  assert (L32 : (3 / 2 < bpow radix2 emax32)%R) by (apply Rlt_trans with (bpow radix2 1); [change (bpow radix2 1) with 2%R; lra|apply bpow_lt; unfold emax32; lia]).
  apply Rabs_le_inv in H. assert (P : (Rabs (B2R a * B2R (rat32 3 1)) <= 3 / 2)%R) by (rewrite V3; apply Rabs_le; lra).
  destruct (below_mul a (rat32 3 1) (3 / 2) B32 L32 F F3 P) as (Ft & Ht). unfold rest_of_bin, whole_bins. change (times a (rat32 3 1)) with (mul32 a (rat32 3 1)). set (t3 := mul32 a (rat32 3 1)) in *. clearbody t3. apply Rabs_le_inv in Ht.
  destruct (f32_to_64_value t3 Ft) as (F' & V' & _). destruct (ffloor_floored (f32_to_64 t3) F') as (Ff & Vf). rewrite V' in Vf. set (j := Zfloor (B2R t3)) in *.
  assert (J : (-2 <= j <= 1)%Z).
  { assert (A := Zfloor_lb (B2R t3)). assert (B := Zfloor_ub (B2R t3)). fold j in A, B. split; [apply Z.lt_succ_r; apply lt_IZR; rewrite succ_IZR; lra|apply Z.lt_succ_r; apply lt_IZR; rewrite succ_IZR; lra]. }
  assert (W : whole (ffloor (f32_to_64 t3)) j) by (split; [exact Ff|]; split; [exact Vf|lia]). rewrite (to_int_whole _ _ W) in E. cbn [bind] in E. apply Ret_inj in E. apply pair_equal_spec in E as (<- & <-). now split.
Qed.
Lemma tuned_eq i f f1 : -2 <= i <= 1 -> length f1 = 256%nat -> tuned i f f1 = Ret (map (fun k => if (2 <=? k) && (k <=? 252) then fadd32 (times (at_bin f1 (k + i)) (minus (rat32 1 1) f)) (times (at_bin f1 (k + i + 1)) f) else nil32) (zrange 0 255)).
Proof.
  intros I L. unfold tuned. rewrite L. change (Z.of_nat 256 - 4) with 252. set (g := fun k => fadd32 (times (at_bin f1 (k + i)) (minus (rat32 1 1) f)) (times (at_bin f1 (k + i + 1)) f)).
  rewrite (loop_pure _ (fun l k => l ++ [g k])); [|intros l k K; rewrite !(elt_ok z32) by lia; reflexivity]. cbn [bind]. rewrite appended. f_equal.
Qed.

(** ** Whitening *)
Lemma convolution_eq l hw h : length l = 256%nat -> Z.of_nat (length hw) = 2 * h + 1 -> 0 <= h <= 127 -> special_convolution l hw = Ret (map (running hw l) (zrange 0 255)).
Proof.
  intros L K H. unfold special_convolution. rewrite K. assert (E : (2 * h + 1) / 2 = h) by (symmetry; apply (Z.div_unique _ _ _ 1); lia). rewrite E, L. change (Z.of_nat 256) with 256.
  set (conv := fun q => fold_left (fun s m => fadd32 s (times (at_bin l (q + h - m)) (at_bin hw m))) (zrange 0 (2 * h + 1 - 1)) nil32).
  assert (R : forall k, running hw l k = conv (Z.max h (Z.min k (255 - h)))) by (intros k; unfold running; rewrite K, E; reflexivity).
  enough (G : ok (fun z => length z = 256%nat /\ forall k, 0 <= k < 256 -> znth z32 z k = conv (Z.max h (Z.min k (255 - h)))) (
    do z <- loop (2 * h + 1 - 1) (256 - 1) (fun z n =>
      do s <- loop 0 (2 * h + 1 - 1) (fun s m => do c <- elt l (n - m); do k <- elt hw m; Ret (fadd32 s (mul32 c k))) z32;
      upd z (n - h) s) (repeat z32 (Z.to_nat nNote));
    do z <- loop 0 (h - 1) (fun z n => do v <- elt z h; upd z n v) z;
    loop 256 (256 + h - 1) (fun z n => do v <- elt z (256 - h - 1); upd z (n - h) v) z)).
  { destruct G as (z & -> & Lz & G). f_equal. apply (znth_ext z32); [now rewrite map_length, zrange_length|]. intros k Hk. rewrite Lz in Hk. rewrite G by lia. symmetry. etransitivity; [apply (znth_map z32 _ 256); lia|apply R]. }
  apply ok_bind with (P := fun z => length z = 256%nat /\ forall q, h <= q < 256 - h -> znth z32 z q = conv q).
  { apply ok_weaken with (P := fun z => length z = 256%nat /\ forall q, h <= q < 256 - 1 + 1 - h -> znth z32 z q = conv q); [|intros z (A & B); split; [exact A|]; intros q Q; apply B; lia].
    apply (ok_each (fun n z => length z = 256%nat /\ forall q, h <= q < n - h -> znth z32 z q = conv q)); [lia|split; [apply repeat_length|lia]|].
    intros n z I (Lz & Z0). rewrite (loop_pure _ (fun s m => fadd32 s (times (at_bin l (n - m)) (at_bin hw m)))) by (intros s m M; rewrite !(elt_ok z32) by lia; reflexivity). cbn [bind]. rewrite upd_ok by lia. apply ok_ret. split; [now rewrite replace_nth_length|].
    intros q Q. rewrite (znth_replace z32) by lia. destruct (q =? n - h) eqn:EQ; [|apply Z.eqb_neq in EQ; apply Z0; lia]. apply Z.eqb_eq in EQ. unfold conv. subst q. replace (n - h + h) with n by lia. reflexivity. }
  intros z (Lz & Z0). apply ok_bind with (P := fun z => length z = 256%nat /\ forall q, 0 <= q < 256 - h -> znth z32 z q = conv (Z.max h q)).
  { apply ok_weaken with (P := fun z => length z = 256%nat /\ (forall q, h <= q < 256 - h -> znth z32 z q = conv q) /\ forall q, 0 <= q < h - 1 + 1 -> znth z32 z q = conv h).
    - apply (ok_each (fun n z => length z = 256%nat /\ (forall q, h <= q < 256 - h -> znth z32 z q = conv q) /\ forall q, 0 <= q < n -> znth z32 z q = conv h)); [lia|split; [exact Lz|split; [exact Z0|lia]]|].
      intros n z' I (L' & A & B). rewrite (elt_ok z32) by lia. cbn [bind]. rewrite upd_ok by lia. apply ok_ret. split; [now rewrite replace_nth_length|]. split; intros q Q; rewrite (znth_replace z32) by lia.
      + destruct (q =? n) eqn:EQ; [apply Z.eqb_eq in EQ; lia|now apply A].
      + destruct (q =? n) eqn:EQ; [apply A; lia|apply Z.eqb_neq in EQ; apply B; lia].
    - intros z' (L' & A & B). split; [exact L'|]. intros q Q. destruct (Z_lt_ge_dec q h) as [Q1|Q1]; [rewrite Z.max_l by lia; apply B; lia|rewrite Z.max_r by lia; apply A; lia]. }
  intros z2 (L2 & Z2). apply ok_weaken with (P := fun z => length z = 256%nat /\ (forall q, 0 <= q < 256 - h -> znth z32 z q = conv (Z.max h q)) /\ forall q, 256 - h <= q < 256 + h - 1 + 1 - h -> znth z32 z q = conv (255 - h)).
  - apply (ok_each (fun n z => length z = 256%nat /\ (forall q, 0 <= q < 256 - h -> znth z32 z q = conv (Z.max h q)) /\ forall q, 256 - h <= q < n - h -> znth z32 z q = conv (255 - h))); [lia|split; [exact L2|split; [exact Z2|lia]]|].
    intros n z' I (L' & A & B). rewrite (elt_ok z32) by lia. cbn [bind]. rewrite upd_ok by lia. apply ok_ret. split; [now rewrite replace_nth_length|]. split; intros q Q; rewrite (znth_replace z32) by lia.
    + destruct (q =? n - h) eqn:EQ; [apply Z.eqb_eq in EQ; lia|now apply A].
    + destruct (q =? n - h) eqn:EQ; [rewrite A by lia; f_equal; lia|apply Z.eqb_neq in EQ; apply B; lia].
  - intros z' (L' & A & B). split; [exact L'|]. intros k Hk. destruct (Z_lt_ge_dec k (256 - h)) as [Q1|Q1]; [rewrite Z.min_l by lia; apply A; lia|rewrite Z.min_r by lia; rewrite Z.max_r by lia; apply B; lia].
Qed.
Lemma whiten_eq powf hw h w l : length l = 256%nat -> Z.of_nat (length hw) = 2 * h + 1 -> 0 <= h <= 127 -> exists e, whiten powf hw w l = Ret (whitened powf hw w l, e).
Proof.
  intros L K H. unfold whiten. rewrite (convolution_eq l hw h L K H). cbn [bind]. unfold nNote. change (256 - 1) with 255.
  assert (RM : forall (m : list b32) i, 0 <= i <= 255 -> elt (map (running hw m) (zrange 0 255)) i = Ret (running hw m i)).
  { intros m i I. rewrite (elt_ok z32) by (rewrite map_length, zrange_length; lia). f_equal. apply (znth_map z32 _ 256). lia. }
  rewrite (loop_pure _ (fun r k => r ++ [times (excess hw l k) (excess hw l k)])); [|intros r k R; rewrite (elt_ok z32) by lia; cbn [bind]; rewrite RM by lia; reflexivity]. cbn [bind]. rewrite appended. cbn [app]. set (sq := map _ (zrange 0 255)).
  assert (Lsq : length sq = 256%nat) by (unfold sq; now rewrite map_length, zrange_length). rewrite (convolution_eq sq hw h Lsq K H). cbn [bind].
  set (W := fun k => if Bltb nil32 (spread hw l k) then (if Bltb nil32 (excess hw l k) then fdiv32 (excess hw l k) (powf (spread hw l k) w) else nil32) else at_bin l k).
  match goal with |- context [loop 0 255 ?f ?s] => enough (G : ok (fun r : list b32 * Z => length (fst r) = 256%nat /\ forall q, 0 <= q < 256 -> znth z32 (fst r) q = W q) (loop 0 255 f s)) end.
  { destruct G as ((f2, e) & G & A & B). exists e. rewrite G. do 2 f_equal. cbn [fst] in *. apply (znth_ext z32); [unfold whitened; now rewrite map_length, zrange_length|]. intros k Hk. rewrite A in Hk. rewrite B by lia. symmetry. apply (znth_map z32 W 256). lia. }
  apply ok_weaken with (P := fun r : list b32 * Z => length (fst r) = 256%nat /\ (forall q, 0 <= q < 255 + 1 -> znth z32 (fst r) q = W q) /\ forall q, 255 + 1 <= q < 256 -> znth z32 (fst r) q = at_bin l q); [|intros r (A & B & _); split; [exact A|]; intros q Q; apply B; lia].
  apply (ok_each (fun i (r : list b32 * Z) => length (fst r) = 256%nat /\ (forall q, 0 <= q < i -> znth z32 (fst r) q = W q) /\ forall q, i <= q < 256 -> znth z32 (fst r) q = at_bin l q)); [lia|split; [exact L|split; [lia|reflexivity]]|].
  intros i (f2, e) I (A & B & C). cbn [fst] in *. rewrite !RM by lia. cbn [bind]. cbv zeta. rewrite (elt_ok z32 f2) by lia. cbn [bind]. rewrite C by lia.
  change (sqrt32 (running hw sq i)) with (spread hw l i). change (sub32 (at_bin l i) (running hw l i)) with (excess hw l i). change (gt32 (spread hw l i) z32) with (Bltb nil32 (spread hw l i)). change (gt32 (excess hw l i) z32) with (Bltb nil32 (excess hw l i)).
  apply ok_bind with (P := fun f => length f = 256%nat /\ forall q, 0 <= q < 256 -> znth z32 f q = if q =? i then W i else znth z32 f2 q).
  - destruct (Bltb nil32 (spread hw l i)) eqn:S.
    + rewrite upd_ok by lia. apply ok_ret. split; [now rewrite replace_nth_length|]. intros q Q. rewrite (znth_replace z32) by lia. destruct (q =? i); [|reflexivity]. unfold W. rewrite S. reflexivity.
    + apply ok_ret. split; [exact A|]. intros q Q. destruct (q =? i) eqn:EQ; [|reflexivity]. apply Z.eqb_eq in EQ. subst q. unfold W. rewrite S. apply C. lia.
  - intros f (A' & F). rewrite (elt_ok z32) by lia. cbn [bind]. apply ok_ret. cbn [fst]. split; [exact A'|]. split; intros q Q; rewrite F by lia; (destruct (q =? i) eqn:EQ; [apply Z.eqb_eq in EQ|apply Z.eqb_neq in EQ]); try lia; [now subst q|apply B; lia|apply C; lia].
Qed.
