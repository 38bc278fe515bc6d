(** Facts about the mix-down to mono. *)
From Coq Require Import Lia Lra Reals.
From Flocq Require Import Core.Core Mult_error IEEE754.BinarySingleNaN.
From Verif Require Import Base BaseFacts Fp Options Mixdown ChromaSpec.
From Coq Require Import ZifyBool ZifyNat.
Open Scope Z_scope.

Lemma skipn_next {A} (d : A) n : forall l x r, skipn n l = x :: r -> skipn (S n) l = r /\ nth n l d = x.
Proof. induction n as [|n IH]; intros l x r E; destruct l as [|y l]; try discriminate; cbn in E; [injection E as -> ->; now split|]. now apply IH in E. Qed.
Lemma fold_znth {A} (g : A -> b32 -> A) n : forall k buf a, (k + n <= length buf)%nat ->
  fold_left (fun acc c => g acc (znth zero32 buf (Z.of_nat k + c))) (zseq n) a = fold_left g (firstn n (skipn k buf)) a.
Proof.
  unfold zseq. intros k buf a H.
  assert (G : forall m j a, (k + j + m <= length buf)%nat ->
    fold_left (fun acc c => g acc (znth zero32 buf (Z.of_nat k + c))) (map Z.of_nat (seq j m)) a = fold_left g (firstn m (skipn (k + j) buf)) a).
  { induction m as [|m IH]; intros j b L; [reflexivity|]. cbn [seq map fold_left]. rewrite IH by lia.
    destruct (skipn (k + j) buf) as [|x r] eqn:E.
    - apply (f_equal (@length _)) in E. rewrite skipn_length in E. cbn in E. lia.
    - destruct (skipn_next zero32 _ _ _ _ E) as [E1 E2]. cbn [firstn fold_left]. replace (k + S j)%nat with (S (k + j)) by lia. rewrite E1.
      unfold znth. replace (Z.to_nat (Z.of_nat k + Z.of_nat j)) with (k + j)%nat by lia. now rewrite E2. }
  rewrite (G n O a) by lia. now rewrite Nat.add_0_r.
Qed.
Definition frames_of (ch : nat) (frs : list (list b32)) : Prop := Forall (fun fr => length fr = ch) frs.
Lemma concat_length ch frs : frames_of ch frs -> length (concat frs) = (length frs * ch)%nat.
Proof. induction 1 as [|fr frs L F IH]; [reflexivity|]. cbn [concat length]. rewrite app_length, L, IH. lia. Qed.
Lemma firstn_concat ch frs n : frames_of ch frs -> firstn (n * ch) (concat frs) = concat (firstn n frs).
Proof.
  revert frs. induction n as [|n IH]; intros frs F; [reflexivity|]. destruct F as [|fr frs L F]; [now rewrite !firstn_nil|]. cbn [concat firstn].
  rewrite firstn_app, firstn_all2 by lia. f_equal. replace (S n * ch - length fr)%nat with (n * ch)%nat by lia. now apply IH.
Qed.
Lemma skipn_concat ch frs n : frames_of ch frs -> skipn (n * ch) (concat frs) = concat (skipn n frs).
Proof.
  revert frs. induction n as [|n IH]; intros frs F; [reflexivity|]. destruct F as [|fr frs L F]; [now rewrite !skipn_nil|]. cbn [concat skipn].
  rewrite skipn_app, skipn_all2 by lia. cbn [app]. replace (S n * ch - length fr)%nat with (n * ch)%nat by lia. now apply IH.
Qed.
Lemma frames_firstn ch frs n : frames_of ch frs -> frames_of ch (firstn n frs).
Proof. intros F. revert n. induction F; intros [|n]; constructor; auto. apply IHF. Qed.
Lemma frames_skipn ch frs n : frames_of ch frs -> frames_of ch (skipn n frs).
Proof. intros F. revert n. induction F; intros [|n]; [constructor|constructor|now constructor|apply IHF]. Qed.
Lemma mix_sample_mono ch frs i : frames_of ch frs -> (i < length frs)%nat -> mix_sample (Z.of_nat ch) (concat frs) (Z.of_nat i) = mono (nth i frs []).
Proof.
  intros F I. unfold mix_sample, mono. rewrite Nat2Z.id.
  rewrite <- Nat2Z.inj_mul.
  rewrite (fold_znth (fun acc x => fadd32 acc (fdiv32 x (float_of_int (Z.of_nat ch)))) ch (i * ch) (concat frs)) by (rewrite (concat_length ch) by exact F; nia).
  rewrite (skipn_concat ch) by exact F. replace (firstn ch (concat (skipn i frs))) with (concat (firstn 1 (skipn i frs))).
  2:{ rewrite <- (firstn_concat ch) by now apply frames_skipn. now rewrite Nat.mul_1_l. }
  assert (E : firstn 1 (skipn i frs) = [nth i frs []]).
  { clear - I. revert i I. induction frs as [|fr frs IH]; intros [|i] I; cbn in I |- *; try lia; [reflexivity|]. apply (IH i). lia. }
  rewrite E. cbn [concat]. rewrite app_nil_r. unfold frames_of in F. rewrite Forall_forall in F. rewrite (F (nth i frs [])); [reflexivity|]. now apply nth_In.
Qed.
Lemma mix_block_mono bs ch frs : frames_of ch frs -> (length frs <= bs)%nat ->
  mix_block (Z.of_nat bs) (Z.of_nat ch) (Z.of_nat (length frs)) (concat frs) = map mono frs ++ repeat zero32 (bs - length frs).
Proof.
  intros F L. unfold mix_block. rewrite Nat2Z.id. unfold zseq. rewrite map_map. replace bs with (length frs + (bs - length frs))%nat at 1 by lia.
  rewrite seq_app, map_app. f_equal.
  - apply nth_ext with (d := mono []) (d' := mono []); [now rewrite !map_length, seq_length|]. intros n Hn. rewrite map_length, seq_length in Hn. rewrite map_nth.
    rewrite nth_indep with (d' := (fun i : nat => if Z.of_nat i <? Z.of_nat (length frs) then mix_sample (Z.of_nat ch) (concat frs) (Z.of_nat i) else zero32) O) by (now rewrite map_length, seq_length).
    rewrite (map_nth (fun i : nat => if Z.of_nat i <? Z.of_nat (length frs) then mix_sample (Z.of_nat ch) (concat frs) (Z.of_nat i) else zero32)). rewrite seq_nth by exact Hn.
    cbn [Nat.add]. replace (Z.of_nat n <? Z.of_nat (length frs)) with true by lia. now apply mix_sample_mono.
  - assert (G : forall m j, (length frs <= j)%nat -> map (fun i : nat => if Z.of_nat i <? Z.of_nat (length frs) then mix_sample (Z.of_nat ch) (concat frs) (Z.of_nat i) else zero32) (seq j m) = repeat zero32 m).
    { induction m as [|m IH]; intros j J; [reflexivity|]. cbn [seq map repeat]. replace (Z.of_nat j <? Z.of_nat (length frs)) with false by lia. f_equal. apply IH. lia. }
    apply G. lia.
Qed.
Lemma mix_loop_spec bs ch F : (0 < bs)%nat -> (0 < ch)%nat -> forall fuel f frs, frames_of ch frs -> (length frs < fuel)%nat -> 0 <= f ->
  f + Z.of_nat (length frs) <= F -> f + Z.of_nat (length frs) <= INT_MAX ->
  exists blocks, mix_loop fuel (Z.of_nat bs) (Z.of_nat ch) F f (concat frs) = Ret blocks /\
    Forall (fun b => length (snd b) = bs) blocks /\ map fst blocks = map (fun k => f + Z.of_nat bs * k) (zseq (length blocks)) /\
    exists pad, (pad < bs)%nat /\ concat (map snd blocks) = map mono frs ++ repeat zero32 pad.
Proof.
  intros Hb Hc. induction fuel as [|fuel IH]; intros f frs Fr Fu Hf HF HM; [lia|]. cbn [mix_loop].
  assert (Q : Z.of_nat (length (concat frs)) / Z.of_nat ch = Z.of_nat (length frs)).
  { rewrite (concat_length ch) by exact Fr. rewrite Nat2Z.inj_mul. apply Z.div_mul. lia. }
  rewrite Q. destruct (f <? F) eqn:L.
  2:{ assert (frs = []) as -> by (destruct frs; [reflexivity|cbn in HF; lia]). exists []. split; [reflexivity|]. split; [constructor|]. split; [reflexivity|]. exists O. split; [exact Hb|reflexivity]. }
  destruct frs as [|fr0 frs0] eqn:Efrs.
  { cbn [length Z.of_nat]. replace (Z.min (Z.of_nat bs) 0 <=? 0) with true by lia. exists []. split; [reflexivity|]. split; [constructor|]. split; [reflexivity|]. exists O. split; [exact Hb|reflexivity]. }
  rewrite <- Efrs in *. assert (Np : (0 < length frs)%nat) by (subst; cbn; lia). clear Efrs fr0 frs0.
  set (n := Nat.min bs (length frs)). replace (Z.min (Z.of_nat bs) (Z.of_nat (length frs))) with (Z.of_nat n) by lia.
  replace (Z.of_nat n <=? 0) with false by lia. replace (INT_MAX <? f + Z.of_nat n) with false by lia.
  replace (Z.to_nat (Z.of_nat n * Z.of_nat ch)) with (n * ch)%nat by lia. rewrite (skipn_concat ch), (firstn_concat ch) by exact Fr.
  assert (Ls : length (skipn n frs) = (length frs - n)%nat) by apply skipn_length.
  destruct (IH (f + Z.of_nat n) (skipn n frs)) as (blocks & E & W & K & pad & Hp & C); [now apply frames_skipn|lia|lia|lia|lia|].
  rewrite E. cbn [bind]. eexists. split; [reflexivity|].
  assert (Lf : length (firstn n frs) = n) by (apply firstn_length_le; lia).
  assert (B : mix_block (Z.of_nat bs) (Z.of_nat ch) (Z.of_nat n) (concat (firstn n frs)) = map mono (firstn n frs) ++ repeat zero32 (bs - n)).
  { rewrite <- Lf at 1. rewrite mix_block_mono; [now rewrite Lf|now apply frames_firstn|lia]. }
  rewrite B. split; [constructor; [|exact W]; cbn [snd]; rewrite app_length, map_length, repeat_length; lia|].
  destruct (Nat.le_gt_cases bs (length frs)) as [G|G].
  - assert (n = bs) by lia. replace (bs - n)%nat with O in * by lia. cbn [repeat]. rewrite app_nil_r. split.
    + cbn [map fst length]. rewrite K. unfold zseq. cbn [seq map]. f_equal; [lia|]. rewrite <- seq_shift, !map_map. apply map_ext. intros k. lia.
    + exists pad. split; [exact Hp|]. cbn [map snd concat]. rewrite C, app_assoc, <- map_app, firstn_skipn. reflexivity.
  - assert (n = length frs) by lia. assert (blocks = []) as ->.
    { assert (X : skipn n frs = []) by (apply skipn_all2; lia). rewrite X in C. cbn [map app] in C.
      destruct blocks as [|b blocks]; [reflexivity|]. exfalso. inversion W as [|? ? Wb _]; subst. apply (f_equal (@length _)) in C. cbn [map concat] in C. rewrite app_length, repeat_length in C. cbn [snd] in *. lia. }
    split; [cbn; f_equal; lia|]. exists (bs - n)%nat. split; [lia|]. cbn [map snd concat]. rewrite app_nil_r. f_equal. f_equal. rewrite firstn_all2 by lia. reflexivity.
Qed.
Lemma C42_blocks_proof bs ch F frs : (0 < bs)%nat -> (0 < ch)%nat -> Forall (fun fr => length fr = ch) frs -> Z.of_nat (length frs) <= F -> Z.of_nat (length frs) <= INT_MAX ->
  exists blocks, mix_file (Z.of_nat bs) (Z.of_nat ch) F (concat frs) = Ret blocks /\
    Forall (fun b => length (snd b) = bs) blocks /\ map fst blocks = map (fun k => Z.of_nat bs * k) (zseq (length blocks)) /\
    exists pad, (pad < bs)%nat /\ concat (map snd blocks) = map mono frs ++ repeat (B754_zero false) pad.
Proof.
  intros Hb Hc Fr HF HM. unfold mix_file. destruct (mix_loop_spec bs ch F Hb Hc (S (Z.to_nat F)) 0 frs Fr) as (blocks & E & W & K & P); try lia.
  exists blocks. repeat split; assumption.
Qed.

(** ** Exactness and accuracy *)
Notation fexp32 := (FLT_exp (3 - emax32 - prec32) prec32).
Notation rnd32 := (round radix2 fexp32 ZnearestE).
Lemma small_error x e : (-100 <= e <= 100)%Z -> (Rabs x <= bpow radix2 e)%R -> (Rabs (rnd32 x - x) <= bpow radix2 (e - 24))%R.
Proof.
  intros E H. eapply Rle_trans; [apply error_le_half_ulp; typeclasses eauto|].
  apply Rle_trans with (/ 2 * ulp radix2 fexp32 (bpow radix2 e))%R.
  - apply Rmult_le_compat_l; [lra|]. apply ulp_le; [typeclasses eauto..|]. now rewrite (Rabs_pos_eq (bpow radix2 e)) by apply bpow_ge_0.
  - rewrite ulp_bpow. replace (fexp32 (e + 1)) with (e - 24 + 1) by (unfold FLT_exp; cbv [emax32 prec32]; lia). rewrite bpow_plus. change (bpow radix2 1) with 2%R. lra.
Qed.
Lemma b32_format (x : b32) : generic_format radix2 fexp32 (B2R x).
Proof. apply generic_format_B2R. Qed.
Lemma no_overflow x : (Rabs x <= 4)%R -> (Rabs (rnd32 x) < bpow radix2 128)%R.
Proof.
  intros H. pose proof (small_error x 2 ltac:(lia) ltac:(cbn; lra)) as E.
  apply Rle_lt_trans with 5%R; [|apply Rlt_trans with (bpow radix2 3); [cbn; lra|apply bpow_lt; lia]].
  replace (rnd32 x) with (rnd32 x - x + x)%R by ring. eapply Rle_trans; [apply Rabs_triang|]. assert (bpow radix2 (2 - 24) <= 1)%R by (change 1%R with (bpow radix2 0); apply bpow_le; lia). lra.
Qed.
Lemma add32 (x y : b32) : is_finite x = true -> is_finite y = true -> (Rabs (rnd32 (B2R x + B2R y)) < bpow radix2 128)%R ->
  is_finite (fadd32 x y) = true /\ B2R (fadd32 x y) = rnd32 (B2R x + B2R y).
Proof.
  intros Fx Fy H. pose proof (Bplus_correct prec32 emax32 prec32_gt_0 prec32_lt mode_NE x y Fx Fy) as C.
  rewrite Rlt_bool_true in C by exact H. destruct C as (V & F & _). now split.
Qed.
Lemma div32 (x y : b32) : is_finite x = true -> B2R y <> 0%R -> (Rabs (rnd32 (B2R x / B2R y)) < bpow radix2 128)%R ->
  is_finite (fdiv32 x y) = true /\ B2R (fdiv32 x y) = rnd32 (B2R x / B2R y).
Proof.
  intros Fx Ny H. pose proof (Bdiv_correct prec32 emax32 prec32_gt_0 prec32_lt mode_NE x y Ny) as C.
  rewrite Rlt_bool_true in C by exact H. destruct C as (V & F & _). split; [etransitivity; [exact F|exact Fx]|exact V].
Qed.
Lemma count32 n : 0 <= n <= 2 ^ 24 -> is_finite (float_of_int n) = true /\ B2R (float_of_int n) = IZR n.
Proof.
  intros H. pose proof (binary_normalize_correct prec32 emax32 prec32_gt_0 prec32_lt mode_NE n 0 false) as C. cbv zeta in C.
  assert (V : F2R (Float radix2 n 0) = IZR n) by (unfold F2R; cbn; ring). rewrite V in C.
  assert (G : generic_format radix2 fexp32 (IZR n)).
  { destruct (Z.eq_dec n (2 ^ 24)) as [-> |D]; [change (IZR (2 ^ 24)) with (IZR (radix2 ^ 24)); rewrite IZR_Zpower by lia; apply generic_format_bpow; unfold FLT_exp; cbv [emax32 prec32]; lia|].
    apply generic_format_FLT. exists (Float radix2 n 0); [now rewrite V|cbn; change (2 ^ prec32) with (2 ^ 24); lia|cbn; cbv [emax32 prec32]; lia]. }
  rewrite round_generic in C; [|apply valid_rnd_round_mode|exact G]. rewrite Rlt_bool_true in C.
  - destruct C as (A & B & _). now split.
  - rewrite Rabs_pos_eq by (apply IZR_le; lia). apply Rle_lt_trans with (IZR (radix2 ^ 24)); [apply IZR_le; change (radix2 ^ 24) with (2 ^ 24); lia|]. rewrite IZR_Zpower by lia. apply bpow_lt. cbv [emax32]. lia.
Qed.
Lemma b32_lt (x : b32) : (Rabs (B2R x) < bpow radix2 128)%R.
Proof. exact (abs_B2R_lt_emax prec32 emax32 x). Qed.
Lemma zero_add32 (x : b32) : is_finite x = true -> is_finite (fadd32 zero32 x) = true /\ B2R (fadd32 zero32 x) = B2R x.
Proof.
  intros F. assert (E : rnd32 (B2R zero32 + B2R x) = B2R x) by (cbn [zero32 B2R]; rewrite Rplus_0_l; apply round_generic; [typeclasses eauto|apply b32_format]).
  destruct (add32 zero32 x eq_refl F) as [A B]; [rewrite E; apply b32_lt|]. split; [exact A|now rewrite B].
Qed.
Lemma C42_one_proof x : is_finite x = true -> is_finite (mono [x]) = true /\ B2R (mono [x]) = B2R x.
Proof.
  intros F. unfold mono. cbn [length fold_left]. destruct (count32 1 ltac:(lia)) as [C1 C2]. change (binary_normalize prec32 emax32 _ _ mode_NE (Z.of_nat 1) 0 false) with (float_of_int 1).
  assert (E : rnd32 (B2R x / B2R (float_of_int 1)) = B2R x) by (rewrite C2; unfold Rdiv; rewrite Rinv_1, Rmult_1_r; apply round_generic; [typeclasses eauto|apply b32_format]).
  destruct (div32 x (float_of_int 1) F) as [D1 D2]; [rewrite C2; lra|rewrite E; apply b32_lt|]. rewrite E in D2.
  destruct (zero_add32 _ D1) as [Z1 Z2]. split; [exact Z1|]. etransitivity; [exact Z2|exact D2].
Qed.
Lemma half_format (x : b32) : (B2R x = 0 \/ bpow radix2 (-125) <= Rabs (B2R x))%R -> generic_format radix2 fexp32 (B2R x / 2).
Proof.
  intros [Z|L]; [rewrite Z; unfold Rdiv; rewrite Rmult_0_l; apply generic_format_0|].
  assert (N : B2R x <> 0%R) by (intros Q; rewrite Q, Rabs_R0 in L; pose proof (bpow_gt_0 radix2 (-125)); lra).
  replace (B2R x / 2)%R with (B2R x * bpow radix2 (-1))%R by (cbn; lra).
  apply mult_bpow_exact_FLT; [apply b32_format|]. change (3 - emax32 - prec32 + prec32) with (-125).
  pose proof (mag_gt_bpow radix2 (B2R x) (-125) L) as M. lia.
Qed.
Lemma C42_two_proof x : is_finite x = true -> (B2R x = 0 \/ bpow radix2 (-125) <= Rabs (B2R x))%R -> is_finite (mono [x; x]) = true /\ B2R (mono [x; x]) = B2R x.
Proof.
  intros F L. unfold mono. cbn [length fold_left]. destruct (count32 2 ltac:(lia)) as [C1 C2]. change (binary_normalize prec32 emax32 _ _ mode_NE (Z.of_nat 2) 0 false) with (float_of_int 2).
  assert (E : rnd32 (B2R x / B2R (float_of_int 2)) = (B2R x / 2)%R) by (rewrite C2; apply round_generic; [typeclasses eauto|now apply half_format]).
  destruct (div32 x (float_of_int 2) F) as [D1 D2]; [rewrite C2; lra| |].
  { rewrite E. apply Rle_lt_trans with (Rabs (B2R x)); [|apply b32_lt]. unfold Rdiv. rewrite Rabs_mult, (Rabs_pos_eq (/ 2)) by lra. pose proof (Rabs_pos (B2R x)). lra. }
  rewrite E in D2. destruct (zero_add32 _ D1) as [Z1 Z2]. rewrite D2 in Z2.
  assert (G : rnd32 (B2R (fadd32 zero32 (fdiv32 x (float_of_int 2))) + B2R (fdiv32 x (float_of_int 2))) = B2R x).
  { rewrite Z2, D2. replace (B2R x / 2 + B2R x / 2)%R with (B2R x) by lra. apply round_generic; [typeclasses eauto|apply b32_format]. }
  destruct (add32 _ _ Z1 D1) as [A B]; [rewrite G; apply b32_lt|]. split; [exact A|]. etransitivity; [exact B|exact G].
Qed.
(** The average, for samples between -1 and 1. *)
Definition real_sum (frame : list b32) : R := fold_right (fun x s => (B2R x + s)%R) 0%R frame.
Lemma mono_steps N frame : 1 <= N <= 2 ^ 20 -> Forall (fun x => is_finite x = true /\ (Rabs (B2R x) <= 1)%R) frame -> forall k acc s, is_finite acc = true ->
  0 <= k -> k + Z.of_nat (length frame) <= N -> (Rabs s <= IZR k / IZR N)%R -> (Rabs (B2R acc - s) <= IZR k * bpow radix2 (-22))%R ->
  is_finite (fold_left (fun acc x => fadd32 acc (fdiv32 x (float_of_int N))) frame acc) = true /\
  (Rabs (B2R (fold_left (fun acc x => fadd32 acc (fdiv32 x (float_of_int N))) frame acc) - (s + real_sum frame / IZR N)) <= IZR (k + Z.of_nat (length frame)) * bpow radix2 (-22))%R.
Proof.
  intros HN F. destruct (count32 N ltac:(lia)) as [C1 C2]. assert (PN : (1 <= IZR N)%R) by (apply IZR_le; lia). assert (QN : (IZR N <= 1048576)%R) by (apply IZR_le; lia).
  assert (IN : (0 < / IZR N <= 1)%R) by (split; [apply Rinv_0_lt_compat; lra|rewrite <- Rinv_1; apply Rinv_le; lra]).
  assert (B22 : bpow radix2 (-22) = (/ 4194304)%R) by (cbn; f_equal). assert (B24 : bpow radix2 (-24) = (/ 16777216)%R) by (cbn; f_equal). assert (B23 : bpow radix2 (-23) = (/ 8388608)%R) by (cbn; f_equal).
  induction F as [|x frame (Fx & Lx) F IH]; intros k acc s Fa Hk Hl Hs He.
  - cbn [fold_left length real_sum fold_right]. split; [exact Fa|]. rewrite Z.add_0_r. unfold Rdiv. rewrite Rmult_0_l, Rplus_0_r. exact He.
  - cbn [fold_left length]. change (real_sum (x :: frame)) with (B2R x + real_sum frame)%R. cbn [length] in Hl.
    set (q := (B2R x / IZR N)%R). assert (Lq : (Rabs q <= / IZR N)%R) by (unfold q, Rdiv; rewrite Rabs_mult, (Rabs_pos_eq (/ IZR N)) by lra; pose proof (Rabs_pos (B2R x)); nra).
    assert (Eq : (Rabs (rnd32 q - q) <= / 16777216)%R) by (rewrite <- B24; apply (small_error q 0); [lia|cbn; lra]).
    destruct (div32 x (float_of_int N) Fx) as [D1 D2]; [rewrite C2; lra|rewrite C2; apply no_overflow; fold q; lra|]. rewrite C2 in D2. fold q in D2.
    set (d := fdiv32 x (float_of_int N)) in *. assert (Ed : (Rabs (B2R d - q) <= / 16777216)%R) by now rewrite D2.
    assert (Kk : (0 <= IZR k <= 1048575)%R) by (split; apply IZR_le; lia). assert (KN : (IZR k / IZR N + / IZR N <= 1)%R).
    { replace (IZR k / IZR N + / IZR N)%R with ((IZR k + 1) / IZR N)%R by (unfold Rdiv; ring). apply Rmult_le_reg_r with (IZR N); [lra|]. unfold Rdiv. rewrite Rmult_assoc, Rinv_l by lra.
      rewrite <- plus_IZR. rewrite Rmult_1_l, Rmult_1_r. apply IZR_le. lia. }
    rewrite B22 in He. assert (Sum : (Rabs (s + q) <= 1)%R) by (eapply Rle_trans; [apply Rabs_triang|lra]).
    assert (Near : (Rabs (B2R acc + B2R d - (s + q)) <= IZR k * / 4194304 + / 16777216)%R).
    { replace (B2R acc + B2R d - (s + q))%R with ((B2R acc - s) + (B2R d - q))%R by ring. eapply Rle_trans; [apply Rabs_triang|lra]. }
    assert (Two : (Rabs (B2R acc + B2R d) <= 2)%R).
    { replace (B2R acc + B2R d)%R with ((B2R acc + B2R d - (s + q)) + (s + q))%R by ring. eapply Rle_trans; [apply Rabs_triang|]. lra. }
    destruct (add32 acc d Fa D1) as [A1 A2]; [apply no_overflow; lra|].
    assert (Ea : (Rabs (B2R (fadd32 acc d) - (B2R acc + B2R d)) <= / 8388608)%R) by (rewrite A2, <- B23; apply (small_error _ 1); [lia|cbn; lra]).
    destruct (IH (k + 1) (fadd32 acc d) (s + q)%R A1) as [R1 R2]; [lia|lia| | |].
    + rewrite plus_IZR. eapply Rle_trans; [apply Rabs_triang|]. unfold Rdiv in *. lra.
    + rewrite B22, plus_IZR. replace (B2R (fadd32 acc d) - (s + q))%R with ((B2R (fadd32 acc d) - (B2R acc + B2R d)) + (B2R acc + B2R d - (s + q)))%R by ring.
      eapply Rle_trans; [apply Rabs_triang|]. lra.
    + split; [exact R1|]. replace (k + Z.of_nat (S (length frame))) with (k + 1 + Z.of_nat (length frame)) by lia.
      replace (s + (B2R x + real_sum frame) / IZR N)%R with (s + q + real_sum frame / IZR N)%R by (unfold q, Rdiv; ring). exact R2.
Qed.
Lemma C42_average_proof frame : 1 <= Z.of_nat (length frame) <= 2 ^ 20 -> Forall (fun x => is_finite x = true /\ (Rabs (B2R x) <= 1)%R) frame ->
  is_finite (mono frame) = true /\ (Rabs (B2R (mono frame) - real_sum frame / IZR (Z.of_nat (length frame))) <= IZR (Z.of_nat (length frame)) * bpow radix2 (-22))%R.
Proof.
  intros H F. destruct (mono_steps (Z.of_nat (length frame)) frame H F 0 zero32 0%R eq_refl) as [A B]; [lia|lia| | |].
  - rewrite Rabs_R0. unfold Rdiv. rewrite Rmult_0_l. lra.
  - cbn [zero32 B2R]. rewrite Rminus_0_r, Rabs_R0, Rmult_0_l. lra.
  - split; [exact A|]. rewrite Z.add_0_l in B. rewrite Rplus_0_l in B. exact B.
Qed.
(** Eight equal channels do not give the channel back. *)
Definition odd_sample : b32 := rat32 13035602 8388608.
Lemma C42_eight_proof : exists x, is_finite x = true /\ (1 <= B2R x < 2)%R /\ B2R (mono (repeat x 8)) <> B2R x.
Proof.
  exists odd_sample. split; [vm_compute; reflexivity|]. assert (E : B2SF odd_sample = SpecFloat.S754_finite false 13035602 (-23)) by (vm_compute; reflexivity).
  assert (E' : B2SF (mono (repeat odd_sample 8)) = SpecFloat.S754_finite false 13035601 (-23)).
  { vm_compute. reflexivity. }
  rewrite <- !SF2R_B2SF, E, E'. unfold SF2R, F2R. cbn -[IZR]. split; [lra|]. lra.
Qed.
