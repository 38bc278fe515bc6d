(** Whole runs of the tuning plug-in. *)
From Coq Require Import Reals Lra Lia String.
From Flocq Require Import Core.Core IEEE754.BinarySingleNaN.
From Verif Require Import Base BaseFacts Fp FpFacts HmmAccuracy FloatKit Options Chromagram ChromaFacts Nnls NnlsArith NnlsFacts NnlsSafe NnlsSingle Plug PlugSpec PlugFacts PlugNum PlugSafe PlugMain PlugClean PlugTuning PlugCases Setup Tune TuneSpec TuneFacts.
Open Scope Z_scope.

Lemma over_snoc {S T} (body : S -> T -> outcome S) l x s s' : over body l s = Ret s' -> over body (l ++ [x]) s = body s' x.
Proof.
  revert s. induction l as [|y l IH]; intros s H; cbn [over app] in *; [apply Ret_inj in H; subst s'; now destruct (body s x)|].
  destruct (body s y) as [s1| |]; cbn [bind] in *; try discriminate H. now apply IH.
Qed.
Section Runs.
  Context (atan2 : b32 -> b32 -> b32) (pow : b64 -> b64 -> b64) (ATAN : atan2_law atan2) {stamp : Type}.
  Notation plug := (@plug stamp).
  Implicit Types (c : setup) (p : plug).
  Lemma process_tuning c p t fbuf p' sp : process atan2 c p t fbuf = Ret (p', sp) -> exists a, p_tuning p' = p_tuning p ++ [a].
  Proof.
    unfold process. destruct (magnitudes _ _) as [(mag, mx)| |]; cbn [bind]; try discriminate. destruct (roll_on _ _) as [mag'| |]; cbn [bind]; try discriminate. cbv zeta. destruct (note_magnitudes _ _) as [nm| |]; cbn [bind]; try discriminate.
    destruct (update_tunings _ _ _ _) as [(mean, local)| |]; cbn [bind]; try discriminate. destruct (angle _ _ _ _) as [a| |]; cbn [bind]; try discriminate. intros H. apply Ret_inj in H. apply (f_equal fst) in H. cbn [fst] in H. subst p'. exists a. reflexivity.
  Qed.
  Lemma tuning_process_eq c p t fbuf p' sp a : process atan2 c p t fbuf = Ret (p', sp) -> p_tuning p' = p_tuning p ++ [a] -> tuning_process atan2 pow c p t fbuf = Ret (p', (t, local_pitch pow a)).
  Proof.
    intros E T. unfold tuning_process. rewrite E. cbn [bind]. rewrite T. rewrite (elt_ok z32) by (rewrite app_length; cbn [length]; lia). cbn [bind]. do 4 f_equal. unfold znth. rewrite app_length. cbn [length]. rewrite app_nth2 by lia.
    replace (Z.to_nat (Z.of_nat (length (p_tuning p) + 1) - 1) - length (p_tuning p))%nat with 0%nat by lia. reflexivity.
  Qed.
  Lemma mean_pitch_eq sins coss mean : length sins = 3%nat -> length coss = 3%nat -> length mean = 3%nat -> mean_pitch atan2 pow sins coss mean = Ret (concert pow (div64 (f32_to_64 (atan2 (snd (sums sins coss mean)) (fst (sums sins coss mean)))) (fmul (rat64 24 1) m_pi))).
  Proof.
    intros S C T. unfold mean_pitch, nBPS. rewrite (loop_pure _ (fun '(re, im) i => (fadd32 re (mul32 (znth z32 mean i) (znth z32 coss i)), fadd32 im (mul32 (znth z32 mean i) (znth z32 sins i))))).
    - cbn [bind]. change (3 - 1) with 2. fold (sums sins coss mean). now destruct (sums sins coss mean).
    - intros (re, im) i I. rewrite !(elt_ok z32) by lia. reflexivity.
  Qed.
  (** The blocks: the state is that of the chroma plug-in, and every block has its pitch. *)
  Lemma tuning_blocks c frames : ready c -> Forall (fun f => s_block c <= Z.of_nat (length (snd f))) frames ->
    ok (fun r : plug * list (stamp * b32) => processed atan2 c frames reset = Ret (fst r) /\ kept_well (fst r) /\ map fst (p_spectra (fst r)) = map fst frames /\ snd r = combine (map fst frames) (map (local_pitch pow) (p_tuning (fst r))))
       (over (fun '(p, out) '(t, fbuf) => do (p, v) <- tuning_process atan2 pow c p t fbuf; Ret (p, out ++ [v])) frames (reset, [])).
  Proof.
    intros R F. apply (ok_over_at (fun done (r : plug * list (stamp * b32)) => processed atan2 c done reset = Ret (fst r) /\ kept_well (fst r) /\ map fst (p_spectra (fst r)) = map fst done /\ snd r = combine (map fst done) (map (local_pitch pow) (p_tuning (fst r)))));
      [split; [reflexivity|]; split; [apply reset_well|now split]|].
    intros done (t, fbuf) rest (p, out) E (P & K & S & O). cbn [fst snd] in *. assert (B : s_block c <= Z.of_nat (length fbuf)) by (rewrite E in F; apply Forall_app in F as (_ & F); now apply Forall_inv in F).
    destruct (process_ok atan2 ATAN c p t fbuf R K B) as ((p', sp) & E1 & K' & _ & S'). cbn [fst] in *. destruct (process_tuning _ _ _ _ _ _ E1) as (a & A).
    rewrite (tuning_process_eq _ _ _ _ _ _ _ E1 A). cbn [bind]. apply ok_ret. cbn [fst snd]. split; [|split; [exact K'|split]].
    - unfold processed in *. rewrite (over_snoc _ _ _ _ _ P). rewrite E1. reflexivity.
    - rewrite S', S, map_app. reflexivity.
    - rewrite O, A, !map_app. cbn [map]. assert (L : length (map fst done) = length (map (local_pitch pow) (p_tuning p))) by (rewrite <- S, !map_length; symmetry; apply (kw_count _ K)).
      revert L. generalize (map fst done) as u. generalize (map (local_pitch pow) (p_tuning p)) as v. induction v as [|y v IH]; intros [|x u] L; try discriminate L; cbn [combine app]; [reflexivity|]. f_equal. apply IH. now injection L.
  Qed.
  Lemma tuning_nothing c : tuning_run atan2 pow (stamp := stamp) c [] = Ret ([], None). Proof. reflexivity. Qed.
  Lemma tuning_rest c p : ready c -> kept_well p -> p_spectra p <> [] -> exists t,
    last (map (fun s => Some (fst s)) (p_spectra p)) None = Some t /\ tuning_remaining atan2 pow c p = Ret (Some (concert pow (div64 (f32_to_64 (atan2 (snd (sums (s_sin c) (s_cos c) (p_mean p))) (fst (sums (s_sin c) (s_cos c) (p_mean p))))) (fmul (rat64 24 1) m_pi)), t)).
  Proof.
    intros [Rd Rk Rh Rs Rc Rb Rn] [Km Kl Kt Kc Ks] N. unfold tuning_remaining. destruct (p_spectra p) as [|s l] eqn:E; [contradiction|]. clear E. exists (fst (last (s :: l) s)). destruct (@exists_last _ (s :: l) N) as (l' & x & Q). rewrite Q. split; [rewrite map_app; cbn [map]; rewrite !last_last; reflexivity|].
    rewrite mean_pitch_eq by (assumption || exact (shaped3 _ _ Km)). cbn [bind]. rewrite last_last. rewrite (elt_ok x) by (rewrite app_length; cbn [length]; lia). cbn [bind]. unfold znth. rewrite app_length. cbn [length]. rewrite app_nth2 by lia. replace (Z.to_nat (Z.of_nat (length l' + 1) - 1) - length l')%nat with 0%nat by lia. reflexivity.
  Qed.
  (** Every run returns. *)
  Lemma tuning_returns c frames : ready c -> Forall (fun f => s_block c <= Z.of_nat (length (snd f))) frames -> ok (fun r : list (stamp * b32) * option (b32 * stamp) => map fst (fst r) = map fst frames /\ option_map snd (snd r) = last (map (fun f => Some (fst f)) frames) None) (tuning_run atan2 pow c frames).
  Proof.
    intros R F. unfold tuning_run. apply ok_bind with (1 := tuning_blocks c frames R F). intros (p, out) (P & K & S & O). cbn [fst snd] in *. assert (L : length (map fst frames) = length (map (local_pitch pow) (p_tuning p))) by (rewrite <- S, !map_length; symmetry; apply (kw_count _ K)).
    assert (W : map fst out = map fst frames). { rewrite O. revert L. generalize (map fst frames) as u. generalize (map (local_pitch pow) (p_tuning p)) as v. induction v as [|y v IH]; intros [|x u] L; try discriminate L; cbn [combine map]; [reflexivity|]. f_equal. apply IH. now injection L. }
    assert (Z1 : last (map (fun s => Some (fst s)) (p_spectra p)) None = last (map (fun f => Some (fst f)) frames) None) by (rewrite <- !(map_map fst Some), S; reflexivity).
    destruct (p_spectra p) as [|s l] eqn:E.
    - unfold tuning_remaining. rewrite E. cbn [bind]. apply ok_ret. split; [exact W|]. rewrite <- Z1. reflexivity.
    - destruct (tuning_rest c p R K ltac:(rewrite E; discriminate)) as (t & T1 & T2). rewrite T2. cbn [bind]. apply ok_ret. split; [exact W|]. cbn [snd option_map]. rewrite <- Z1, <- T1, E. reflexivity.
  Qed.
  (** Sound of numbers gives pitches. *)
  Lemma tuning_pitches (POW : pow2_law pow) c frames : ready c -> moderate c -> frames <> [] -> Forall (fun f => s_block c <= Z.of_nat (length (snd f)) /\ Forall num (snd f)) frames -> Z.of_nat (length frames) < 2 ^ 18 ->
    exists p out hz t, processed atan2 c frames reset = Ret p /\ tuning_run atan2 pow c frames = Ret (out, Some (hz, t)) /\
      Forall2 (fun a v => Rabs (B2R a) <= / 2 /\ pitched (B2R a) v)%R (p_tuning p) (map snd out) /\ (Rabs (B2R (mean_angle atan2 c p)) <= / 2 /\ pitched (B2R (mean_angle atan2 c p)) hz)%R.
  Proof.
    intros R M NE F N. assert (F1 : Forall (fun f => s_block c <= Z.of_nat (length (snd f))) frames) by (apply Forall_impl with (2 := F); now intros f (H & _)).
    destruct (tuning_blocks c frames R F1) as ((p, out) & E & P & K & S & O). cbn [fst snd] in *. destruct (processed_calm atan2 ATAN c frames R M F N) as (p' & P' & C & _ & _). rewrite P in P'. apply Ret_inj in P'. subst p'. destruct C as [Cf Cm Cl Ct].
    assert (NS : p_spectra p <> []) by (intros Q; rewrite Q in S; destruct frames; [contradiction|discriminate S]). destruct (tuning_rest c p R K NS) as (t & _ & T2). exists p, out. eexists. exists t. split; [exact P|]. split; [unfold tuning_run; rewrite E; cbn [bind]; rewrite T2; reflexivity|]. split.
    - assert (L : length (map fst frames) = length (map (local_pitch pow) (p_tuning p))) by (rewrite <- S, !map_length; symmetry; apply (kw_count _ K)).
      assert (W : map snd out = map (local_pitch pow) (p_tuning p)). { rewrite O. revert L. generalize (map fst frames) as u. generalize (map (local_pitch pow) (p_tuning p)) as v. induction v as [|y v IH]; intros [|x u] L; try discriminate L; cbn [combine map]; [reflexivity|]. f_equal. apply IH. now injection L. }
      rewrite W. assert (A := kw_tuning _ K). revert A Ct. generalize (p_tuning p) as l. induction l as [|a l IH]; intros A B; cbn [map]; constructor.
      + apply Forall_inv in A. apply Forall_inv in B. destruct A as [A|A]; [contradiction|]. split; [destruct A; lra|now apply local_close].
      + apply IH; [now apply Forall_inv_tail in A|now apply Forall_inv_tail in B].
    - assert (Cm' : shaped 3 (upto (p2 126)) (p_mean p)).
      { apply shaped_impl with (2 := Cm). intros x. apply upto_le. assert (LL : length (p_spectra p) = length frames) by (apply (f_equal (@length _)) in S; rewrite !map_length in S; exact S). replace (p2 126) with (level (2 ^ 24)) by (unfold level; change (IZR (2 ^ 24)) with (p2 24); rewrite <- bpow_plus; reflexivity). apply level_le. lia. }
      destruct R as [Rd Rk Rh Rs Rc Rb Rn]. destruct M as [Mb Mk Ms Mc]. destruct (sums_clean (s_sin c) (s_cos c) (p_mean p) Rs Rc Ms Mc Cm') as (S1 & S2).
      destruct (ATAN (snd (sums (s_sin c) (s_cos c) (p_mean p))) (fst (sums (s_sin c) (s_cos c) (p_mean p)))) as (A & _). destruct A as (A1 & A2); [now split|]. split; [unfold mean_angle; destruct (turn_half _ A1 A2); lra|]. unfold mean_angle. now apply mean_close.
  Qed.
  Lemma pitched_range t v : (Rabs t <= / 2 -> pitched t v -> is_finite v = true /\ B2R tuning_min <= B2R v <= 4529 / 10)%R.
  Proof.
    intros H (F & P). split; [exact F|]. assert (C := concert_range t H). apply Rabs_le_inv in P. destruct (computed tuning_min false 14007337 (-15) ltac:(vm_compute; reflexivity)) as (_ & V). rewrite V. cbn [cond_Zopp]. change (bpow radix2 (-15)) with (/ 32768)%R. lra.
  Qed.
End Runs.

(** ** A sound between two semitones *)
(** The tables of an initialised plug-in, and one bin that belongs to notes 61 and 62, a third of a semitone each side of the quarter tone. *)
Definition quarter_setup : setup :=
  mkSetup (repeat one32 (Z.to_nat (nNote * 84))) [(1, 61, one32); (1, 62, one32)] [rat32 1 4; rat32 1 2; rat32 1 4] [z32; rat32 14529495 16777216; rat32 (-14529495) 16777216] [one32; rat32 (-1) 2; rat32 (-1) 2] 8 one32 one32 false z32 z32.
Definition quarter_frame : list b32 := [z32; z32; rat32 3 1; z32; z32; z32; z32; z32].
Definition before (c : setup) (fbuf : list b32) : outcome (list b32 * list b32 * list b32) :=
  do (mag, mx) <- magnitudes (s_block c) fbuf; do mag <- roll_on (s_rollon c) mag; do nm <- note_magnitudes (s_kernel c) (quiet mx mag); do (mean, local) <- update_tunings 1 nm (repeat z32 3) (repeat z32 3); Ret (nm, mean, local).
Definition quarter_state : list b32 * list b32 * list b32 := match before quarter_setup quarter_frame with Ret r => r | _ => ([], [], []) end.
Lemma quarter_before : before quarter_setup quarter_frame = Ret quarter_state.
Proof. assert (H : match before quarter_setup quarter_frame with Ret _ => true | _ => false end = true) by (vm_compute; reflexivity). unfold quarter_state. destruct (before _ _); [reflexivity|discriminate H|discriminate H]. Qed.
Lemma is_zero (x : b32) : B2SF x = SpecFloat.S754_zero false -> is_finite x = true /\ B2R x = 0%R /\ Bsign x = false.
Proof. destruct x as [[|]| | |]; cbn; try discriminate. now intros _. Qed.
Section Quarter.
  Context (atan2 : b32 -> b32 -> b32) (pow : b64 -> b64 -> b64) (API : atan2_pi atan2) (POW : pow2_law pow).
  Definition negative (x : b32) : bool := match B2SF x with SpecFloat.S754_finite true _ _ => true | _ => false end.
  Definition pi32 : b32 := rat32 13176795 4194304.
  Lemma angle_pi (re im : b32) : B2SF im = SpecFloat.S754_zero false -> negative re = true -> atan2 im re = pi32.
  Proof.
    unfold negative. intros I J. destruct (B2SF re) as [| | |[|] m k] eqn:R; try discriminate J. clear J. destruct (is_zero im I) as (I1 & I2 & I3). destruct (computed re true m k R) as (R1 & R2). destruct (API im re I1 I2 I3 R1) as (A1 & A2). { rewrite R2. cbn [cond_Zopp]. assert (P := bpow_gt_0 radix2 k). assert (Q : (IZR (- Z.pos m) < 0)%R) by now apply IZR_lt. nra. }
    destruct (computed pi32 false 13176795 (-22) ltac:(vm_compute; reflexivity)) as (P1 & P2). cbn [cond_Zopp] in P2. change (bpow radix2 (-22)) with (/ 4194304)%R in P2.
    assert (SF : forall x : b32, is_finite x = true -> B2R x <> 0%R -> is_finite_strict x = true) by (intros [s| | |s q e B] HF HN; try discriminate HF; [now elim HN|reflexivity]).
    apply B2R_inj; [apply SF; [exact A1|rewrite A2; lra]|apply SF; [exact P1|rewrite P2; lra]|rewrite A2, P2; lra].
  Qed.
  (** One block whose two sums point away from the standard pitch. *)
  Lemma away_process (c : setup) fbuf nm mean local (t : string) a : before c fbuf = Ret (nm, mean, local) -> angle atan2 (s_sin c) (s_cos c) local = Ret a ->
    process atan2 c reset t fbuf = Ret (mkPlug (0 + 1) mean local ([] ++ [a]) ([] ++ [(t, nm)]), (t, nm)).
  Proof.
    unfold before, process, reset. cbn [p_frames p_mean p_local p_tuning p_spectra]. change (0 + 1) with 1 at 1. destruct (magnitudes _ _) as [(mag, mx)| |]; cbn [bind]; try discriminate. destruct (roll_on _ _) as [mag'| |]; cbn [bind]; try discriminate. cbv zeta. destruct (note_magnitudes _ _) as [nm'| |]; cbn [bind]; try discriminate.
    destruct (update_tunings _ _ _ _) as [(mean', local')| |]; cbn [bind]; try discriminate. intros B. apply Ret_inj in B. assert (B1 := f_equal snd B). assert (B2 := f_equal (fun x => snd (fst x)) B). assert (B3 := f_equal (fun x => fst (fst x)) B). cbn [fst snd] in B1, B2, B3. subst nm' mean' local'.
    intros ->. reflexivity.
  Qed.
  (** One block whose two sums point away from the standard pitch. *)
  Lemma away (c : setup) fbuf nm mean local (t : string) a : before c fbuf = Ret (nm, mean, local) -> length (s_sin c) = 3%nat -> length (s_cos c) = 3%nat -> length mean = 3%nat -> length local = 3%nat ->
    atan2 (snd (sums (s_sin c) (s_cos c) local)) (fst (sums (s_sin c) (s_cos c) local)) = a -> atan2 (snd (sums (s_sin c) (s_cos c) mean)) (fst (sums (s_sin c) (s_cos c) mean)) = a ->
    tuning_run atan2 pow c [(t, fbuf)] = Ret ([(t, local_pitch pow (turn a))], Some (concert pow (div64 (f32_to_64 a) (fmul (rat64 24 1) m_pi)), t)).
  Proof.
    intros B LS LC LM LL A1 A2. assert (E := away_process c fbuf nm mean local t (turn a) B ltac:(rewrite angle_eq by assumption; now rewrite A1)).
    unfold tuning_run. cbn [over]. rewrite (tuning_process_eq atan2 pow _ _ _ _ _ _ (turn a) E eq_refl). cbn [bind app]. unfold tuning_remaining. cbn [p_spectra p_mean]. rewrite mean_pitch_eq by assumption. rewrite A2. cbn [bind]. rewrite (elt_ok (t, nm)) by (cbn [length]; lia). cbn [bind]. reflexivity.
  Qed.
  Lemma quarter_local : length (snd quarter_state) = 3%nat /\ length (snd (fst quarter_state)) = 3%nat. Proof. split; vm_compute; reflexivity. Qed.
  Lemma quarter_im : B2SF (snd (sums (s_sin quarter_setup) (s_cos quarter_setup) (snd quarter_state))) = SpecFloat.S754_zero false /\ B2SF (snd (sums (s_sin quarter_setup) (s_cos quarter_setup) (snd (fst quarter_state)))) = SpecFloat.S754_zero false.
  Proof. split; vm_compute; reflexivity. Qed.
  Lemma quarter_re : negative (fst (sums (s_sin quarter_setup) (s_cos quarter_setup) (snd quarter_state))) = true /\ negative (fst (sums (s_sin quarter_setup) (s_cos quarter_setup) (snd (fst quarter_state)))) = true.
  Proof. split; vm_compute; reflexivity. Qed.
  Lemma turn_pi : B2R (turn pi32) = (/ 2)%R.
  Proof. destruct (computed (turn pi32) false 8388608 (-24) ltac:(vm_compute; reflexivity)) as (_ & ->). cbn [cond_Zopp]. change (bpow radix2 (-24)) with (/ 16777216)%R. lra. Qed.
  Lemma pi32_R : is_finite pi32 = true /\ (Rabs (B2R pi32) <= 13176795 / 4194304)%R.
  Proof. destruct (computed pi32 false 13176795 (-22) ltac:(vm_compute; reflexivity)) as (P1 & P2). split; [exact P1|]. rewrite P2. cbn [cond_Zopp]. change (bpow radix2 (-22)) with (/ 4194304)%R. rewrite Rabs_pos_eq; lra. Qed.
  Lemma pair3 {A B C} (x : A * B * C) : x = (fst (fst x), snd (fst x), snd x). Proof. now destruct x as ((a, b), c). Qed.
  Lemma quarter_run : exists v hz, tuning_run atan2 pow quarter_setup [("0"%string, quarter_frame)] = Ret ([("0"%string, v)], Some (hz, "0"%string)) /\ pitched (/ 2) v /\ pitched (/ 2) hz.
  Proof.
    assert (B := quarter_before). rewrite (pair3 quarter_state) in B. destruct quarter_local as (L1 & L2). destruct quarter_im as (I1 & I2). destruct quarter_re as (R1 & R2). destruct pi32_R as (P1 & P2).
    eexists. eexists. split; [exact (away _ _ _ _ _ "0"%string pi32 B eq_refl eq_refl L2 L1 (angle_pi _ _ I1 R1) (angle_pi _ _ I2 R2))|]. rewrite <- turn_pi.
    split; [apply (local_close pow POW); now apply turn_half|now apply (mean_close pow POW)].
  Qed.
  Lemma quarter_above v : pitched (/ 2) v -> (B2R tuning_max < B2R v)%R.
  Proof.
    intros (F & P). destruct (computed tuning_max false 14840300 (-15) ltac:(vm_compute; reflexivity)) as (_ & V). rewrite V. cbn [cond_Zopp]. change (bpow radix2 (-15)) with (/ 32768)%R. unfold concert_pitch in P. replace (/ 2 / 12)%R with (/ 24)%R in P by lra. assert (Q := root24_bounds). apply Rabs_le_inv in P. lra.
  Qed.
End Quarter.

(** ** Functions that obey the laws *)
(** The double next to 2^x. *)
Definition nearest64 (y : R) : b64 := binary_normalize prec64 emax64 eq_refl eq_refl mode_NE (Ztrunc (scaled_mantissa radix2 fexp64 (rnd y))) (cexp radix2 fexp64 (rnd y)) false.
Lemma nearest64_R y : (Rabs y <= big)%R -> is_finite (nearest64 y) = true /\ B2R (nearest64 y) = rnd y.
Proof.
  intros H. assert (V : Valid_exp fexp64) by (apply fexp_correct; reflexivity). assert (G : generic_format radix2 fexp64 (rnd y)) by (apply generic_format_round; [exact V|apply valid_rnd_N]).
  assert (C := binary_normalize_correct prec64 emax64 eq_refl eq_refl mode_NE (Ztrunc (scaled_mantissa radix2 fexp64 (rnd y))) (cexp radix2 fexp64 (rnd y)) false). cbv zeta in C. fold (nearest64 y) in C. unfold generic_format in G. rewrite <- G in C.
  change (round radix2 (SpecFloat.fexp prec64 emax64) (round_mode mode_NE) (rnd y)) with (rnd (rnd y)) in C. assert (I : rnd (rnd y) = rnd y) by (apply rnd_id; exact G). rewrite I in C. rewrite (rnd_big y H) in C. destruct C as (C1 & C2 & _). now split.
Qed.
Definition sample_pow2 (_ x : b64) : b64 := nearest64 (Rpower 2 (B2R x)).
Lemma sample_pow2_law : pow2_law sample_pow2.
Proof.
  intros two x _ _ F H. assert (P : (/ 2 <= Rpower 2 (B2R x) <= 2)%R).
  { apply Rabs_le_inv in H. assert (A := pow2_opp 1). rewrite (Rpower_1 2) in A by lra. assert (B : (Rpower 2 (- (1)) <= Rpower 2 (B2R x))%R) by (apply Rle_Rpower; lra). assert (C : (Rpower 2 (B2R x) <= Rpower 2 1)%R) by (apply Rle_Rpower; lra). rewrite (Rpower_1 2) in C by lra. lra. }
  destruct (nearest64_R (Rpower 2 (B2R x))) as (F1 & V1); [rewrite Rabs_pos_eq by lra; apply Rle_trans with (bpow radix2 1); [change (bpow radix2 1) with 2%R; lra|apply SetupMachine.bpow_big; lia]|].
  split; [exact F1|]. unfold sample_pow2. rewrite V1. assert (E := rnd_error (Rpower 2 (B2R x))). rewrite (Rabs_pos_eq (Rpower 2 (B2R x))) in E by lra. apply Rle_trans with (1 := E). assert (S : (bpow radix2 (-1075) <= bpow radix2 (-53))%R) by (apply bpow_le; lia). assert (S1 : (bpow radix2 (-53) = / 9007199254740992)%R) by (cbn; lra). rewrite S1 in *. replace (2 ^ 50)%R with 1125899906842624%R by lra. lra.
Qed.
(** An atan2 that is pi or zero. *)
Definition sample_atan2_pi (y x : b32) : b32 := if is_nan y || is_nan x then B754_nan else if Bsign x then pi32 else z32.
Lemma sample_atan2_pi_law : atan2_law sample_atan2_pi /\ atan2_pi sample_atan2_pi.
Proof.
  destruct pi32_R as (P1 & P2). split.
  - intros y x. unfold sample_atan2_pi. split; [|intros [-> | ->]; [reflexivity|]; now destruct (is_nan y)]. intros (-> & ->). cbn [orb]. destruct (Bsign x); [now split|]. split; [reflexivity|]. cbn. rewrite Rabs_R0. lra.
  - intros y x F _ _ G N. unfold sample_atan2_pi. assert (S : Bsign x = true) by (destruct x as [s| | |[|] m e B]; try discriminate G; [cbn in N; lra|reflexivity|exfalso; cbn [B2R cond_Zopp] in N; assert (Q := F2R_ge_0 radix2 (Float radix2 (Zpos m) e) ltac:(cbn; lia)); lra]).
    rewrite S. destruct y; try discriminate F; destruct x; try discriminate G; cbn [is_nan orb]; (split; [exact P1|]); destruct (computed pi32 false 13176795 (-22) ltac:(vm_compute; reflexivity)) as (_ & V); rewrite V; cbn [cond_Zopp]; change (bpow radix2 (-22)) with (/ 4194304)%R; lra.
Qed.
Lemma quarter_ready : ready quarter_setup.
Proof.
  split; cbn [quarter_setup s_dict s_kernel s_hw s_sin s_cos s_block s_normalize].
  - rewrite repeat_length, Z2Nat.id; unfold nNote; lia.
  - unfold nNote. repeat (constructor; [split; [split; [discriminate|reflexivity]|]; split; [split; [discriminate|reflexivity]|reflexivity]|]). constructor.
  - exists 1. cbn. lia.
  - reflexivity.
  - reflexivity.
  - lia.
  - intros H. discriminate H.
Qed.
Lemma quarter_moderate : moderate quarter_setup.
Proof.
  assert (A : forall x s m k, B2SF x = SpecFloat.S754_finite s m k -> (Zpos m <= 2 ^ 24)%Z -> (k <= -24)%Z -> below x 1).
  { intros x s m k E L K. destruct (computed x s m k E) as (F & V). split; [exact F|]. rewrite V, Rabs_mult, (Rabs_pos_eq (bpow _ _)) by apply bpow_ge_0. rewrite <- abs_IZR. replace (Z.abs (cond_Zopp s (Z.pos m))) with (Z.pos m) by now destruct s.
    apply Rle_trans with (IZR (2 ^ 24) * bpow radix2 (-24))%R; [apply Rmult_le_compat; [apply IZR_le; lia|apply bpow_ge_0|now apply IZR_le|now apply bpow_le]|]. change (IZR (2 ^ 24)) with (bpow radix2 24). rewrite <- bpow_plus. cbn. lra. }
  split; cbn [quarter_setup s_kernel s_sin s_cos s_block]; [lia| | |].
  - assert (U : upto (p2 60) one32) by (destruct (rat32_int 1 ltac:(lia)) as (A1 & B); split; [exact A1|]; unfold one32; rewrite B; split; [lra|]; change 1%R with (bpow radix2 0); apply bpow_le; lia).
    split; [|cbn; lia]. unfold nNote. repeat (constructor; [split; [split; [discriminate|reflexivity]|]; split; [split; [discriminate|reflexivity]|exact U]|]). constructor.
  - constructor; [split; [reflexivity|]; cbn; rewrite Rabs_R0; lra|]. constructor; [refine (A _ false 14529495%positive (-24) _ _ _); [vm_compute; reflexivity|lia|lia]|]. constructor; [refine (A _ true 14529495%positive (-24) _ _ _); [vm_compute; reflexivity|lia|lia]|constructor].
  - constructor; [destruct (rat32_int 1 ltac:(lia)) as (F & V); split; [exact F|]; unfold one32; rewrite V; rewrite Rabs_pos_eq; lra|].
    constructor; [refine (A _ true 8388608%positive (-24) _ _ _); [vm_compute; reflexivity|lia|lia]|]. constructor; [refine (A _ true 8388608%positive (-24) _ _ _); [vm_compute; reflexivity|lia|lia]|constructor].
Qed.
Lemma quarter_numbers : s_block quarter_setup <= Z.of_nat (length quarter_frame) /\ Forall num quarter_frame.
Proof. split; [cbn; lia|]. repeat constructor. Qed.
Lemma quarter_frames : Forall (fun f : string * list b32 => s_block quarter_setup <= Z.of_nat (length (snd f)) /\ Forall num (snd f)) [("0"%string, quarter_frame)].
Proof. constructor; [exact quarter_numbers|constructor]. Qed.
Lemma quarter_few : Z.of_nat (length [("0"%string, quarter_frame)]) < 2 ^ 18. Proof. reflexivity. Qed.
Lemma quarter_some : [("0"%string, quarter_frame)] <> []. Proof. discriminate. Qed.
