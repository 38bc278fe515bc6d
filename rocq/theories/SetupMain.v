(** Parameters and initialise(): the property proofs. *)
From Coq Require Import Reals Lra Lia String.
From Flocq Require Import Core.Core IEEE754.BinarySingleNaN.
From Verif Require Import Base BaseFacts Fp FpFacts Options Chromagram ChromaFacts Py FloatKit NumFacts Nnls NnlsArith NnlsSpec NnlsFacts Plug PlugSpec PlugFacts PlugNum PlugSafe PlugClean PlugTuning PlugNotes PlugCases Setup SetupSpec SetupFacts SetupMachine SetupReady.
Open Scope Z_scope.

(** ** Parameters *)
Lemma trunc_range (x : b64) n : is_finite x = true -> (0 <= B2R x <= IZR n)%R -> 0 <= trunc x <= n.
Proof.
  intros F (A & B). assert (N0 : 0 <= n) by (apply le_IZR; lra). destruct x as [s|s| |s m e V]; try discriminate F; cbn [trunc]; [lia|]. cbn [B2R] in A, B. unfold Defs.F2R in A, B. cbn [Defs.Fnum Defs.Fexp] in A, B. assert (P := bpow_gt_0 radix2 e). destruct s; cbn [cond_Zopp SpecFloat.cond_Zopp] in *.
  - exfalso. assert (IZR (Z.opp (Zpos m)) < 0)%R by (apply IZR_lt; lia). assert (IZR (- Zpos m) * bpow radix2 e < 0 * bpow radix2 e)%R by (apply Rmult_lt_compat_r; lra). lra.
  - destruct (Z.ltb_spec e 0) as [E|E].
    + split; [apply Z.div_pos; lia|]. apply Z.div_le_upper_bound; [lia|]. apply le_IZR. rewrite mult_IZR, (IZR_bpow (- e)) by lia. apply Rmult_le_reg_r with (bpow radix2 e); [exact P|]. rewrite (Rmult_comm (bpow radix2 (- e))), Rmult_assoc, <- bpow_plus, Z.add_opp_diag_l, Rmult_1_r. exact B.
    + split; [lia|]. apply le_IZR. rewrite mult_IZR, (IZR_bpow e) by lia. exact B.
Qed.
Lemma leb_range (a v b : b32) : is_finite a = true -> is_finite b = true -> Bleb a v = true -> Bleb v b = true -> is_finite v = true /\ (B2R a <= B2R v <= B2R b)%R.
Proof.
  intros FA FB A B. assert (FV : is_finite v = true). { destruct v as [s|s| |s m e V]; try reflexivity; exfalso; destruct a as [t|t| |t ? ? ?]; try discriminate FA; destruct b as [u|u| |u ? ? ?]; try discriminate FB; try (discriminate A || discriminate B); destruct s; (discriminate A || discriminate B). }
  split; [exact FV|]. rewrite Bleb_correct in A, B by assumption. destruct (Rle_bool_spec (B2R a) (B2R v)); [|discriminate A]. destruct (Rle_bool_spec (B2R v) (B2R b)); [|discriminate B]. split; assumption.
Qed.
Lemma cast_small (v : b32) n : is_finite v = true -> (0 <= B2R v <= IZR n)%R -> n <= INT_MAX -> exists k, to_int (f32_to_64 v) = Ret k /\ 0 <= k <= n.
Proof.
  intros F H N. destruct (f32_to_64_value v F) as (G & E & _). assert (T := trunc_range (f32_to_64 v) n G ltac:(rewrite E; exact H)). exists (trunc (f32_to_64 v)). split; [|exact T]. unfold to_int. rewrite G. cbn [andb].
  replace (INT_MIN <=? trunc (f32_to_64 v)) with true by (symmetry; apply Z.leb_le; unfold INT_MIN; lia). replace (trunc (f32_to_64 v) <=? INT_MAX) with true by (symmetry; apply Z.leb_le; lia). reflexivity.
Qed.
Lemma C92_set_proof b id v : In id params -> match kept_value id v with
  | Ret w => exists b', set_parameter b id v = Ret b' /\ get_parameter b' id = w /\ (forall other, other <> id -> get_parameter b' other = get_parameter b other) /\ tables b' = tables b
  | _ => set_parameter b id v = Undef FloatCast end.
Proof.
  intros H. destruct b. unfold params in H. cbn [In] in H.
  assert (T : forall n, (exists m, to_int n = Ret m) \/ to_int n = Undef FloatCast) by (intros n; unfold to_int; destruct (_ && _); [left; eauto|now right]).
  destruct H as [<-|H].
  { unfold kept_value, set_parameter. cbn [String.eqb Ascii.eqb Bool.eqb]. destruct (T (f32_to_64 v)) as [(m & ->)| ->]; cbn [bind]; [|reflexivity]. eexists. split; [reflexivity|]. split; [reflexivity|]. split; [|reflexivity].
    intros other N. unfold get_parameter. destruct (String.eqb_spec other "useNNLS"); [contradiction|reflexivity]. }
  repeat (destruct H as [<-|H]; [eexists; split; [reflexivity|]; split; [unfold get_parameter; cbn; try (destruct (Beqb v z32)); reflexivity|]; split; [|reflexivity];
    intros other N; unfold get_parameter; repeat match goal with |- context [String.eqb other ?s] => destruct (String.eqb_spec other s) as [->|?]; [first [contradiction|reflexivity]|] end; reflexivity|]). destruct H.
Qed.
Lemma C92_unknown_proof b id v : ~ In id params -> set_parameter b id v = Ret b.
Proof.
  intros H. destruct b. unfold set_parameter. repeat match goal with |- context [String.eqb id ?s] => destruct (String.eqb_spec id s) as [->|?]; [exfalso; apply H; cbn; tauto|] end. reflexivity.
Qed.
Lemma C92_defaults_proof : Forall (fun p => B2SF (get_parameter new_base (p_id p)) = B2SF (p_default p) /\ Bleb (p_min p) (p_default p) = true /\ Bleb (p_default p) (p_max p) = true) all_parameters.
Proof. repeat (apply Forall_cons; [split; [vm_compute; reflexivity|split; vm_compute; reflexivity]|]). apply Forall_nil. Qed.
Lemma bounds_finite : Forall (fun p => is_finite (p_min p) = true /\ is_finite (p_max p) = true /\ Bleb z32 (p_min p) = true /\ Bleb (p_max p) (rat32 5 1) = true) all_parameters.
Proof. repeat (apply Forall_cons; [split; [vm_compute; reflexivity|split; [vm_compute; reflexivity|split; vm_compute; reflexivity]]|]). apply Forall_nil. Qed.
Lemma leb_R (a b : b32) : is_finite a = true -> is_finite b = true -> Bleb a b = true -> (B2R a <= B2R b)%R.
Proof. intros A B H. rewrite Bleb_correct in H by assumption. destruct (Rle_bool_spec (B2R a) (B2R b)); [assumption|discriminate H]. Qed.
Lemma declared_small call : declared all_parameters call -> upto 5 (snd call).
Proof.
  intros (p & I0 & _ & A & B). assert (F := bounds_finite). rewrite Forall_forall in F. destruct (F p I0) as (F1 & F2 & F3 & F4). destruct (rat32_int 5 ltac:(lia)) as (G & V). destruct (leb_range _ _ _ F1 F2 A B) as (FV & LV). assert (P := leb_R z32 (p_min p) eq_refl F1 F3). assert (Q := leb_R (p_max p) (rat32 5 1) F2 G F4). rewrite V in Q. cbn in P.
  split; [exact FV|]. lra.
Qed.
Lemma C92_declared_proof b call : declared all_parameters call -> exists b', set_parameter b (fst call) (snd call) = Ret b'.
Proof.
  intros D. destruct (declared_small call D) as (F & V). destruct call as (id, v). cbn [fst snd] in *. destruct (in_dec String.string_dec id params) as [I0|I0]; [|rewrite C92_unknown_proof by exact I0; eauto].
  assert (S0 := C92_set_proof b id v I0). destruct (kept_value id v) as [w| |r] eqn:E; [destruct S0 as (b' & S0 & _); eauto| |]; exfalso; unfold kept_value in E; destruct (String.eqb id "useNNLS"); try (destruct (cast_small v 5 F V ltac:(unfold INT_MAX; lia)) as (k & K & _); rewrite K in E; discriminate E); destruct (String.eqb id "tuningmode"); discriminate E.
Qed.

(** ** After initialise() *)
Notation value := (get z32).
Lemma dense_ok (m : array b32) n : 0 <= n -> live m n -> loop 0 (n - 1) (fun l i => do v <- rd m i; Ret (l ++ [v])) [] = Ret (map (value m) (zrange 0 (n - 1))).
Proof.
  intros N LV. assert (O : ok (fun l => l = map (value m) (zrange 0 (n - 1 + 1 - 1))) (loop 0 (n - 1) (fun l i => do v <- rd m i; Ret (l ++ [v])) [])).
  { apply (ok_each (fun i l => l = map (value m) (zrange 0 (i - 1)))); [lia|now rewrite zrange_nil by lia|]. intros i l I0 ->. rewrite (rd_live z32 m n i LV) by lia. cbn [bind]. apply ok_ret. replace (i + 1 - 1) with (i - 1 + 1) by lia. rewrite zrange_snoc by lia. rewrite map_app. cbn [map]. now replace (i - 1 + 1) with i by lia. }
  destruct O as (l & E & ->). rewrite E. now replace (n - 1 + 1 - 1) with (n - 1) by lia.
Qed.
Lemma sparse_length block matrix : 0 <= block -> block / 2 * nNote <= Z.of_nat (length matrix) -> ok (fun kernel => Z.of_nat (length kernel) <= 256 * (block / 2)) (sparse block matrix).
Proof.
  intros B0 LM. assert (H0 : 0 <= block / 2) by (apply Z.div_pos; lia). unfold sparse. set (h := block / 2) in *.
  apply ok_weaken with (P := fun kernel : list (Z * Z * b32) => Z.of_nat (length kernel) <= (nNote - 1 + 1) * h); [|intros k K; unfold nNote in K; lia].
  apply (ok_each (fun n (kernel : list (Z * Z * b32)) => Z.of_nat (length kernel) <= n * h)); [unfold nNote; lia|cbn; lia|]. intros n kernel N K.
  apply ok_weaken with (P := fun kernel : list (Z * Z * b32) => Z.of_nat (length kernel) <= n * h + (h - 1 + 1)); [|intros k K'; lia].
  apply (ok_each (fun m (kernel : list (Z * Z * b32)) => Z.of_nat (length kernel) <= n * h + m)); [lia|lia|]. intros m k M0 K'. rewrite (elt_ok z32) by (unfold nNote in *; nia). cbn [bind]. apply ok_ret. destruct (gt32 _ _); [rewrite app_length; cbn [length]; lia|lia].
Qed.
Lemma window_ok L hw : ok (fun hw' => Z.of_nat (length hw') = Z.of_nat (length hw) + 19) (window L hw).
Proof.
  unfold window. cbv zeta. apply ok_keep.
  - rewrite app_length, map_length, zrange_length. lia.
  - intros i l I0 E. rewrite (elt_ok z32) by lia. cbn [bind]. rewrite upd_ok by lia. apply ok_ret. now rewrite replace_nth_length.
Qed.
Lemma dictionary_length L (dm : list b32) s : Z.of_nat (length dm) = nNote * 84 -> exists d : list b32, dictionary_matrix (machine L) dm s = Ret d /\ Z.of_nat (length d) = nNote * 84.
Proof. intros F. destruct (dictionary_ok (machine L) dm s F) as (d & E & LD & _). exists d. split; [exact E|exact LD]. Qed.
(** Whatever the arguments, a call that returns has made the window 19 values longer, and an argument other than one channel is refused only then. *)
Lemma initialise_window L rate b channels step block r b' : initialise L rate b channels step block = Ret (r, b') -> Z.of_nat (length (b_hw b')) = Z.of_nat (length (b_hw b)) + 19 /\ (r = true <-> channels = 1).
Proof.
  unfold initialise. destruct (dictionary_matrix _ _ _) as [dict| |]; cbn [bind]; try discriminate. cbv zeta. destruct (window_ok L (b_hw b)) as (hw & -> & LH). cbn [bind]. destruct (Z.eqb_spec channels 1) as [C|C]; cbn [negb].
  - destruct (to_int _) as [fs| |]; cbn [bind]; try discriminate. destruct (log_freq_matrix _ _ _ _) as [m| |]; cbn [bind]; try discriminate. destruct (loop _ _ _ _) as [l| |]; cbn [bind]; try discriminate. destruct (sparse _ _) as [k| |]; cbn [bind]; try discriminate.
    intros E. apply Ret_inj in E. assert (E1 := f_equal fst E). assert (E2 := f_equal snd E). cbn [fst snd] in E1, E2. subst r b'. cbn [b_hw]. split; [exact LH|]. split; [intros _; exact C|reflexivity].
  - intros E. apply Ret_inj in E. assert (E1 := f_equal fst E). assert (E2 := f_equal snd E). cbn [fst snd] in E1, E2. subst r b'. cbn [b_hw]. split; [exact LH|]. split; [discriminate|contradiction].
Qed.
Lemma C91_window_proof L rate b calls b' : initialise_all L rate b calls = Ret b' -> Z.of_nat (length (b_hw b')) = Z.of_nat (length (b_hw b)) + 19 * Z.of_nat (length calls).
Proof.
  revert b. induction calls as [|((channels, step), block) calls IH]; intros b E; cbn [initialise_all length] in *; [apply Ret_inj in E; subst b'; lia|].
  destruct (initialise L rate b channels step block) as [(r, b1)| |] eqn:E1; cbn [bind snd] in E; try discriminate E. destruct (initialise_window _ _ _ _ _ _ _ _ E1) as (W & _). specialize (IH b1 E). lia.
Qed.
Lemma C91_assertion_proof L rate params b calls b' : configure new_base params = Ret b -> initialise_all L rate b calls = Ret b' -> assertion_holds b' = Nat.odd (length calls).
Proof.
  intros C E. assert (W := C91_window_proof _ _ _ _ _ E). assert (H : b_hw b = []).
  { clear E W. assert (G : forall ps b0, b_hw b0 = [] -> configure b0 ps = Ret b -> b_hw b = []); [|exact (G params new_base eq_refl C)]. clear. induction ps as [|(id, v) ps IH]; intros b0 B C; cbn [configure] in C; [apply Ret_inj in C; now subst b0|].
    destruct (set_parameter b0 id v) as [b1| |] eqn:E; cbn [bind] in C; try discriminate C. apply (IH b1); [|exact C]. destruct (in_dec String.string_dec id SetupSpec.params) as [I0|I0].
    - assert (S0 := C92_set_proof b0 id v I0). rewrite E in S0. destruct (kept_value id v) as [w| |]; try discriminate S0. destruct S0 as (b2 & E2 & _ & _ & T). apply Ret_inj in E2. subst b2. assert (T' := f_equal (fun t => snd (fst (fst (snd t)))) T). cbn in T'. now rewrite T'.
    - rewrite C92_unknown_proof in E by exact I0. apply Ret_inj in E. now subst b1. }
  rewrite H in W. cbn [length] in W. unfold assertion_holds. rewrite W. rewrite Z.add_0_l, Z.odd_mul. cbn [Z.odd andb].
  generalize (length calls). clear. intros n. induction n as [|n IH]; [reflexivity|]. rewrite Nat.odd_succ, <- Nat.negb_odd, <- IH. rewrite Nat2Z.inj_succ, Z.odd_succ, <- Z.negb_odd. reflexivity.
Qed.

Definition plain (b : base) : Prop := tables b = tables new_base /\ upto 1 (b_s b) /\ upto 5 (b_normalize b).
Lemma s_small : forallb (fun p => negb (String.eqb (p_id p) "s") || Bleb (p_max p) one32) all_parameters = true.
Proof. vm_compute. reflexivity. Qed.
Lemma new_plain : plain new_base.
Proof.
  split; [reflexivity|]. split.
  - assert (A : Bleb z32 (b_s new_base) = true) by (vm_compute; reflexivity). assert (B : Bleb (b_s new_base) one32 = true) by (vm_compute; reflexivity). destruct (leb_range z32 (b_s new_base) one32 eq_refl eq_refl A B) as (F & V). split; [exact F|].
    destruct (rat32_int 1 ltac:(lia)) as (_ & V1). change one32 with (rat32 1 1) in V. rewrite V1 in V. exact V.
  - apply upto_0. lra.
Qed.
Lemma set_plain b call b' : plain b -> declared all_parameters call -> set_parameter b (fst call) (snd call) = Ret b' -> plain b'.
Proof.
  intros (T & S0 & N0) D E. destruct (in_dec String.string_dec (fst call) SetupSpec.params) as [I0|I0].
  - assert (Q := C92_set_proof b _ (snd call) I0). rewrite E in Q. destruct (kept_value (fst call) (snd call)) as [w| |] eqn:K; try discriminate Q. destruct Q as (b2 & E2 & G & O & T'). apply Ret_inj in E2. subst b2.
    split; [now rewrite T'|]. assert (SM := declared_small call D). destruct call as (id, v). cbn [fst snd] in *. split.
    + change (upto 1 (get_parameter b' "s")). destruct (String.string_dec id "s") as [->|X]; [|rewrite O by congruence; exact S0]. rewrite G. cbn in K. apply Ret_inj in K. subst w. destruct SM as (F & V & _). split; [exact F|]. split; [exact V|].
      destruct D as (p & IP & PID & _ & B). cbn [snd fst] in *. assert (SS := s_small). rewrite forallb_forall in SS. specialize (SS p IP). rewrite PID in SS. cbn in SS. assert (BF := bounds_finite). rewrite Forall_forall in BF. destruct (BF p IP) as (_ & FM & _). apply Rle_trans with (B2R (p_max p)); [now apply leb_R|]. apply Rle_trans with (B2R one32); [apply leb_R; [exact FM|reflexivity|exact SS]|]. destruct (rat32_int 1 ltac:(lia)) as (_ & V1). change one32 with (rat32 1 1). rewrite V1. lra.
    + change (upto 5 (get_parameter b' "chromanormalize")). destruct (String.string_dec id "chromanormalize") as [->|X]; [|rewrite O by congruence; exact N0]. rewrite G. cbn in K. apply Ret_inj in K. subst w. exact SM.
  - rewrite C92_unknown_proof in E by exact I0. apply Ret_inj in E. subst b'. split; [exact T|split; assumption].
Qed.
Lemma configured calls b : plain b -> Forall (declared all_parameters) calls -> exists b', configure b calls = Ret b' /\ plain b'.
Proof.
  intros P F. revert b P. induction F as [|(id, v) calls D F IH]; intros b P; cbn [configure]; [now exists b|]. destruct (C92_declared_proof b (id, v) D) as (b1 & E). cbn [fst snd] in E. rewrite E. cbn [bind]. apply IH. exact (set_plain b (id, v) b1 P D E).
Qed.
Lemma to_int_max x n : to_int x = Ret n -> n < 2 ^ 31.
Proof. unfold to_int. destruct (_ && _ && _) eqn:G; [|discriminate]. intros E. apply Ret_inj in E. subst n. apply andb_prop in G as (_ & G). apply Z.leb_le in G. unfold INT_MAX in G. lia. Qed.
Lemma below_narrow (x : b64) : is_finite x = true -> (Rabs (B2R x) <= 1)%R -> below (f64_to_32 x) 1.
Proof. intros F H. destruct (fits_int 1 ltac:(lia)) as (G1 & G2). destruct (narrow_R x 1 F G1 G2 H) as (A & B). split; [exact A|]. rewrite B. now apply rnd32_abs. Qed.
Lemma thirds_finite : Forall (fun i => is_finite (third_of_a_turn i) = true) (zrange 0 (nBPS - 1)).
Proof. change (zrange 0 (nBPS - 1)) with [0; 1; 2]. repeat (apply Forall_cons; [vm_compute; reflexivity|]). apply Forall_nil. Qed.
Lemma turns_below (f : b64 -> b64) : (forall x, is_finite x = true -> is_finite (f x) = true /\ (Rabs (B2R (f x)) <= 1)%R) -> Forall (fun x => below x 1) (map (fun i => f64_to_32 (f (third_of_a_turn i))) (zrange 0 (nBPS - 1))).
Proof. intros H. apply Forall_map. apply Forall_impl with (2 := thirds_finite). intros i F. destruct (H _ F) as (A & B). now apply below_narrow. Qed.
Lemma turns_length (f : Z -> b32) : length (map f (zrange 0 (nBPS - 1))) = 3%nat.
Proof. rewrite map_length, zrange_length. reflexivity. Qed.
Lemma initialise_ready L rate fs b step block : libm_law L -> plain b -> to_int (f32_to_64 rate) = Ret fs -> 1 <= fs -> 4 <= block <= 2 ^ 15 ->
  exists b', initialise L rate b 1 step block = Ret (true, b') /\ ready (setup_of b') /\ moderate (setup_of b') /\ b_block b' = block /\ assertion_holds b' = true /\ b_mean b' = repeat z32 3 /\ b_local b' = repeat z32 3 /\
    Forall (upto 20) (b_dict b') /\ (forall k, 0 <= k < 84 -> (1 <= B2R (znth z32 (b_dict b') (k * 256 + (3 * k + 3))))%R) /\ Forall (fun '(fft, _, _) => fft <> 0) (b_kernel b').
Proof.
  intros LAW (T & S0 & N0) TI FS B. assert (T1 := f_equal (fun t => snd (fst (fst (fst (snd t))))) T). assert (T2 := f_equal (fun t => snd (fst (fst (snd t)))) T). assert (T3 := f_equal (fun t => snd (fst (snd t))) T). assert (T4 := f_equal (fun t => snd (snd t)) T). assert (T5 := f_equal (fun t => snd (fst t)) T). assert (T6 := f_equal (fun t => snd (fst (fst t))) T).
  cbn [tables new_base fst snd b_dict b_hw b_sin b_cos b_mean b_local] in T1, T2, T3, T4, T5, T6. unfold initialise. rewrite T1, T2, T3, T4, T5, T6.
  destruct (dictionary_machine L LAW (repeat z32 (Z.to_nat (nNote * 84))) (b_s b) 0) as (d & -> & LD & DU & DC); [rewrite repeat_length, Z2Nat.id; [reflexivity|unfold nNote; lia]|exact S0|lia|lia|apply Forall_forall; intros x X; apply repeat_spec in X; subst x; apply upto_0; lra|]. cbn [bind]. cbv zeta.
  destruct (window_ok L []) as (hw & -> & LH). cbn [bind length] in *. cbn [Z.eqb Pos.eqb negb]. rewrite TI. cbn [bind]. assert (FM := to_int_max _ _ TI).
  destruct (matrix_ok L LAW fs block (conj (conj FS FM) B)) as (m & -> & ML & MU & MZ). cbn [bind]. assert (HB : 2 <= block / 2 <= 2 ^ 14) by (Z.div_mod_to_equations; lia).
  change nNote with 256. rewrite (dense_ok m (256 * (block / 2))) by (lia || exact ML). cbn [bind]. set (matrix := map (value m) (zrange 0 (256 * (block / 2) - 1))).
  assert (LM : Z.of_nat (length matrix) = 256 * (block / 2)) by (unfold matrix; rewrite map_length, zrange_length; lia).
  assert (VM : forall j, 0 <= j < 256 * (block / 2) -> znth z32 matrix j = value m j). { intros j J. assert (E := elt_map_zrange (value m) (256 * (block / 2)) j J). fold matrix in E. rewrite (elt_ok z32) in E by lia. now apply Ret_inj in E. }
  destruct (sparse_ok block matrix) as (kernel & EK & K); [lia|unfold nNote; lia|]. destruct (sparse_length block matrix) as (kernel' & EK' & KL); [lia|unfold nNote; lia|]. rewrite EK in EK'. apply Ret_inj in EK'. subst kernel'. rewrite EK. cbn [bind].
  eexists. split; [reflexivity|].
  assert (KF : Forall (fun '(fft, note, v) => 0 <= fft < block / 2 /\ 0 <= note < nNote /\ upto (p2 60) v) kernel).
  { rewrite Forall_forall. intros ((fft, note), v) X. apply K in X as (X1 & X2 & X3 & _). split; [exact X1|]. split; [exact X2|]. subst v. unfold nNote in *. rewrite VM by nia. apply MU. nia. }
  split; [|split; [|split; [|split; [|split; [|split; [|split; [|split]]]]]]]; cbn [setup_of b_block b_hw b_mean b_local b_dict b_kernel b_sin b_cos b_normalize assertion_holds app].
  - split; cbn [s_dict s_kernel s_block s_hw s_sin s_cos s_normalize setup_of b_block b_hw b_dict b_kernel b_sin b_cos b_normalize app].
    + exact LD.
    + apply Forall_impl with (2 := KF). intros ((fft, note), v) (A1 & A2 & A3). split; [exact A1|]. split; [exact A2|]. apply upto_nn with (1 := A3).
    + exists 9. rewrite LH. lia.
    + apply turns_length.
    + apply turns_length.
    + lia.
    + intros _. destruct N0 as (F & V). destruct (cast_small (b_normalize b) 5 F V ltac:(unfold INT_MAX; lia)) as (k & Ek & _). now exists k.
  - split; cbn [s_dict s_kernel s_block s_hw s_sin s_cos s_normalize setup_of b_block b_hw b_dict b_kernel b_sin b_cos b_normalize app].
    + lia.
    + split; [exact KF|]. lia.
    + apply turns_below. exact (law_sin L LAW).
    + apply turns_below. exact (law_cos L LAW).
  - reflexivity.
  - unfold assertion_holds. cbn [b_hw]. rewrite LH. reflexivity.
  - reflexivity.
  - reflexivity.
  - exact DU.
  - exact DC.
  - rewrite Forall_forall. intros ((fft, note), v) X -> . apply K in X as (_ & X2 & -> & G). rewrite Z.add_0_l in G. unfold nNote in X2. rewrite VM in G by nia. rewrite (MZ note X2) in G. discriminate G.
Qed.

(** ** Property proofs that need some assembly *)
Lemma C90_ready_proof L calls rate fs step block : libm_law L -> Forall (declared all_parameters) calls -> to_int (f32_to_64 rate) = Ret fs -> 1 <= fs -> 4 <= block <= 2 ^ 15 ->
  exists b b', configure new_base calls = Ret b /\ initialise L rate b 1 step block = Ret (true, b') /\ ready (setup_of b') /\ moderate (setup_of b') /\ b_block b' = block /\ assertion_holds b' = true /\ b_mean b' = p_mean (@reset unit) /\ b_local b' = p_local (@reset unit).
Proof.
  intros LAW D R F B. destruct (configured calls new_base new_plain D) as (b & E & P). destruct (initialise_ready L rate fs b step block LAW P R F B) as (b' & E' & G1 & G2 & G3 & G4 & G5 & G6 & _). exists b, b'. split; [exact E|]. split; [exact E'|]. split; [exact G1|]. split; [exact G2|]. split; [exact G3|]. split; [exact G4|]. split; [exact G5|exact G6].
Qed.
Lemma C90_tables_proof L calls rate fs step block : libm_law L -> Forall (declared all_parameters) calls -> to_int (f32_to_64 rate) = Ret fs -> 1 <= fs -> 4 <= block <= 2 ^ 15 ->
  exists b b', configure new_base calls = Ret b /\ initialise L rate b 1 step block = Ret (true, b') /\ Forall (fun v => is_finite v = true /\ 0 <= B2R v <= 20)%R (b_dict b') /\ (forall k, 0 <= k < 84 -> (1 <= B2R (znth z32 (b_dict b') (k * 256 + (3 * k + 3))))%R) /\
    Forall (fun '(fft, note, v) => 1 <= fft < block / 2 /\ 0 <= note < 256 /\ is_finite v = true /\ (0 <= B2R v <= bpow radix2 60)%R) (b_kernel b').
Proof.
  intros LAW D R F B. destruct (configured calls new_base new_plain D) as (b & E & P). destruct (initialise_ready L rate fs b step block LAW P R F B) as (b' & E' & G1 & G2 & G3 & _ & _ & _ & G4 & G5 & G6). exists b, b'. split; [exact E|]. split; [exact E'|]. split; [exact G4|]. split; [exact G5|].
  destruct (md_kernel _ G2) as (K & _). cbn [setup_of s_kernel s_block] in K. rewrite G3 in K. rewrite Forall_forall in *. intros ((fft, note), v) X. specialize (K _ X). specialize (G6 _ X). cbn beta iota in K, G6. destruct K as (K1 & K2 & K3 & K4). unfold nNote in K2. split; [lia|]. split; [exact K2|]. split; [exact K3|exact K4].
Qed.
Lemma C90_host_proof L atan2 powf (ATAN : atan2_law atan2) (POW : forall s w, gt32 s z32 = true -> Bsign (powf s w) = false) {stamp : Type} calls rate fs step block (frames : list (stamp * list b32)) :
  libm_law L -> Forall (declared all_parameters) calls -> to_int (f32_to_64 rate) = Ret fs -> 1 <= fs -> 4 <= block <= 2 ^ 15 ->
  Forall (fun f => block <= Z.of_nat (length (snd f))) frames -> Forall (fun f => Forall (fun v => is_nan v = false) (snd f)) frames -> Z.of_nat (length frames) < 2 ^ 18 ->
  exists b b' o, configure new_base calls = Ret b /\ initialise L rate b 1 step block = Ret (true, b') /\ analyse atan2 powf (setup_of b') frames = Ret o.
Proof.
  intros LAW D R F B LG NN N. destruct (C90_ready_proof L calls rate fs step block LAW D R F B) as (b & b' & E & E' & G1 & G2 & G3 & _). assert (LG' : Forall (fun f => s_block (setup_of b') <= Z.of_nat (length (snd f))) frames) by (cbn [setup_of s_block]; rewrite G3; exact LG).
  destruct (C72_clean_proof atan2 powf ATAN POW (setup_of b') frames G1 G2 LG' NN N) as (o & O). exists b, b', o. split; [exact E|]. split; [exact E'|exact O].
Qed.
Lemma elt_none {T} (l : list T) i : Z.of_nat (length l) <= i -> elt l i = Undef OutOfBounds.
Proof. intros H. unfold elt. destruct (i <? 0); [reflexivity|]. replace (nth_error l (Z.to_nat i)) with (@None T); [reflexivity|]. symmetry. apply nth_error_None. lia. Qed.
Lemma C90_small_proof L rate fs b step block : Z.of_nat (length (b_dict b)) = 256 * 84 -> to_int (f32_to_64 rate) = Ret fs -> 0 <= block < 4 -> initialise L rate b 1 step block = Undef OutOfBounds.
Proof.
  intros LD R B. unfold initialise. destruct (dictionary_length L (b_dict b) (b_s b) LD) as (d & -> & _). cbn [bind]. cbv zeta. destruct (window_ok L (b_hw b)) as (hw & -> & _). cbn [bind Z.eqb Pos.eqb negb]. rewrite R. cbn [bind].
  unfold log_freq_matrix, loop. cbv zeta. set (over := map (oversampled_f fs block) _). set (fft := map (fft_f fs block) _). assert (F1 : elt fft 1 = Undef OutOfBounds) by (apply elt_none; unfold fft; rewrite map_length, zrange_length; Z.div_mod_to_equations; lia).
  rewrite (zrange_cons 0 (2 * oversampling - 1)) by (unfold oversampling; lia). cbn [each]. assert (O : (exists x, elt over 0 = Ret x) \/ elt over 0 = Undef OutOfBounds) by (unfold elt; cbn [Z.ltb Z.compare]; destruct (nth_error over (Z.to_nat 0)); [left; eauto|now right]).
  destruct O as [(x & ->)| ->]; cbn [bind]; [rewrite F1|]; reflexivity.
Qed.
Lemma C91_refused_proof L rate step block channels : channels <> 1 -> exists b', initialise L rate new_base channels step block = Ret (false, b') /\ b' <> new_base /\ length (b_hw b') = 19%nat /\ b_block b' = 0.
Proof.
  intros C. unfold initialise. destruct (dictionary_length L (b_dict new_base) (b_s new_base)) as (d & -> & _); [cbn [b_dict new_base]; rewrite repeat_length, Z2Nat.id; unfold nNote; lia|]. cbn [bind]. cbv zeta. destruct (window_ok L (b_hw new_base)) as (hw & -> & LH). cbn [bind].
  apply Z.eqb_neq in C. rewrite C. cbn [negb]. eexists. split; [reflexivity|]. cbn [b_hw b_block new_base] in *. cbn [length] in LH. split; [|split; [lia|reflexivity]]. intros E. apply (f_equal (fun b => length (b_hw b))) in E. cbn [b_hw] in E. change (length (b_hw new_base)) with 0%nat in E. lia.
Qed.
(** Asking twice makes the notes twice as loud in the dictionary. *)
Lemma C91_doubled_proof s d d' : (0 < s)%R -> dictionary_matrix ideal (repeat 0%R (Z.to_nat (256 * 84))) s = Ret d -> dictionary_matrix ideal d s = Ret d' -> forall k row, 0 <= k < 84 -> 0 <= row < 256 -> znth 0%R d' (k * 256 + row) = (2 * znth 0%R d (k * 256 + row))%R.
Proof.
  intros S0 E E' k row K R0. destruct (dictionary_ideal (repeat 0%R (Z.to_nat (256 * 84))) s S0) as (d1 & E1 & L1 & H1); [rewrite repeat_length, Z2Nat.id; lia|]. assert (d1 = d) as -> by (apply (@Ret_inj (list R)); exact (eq_trans (eq_sym E1) E)).
  destruct (dictionary_ideal d s S0 L1) as (d2 & E2 & _ & H2). assert (d2 = d') as -> by (apply (@Ret_inj (list R)); exact (eq_trans (eq_sym E2) E')). rewrite (H2 k row K R0), (H1 k row K R0). unfold znth. rewrite nth_repeat. ring.
Qed.

(** ** A C library for examples *)
Definition sample_libm : libm :=
  mkLibm (fun x => match x with B754_zero _ => rat64 1 1 | _ => fzero end) (fun _ => fzero) (fun _ => rat64 7 10) (fun _ => fzero) (fun _ _ => rat64 1 1) (fun _ => z32) (fun s n => match n with B754_zero _ => rat32 1 1 | _ => s end).
Lemma sample_law : libm_law sample_libm.
Proof.
  destruct (int64 1 ltac:(lia)) as (F & V). destruct (rat32_int 1 ltac:(lia)) as (F' & V'). split; cbn [sample_libm l_cos l_sin l_log l_log2 l_powf].
  - intros x X. destruct x; try discriminate X; [rewrite V; split; [exact F|rewrite Rabs_R1; lra]|split; [reflexivity|cbn; rewrite Rabs_R0; lra]].
  - intros x X X0. destruct x as [s|s| |s m e B]; try discriminate X; [exact V|]. exfalso. revert X0. cbn [B2R]. apply Float_prop.F2R_neq_0. cbn. now destruct s.
  - intros x _. split; [reflexivity|]. cbn. rewrite Rabs_R0. lra.
  - destruct (rat64_unit 7 10 ltac:(lia)) as (A & B). split; [exact A|]. rewrite B. split; [apply rnd_lb; [change (/ 2)%R with (bpow radix2 (-1)); apply fmt64_bpow; lia|lra]|apply rnd_ub; [change 1%R with (bpow radix2 0); apply fmt64_bpow; lia|lra]].
  - split; reflexivity.
  - intros s n S0 _ _. destruct n; try exact S0. split; [exact F'|]. rewrite V'. lra.
  - intros s _. exact V'.
Qed.
