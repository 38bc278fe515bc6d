(** Property theorems C89 to C92: the plug-ins before the first block. *)
From Coq Require Import Reals Lra Lia String.
From Flocq Require Import Core.Core IEEE754.BinarySingleNaN.
From Verif Require Import Base BaseFacts Fp Options Chromagram Nnls NnlsArith NnlsSpec NnlsFacts Plug PlugSpec PlugFacts PlugNum PlugSafe PlugFrame PlugMain PlugClean PlugTuning PlugCases Setup SetupSpec SetupFacts SetupNotes SetupMachine SetupReady SetupMain.
Open Scope R_scope.

(** ** C89: the note dictionary, in real numbers *)
(** What dictionaryMatrix() adds to column k of the dictionary is the sound of semitone k. *)
Theorem C89_dictionary_holds_sounds : forall dm s, 0 < s -> Z.of_nat (length dm) = (256 * 84)%Z -> exists d, dictionary_matrix ideal dm s = Ret d /\ Z.of_nat (length d) = (256 * 84)%Z /\
  forall k row, (0 <= k < 84)%Z -> (0 <= row < 256)%Z -> znth 0 d (k * 256 + row) = znth 0 dm (k * 256 + row) + sound s k row.
Proof. exact dictionary_ideal. Qed.
Print Assumptions C89_dictionary_holds_sounds.
(** A semitone higher is three bins higher; nothing lies below the fundamental, which is at full strength in its bin. *)
Theorem C89_sound_of_a_semitone : forall s k row, 0 <= s <= 1 -> sound s (k + 1) (row + 3) = sound s k row /\ 0 <= sound s k row <= 20 /\ 1 <= sound s k (3 * k + 3) /\ ((row < 3 * k + 2)%Z -> sound s k row = 0).
Proof. exact (fun s k row H => conj (sound_moves s k row) (conj (conj (sound_nonneg s k row (proj1 H)) (sound_upper s k row H)) (conj (sound_centre s k (proj1 H)) (sound_below s k row)))). Qed.
Print Assumptions C89_sound_of_a_semitone.
(** The 256 bins of a mixture of semitones determine how loud each of the 84 is. *)
Theorem C89_mixtures_differ : forall s v w, 0 <= s -> (forall row, (0 <= row < 256)%Z -> mixture s v row = mixture s w row) -> forall k, (k < 84)%nat -> v (Z.of_nat k) = w (Z.of_nat k).
Proof. exact mixture_volumes. Qed.
Print Assumptions C89_mixtures_differ.
(** Given a mixture of semitones, the transcription considers all that sound, and if the least squares method reports success it finds every volume. *)
Theorem C89_notes_are_found : forall s v d b, 0 < s -> (forall k, 0 <= v k) -> dictionary_matrix ideal (repeat 0 (Z.to_nat (256 * 84))) s = Ret d -> length b = 256%nat -> (forall row, (0 <= row < 256)%Z -> znth 0 b row = mixture s v row) ->
  exists l val r, transcribe (A := exact) d b = Ret (map (fun k => (k, val k)) l) /\ called (A := exact) d b = Some (Ret r) /\ (forall k, (0 <= k < 84)%Z -> 0 < v k -> In k l) /\ (r_mode r = 1%Z -> forall k, In k l -> val k = v k).
Proof. exact notes_are_found. Qed.
Print Assumptions C89_notes_are_found.
(** Two semitones, C and E of the fourth octave say, one twice as loud: both are considered. *)
Example C89_a_third : forall d, dictionary_matrix ideal (repeat 0 (Z.to_nat (256 * 84))) (7 / 10) = Ret d ->
  let v k := if (k =? 39)%Z then 2 else if (k =? 43)%Z then 1 else 0 in
  exists l val, transcribe (A := exact) d (map (mixture (7 / 10) v) (zrange 0 255)) = Ret (map (fun k => (k, val k)) l) /\ In 39%Z l /\ In 43%Z l.
Proof.
  intros d E v. destruct (C89_notes_are_found (7 / 10) v d (map (mixture (7 / 10) v) (zrange 0 255))) as (l & val & r & T & _ & IN & _).
  - lra.
  - intros k. unfold v. destruct (k =? 39)%Z; [lra|]. destruct (k =? 43)%Z; lra.
  - exact E.
  - rewrite map_length, zrange_length. reflexivity.
  - intros row Rw. assert (X := elt_map_zrange (mixture (7 / 10) v) 256 row Rw). rewrite (elt_ok 0) in X by (rewrite map_length, zrange_length; lia). now apply Ret_inj in X.
  - exists l, val. split; [exact T|]. split; apply IN; try lia; unfold v; cbn; lra.
Qed.
Print Assumptions C89_a_third.
Example C89_semitones_20_and_21 : 1 <= sound (7 / 10) 20 63 /\ sound (7 / 10) 21 66 = sound (7 / 10) 20 63 /\ sound (7 / 10) 20 61 = 0.
Proof. split; [exact (proj1 (proj2 (proj2 (C89_sound_of_a_semitone (7 / 10) 20 63 ltac:(lra)))))|]. split; [exact (proj1 (C89_sound_of_a_semitone (7 / 10) 20 63 ltac:(lra)))|]. apply (C89_sound_of_a_semitone (7 / 10) 20 61 ltac:(lra)). lia. Qed.
Print Assumptions C89_semitones_20_and_21.

(** ** C90: from the constructor to the first block *)
Open Scope Z_scope.
(** A plug-in just made, given declared values for declared parameters and initialised for one channel, is as the other theorems ask. *)
Theorem C90_initialised_is_ready : forall L calls rate fs step block, libm_law L -> Forall (declared all_parameters) calls -> to_int (f32_to_64 rate) = Ret fs -> 1 <= fs -> 4 <= block <= 2 ^ 15 ->
  exists b b', configure new_base calls = Ret b /\ initialise L rate b 1 step block = Ret (true, b') /\ ready (setup_of b') /\ moderate (setup_of b') /\ b_block b' = block /\ assertion_holds b' = true /\ b_mean b' = p_mean (@reset unit) /\ b_local b' = p_local (@reset unit).
Proof. exact C90_ready_proof. Qed.
Print Assumptions C90_initialised_is_ready.
(** Its tables hold numbers; every semitone is in its own bin; bin 0 of the spectrum is not used. *)
Theorem C90_tables : forall L calls rate fs step block, libm_law L -> Forall (declared all_parameters) calls -> to_int (f32_to_64 rate) = Ret fs -> 1 <= fs -> 4 <= block <= 2 ^ 15 ->
  exists b b', configure new_base calls = Ret b /\ initialise L rate b 1 step block = Ret (true, b') /\ Forall (fun v => is_finite v = true /\ 0 <= B2R v <= 20)%R (b_dict b') /\ (forall k, 0 <= k < 84 -> (1 <= B2R (znth z32 (b_dict b') (k * 256 + (3 * k + 3))))%R) /\
    Forall (fun '(fft, note, v) => 1 <= fft < block / 2 /\ 0 <= note < 256 /\ is_finite v = true /\ (0 <= B2R v <= bpow radix2 60)%R) (b_kernel b').
Proof. exact C90_tables_proof. Qed.
Print Assumptions C90_tables.
(** So a host that keeps to the declared ranges gets results for every sound without NaN. *)
Theorem C90_host_gets_results : forall L atan2 powf, atan2_law atan2 -> (forall s w, gt32 s z32 = true -> Bsign (powf s w) = false) -> forall (stamp : Type) calls rate fs step block (frames : list (stamp * list b32)),
  libm_law L -> Forall (declared all_parameters) calls -> to_int (f32_to_64 rate) = Ret fs -> 1 <= fs -> 4 <= block <= 2 ^ 15 ->
  Forall (fun f => block <= Z.of_nat (length (snd f))) frames -> Forall (fun f => Forall (fun v => is_nan v = false) (snd f)) frames -> Z.of_nat (length frames) < 2 ^ 18 ->
  exists b b' o, configure new_base calls = Ret b /\ initialise L rate b 1 step block = Ret (true, b') /\ analyse atan2 powf (setup_of b') frames = Ret o.
Proof. exact (fun L atan2 powf A P stamp => @C90_host_proof L atan2 powf A P stamp). Qed.
Print Assumptions C90_host_gets_results.
(** A block of fewer than four samples makes it read past the end of a vector. *)
Theorem C90_small_blocks_are_undefined : forall L rate fs b step block, Z.of_nat (length (b_dict b)) = 256 * 84 -> to_int (f32_to_64 rate) = Ret fs -> 0 <= block < 4 -> initialise L rate b 1 step block = Undef OutOfBounds.
Proof. exact C90_small_proof. Qed.
Print Assumptions C90_small_blocks_are_undefined.
Example C90_cd_quality : exists b b' o, configure new_base [("rollon", one32); ("s", dec32 8 10); ("chromanormalize", rat32 2 1)]%string = Ret b /\ initialise sample_libm (rat32 44100 1) b 1 2048 16384 = Ret (true, b') /\
  analyse sample_atan2 sample_pow (setup_of b') [("first"%string, repeat one32 (Z.to_nat 16386)); ("second"%string, repeat z32 (Z.to_nat 16386))] = Ret o.
Proof.
  apply (C90_host_gets_results sample_libm _ _ sample_atan2_law sample_pow_law string) with (fs := 44100).
  - exact sample_law.
  - repeat (apply Forall_cons; [|]); [..|apply Forall_nil].
    + exists (mkDescriptor "rollon" z32 (dec32 5 1) z32). split; [right; now left|]. split; [reflexivity|]. split; vm_compute; reflexivity.
    + exists (mkDescriptor "s" (dec32 5 10) (dec32 9 10) (dec32 7 10)). split; [do 4 right; now left|]. split; [reflexivity|]. split; vm_compute; reflexivity.
    + exists (mkDescriptor "chromanormalize" z32 (dec32 3 1) z32). split; [do 5 right; now left|]. split; [reflexivity|]. split; vm_compute; reflexivity.
  - vm_compute. reflexivity.
  - lia.
  - lia.
  - repeat (apply Forall_cons; [cbn [snd]; rewrite repeat_length, Z2Nat.id; lia|]). apply Forall_nil.
  - repeat (apply Forall_cons; [cbn [snd]; apply Forall_forall; intros x X; apply repeat_spec in X; subst x; reflexivity|]). apply Forall_nil.
  - reflexivity.
Qed.
Print Assumptions C90_cd_quality.

(** ** C91: initialise() more than once *)
(** Every call that returns makes the window 19 values longer; the convolution asserts an odd length, so after an even number of calls the assertion fails. *)
Theorem C91_assertion_after_n_calls : forall L rate params b calls b', configure new_base params = Ret b -> initialise_all L rate b calls = Ret b' -> assertion_holds b' = Nat.odd (length calls).
Proof. exact C91_assertion_proof. Qed.
Print Assumptions C91_assertion_after_n_calls.
Theorem C91_window_grows : forall L rate b calls b', initialise_all L rate b calls = Ret b' -> Z.of_nat (length (b_hw b')) = Z.of_nat (length (b_hw b)) + 19 * Z.of_nat (length calls).
Proof. exact C91_window_proof. Qed.
Print Assumptions C91_window_grows.
(** The notes of the dictionary become twice as loud. *)
Theorem C91_dictionary_doubles : forall s d d', (0 < s)%R -> dictionary_matrix ideal (repeat 0%R (Z.to_nat (256 * 84))) s = Ret d -> dictionary_matrix ideal d s = Ret d' -> forall k row, 0 <= k < 84 -> 0 <= row < 256 -> znth 0%R d' (k * 256 + row) = (2 * znth 0%R d (k * 256 + row))%R.
Proof. exact C91_doubled_proof. Qed.
Print Assumptions C91_dictionary_doubles.
(** A call that is refused has changed the object all the same. *)
Theorem C91_refused_call_changes_nothing_refuted : ~ forall L rate b channels step block b', initialise L rate b channels step block = Ret (false, b') -> b' = b.
Proof. intros H. destruct (C91_refused_proof sample_libm one32 1024 1024 2 ltac:(lia)) as (b' & E & N & _). exact (N (H _ _ _ _ _ _ _ E)). Qed.
Print Assumptions C91_refused_call_changes_nothing_refuted.
Theorem C91_refused_call : forall L rate step block channels, channels <> 1 -> exists b', initialise L rate new_base channels step block = Ret (false, b') /\ b' <> new_base /\ length (b_hw b') = 19%nat /\ b_block b' = 0.
Proof. exact C91_refused_proof. Qed.
Print Assumptions C91_refused_call.
(** A host that asks for two channels and then for one. *)
Example C91_second_try : forall b1 b2, initialise sample_libm (rat32 44100 1) new_base 2 2048 16384 = Ret (false, b1) -> initialise sample_libm (rat32 44100 1) b1 1 2048 16384 = Ret (true, b2) -> assertion_holds b2 = false.
Proof. intros b1 b2 E1 E2. apply (C91_assertion_after_n_calls sample_libm (rat32 44100 1) [] new_base [(2, 2048, 16384); (1, 2048, 16384)]); [reflexivity|]. cbn [initialise_all]. rewrite E1. cbn [bind snd]. rewrite E2. reflexivity. Qed.
Print Assumptions C91_second_try.

(** ** C92: parameters *)
(** Setting one: it holds the value afterwards, useNNLS cut to an int and tuningmode to 0 or 1; no other changes, and no table does. Only useNNLS can be undefined. *)
Theorem C92_set_then_get : forall b id v, In id params -> match kept_value id v with
  | Ret w => exists b', set_parameter b id v = Ret b' /\ get_parameter b' id = w /\ (forall other, other <> id -> get_parameter b' other = get_parameter b other) /\ tables b' = tables b
  | _ => set_parameter b id v = Undef FloatCast end.
Proof. exact C92_set_proof. Qed.
Print Assumptions C92_set_then_get.
Theorem C92_unknown_is_ignored : forall b id v, ~ In id params -> set_parameter b id v = Ret b.
Proof. exact C92_unknown_proof. Qed.
Print Assumptions C92_unknown_is_ignored.
(** The constructor gives every parameter the default that is declared for it, which is in the declared range. *)
Theorem C92_defaults : Forall (fun p => B2SF (get_parameter new_base (p_id p)) = B2SF (p_default p) /\ Bleb (p_min p) (p_default p) = true /\ Bleb (p_default p) (p_max p) = true) all_parameters.
Proof. exact C92_defaults_proof. Qed.
Print Assumptions C92_defaults.
(** A declared value is never undefined. *)
Theorem C92_declared_values : forall b call, declared all_parameters call -> exists b', set_parameter b (fst call) (snd call) = Ret b'.
Proof. exact C92_declared_proof. Qed.
Print Assumptions C92_declared_values.
(** What is set is what is got: not for useNNLS and tuningmode. *)
Theorem C92_set_is_got_refuted : ~ forall b id v b', In id params -> set_parameter b id v = Ret b' -> B2SF (get_parameter b' id) = B2SF v.
Proof. intros H. assert (S0 := C92_set_then_get new_base "useNNLS"%string (dec32 1 2) (or_introl eq_refl)). change (kept_value "useNNLS" (dec32 1 2)) with (Ret z32) in S0. destruct S0 as (b' & E & G & _). assert (X := H _ _ _ _ (or_introl eq_refl) E). rewrite G in X. vm_compute in X. discriminate X. Qed.
Print Assumptions C92_set_is_got_refuted.
Example C92_some : map (fun id => option_map (fun b => B2SF (get_parameter b id)) (match configure new_base [("s", dec32 3 4); ("useNNLS", dec32 1 2); ("tuningmode", dec32 1 2); ("preset", one32); ("nonsense", one32)]%string with Ret b => Some b | _ => None end)) ["s"; "useNNLS"; "tuningmode"; "preset"; "nonsense"]%string
    = map (fun v : b32 => Some (B2SF v)) [dec32 3 4; z32; one32; z32; z32] /\ set_parameter new_base "useNNLS" B754_nan = Undef FloatCast.
Proof. split; [vm_compute; reflexivity|reflexivity]. Qed.
Print Assumptions C92_some.
