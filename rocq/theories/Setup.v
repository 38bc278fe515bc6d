(** Model of what the plug-ins do before the first block: NNLSBase.cpp (constructor, parameters, initialise), cospuls, pitchCospuls, logFreqMatrix and
    dictionaryMatrix of chromamethods.cpp. Definitions only. *)
From Coq Require Import String Reals.
From Flocq Require Import Core.Core IEEE754.BinarySingleNaN.
From Verif Require Import Base Fp Options Chromagram Nnls NnlsArith Plug.
Open Scope Z_scope.

(** ** The note dictionary, in an arithmetic with floats and doubles *)
(** [up] and [down] convert between them. The machine has IEEE numbers; [ideal] has real numbers for both. *)
Record mixed := mkMixed { fl : Type; db : Type; up : fl -> db; down : db -> fl; f_int : Z -> fl; d_int : Z -> db; d_half : db; d_pi : db;
  f_add : fl -> fl -> fl; f_sub : fl -> fl -> fl; f_mul : fl -> fl -> fl; f_abs : fl -> fl;
  d_add : db -> db -> db; d_sub : db -> db -> db; d_mul : db -> db -> db; d_div : db -> db -> db; d_abs : db -> db; d_leb : db -> db -> bool; d_ltb : db -> db -> bool;
  d_cos : db -> db; d_log2 : db -> db; f_pow : fl -> fl -> fl }.
Section Dictionary.
  Context (M : mixed).
  (** chromamethods.cpp:74-81. *)
  Definition cospuls (x centre width : fl M) : fl M :=
    let recipwidth := down M (d_div M (d_int M 1) (up M width)) in
    let d := f_sub M x centre in
    if d_leb M (up M (f_abs M d)) (d_mul M (d_half M) (up M width)) then
      down M (d_add M (d_mul M (d_cos M (d_mul M (d_mul M (up M (f_mul M d (f_int M 2))) (d_pi M)) (up M recipwidth))) (d_half M)) (d_half M))
    else f_int M 0.
  (** 195, 197: where harmonic iHarm of note iOut lies, counted in thirds of a semitone, and its strength. *)
  Definition floatbin (iOut iHarm : Z) : fl M := down M (d_add M (d_int M ((iOut + 1) * nBPS + 1)) (d_mul M (d_int M (nBPS * 12)) (d_log2 M (d_int M iHarm)))).
  Definition amplitude (s : fl M) (iHarm : Z) : fl M := f_pow M s (f_int M (iHarm - 1)).
  (** 199-204: one entry; iNote + 1.0 becomes a float when cospuls is called. *)
  Definition add_pulse (bin amp : fl M) (iOut : Z) (dm : list (fl M)) (iNote : Z) : outcome (list (fl M)) :=
    if d_ltb M (d_abs M (d_sub M (d_int M (iNote + 1)) (up M bin))) (d_int M 2) then
      do v <- elt dm (iNote + nNote * iOut);
      upd dm (iNote + nNote * iOut) (f_add M v (f_mul M (cospuls (down M (d_int M (iNote + 1))) bin (f_int M nBPS)) amp))
    else Ret dm.
  (** 168-207, added to what dm holds; the frequencies cq_f are computed there and not used. *)
  Definition dictionary_matrix (dm : list (fl M)) (s : fl M) : outcome (list (fl M)) :=
    loop 0 83 (fun dm iOut => loop 1 20 (fun dm iHarm => loop 0 (nNote - 1) (add_pulse (floatbin iOut iHarm) (amplitude s iHarm) iOut) dm) dm) dm.
End Dictionary.

(** ** The machine *)
(** Functions of the C library: for doubles, and log2 and pow for floats. *)
Record libm := mkLibm { l_cos : b64 -> b64; l_sin : b64 -> b64; l_log : b64 -> b64; l_log2 : b64 -> b64; l_pow : b64 -> b64 -> b64; l_log2f : b32 -> b32; l_powf : b32 -> b32 -> b32 }.
(** M_PI. *)
Definition m_pi : b64 := rat64 884279719003555 (2 ^ 48).
Definition sub64 (x y : b64) : b64 := Bminus mode_NE x y.
Definition div64 (x y : b64) : b64 := Bdiv mode_NE x y.
Definition machine (L : libm) : mixed :=
  mkMixed b32 b64 f32_to_64 f64_to_32 (fun n => rat32 n 1) (fun n => rat64 n 1) (rat64 1 2) m_pi fadd32 sub32 mul32 Babs
    fadd sub64 fmul div64 Babs (fun x y => Bleb x y) (fun x y => Bltb x y) (l_cos L) (l_log2 L) (l_powf L).
(** Real numbers throughout. *)
Definition ideal : mixed :=
  mkMixed R R (fun x => x) (fun x => x) IZR IZR (/ 2)%R PI Rplus Rminus Rmult Rabs
    Rplus Rminus Rmult Rdiv Rabs (fun x y => if Rle_dec x y then true else false) (fun x y => if Rlt_dec x y then true else false) cos (fun x => ln x / ln 2)%R Rpower.

Section Kernel.
  Context (L : libm).
  (** chromamethods.cpp:83-95. *)
  Definition pitch_cospuls (x centre : b32) (binsperoctave : Z) : b32 :=
    let warpedf := mul32 (rat32 (- binsperoctave) 1) (sub32 (l_log2f L centre) (l_log2f L x)) in
    let out := cospuls (machine L) warpedf z32 (rat32 2 1) in
    let c := f64_to_32 (div64 (l_log L (rat64 2 1)) (rat64 binsperoctave 1)) in
    if gt32 x z32 then fdiv32 out (mul32 c x) else z32.
  Definition oversampling : Z := 80.
  (** 110-121: fft_f, fft_width and oversampled_f. *)
  Definition fft_f (fs block i : Z) : b32 := f64_to_32 (fmul (rat64 i 1) (div64 (fmul (rat64 fs 1) one64) (rat64 block 1))).
  Definition fft_width (fs block : Z) : b32 := f64_to_32 (div64 (fmul (rat64 fs 1) (rat64 2 1)) (rat64 block 1)).
  Definition oversampled_f (fs block i : Z) : b32 := f64_to_32 (fmul (rat64 i 1) (div64 (div64 (fmul (rat64 fs 1) one64) (rat64 block 1)) (rat64 oversampling 1))).
  (** 123-134: cq_f, 85 semitones from 20 on in thirds, and one more. *)
  Definition cq_f : list b32 :=
    let oob := f64_to_32 (div64 one64 (rat64 nBPS 1)) in
    flat_map (fun i => map (fun k => f64_to_32 (fmul (rat64 440 1) (l_pow L (rat64 2 1) (fmul (rat64 83333333333 1000000000000) (f32_to_64 (sub32 (fadd32 (rat32 i 1) (mul32 oob (rat32 k 1))) (rat32 69 1))))))) (zrange 0 (nBPS - 1))) (zrange 20 104)
    ++ [f64_to_32 (fmul (rat64 440 1) (l_pow L (rat64 2 1) (fmul (rat64 83333 1000000) (rat64 36 1))))].
  (** 156: the neighbourhood of a frequency. *)
  Definition near_bin (cq width f : b32) : bool :=
    fgt (fadd (fmul (f32_to_64 cq) (l_pow L (rat64 2 1) (rat64 84 1000))) (f32_to_64 width)) (f32_to_64 f)
    && flt (sub64 (fmul (f32_to_64 cq) (l_pow L (rat64 2 1) (fmul (rat64 (-84) 1000) (rat64 2 1)))) (f32_to_64 width)) (f32_to_64 f).
  (** 101-166. The products of ints are taken not to overflow. *)
  Definition log_freq_matrix (fs block : Z) (out : array b32) : outcome (array b32) :=
    let fft := map (fft_f fs block) (zrange 0 (block / 2 - 1)) in
    let width := fft_width fs block in
    let over := map (oversampled_f fs block) (zrange 0 (oversampling * block / 2 - 1)) in
    let nFFT := Z.of_nat (length fft) in
    let nCQ := Z.of_nat (length cq_f) in
    do activation <- loop 0 (2 * oversampling - 1) (fun l iOS => do x <- elt over iOS; do f1 <- elt fft 1; Ret (l ++ [cospuls (machine L) x f1 width])) [];
    do out <- loop 0 (nFFT * nCQ - 1) (fun out i => wr out i z32) out;
    loop 1 (nFFT - 1) (fun out iFFT =>
      let curr_start := oversampling * iFFT - oversampling in
      let curr_end := oversampling * iFFT + oversampling in
      loop 0 (nCQ - 1) (fun out iCQ =>
        do cq <- elt cq_f iCQ;
        do f <- elt fft iFFT;
        if near_bin cq width f then
          loop curr_start (curr_end - 1) (fun out iOS =>
            do x <- elt over iOS;
            do a <- elt activation (iOS - curr_start);
            do v <- rd out (iFFT + nFFT * iCQ);
            wr out (iFFT + nFFT * iCQ) (fadd32 v (mul32 (pitch_cospuls x cq (nBPS * 12)) a))) out
        else Ret out) out) out.
End Kernel.

(** ** The object, NNLSBase.h:60-82 *)
(** m_frameCount, the spectra and the local tunings belong to the state of Plug.v. *)
Record base := mkBase { b_block : Z; b_step : Z; b_whitening : b32; b_preset : b32; b_useNNLS : b32; b_tuneLocal : bool; b_normalize : b32; b_rollon : b32; b_boostN : b32; b_s : b32; b_harte : b32;
  b_mean : list b32; b_local : list b32; b_kernel : list (Z * Z * b32); b_dict : list b32; b_hw : list b32; b_sin : list b32; b_cos : list b32 }.
(** NNLSBase.cpp:31-61. *)
Definition new_base : base :=
  mkBase 0 0 one32 z32 one32 false z32 z32 (f64_to_32 (rat64 1 10)) (f64_to_32 (rat64 7 10)) z32 [] [] [] (repeat z32 (Z.to_nat (nNote * 84))) [] [] [].
(** NNLSBase.cpp:221-265. *)
Definition get_parameter (b : base) (id : string) : b32 :=
  if String.eqb id "useNNLS" then b_useNNLS b
  else if String.eqb id "whitening" then b_whitening b
  else if String.eqb id "s" then b_s b
  else if String.eqb id "rollon" then b_rollon b
  else if String.eqb id "boostn" then b_boostN b
  else if String.eqb id "tuningmode" then (if b_tuneLocal b then one32 else z32)
  else if String.eqb id "preset" then b_preset b
  else if String.eqb id "chromanormalize" then b_normalize b
  else if String.eqb id "usehartesyntax" then b_harte b
  else z32.
(** NNLSBase.cpp:267-323. A float is true unless it is zero; the conversion to int of useNNLS may be undefined. *)
Definition set_parameter (b : base) (id : string) (v : b32) : outcome base :=
  let '(mkBase block step whitening preset useNNLS tuneLocal normalize rollon boostN s harte mean local kernel dict hw sins coss) := b in
  let with_ useNNLS whitening s boostN tuneLocal normalize rollon harte := Ret (mkBase block step whitening preset useNNLS tuneLocal normalize rollon boostN s harte mean local kernel dict hw sins coss) in
  if String.eqb id "useNNLS" then do n <- to_int (f32_to_64 v); with_ (rat32 n 1) whitening s boostN tuneLocal normalize rollon harte
  else if String.eqb id "whitening" then with_ useNNLS v s boostN tuneLocal normalize rollon harte
  else if String.eqb id "s" then with_ useNNLS whitening v boostN tuneLocal normalize rollon harte
  else if String.eqb id "boostn" then with_ useNNLS whitening s v tuneLocal normalize rollon harte
  else if String.eqb id "tuningmode" then with_ useNNLS whitening s boostN (negb (Beqb v z32)) normalize rollon harte
  else if String.eqb id "chromanormalize" then with_ useNNLS whitening s boostN tuneLocal v rollon harte
  else if String.eqb id "rollon" then with_ useNNLS whitening s boostN tuneLocal normalize v harte
  else if String.eqb id "usehartesyntax" then with_ useNNLS whitening s boostN tuneLocal normalize rollon v
  else with_ useNNLS whitening s boostN tuneLocal normalize rollon harte.
(** minValue, maxValue and defaultValue of a parameter: NNLSBase.cpp:135-219, of the chroma plug-in. *)
Record descriptor := mkDescriptor { p_id : string; p_min : b32; p_max : b32; p_default : b32 }.
Definition dec32 (n : Z) (d : positive) : b32 := f64_to_32 (rat64 n d).
Definition base_parameters : list descriptor :=
  [mkDescriptor "useNNLS" z32 one32 one32; mkDescriptor "rollon" z32 (dec32 5 1) z32; mkDescriptor "tuningmode" z32 one32 z32; mkDescriptor "whitening" z32 one32 one32;
   mkDescriptor "s" (dec32 5 10) (dec32 9 10) (dec32 7 10); mkDescriptor "chromanormalize" z32 (dec32 3 1) z32].
(** Chordino.cpp:67-160 and Tuning.cpp:71-91. *)
Definition chordino_parameters : list descriptor :=
  [mkDescriptor "useNNLS" z32 one32 one32; mkDescriptor "rollon" z32 (dec32 5 1) z32; mkDescriptor "tuningmode" z32 one32 z32; mkDescriptor "whitening" z32 one32 one32;
   mkDescriptor "s" (dec32 5 10) (dec32 9 10) (dec32 7 10); mkDescriptor "boostn" z32 one32 (dec32 1 10); mkDescriptor "usehartesyntax" z32 one32 z32].
Definition tuning_parameters : list descriptor := [mkDescriptor "rollon" z32 (dec32 5 1) z32].

Section Initialise.
  Context (L : libm).
  (** NNLSBase.cpp:361-364: the arguments of sin and cos, and (367-373) the window. *)
  Definition third_of_a_turn (i : Z) : b64 := fmul (fmul (rat64 2 1) m_pi) (div64 (fmul (rat64 i 1) one64) (rat64 nBPS 1)).
  Definition hamming (i : Z) : b64 := sub64 (rat64 54 100) (fmul (rat64 46 100) (l_cos L (div64 (fmul (fmul (rat64 2 1) m_pi) (rat64 i 1)) (rat64 18 1)))).
  (** 367-374: 19 values are added to hw, and the first 19 are divided by the sum of the new ones. *)
  Definition window (hw : list b32) : outcome (list b32) :=
    let hw := hw ++ map (fun i => f64_to_32 (hamming i)) (zrange 0 18) in
    let sum := fold_left (fun s i => f64_to_32 (fadd (f32_to_64 s) (hamming i))) (zrange 0 18) z32 in
    loop 0 18 (fun hw i => do v <- elt hw i; upd hw i (fdiv32 v sum)) hw.
  (** 351-423, with the sample rate of the constructor, a float. tempkernel holds 128 floats per sample of the block; the cells that are read make up the dense matrix. *)
  Definition initialise (rate : b32) (b : base) (channels step block : Z) : outcome (bool * base) :=
    do dict <- dictionary_matrix (machine L) (b_dict b) (b_s b);
    let sins := b_sin b ++ map (fun i => f64_to_32 (l_sin L (third_of_a_turn i))) (zrange 0 (nBPS - 1)) in
    let coss := b_cos b ++ map (fun i => f64_to_32 (l_cos L (third_of_a_turn i))) (zrange 0 (nBPS - 1)) in
    do hw <- window (b_hw b);
    let mean := b_mean b ++ repeat z32 3 in
    let local := b_local b ++ repeat z32 3 in
    let with_ block step kernel := mkBase block step (b_whitening b) (b_preset b) (b_useNNLS b) (b_tuneLocal b) (b_normalize b) (b_rollon b) (b_boostN b) (b_s b) (b_harte b) mean local kernel dict hw sins coss in
    if negb (channels =? 1) then Ret (false, with_ (b_block b) (b_step b) (b_kernel b))
    else
      do fs <- to_int (f32_to_64 rate);
      do m <- log_freq_matrix L fs block (fresh (nNote * block / 2));
      do matrix <- loop 0 (nNote * (block / 2) - 1) (fun l i => do v <- rd m i; Ret (l ++ [v])) [];
      do kernel <- sparse block matrix;
      Ret (true, with_ block step kernel).
  (** What process() and getRemainingFeatures() see of the object. *)
  Definition setup_of (b : base) : setup := mkSetup (b_dict b) (b_kernel b) (b_hw b) (b_sin b) (b_cos b) (b_block b) (b_whitening b) (b_useNNLS b) (b_tuneLocal b) (b_normalize b) (b_rollon b).
  (** chromamethods.cpp:54: assert(lenKernel % 2 != 0), for the kernel that NNLSChroma.cpp:279, 284 and Chordino.cpp:333, 338 pass, which is hw. *)
  Definition assertion_holds (b : base) : bool := Z.odd (Z.of_nat (length (b_hw b))).
End Initialise.
