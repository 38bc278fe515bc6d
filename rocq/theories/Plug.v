(** Model of the chroma plug-in: nnls-chroma-1.1/NNLSBase.cpp (initialise, reset, baseProcess), NNLSChroma.cpp (process, getRemainingFeatures) and
    SpecialConvolution of chromamethods.cpp. Definitions only. *)
From Flocq Require Import Core.Core IEEE754.BinarySingleNaN.
From Verif Require Import Base Fp Options Chromagram Nnls NnlsArith.
Open Scope Z_scope.

(** chromamethods.h:25-27; nBPS/2 is 1. *)
Definition nBPS : Z := 3.
Definition nNote : Z := 256.
Notation z32 := (B754_zero false : b32).
Definition one32 : b32 := rat32 1 1.
Definition mul32 (x y : b32) : b32 := Bmult mode_NE x y.
Definition sub32 (x y : b32) : b32 := Bminus mode_NE x y.
Definition sqrt32 (x : b32) : b32 := Bsqrt mode_NE x.
Definition gt32 (x y : b32) : bool := Bltb y x.
(** pow(x, 2) of a float, computed in double precision. *)
Definition square64 (x : b32) : b64 := fmul (f32_to_64 x) (f32_to_64 x).
(** chromamethods.h:35-36. *)
Definition micro (k : Z) : b32 := f64_to_32 (rat64 k 1000000).
Definition basswindow : list b32 := map micro
  [1769;15848;43608;84265;136670;199341;270509;348162;430105;514023;597545;678311;754038;822586;882019;930656;967124;990393;999803;995091;976388;944223;899505;843498;777785;704222;624888;542025;
   457975;375112;295778;222215;156502;100495;55777;23612;4909;0;0;0;0;0;0;0;0;0;0;0;0;0;0;0;0;0;0;0;0;0;0;0;0;0;0;0;0;0;0;0;0;0;0;0;0;0;0;0;0;0;0;0;0;0;0;0].
Definition treblewindow : list b32 := map micro
  [350;3144;8717;17037;28058;41719;57942;76638;97701;121014;146447;173856;203090;233984;266366;300054;334860;370590;407044;444018;481304;518696;555982;592956;629410;665140;699946;733634;
   766016;796910;826144;853553;878986;902299;923362;942058;958281;971942;982963;991283;996856;999650;999650;996856;991283;982963;971942;958281;942058;923362;902299;878986;853553;826144;796910;766016;
   733634;699946;665140;629410;592956;555982;518696;481304;444018;407044;370590;334860;300054;266366;233984;203090;173856;146447;121014;97701;76638;57942;41719;28058;17037;8717;3144;350].

(** l[i], l[i] = v and l[i] += v. *)
Definition elt {T} (l : list T) (i : Z) : outcome T :=
  if i <? 0 then Undef OutOfBounds else match nth_error l (Z.to_nat i) with Some v => Ret v | None => Undef OutOfBounds end.
Definition upd {T} (l : list T) (i : Z) (v : T) : outcome (list T) :=
  if (0 <=? i) && (i <? Z.of_nat (length l)) then Ret (replace_nth l (Z.to_nat i) v) else Undef OutOfBounds.
Definition addto (l : list b32) (i : Z) (v : b32) : outcome (list b32) := do x <- elt l i; upd l i (fadd32 x v).
(** for (i = lo; i <= hi; i += 3). *)
Definition by3 (lo hi : Z) : list Z := filter (fun i => (i - lo) mod nBPS =? 0) (zrange lo hi).
(** The centres of the semitones, NNLSChroma.cpp:360, 377: from nBPS/2 + 2 to nNote - nBPS/2 - 1. *)
Definition centres : list Z := by3 3 254.

(** ** One frame of the transcription, NNLSChroma.cpp:319-410 *)
Section Transcribe.
  Context {A : arith}.
  Notation num := (num A).
  (** 378-381. *)
  Definition band (b : list num) (iNote : Z) : outcome num := loop (-1) 1 (fun v iBPS => do x <- elt b (iNote + iBPS); Ret (add v x)) zero.
  (** 374-385: signifIndex. *)
  Definition significant (b : list num) : outcome (list Z) :=
    do (sig, _) <- each (fun '(sig, index) iNote => do v <- band b iNote; Ret (if gtb v zero then sig ++ [index] else sig, index + 1)) centres ([], 0);
    Ret sig.
  (** 391-398: curr_dict. *)
  Definition columns (dict : list num) (sig : list Z) : outcome (list num) :=
    each (fun a s => loop 0 (nNote - 1) (fun a iBin => do v <- elt dict (s * nNote + iBin); Ret (a ++ [v])) a) sig [].
  (** 372-373, 386-399: the activations x. A call that does not end has no result (it always ends, C69). *)
  Definition activations (a b : list num) (n : Z) : outcome (array num) :=
    match nnls (of_list a) nNote nNote n (of_list b) (mkArray 1084 (fun k => if k =? 0 then None else Some one)) (fresh 1084) (fresh 1084) (fresh 1084) (Z.to_nat ((3 * n + 2) * (n + 10))) with
    | Some r => do r <- r; Ret (r_x r)
    | None => Undef MissingReturn
    end.
  (** The significant semitones with their activations. *)
  Definition transcribe (dict b : list num) : outcome (list (Z * num)) :=
    do sig <- significant b;
    do a <- columns dict sig;
    do x <- activations a b (Z.of_nat (length sig));
    do (l, _) <- each (fun '(l, iNote) s => do v <- rd x iNote; Ret (l ++ [(s, v)], iNote + 1)) sig ([], 0);
    Ret l.
End Transcribe.

(** f3, f4 and f5 of a frame. *)
Record chroma_frame := mkFrame { f_notes : list b32; f_treble : list b32; f_bass : list b32 }.
Definition chroma0 : list b32 := repeat z32 12.
(** Note s has the value v: 366-367 and 404-405. *)
Definition add_note (s : Z) (v : b32) (t : list b32 * list b32) : outcome (list b32 * list b32) :=
  let '(chroma, bass) := t in
  do tw <- elt treblewindow s;
  do chroma <- addto chroma (s mod 12) (mul32 v tw);
  do bw <- elt basswindow s;
  do bass <- addto bass (s mod 12) (mul32 v bw);
  Ret (chroma, bass).
(** 359-370, useNNLS = 0. The weight 1 - |iBPS * 1.0 / 2| is a double, and so is the sum before it is stored. *)
Definition weight (iBPS : Z) : b64 := if iBPS =? 0 then rat64 1 1 else rat64 1 2.
Definition smooth_band (b : list b32) (iNote : Z) : outcome b32 :=
  loop (-1) 1 (fun v iBPS => do x <- elt b (iNote + iBPS); Ret (f64_to_32 (fadd (f32_to_64 v) (fmul (f32_to_64 x) (weight iBPS))))) z32.
Definition plain_frame (b : list b32) : outcome chroma_frame :=
  do (f3, t, _) <- each (fun '(f3, t, iSemitone) iNote =>
    do v <- smooth_band b iNote; do t <- add_note iSemitone v t; Ret (f3 ++ [v], t, iSemitone + 1)) centres ([], (chroma0, chroma0), 0);
  Ret (mkFrame f3 (fst t) (snd t)).
(** 371-407, useNNLS = 1. *)
Fixpoint over {S T} (body : S -> T -> outcome S) (l : list T) (s : S) : outcome S := match l with [] => Ret s | x :: l' => do s' <- body s x; over body l' s' end.
Definition nnls_frame (dict b : list b32) : outcome chroma_frame :=
  do l <- transcribe (A := single) dict b;
  do (f3, t) <- over (fun '(f3, t) '(s, v) => do f3 <- upd f3 s v; do t <- add_note s v t; Ret (f3, t)) l (map (fun _ => z32) centres, (chroma0, chroma0));
  Ret (mkFrame f3 (fst t) (snd t)).
(** 338-410: a frame from the tuned spectrum f2. *)
Definition spectrum_frame (useNNLS : b32) (dict f2 : list b32) : outcome chroma_frame :=
  do b <- loop 0 (nNote - 1) (fun b i => do v <- elt f2 i; Ret (b ++ [v])) [];
  if existsb (fun v => gt32 v z32) b then (if Beqb useNNLS z32 then plain_frame b else nnls_frame dict b)
  else Ret (mkFrame (repeat z32 84) chroma0 chroma0).

(** ** Normalisation, NNLSChroma.cpp:413-469 *)
(** std::max_element (the first largest), a sum, and a sum of squares with its root. *)
Definition max_element (l : list b32) : b32 := match l with [] => z32 | x :: l' => fold_left (fun m v => if Bltb m v then v else m) l' x end.
Definition sum32 (l : list b32) : b32 := fold_left fadd32 l z32.
Definition norm2 (l : list b32) : b32 := sqrt32 (fold_left (fun s v => f64_to_32 (fadd (f32_to_64 s) (square64 v))) l z32).
Definition norms (kind : Z) (f4 f5 f6 : list b32) : b32 * b32 * b32 :=
  if kind =? 1 then let a := max_element f4 in let b := max_element f5 in (a, b, if Bltb a b then b else a)
  else if kind =? 2 then (sum32 f4, sum32 f5, sum32 f6)
  else if kind =? 3 then (norm2 f4, norm2 f5, norm2 f6)
  else (z32, z32, z32).
Definition divided (l : list b32) (norm : b32) : list b32 := if gt32 norm z32 then map (fun v => fdiv32 v norm) l else l.
(** f4, f5 and f6, where f6 is the bass chroma followed by the treble chroma. *)
Definition normalised (setting : b32) (f4 f5 : list b32) : outcome (list b32 * list b32 * list b32) :=
  let f6 := f5 ++ f4 in
  if gt32 setting z32 then
    do kind <- to_int (f32_to_64 setting);
    let '(a, b, c) := norms kind f4 f5 f6 in Ret (divided f4 a, divided f5 b, divided f6 c)
  else Ret (f4, f5, f6).

(** ** SpecialConvolution, chromamethods.cpp:46-73; the assertion that the kernel has odd length is left out *)
Definition special_convolution (convolvee kernel : list b32) : outcome (list b32) :=
  let lc := Z.of_nat (length convolvee) in
  let lk := Z.of_nat (length kernel) in
  let half := lk / 2 in
  do z <- loop (lk - 1) (lc - 1) (fun z n =>
    do s <- loop 0 (lk - 1) (fun s m => do c <- elt convolvee (n - m); do k <- elt kernel m; Ret (fadd32 s (mul32 c k))) z32;
    upd z (n - half) s) (repeat z32 (Z.to_nat nNote));
  do z <- loop 0 (half - 1) (fun z n => do v <- elt z half; upd z n v) z;
  loop lc (lc + half - 1) (fun z n => do v <- elt z (lc - half - 1); upd z (n - half) v) z.

(** ** The state of the plug-in, NNLSBase.h:55-82 *)
Section Plugin.
  (** atan2 and pow for floats, and the type of a time stamp. *)
  Context (atan2 powf : b32 -> b32 -> b32) {stamp : Type}.
  (** What initialise() has set up, and the settings. A kernel entry is (FFT bin, note, value). *)
  Record setup := mkSetup { s_dict : list b32; s_kernel : list (Z * Z * b32); s_hw : list b32; s_sin : list b32; s_cos : list b32; s_block : Z;
    s_whitening : b32; s_useNNLS : b32; s_tuneLocal : bool; s_normalize : b32; s_rollon : b32 }.
  Record plug := mkPlug { p_frames : Z; p_mean : list b32; p_local : list b32; p_tuning : list b32; p_spectra : list (stamp * list b32) }.
  (** NNLSBase.cpp:426-439, reset(), also the state after initialise(). *)
  Definition reset : plug := mkPlug 0 (repeat z32 3) (repeat z32 3) [] [].
  (** NNLSBase.cpp:388-412: the entries of the dense matrix that are positive, note by note. *)
  Definition sparse (block : Z) (matrix : list b32) : outcome (list (Z * Z * b32)) :=
    loop 0 (nNote - 1) (fun l iNote => loop 0 (block / 2 - 1) (fun l iFFT =>
      do v <- elt matrix (iFFT + block / 2 * iNote); Ret (if gt32 v z32 then l ++ [(iFFT, iNote, v)] else l)) l) [].
  (** 448-455: the magnitudes and the largest. *)
  Definition clip (block : Z) (v : b32) : b32 := if fgt (f32_to_64 v) (rat64 block 1) then rat32 block 1 else v.
  Definition magnitudes (block : Z) (fbuf : list b32) : outcome (list b32 * b32) :=
    loop 0 (block / 2 - 1) (fun '(l, mx) iBin =>
      do re <- elt fbuf (2 * iBin); do im <- elt fbuf (2 * iBin + 1);
      let v := clip block (sqrt32 (fadd32 (mul32 re re) (mul32 im im))) in
      Ret (l ++ [v], if Bltb mx v then v else mx)) ([], rat32 (-10000) 1).
  (** 456-468: the noise threshold. The sum energysum is made only if rollon > 0. *)
  Definition energy (s v : b32) : b32 := f64_to_32 (fadd (f32_to_64 s) (square64 v)).
  Definition roll_on (rollon : b32) (mag : list b32) : outcome (list b32) :=
    if gt32 rollon z32 then
      let energysum := fold_left energy mag z32 in
      do (mag, _, _) <- loop 2 (Z.of_nat (length mag) - 1) (fun '(mag, cum, go) iBin =>
        if go : bool then
          do v <- elt mag iBin;
          let cum := energy cum v in
          if Bltb cum (fdiv32 (mul32 energysum rollon) (rat32 100 1)) then do mag <- upd mag (iBin - 2) z32; Ret (mag, cum, true) else Ret (mag, cum, false)
        else Ret (mag, cum, false)) (mag, z32, true);
      Ret mag
    else Ret mag.
  (** 470-475. *)
  Definition quiet (mx : b32) (mag : list b32) : list b32 := if Bltb mx (rat32 2 1) then map (fun _ => z32) mag else mag.
  (** 477-488: nm. *)
  Definition note_magnitudes (kernel : list (Z * Z * b32)) (mag : list b32) : outcome (list b32) :=
    over (fun nm '(fft, note, v) => do m <- elt mag fft; addto nm note (mul32 m v)) kernel (repeat z32 (Z.to_nat nNote)).
  (** 493-504: round(nNote*0.62/nBPS)*nBPS+1 is 160. *)
  Definition tones : list Z := by3 0 159.
  Definition ratio_old : b32 := f64_to_32 (rat64 997 1000).
  Definition update_tunings (n : Z) (nm mean local : list b32) : outcome (list b32 * list b32) :=
    let one_over_N := f64_to_32 (Bdiv mode_NE (rat64 1 1) (rat64 n 1)) in
    let mean := map (fun v => mul32 v (mul32 (rat32 (n - 1) 1) one_over_N)) mean in
    each (fun '(mean, local) iTone =>
      do mean <- loop 0 (nBPS - 1) (fun mean i => do v <- elt nm (iTone + i); addto mean i (mul32 v one_over_N)) mean;
      do local <- loop 0 (nBPS - 1) (fun local i => do x <- elt local i; do v <- elt nm (iTone + i); upd local i (fadd32 (mul32 x ratio_old) (mul32 v (sub32 one32 ratio_old)))) local;
      Ret (mean, local)) tones (mean, local).
  (** 510-517 and NNLSChroma.cpp:231-238: the angle of the tuning, in turns; 2 * M_PI is a double. *)
  Definition two_pi : b64 := rat64 884279719003555 (2 ^ 47).
  Definition angle (sins coss tun : list b32) : outcome b32 :=
    do (re, im) <- loop 0 (nBPS - 1) (fun '(re, im) i =>
      do t <- elt tun i; do c <- elt coss i; do s <- elt sins i; Ret (fadd32 re (mul32 t c), fadd32 im (mul32 t s))) (z32, z32);
    Ret (f64_to_32 (Bdiv mode_NE (f32_to_64 (atan2 im re)) two_pi)).
  (** NNLSBase.cpp:442-533 and NNLSChroma.cpp:208-217: one call of process() gives the new spectrum. Overflow of the frame count is not modelled. *)
  Definition process (c : setup) (p : plug) (t : stamp) (fbuf : list b32) : outcome (plug * (stamp * list b32)) :=
    let n := p_frames p + 1 in
    do (mag, mx) <- magnitudes (s_block c) fbuf;
    do mag <- roll_on (s_rollon c) mag;
    let mag := quiet mx mag in
    do nm <- note_magnitudes (s_kernel c) mag;
    do (mean, local) <- update_tunings n nm (p_mean p) (p_local p);
    do a <- angle (s_sin c) (s_cos c) local;
    Ret (mkPlug n mean local (p_tuning p ++ [a]) (p_spectra p ++ [(t, nm)]), (t, nm)).

  (** ** getRemainingFeatures, NNLSChroma.cpp:220-481 *)
  (** 239-240, 266-267: intShift and floatShift. *)
  Definition shifts (tuning : b32) : outcome (Z * b32) :=
    let t3 := mul32 tuning (rat32 3 1) in
    do i <- to_int (ffloor (f32_to_64 t3));
    Ret (i, sub32 t3 (rat32 i 1)).
  (** 262, 272-277: f2 before whitening. *)
  Definition tuned (i : Z) (f : b32) (f1 : list b32) : outcome (list b32) :=
    do l <- loop 2 (Z.of_nat (length f1) - 4) (fun l k => do x <- elt f1 (k + i); do y <- elt f1 (k + i + 1); Ret (l ++ [fadd32 (mul32 x (sub32 one32 f)) (mul32 y f)])) [z32; z32];
    Ret (l ++ [z32; z32; z32]).
  (** 279-296: whitening; the number of error messages comes with the result. *)
  Definition whiten (hw : list b32) (whitening : b32) (f2 : list b32) : outcome (list b32 * Z) :=
    do mean <- special_convolution f2 hw;
    do std <- loop 0 (nNote - 1) (fun l i => do v <- elt f2 i; do m <- elt mean i; let d := sub32 v m in Ret (l ++ [mul32 d d])) [];
    do std <- special_convolution std hw;
    loop 0 (nNote - 1) (fun '(f2, errors) i =>
      do s <- elt std i;
      let s := sqrt32 s in
      do v <- elt f2 i;
      do m <- elt mean i;
      let d := sub32 v m in
      do f2 <- (if gt32 s z32 then upd f2 i (if gt32 d z32 then fdiv32 d (powf s whitening) else z32) else Ret f2);
      do v <- elt f2 i;
      Ret (f2, if Bltb v z32 then errors + 1 else errors)) (f2, 0).
  (** 257-299: the tuned spectra. *)
  Definition tune_all (c : setup) (p : plug) (global : Z * b32) : outcome (list (stamp * list b32) * Z) :=
    do (l, errors, _) <- over (fun '(l, errors, count) '(t, f1) =>
      do (i, f) <- (if s_tuneLocal c then do a <- elt (p_tuning p) count; shifts a else Ret global);
      do f2 <- tuned i f f1;
      do (f2, e) <- whiten (s_hw c) (s_whitening c) f2;
      Ret (l ++ [(t, f2)], errors + e, count + 1)) (p_spectra p) ([], 0, 0);
    Ret (l, errors).
  (** What the outputs hold: the tuned spectra, the semitone spectra, and the three chromagrams; and the number of error messages. *)
  Record outputs := mkOut { o_tuned : list (stamp * list b32); o_notes : list (stamp * list b32); o_treble : list (stamp * list b32); o_bass : list (stamp * list b32); o_both : list (stamp * list b32); o_errors : Z }.
  (** The text with the estimated frequency, 237, 242-244, is not used and left out. *)
  Definition remaining (c : setup) (p : plug) : outcome outputs :=
    match p_spectra p with
    | [] => Ret (mkOut [] [] [] [] [] 0)
    | _ =>
        do a <- angle (s_sin c) (s_cos c) (p_mean p);
        do g <- shifts a;
        do (l, errors) <- tune_all c p g;
        do (f3, f4, f5, f6) <- over (fun '(f3, f4, f5, f6) '(t, f2) =>
          do f <- spectrum_frame (s_useNNLS c) (s_dict c) f2;
          do (a, b, ab) <- normalised (s_normalize c) (f_treble f) (f_bass f);
          Ret (f3 ++ [(t, f_notes f)], f4 ++ [(t, a)], f5 ++ [(t, b)], f6 ++ [(t, ab)])) l ([], [], [], []);
        Ret (mkOut l f3 f4 f5 f6 errors)
    end.
  (** A whole run, as src/chromagram.cc:187-211 makes it with the Vamp host: all frames, then the rest. *)
  Definition analyse (c : setup) (frames : list (stamp * list b32)) : outcome outputs :=
    do p <- over (fun p '(t, fbuf) => do (p, _) <- process c p t fbuf; Ret p) frames reset;
    remaining c p.
End Plugin.
