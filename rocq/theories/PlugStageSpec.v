(** What each stage of the chroma plug-in is to compute, bin by bin. *)
From Coq Require Import Reals.
From Flocq Require Import Core.Core IEEE754.BinarySingleNaN.
From Verif Require Import Base Fp Nnls NnlsArith.
Open Scope Z_scope.

Definition nil32 : b32 := B754_zero false.
Definition at_bin (l : list b32) (i : Z) : b32 := znth nil32 l i.
Definition times (x y : b32) : b32 := Bmult mode_NE x y.
Definition minus (x y : b32) : b32 := Bminus mode_NE x y.

(** ** From a block to notes *)
(** The size of the complex number i, at most the length of the block. *)
Definition bin_size (block : Z) (fbuf : list b32) (i : Z) : b32 :=
  let re := at_bin fbuf (2 * i) in let im := at_bin fbuf (2 * i + 1) in let v := Bsqrt mode_NE (fadd32 (times re re) (times im im)) in
  if Bltb (rat64 block 1) (f32_to_64 v) then rat32 block 1 else v.
Definition bin_sizes (block : Z) (fbuf : list b32) : list b32 := map (bin_size block fbuf) (zrange 0 (block / 2 - 1)).
(** The energy of some bins; each sum is made in double precision and stored as a float. *)
Definition power (l : list b32) : b32 := fold_left (fun s v => f64_to_32 (fadd (f32_to_64 s) (fmul (f32_to_64 v) (f32_to_64 v)))) l nil32.
(** Bin i is rolled off if the energy of bins 2 to j stays below the given percentage of the energy, for every j up to i + 2, which must be a bin. *)
Definition rolled_off (rollon : b32) (l : list b32) (i : Z) : bool :=
  Bltb nil32 rollon && (i + 2 <? Z.of_nat (length l)) &&
  forallb (fun j => Bltb (power (map (at_bin l) (zrange 2 j))) (fdiv32 (times (power l) rollon) (rat32 100 1))) (zrange 2 (i + 2)).
(** Some bin has at least size 2. *)
Definition audible (l : list b32) : bool := existsb (fun v => Bleb (rat32 2 1) v) l.
Definition heard_bin (block : Z) (rollon : b32) (fbuf : list b32) (i : Z) : b32 :=
  let l := bin_sizes block fbuf in if audible l && negb (rolled_off rollon l i) then at_bin l i else nil32.
(** Note k: the weighted sum of the bins that the kernel gives it, in the order of the kernel. *)
Definition note_value (kernel : list (Z * Z * b32)) (heard : Z -> b32) (k : Z) : b32 :=
  fold_left (fun sum '(fft, _, v) => fadd32 sum (times (heard fft) v)) (filter (fun '(_, note, _) => note =? k) kernel) nil32.
Definition note_spectrum (kernel : list (Z * Z * b32)) (block : Z) (rollon : b32) (fbuf : list b32) : list b32 :=
  map (note_value kernel (heard_bin block rollon fbuf)) (zrange 0 255).

(** ** The tuning *)
(** Three bins make a semitone. The lowest 54 semitones count. The means over n frames from those over n - 1: *)
Definition mean_next (n : Z) (mean notes : list b32) : list b32 :=
  let part := f64_to_32 (Bdiv mode_NE (rat64 1 1) (rat64 n 1)) in
  map (fun i => fold_left (fun s tone => fadd32 s (times (at_bin notes (3 * tone + i)) part)) (zrange 0 53) (times (at_bin mean i) (times (rat32 (n - 1) 1) part))) [0; 1; 2].
(** The local tuning forgets with every semitone of every frame, not once a frame. *)
Definition old_part : b32 := f64_to_32 (rat64 997 1000).
Definition local_next (local notes : list b32) : list b32 :=
  map (fun i => fold_left (fun s tone => fadd32 (times s old_part) (times (at_bin notes (3 * tone + i)) (minus (rat32 1 1) old_part))) (zrange 0 53) (at_bin local i)) [0; 1; 2].
Definition silent3 : list b32 := [nil32; nil32; nil32].
Definition mean_after (spectra : list (list b32)) : list b32 := snd (fold_left (fun '(n, mean) notes => (n + 1, mean_next (n + 1) mean notes)) spectra (0, silent3)).
Definition local_after (spectra : list (list b32)) : list b32 := fold_left local_next spectra silent3.
(** The three bins as directions in the plane; the angle of their sum, in turns. *)
Definition dot (l m : list b32) : b32 := fold_left (fun s i => fadd32 s (times (at_bin l i) (at_bin m i))) [0; 1; 2] nil32.
Definition in_turns (a : b32) : b32 := f64_to_32 (Bdiv mode_NE (f32_to_64 a) (rat64 884279719003555 (2 ^ 47))).
Definition tuning_angle (atan2 : b32 -> b32 -> b32) (sins coss l : list b32) : b32 := in_turns (atan2 (dot l sins) (dot l coss)).
(** The angle for each frame. *)
Definition tunings (atan2 : b32 -> b32 -> b32) (local : bool) (sins coss : list b32) (spectra : list (list b32)) : list b32 :=
  map (fun n => tuning_angle atan2 sins coss (if local then local_after (firstn n spectra) else mean_after spectra)) (seq 1 (length spectra)).
(** A whole turn is three bins: so many whole bins, and the rest. *)
Definition whole_bins (angle : b32) : Z := Zfloor (B2R (times angle (rat32 3 1))).
Definition rest_of_bin (angle : b32) : b32 := minus (times angle (rat32 3 1)) (rat32 (whole_bins angle) 1).
Definition retuned (angle : b32) (notes : list b32) : list b32 :=
  let i := whole_bins angle in let f := rest_of_bin angle in
  map (fun k => if (2 <=? k) && (k <=? 252) then fadd32 (times (at_bin notes (k + i)) (minus (rat32 1 1) f)) (times (at_bin notes (k + i + 1)) f) else nil32) (zrange 0 255).

(** ** Whitening *)
(** The weighted mean around bin k; near the edges, that of the nearest bin that has all its neighbours. *)
Definition running (window l : list b32) (k : Z) : b32 :=
  let h := Z.of_nat (length window) / 2 in let k := Z.max h (Z.min k (255 - h)) in
  fold_left (fun s m => fadd32 s (times (at_bin l (k + h - m)) (at_bin window m))) (zrange 0 (Z.of_nat (length window) - 1)) nil32.
Definition excess (window l : list b32) (k : Z) : b32 := minus (at_bin l k) (running window l k).
Definition spread (window l : list b32) (k : Z) : b32 := Bsqrt mode_NE (running window (map (fun k => times (excess window l k) (excess window l k)) (zrange 0 255)) k).
(** Where there is a spread: what is above the mean, divided by a power of the spread. *)
Definition whitened (powf : b32 -> b32 -> b32) (window : list b32) (whitening : b32) (l : list b32) : list b32 :=
  map (fun k => if Bltb nil32 (spread window l k) then (if Bltb nil32 (excess window l k) then fdiv32 (excess window l k) (powf (spread window l k) whitening) else nil32) else at_bin l k) (zrange 0 255).
