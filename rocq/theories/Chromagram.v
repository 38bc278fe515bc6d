(** Model of the class [Chromagram] (src/chromagram.cc, include/chromagram.h). Definitions only. *)
From Flocq Require Import Core.Core IEEE754.BinarySingleNaN.
From Verif Require Import Base Fp PitchClass Text Output Options.

(** include/status.h:35-41. *)
Definition CHROMAGRAM_UNINITIALIZED : Z := 0.
Definition CHROMAGRAM_INPUTFILE_ERROR : Z := 1.
Definition CHROMAGRAM_NNLS_ERROR : Z := 2.
Definition CHROMAGRAM_ORIGINAL_READY : Z := 3.
Definition CHROMAGRAM_DISCRETE_READY : Z := 4.

(** include/chromagram.h:53-55: a vector is an array of twelve doubles, a map is ordered by [<] on the time. *)
Notation chroma_vector := (list b64).
Notation chroma_map := (list (b64 * list b64)).
Definition zero_vector : chroma_vector := repeat fzero 12.

(** [map[t][i] = v] on [std::map<double, std::array<double, 12>>]: a new time gets a zero vector. A NaN time has no place in
    the order. Simplified: also for the first time inserted. *)
Fixpoint map_update (t : b64) (f : chroma_vector -> chroma_vector) (m : chroma_map) : chroma_map :=
  match m with
  | [] => [(t, f zero_vector)]
  | (u, v) :: m' =>
      if flt t u then (t, f zero_vector) :: m
      else if flt u t then (u, v) :: map_update t f m'
      else (u, f v) :: m'
  end.
Definition set_cell (m : chroma_map) (t : b64) (i : Z) (v : b64) : outcome chroma_map :=
  match t with
  | B754_nan => Undef BadOrder
  | _ => Ret (map_update t (fun vec => replace_nth vec (Z.to_nat i) v) m)
  end.

(** src/chromagram.cc:125-127 and 219-221: column [c] (from 0) holds pitch class 9 + c. *)
Definition column_index (c : Z) : Z := Z.rem (PITCHCLASS_A_NATURAL + c) NUMBER_OF_PITCHCLASSES.

(** src/chromagram.cc:118-132: the tokens of one line. Simplified: the column counter does not overflow. *)
Fixpoint csv_tokens (i : Z) (t : b64) (m : chroma_map) (tokens : list string) : outcome (b64 * chroma_map) :=
  match tokens with
  | [] => Ret (t, m)
  | token :: rest =>
      do x <- stof token;
      if i =? 0 then csv_tokens (i + 1) (f32_to_64 x) m rest
      else do m' <- set_cell m t (column_index (i - 1)) (f32_to_64 x); csv_tokens (i + 1) t m' rest
  end.
(** src/chromagram.cc:114-133: all lines. *)
Fixpoint csv_lines (t : b64) (m : chroma_map) (lines : list string) : outcome chroma_map :=
  match lines with
  | [] => Ret m
  | line :: rest => do r <- csv_tokens 0 t m (pieces "," line); csv_lines (fst r) (snd r) rest
  end.
(** src/chromagram.cc:105-136, getChromagramFromCsv; [content] = what the file holds, [None] = it cannot be opened. *)
Definition chromagram_from_csv (content : option string) : outcome (Z * chroma_map) :=
  match content with
  | None => Ret (CHROMAGRAM_INPUTFILE_ERROR, [])
  | Some text => do m <- csv_lines fzero [] (pieces (chr 10) text); Ret (CHROMAGRAM_ORIGINAL_READY, m)
  end.

(** What the audio libraries (libsndfile, the Vamp host, the NNLS plugin) deliver: the file cannot be opened, the plugin does not
    start or has no chroma output, or the list of features: time as text and values (src/chromagram.cc:138-212). *)
Inductive audio_result := CannotOpen | PluginError | Features (fs : list (string * list b32)).
(** src/chromagram.cc:218-224: one feature. *)
Fixpoint feature_values (c : Z) (t : b64) (m : chroma_map) (values : list b32) : outcome chroma_map :=
  match values with
  | [] => Ret m
  | v :: rest => do m' <- set_cell m t (column_index c) (f32_to_64 v); feature_values (c + 1) t m' rest
  end.
(** src/chromagram.cc:213-225. *)
Fixpoint feature_list (m : chroma_map) (fs : list (string * list b32)) : outcome chroma_map :=
  match fs with
  | [] => Ret m
  | (time, values) :: rest =>
      do x <- stof time; do m' <- feature_values 0 (f32_to_64 x) m values; feature_list m' rest
  end.
(** src/chromagram.cc:138-230, getChromagramFromAudio after the libraries have run. *)
Definition chromagram_from_audio (a : audio_result) : outcome (Z * chroma_map) :=
  match a with
  | CannotOpen => Ret (CHROMAGRAM_INPUTFILE_ERROR, [])
  | PluginError => Ret (CHROMAGRAM_NNLS_ERROR, [])
  | Features fs => do m <- feature_list [] fs; Ret (CHROMAGRAM_ORIGINAL_READY, m)
  end.

(** src/chromagram.cc:235-240: one frame of discretizeChromagram ([m] is the discrete map being built). *)
Definition discretize_frame (m : chroma_map) (frame : b64 * chroma_vector) : chroma_map :=
  fold_left (fun m i => map_update (fst frame) (fun vec => replace_nth vec (Z.to_nat i) (ffloor (znth fzero (snd frame) i))) m) (zseq 12) m.
(** src/chromagram.cc:232-243, discretizeChromagram. *)
Definition discretize (original : chroma_map) : chroma_map := fold_left discretize_frame original [].

(** include/chromagram.h:67-69, the data members. *)
Record chromagram := mkChromagram { ch_status : Z; ch_original : chroma_map; ch_discrete : chroma_map }.
(** src/chromagram.cc:30-44, the constructor. *)
Definition chromagram_of (r : outcome (Z * chroma_map)) : outcome chromagram :=
  do sm <- r;
  let '(status, m) := sm in
  if status =? CHROMAGRAM_ORIGINAL_READY then Ret (mkChromagram CHROMAGRAM_DISCRETE_READY m (discretize m))
  else Ret (mkChromagram status m []).
Definition chromagram_csv (content : option string) : outcome chromagram := chromagram_of (chromagram_from_csv content).
Definition chromagram_audio (a : audio_result) : outcome chromagram := chromagram_of (chromagram_from_audio a).

(** [static_cast<int>(double)]: truncation; undefined when the result is not an [int]. *)
Definition trunc (x : b64) : Z :=
  match x with
  | B754_finite s m e _ => cond_Zopp s (if e <? 0 then Zpos m / 2 ^ (- e) else Zpos m * 2 ^ e)
  | _ => 0
  end.
Definition to_int (x : b64) : outcome Z :=
  if is_finite x && (INT_MIN <=? trunc x) && (trunc x <=? INT_MAX) then Ret (trunc x) else Undef FloatCast.
(** [n--] on an [int]. *)
Definition decr (n : Z) : outcome Z := if n =? INT_MIN then Undef SignedOverflow else Ret (n - 1).

(** A loop: the body either goes on with a new state or ends with a result. At most [fuel] rounds, stopping early. *)
Fixpoint run_loop {S R : Type} (fuel : positive) (body : S -> S + R) (s : S) : S + R :=
  match fuel with
  | xH => body s
  | xO p => match run_loop p body s with inl s' => run_loop p body s' | inr r => inr r end
  | xI p => match body s with
            | inl s' => match run_loop p body s' with inl s'' => run_loop p body s'' | inr r => inr r end
            | inr r => inr r
            end
  end.
(** src/chromagram.cc:56-59: one round of [while (n) { push_back(PitchClass(pc)); n--; }]. *)
Definition count_body (pc : Z) (st : Z * list pitchclass) : (Z * list pitchclass) + outcome (list pitchclass) :=
  let '(n, acc) := st in
  if n =? 0 then inr (Ret acc)
  else match decr n with Ret n' => inl (n', acc ++ [pc_of_int pc]) | Throws e => inr (Throws e) | Undef u => inr (Undef u) end.
(** An [int] reaches 0 or the smallest [int] within 2^33 rounds (see the facts); the last branch never happens. *)
Definition count_loop (pc n : Z) : outcome (list pitchclass) :=
  match run_loop (2 ^ 33) (count_body pc) (n, []) with inr r => r | inl _ => Undef SignedOverflow end.
(** src/chromagram.cc:54-60: the notes of one pitch class. *)
Definition pitch_notes (pc : Z) (v : b64) : outcome (list pitchclass) :=
  do n <- to_int v;
  do n <- (if n =? 0 then Ret n else decr n);
  count_loop pc n.
(** src/chromagram.cc:52-61: the notes of one frame. *)
Fixpoint frame_notes (pc : Z) (vec : chroma_vector) : outcome (list pitchclass) :=
  match vec with
  | [] => Ret []
  | v :: rest => do a <- pitch_notes pc v; do b <- frame_notes (pc + 1) rest; Ret (a ++ b)
  end.
(** [std::array<double, 12>::operator==]. *)
Fixpoint vector_eqb (a b : chroma_vector) : bool :=
  match a, b with
  | [], [] => true
  | x :: a', y :: b' => feq x y && vector_eqb a' b'
  | _, _ => false
  end.
(** src/chromagram.cc:46-64, getPitchClassSequence. At the last frame [std::next(itChr)] is the end iterator: dereferencing it is
    undefined; [past] = [Some v] describes an execution in which that read yields the vector [v]. *)
Fixpoint sequence (past : option chroma_vector) (m : chroma_map) : outcome (list pitchclass) :=
  match m with
  | [] => Ret []
  | (_, vec) :: rest =>
      do next <- match rest with
                 | (_, vec') :: _ => Ret vec'
                 | [] => match past with Some v => Ret v | None => Undef EndDeref end
                 end;
      if vector_eqb vec next then sequence past rest
      else do a <- frame_notes 0 vec; do b <- sequence past rest; Ret (a ++ b)
  end.
Definition get_sequence (past : option chroma_vector) (c : chromagram) : outcome (list pitchclass) := sequence past (ch_discrete c).

(** src/chromagram.cc:72-81 and 90-102: one printed line, a time and values. *)
Definition print_line (t : b64) (values : list b64) : string :=
  (format_g t ++ fold_right (fun v s => "," ++ format_g v ++ s) nl values)%string.
(** src/chromagram.cc:66-82, printChromagram (not called by main): the discrete map, from C. *)
Definition print_discrete (c : chromagram) : string :=
  if negb (ch_status c =? CHROMAGRAM_ORIGINAL_READY) && negb (ch_status c =? CHROMAGRAM_DISCRETE_READY) then ""
  else (fold_right (fun f s => print_line (fst f) (snd f) ++ s) "" (ch_discrete c))%string.
(** src/chromagram.cc:84-103, printOriginalChromagram: from A, or from C if [startOnANatural] is false. *)
Definition print_original (startOnANatural : bool) (c : chromagram) : string :=
  if negb (ch_status c =? CHROMAGRAM_ORIGINAL_READY) && negb (ch_status c =? CHROMAGRAM_DISCRETE_READY) then ""
  else (fold_right (fun f s => print_line (fst f)
          (map (fun i => znth fzero (snd f) (if startOnANatural then column_index i else i)) (zseq 12)) ++ s) "" (ch_original c))%string.
