(** Model of the command-line part of [main] (src/justkeydding.cc:53-154). Definitions only.
    The option parser (optparse, not in /repo) is not modelled: what it hands over is the record [options]. *)
From Verif Require Import Base Fp Key PitchClass KeyProfile KeyTransition Pipeline Text.

(** src/justkeydding.cc:54-55, 62-65, 94-97, 119-127, 144-149: positional arguments and option values ([None] = not set; the
    options with a default always have a value). The parser admits only the values listed in [admitted]. *)
Record options := mkOptions {
  o_args : list string; o_format : option string;
  o_profiles : option string; o_major : string; o_minor : string;
  o_transitions : option string; o_transition : string;
  o_evaluate : bool; o_probabilities : bool; o_chroma : bool }.
(** src/justkeydding.cc:301-338, the choices the parser enforces. *)
Definition format_choices : list string := ["wav"; "csv"; "midi"]%string.
Definition profile_choices : list string := ["krumhansl_kessler"; "aarden_essen"; "bellman_budge"; "sapp"; "temperley"]%string.
Definition transition_choices : list string := ["exponential2"; "exponential10"]%string.
Definition admitted (o : options) : Prop :=
  (forall f, o_format o = Some f -> In f format_choices) /\ In (o_major o) profile_choices /\ In (o_minor o) profile_choices /\
  In (o_transition o) transition_choices.
(** src/justkeydding.cc:311-338, what the parser hands over when no option is given. *)
Definition plain_options (filename : string) : options :=
  mkOptions [filename] None None "sapp" "sapp" None "exponential10" false false false.

(** include/justkeydding.h:46-50. *)
Inductive input_type := INPUT_CSV | INPUT_WAV | INPUT_MIDI.

(** A step of [main]: go on, or print the help after a message and return 0. *)
Inductive step (A : Type) := Go (a : A) | Help (message : string).
Arguments Go {A} _. Arguments Help {A} _.

(** src/justkeydding.cc:62-73: the value stays unset ([None]) when no comparison holds. *)
Definition input_of_format (format : string) : option input_type :=
  if (format =? ".wav")%string then Some INPUT_WAV
  else if (format =? ".csv")%string then Some INPUT_CSV
  else if (format =? ".midi")%string then Some INPUT_MIDI
  else None.
(** src/justkeydding.cc:89. *)
Definition neither_message : string :=
  "It seems the input is neither a wav, csv, nor midi file. If it is, please specify explicitly using -f.".
(** src/justkeydding.cc:73-93. [substr(pos)] is [substr(pos, npos)]. *)
Definition input_of_extension (filename : string) : outcome (step input_type) :=
  do extension <- substr filename (find_last_of "." filename) npos;
  let extension := string_map tolower extension in
  Ret (if (extension =? ".wav")%string then Go INPUT_WAV
       else if (extension =? ".csv")%string then Go INPUT_CSV
       else if (extension =? ".midi")%string || (extension =? ".mid")%string then Go INPUT_MIDI
       else Help neither_message).
(** src/justkeydding.cc:62-93. *)
Definition choose_input (o : options) (filename : string) : outcome (step (option input_type)) :=
  match o_format o with
  | Some format => Ret (Go (input_of_format format))
  | None =>
      do c <- input_of_extension filename;
      Ret (match c with Go t => Go (Some t) | Help m => Help m end)
  end.

(** [array[i] = v], checked. *)
Fixpoint replace_nth {A} (l : list A) (n : nat) (v : A) : list A :=
  match l, n with
  | [], _ => []
  | _ :: l', O => v :: l'
  | x :: l', S n' => x :: replace_nth l' n' v
  end.
Definition store {A} (l : list A) (i : Z) (v : A) : outcome (list A) :=
  if (0 <=? i) && (i <? Z.of_nat (length l)) then Ret (replace_nth l (Z.to_nat i) v) else Undef OutOfBounds.
(** [i++] on an [int]. *)
Definition INT_MAX : Z := 2 ^ 31 - 1.
Definition INT_MIN : Z := - 2 ^ 31.
Definition incr (i : Z) : outcome Z := if i =? INT_MAX then Undef SignedOverflow else Ret (i + 1).

(** src/justkeydding.cc:101-111: the loop that stores the values of -K. The arrays start with indeterminate contents. *)
Fixpoint fill_profiles (vals : list b64) (i : Z) (maj mino : profile_array) : outcome (Z * profile_array * profile_array) :=
  match vals with
  | [] => Ret (i, maj, mino)
  | v :: vals' =>
      if i <? FIRST_MINOR_KEY then
        do maj' <- store maj i v; do i' <- incr i; fill_profiles vals' i' maj' mino
      else
        do mino' <- store mino (Z.rem i NUMBER_OF_PITCHCLASSES) v; do i' <- incr i; fill_profiles vals' i' maj mino'
  end.
(** Decimal text of an [int] ([ostream << int]). *)
Definition format_int (i : Z) : string :=
  if i =? 0 then "0"%string
  else ((if (i <? 0)%Z then "-" else "") ++ to_digits (Z.to_nat (width (Z.abs i))) (Z.abs i))%string.
(** src/justkeydding.cc:113 and 137. *)
Definition count_message (what : string) (i : Z) : string :=
  ("You must provide exactly 24 values for the custom key " ++ what ++ ". You provided " ++ format_int i ++ ".")%string.
(** src/justkeydding.cc:94-116. *)
Definition custom_profiles (text : string) (maj mino : profile_array) : outcome (step (profile_array * profile_array)) :=
  do r <- fill_profiles (read_doubles text) 0 maj mino;
  let '(i, maj', mino') := r in
  Ret (if i =? NUMBER_OF_KEYS then Go (maj', mino') else Help (count_message "profiles" i)).

(** src/justkeydding.cc:130-135: the loop that stores the values of -T. *)
Fixpoint fill_transitions (vals : list b64) (i : Z) (arr : transition_array) : outcome (Z * transition_array) :=
  match vals with
  | [] => Ret (i, arr)
  | v :: vals' => do arr' <- store arr i v; do i' <- incr i; fill_transitions vals' i' arr'
  end.
(** src/justkeydding.cc:124-141. *)
Definition custom_transitions (text : string) (arr : transition_array) : outcome (step transition_array) :=
  do r <- fill_transitions (read_doubles text) 0 arr;
  let '(i, arr') := r in
  Ret (if i =? NUMBER_OF_KEYS then Go arr' else Help (count_message "transitions" i)).

(** src/justkeydding.cc:94-146: the tables. [g1], [g2], [g3] are the indeterminate initial contents of the three arrays. *)
Definition choose_tables (g1 g2 : profile_array) (g3 : transition_array) (o : options) : outcome (step tables) :=
  do k <- match o_profiles o with
          | Some text => do r <- custom_profiles text g1 g2;
              Ret (match r with Go (a, b) => Go ("custom"%string, "custom"%string, a, b) | Help m => Help m end)
          | None => Ret (Go (o_major o, o_minor o, g1, g2))
          end;
  match k with
  | Help m => Ret (Help m)
  | Go (mj, mn, a, b) =>
      do t <- match o_transitions o with
              | Some text => do r <- custom_transitions text g3;
                  Ret (match r with Go c => Go ("custom"%string, c) | Help m => Help m end)
              | None => Ret (Go (o_transition o, g3))
              end;
      Ret (match t with Go (tn, c) => Go (mkTables mj mn a b tn c) | Help m => Help m end)
  end.

(** src/justkeydding.cc:56-149: file name, input type and tables. *)
Definition read_options (g1 g2 : profile_array) (g3 : transition_array) (o : options)
  : outcome (step (string * option input_type * tables)) :=
  match o_args o with
  | [filename] =>
      do c <- choose_input o filename;
      match c with
      | Help m => Ret (Help m)
      | Go ty =>
          do t <- choose_tables g1 g2 g3 o;
          Ret (match t with Help m => Help m | Go tb => Go (filename, ty, tb) end)
      end
  | _ => Ret (Help "Missing input file.")
  end.
