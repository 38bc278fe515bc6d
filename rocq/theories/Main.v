(** Model of [main] as a whole (src/justkeydding.cc:38-285). Definitions only. *)
From Verif Require Import Base Fp Key PitchClass KeyProfile KeyTransition Hmm Pipeline Text Options Output Chromagram Midi.

(** How a run of the program ends. *)
Record ended := mkEnded { exit_code : Z; out : string; err : string }.

(** Everything outside the modelled code: the math library, hash-table orders, the files as the libraries see them, the help text of the
    option parser, indeterminate memory ([w_past], [w_returned], [w_garbage*]). *)
Record world := mkWorld {
  w_log10 : b64 -> b64; w_iter1 : layer b64 -> list (Z * node b64); w_iter2 : layer b64 -> list (Z * node b64);
  w_csv : string -> option string; w_audio : string -> audio_result; w_midi : string -> bool * list (list Z); w_help : string;
  w_past : option (list b64); w_returned : bool;
  w_garbage1 : profile_array; w_garbage2 : profile_array; w_garbage3 : transition_array }.

(** src/justkeydding.cc:160-162 and 177-179. *)
Definition read_error (status : Z) : ended := mkEnded status "" ("There was an error while reading the input file." ++ nl).
(** src/justkeydding.cc:155-188: the notes, or an early end. *)
Inductive input := Notes (pcs : list pitchclass) | Done (e : ended).
Definition read_input (w : world) (o : options) (filename : string) (ty : input_type) : outcome input :=
  match ty with
  | INPUT_MIDI =>
      let '(ok, events) := w_midi w filename in
      let status := midi_status ok in
      if negb (status =? MIDI_READY) then Ret (Done (read_error status))
      else do pcs <- midi_sequence (w_returned w) events; Ret (Notes pcs)
  | _ =>
      do c <- match ty with INPUT_CSV => chromagram_csv (w_csv w filename) | _ => chromagram_audio (w_audio w filename) end;
      if negb (ch_status c =? CHROMAGRAM_DISCRETE_READY) then Ret (Done (read_error (ch_status c)))
      else if o_chroma o then Ret (Done (mkEnded 0 (print_original true c) ""))
      else do pcs <- get_sequence (w_past w) c; Ret (Notes pcs)
  end.
(** src/justkeydding.cc:243-284. *)
Definition write_output (o : options) (filename : string) (probs : list b64) (mainKey : key) : outcome string :=
  if o_probabilities o then Ret (print_probabilities probs)
  else if o_evaluate o then print_evaluation filename mainKey
  else print_label mainKey.
(** src/justkeydding.cc:38-285; [inr n] = the option parser threw the exit code [n]. *)
Definition main (w : world) (parsed : options + Z) : outcome ended :=
  match parsed with
  | inr n => Ret (mkEnded n "" ("Error " ++ format_int n ++ nl))
  | inl o =>
      do s <- read_options (w_garbage1 w) (w_garbage2 w) (w_garbage3 w) o;
      match s with
      | Help message => Ret (mkEnded 0 (message ++ nl ++ w_help w) "")
      | Go (filename, ty, tb) =>
          do ty <- match ty with Some ty => Ret ty | None => Undef UninitRead end;
          do i <- read_input w o filename ty;
          match i with
          | Done e => Ret e
          | Notes pcs =>
              do r <- detect (w_log10 w) (w_iter1 w) (w_iter2 w) tb pcs;
              let '(h1, h2, mainKey) := r in
              do text <- write_output o filename (h_probs h2) mainKey;
              Ret (mkEnded 0 text "")
          end
      end
  end.
