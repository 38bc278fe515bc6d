(** Model of the class [Midi] (src/midi.cc). Definitions only. The file reader (midifile, not in /repo) is not modelled: a MIDI file is
    the list of its events after [joinTracks()], each a list of bytes. *)
From Verif Require Import Base PitchClass.

(** include/status.h:42-43. *)
Definition MIDI_UNINITIALIZED : Z := 5.
Definition MIDI_READY : Z := 6.
(** [event[i]], checked. *)
Definition byte_at (event : list Z) (i : Z) : outcome Z :=
  match nth_error event (Z.to_nat i) with Some b => Ret b | None => Undef OutOfBounds end.
(** src/midi.cc:32-37, the constructor: whatever read() reports, the status is READY. *)
Definition midi_status (read_ok : bool) : Z := MIDI_READY.
(** src/midi.cc:46-53: the loop. *)
Fixpoint midi_loop (events : list (list Z)) : outcome (list pitchclass) :=
  match events with
  | [] => Ret []
  | event :: rest =>
      do status <- byte_at event 0;
      let command := Z.land status 240 in
      do on <- (if command =? 144 then do velocity <- byte_at event 2; Ret (negb (velocity =? 0)) else Ret false);
      if on : bool then do pitch <- byte_at event 1; do r <- midi_loop rest; Ret (pc_of_int (Z.rem pitch 12) :: r)
      else midi_loop rest
  end.
(** src/midi.cc:39-55, getPitchClassSequence: there is no return statement after the loop. [returned] = [true] describes an execution
    in which the caller finds the collected sequence all the same. *)
Definition midi_sequence (returned : bool) (events : list (list Z)) : outcome (list pitchclass) :=
  do r <- midi_loop events; if returned then Ret r else Undef MissingReturn.
