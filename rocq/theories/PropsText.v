(** Property theorems C40, C43, C44: the chromagram dump, reading numbers, printing numbers. *)
From Coq Require Import Reals Lia Lra Ascii Sorted.
From Flocq Require Import Core.Core IEEE754.BinarySingleNaN.
From Verif Require Import Base BaseFacts Fp FpFacts Key PitchClass Text Options Output Chromagram MusicSpec TextSpec TextFacts NumberFacts ReadFacts FormatFacts
  ChromaSpec ChromaFacts ChromaCases PrintSpec PrintFacts PrintUnique DumpFacts DumpMain TextMain TextCases.
Open Scope Z_scope.

(** C43: reading numbers. *)
Theorem C43_stof_is_the_nearest_float : forall s y, ~ begins_hexadecimal s -> (exists x, stof s = Ret x /\ f32_to_64 x = y) <-> token_value s y.
Proof. exact C43_stof_proof. Qed.
Print Assumptions C43_stof_is_the_nearest_float.
Theorem C43_stof_throws : forall s, ~ begins_hexadecimal s ->
  (stof s = Throws StdInvalidArgument <-> ~ begins_number s) /\ (stof s = Throws StdOutOfRange <-> out_of_float s) /\ (forall u, stof s <> Undef u).
Proof. exact C43_throws_proof. Qed.
Print Assumptions C43_stof_throws.
Theorem C43_token_has_one_value : forall s y y', token_value s y -> token_value s y' -> y = y'.
Proof. exact token_unique. Qed.
Print Assumptions C43_token_has_one_value.
Theorem C43_stream_reads_the_nearest_double : forall s x r, extract_double s = Some (x, r) <-> readable s x r.
Proof. exact extract_iff. Qed.
Print Assumptions C43_stream_reads_the_nearest_double.
Theorem C43_both_readers_accept_the_same_refuted : ~ (forall s, (exists x, stof s = Ret x) <-> (exists x r, extract_double s = Some (x, r))).
Proof. exact readers_differ. Qed.
Print Assumptions C43_both_readers_accept_the_same_refuted.
(** 0.1 with trailing text is a token; 1e39 is out of range; "abc" is not a number. *)
Example C43_case : token_value "0.1kHz" (f32_to_64 (rat32 1 10)) /\ stof "1e39" = Throws StdOutOfRange /\ stof " abc" = Throws StdInvalidArgument /\
  ~ begins_hexadecimal "0.1kHz" /\ (exists x, stof "0x1p-1" = Ret x /\ B2R x = (1 / 2)%R) /\
  (exists x, extract_double " 2.5e1,3" = Some (x, ",3"%string) /\ B2R x = 25%R).
Proof. exact reading_cases. Qed.

(** C44: printing numbers. *)
Theorem C44_text_of_a_number : forall x s, format_g x = s <-> in_print x s.
Proof. intros x s. rewrite in_print_iff. split; congruence. Qed.
Print Assumptions C44_text_of_a_number.
Theorem C44_text_exists_uniquely : forall x, exists s, in_print x s /\ forall s', in_print x s' -> s' = s.
Proof. exact in_print_exists. Qed.
Print Assumptions C44_text_exists_uniquely.
Theorem C44_text_is_close : forall x s, is_finite x = true -> format_g x = s ->
  exists d, s = show_decimal d /\ (Rabs (decimal_value d - B2R x) <= 5 / 1000000 * Rabs (B2R x))%R /\
    (forall m e, Z.abs m < 1000000 -> B2R x = (IZR m * powerRZ 10 e)%R -> decimal_value d = B2R x).
Proof. exact C44_close_proof. Qed.
Print Assumptions C44_text_is_close.
Theorem C44_order_is_kept : forall x y d d', is_finite x = true -> is_finite y = true -> (B2R x <= B2R y)%R -> printed x d -> printed y d' -> (decimal_value d <= decimal_value d')%R.
Proof. exact C44_order_proof. Qed.
Print Assumptions C44_order_is_kept.
Theorem C44_different_numbers_look_different_refuted : ~ (forall x y, is_finite x = true -> is_finite y = true -> format_g x = format_g y -> x = y).
Proof. exact prints_collide. Qed.
Print Assumptions C44_different_numbers_look_different_refuted.
(** A third, a million, a ten-thousandth and less, a tie, a negative zero. *)
Example C44_case : map format_g [rat64 1 3; rat64 1000000 1; rat64 999999 1; rat64 1 10000; rat64 1 100000; rat64 (-2000005) 2; B754_zero true; B754_infinity true] =
  ["0.333333"; "1e+06"; "999999"; "0.0001"; "1e-05"; "-1e+06"; "-0"; "-inf"]%string /\ in_print (rat64 1 3) "0.333333".
Proof. split; [vm_compute; reflexivity|]. apply in_print_iff. vm_compute. reflexivity. Qed.

(** C40: the dump of a chromagram. *)
Theorem C40_dump_of_a_file : forall content rows, csv_text content rows -> Forall proper_row rows ->
  exists c, chromagram_csv (Some content) = Ret c /\ shows (ch_original c) (rows_events rows) /\ forall s, print_original true c = s <-> dump_text (ch_original c) s.
Proof. exact C40_dump_proof. Qed.
Print Assumptions C40_dump_of_a_file.
Theorem C40_dump_can_be_read_back : forall m s, frames m -> all_safe m -> times_differ m -> dump_text m s ->
  exists m', chromagram_from_csv (Some s) = Ret (CHROMAGRAM_ORIGINAL_READY, m') /\ Forall2 reread_frame m m' /\ frames m' /\ dump_text m' s.
Proof. exact C40_reread_proof. Qed.
Print Assumptions C40_dump_can_be_read_back.
Theorem C40_equal_looking_times_are_merged : forall m s m', Forall (fun f => is_nan (fst f) = false) m -> Forall (fun f => length (snd f) = 12%nat) m -> all_safe m ->
  dump_text m s -> Forall2 reread_frame m m' ->
  exists m'', chromagram_from_csv (Some s) = Ret (CHROMAGRAM_ORIGINAL_READY, m'') /\ shows m'' (rows_events (map frame_row m')).
Proof. exact C40_reread_merged. Qed.
Print Assumptions C40_equal_looking_times_are_merged.
Theorem C40_values_read_back : forall x y, safe x -> reread x y ->
  (is_finite x = false -> y = x) /\
  (is_finite x = true -> is_finite y = true /\ Bsign y = Bsign x /\ (Rabs (B2R y - B2R x) <= 6 / 1000000 * Rabs (B2R x))%R) /\
  (forall n, is_finite x = true -> B2R x = IZR n -> Z.abs n < 1000000 -> B2R y = IZR n).
Proof. exact C40_value_proof. Qed.
Print Assumptions C40_values_read_back.
Theorem C40_every_dump_can_be_read_refuted :
  ~ (forall content c, chromagram_csv (Some content) = Ret c -> exists c', chromagram_csv (Some (print_original true c)) = Ret c').
Proof. exact dump_unreadable. Qed.
Print Assumptions C40_every_dump_can_be_read_refuted.
Theorem C40_same_notes_refuted :
  ~ (forall past content c c', chromagram_csv (Some content) = Ret c -> chromagram_csv (Some (print_original true c)) = Ret c' -> get_sequence past c' = get_sequence past c).
Proof. exact dump_changes_notes. Qed.
Print Assumptions C40_same_notes_refuted.
Theorem C40_every_frame_kept_refuted :
  ~ (forall content c c', chromagram_csv (Some content) = Ret c -> chromagram_csv (Some (print_original true c)) = Ret c' -> length (ch_original c') = length (ch_original c)).
Proof. exact dump_merges_frames. Qed.
Print Assumptions C40_every_frame_kept_refuted.
(** Two frames; the values come out from A on. *)
Example C40_case : frames demo_frames /\ all_safe demo_frames /\ times_differ demo_frames /\ dump_text demo_frames demo_dump /\
  demo_dump = ("0,9.5,10,11,0,1,2,3,4,5,6,7,8" ++ String "010" ("0.333333,0,0,0,0.666667,0,0,0,1.2e+07,0,0,0,0" ++ String "010" ""))%string.
Proof. exact demo_dump_case. Qed.
