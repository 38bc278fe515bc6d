(** Property theorems C94 and C95: the file chord.dict, and a chord plug-in that is initialised again. *)
From Coq Require Import Ascii String Lia.
From Flocq Require Import Core.Core IEEE754.BinarySingleNaN.
From Verif Require Import Base BaseFacts Fp Options Chromagram Text Nnls NnlsArith NnlsFacts Plug PlugFacts Chords ChordsSpec ChordsFacts ChordsCases Dict DictSpec DictFacts.
Open Scope string_scope.

(** ** C94: the chord dictionary file *)
(** A file of remarks and types is read as the types that were written, in order. *)
Theorem C94_written_is_read : forall cast l, Forall (good cast) l -> read_dict cast (put_file l) = Ret (map fst (types_of l), flat_map snd (types_of l)).
Proof. exact read_written. Qed.
Print Assumptions C94_written_is_read.
(** The last line need not be ended. *)
Theorem C94_last_line : forall cast l e, Forall (good cast) (l ++ [e])%list -> read_dict cast (put_file l ++ put_line e) = read_dict cast (put_file (l ++ [e])).
Proof. intros cast l e H. rewrite (read_unended cast l e H), (read_written cast _ H). reflexivity. Qed.
Print Assumptions C94_last_line.
(** If every type has 24 values there are 12 chords of every type and N, made of the values of their own line. *)
Theorem C94_chords_of_a_file : forall cast powf l boost harte, Forall (good cast) l -> Forall (fun t => length (snd t) = 24%nat) (types_of l) ->
  exists names values chords, tables_of cast harte (Some (put_file l)) = Ret (names, values) /\ names = map fst (types_of l) /\ chord_dictionary powf boost harte names values = Ret chords /\ (Z.of_nat (length chords) = 12 * Z.of_nat (length (types_of l)) + 1)%Z /\
    forall t n v k, nth_error (types_of l) t = Some (n, v) -> (k < 24)%nat -> nth (24 * t + k) values z32 = nth k v z32.
Proof. exact file_dictionary. Qed.
Print Assumptions C94_chords_of_a_file.
(** The file that comes with the plug-ins has the types of the program, in both syntaxes with the plain names, and calls the half-diminished chord dim7. *)
Theorem C94_shipped_file : forall cast harte, reads_bits cast -> tables_of cast harte (Some shipped_dict) = Ret (map renamed (default_names z32), static_values).
Proof. exact shipped_read. Qed.
Print Assumptions C94_shipped_file.
(** A line that is a name alone is undefined: an iterator at the end is moved on. *)
Theorem C94_name_alone_is_undefined : forall cast l before name after rest, Forall (good cast) l -> every separator before -> every letter name -> name <> "" -> every separator after -> commented (before ++ name ++ after) = false ->
  read_dict cast (put_file l ++ (before ++ name ++ after) ++ String LF10 rest) = Undef OutOfBounds.
Proof. exact name_alone. Qed.
Print Assumptions C94_name_alone_is_undefined.
(** A line of blanks is a type without values, and then no dictionary is made. *)
Theorem C94_blank_line_spoils : forall cast powf l p r boost harte names values chords, Forall (good cast) l -> every separator p -> p <> "" -> Forall (good cast) r -> Forall (fun t => length (snd t) = 24%nat) (types_of (l ++ r)) ->
  tables_of cast harte (Some (put_file l ++ p ++ String LF10 (put_file r))) = Ret (names, values) -> chord_dictionary powf boost harte names values <> Ret chords.
Proof. exact blank_line_spoils. Qed.
Print Assumptions C94_blank_line_spoils.
(** A 25th number is not ignored: it moves the values of all types after it. *)
Definition long_file : list entry := [bits_line "" [1; 0; 0; 0; 0; 0; 0; 0; 0; 0; 0; 0; 1; 0; 0; 0; 1; 0; 0; 1; 0; 0; 0; 0; 0] ""; bits_line "m" [1; 0; 0; 0; 0; 0; 0; 0; 0; 0; 0; 0; 1; 0; 0; 1; 0; 0; 0; 1; 0; 0; 0; 0] ""]%Z.
Lemma long_good : Forall (good bit_cast) long_file.
Proof. repeat (constructor; [apply bits_good; [exact bit_cast_reads|cbn [every]; repeat split; try discriminate; intros [H|[H|H]]; discriminate|intros n; discriminate|exact I]|]). constructor. Qed.
Theorem C94_types_keep_to_their_lines_refuted : ~ (forall cast l names values, Forall (good cast) l -> Forall (fun t => (24 <= length (snd t))%nat) (types_of l) -> read_dict cast (put_file l) = Ret (names, values) ->
  forall t n v k, nth_error (types_of l) t = Some (n, v) -> (k < 24)%nat -> nth (24 * t + k) values z32 = nth k v z32).
Proof.
  intros H. specialize (fun names values => H bit_cast long_file names values long_good). assert (F : Forall (fun t : string * list b32 => (24 <= length (snd t))%nat) (types_of long_file)) by (repeat constructor).
  specialize (H _ _ F (read_written _ _ long_good) 1%nat _ _ 0%nat eq_refl ltac:(lia)). apply (f_equal B2SF) in H. vm_compute in H. discriminate H.
Qed.
Print Assumptions C94_types_keep_to_their_lines_refuted.
(** A remark, a triad with blanks and semicolons, and an end of line of another system. *)
Definition LFs : string := String LF10 "".
Example C94_small_file : show_tables (read_dict bit_cast ("# types" ++ LFs ++ LFs ++ "m = 1,0;;1" ++ LFs ++ " = 1 0" ++ LFs)) = Some (["m"; ""], map B2SF [rat32 1 1; rat32 0 1; rat32 1 1; rat32 1 1; rat32 0 1]).
Proof. vm_compute. reflexivity. Qed.
Example C94_carriage_return : read_dict bit_cast ("m=1,0" ++ String (chr 13) LFs) = Throws StdInvalidArgument.
Proof. vm_compute. reflexivity. Qed.
(** The sign after a name may be anything, here the first number. *)
Example C94_sign_is_not_looked_at : show_tables (read_dict bit_cast ("m 1 0 1" ++ LFs)) = Some (["m"], map B2SF [rat32 0 1; rat32 1 1]).
Proof. vm_compute. reflexivity. Qed.
Example C94_hypotheses : Forall (good bit_cast) shipped_entries /\ Forall (fun t => length (snd t) = 24%nat) (types_of shipped_entries) /\ length (types_of shipped_entries) = 18%nat.
Proof. split; [exact (shipped_good _ bit_cast_reads)|]. split; [repeat constructor|reflexivity]. Qed.

(** ** C95: a chord plug-in that is initialised again *)
(** After the first call the chords are those of the dictionary. *)
Theorem C95_first_call : forall powf c0 l0 s, dict_of powf c0 = Ret l0 -> set_by powf no_chords c0 = Ret s -> chords_of s = l0.
Proof. exact first_call. Qed.
Print Assumptions C95_first_call.
(** After more calls the names are those of the last one, but values and notes are those of the first. *)
Theorem C95_first_values_stay : forall powf c0 calls c1 l0 l1, dict_of powf c0 = Ret l0 -> dict_of powf c1 = Ret l1 -> forall s, over (set_by powf) (c0 :: calls ++ [c1]) no_chords = Ret s -> d_names s = map c_name l1 /\
  forall i, (i < length l0)%nat -> chord_at s i = mkChord (nth i (map c_name l1) "") (c_values (nth i l0 no_chord)) (c_notes (nth i l0 no_chord)).
Proof. exact first_call_stays. Qed.
Print Assumptions C95_first_values_stay.
(** So a boostN that is set before a second call has no effect. *)
Lemma two_calls powf b0 b1 harte names values l0 l1 s : chord_dictionary powf b0 harte names values = Ret l0 -> chord_dictionary powf b1 harte names values = Ret l1 -> over (set_by powf) [(b0, harte, names, values); (b1, harte, names, values)] no_chords = Ret s -> chords_of s = l0.
Proof.
  intros D0 D1 E. destruct (first_call_stays powf (b0, harte, names, values) [] (b1, harte, names, values) l0 l1 D0 D1 s E) as (N & C). assert (M : map c_name l1 = map c_name l0).
  { unfold chord_dictionary in D0, D1. destruct (all_chords harte names values) as [l| |]; cbn [bind] in *; try discriminate D0. apply Ret_inj in D0. apply Ret_inj in D1. subst l0 l1. rewrite !map_app, !map_map. reflexivity. }
  unfold chords_of. rewrite N, M. rewrite map_length. apply (nth_ext _ _ no_chord no_chord); [now rewrite map_length, seq_length|]. intros i I. rewrite map_length, seq_length in I. rewrite (nth_indep _ no_chord (chord_at s 0)) by (rewrite map_length, seq_length; exact I). rewrite map_nth, seq_nth by exact I. cbn [Nat.add]. rewrite C by exact I. rewrite M.
  rewrite (nth_indep _ "" (c_name no_chord)), map_nth by (rewrite map_length; exact I). now destruct (nth i l0 no_chord).
Qed.
Theorem C95_boost_is_ignored : forall powf b0 b1 harte names values l0 l1 s, chord_dictionary powf b0 harte names values = Ret l0 -> chord_dictionary powf b1 harte names values = Ret l1 ->
  over (set_by powf) [(b0, harte, names, values); (b1, harte, names, values)] no_chords = Ret s -> chords_of s = l0.
Proof. exact two_calls. Qed.
Print Assumptions C95_boost_is_ignored.
Theorem C95_parameters_apply_refuted : ~ forall powf b0 b1 harte names values l1 s, chord_dictionary powf b1 harte names values = Ret l1 -> over (set_by powf) [(b0, harte, names, values); (b1, harte, names, values)] no_chords = Ret s -> chords_of s = l1.
Proof.
  intros H. set (f := fun _ _ : b32 => one32). set (none b := scaled f (Some b) Chords.no_chord). assert (D : forall b, chord_dictionary f b z32 [] [] = Ret [none b]) by reflexivity.
  assert (E : exists s, over (set_by f) [(z32, z32, [], []); (one32, z32, [], [])] no_chords = Ret s) by (eexists; reflexivity). destruct E as (s & E).
  assert (A := H f z32 one32 z32 [] [] _ s (D one32) E). rewrite (two_calls f z32 one32 z32 [] [] _ _ s (D z32) (D one32) E) in A. apply (f_equal (fun l => map B2SF (firstn 1 (c_values (hd Chords.no_chord l))))) in A. vm_compute in A. discriminate A.
Qed.
Print Assumptions C95_parameters_apply_refuted.
(** The types of the program, first in one syntax and then in the other. *)
Example C95_names_change : exists s, over (set_by sample_powf) [(tenth, z32, default_names z32, static_values); (tenth, one32, default_names one32, static_values)] no_chords = Ret s /\ length (d_names s) = 217%nat /\ Z.of_nat (length (d_dict s)) = (2 * 24 * 217)%Z.
Proof.
  assert (G : match over (set_by sample_powf) [(tenth, z32, default_names z32, static_values); (tenth, one32, default_names one32, static_values)] no_chords with Ret s => (length (d_names s) =? 217)%nat && (Z.of_nat (length (d_dict s)) =? 2 * 24 * 217)%Z | _ => false end = true) by (vm_compute; reflexivity).
  destruct (over _ _ _) as [s| |]; try discriminate G. apply andb_prop in G as (G1 & G2). exists s. split; [reflexivity|]. split; [now apply Nat.eqb_eq|now apply Z.eqb_eq].
Qed.
