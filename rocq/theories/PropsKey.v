(** Property theorems C01-C05: keys and pitch classes. *)
From Coq Require Import Lia.
From Verif Require Import Base BaseFacts Key PitchClass MusicSpec KeyFacts KeyProps.

(** C01: the accepted key names and their values. *)
Theorem C01_key_names : forall s : string,
  get_int (key_of_string s) = match named_key s with Some k => Ret k | None => Undef UninitRead end /\
  get_string (key_of_string s) = match named_key s with Some _ => s | None => ""%string end.
Proof. exact C01_proof. Qed.
Print Assumptions C01_key_names.
Example C01_case : get_int (key_of_string "Cb") = Ret 11 /\ get_int (key_of_string "b#") = Ret 12 /\
  get_int (key_of_string "H") = Undef UninitRead /\ get_int (key_of_string "C#m") = Undef UninitRead.
Proof. repeat split. Qed.

(** C02: key numbers, names and re-parsing. *)
Theorem C02_key_name_roundtrip : forall k : Z, - 2 ^ 31 <= k < 2 ^ 31 ->
  (is_key k -> get_int (key_of_int k) = Ret k /\
               named_key (get_string (key_of_int k)) = Some k /\
               key_of_string (get_string (key_of_int k)) = key_of_int k) /\
  (~ is_key k -> get_int (key_of_int k) = Undef UninitRead /\ get_string (key_of_int k) = ""%string).
Proof. exact C02_roundtrip_proof. Qed.
Print Assumptions C02_key_name_roundtrip.
Theorem C02_key_names_distinct : forall j k, is_key j -> is_key k ->
  get_string (key_of_int j) = get_string (key_of_int k) -> j = k.
Proof. exact key_names_injective. Qed.
Print Assumptions C02_key_names_distinct.
Theorem C02_spelling_kept : forall s k, get_int (key_of_string s) = Ret k ->
  get_string (key_of_string s) = s /\ is_key k /\
  (get_string (key_of_string s) = get_string (key_of_int k) <-> key_of_string s = key_of_int k).
Proof. exact C02_spelling_proof. Qed.
Print Assumptions C02_spelling_kept.
Theorem C02_all_keys : forall k, is_key k <-> exists key, In key all_keys /\ get_int key = Ret k.
Proof. exact C02_all_keys_proof. Qed.
Print Assumptions C02_all_keys.
Example C02_case : get_string (key_of_int 13) = "c#"%string /\ get_string (key_of_string "db") = "db"%string /\
  get_int (key_of_string "db") = Ret 13 /\ get_int (key_of_int (-1)) = Undef UninitRead.
Proof. repeat split. Qed.

(** C03: the neighbour algebra. *)
Theorem C03_relative : forall k, is_key k -> exists r, is_key r /\
  get_relative (key_of_int k) = Ret (key_of_int r) /\
  majorb r = negb (majorb k) /\
  tonic r = (tonic k + (if majorb k then 9 else 3)) mod 12 /\
  (forall p, In p (scale k) <-> In p (scale r)) /\
  get_relative (key_of_int r) = Ret (key_of_int k).
Proof. exact C03_relative_proof. Qed.
Print Assumptions C03_relative.
Theorem C03_parallel : forall k, is_key k -> exists r, is_key r /\
  get_parallel (key_of_int k) = Ret (key_of_int r) /\
  majorb r = negb (majorb k) /\ tonic r = tonic k /\
  get_parallel (key_of_int r) = Ret (key_of_int k).
Proof. exact C03_parallel_proof. Qed.
Print Assumptions C03_parallel.
Theorem C03_dominant_subdominant : forall k, is_key k -> exists d s, is_key d /\ is_key s /\
  get_dominant (key_of_int k) = Ret (key_of_int d) /\ get_subdominant (key_of_int k) = Ret (key_of_int s) /\
  majorb d = majorb k /\ majorb s = majorb k /\
  tonic d = (tonic k + 7) mod 12 /\ tonic s = (tonic k + 5) mod 12 /\
  get_subdominant (key_of_int d) = Ret (key_of_int k) /\ get_dominant (key_of_int s) = Ret (key_of_int k).
Proof. exact C03_dominant_proof. Qed.
Print Assumptions C03_dominant_subdominant.
Theorem C03_circle_of_fifths : forall k n, is_key k ->
  exists r, is_key r /\ apply_ops (repeat get_dominant n) (key_of_int k) = Ret (key_of_int r) /\
            (r = k <-> (n mod 12 = 0)%nat) /\ majorb r = majorb k.
Proof. exact C03_circle_proof. Qed.
Print Assumptions C03_circle_of_fifths.
Theorem C03_circle_complete : forall j k, is_key j -> is_key k -> majorb j = majorb k ->
  exists n, (n < 12)%nat /\ apply_ops (repeat get_dominant n) (key_of_int j) = Ret (key_of_int k).
Proof. exact C03_circle_complete_proof. Qed.
Print Assumptions C03_circle_complete.
Theorem C03_operations_closed : forall ops k, Forall neighbour ops -> is_key k ->
  exists r, is_key r /\ apply_ops ops (key_of_int k) = Ret (key_of_int r).
Proof. exact neighbours_closed. Qed.
Print Assumptions C03_operations_closed.
Theorem C03_operations_connect : forall j k, is_key j -> is_key k ->
  exists ops, Forall neighbour ops /\ apply_ops ops (key_of_int j) = Ret (key_of_int k).
Proof. exact neighbours_connect. Qed.
Print Assumptions C03_operations_connect.
Theorem C03_unset_key : forall s f, named_key s = None -> neighbour f -> f (key_of_string s) = Undef UninitRead.
Proof. exact C03_unset_proof. Qed.
Print Assumptions C03_unset_key.
Example C03_case : get_relative (key_of_string "Eb") = Ret (key_of_string "c") /\
  get_dominant (key_of_string "b") = Ret (key_of_string "f#") /\ is_key 3 /\ neighbour get_parallel.
Proof. repeat split; try reflexivity. unfold is_key; lia. right; now left. Qed.

(** C04: comparison. [valid] = built by either constructor from an accepted argument. *)
Theorem C04_trichotomy : forall a b, valid_key a -> valid_key b ->
  exists eq lt gt, key_eq a b = Ret eq /\ key_lt a b = Ret lt /\ key_lt b a = Ret gt /\
    key_ne a b = Ret (negb eq) /\
    ((eq = true /\ lt = false /\ gt = false) \/ (eq = false /\ lt = true /\ gt = false) \/
     (eq = false /\ lt = false /\ gt = true)).
Proof. exact C04_trichotomy_proof. Qed.
Print Assumptions C04_trichotomy.
Theorem C04_equivalence_and_order : forall a b c, valid_key a -> valid_key b -> valid_key c ->
  key_eq a a = Ret true /\
  (key_eq a b = Ret true -> key_eq b a = Ret true) /\
  (key_eq a b = Ret true -> key_eq b c = Ret true -> key_eq a c = Ret true) /\
  key_lt a a = Ret false /\
  (key_lt a b = Ret true -> key_lt b c = Ret true -> key_lt a c = Ret true) /\
  (key_eq a b = Ret true -> key_lt b c = key_lt a c /\ key_lt c b = key_lt c a).
Proof. exact C04_order_proof. Qed.
Print Assumptions C04_equivalence_and_order.
Theorem C04_enharmonic : forall s t p q up uq, note_name s = Some (p, up) -> note_name t = Some (q, uq) ->
  (key_eq (key_of_string s) (key_of_string t) = Ret true <-> p = q /\ up = uq).
Proof. exact C04_enharmonic_proof. Qed.
Print Assumptions C04_enharmonic.
Theorem C04_assignment : forall target source, valid_key source ->
  key_eq (key_assign target source) source = Ret true /\
  get_string (key_assign target source) = get_string source.
Proof. exact C04_assignment_proof. Qed.
Print Assumptions C04_assignment.
Theorem C04_unset : forall a b, ~ (valid_key a /\ valid_key b) -> constructed a -> constructed b ->
  key_eq a b = Undef UninitRead /\ key_lt a b = Undef UninitRead /\ key_ne a b = Undef UninitRead.
Proof. exact C04_unset_proof. Qed.
Print Assumptions C04_unset.
Example C04_case : valid_key (key_of_string "cb") /\ key_eq (key_of_string "cb") (key_of_int 23) = Ret true /\
  key_lt (key_of_string "B") (key_of_string "b#") = Ret true /\ constructed (key_of_string "x").
Proof.
  split; [|split; [reflexivity|split; [reflexivity|left; now eexists]]].
  left. exists "cb"%string, 23. split; reflexivity.
Qed.

(** C05: pitch-class names. *)
Theorem C05_pitchclass_names : forall s : string,
  pc_get_int (pc_of_string s) = match named_pc s with Some p => Ret p | None => Undef UninitRead end /\
  (forall p, named_pc s = Some p -> 0 <= p < 12 /\ pc_get_string (pc_of_string s) = pc_get_string (pc_of_int p)) /\
  (named_pc s = None -> pc_get_string (pc_of_string s) = ""%string).
Proof. exact C05_names_proof. Qed.
Print Assumptions C05_pitchclass_names.
Theorem C05_pitchclass_roundtrip : forall p : Z,
  (0 <= p < 12 -> pc_get_int (pc_of_int p) = Ret p /\ pc_of_string (pc_get_string (pc_of_int p)) = pc_of_int p) /\
  (~ 0 <= p < 12 -> pc_get_int (pc_of_int p) = Undef UninitRead /\ pc_get_string (pc_of_int p) = ""%string).
Proof. exact C05_roundtrip_proof. Qed.
Print Assumptions C05_pitchclass_roundtrip.
Theorem C05_case_insensitive : forall s t, lower_string s = lower_string t -> pc_of_string s = pc_of_string t.
Proof. exact C05_case_proof. Qed.
Print Assumptions C05_case_insensitive.
Example C05_case : pc_get_int (pc_of_string "BB") = Ret 10 /\ pc_get_string (pc_of_string "Fb") = "e"%string /\
  pc_get_int (pc_of_string "bbb") = Undef UninitRead /\ lower_string "Bb" = lower_string "bB".
Proof. repeat split. Qed.
