(** Independent data: published key profiles, key signatures and the nearness of keys. No reference to the model. *)
From Coq Require Import ZArith String Ascii List Reals.
From Verif Require Import MusicSpec.
Import ListNotations.
Open Scope Z_scope.

(** Published ratings of the twelve degrees from the tonic up, in units that make them integers, with the total they are divided by:
    Krumhansl and Kessler (1982), Aarden and Essen (2003), Sapp (2011), Bellman and Budge (2005), Temperley (2007): the sum of the
    ratings; Albrecht and Shanahan (2013), two sets, are probabilities already (the first minor set adds up to 0.998 only). *)
Definition published_major : list (string * Z * list Z) :=
  [("krumhansl_kessler"%string, 4179, [635; 223; 348; 233; 438; 409; 252; 519; 239; 366; 229; 288]);
   ("aarden_essen"%string, 100000040, [17766100; 145624; 14926500; 160186; 19804900; 11358700; 291248; 22062000; 145624; 8154940; 232998; 4951220]);
   ("sapp"%string, 18, [4; 0; 2; 0; 2; 2; 0; 4; 0; 2; 0; 2]);
   ("bellman_budge"%string, 10000, [1680; 86; 1295; 141; 1349; 1193; 125; 2028; 180; 804; 62; 1057]);
   ("temperley"%string, 4246, [748; 60; 488; 82; 670; 460; 96; 715; 104; 366; 57; 400]);
   ("albrecht_shanahan1"%string, 1000, [238; 6; 111; 6; 137; 94; 16; 214; 9; 80; 8; 81]);
   ("albrecht_shanahan2"%string, 100000000, [21169000; 892766; 12044800; 1002650; 13144400; 9117680; 2159470; 20470300; 1289400; 9004450; 1261700; 8443380])].
(** The three simple minor profiles of the program: 2 for tonic and fifth and 1 for the other degrees of the scale, the melodic one
    sharing the sixth and seventh degrees out equally. *)
Definition published_minor : list (string * Z * list Z) :=
  [("krumhansl_kessler"%string, 4451, [633; 268; 352; 538; 260; 353; 254; 475; 398; 269; 334; 317]);
   ("aarden_essen"%string, 99999997, [18264800; 737619; 14049900; 16859900; 702494; 14436200; 702494; 18616100; 4566210; 1931860; 7376190; 1756230]);
   ("sapp"%string, 18, [4; 0; 2; 2; 0; 2; 0; 4; 2; 0; 1; 1]);
   ("bellman_budge"%string, 10000, [1816; 69; 1299; 1334; 107; 1115; 138; 2107; 749; 153; 92; 1021]);
   ("temperley"%string, 4183, [712; 84; 474; 618; 49; 460; 105; 747; 404; 67; 133; 330]);
   ("albrecht_shanahan1"%string, 1000, [220; 6; 104; 123; 19; 103; 12; 214; 62; 22; 61; 52]);
   ("albrecht_shanahan2"%string, 100000000, [20193300; 933500; 10728400; 12416900; 1992240; 10832400; 1431400; 20269900; 6539070; 2525150; 7195900; 4941900]);
   ("simple_natural_minor"%string, 18, [4; 0; 2; 2; 0; 2; 0; 4; 2; 0; 2; 0]);
   ("simple_harmonic_minor"%string, 18, [4; 0; 2; 2; 0; 2; 0; 4; 2; 0; 0; 2]);
   ("simple_melodic_minor"%string, 18, [4; 0; 2; 2; 0; 2; 0; 4; 1; 1; 1; 1])].

(** ** Key signatures *)
(** Place on the line of fifths of a natural note: F C G D A E B. *)
Definition fifths (c : ascii) : option Z :=
  match c with
  | "F" | "f" => Some (-1) | "C" | "c" => Some 0 | "G" | "g" => Some 1 | "D" | "d" => Some 2 | "A" | "a" => Some 3
  | "E" | "e" => Some 4 | "B" | "b" => Some 5 | _ => None
  end%char.
(** Sharps (positive) or flats (negative) of the key with a given name: a sharp moves the tonic seven fifths up, a flat seven down;
    a minor key has three sharps fewer than the major key on the same tonic. *)
Definition signature (s : string) : option Z :=
  match s with
  | String c rest =>
      match fifths c, letter c, rest with
      | Some f, Some (_, up), EmptyString => Some (f - if up then 0 else 3)
      | Some f, Some (_, up), String a EmptyString =>
          match accidental a with Some d => Some (f + 7 * d - if up then 0 else 3) | None => None end
      | _, _, _ => None
      end
  | EmptyString => None
  end.

(** ** Nearness of keys *)
(** Keys one step away: a fifth up or down in the same mode, the parallel and the relative key. *)
Definition one_step (a b : Z) : Prop :=
  (majorb a = majorb b /\ (tonic b = (tonic a + 7) mod 12 \/ tonic a = (tonic b + 7) mod 12)) \/
  (majorb a = negb (majorb b) /\ tonic a = tonic b) \/
  (majorb a = true /\ majorb b = false /\ tonic b = (tonic a + 9) mod 12) \/
  (majorb a = false /\ majorb b = true /\ tonic a = (tonic b + 9) mod 12).
(** Reachable in at most [n] steps. *)
Inductive within : nat -> Z -> Z -> Prop :=
| within_same n a : is_key a -> within n a a
| within_step n a b c : within n a b -> one_step b c -> is_key c -> within (S n) a c.
(** Nine classes of keys as seen from C major, nearest first. *)
Definition key_classes : list (list string) :=
  [["C"]; ["F"; "G"; "c"; "a"]; ["d"; "e"; "f"; "g"]; ["D"; "Eb"; "A"; "Bb"]; ["E"; "Ab"; "bb"; "b"]; ["Db"; "B"]; ["eb"; "f#"]; ["c#"; "g#"]; ["F#"]]%string.
(** The key that is to C major what [b] is to [a]; seen from a minor key, a minor key counts as its distance and a major key as the way back. *)
Definition as_from_C (a b : Z) : Z :=
  if majorb a then transpose_key (- tonic a) b else if majorb b then transpose_key (- tonic b) a else (tonic b - tonic a) mod 12.
Definition in_class (r : nat) (a b : Z) : Prop := exists s, In s (nth r key_classes []) /\ named_key s = Some (as_from_C a b).
(** Weight of a class as a fraction, for each table the program stores: from 9 down to 1, powers of 2, powers of 10, only the same key,
    all alike, and the class itself counted from 1. *)
Definition class_weight (name : string) (r : nat) : option (Z * positive) :=
  (if name =? "linear" then Some (9 - Z.of_nat r, 132%positive)
   else if name =? "exponential2" then Some (2 ^ (8 - Z.of_nat r), 1245%positive)
   else if name =? "exponential10" then Some (10 ^ (8 - Z.of_nat r), 144442221%positive)
   else if name =? "zero" then Some (match r with O => 1 | _ => 0 end, 1%positive)
   else if name =? "symmetrical" then Some (1, 24%positive)
   else if name =? "heatmap" then Some (1 + Z.of_nat r, 1%positive) else None)%string.
