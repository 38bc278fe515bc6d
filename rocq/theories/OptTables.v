(** Model of the tables of the optimizer (optimizer/key_profiles.py, optimizer/key_transitions.py): two dictionaries of named lists,
    the operations on them, and the texts made of them for the command line. Definitions only.
    A dictionary is an association list in order of insertion. Log messages are left out, except that the conditions for the two
    warnings are modelled. *)
From Flocq Require Import IEEE754.BinarySingleNaN.
From Verif Require Import Base Fp Text Py KeyProfile Options.

Notation table := (list b64).
Notation dict := (list (string * table)).

(** optimizer/key_profiles.py:5-125, [_kp]. *)
Definition initial_profiles : dict :=
  [("krumhansl_kessler"%string,
     [dec 15195022732711172 17; dec 533620483369227 16; dec 8327351040918879 17; dec 5575496530270399 17; dec 10480976310122037 17; dec 9787030390045463 17; dec 6030150753768843 17; dec 1241923905240488 16; dec 5719071548217276 17; dec 8758076094759511 17; dec 5479779851639147 17; dec 6891600861450106 17; dec 14221523253201526 17; dec 6021118849696697 17; dec 7908335205571781 17; dec 12087171422152324 17; dec 5841383958660975 17; dec 7930802066951245 17; dec 5706582790384183 17; dec 1067175915524601 16; dec 8941810829027184 17; dec 6043585711076162 17; dec 7503931700741405 17; dec 7121995057290496 17]);
   ("aarden_essen"%string,
     [dec 17766092893562843 17; dec 1456239417504233 18; dec 1492649402940239 16; dec 16018593592562562 19; dec 19804892078043168 17; dec 11358695456521818 17; dec 2912478835008466 18; dec 2206199117520353 16; dec 1456239417504233 18; dec 8154936738025305 17; dec 2329979068008373 18; dec 49512180195127924 18; dec 18264800547944018 17; dec 7376190221285707 18; dec 14049900421497014 17; dec 16859900505797015 17; dec 70249402107482066 19; dec 14436200433086013 17; dec 70249402107482066 19; dec 18616100558483017 17; dec 4566210136986304 17; dec 19318600579558018 18; dec 7376190221285707 17; dec 17562300526869017 18]);
   ("sapp"%string,
     [dec 2222222222222222 16; dec 0 1; dec 1111111111111111 16; dec 0 1; dec 1111111111111111 16; dec 1111111111111111 16; dec 0 1; dec 2222222222222222 16; dec 0 1; dec 1111111111111111 16; dec 0 1; dec 1111111111111111 16; dec 2222222222222222 16; dec 0 1; dec 1111111111111111 16; dec 1111111111111111 16; dec 0 1; dec 1111111111111111 16; dec 0 1; dec 2222222222222222 16; dec 1111111111111111 16; dec 0 1; dec 5555555555555555 17; dec 5555555555555555 17]);
   ("bellman_budge"%string,
     [dec 168 3; dec 86 4; dec 1295 4; dec 141 4; dec 1349 4; dec 1193 4; dec 125 4; dec 2028 4; dec 18000000000000002 18; dec 804 4; dec 62 4; dec 1057 4; dec 1816 4; dec 69 4; dec 12990000000000002 17; dec 1334 4; dec 10700000000000001 18; dec 1115 4; dec 138 4; dec 2107 4; dec 7490000000000001 17; dec 15300000000000001 18; dec 92 4; dec 10210000000000001 17]);
   ("temperley"%string,
     [dec 17616580310880825 17; dec 14130946773433817 18; dec 11493170042392838 17; dec 19312293923692884 18; dec 15779557230334432 17; dec 10833725859632594 17; dec 2260951483749411 17; dec 16839378238341965 17; dec 2449364107395195 17; dec 8619877531794629 17; dec 13424399434762127 18; dec 9420631182289213 17; dec 1702127659574468 16; dec 20081281377002155 18; dec 1133158020559407 16; dec 14774085584508725 17; dec 11714080803251255 18; dec 10996892182644036 17; dec 2510160172125269 17; dec 1785799665311977 16; dec 9658140090843893 17; dec 16017212526894576 18; dec 3179536218025341 17; dec 7889074826679417 17]);
   ("albrecht_shanahan1"%string,
     [dec 238 3; dec 6 3; dec 111 3; dec 6 3; dec 137 3; dec 94 3; dec 16 3; dec 214 3; dec 9 3; dec 80 3; dec 8 3; dec 81 3; dec 220 3; dec 6 3; dec 104 3; dec 123 3; dec 19 3; dec 103 3; dec 12 3; dec 214 3; dec 62 3; dec 22 3; dec 61 3; dec 52 3]);
   ("albrecht_shanahan2"%string,
     [dec 21169 5; dec 892766 8; dec 120448 6; dec 100265 7; dec 131444 6; dec 911768 7; dec 215947 7; dec 204703 6; dec 12894 6; dec 900445 7; dec 12617 6; dec 844338 7; dec 201933 6; dec 9335 6; dec 107284 6; dec 124169 6; dec 199224 7; dec 108324 6; dec 14314 6; dec 202699 6; dec 653907 7; dec 252515 7; dec 71959 6; dec 49419 6]);
   ("experiment4"%string,
     [dec 17616580310880825 17; dec 14130946773433817 18; dec 11493170042392838 17; dec 19312293923692884 18; dec 15779557230334432 17; dec 10833725859632594 17; dec 2260951483749411 17; dec 17329251059821005 17; dec 1959491285916156 17; dec 8619877531794629 17; dec 13424399434762127 18; dec 9420631182289213 17; dec 2222222222222222 16; dec 0 1; dec 1111111111111111 16; dec 12222222222222222 17; dec 0 1; dec 1111111111111111 16; dec 8888888888888889 18; dec 2222222222222222 16; dec 1111111111111111 16; dec 0 1; dec 5555555555555555 17; dec 3555555555555555 17]);
   ("experiment6"%string,
     [dec 13675520459440055 17; dec 533620483369227 16; dec 8327351040918879 17; dec 5575496530270399 17; dec 12000478583393154 17; dec 9787030390045463 17; dec 6030150753768843 17; dec 1241923905240488 16; dec 5719071548217276 17; dec 8758076094759511 17; dec 5479779851639147 17; dec 6891600861450106 17; dec 14221523253201526 17; dec 6021118849696697 17; dec 7908335205571781 17; dec 12087171422152324 17; dec 5841383958660975 17; dec 7930802066951245 17; dec 5706582790384183 17; dec 1067175915524601 16; dec 8941810829027184 17; dec 6043585711076162 17; dec 7503931700741405 17; dec 7121995057290496 17]);
   ("napoles_midi128"%string,
     [dec 136755204594401 15; dec 65608997367791 15; dec 74946159368270 15; dec 50179468772434 15; dec 100358937544867 15; dec 103445800430725 15; dec 54271356783920 15; dec 139387413256760 15; dec 60904522613065 15; dec 87580760947595 15; dec 49318018664752 15; dec 77243359655420 15; dec 148236351381712 15; dec 48771062682543 15; dec 79083352055718 15; dec 120871714221523 15; dec 47315210065154 15; dec 79308020669512 15; dec 68950797573579 15; dec 96045832397214 15; dec 101959110312289 15; dec 59649516962480 15; dec 85711076162660 15; dec 64097955515614 15]);
   ("simple_natural_minor"%string,
     [dec 2222222222222222 16; dec 0 1; dec 1111111111111111 16; dec 0 1; dec 1111111111111111 16; dec 1111111111111111 16; dec 0 1; dec 2222222222222222 16; dec 0 1; dec 1111111111111111 16; dec 0 1; dec 1111111111111111 16; dec 2222222222222222 16; dec 0 1; dec 1111111111111111 16; dec 1111111111111111 16; dec 0 1; dec 1111111111111111 16; dec 0 1; dec 2222222222222222 16; dec 1111111111111111 16; dec 0 1; dec 1111111111111111 16; dec 0 1]);
   ("simple_harmonic_minor"%string,
     [dec 2222222222222222 16; dec 0 1; dec 1111111111111111 16; dec 0 1; dec 1111111111111111 16; dec 1111111111111111 16; dec 0 1; dec 2222222222222222 16; dec 0 1; dec 1111111111111111 16; dec 0 1; dec 1111111111111111 16; dec 2222222222222222 16; dec 0 1; dec 1111111111111111 16; dec 1111111111111111 16; dec 0 1; dec 1111111111111111 16; dec 0 1; dec 2222222222222222 16; dec 1111111111111111 16; dec 0 1; dec 0 1; dec 1111111111111111 16]);
   ("simple_melodic_minor"%string,
     [dec 2222222222222222 16; dec 0 1; dec 1111111111111111 16; dec 0 1; dec 1111111111111111 16; dec 1111111111111111 16; dec 0 1; dec 2222222222222222 16; dec 0 1; dec 1111111111111111 16; dec 0 1; dec 1111111111111111 16; dec 2222222222222222 16; dec 0 1; dec 1111111111111111 16; dec 1111111111111111 16; dec 0 1; dec 1111111111111111 16; dec 0 1; dec 2222222222222222 16; dec 5555555555555555 17; dec 5555555555555555 17; dec 5555555555555555 17; dec 5555555555555555 17])].

(** optimizer/key_transitions.py:5-94, [_kt]. [a/b] of two integers is the nearest double. *)
Definition initial_transitions : dict :=
  [("ktg_linear"%string,
     [rat64 9 132; rat64 4 132; rat64 6 132; rat64 6 132; rat64 5 132; rat64 8 132; rat64 1 132; rat64 8 132; rat64 5 132; rat64 6 132; rat64 6 132; rat64 4 132; rat64 8 132; rat64 2 132; rat64 7 132; rat64 3 132; rat64 7 132; rat64 7 132; rat64 3 132; rat64 7 132; rat64 2 132; rat64 8 132; rat64 5 132; rat64 5 132]);
   ("ktg_exponential2"%string,
     [rat64 256 1245; rat64 8 1245; rat64 32 1245; rat64 32 1245; rat64 16 1245; rat64 128 1245; rat64 1 1245; rat64 128 1245; rat64 16 1245; rat64 32 1245; rat64 32 1245; rat64 8 1245; rat64 128 1245; rat64 2 1245; rat64 64 1245; rat64 4 1245; rat64 64 1245; rat64 64 1245; rat64 4 1245; rat64 64 1245; rat64 2 1245; rat64 128 1245; rat64 16 1245; rat64 16 1245]);
   ("ktg_exponential4"%string,
     [dec 429054960883 12; dec 418998985 12; dec 6703983764 12; dec 6703983764 12; dec 1675995941 12; dec 107263740221 12; dec 6546859 12; dec 107263740221 12; dec 1675995941 12; dec 6703983764 12; dec 6703983764 12; dec 418998985 12; dec 107263740221 12; dec 26187437 12; dec 26815935055 12; dec 104749746 12; dec 26815935055 12; dec 26815935055 12; dec 104749746 12; dec 26815935055 12; dec 26187437 12; dec 107263740221 12; dec 1675995941 12; dec 1675995941 12]);
   ("ktg_exponential5"%string,
     [dec 500201040802 12; dec 160064333 12; dec 4001608326 12; dec 4001608326 12; dec 800321665 12; dec 100040208160 12; dec 1280515 12; dec 100040208160 12; dec 800321665 12; dec 4001608326 12; dec 4001608326 12; dec 160064333 12; dec 100040208160 12; dec 6402573 12; dec 20008041632 12; dec 32012867 12; dec 20008041632 12; dec 20008041632 12; dec 32012867 12; dec 20008041632 12; dec 6402573 12; dec 100040208160 12; dec 800321665 12; dec 800321665 12]);
   ("ktg_exponential10"%string,
     [rat64 100000000 144442221; rat64 1000 144442221; rat64 100000 144442221; rat64 100000 144442221; rat64 10000 144442221; rat64 10000000 144442221; rat64 1 144442221; rat64 10000000 144442221; rat64 10000 144442221; rat64 100000 144442221; rat64 100000 144442221; rat64 1000 144442221; rat64 10000000 144442221; rat64 10 144442221; rat64 1000000 144442221; rat64 100 144442221; rat64 1000000 144442221; rat64 1000000 144442221; rat64 100 144442221; rat64 1000000 144442221; rat64 10 144442221; rat64 10000000 144442221; rat64 10000 144442221; rat64 10000 144442221]);
   ("ktg_exponential12"%string,
     [dec 733338050205 12; dec 2947121 12; dec 424385446 12; dec 424385446 12; dec 35365454 12; dec 61111504184 12; dec 1706 12; dec 61111504184 12; dec 35365454 12; dec 424385446 12; dec 424385446 12; dec 2947121 12; dec 61111504184 12; dec 20466 12; dec 5092625349 12; dec 245593 12; dec 5092625349 12; dec 5092625349 12; dec 245593 12; dec 5092625349 12; dec 20466 12; dec 61111504184 12; dec 35365454 12; dec 35365454 12]);
   ("ktg_exponential15"%string,
     [dec 777779485108 12; dec 1024236 12; dec 230453181 12; dec 230453181 12; dec 15363545 12; dec 51851965674 12; dec 303 12; dec 51851965674 12; dec 15363545 12; dec 230453181 12; dec 230453181 12; dec 1024236 12; dec 51851965674 12; dec 4552 12; dec 3456797712 12; dec 68282 12; dec 3456797712 12; dec 3456797712 12; dec 68282 12; dec 3456797712 12; dec 4552 12; dec 51851965674 12; dec 15363545 12; dec 15363545 12]);
   ("ktg_exponential20"%string,
     [dec 826087405512 12; dec 258152 12; dec 103260926 12; dec 103260926 12; dec 5163046 12; dec 41304370276 12; dec 32 12; dec 41304370276 12; dec 5163046 12; dec 103260926 12; dec 103260926 12; dec 258152 12; dec 41304370276 12; dec 645 12; dec 2065218514 12; dec 12908 12; dec 2065218514 12; dec 2065218514 12; dec 12908 12; dec 2065218514 12; dec 645 12; dec 41304370276 12; dec 5163046 12; dec 5163046 12]);
   ("ktg_experiment6"%string,
     [dec 8765246313562368 16; dec 3993824473043542 23; dec 3450952918589394 20; dec 3450952918589394 20; dec 11739889361311444 22; dec 2981872670344273 17; dec 15724030710075827 28; dec 2981872670344273 17; dec 11739889361311444 22; dec 3450952918589394 20; dec 3450952918589394 20; dec 3993824473043542 23; dec 2981872670344273 17; dec 4622095490077414 26; dec 10144112674150716 19; dec 13586698673708549 25; dec 10144112674150716 19; dec 10144112674150716 19; dec 13586698673708549 25; dec 10144112674150716 19; dec 4622095490077414 26; dec 2981872670344273 17; dec 11739889361311444 22; dec 11739889361311444 22]);
   ("ktg_napoles_midi128"%string,
     [dec 7877447304 10; dec 7887 10; dec 1980156 10; dec 1980156 10; dec 124969 10; dec 497153048 10; dec 2 10; dec 497153048 10; dec 124969 10; dec 1980156 10; dec 1980156 10; dec 7887 10; dec 497153048 10; dec 31 10; dec 31375793 10; dec 498 10; dec 31375793 10; dec 31375793 10; dec 498 10; dec 31375793 10; dec 31 10; dec 497153048 10; dec 124969 10; dec 124969 10])].

(** optimizer/key_transitions.py:96-99, [_ratios]. The integers 2 and 10 are stored as the floats 2.0 and 10.0 (simplified; the two names are
    never looked up with effect, since no entry of [_kt] has them). *)
Definition initial_ratios : list (string * b64) := [("exponential2"%string, py_float 2); ("exponential10"%string, py_float 10)].

(** [name in d], [d.pop(name)]. *)
Definition has_key {V} (name : string) (d : list (string * V)) : bool := match assoc String.eqb name d with Some _ => true | None => false end.
Definition remove_key {V} (name : string) (d : list (string * V)) : list (string * V) := filter (fun e => negb (fst e =? name)%string) d.
Definition pop {V} (d : list (string * V)) (name : string) : py (list (string * V)) :=
  if has_key name d then Returns (remove_key name d) else Raises KeyError.
(** [x in l] on names. *)
Definition elem (name : string) (l : list string) : bool := existsb (String.eqb name) l.
(** [for name in names: d.pop(name)], as in optimizer/key_profiles.py:152-154, optimizer/key_transitions.py:112-113. *)
Fixpoint pop_all {V} (d : list (string * V)) (names : list string) : py (list (string * V)) :=
  match names with [] => Returns d | n :: names' => py_do d' <- pop d n; pop_all d' names' end.
(** optimizer/key_profiles.py:156-158, optimizer/key_transitions.py:117-119: only the named entries stay. *)
Definition keep {V} (d : list (string * V)) (names : list string) : list (string * V) := filter (fun e => elem (fst e) names) d.

(** optimizer/key_profiles.py:145-148, optimizer/key_transitions.py:103: the condition of the warning about a sum. *)
Definition sum_warning (s : b64) : bool := fgt (fsub (py_float 1) (Babs s)) (dec 1 2).
(** optimizer/key_profiles.py:142-150: the new dictionary and the two warnings. *)
Definition insert_profile (d : dict) (name : string) (kp : table) : dict * (bool * bool) :=
  (assign String.eqb name kp d, (sum_warning (py_sum (firstn 12 kp)), sum_warning (py_sum (skipn 12 kp)))).
(** optimizer/key_transitions.py:101-106. *)
Definition insert_transition (d : dict) (name : string) (kt : table) : dict * bool :=
  (assign String.eqb name kt d, sum_warning (py_sum kt)).
(** optimizer/key_profiles.py:127-140: no name ([None]) if one of the two is unknown. *)
Definition mix (d : dict) (major_name minor_name : string) : dict * option string :=
  match assoc String.eqb major_name d with
  | None => (d, None)
  | Some kp_major =>
      match assoc String.eqb minor_name d with
      | None => (d, None)
      | Some kp_minor =>
          let mix_name := (major_name ++ "_" ++ minor_name)%string in
          (fst (insert_profile d mix_name (firstn 12 kp_major ++ skipn 12 kp_minor)), Some mix_name)
      end
  end.

(** ['{:.15f}'.format(x)]: the exact value rounded to 15 decimals, ties to even. *)
Definition fixed15 (x : b64) : string :=
  match x with
  | B754_nan => "nan"%string
  | B754_infinity s => (if s then "-inf" else "inf")%string
  | B754_zero s => ((if s then "-" else "") ++ "0." ++ to_digits 15 0)%string
  | B754_finite s m e _ =>
      let '(n, d) := if e <? 0 then (Zpos m, 2 ^ (- e)) else (Zpos m * 2 ^ e, 1) in
      let v := round_even (n * 10 ^ 15) d in
      ((if s then "-" else "") ++ format_int (v / 10 ^ 15) ++ "." ++ to_digits 15 (v mod 10 ^ 15))%string
  end.
(** [' '.join(l)]. *)
Fixpoint join_spaces (l : list string) : string :=
  match l with [] => EmptyString | [s] => s | s :: l' => (s ++ String " " (join_spaces l'))%string end.
(** optimizer/key_profiles.py:164-177, optimizer/key_transitions.py:129-149: [None] for an unknown name and for an empty list. *)
Definition get_as_string (d : dict) (name : string) : option string :=
  match assoc String.eqb name d with Some (x :: l) => Some (join_spaces (map fixed15 (x :: l))) | _ => None end.
(** ['{}'.format(s)] of that result, as in optimizer/evaluator.py:52, 54 and optimizer/ensembler.py:61, 63. *)
Definition as_argument (s : option string) : string := match s with Some t => t | None => "None"%string end.
