(** Model of the class [KeyProfile] (src/keyprofile.cc, include/keyprofile.h). Definitions only. *)
From Verif Require Import Base Fp Key PitchClass.

(** A decimal literal [m * 10^-k] of the source, as the nearest double (C++ [lex.fcon], x86-64 gcc). *)
Definition dec (m k : Z) : b64 := rat64 m (Z.to_pos (10 ^ k)).

(** include/keyprofile.h:42-43, KeyProfileArray: twelve doubles. *)
Notation profile_array := (list b64).
(** [std::array] value-initialised by [operator[]], and [{0,0,...,0}] in src/keyprofile.cc:41-42. *)
Definition zero_profile : profile_array := repeat fzero 12.

(** src/keyprofile.cc:67-100, the stored major profiles. *)
Definition builtin_major : list (string * profile_array) :=
  [("krumhansl_kessler"%string,
     [dec 15195022732711172 17; dec 533620483369227 16; dec 8327351040918879 17; dec 5575496530270399 17; dec 10480976310122037 17; dec 9787030390045463 17; dec 6030150753768843 17; dec 1241923905240488 16; dec 5719071548217276 17; dec 8758076094759511 17; dec 5479779851639147 17; dec 6891600861450106 17]);
   ("aarden_essen"%string,
     [dec 17766092893562843 17; dec 1456239417504233 18; dec 1492649402940239 16; dec 16018593592562562 19; dec 19804892078043168 17; dec 11358695456521818 17; dec 2912478835008466 18; dec 2206199117520353 16; dec 1456239417504233 18; dec 8154936738025305 17; dec 2329979068008373 18; dec 49512180195127924 18]);
   ("sapp"%string,
     [dec 2222222222222222 16; dec 0 1; dec 1111111111111111 16; dec 0 1; dec 1111111111111111 16; dec 1111111111111111 16; dec 0 1; dec 2222222222222222 16; dec 0 1; dec 1111111111111111 16; dec 0 1; dec 1111111111111111 16]);
   ("bellman_budge"%string,
     [dec 168 3; dec 86 4; dec 1295 4; dec 141 4; dec 1349 4; dec 1193 4; dec 125 4; dec 2028 4; dec 18000000000000002 18; dec 804 4; dec 62 4; dec 1057 4]);
   ("temperley"%string,
     [dec 17616580310880825 17; dec 14130946773433817 18; dec 11493170042392838 17; dec 19312293923692884 18; dec 15779557230334432 17; dec 10833725859632594 17; dec 2260951483749411 17; dec 16839378238341965 17; dec 2449364107395195 17; dec 8619877531794629 17; dec 13424399434762127 18; dec 9420631182289213 17]);
   ("albrecht_shanahan1"%string,
     [dec 238 3; dec 6 3; dec 111 3; dec 6 3; dec 137 3; dec 94 3; dec 16 3; dec 214 3; dec 9 3; dec 80 3; dec 8 3; dec 81 3]);
   ("albrecht_shanahan2"%string,
     [dec 21169 5; dec 892766 8; dec 120448 6; dec 100265 7; dec 131444 6; dec 911768 7; dec 215947 7; dec 204703 6; dec 12894 6; dec 900445 7; dec 12617 6; dec 844338 7])].

(** src/keyprofile.cc:102-153, the stored minor profiles. *)
Definition builtin_minor : list (string * profile_array) :=
  [("krumhansl_kessler"%string,
     [dec 14221523253201526 17; dec 6021118849696697 17; dec 7908335205571781 17; dec 12087171422152324 17; dec 5841383958660975 17; dec 7930802066951245 17; dec 5706582790384183 17; dec 1067175915524601 16; dec 8941810829027184 17; dec 6043585711076162 17; dec 7503931700741405 17; dec 7121995057290496 17]);
   ("aarden_essen"%string,
     [dec 18264800547944018 17; dec 7376190221285707 18; dec 14049900421497014 17; dec 16859900505797015 17; dec 70249402107482066 19; dec 14436200433086013 17; dec 70249402107482066 19; dec 18616100558483017 17; dec 4566210136986304 17; dec 19318600579558018 18; dec 7376190221285707 17; dec 17562300526869017 18]);
   ("sapp"%string,
     [dec 2222222222222222 16; dec 0 1; dec 1111111111111111 16; dec 1111111111111111 16; dec 0 1; dec 1111111111111111 16; dec 0 1; dec 2222222222222222 16; dec 1111111111111111 16; dec 0 1; dec 5555555555555555 17; dec 5555555555555555 17]);
   ("bellman_budge"%string,
     [dec 1816 4; dec 69 4; dec 12990000000000002 17; dec 1334 4; dec 10700000000000001 18; dec 1115 4; dec 138 4; dec 2107 4; dec 7490000000000001 17; dec 15300000000000001 18; dec 92 4; dec 10210000000000001 17]);
   ("temperley"%string,
     [dec 1702127659574468 16; dec 20081281377002155 18; dec 1133158020559407 16; dec 14774085584508725 17; dec 11714080803251255 18; dec 10996892182644036 17; dec 2510160172125269 17; dec 1785799665311977 16; dec 9658140090843893 17; dec 16017212526894576 18; dec 3179536218025341 17; dec 7889074826679417 17]);
   ("albrecht_shanahan1"%string,
     [dec 220 3; dec 6 3; dec 104 3; dec 123 3; dec 19 3; dec 103 3; dec 12 3; dec 214 3; dec 62 3; dec 22 3; dec 61 3; dec 52 3]);
   ("albrecht_shanahan2"%string,
     [dec 201933 6; dec 9335 6; dec 107284 6; dec 124169 6; dec 199224 7; dec 108324 6; dec 14314 6; dec 202699 6; dec 653907 7; dec 252515 7; dec 71959 6; dec 49419 6]);
   ("simple_natural_minor"%string,
     [dec 2222222222222222 16; dec 0 1; dec 1111111111111111 16; dec 1111111111111111 16; dec 0 1; dec 1111111111111111 16; dec 0 1; dec 2222222222222222 16; dec 1111111111111111 16; dec 0 1; dec 1111111111111111 16; dec 0 1]);
   ("simple_harmonic_minor"%string,
     [dec 2222222222222222 16; dec 0 1; dec 1111111111111111 16; dec 1111111111111111 16; dec 0 1; dec 1111111111111111 16; dec 0 1; dec 2222222222222222 16; dec 1111111111111111 16; dec 0 1; dec 0 1; dec 1111111111111111 16]);
   ("simple_melodic_minor"%string,
     [dec 2222222222222222 16; dec 0 1; dec 1111111111111111 16; dec 1111111111111111 16; dec 0 1; dec 1111111111111111 16; dec 0 1; dec 2222222222222222 16; dec 5555555555555555 17; dec 5555555555555555 17; dec 5555555555555555 17; dec 5555555555555555 17])].

(** include/keyprofile.h:61-64, the data members. *)
Record keyprofile := mkKp {
  kp_major_name : string; kp_minor_name : string;
  kp_majors : list (string * profile_array); kp_minors : list (string * profile_array) }.

(** src/keyprofile.cc:157-163, isValidMajorKeyProfile, isValidMinorKeyProfile. *)
Definition is_valid_major (kp : keyprofile) (name : string) : bool :=
  match assoc String.eqb name (kp_majors kp) with Some _ => true | None => false end.
Definition is_valid_minor (kp : keyprofile) (name : string) : bool :=
  match assoc String.eqb name (kp_minors kp) with Some _ => true | None => false end.

(** src/keyprofile.cc:44-63, the four-argument constructor. *)
Definition keyprofile_new4 (maj mino : string) (majCustom minCustom : profile_array) : keyprofile :=
  let majors := if String.eqb maj "custom" then assign String.eqb maj majCustom builtin_major else builtin_major in
  let minors := if String.eqb mino "custom" then assign String.eqb mino minCustom builtin_minor else builtin_minor in
  let kp := mkKp "" "" majors minors in
  if is_valid_major kp maj && is_valid_minor kp mino then mkKp maj mino majors minors else kp.

(** src/keyprofile.cc:37-42, 34-35, 31-32, the delegating constructors. *)
Definition keyprofile_new2 (maj mino : string) : keyprofile := keyprofile_new4 maj mino zero_profile zero_profile.
Definition keyprofile_new1 (name : string) : keyprofile := keyprofile_new2 name name.
Definition keyprofile_new0 : keyprofile := keyprofile_new2 "temperley" "sapp".

(** src/keyprofile.cc:165-170, whichMajorKeyProfile, whichMinorKeyProfile. *)
Definition which_major (kp : keyprofile) : string := kp_major_name kp.
Definition which_minor (kp : keyprofile) : string := kp_minor_name kp.

(** src/keyprofile.cc:171-176, getMajorKeyProfile, getMinorKeyProfile: [operator[]] inserts a zero array when the
    selected name is not stored, so the object changes. *)
Definition get_major_profile (kp : keyprofile) : profile_array * keyprofile :=
  match assoc String.eqb (kp_major_name kp) (kp_majors kp) with
  | Some a => (a, kp)
  | None => (zero_profile,
             mkKp (kp_major_name kp) (kp_minor_name kp)
                  (assign String.eqb (kp_major_name kp) zero_profile (kp_majors kp)) (kp_minors kp))
  end.
Definition get_minor_profile (kp : keyprofile) : profile_array * keyprofile :=
  match assoc String.eqb (kp_minor_name kp) (kp_minors kp) with
  | Some a => (a, kp)
  | None => (zero_profile,
             mkKp (kp_major_name kp) (kp_minor_name kp)
                  (kp_majors kp) (assign String.eqb (kp_minor_name kp) zero_profile (kp_minors kp)))
  end.

(** src/keyprofile.cc:186-206, one row: the profile of the key's mode rotated by [12 - tonic], paired with the pitch
    classes. [k] is the value of a key made by [getAllKeysVector], so [isMajorKey] reads a set value. *)
Definition profile_row (kp : keyprofile) (k : Z) : list (Z * b64) * keyprofile :=
  let tonic := Z.rem k NUMBER_OF_PITCHCLASSES in
  let rotation := NUMBER_OF_PITCHCLASSES - tonic in
  let '(arr, kp') := if (FIRST_MAJOR_KEY <=? k) && (k <=? LAST_MAJOR_KEY)
                     then get_major_profile kp else get_minor_profile kp in
  let rotated := rotate (Z.to_nat rotation) arr in
  (map (fun pc => (pc, znth fzero rotated pc)) (zseq 12), kp').

(** src/keyprofile.cc:184-208, the loop over the 24 keys, threading the object. *)
Fixpoint profile_rows (ks : list Z) (kp : keyprofile) : list (Z * list (Z * b64)) * keyprofile :=
  match ks with
  | [] => ([], kp)
  | k :: ks' => let '(row, kp1) := profile_row kp k in
                let '(rows, kp2) := profile_rows ks' kp1 in ((k, row) :: rows, kp2)
  end.

(** src/keyprofile.cc:178-209, getKeyProfileMap: rows in key order (the [std::map] order) and the changed object. *)
Definition get_profile_map (kp : keyprofile) : list (Z * list (Z * b64)) * keyprofile :=
  profile_rows (zseq 24) kp.
