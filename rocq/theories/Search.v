(** Model of the search for chord.dict: getPluginPath() of nnls-chroma-1.1/chromamethods.cpp and the loop in chordDictionary(). Definitions only. *)
From Coq Require Import Ascii String.
From Verif Require Import Base Fp PitchClass Chromagram Text Nnls NnlsArith Plug Chords Creator Dict.
Open Scope string_scope.

(** chromamethods.cpp:241-243: envPath.find("$HOME"), as the texts before and after the first place. *)
Definition home_name : string := "$HOME".
Fixpoint find_home (s : string) : option (string * string) :=
  if prefix home_name s then Some ("", substring 5 (String.length s - 5) s)
  else match s with
       | EmptyString => None
       | String c s' => match find_home s' with Some (a, b) => Some (String c a, b) | None => None end
       end.
(** 241-245: the loop, for at most [fuel] replacements. *)
Fixpoint expand (fuel : nat) (home s : string) : option string :=
  match find_home s with
  | None => Some s
  | Some (a, b) => match fuel with O => None | S fuel => expand fuel home (a ++ home ++ b) end
  end.
(** 231: DEFAULT_VAMP_PATH, not on Windows or a Mac. *)
Definition default_path : string := "$HOME/vamp:$HOME/.vamp:/usr/local/lib/vamp:/usr/lib/vamp".
(** 217-220, 235-247: the path as one text; VAMP_PATH and HOME may be unset. *)
Definition env_path (fuel : nat) (vamp_path home : option string) : option string :=
  let env := match vamp_path with Some p => p | None => "" end in
  if (env =? "")%string then match home with Some h => expand fuel h default_path | None => Some default_path end else Some env.
(** 210-268: the directories. *)
Definition plugin_path (fuel : nat) (vamp_path home : option string) : option (list string) :=
  match env_path fuel vamp_path home with Some s => Some (split_on ":" s) | None => None end.
(** 373-392: the first file that can be opened; files are a function from names to texts. *)
Fixpoint find_dict (files : string -> option string) (path : list string) : option string :=
  match path with
  | [] => None
  | d :: path => match files (d ++ "/" ++ "chord.dict") with Some text => Some text | None => find_dict files path end
  end.
(** 342-438: the tables of chords; [None] if the path was not found with [fuel] replacements. *)
Definition found_tables (cast : string -> outcome b32) (harte : b32) (fuel : nat) (vamp_path home : option string) (files : string -> option string) : option (outcome (list string * list b32)) :=
  match plugin_path fuel vamp_path home with Some path => Some (tables_of cast harte (find_dict files path)) | None => None end.
