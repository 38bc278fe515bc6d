(** Property theorems C96: where the chord plug-in looks for its dictionary. *)
From Coq Require Import Ascii String Lia.
From Flocq Require Import Core.Core IEEE754.BinarySingleNaN.
From Verif Require Import Base BaseFacts Fp Options Chromagram Text TextSpec TextFacts Nnls NnlsArith Plug Chords Creator CreatorFacts Dict DictSpec DictFacts Search SearchSpec SearchFacts.
Open Scope string_scope.

(** A VAMP_PATH that is not empty is the directories between its colons, and every list of directories without colons can be given; HOME is not looked at. *)
Theorem C96_given_path : forall fuel home,
  (forall p, p <> "" -> exists dirs, plugin_path fuel (Some p) home = Some dirs /\ path_of dirs = p /\ Forall (lacks ":") dirs) /\
  (forall dirs, Forall (lacks ":") dirs -> path_of dirs <> "" -> plugin_path fuel (Some (path_of dirs)) home = Some dirs).
Proof.
  intros fuel home. assert (G : forall p, p <> "" -> plugin_path fuel (Some p) home = Some (split_on ":" p)) by (intros p N; unfold plugin_path, env_path; apply String.eqb_neq in N; now rewrite N).
  split; [intros p N; exists (split_on ":" p); split; [now apply G|apply split_joins]|]. intros dirs F N. rewrite (G _ N). rewrite split_path; [reflexivity|intros ->; now apply N|exact F].
Qed.
Print Assumptions C96_given_path.
(** Without one, four directories are searched, two of them in HOME, after two replacements. *)
Theorem C96_default_path : forall fuel vamp home, vamp = None \/ vamp = Some "" -> ~ mentions_home home -> lacks ":" home ->
  plugin_path (S (S fuel)) vamp (Some home) = Some [home ++ "/vamp"; home ++ "/.vamp"; "/usr/local/lib/vamp"; "/usr/lib/vamp"].
Proof.
  intros fuel vamp home V M L. assert (E : env_path (S (S fuel)) vamp (Some home) = Some (path_of [home ++ "/vamp"; home ++ "/.vamp"; "/usr/local/lib/vamp"; "/usr/lib/vamp"])).
  { transitivity (expand (S (S fuel)) home default_path); [destruct V as [-> | ->]; reflexivity|]. rewrite (expand_default home fuel M). cbn [path_of]. rewrite !app_string_assoc. reflexivity. }
  unfold plugin_path. rewrite E. rewrite split_path; [reflexivity|discriminate|]. assert (A : forall t, lacks ":" t -> lacks ":" (home ++ t)) by (intros t T I; rewrite chars_app in I; apply in_app_or in I; destruct I; [now apply L|now apply T]).
  repeat constructor; try (apply A); intros I; cbn in I; repeat (destruct I as [I|I]; [discriminate I|]); exact I.
Qed.
Print Assumptions C96_default_path.
(** Without HOME the name stands for itself. *)
Theorem C96_no_home : forall fuel, plugin_path fuel None None = Some ["$HOME/vamp"; "$HOME/.vamp"; "/usr/local/lib/vamp"; "/usr/lib/vamp"].
Proof. reflexivity. Qed.
Print Assumptions C96_no_home.
(** The replacement ends exactly if HOME does not have $HOME in it; otherwise initialise() never returns. *)
Theorem C96_ends_unless_home_names_itself : forall vamp home, vamp = None \/ vamp = Some "" -> ((exists fuel path, plugin_path fuel vamp (Some home) = Some path) <-> ~ mentions_home home).
Proof.
  intros vamp home V. rewrite (expand_enough home). assert (E : forall fuel, plugin_path fuel vamp (Some home) = match expand fuel home default_path with Some s => Some (split_on ":" s) | None => None end) by (intros fuel; destruct V as [-> | ->]; reflexivity).
  split; intros (fuel & x & H); [rewrite E in H; destruct (expand fuel home default_path) as [s|] eqn:Q; [now exists fuel, s|discriminate H]|]. exists fuel, (split_on ":" x). now rewrite E, H.
Qed.
Print Assumptions C96_ends_unless_home_names_itself.
Theorem C96_initialise_returns_refuted : ~ forall cast harte vamp home files, exists fuel r, found_tables cast harte fuel vamp home files = Some r.
Proof.
  intros H. destruct (H (fun _ => Throws StdInvalidArgument) z32 None (Some "$HOME") (fun _ => None)) as (fuel & r & E). unfold found_tables in E. destruct (plugin_path fuel None (Some "$HOME")) as [p|] eqn:P; [|discriminate E].
  apply (proj1 (C96_ends_unless_home_names_itself None "$HOME" (or_introl eq_refl))); [now exists fuel, p|]. exists "", "". reflexivity.
Qed.
Print Assumptions C96_initialise_returns_refuted.
(** The dictionary is the file chord.dict of the first directory that has one; if none has, it is that of the program. *)
Theorem C96_first_file_counts : forall cast harte fuel vamp home files dirs, plugin_path fuel vamp home = Some dirs ->
  (forall text, first_dict files dirs text -> found_tables cast harte fuel vamp home files = Some (read_dict cast text)) /\
  (Forall (fun d => files (d ++ "/chord.dict") = None) dirs -> found_tables cast harte fuel vamp home files = Some (Ret (default_names harte, static_values))) /\
  ((exists text, first_dict files dirs text) \/ Forall (fun d => files (d ++ "/chord.dict") = None) dirs).
Proof.
  intros cast harte fuel vamp home files dirs P. unfold found_tables. rewrite P. split; [|split].
  - intros text F. now rewrite (first_dict_found _ _ _ F).
  - intros N. assert (F := find_dict_first files dirs). destruct (find_dict files dirs) as [text|]; [|reflexivity]. destruct F as (b & d & a & -> & F & _). apply Forall_app in N as (_ & N). apply Forall_inv in N. rewrite N in F. discriminate F.
  - assert (F := find_dict_first files dirs). destruct (find_dict files dirs) as [text|]; [left; now exists text|now right].
Qed.
Print Assumptions C96_first_file_counts.
Example C96_a_path : plugin_path 2 None (Some "/root") = Some ["/root/vamp"; "/root/.vamp"; "/usr/local/lib/vamp"; "/usr/lib/vamp"] /\ plugin_path 0 (Some "/a::/b:") (Some "x") = Some ["/a"; ""; "/b"; ""] /\ plugin_path 9 None (Some "/root$HOME") = None.
Proof. vm_compute. repeat split. Qed.
Example C96_a_search : found_tables bit_cast z32 0 (Some "/a:/b:/c") None (fun n => if (n =? "/b/chord.dict")%string then Some "=1" else if (n =? "/c/chord.dict")%string then Some "x=0" else None) = Some (Ret ([""], [rat32 1 1])).
Proof. reflexivity. Qed.
