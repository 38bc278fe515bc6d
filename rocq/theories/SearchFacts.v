(** The search for chord.dict. *)
From Coq Require Import Ascii String Lia.
From Verif Require Import Base BaseFacts Fp PitchClass Chromagram Text TextSpec TextFacts Nnls NnlsArith Plug Chords Creator CreatorFacts CreatorLoop CreatorStore Dict DictFacts Search SearchSpec.
Open Scope string_scope.

Lemma prefix_is p s : prefix p s = true <-> exists b, s = p ++ b.
Proof.
  revert s. induction p as [|c p IH]; intros s; cbn [prefix append]; [split; [exists s; reflexivity|now destruct s]|]. destruct s as [|d s]; [split; [discriminate|intros (b & E); discriminate E]|]. cbn [prefix]. destruct (ascii_dec c d) as [-> | N].
  - rewrite IH. split; intros (b & E); exists b; [now rewrite E|now injection E].
  - split; [discriminate|]. intros (b & E). injection E as E _. now elim N.
Qed.
Lemma substring_whole s n : (String.length s <= n)%nat -> substring 0 n s = s.
Proof. revert n. induction s as [|c s IH]; intros [|n] H; cbn [substring String.length] in *; try reflexivity; [lia|]. rewrite IH by lia. reflexivity. Qed.
Lemma after_home b : substring 5 (String.length (home_name ++ b) - 5) (home_name ++ b) = b.
Proof. cbn [home_name append substring String.length Nat.sub]. rewrite Nat.sub_0_r. apply substring_whole. lia. Qed.
Lemma find_home_some s a b : find_home s = Some (a, b) -> s = a ++ "$HOME" ++ b.
Proof.
  revert a b. induction s as [|c s IH]; intros a b; cbn [find_home]; [discriminate|]. destruct (prefix home_name (String c s)) eqn:P.
  - apply prefix_is in P as (t & P). rewrite P. rewrite after_home. intros E. injection E as <- <-. reflexivity.
  - destruct (find_home s) as [(x, y)|]; [|discriminate]. intros E. injection E as <- <-. cbn [append]. now rewrite (IH x y eq_refl).
Qed.
Lemma find_home_none s : find_home s = None <-> ~ mentions_home s.
Proof.
  split.
  - induction s as [|c s IH]; intros E (a & b & Q); [destruct a; discriminate Q|]. cbn [find_home] in E. destruct (prefix home_name (String c s)) eqn:P; [discriminate E|]. destruct a as [|d a]; [|injection Q as -> Q; destruct (find_home s) as [(x, y)|]; [discriminate E|]; apply (IH eq_refl); now exists a, b].
    cbn [append] in Q. assert (T : prefix home_name (String c s) = true) by (apply prefix_is; exists b; exact Q). rewrite T in P. discriminate P.
  - intros N. destruct (find_home s) as [(a, b)|] eqn:E; [|reflexivity]. elim N. exists a, b. now apply find_home_some.
Qed.
Lemma expand_never home s fuel : mentions_home home -> mentions_home s -> expand fuel home s = None.
Proof.
  intros H. revert s. induction fuel as [|fuel IH]; intros s M; cbn [expand]; (destruct (find_home s) as [(a, b)|] eqn:E; [|apply find_home_none in E; contradiction]); [reflexivity|]. apply IH. destruct H as (x & y & ->). exists (a ++ x), (y ++ b). rewrite !app_string_assoc. reflexivity.
Qed.
(** Past a character that is not in $HOME. *)
Lemma prefix_sep p a c t : ~ In c (chars p) -> prefix p (a ++ String c t) = prefix p a.
Proof.
  revert a. induction p as [|d p IH]; intros a N; [now destruct a|]. destruct a as [|e a]; cbn [append prefix]; [destruct (ascii_dec d c) as [-> | _]; [elim N; now left|reflexivity]|]. destruct (ascii_dec d e); [|reflexivity]. apply IH. intros I. apply N. now right.
Qed.
Lemma find_sep a c t : ~ mentions_home a -> ~ In c (chars home_name) -> find_home (a ++ String c t) = match find_home t with Some (x, y) => Some (a ++ String c x, y) | None => None end.
Proof.
  intros M N. apply find_home_none in M. induction a as [|d a IH]; cbn [append find_home] in *.
  - assert (P : prefix home_name (String c t) = false) by exact (prefix_sep home_name "" c t N). rewrite P. destruct (find_home t) as [(x, y)|]; reflexivity.
  - assert (P : prefix home_name (String d (a ++ String c t)) = prefix home_name (String d a)) by exact (prefix_sep home_name (String d a) c t N). rewrite P. destruct (prefix home_name (String d a)); [discriminate M|]. destruct (find_home a) as [(x, y)|]; [discriminate M|]. rewrite IH by reflexivity. destruct (find_home t) as [(x, y)|]; reflexivity.
Qed.
Lemma not_slash : ~ In "/"%char (chars home_name). Proof. cbn. intuition discriminate. Qed.
Lemma not_colon : ~ In ":"%char (chars home_name). Proof. cbn. intuition discriminate. Qed.
Lemma expand_default home fuel : ~ mentions_home home -> expand (S (S fuel)) home default_path = Some (home ++ "/vamp:" ++ home ++ "/.vamp:/usr/local/lib/vamp:/usr/lib/vamp").
Proof.
  intros M. change default_path with ("$HOME" ++ "/vamp:$HOME/.vamp:/usr/local/lib/vamp:/usr/lib/vamp"). cbn [expand]. change (find_home ("$HOME" ++ _)) with (Some ("", "/vamp:$HOME/.vamp:/usr/local/lib/vamp:/usr/lib/vamp")). cbv beta iota. cbn [append].
  rewrite (find_sep home "/" _ M not_slash). change (find_home "vamp:$HOME/.vamp:/usr/local/lib/vamp:/usr/lib/vamp") with (Some ("vamp:", "/.vamp:/usr/local/lib/vamp:/usr/lib/vamp")). cbv beta iota.
  assert (E : find_home ((home ++ "/vamp:") ++ home ++ "/.vamp:/usr/local/lib/vamp:/usr/lib/vamp") = None).
  { rewrite app_string_assoc. cbn [append]. rewrite (find_sep home "/" _ M not_slash). change (String "v" (String "a" (String "m" (String "p" (String ":" (home ++ "/.vamp:/usr/local/lib/vamp:/usr/lib/vamp")))))) with ("vamp" ++ String ":" (home ++ "/.vamp:/usr/local/lib/vamp:/usr/lib/vamp")).
    rewrite (find_sep "vamp" ":"); [|apply find_home_none; reflexivity|exact not_colon]. rewrite (find_sep home "/" _ M not_slash). reflexivity. }
  destruct fuel; cbn [expand]; rewrite E; rewrite app_string_assoc; reflexivity.
Qed.
Lemma expand_enough home : ~ mentions_home home <-> exists fuel s, expand fuel home default_path = Some s.
Proof.
  split; [intros M; exists 2%nat; eexists; now apply (expand_default home 0)|]. intros (fuel & s & E) M. rewrite expand_never in E; [discriminate E|exact M|]. exists "", "/vamp:$HOME/.vamp:/usr/local/lib/vamp:/usr/lib/vamp". reflexivity.
Qed.

(** ** Directories *)
Lemma split_ne c s : split_on c s <> []. Proof. destruct s as [|d s]; cbn [split_on]; [discriminate|]. destruct (d =? c)%char; [discriminate|]. now destruct (split_on c s). Qed.
Lemma split_joins s : path_of (split_on ":" s) = s /\ Forall (lacks ":") (split_on ":" s).
Proof.
  induction s as [|d s (IH1 & IH2)]; cbn [split_on]; [split; [reflexivity|constructor; [intros []|constructor]]|]. assert (N := split_ne ":" s). destruct (Ascii.eqb_spec d ":") as [-> | D].
  - split; [|constructor; [intros []|exact IH2]]. cbn [path_of]. destruct (split_on ":" s) as [|p l]; [contradiction|]. rewrite IH1. reflexivity.
  - destruct (split_on ":" s) as [|p l]; [contradiction|]. apply Forall_cons_iff in IH2 as (P & Q). split; [|constructor; [apply lacks_cons; split; [congruence|exact P]|exact Q]]. destruct l as [|q l]; cbn [path_of append] in *; [now rewrite IH1|]. rewrite <- IH1. reflexivity.
Qed.
Lemma split_path dirs : dirs <> [] -> Forall (lacks ":") dirs -> split_on ":" (path_of dirs) = dirs.
Proof.
  induction dirs as [|d dirs IH]; [contradiction|]. intros _ H. apply Forall_cons_iff in H as (D & H). destruct dirs as [|e dirs]; [now apply split_on_lacks|]. change (path_of (d :: e :: dirs)) with (d ++ String ":" (path_of (e :: dirs))). rewrite split_on_piece by exact D. f_equal. apply IH; [discriminate|exact H].
Qed.
Lemma find_dict_first files dirs : match find_dict files dirs with Some text => first_dict files dirs text | None => Forall (fun d => files (d ++ "/chord.dict") = None) dirs end.
Proof.
  induction dirs as [|d dirs IH]; cbn [find_dict]; [constructor|]. change ("/" ++ "chord.dict") with "/chord.dict". destruct (files (d ++ "/chord.dict")) as [text|] eqn:E; [exists [], d, dirs; repeat split; [exact E|constructor]|].
  destruct (find_dict files dirs) as [text|]; [destruct IH as (b & x & a & -> & F & B); exists (d :: b), x, a; repeat split; [exact F|now constructor]|now constructor].
Qed.
Lemma first_dict_found files dirs text : first_dict files dirs text -> find_dict files dirs = Some text.
Proof.
  intros (b & d & a & -> & F & B). induction B as [|x b X _ IH]; cbn [app find_dict]; change ("/" ++ "chord.dict") with "/chord.dict"; [now rewrite F|]. rewrite X. exact IH.
Qed.
