(** Facts about a dataset that is written and read again. *)
From Coq Require Import Lia Ascii Permutation.
From Flocq Require Import IEEE754.BinarySingleNaN.
From Verif Require Import Base BaseFacts Fp Text PitchClass Py Output OptTables Main Dataset Ensemble Creator.
From Verif Require Import MusicSpec TextSpec TextFacts OptionFacts DatasetSpec LabelFacts EnsembleRun CreatorSpec CreatorFacts CreatorLoop CreatorStore CreatorMain.
Open Scope Z_scope.

(** ** The written files *)
(** A name of a dataset or of a split that does not get in the way of the endings. *)
Definition plain_name (n : string) : Prop := never_says "_features" n /\ never_says "_annotations" n.
Definition split_name (k : string) : Prop := plain_name k /\ k <> ""%string /\ lacks newline k.
(** What is expected of the splits of a creator. *)
Definition split_ok (c : creator) : Prop := NoDup (map fst (c_splits c)) /\ Forall split_name (map fst (c_splits c)).

Lemma plain_dash n k : plain_name n -> plain_name k -> plain_name (n ++ "-" ++ k).
Proof. intros (N1 & N2) (K1 & K2). split; apply never_dash; try assumption; cbn; intuition discriminate. Qed.
Section Kinds.
  Context (name : string) (PN : plain_name name).
  Lemma array_ensemble t : array_in name ((name ++ "_ensemble.txt")%string, t) = [].
  Proof. destruct PN as (N1 & N2). unfold array_in. cbn [fst]. rewrite search_features_none by now apply features_underscore. rewrite search_annotations_none by now apply annotations_underscore. reflexivity. Qed.
  Lemma array_features v : array_in name ((name ++ "_features.pkl")%string, v) = [("X"%string, v)].
  Proof. unfold array_in. cbn [fst snd]. now rewrite search_features_name. Qed.
  Lemma array_annotations v : array_in name ((name ++ "_annotations.pkl")%string, v) = [("y"%string, v)].
  Proof. destruct PN as (N1 & N2). unfold array_in. cbn [fst snd]. rewrite search_features_none by now apply features_underscore. now rewrite search_annotations_name. Qed.
  Lemma array_split_features k v : split_name k -> array_in name ((name ++ "-" ++ k ++ "_features.pkl")%string, v) = [((k ++ "_X")%string, v)].
  Proof. intros (_ & NE & L). unfold array_in. cbn [fst snd]. rewrite search_features_split by exact L. unfold attribute. now destruct (String.eqb_spec k ""). Qed.
  Lemma array_split_annotations k v : split_name k -> array_in name ((name ++ "-" ++ k ++ "_annotations.pkl")%string, v) = [((k ++ "_y")%string, v)].
  Proof.
    intros ((K1 & K2) & NE & L). destruct PN as (N1 & N2). unfold array_in. cbn [fst snd]. rewrite search_features_none by now apply features_dash. rewrite search_annotations_split by exact L.
    unfold attribute. now destruct (String.eqb_spec k "").
  Qed.
End Kinds.
Lemma tables_other name s v : s <> "_ensemble.txt"%string -> tables_in name ((name ++ s)%string, v) = [].
Proof. intros N. unfold tables_in. cbn [fst]. destruct (String.eqb_spec (name ++ s) (name ++ "_ensemble.txt")) as [E|_]; [|reflexivity]. apply app_same_head in E. congruence. Qed.

(** The arrays of one split. *)
Definition split_arrays (c : creator) (split : string * list string) : list (string * content) :=
  match split_rows (c_features c) (c_labels c) (snd split) with
  | None | Some ([], _) => []
  | Some (xs, ys) => ((fst split ++ "_X")%string, Rows xs) :: match ys with [] => [] | _ => [((fst split ++ "_y")%string, Labels ys)] end
  end.
Definition all_arrays (c : creator) : list (string * content) :=
  ("X"%string, Rows (map snd (c_features c))) :: (match c_labels c with [] => [] | _ => [("y"%string, Labels (map snd (c_labels c)))] end) ++ concat (map (split_arrays c) (c_splits c)).
Lemma flat_one c k v : plain_name (c_name c) -> split_name k ->
  flat_map (array_in (c_name c)) (split_files c (k, v)) = split_arrays c (k, v) /\ flat_map (tables_in (c_name c)) (split_files c (k, v)) = [].
Proof.
  intros PN K. unfold split_files, split_arrays. cbn [fst snd]. destruct (split_rows _ _ v) as [[[|x xs] ys]|]; try (split; reflexivity).
  cbn [flat_map]. rewrite array_split_features by assumption. rewrite tables_other by discriminate. destruct ys as [|y ys]; [split; reflexivity|]. cbn [flat_map]. rewrite array_split_annotations by assumption. rewrite tables_other by discriminate. split; reflexivity.
Qed.
Lemma flat_split c : plain_name (c_name c) -> Forall split_name (map fst (c_splits c)) ->
  flat_map (array_in (c_name c)) (concat (map (split_files c) (c_splits c))) = concat (map (split_arrays c) (c_splits c)) /\
  flat_map (tables_in (c_name c)) (concat (map (split_files c) (c_splits c))) = [].
Proof.
  intros PN. induction (c_splits c) as [|[k v] splits IH]; intros F; [split; reflexivity|]. cbn [map fst] in F. apply Forall_cons_iff in F. destruct F as (K & F). destruct (IH F) as (I1 & I2). cbn [map concat]. rewrite !flat_map_app, I1, I2.
  destruct (flat_one c k v PN K) as (-> & ->). split; reflexivity.
Qed.
Lemma sound_array name s v : s <> "_ensemble.txt"%string -> (forall t, v <> Plain t) -> sound name ((name ++ s)%string, v).
Proof. intros N P. split; [|intros _; exact P]. cbn [fst]. intros E. apply app_same_head in E. congruence. Qed.
Lemma written_sound c files ps ts mixed : plain_name (c_name c) -> Forall split_name (map fst (c_splits c)) -> c_has_features c = true -> c_tables c = Some (ps, ts, mixed) ->
  ps <> [] -> ts <> [] -> Forall listable ps -> Forall listable ts -> written c = Returns files ->
  Forall (sound (c_name c)) files /\ Forall (fun f => relevant (c_name c) f = true) files /\ flat_map (array_in (c_name c)) files = all_arrays c /\ flat_map (tables_in (c_name c)) files = [(ps, ts, false)].
Proof.
  intros PN F H T NP NT FP FT W. unfold written in W. rewrite H, T in W. cbn [negb] in W. injection W as <-. destruct (flat_split c PN F) as (S1 & S2).
  assert (TE : tables_in (c_name c) ((c_name c ++ "_ensemble.txt")%string, Plain (ensemble_text ps ts mixed)) = [(ps, ts, false)]) by (unfold tables_in; cbn [fst snd]; rewrite String.eqb_refl; now rewrite tables_round_trip).
  split; [|split; [|split]].
  - constructor; [split; [intros _; rewrite TE; discriminate|rewrite array_ensemble by exact PN; congruence]|]. constructor; [apply sound_array; discriminate|]. apply Forall_app. split; [destruct (c_labels c); repeat constructor; apply sound_array; discriminate|].
    apply Forall_concat, Forall_map, Forall_forall. intros [k v] _. unfold split_files. destruct (split_rows _ _ _) as [[[|x xs] ys]|]; try constructor; [apply sound_array; discriminate|]. destruct ys; repeat constructor; apply sound_array; discriminate.
  - assert (R : forall s v, relevant (c_name c) ((c_name c ++ s)%string, v) = true) by (intros; apply prefix_own). constructor; [apply R|]. constructor; [apply R|]. apply Forall_app. split; [destruct (c_labels c); repeat constructor; apply R|].
    apply Forall_concat, Forall_map, Forall_forall. intros [k v] _. unfold split_files. destruct (split_rows _ _ _) as [[[|x xs] ys]|]; try constructor; [apply R|]. destruct ys; repeat constructor; apply R.
  - cbn [flat_map]. rewrite array_ensemble by exact PN. rewrite array_features. rewrite flat_map_app, S1. unfold all_arrays. cbn [app]. f_equal. f_equal. destruct (c_labels c) as [|y l]; [reflexivity|]. cbn [flat_map]. now rewrite array_annotations.
  - cbn [flat_map]. rewrite TE, tables_other by discriminate. rewrite flat_map_app, S2. destruct (c_labels c) as [|y l]; [reflexivity|]. cbn [flat_map]. now rewrite tables_other.
Qed.

(** ** Distinct names *)
Lemma NoDup_tagged {A B} (f : A -> list B) (l : list A) : NoDup l -> (forall a, In a l -> NoDup (f a)) -> (forall a b x, In a l -> In b l -> In x (f a) -> In x (f b) -> a = b) -> NoDup (concat (map f l)).
Proof.
  induction 1 as [|a l NI ND IH]; intros F D; [constructor|]. cbn. apply NoDup_both.
  - apply F. now left.
  - apply IH; [intros b I; apply F; now right|intros b b' x I I'; apply D; now right].
  - intros x I J. apply in_concat in J. destruct J as (m & J1 & J2). apply in_map_iff in J1. destruct J1 as (b & <- & J1). apply NI. now rewrite (D a b x (or_introl eq_refl) (or_intror J1) I J2).
Qed.
Lemma arrays_distinct c : split_ok c -> NoDup (map fst (all_arrays c)).
Proof.
  intros (ND & F).
  assert (K : forall k v x, In x (map fst (split_arrays c (k, v))) -> x = (k ++ "_X")%string \/ x = (k ++ "_y")%string).
  { intros k v x. unfold split_arrays. cbn [fst snd]. destruct (split_rows _ _ _) as [[[|r rs] ys]|]; cbn; try tauto. destruct ys; cbn; intuition. }
  assert (XY : forall a b, (a ++ "_X" <> b ++ "_y")%string) by (intros a b E; apply (f_equal string_rev) in E; rewrite !string_rev_app in E; cbn in E; discriminate).
  assert (SP : NoDup (map fst (concat (map (split_arrays c) (c_splits c))))).
  { rewrite concat_map, map_map. apply NoDup_tagged.
    - exact (NoDup_map_inv fst _ ND).
    - intros [k v] _. unfold split_arrays. cbn [fst snd]. destruct (split_rows _ _ _) as [[[|r rs] ys]|]; cbn; try constructor; destruct ys; cbn; repeat constructor; cbn; try tauto. intros [E|[]]. symmetry in E. now apply XY in E.
    - intros [k v] [k' v'] x I I' J J'. apply K in J, J'. assert (k = k') by (destruct J as [-> | ->], J' as [E|E]; try (now apply app_same_tail in E); [now apply XY in E|symmetry in E; now apply XY in E]). subst k'.
      f_equal. pose proof (NoDup_assoc String.eqb Seqb_spec' _ _ _ ND I) as A. pose proof (NoDup_assoc String.eqb Seqb_spec' _ _ _ ND I') as A'. congruence. }
  assert (OUT : forall x, In x (map fst (concat (map (split_arrays c) (c_splits c)))) -> x <> "X"%string /\ x <> "y"%string).
  { intros x I. rewrite concat_map, map_map in I. apply in_concat in I. destruct I as (l & I1 & I2). apply in_map_iff in I1. destruct I1 as ([k v] & <- & I1). apply K in I2. apply in_map with (f := fst) in I1. rewrite Forall_forall in F. destruct (F _ I1) as (_ & NE & _). cbn [fst] in NE.
    destruct k as [|c1 k]; [congruence|]. destruct I2 as [-> | ->]; split; cbn; intros E; injection E as _ E; destruct k; discriminate. }
  unfold all_arrays. cbn [map fst]. rewrite map_app. constructor.
  - rewrite in_app_iff. intros [I|I]; [destruct (c_labels c); cbn in I; intuition discriminate|]. now apply OUT in I.
  - apply NoDup_both; [destruct (c_labels c); cbn; repeat constructor; intros []|exact SP|]. intros x I J. apply OUT in J. destruct (c_labels c); cbn in I; [tauto|]. destruct I as [<-|[]]. now apply (proj2 J).
Qed.
Lemma files_distinct c files : split_ok c -> written c = Returns files -> NoDup (map fst files).
Proof.
  intros (ND & F) W. unfold written in W. destruct (c_has_features c); [|cbn in W; injection W as <-; constructor]. destruct (c_tables c) as [[[ps ts] mixed]|]; [|discriminate]. cbn [negb] in W. injection W as <-.
  set (n := c_name c).
  assert (K : forall k v x, In x (map fst (split_files c (k, v))) -> x = (n ++ "-" ++ k ++ "_features.pkl")%string \/ x = (n ++ "-" ++ k ++ "_annotations.pkl")%string).
  { intros k v x. unfold split_files. cbn [fst snd]. destruct (split_rows _ _ _) as [[[|r rs] ys]|]; cbn; try tauto. destruct ys; cbn; intuition. }
  assert (XY : forall a b, (a ++ "_features.pkl" <> b ++ "_annotations.pkl")%string) by (intros a b E; apply (f_equal string_rev) in E; rewrite !string_rev_app in E; cbn in E; discriminate).
  assert (SP : NoDup (map fst (concat (map (split_files c) (c_splits c))))).
  { rewrite concat_map, map_map. apply NoDup_tagged.
    - exact (NoDup_map_inv fst _ ND).
    - intros [k v] _. unfold split_files. cbn [fst snd]. destruct (split_rows _ _ _) as [[[|r rs] ys]|]; cbn [map fst]; try constructor; destruct ys; cbn [map fst]; repeat constructor; try (cbn; tauto). intros [E|[]]. symmetry in E. apply app_same_head in E. cbn in E. injection E as E. now apply XY in E.
    - intros [k v] [k' v'] x I I' J J'. apply K in J, J'. assert (k = k') by (destruct J as [-> | ->], J' as [E|E]; apply app_same_head in E; cbn in E; injection E as E; try (now apply app_same_tail in E); [now apply XY in E|symmetry in E; now apply XY in E]). subst k'.
      f_equal. pose proof (NoDup_assoc String.eqb Seqb_spec' _ _ _ ND I) as A. pose proof (NoDup_assoc String.eqb Seqb_spec' _ _ _ ND I') as A'. congruence. }
  assert (OUT : forall x, In x (map fst (concat (map (split_files c) (c_splits c)))) -> exists r, x = (n ++ String "-" r)%string).
  { intros x I. rewrite concat_map, map_map in I. apply in_concat in I. destruct I as (l & I1 & I2). apply in_map_iff in I1. destruct I1 as ([k v] & <- & I1). apply K in I2. destruct I2 as [-> | ->]; eexists; reflexivity. }
  assert (U : forall s r, (n ++ String "_" s <> n ++ String "-" r)%string) by (intros s r E; apply app_same_head in E; discriminate).
  cbn [map fst]. rewrite map_app. constructor; [|constructor].
  - cbn. rewrite in_app_iff. intros [E|[I|I]]; [apply app_same_head in E; discriminate| |apply OUT in I; destruct I as (r & E); now apply U in E].
    destruct (c_labels c); cbn in I; [tauto|]. destruct I as [E|[]]. apply app_same_head in E. discriminate.
  - rewrite in_app_iff. intros [I|I]; [|apply OUT in I; destruct I as (r & E); now apply U in E]. destruct (c_labels c); cbn in I; [tauto|]. destruct I as [E|[]]. apply app_same_head in E. discriminate.
  - apply NoDup_both; [destruct (c_labels c); cbn; repeat constructor; intros []|exact SP|]. intros x I J. apply OUT in J. destruct J as (r & ->). destruct (c_labels c); cbn in I; [tauto|]. destruct I as [E|[]]. now apply U in E.
Qed.

(** ** The folder after writing *)
Lemma put_record files dir : put_files files dir = record files dir. Proof. reflexivity. Qed.
Lemma record_In {V} (l m : list (string * V)) k v : NoDup (map fst l) -> NoDup (map fst m) -> (In (k, v) (record l m) <-> In (k, v) l \/ ~ In k (map fst l) /\ In (k, v) m).
Proof.
  intros NL NM. pose proof (record_NoDup l m NM) as NR. split.
  - intros I. pose proof (NoDup_assoc String.eqb Seqb_spec' _ _ _ NR I) as A. destruct (in_dec string_dec k (map fst l)) as [IK|NK].
    + left. apply in_map_iff in IK. destruct IK as ([k' v'] & E & IL). cbn in E. subst k'. destruct (in_split _ _ IL) as (a & b & EQ). rewrite EQ in A, NL. rewrite record_last in A; [injection A as ->; exact IL|].
      rewrite map_app in NL. cbn [map fst] in NL. apply NoDup_remove_2 in NL. intros J. apply NL. apply in_or_app. now right.
    + right. split; [exact NK|]. rewrite record_other in A by exact NK. now apply assoc_In.
  - intros [I|(NK & I)].
    + destruct (in_split _ _ I) as (a & b & EQ). apply assoc_In. rewrite EQ in *. apply record_last. rewrite map_app in NL. cbn [map fst] in NL. apply NoDup_remove_2 in NL. intros J. apply NL. apply in_or_app. now right.
    + apply assoc_In. rewrite record_other by exact NK. now apply (NoDup_assoc String.eqb Seqb_spec').
Qed.
Lemma relevant_files name files dir listing : NoDup (map fst files) -> NoDup (map fst dir) -> Forall (fun f => relevant name f = true) files -> (forall f, In f dir -> relevant name f = true -> In (fst f) (map fst files)) ->
  Permutation listing (put_files files dir) -> Permutation (filter (relevant name) listing) files.
Proof.
  intros NF NDI R O P. rewrite put_record in P.
  assert (NR : NoDup (map fst listing)) by (apply (Permutation_NoDup (l := map fst (record files dir))); [apply Permutation_sym; now apply Permutation_map|now apply record_NoDup]).
  apply NoDup_Permutation.
  - apply NoDup_filter. exact (NoDup_map_inv fst _ NR).
  - exact (NoDup_map_inv fst _ NF).
  - intros [k v]. rewrite filter_In. split.
    + intros (I & RE). apply (Permutation_in _ P) in I. apply record_In in I; [|exact NF|exact NDI]. destruct I as [I|(NK & I)]; [exact I|]. exfalso. apply NK. exact (O (k, v) I RE).
    + intros I. split; [|rewrite Forall_forall in R; now apply R]. apply (Permutation_in _ (Permutation_sym P)). apply record_In; [exact NF|exact NDI|now left].
Qed.

(** ** Reading what was written *)
Lemma reads_back c ps ts mixed files dir listing : plain_name (c_name c) -> split_ok c -> c_has_features c = true -> c_tables c = Some (ps, ts, mixed) ->
  ps <> [] -> ts <> [] -> Forall listable ps -> Forall listable ts -> written c = Returns files -> NoDup (map fst dir) ->
  (forall f, In f dir -> String.prefix (c_name c) (fst f) = true -> In (fst f) (map fst files)) -> Permutation listing (put_files files dir) ->
  exists ds, read_dataset (c_name c) listing = Returns ds /\ ds_ensemble ds = Some (ps, ts, false) /\ forall a v, assoc String.eqb a (ds_arrays ds) = Some v <-> In (a, v) (all_arrays c).
Proof.
  intros PN SO H T NP NT FP FT W ND O P. destruct (written_sound c files ps ts mixed PN (proj2 SO) H T NP NT FP FT W) as (S & R & A & TB).
  pose proof (relevant_files (c_name c) files dir listing (files_distinct c files SO W) ND R O P) as PF.
  assert (SL : Forall (sound (c_name c)) (filter (relevant (c_name c)) listing)) by (apply (Permutation_Forall (Permutation_sym PF)); exact S).
  unfold read_dataset. rewrite read_all by exact SL. eexists. split; [reflexivity|]. cbn [ds_ensemble ds_arrays].
  pose proof (Permutation_flat_map (tables_in (c_name c)) PF) as PT. rewrite TB in PT. apply Permutation_sym, Permutation_length_1_inv in PT. rewrite PT. split; [reflexivity|].
  pose proof (Permutation_flat_map (array_in (c_name c)) PF) as PA. rewrite A in PA. set (l := flat_map (array_in (c_name c)) (filter (relevant (c_name c)) listing)) in *.
  assert (NL : NoDup (map fst l)) by (apply (Permutation_NoDup (l := map fst (all_arrays c))); [apply Permutation_sym; now apply Permutation_map|now apply arrays_distinct]).
  intros a v. rewrite record_new by exact NL. cbn [app]. split.
  - intros E. apply assoc_In in E. now apply (Permutation_in _ PA).
  - intros I. apply (NoDup_assoc String.eqb Seqb_spec'); [exact NL|]. now apply (Permutation_in _ (Permutation_sym PA)).
Qed.
(** The rows of a split. *)
Lemma split_rows_ok F L v xs ys : Forall2 (fun s x => assoc String.eqb s F = Some x) v xs -> (L <> [] -> Forall2 (fun s y => assoc String.eqb s L = Some y) v ys) -> (L = [] -> ys = []) -> split_rows F L v = Some (xs, ys).
Proof.
  intros FX. revert ys. induction FX as [|s x v xs E _ IH]; intros ys FY Z.
  - cbn. destruct L as [|l L]; [now rewrite Z|]. specialize (FY ltac:(discriminate)). inversion FY. reflexivity.
  - cbn [split_rows]. rewrite E. destruct L as [|l L].
    + rewrite (Z eq_refl) in *. now rewrite (IH [] ltac:(congruence) (fun _ => eq_refl)).
    + specialize (FY ltac:(discriminate)). inversion FY as [|? y ? ys' EY FY']; subst. rewrite (IH ys' (fun _ => FY') ltac:(discriminate)). now rewrite EY.
Qed.
Lemma split_rows_none F L v s : In s v -> assoc String.eqb s F = None -> split_rows F L v = None.
Proof.
  intros I N. induction v as [|t v IH]; [destruct I|]. cbn [split_rows]. destruct I as [->|I]; [now rewrite N|]. destruct (assoc String.eqb t F); [|reflexivity]. destruct L; now rewrite (IH I).
Qed.
Lemma stored_dataset c ps ts mixed files dir listing : plain_name (c_name c) -> split_ok c -> c_has_features c = true -> c_tables c = Some (ps, ts, mixed) ->
  ps <> [] -> ts <> [] -> Forall listable ps -> Forall listable ts -> NoDup (map fst (c_features c)) -> c_labels c = [] \/ map fst (c_labels c) = map fst (c_features c) ->
  written c = Returns files -> NoDup (map fst dir) ->
  (forall f, In f dir -> String.prefix (c_name c) (fst f) = true -> In (fst f) (map fst files)) -> Permutation listing (put_files files dir) ->
  exists ds, read_dataset (c_name c) listing = Returns ds /\ ds_ensemble ds = Some (ps, ts, false) /\
    get_X ds = Returns (map snd (c_features c)) /\
    (c_labels c <> [] -> get_y ds = Returns (map snd (c_labels c))) /\ (c_labels c = [] -> get_y ds = Raises AttributeError) /\
    forall k v, In (k, v) (c_splits c) ->
      (forall xs, v <> [] -> Forall2 (fun s x => In (s, x) (c_features c)) v xs -> assoc String.eqb (k ++ "_X")%string (ds_arrays ds) = Some (Rows xs)) /\
      (forall ys, v <> [] -> Forall2 (fun s y => In (s, y) (c_labels c)) v ys -> assoc String.eqb (k ++ "_y")%string (ds_arrays ds) = Some (Labels ys)) /\
      (v = [] \/ (exists s, In s v /\ ~ In s (map fst (c_features c))) -> assoc String.eqb (k ++ "_X")%string (ds_arrays ds) = None /\ assoc String.eqb (k ++ "_y")%string (ds_arrays ds) = None).
Proof.
  intros PN SO H T NP NT FP FT NF LF W ND O P. destruct (reads_back c ps ts mixed files dir listing PN SO H T NP NT FP FT W ND O P) as (ds & R & E & A). exists ds. split; [exact R|]. split; [exact E|].
  assert (NL : NoDup (map fst (c_labels c))) by (destruct LF as [-> | ->]; [constructor|exact NF]).
  assert (KEY : forall k v x, In (k, v) (c_splits c) -> In x (all_arrays c) -> (fst x = k ++ "_X" \/ fst x = k ++ "_y")%string -> In x (split_arrays c (k, v))).
  { intros k v [a z] I J KE. cbn [fst] in KE. destruct SO as (ND2 & F). rewrite Forall_forall in F. assert (SN : split_name k) by (apply F; now apply in_map with (f := fst) in I). destruct SN as (_ & NE & _).
    assert (NXY : a <> "X"%string /\ a <> "y"%string) by (destruct k as [|c1 k]; [congruence|]; destruct KE as [-> | ->]; split; cbn; intros Q; injection Q as _ Q; destruct k; discriminate).
    unfold all_arrays in J. destruct J as [J|J]; [injection J as <- _; now elim (proj1 NXY)|]. apply in_app_or in J. destruct J as [J|J]; [destruct (c_labels c); [destruct J|]; destruct J as [J|[]]; injection J as <- _; now elim (proj2 NXY)|].
    apply in_concat in J. destruct J as (l & J1 & J2). apply in_map_iff in J1. destruct J1 as ([k' v'] & <- & J1). assert (k = k').
    { assert (XY : forall a b, (a ++ "_X" <> b ++ "_y")%string) by (intros a' b E'; apply (f_equal string_rev) in E'; rewrite !string_rev_app in E'; cbn in E'; discriminate).
      assert (KK : a = (k' ++ "_X")%string \/ a = (k' ++ "_y")%string) by (revert J2; unfold split_arrays; cbn [fst snd]; destruct (split_rows _ _ _) as [[[|r rs] ys]|]; cbn; try tauto; destruct ys; cbn; intuition congruence).
      destruct KE as [-> | ->], KK as [Q|Q]; try (now apply app_same_tail in Q); [now apply XY in Q|symmetry in Q; now apply XY in Q]. }
    subst k'. pose proof (NoDup_assoc String.eqb Seqb_spec' _ _ _ ND2 I) as A1. pose proof (NoDup_assoc String.eqb Seqb_spec' _ _ _ ND2 J1) as A2. assert (v = v') by congruence. now subst v'. }
  split; [|split; [|split]].
  - unfold get_X. rewrite (proj2 (A "X"%string (Rows (map snd (c_features c))))); [reflexivity|]. now left.
  - intros NY. unfold get_y. rewrite (proj2 (A "y"%string (Labels (map snd (c_labels c))))); [reflexivity|]. right. apply in_or_app. left. destruct (c_labels c); [congruence|now left].
  - intros Z. unfold get_y. destruct (assoc String.eqb "y"%string (ds_arrays ds)) as [v|] eqn:Y; [|reflexivity]. exfalso. apply A in Y. unfold all_arrays in Y. rewrite Z in Y. destruct Y as [Y|Y]; [discriminate|]. cbn [app] in Y.
    apply in_concat in Y. destruct Y as (l & Y1 & Y2). apply in_map_iff in Y1. destruct Y1 as ([k w] & <- & Y1). revert Y2. unfold split_arrays. cbn [fst snd]. destruct SO as (_ & F). rewrite Forall_forall in F. assert (SN : split_name k) by (apply F; now apply in_map with (f := fst) in Y1). destruct SN as (_ & NE & _). destruct k as [|c1 k]; [congruence|].
    destruct (split_rows _ _ _) as [[[|r rs] ys]|]; [intros []| |intros []]. destruct ys; cbn; [intros [Y2|[]]|intros [Y2|[Y2|[]]]]; injection Y2 as _ Y2 _; destruct k; discriminate.
  - intros k v I.
    assert (SA : forall x, In x (split_arrays c (k, v)) -> In x (all_arrays c)) by (intros x J; right; apply in_or_app; right; apply in_concat; exists (split_arrays c (k, v)); split; [now apply in_map|exact J]).
    assert (LK : c_labels c <> [] -> forall s x, assoc String.eqb s (c_features c) = Some x -> exists y, assoc String.eqb s (c_labels c) = Some y).
    { intros NY s x AX. destruct LF as [Z|Z]; [congruence|]. apply assoc_In in AX. apply in_map with (f := fst) in AX. cbn [fst] in AX. rewrite <- Z in AX. apply in_map_iff in AX. destruct AX as ([s' y] & Q & AX). cbn in Q. subst s'. exists y. now apply (NoDup_assoc String.eqb Seqb_spec'). }
    assert (LKs : c_labels c <> [] -> forall xs, Forall2 (fun s x => assoc String.eqb s (c_features c) = Some x) v xs -> exists ys, Forall2 (fun s y => assoc String.eqb s (c_labels c) = Some y) v ys).
    { intros NY. clear - LK NY. induction v as [|s v IH]; intros xs FX; [exists []; constructor|]. inversion FX as [|? x ? xs' E1 E2]; subst. destruct (LK NY s x E1) as (y & Y). destruct (IH xs' E2) as (ys & YS). exists (y :: ys). now constructor. }
    split; [|split].
    + intros xs NV FX. assert (FX' : Forall2 (fun s x => assoc String.eqb s (c_features c) = Some x) v xs) by (clear - FX NF; induction FX; constructor; [now apply (NoDup_assoc String.eqb Seqb_spec')|assumption]).
      apply A, SA. unfold split_arrays. cbn [fst snd].
      assert (Q : exists ys, split_rows (c_features c) (c_labels c) v = Some (xs, ys)).
      { destruct (c_labels c) as [|l L] eqn:Z; [exists []; now apply split_rows_ok|]. rewrite <- Z in *. destruct (LKs ltac:(congruence) xs FX') as (ys & YS). exists ys. apply split_rows_ok; [exact FX'|now intros _|congruence]. }
      destruct Q as (ys & ->). destruct FX as [|? x ? xs]; [congruence|]. now left.
    + intros ys NV FY. assert (NY : c_labels c <> []) by (intros Z; rewrite Z in FY; destruct FY; [congruence|assumption]).
      assert (FY' : Forall2 (fun s y => assoc String.eqb s (c_labels c) = Some y) v ys) by (clear - FY NL; induction FY; constructor; [now apply (NoDup_assoc String.eqb Seqb_spec')|assumption]).
      assert (FX : exists xs, Forall2 (fun s x => assoc String.eqb s (c_features c) = Some x) v xs).
      { destruct LF as [Z|Z]; [congruence|]. clear - FY Z NF. induction FY as [|s y v ys I _ (xs & IH)]; [exists []; constructor|]. apply in_map with (f := fst) in I. cbn [fst] in I. rewrite Z in I. apply in_map_iff in I. destruct I as ([s' x] & Q & I). cbn in Q. subst s'.
        exists (x :: xs). constructor; [now apply (NoDup_assoc String.eqb Seqb_spec')|exact IH]. }
      destruct FX as (xs & FX). apply A, SA. unfold split_arrays. cbn [fst snd]. rewrite (split_rows_ok _ _ v xs ys FX (fun _ => FY') (fun Z => False_ind _ (NY Z))).
      destruct FX as [|? x ? xs]; [congruence|]. destruct FY as [|? y ? ys]; [congruence|]. right. now left.
    + intros BAD. assert (Q : split_arrays c (k, v) = []).
      { unfold split_arrays. cbn [fst snd]. destruct BAD as [->|(s & S1 & S2)]; [reflexivity|]. rewrite (split_rows_none _ _ v s S1); [reflexivity|]. destruct (assoc String.eqb s (c_features c)) as [x|] eqn:AS; [|reflexivity]. exfalso. apply S2. apply assoc_In in AS. now apply in_map with (f := fst) in AS. }
      split; (match goal with |- ?t = None => destruct t as [z|] eqn:AZ end; [|reflexivity]; exfalso; apply A in AZ; apply (KEY k v _ I) in AZ; [rewrite Q in AZ; destruct AZ|cbn [fst]; tauto]).
Qed.
