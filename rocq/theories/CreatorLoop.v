(** Facts about class DatasetCreator: its constructor and the loop that computes features. *)
From Coq Require Import Lia Ascii.
From Flocq Require Import IEEE754.BinarySingleNaN.
From Verif Require Import Base BaseFacts Fp Text Py Output OptTables Main Dataset Ensemble Creator.
From Verif Require Import MusicSpec TextSpec TextFacts DatasetSpec LabelFacts EnsembleRun CreatorSpec CreatorFacts.
Open Scope Z_scope.

(** ** Paths *)
Lemma ends_with_app a c d : ends_with d (a ++ String c "") = (c =? d)%char.
Proof. induction a as [|x a IH]; [reflexivity|]. cbn [append ends_with]. destruct a as [|y a]; [exact IH|exact IH]. Qed.
Lemma last_char s : s = ""%string \/ exists d c, s = (d ++ String c "")%string.
Proof. induction s as [|c s IH]; [now left|]. right. destruct IH as [->|(d & e & ->)]; [now exists ""%string, c|now exists (String c d), e]. Qed.
Lemma ends_with_spec s : ends_with "/" s = true <-> exists d, s = (d ++ "/")%string.
Proof.
  destruct (last_char s) as [->|(d & c & ->)].
  - split; [discriminate|]. intros (d & E). destruct d; discriminate.
  - rewrite ends_with_app. split.
    + intros E. apply Ascii.eqb_eq in E. subst c. now exists d.
    + intros (d' & E). apply (f_equal string_rev) in E. rewrite !string_rev_app in E. cbn in E. injection E as -> _. reflexivity.
Qed.
Lemma located_path folder f p : located folder f p -> path_join (path_join folder "features") f = p.
Proof.
  unfold path_join at 2. intros [((d & D) & ->)|(N & E & ->)].
  - assert (X : ends_with "/" folder = true) by (apply ends_with_spec; now exists d). rewrite X, orb_true_r. unfold path_join.
    assert (Y : ends_with "/" (folder ++ "features") = false). { change (folder ++ "features")%string with (folder ++ ("feature" ++ String "s" ""))%string. rewrite <- app_string_assoc. now rewrite ends_with_app. }
    assert (Z : (folder ++ "features" =? "")%string = false) by (destruct folder; reflexivity). rewrite Y, Z. cbn [orb]. now rewrite !app_string_assoc.
  - assert (X : ends_with "/" folder = false) by (destruct (ends_with "/" folder) eqn:X; [|reflexivity]; apply ends_with_spec in X; destruct X as (d & X); now apply N in X).
    assert (Z : (folder =? "")%string = false) by now apply String.eqb_neq. rewrite X, Z. cbn [orb]. unfold path_join.
    assert (Y : ends_with "/" (folder ++ "/" ++ "features") = false). { change (folder ++ "/" ++ "features")%string with (folder ++ ("/feature" ++ String "s" ""))%string. rewrite <- app_string_assoc. now rewrite ends_with_app. }
    assert (W : (folder ++ "/" ++ "features" =? "")%string = false) by (destruct folder; reflexivity). rewrite Y, W. cbn [orb]. now rewrite !app_string_assoc.
Qed.
Lemma split_on_lacks c s : lacks c s -> split_on c s = [s].
Proof. induction s as [|d s IH]; intros L; [reflexivity|]. apply lacks_cons in L. destruct L as (N & L). cbn. destruct (Ascii.eqb_spec d c) as [->|_]; [congruence|]. now rewrite (IH L). Qed.
Lemma split_on_app c a b : exists l, split_on c (a ++ String c b) = l ++ split_on c b /\ l <> [].
Proof.
  induction a as [|d a (l & E & N)].
  - exists [""%string]. cbn. rewrite Ascii.eqb_refl. split; [reflexivity|discriminate].
  - cbn. destruct (d =? c)%char; [exists (""%string :: l); rewrite E; split; [reflexivity|discriminate]|]. rewrite E. destruct l as [|p l]; [congruence|]. exists (String d p :: l). split; [reflexivity|discriminate].
Qed.
Lemma last_name_split dir n : lacks "/" n -> dir = ""%string \/ (exists d, dir = (d ++ "/")%string) -> last (split_on "/" (dir ++ n)) ""%string = n.
Proof.
  intros L [->|(d & ->)]; [cbn [append]; now rewrite split_on_lacks|]. rewrite app_string_assoc. cbn [append].
  destruct (split_on_app "/" d n) as (l & -> & _). rewrite (split_on_lacks "/" n L). apply last_last.
Qed.
Lemma ends_lacks n : lacks "/" n -> ends_with "/" n = false.
Proof. intros L. destruct (ends_with "/" n) eqn:E; [|reflexivity]. apply ends_with_spec in E. destruct E as (d & ->). exfalso. apply L. rewrite chars_app. apply in_or_app. right. now left. Qed.
Lemma dataset_name_ok path n : last_name path n -> n <> ""%string -> dataset_name path = n.
Proof.
  intros (L & dir & D & P) N. unfold dataset_name. destruct P as [-> | ->].
  - assert (X : ends_with "/" (dir ++ n) = false).
    { destruct (last_char n) as [E|(m & c & ->)]; [congruence|]. rewrite <- app_string_assoc, ends_with_app. destruct (Ascii.eqb_spec c "/") as [->|]; [|reflexivity]. exfalso. apply L. rewrite chars_app. apply in_or_app. right. now left. }
    rewrite X. now apply last_name_split.
  - assert (X : ends_with "/" (dir ++ n ++ "/") = true) by (rewrite <- app_string_assoc; now rewrite ends_with_app). rewrite X. unfold drop_last. rewrite <- app_string_assoc at 2.
    replace (String.length (dir ++ n ++ "/") - 1)%nat with (String.length (dir ++ n)) by (rewrite !length_app; cbn; lia). rewrite substring_0_app. now apply last_name_split.
Qed.

(** ** Constructor *)
Lemma new_creator_ok path d names stems : f_features d = Some names -> names <> [] -> Forall2 music_file names stems ->
  new_creator path (Some d) = Returns (mkCreator path (dataset_name path) (combine names stems) (f_annotations d) (match f_splits d with Some l => read_splits l | None => [] end) [] [] None false).
Proof.
  intros F N M. unfold new_creator. rewrite F, (feature_files_ok names stems M). cbn [pybind]. destruct M as [|f s names stems H M]; [congruence|reflexivity].
Qed.
Lemma pymap_feature_inv names files : pymap feature_file names = Returns files -> exists stems, files = combine names stems /\ Forall2 music_file names stems.
Proof.
  revert files. induction names as [|f names IH]; intros files H; cbn in H; [injection H as <-; exists []; split; [reflexivity|constructor]|].
  destruct (feature_file f) as [p|] eqn:E; [|discriminate]. cbn in H. destruct (pymap feature_file names) as [l|] eqn:P; [|discriminate]. cbn in H. injection H as <-.
  destruct (IH l eq_refl) as (stems & -> & M). apply feature_file_inv in E. destruct E as (s & -> & E). exists (s :: stems). split; [reflexivity|now constructor].
Qed.
Lemma new_creator_inv path disk c : new_creator path disk = Returns c -> exists d names stems, disk = Some d /\ f_features d = Some names /\ names <> [] /\ Forall2 music_file names stems /\
  c = mkCreator path (dataset_name path) (combine names stems) (f_annotations d) (match f_splits d with Some l => read_splits l | None => [] end) [] [] None false.
Proof.
  unfold new_creator. destruct disk as [d|]; [|discriminate]. destruct (f_features d) as [names|] eqn:F; [|discriminate]. destruct (pymap feature_file names) as [files|] eqn:P; [|discriminate]. cbn [pybind].
  apply pymap_feature_inv in P. destruct P as (stems & -> & M). destruct (combine names stems) as [|x l] eqn:C; [discriminate|]. injection 1 as <-. exists d, names, stems. split; [reflexivity|]. split; [exact F|].
  split; [intros ->; discriminate|]. split; [exact M|]. now rewrite C.
Qed.

(** ** Evaluating the same ensemble again *)
(** What the ensemble answers for a file when nothing was evaluated before. *)
Definition alone (w : world) (dk dt : dict) (ps ts : list string) (mixed : bool) (file : string) : option (py (list (list b64))) :=
  snd (ens_evaluate w dk dt (ensembler ps ts) file mixed).
Lemma evaluate_first w dk dt ps ts mixed file : ens_evaluate w dk dt (ensembler ps ts) file mixed =
  (fst (get_ensemble dk (ensembler ps ts) mixed), snd (get_ensemble dk (ensembler ps ts) mixed), alone w dk dt ps ts mixed file).
Proof. unfold alone, ens_evaluate. change (e_ensemble (ensembler ps ts)) with (@None (list (option string * string))). cbv iota. destruct (get_ensemble dk (ensembler ps ts) mixed) as [dk' e']. reflexivity. Qed.
Lemma evaluate_next w dk dt ps ts mixed file : ens_evaluate w (fst (get_ensemble dk (ensembler ps ts) mixed)) dt (snd (get_ensemble dk (ensembler ps ts) mixed)) file mixed =
  (fst (get_ensemble dk (ensembler ps ts) mixed), snd (get_ensemble dk (ensembler ps ts) mixed), alone w dk dt ps ts mixed file).
Proof.
  unfold alone, ens_evaluate. change (e_ensemble (ensembler ps ts)) with (@None (list (option string * string))). cbv iota.
  assert (X : exists l, e_ensemble (snd (get_ensemble dk (ensembler ps ts) mixed)) = Some l). { unfold get_ensemble. destruct mixed; [destruct (mix_all _ _)|]; eexists; reflexivity. }
  destruct X as (l & X). rewrite X. destruct (get_ensemble dk (ensembler ps ts) mixed) as [dk' e']. cbn [fst snd] in *. now rewrite X.
Qed.

(** ** Entries under their names *)
Definition record {V} (l m : list (string * V)) : list (string * V) := fold_left (fun m kv => assign String.eqb (fst kv) (snd kv) m) l m.
Lemma assign_new {V} k (v : V) m : ~ In k (map fst m) -> assign String.eqb k v m = m ++ [(k, v)].
Proof.
  induction m as [|[k' v'] m IH]; intros N; [reflexivity|]. cbn. destruct (String.eqb_spec k k') as [->|D]; [exfalso; apply N; now left|]. rewrite IH; [reflexivity|]. intros I. apply N. now right.
Qed.
Lemma record_new {V} (l m : list (string * V)) : NoDup (map fst m ++ map fst l) -> record l m = m ++ l.
Proof.
  revert m. induction l as [|[k v] l IH]; intros m N; [now rewrite app_nil_r|]. cbn [record fold_left fst snd]. cbn [map fst] in N.
  rewrite assign_new by (intros I; apply NoDup_remove_2 in N; apply N; apply in_or_app; now left). unfold record in IH. rewrite IH; [now rewrite <- app_assoc|]. rewrite map_app, <- app_assoc. exact N.
Qed.
Lemma assign_same_keys {V V'} k (v : V) (v' : V') m m' : map fst m = map fst m' -> map fst (assign String.eqb k v m) = map fst (assign String.eqb k v' m').
Proof.
  revert m'. induction m as [|[a x] m IH]; intros [|[b y] m'] E; try discriminate; [reflexivity|]. cbn in E. injection E as -> E. cbn. destruct (k =? b)%string; cbn; [now rewrite E|]. now rewrite (IH m' E).
Qed.
Lemma record_same_keys {V V'} (l : list (string * V)) (l' : list (string * V')) m m' : map fst l = map fst l' -> map fst m = map fst m' -> map fst (record l m) = map fst (record l' m').
Proof.
  revert l' m m'. induction l as [|[a x] l IH]; intros [|[b y] l'] m m' E E'; try discriminate; [exact E'|]. cbn in E. injection E as -> E. cbn [record fold_left fst snd]. apply IH; [exact E|]. now apply assign_same_keys.
Qed.
Lemma record_keys {V} (l m : list (string * V)) k : In k (map fst (record l m)) <-> In k (map fst l) \/ In k (map fst m).
Proof.
  revert m. induction l as [|[a x] l IH]; intros m; [cbn; tauto|]. cbn [record fold_left fst snd map]. unfold record in IH. rewrite IH. rewrite (assign_keys String.eqb Seqb_spec'). cbn. intuition congruence.
Qed.
Lemma record_NoDup {V} (l m : list (string * V)) : NoDup (map fst m) -> NoDup (map fst (record l m)).
Proof. revert m. induction l as [|[a x] l IH]; intros m N; [exact N|]. cbn [record fold_left fst snd]. apply IH. now apply (assign_NoDup String.eqb Seqb_spec'). Qed.
Lemma record_other {V} (l m : list (string * V)) k : ~ In k (map fst l) -> assoc String.eqb k (record l m) = assoc String.eqb k m.
Proof.
  revert m. induction l as [|[a x] l IH]; intros m N; [reflexivity|]. cbn [record fold_left fst snd]. unfold record in IH. rewrite IH by (intros I; apply N; now right).
  apply (assoc_assign_other String.eqb Seqb_spec'). intros ->. apply N. now left.
Qed.
Lemma record_last {V} (l r m : list (string * V)) k v : ~ In k (map fst r) -> assoc String.eqb k (record (l ++ (k, v) :: r) m) = Some v.
Proof.
  intros N. unfold record. rewrite fold_left_app. cbn [fold_left fst snd]. change (assoc String.eqb k (record r (assign String.eqb k v (record l m))) = Some v). rewrite record_other by exact N. apply (assoc_assign_same String.eqb Seqb_spec').
Qed.

(** ** The loop *)
Section Loop.
  Context (w : world) (dt : dict) (folder : string) (dk0 : dict) (ps ts : list string) (mixed : bool).
  Notation dk1 := (fst (get_ensemble dk0 (ensembler ps ts) mixed)).
  Notation e1 := (snd (get_ensemble dk0 (ensembler ps ts) mixed)).
  Definition path_of (f : string) : string := path_join (path_join folder "features") f.
  Definition ready (dk : dict) (e : ens) : Prop := dk = dk0 /\ e = ensembler ps ts \/ dk = dk1 /\ e = e1.
  Definition featured (fs : string * string) (x : list b64) : Prop := exists rows, alone w dk0 dt ps ts mixed (path_of (fst fs)) = Some (Returns rows) /\ x = concat rows.
  Definition marked (texts : list (string * string)) (fs : string * string) (k : Z) : Prop := exists text, assoc String.eqb (snd fs ++ ".key")%string texts = Some text /\ annotated text k.
  Lemma ready_next dk e file : ready dk e -> ens_evaluate w dk dt e file mixed = (dk1, e1, alone w dk0 dt ps ts mixed file).
  Proof. intros [(-> & ->)|(-> & ->)]; [apply evaluate_first|apply evaluate_next]. Qed.
  Lemma loop_inv annot files dk e F L dk' F' L' b : ready dk e -> compute_loop w dt folder annot mixed files dk e F L = Some (Returns (dk', F', L', b)) ->
    if b then exists rows, Forall2 featured files rows /\ F' = record (combine (map snd files) rows) F /\
      match annot with None => L' = L | Some texts => exists ks, Forall2 (marked texts) files ks /\ L' = record (combine (map snd files) ks) L end
    else exists texts fs, annot = Some texts /\ In fs files /\ assoc String.eqb (snd fs ++ ".key")%string texts = None.
  Proof.
    revert dk e F L. induction files as [|[f stem] files IH]; intros dk e F L R H.
    - cbn in H. injection H as <- <- <- <-. exists []. split; [constructor|]. split; [reflexivity|]. destruct annot; [exists []; split; [constructor|reflexivity]|reflexivity].
    - cbn [compute_loop] in H. change (path_join (path_join folder "features") f) with (path_of f) in H. rewrite (ready_next dk e (path_of f) R) in H.
      destruct (alone w dk0 dt ps ts mixed (path_of f)) as [[rows|]|] eqn:A; try discriminate.
      assert (R' : ready dk1 e1) by now right. assert (FX : featured (f, stem) (concat rows)) by (exists rows; split; [exact A|reflexivity]).
      destruct annot as [texts|].
      + destruct (assoc String.eqb (stem ++ ".key")%string texts) as [text|] eqn:T.
        * destruct (readlines false text) as [|line rest] eqn:RL; [discriminate|]. specialize (IH _ _ _ _ R' H). destruct b.
          -- destruct IH as (xs & FF & -> & ks & MM & ->). exists (concat rows :: xs). split; [now constructor|]. split; [reflexivity|]. exists (parse_label line :: ks). split; [|reflexivity].
             constructor; [|exact MM]. exists text. split; [exact T|]. exact (label_annotated text line rest RL).
          -- destruct IH as (texts' & fs & E & I & N). exists texts', fs. split; [exact E|]. split; [now right|exact N].
        * injection H as <- <- <- <-. exists texts, (f, stem). split; [reflexivity|]. split; [now left|exact T].
      + specialize (IH _ _ _ _ R' H). destruct b.
        * destruct IH as (xs & FF & -> & ->). exists (concat rows :: xs). split; [now constructor|]. split; reflexivity.
        * destruct IH as (texts' & fs & E & _). discriminate.
  Qed.
  Lemma loop_ok annot files dk e F L rows ks : ready dk e -> files <> [] -> Forall2 featured files rows ->
    match annot with None => ks = [] | Some texts => Forall2 (marked texts) files ks end ->
    compute_loop w dt folder annot mixed files dk e F L = Some (Returns (dk1, record (combine (map snd files) rows) F, record (combine (map snd files) ks) L, true)).
  Proof.
    assert (ALL : forall files rows ks F L, Forall2 featured files rows -> match annot with None => ks = [] | Some texts => Forall2 (marked texts) files ks end ->
      compute_loop w dt folder annot mixed files dk1 e1 F L = Some (Returns (dk1, record (combine (map snd files) rows) F, record (combine (map snd files) ks) L, true))).
    { clear. induction files as [|[f stem] files IH]; intros rows ks F L FF MM; [inversion FF; subst; reflexivity|].
      inversion FF as [|? x ? xs (r & A & ->) FF']; subst. cbn [compute_loop]. change (path_join (path_join folder "features") f) with (path_of f). rewrite ready_next by now right. cbn [fst] in A. rewrite A.
      destruct annot as [texts|].
      - inversion MM as [|? k ? ks' (text & T & AN) MM']; subst. cbn [snd] in T. rewrite T. destruct (annotated_label text k AN) as (line & rest & -> & <-). rewrite (IH xs ks' _ _ FF' MM'). reflexivity.
      - subst ks. rewrite (IH xs [] _ _ FF' eq_refl). rewrite !combine_nil. reflexivity. }
    intros R N FF MM. destruct files as [|[f stem] files]; [congruence|]. clear N.
    inversion FF as [|? x ? xs (r & A & ->) FF']; subst. cbn [compute_loop]. change (path_join (path_join folder "features") f) with (path_of f). rewrite ready_next by exact R. cbn [fst] in A. rewrite A.
    destruct annot as [texts|].
    - inversion MM as [|? k ? ks' (text & T & AN) MM']; subst. cbn [snd] in T. rewrite T. destruct (annotated_label text k AN) as (line & rest & -> & <-). rewrite (ALL files xs ks' _ _ FF' MM'). reflexivity.
    - subst ks. rewrite (ALL files xs [] _ _ FF' eq_refl). rewrite !combine_nil. reflexivity.
  Qed.
End Loop.
