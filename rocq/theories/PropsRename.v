(** Property theorems C97: the script that numbers the files of a dataset. *)
From Coq Require Import Ascii String Lia.
From Verif Require Import Base BaseFacts Text TextSpec TextFacts Creator CreatorFacts Rename RenameSpec RenameFacts.
Open Scope string_scope.
Open Scope Z_scope.

(** The names are the numbers in four digits, or in more if they need more. *)
Theorem C97_numbers : forall i s, 0 <= i -> (numbers i s <-> s = id_text i).
Proof. intros i s H. split; [now intros X; apply numbers_only in X|intros ->; now apply id_numbers]. Qed.
Print Assumptions C97_numbers.
(** If no file is named like the number of a file listed not after it, every feature and its annotation have the same number afterwards, and there is no other feature. *)
Theorem C97_pairs_are_kept : forall T (features annotations : string -> option T) fs, holds features fs -> Forall (fun f => lacks "." (extension f)) fs -> NoDup (map stem fs) ->
  (forall i j f, (i <= j)%nat -> nth_error fs j = Some f -> ~ numbers (Z.of_nat i) (stem f)) ->
  (forall i s, (i < length fs)%nat -> numbers (Z.of_nat i) s -> annotations (key_file s) <> None -> In s (map stem fs)) ->
  exists gs features' annotations', shorten_names (map full fs) (features, annotations) = (features', annotations') /\ renumbered fs gs /\ holds features' gs /\
    forall i f g, nth_error fs i = Some f -> nth_error gs i = Some g -> features' (full g) = features (full f) /\ annotations' (key_file (stem g)) = annotations (key_file (stem f)).
Proof.
  intros T F A fs H D NS N NK. exists (renamed_from 0 fs).
  assert (P : apart 0 fs) by (intros a b f L X E; apply (N a b f L X); rewrite E, Z.add_0_l; apply id_numbers; lia).
  assert (K := shorten_kept F A fs H D NS P (fun i L X => NK i _ L (id_numbers _ (Zle_0_nat i)) X)). revert K. destruct (shorten_names (map full fs) (F, A)) as (F', A'). intros (K1 & K2). exists F', A'. split; [reflexivity|].
  split; [apply renamed_renumbers|]. split; [exact K1|]. intros i f g X Y. rewrite (renamed_nth fs 0 i f X) in Y. injection Y as <-. exact (K2 i f X).
Qed.
Print Assumptions C97_pairs_are_kept.
(** A feature that has the name that a file not after it gets is lost, unless there is a copy of it. *)
Theorem C97_file_is_lost : forall T (features annotations : string -> option T) fs i j e f v, holds features fs -> Forall (fun f => lacks "." (extension f)) fs ->
  (i <= j)%nat -> nth_error fs i = Some e -> nth_error fs j = Some f -> numbers (Z.of_nat i) (stem f) -> extension f = extension e ->
  features (full f) = Some v -> (forall n, features n = Some v -> n = full f) -> forall n, fst (shorten_names (map full fs) (features, annotations)) n <> Some v.
Proof.
  intros T F A fs i j e f v H D L I J N X V U. apply (shorten_lost F A fs i j e f v H D L I J); try assumption. apply numbers_only in N as (_ & N). unfold full, renamed. cbn [stem extension]. now rewrite N, X.
Qed.
Print Assumptions C97_file_is_lost.
(** If every file has its number already, all features and all their annotations are deleted. *)
Theorem C97_again_deletes_everything : forall T (features annotations : string -> option T) fs, holds features fs -> Forall (fun f => lacks "." (extension f)) fs -> renumbered fs fs ->
  exists features' annotations', shorten_names (map full fs) (features, annotations) = (features', annotations') /\ (forall n, features' n = None) /\ forall f, In f fs -> annotations' (key_file (stem f)) = None.
Proof.
  intros T F A fs H D (_ & R). assert (E : fs = renamed_from 0 fs) by (apply renumbered_renamed; [lia|reflexivity|exact R]). assert (K := fun X => shorten_again F A fs X D). rewrite <- E in K. specialize (K H).
  revert K. destruct (shorten_names (map full fs) (F, A)) as (F', A'). intros K. exists F', A'. split; [reflexivity|exact K].
Qed.
Print Assumptions C97_again_deletes_everything.
(** So running the script a second time deletes the dataset. *)
Theorem C97_second_run_deletes_everything : forall T (features annotations : string -> option T) fs gs, holds features fs -> Forall (fun f => lacks "." (extension f)) fs -> NoDup (map stem fs) ->
  (forall i j f, (i <= j)%nat -> nth_error fs j = Some f -> ~ numbers (Z.of_nat i) (stem f)) ->
  (forall i s, (i < length fs)%nat -> numbers (Z.of_nat i) s -> annotations (key_file s) <> None -> In s (map stem fs)) -> renumbered fs gs ->
  exists features' annotations', shorten_names (map full gs) (shorten_names (map full fs) (features, annotations)) = (features', annotations') /\ (forall n, features' n = None) /\ forall g, In g gs -> annotations' (key_file (stem g)) = None.
Proof.
  intros T F A fs gs H D NS N NK R. destruct (C97_pairs_are_kept T F A fs H D NS N NK) as (gs' & F1 & A1 & E & R' & H' & _). rewrite E.
  assert (G : forall hs, renumbered fs hs -> hs = renamed_from 0 fs) by (intros hs (X & Y); apply renumbered_renamed; [lia|exact X|exact Y]). rewrite (G gs R). rewrite (G gs' R') in H'.
  assert (RR : renumbered (renamed_from 0 fs) (renamed_from 0 fs)) by (split; [reflexivity|exact (proj2 (renamed_renumbers fs))]).
  exact (C97_again_deletes_everything T F1 A1 (renamed_from 0 fs) H' (renamed_dotted fs 0 D) RR).
Qed.
Print Assumptions C97_second_run_deletes_everything.
(** Two features with one stem share an annotation; the second is left without. *)
Theorem C97_shared_annotation_refuted : ~ forall T (features annotations : string -> option T) fs, holds features fs -> Forall (fun f => lacks "." (extension f)) fs ->
  (forall i j f, (i <= j)%nat -> nth_error fs j = Some f -> ~ numbers (Z.of_nat i) (stem f)) -> (forall i s, numbers i s -> annotations (key_file s) = None) ->
  forall i f s, nth_error fs i = Some f -> numbers (Z.of_nat i) s -> snd (shorten_names (map full fs) (features, annotations)) (key_file s) = annotations (key_file (stem f)).
Proof.
  intros X. set (fs := [mkFile "a" "csv"; mkFile "a" "mid"]). set (F := fun n : string => if (n =? "a.csv")%string || (n =? "a.mid")%string then Some 1 else None).
  specialize (X Z F (fun n => if (n =? "a.key")%string then Some 2 else None) fs).
  assert (Y : None = Some 2); [|discriminate Y]. refine (X _ _ _ _ 1%nat (mkFile "a" "mid") "0001" eq_refl _).
  - split; [repeat constructor; cbn; intuition discriminate|]. intros n. unfold F. cbn [map fs full stem extension In]. cbn [append]. destruct (String.eqb_spec n "a.csv") as [->|E]; cbn [orb]; [split; [now left|discriminate]|]. destruct (String.eqb_spec n "a.mid") as [->|E']; split; [right; now left|discriminate|congruence|]. intros [Q|[Q|[]]]; [now destruct (E (eq_sym Q))|now destruct (E' (eq_sym Q))].
  - repeat constructor; intros Y; cbn in Y; intuition discriminate.
  - intros i [|[|[|j]]] f _ Y; try discriminate Y; injection Y as <-; intros (V & _); discriminate V.
  - intros i s (V & _). destruct (String.eqb_spec (key_file s) "a.key") as [E|E]; [|reflexivity]. change "a.key" with (key_file "a") in E. apply key_inj in E as ->. discriminate V.
  - split; [reflexivity|now left].
Qed.
Print Assumptions C97_shared_annotation_refuted.
(** Three files, of which the first has the name that the second gets. *)
Example C97_a_dataset : let '(F, A) := shorten_names ["0001.csv"; "b.csv"; "c.d.mid"]
    (fun n => if (n =? "0001.csv")%string then Some 1 else if (n =? "b.csv")%string then Some 2 else if (n =? "c.d.mid")%string then Some 3 else None, fun n => if (n =? "c.d.key")%string then Some 4 else if (n =? "0001.key")%string then Some 5 else None) in
  map F ["0000.csv"; "0001.csv"; "0002.mid"; "b.csv"; "c.d.mid"] = [Some 1; Some 2; Some 3; None; None] /\ map A ["0000.key"; "0001.key"; "0002.key"] = [Some 5; None; Some 4] /\ id_text 12345 = "12345".
Proof. vm_compute. auto. Qed.
