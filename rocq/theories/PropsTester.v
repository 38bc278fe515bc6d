(** Property theorems C102: the model is tested on what it was trained with. *)
From Coq Require Import Lia Ascii Permutation Reals.
From Flocq Require Import Core.Core IEEE754.BinarySingleNaN.
From Verif Require Import Base BaseFacts Fp FpFacts Text Options PitchClass Py Output OptTables Main Dataset Ensemble Creator Tester.
From Verif Require Import MusicSpec TextSpec TextFacts DatasetSpec DatasetFacts EnsembleRun EnsembleScale CreatorSpec CreatorFacts CreatorLoop CreatorStore CreatorMain CreatorRead TrainFacts TesterFacts PropsCreator PropsTrain.
Open Scope Z_scope.

(** The folder holds the datasets of the trainer, all with the same tables and whole rows of finite numbers. *)
Definition trainer_folder (ps ts : list string) (cs : list creator) (listing : list (string * content)) (m : nat) : Prop :=
  m <> 0%nat /\ ps <> [] /\ ts <> [] /\ Forall listable ps /\ Forall listable ts /\ Forall (complete ps ts) cs /\ map c_name cs = trainer_names /\
  (exists all, Forall2 (fun c files => written c = Returns files) cs all /\ Permutation listing (concat all)) /\
  Forall (fun x => length x = (24 * m)%nat /\ Forall (fun v => is_finite v = true) x) (rows_of cs).
(** C102: every row that is tested is in the training data, with its label. *)
Theorem C102_tested_rows_are_trained : forall ps ts cs listing m, trainer_folder ps ts cs listing m ->
  exists X y F L, test_data listing = Returns (X, y) /\ training_data listing trainer_names = Returns (F, L) /\ X <> [] /\ length X = length y /\ length F = length L /\
    Forall2 (fun x k => In (x, k) (combine F L)) X y.
Proof.
  intros ps ts cs listing m (M & NP & NT & FP & FT & C & N & (all & W & P) & R).
  assert (AP : ForallOrdPairs (fun c c' => apart (c_name c) (c_name c')) cs).
  { destruct C68_names_of_the_trainer as (_ & A). rewrite <- N in A. clear - A. induction cs as [|c cs IH]; [constructor|]. cbn [map] in A. inversion A as [|? ? A1 A2]; subst. constructor; [|now apply IH]. exact (proj1 (Forall_map _ _ _) A1). }
  assert (NC : cs <> []) by (intros ->; discriminate N).
  destruct (trained ps ts cs all listing m NC M NP NT FP FT C AP W P R) as (Zs & SZ & LZ & T). rewrite N in T.
  assert (H := stored_together ps ts cs all listing NP NT FP FT C AP W P).
  assert (I : In tester_name (map c_name cs)) by (rewrite N; right; now left). apply in_map_iff in I as (c & EN & I). apply in_split in I as (before & after & E).
  assert (EL := as_many ps ts cs C).
  rewrite E in *. clear E cs N NC. assert (Cc : complete ps ts c) by (rewrite Forall_forall in C; apply C, in_elt).
  rewrite !map_app in H. cbn [map] in H. apply Forall2_app_inv_l in H as (l1 & l2 & H1 & H2 & EH). assert (HC : holds listing (ps, ts, false) tester_name (map snd (c_features c), map snd (c_labels c))).
  { assert (LE : length l1 = length (map (fun c => (map snd (c_features c), map snd (c_labels c))) before)) by (apply OptFacts.Forall2_length_eq in H1; rewrite <- H1, !map_length; reflexivity).
    inversion H2 as [|? p ? l2' HP _]; subst. assert (Q : p = (map snd (c_features c), map snd (c_labels c))).
    { assert (V := f_equal (fun l => nth (length l1) l p) EH). cbn beta in V. rewrite LE in V at 1. rewrite nth_middle in V. rewrite nth_middle in V. now symmetry. }
    rewrite <- EN, <- Q. exact HP. }
  assert (ER : rows_of (before ++ c :: after) = rows_of before ++ map snd (c_features c) ++ rows_of after) by (unfold rows_of; rewrite map_app; cbn [map]; rewrite concat_app; reflexivity).
  assert (EY : labels_of (before ++ c :: after) = labels_of before ++ map snd (c_labels c) ++ labels_of after) by (unfold labels_of; rewrite map_app; cbn [map]; rewrite concat_app; reflexivity).
  rewrite ER in SZ, R, EL. apply Forall2_app_inv_l in SZ as (Z1 & Z' & S1 & SZ & ->). apply Forall2_app_inv_l in SZ as (Z2 & Z3 & S2 & S3 & ->).
  assert (C1 : Forall (complete ps ts) before) by (apply Forall_app in C; apply C). assert (E1 := as_many ps ts before C1). assert (E2 : length (map snd (c_features c)) = length (map snd (c_labels c))) by (rewrite !map_length, <- (map_length fst (c_features c)), <- (map_length fst (c_labels c)); now rewrite (co_labels _ _ _ Cc)).
  assert (L1 := OptFacts.Forall2_length_eq _ _ _ S1). assert (L2 := OptFacts.Forall2_length_eq _ _ _ S2). assert (L3 := OptFacts.Forall2_length_eq _ _ _ S3).
  assert (NX : map snd (c_features c) <> []) by (intros X; apply (f_equal (@length _)) in X; rewrite E2, map_length in X; apply length_zero_iff_nil in X; now apply (co_some _ _ _ Cc)).
  assert (WX : Forall (fun x => length x = (24 * m)%nat) (map snd (c_features c))) by (apply Forall_app in R as (_ & R); apply Forall_app in R as (R & _); eapply Forall_impl; [|exact R]; intros a (QA & _); exact QA).
  assert (TD := tested listing (ps, ts, false) m _ _ Z2 M NX WX S2 HC).
  destruct (augmented_keeps m (Z1 ++ Z2 ++ Z3) (labels_of (before ++ c :: after)) LZ) as (F & L & D & LF & K); [rewrite EY, !app_length in *; lia|].
  exists Z2, (map snd (c_labels c)), F, L. split; [exact TD|]. split; [now rewrite T|]. split; [intros ->; destruct (map snd (c_features c)); [now apply NX|discriminate L2]|]. split; [congruence|]. split; [exact LF|].
  assert (SUB : forall x k, In (x, k) (combine Z2 (map snd (c_labels c))) -> In (x, k) (combine F L)).
  { intros x k J. apply K. rewrite EY, combine_app by congruence. apply in_or_app. right. rewrite combine_app by congruence. apply in_or_app. now left. }
  assert (LL : length Z2 = length (map snd (c_labels c))) by congruence. clear - SUB LL. revert SUB LL. generalize (map snd (c_labels c)) as y. induction Z2 as [|z Z2 IH]; intros [|k y] SUB LL; try discriminate LL; constructor.
  - apply SUB. now left.
  - apply IH; [|cbn in LL; lia]. intros x k' J. apply SUB. now right.
Qed.
Print Assumptions C102_tested_rows_are_trained.
(** The score is the share of right answers. *)
Theorem C102_score_is_the_share : forall predict listing X y, test_data listing = Returns (X, y) -> length X = length y -> X <> [] ->
  exists s, model_tester (Some predict) listing = Returns s /\ is_finite s = true /\ B2R s = rnd (IZR (Z.of_nat (length (filter (fun p => predict (fst p) =? snd p) (combine X y)))) / IZR (Z.of_nat (length X))).
Proof. intros predict listing X y T E N. unfold model_tester. rewrite T. cbn [pybind fst snd]. now apply accuracy_share. Qed.
Print Assumptions C102_score_is_the_share.
(** A model that knows its training data by heart gets the full score. *)
Theorem C102_knowing_by_heart : forall ps ts cs listing m predict F L, trainer_folder ps ts cs listing m -> training_data listing trainer_names = Returns (F, L) -> (forall x k, In (x, k) (combine F L) -> predict x = k) ->
  exists s, model_tester (Some predict) listing = Returns s /\ is_finite s = true /\ B2R s = 1%R.
Proof.
  intros ps ts cs listing m predict F L H T A. destruct (C102_tested_rows_are_trained ps ts cs listing m H) as (X & y & F' & L' & TD & T' & N & E & _ & S). rewrite T in T'. apply EnsembleFacts.returns_eq, pair_equal_spec in T' as (<- & <-).
  unfold model_tester. rewrite TD. cbn [pybind fst snd]. apply accuracy_one; [exact E|exact N|]. intros x k I. apply A. clear - S I. induction S as [|a b X y Q _ IH]; [destruct I|]. cbn [combine] in I. destruct I as [I|I]; [injection I as <- <-; exact Q|now apply IH].
Qed.
Print Assumptions C102_knowing_by_heart.
(** So the full score says nothing about other pieces: whatever is guessed for them, some model guesses this and has the full score. *)
Theorem C102_full_score_whatever_is_guessed : forall ps ts cs listing m F L (guess : list b64 -> Z), trainer_folder ps ts cs listing m -> training_data listing trainer_names = Returns (F, L) ->
  (forall x k k', In (x, k) (combine F L) -> In (x, k') (combine F L) -> k = k') ->
  exists predict s, (forall x, ~ In x F -> predict x = guess x) /\ model_tester (Some predict) listing = Returns s /\ is_finite s = true /\ B2R s = 1%R.
Proof.
  intros ps ts cs listing m F L guess H T C. destruct (C102_tested_rows_are_trained ps ts cs listing m H) as (_ & _ & F' & L' & _ & T' & _ & _ & EF & _). rewrite T in T'. apply EnsembleFacts.returns_eq, pair_equal_spec in T' as (<- & <-).
  destruct (C102_knowing_by_heart ps ts cs listing m (look_up guess F L) F L H T) as (s & A & B & D); [intros x k I; now apply look_up_in|]. exists (look_up guess F L), s. split; [|auto]. intros x N. now apply look_up_out.
Qed.
Print Assumptions C102_full_score_whatever_is_guessed.

(** Nine datasets of one piece in C major, whose first feature stands out. *)
Definition c_major_row : list b64 := rat64 1 1 :: repeat fzero 23.
Definition one_piece (name : string) : creator := mkCreator name name [] (Some []) [] [("one"%string, c_major_row)] [("one"%string, 0)] (Some (["sapp"], ["ktg_linear"], false)%string) true.
Definition nine_sets : list creator := map one_piece trainer_names.
Definition nine_files : list (string * content) := match pymap written nine_sets with Returns l => concat l | Raises _ => [] end.
Definition rows_eqb (a b : list b64) : bool := forallb (fun p => Beqb (fst p) (snd p)) (combine a b).
Definition consistent (l : list (list b64 * Z)) : bool := forallb (fun p => rows_eqb (fst p) (fst p) && forallb (fun q => implb (rows_eqb (fst p) (fst q)) (snd p =? snd q)) l) l.
Lemma consistent_ok l x k k' : consistent l = true -> In (x, k) l -> In (x, k') l -> k = k'.
Proof.
  intros C I J. unfold consistent in C. rewrite forallb_forall in C. specialize (C _ I). cbn [fst snd] in C. apply andb_true_iff in C as (R & C). rewrite forallb_forall in C. specialize (C _ J). cbn [fst snd] in C. rewrite R in C. cbn [implb] in C. now apply Z.eqb_eq.
Qed.
Lemma nine_folder : trainer_folder ["sapp"%string] ["ktg_linear"%string] nine_sets nine_files 1.
Proof.
  destruct sapp_listable as (LP & LT). destruct C68_names_of_the_trainer as (PN & _). split; [discriminate|]. split; [discriminate|]. split; [discriminate|]. split; [exact LP|]. split; [exact LT|]. split; [|split; [|split]].
  - unfold nine_sets. apply Forall_map. eapply Forall_impl; [|exact PN]. intros n P. constructor; [exact P|split; constructor|reflexivity|eexists; reflexivity|apply nodupb_spec; reflexivity|reflexivity|discriminate].
  - unfold nine_sets. rewrite map_map. apply map_id.
  - destruct (pymap written nine_sets) as [all|] eqn:E; [|discriminate E]. exists all. split; [now apply pymap_inv|]. unfold nine_files. rewrite E. apply Permutation_refl.
  - unfold rows_of, nine_sets. rewrite map_map. assert (X : length c_major_row = (24 * 1)%nat /\ Forall (fun v => is_finite v = true) c_major_row) by (split; [reflexivity|]; unfold c_major_row; constructor; [reflexivity|apply Forall_forall; intros v I; apply repeat_spec in I; now subst v]).
    clear PN. induction trainer_names as [|n l IH]; [constructor|]. cbn [map concat app one_piece c_features snd]. constructor; [exact X|exact IH].
Qed.
(** The hypotheses hold; a model that always answers D has no right answer. *)
Example C102_nine : trainer_folder ["sapp"%string] ["ktg_linear"%string] nine_sets nine_files 1 /\
  (exists F L, training_data nine_files trainer_names = Returns (F, L) /\ length F = 108%nat /\ forall x k k', In (x, k) (combine F L) -> In (x, k') (combine F L) -> k = k') /\
  match model_tester (Some (fun _ => 2)) nine_files, model_tester (Some (fun _ => 0)) nine_files with Returns s, Returns s' => Beqb s fzero && Beqb s' (rat64 1 1) | _, _ => false end = true /\ model_tester None nine_files = Raises SystemExit.
Proof.
  split; [exact nine_folder|]. split; [|split; [vm_compute; reflexivity|reflexivity]].
  assert (C : match training_data nine_files trainer_names with Returns (F, L) => Nat.eqb (length F) 108 && consistent (combine F L) | Raises _ => false end = true) by (vm_compute; reflexivity).
  destruct (training_data nine_files trainer_names) as [(F & L)|]; [|discriminate C]. apply andb_true_iff in C as (C1 & C2). exists F, L. split; [reflexivity|]. split; [now apply Nat.eqb_eq|]. intros x k k'. now apply consistent_ok.
Qed.
