(** Property C68: the training data. *)
From Coq Require Import Lia Ascii Permutation.
From Flocq Require Import IEEE754.BinarySingleNaN.
From Verif Require Import Base BaseFacts Fp FpFacts Text Options PitchClass Py Output OptTables Main Dataset Ensemble Creator.
From Verif Require Import MusicSpec TextSpec TextFacts DatasetSpec DatasetFacts EnsembleRun EnsembleScale CreatorSpec CreatorFacts CreatorLoop CreatorStore CreatorMain CreatorRead TrainFacts PropsCreator.
Open Scope Z_scope.

Theorem C68_datasets_in_one_folder : forall ps ts cs all listing, ps <> [] -> ts <> [] -> Forall listable ps -> Forall listable ts -> Forall (complete ps ts) cs ->
  ForallOrdPairs (fun c c' => apart (c_name c) (c_name c')) cs -> Forall2 (fun c files => written c = Returns files) cs all -> Permutation listing (concat all) ->
  Forall2 (holds listing (ps, ts, false)) (map c_name cs) (map (fun c => (map snd (c_features c), map snd (c_labels c))) cs).
Proof. exact stored_together. Qed.
Print Assumptions C68_datasets_in_one_folder.
Lemma scalable m x : length x = (24 * m)%nat -> Forall (fun v => is_finite v = true) x -> exists z, feature_scaling1 x = Returns z.
Proof.
  intros L F. destruct (cut_24 m x L) as (rows & -> & _ & B). assert (R : exists zs, Forall2 (fun r z => min_max_scale r = Returns z) rows zs).
  { clear L. induction B as [|r rows Lr _ IH]; [now exists []|]. cbn [concat] in F. apply Forall_app in F. destruct F as (F1 & F2). destruct (IH F2) as (zs & Q). unfold min_max_scale at 1.
    destruct r as [|x l]; [discriminate|]. assert (A : forallb is_finite (x :: l) = true) by (apply forallb_forall; now rewrite Forall_forall in F1). eexists. constructor; [|exact Q]. unfold min_max_scale. rewrite A. cbn [negb]. reflexivity. }
  destruct R as (zs & R). eexists. exact (scaling_rows rows zs B R).
Qed.
Lemma all_scalable m X : Forall (fun x => length x = (24 * m)%nat /\ Forall (fun v => is_finite v = true) x) X -> exists Z, Forall2 (fun x z => feature_scaling1 x = Returns z) X Z.
Proof. induction 1 as [|x X (L & F) _ (Z & IH)]; [now exists []|]. destruct (scalable m x L F) as (z & E). exists (z :: Z). now constructor. Qed.
Definition rows_of (cs : list creator) : list (list b64) := concat (map (fun c => map snd (c_features c)) cs).
Definition labels_of (cs : list creator) : list Z := concat (map (fun c => map snd (c_labels c)) cs).
Lemma rows_eq cs : concat (map fst (map (fun c => (map snd (c_features c), map snd (c_labels c))) cs)) = rows_of cs.
Proof. unfold rows_of. now rewrite map_map. Qed.
Lemma labels_eq cs : concat (map snd (map (fun c => (map snd (c_features c), map snd (c_labels c))) cs)) = labels_of cs.
Proof. unfold labels_of. now rewrite map_map. Qed.
Lemma as_many ps ts cs : Forall (complete ps ts) cs -> length (rows_of cs) = length (labels_of cs).
Proof.
  induction 1 as [|c cs C _ IH]; [reflexivity|]. unfold rows_of, labels_of in *. cbn [map concat]. rewrite !app_length, IH, !map_length, <- (map_length fst (c_features c)), <- (map_length fst (c_labels c)). now rewrite (co_labels _ _ _ C).
Qed.
Lemma some_rows ps ts cs : cs <> [] -> Forall (complete ps ts) cs -> rows_of cs <> [].
Proof.
  intros N F. destruct F as [|c cs C _]; [congruence|]. unfold rows_of. cbn [map concat]. intros E. apply app_eq_nil in E. destruct E as (E & _). apply map_eq_nil in E. pose proof (co_labels _ _ _ C) as L. rewrite E in L. apply map_eq_nil in L. now apply (co_some _ _ _ C).
Qed.
Lemma trained ps ts cs all listing m : cs <> [] -> m <> 0%nat -> ps <> [] -> ts <> [] -> Forall listable ps -> Forall listable ts -> Forall (complete ps ts) cs ->
  ForallOrdPairs (fun c c' => apart (c_name c) (c_name c')) cs -> Forall2 (fun c files => written c = Returns files) cs all -> Permutation listing (concat all) ->
  Forall (fun x => length x = (24 * m)%nat /\ Forall (fun v => is_finite v = true) x) (rows_of cs) ->
  exists Z, Forall2 (fun x z => feature_scaling1 x = Returns z) (rows_of cs) Z /\ Forall (fun z => length z = (24 * m)%nat) Z /\ training_data listing (map c_name cs) = data_augmentation Z (labels_of cs).
Proof.
  intros NC M NP NT FP FT C AP W P R. pose proof (stored_together ps ts cs all listing NP NT FP FT C AP W P) as H. destruct (all_scalable m _ R) as (Z & SZ). exists Z. split; [exact SZ|].
  assert (W2 : Forall (fun x => length x = (24 * m)%nat) (rows_of cs)) by (apply Forall_impl with (2 := R); tauto). destruct (all_blocks m _ Z W2 SZ) as (_ & _ & _ & _ & _ & _ & LZ). split; [exact LZ|].
  rewrite <- (labels_eq cs). apply (training_ok listing (ps, ts, false) m _ _ Z); [|exact M|exact H| | |]; rewrite ?rows_eq; [|exact W2|exact (some_rows ps ts cs NC C)|exact SZ]. intros E. now apply map_eq_nil in E.
Qed.
Theorem C68_training_data : forall ps ts cs all listing m, cs <> [] -> m <> 0%nat -> ps <> [] -> ts <> [] -> Forall listable ps -> Forall listable ts -> Forall (complete ps ts) cs ->
  ForallOrdPairs (fun c c' => apart (c_name c) (c_name c')) cs -> Forall2 (fun c files => written c = Returns files) cs all -> Permutation listing (concat all) ->
  Forall (fun x => length x = (24 * m)%nat /\ Forall (fun v => is_finite v = true) x) (rows_of cs) -> Forall is_key (labels_of cs) ->
  exists Z F L, Forall2 (fun x z => feature_scaling1 x = Returns z) (rows_of cs) Z /\ training_data listing (map c_name cs) = Returns (F, L) /\
    length F = (12 * length (rows_of cs))%nat /\ length L = (12 * length (rows_of cs))%nat /\ Forall is_key L /\
    forall i t, (i < length (rows_of cs))%nat -> (t < 12)%nat ->
      nth (12 * i + t) L (-1) = transpose_key (Z.of_nat t) (nth i (labels_of cs) 0) /\ length (nth (12 * i + t) F []) = (24 * m)%nat /\
      forall b k d, (b < m)%nat -> is_key k -> nth (24 * b + Z.to_nat (transpose_key (Z.of_nat t) k)) (nth (12 * i + t) F []) d = nth (24 * b + Z.to_nat k) (nth i Z []) d.
Proof.
  intros ps ts cs all listing m NC M NP NT FP FT C AP W P R K. destruct (trained ps ts cs all listing m NC M NP NT FP FT C AP W P R) as (Z & SZ & LZ & T).
  pose proof (OptFacts.Forall2_length_eq _ _ _ SZ) as EL. pose proof (as_many ps ts cs C) as EN. destruct (C50_augmentation_proof m Z (labels_of cs) ltac:(congruence) LZ K) as (F & L & D & LF & LL & Q). exists Z, F, L. rewrite EL. split; [exact SZ|]. split; [now rewrite T|]. split; [exact LF|]. split; [exact LL|]. split; [|exact Q].
  apply Forall_forall. intros k I. apply (In_nth _ _ (-1)) in I. destruct I as (j & J & <-). rewrite LL in J. pose proof (Nat.div_mod j 12 ltac:(discriminate)) as DM. pose proof (Nat.mod_upper_bound j 12 ltac:(discriminate)) as MB.
  assert (JI : (j / 12 < length Z)%nat) by (apply Nat.div_lt_upper_bound; [discriminate|exact J]). destruct (Q (j / 12)%nat (j mod 12)%nat JI MB) as (E & _). rewrite <- DM in E. rewrite E.
  assert (KI : is_key (nth (j / 12) (labels_of cs) 0)) by (rewrite Forall_forall in K; apply K, nth_In; congruence || (rewrite <- EN, <- EL; exact JI) || (rewrite <- EN; congruence)). now apply KeyFacts.transpose_key_range.
Qed.
Print Assumptions C68_training_data.
Theorem C68_scaling_after_transposing : forall m X Z y F L, Forall (fun x => length x = (24 * m)%nat) X -> Forall2 (fun x z => feature_scaling1 x = Returns z) X Z -> data_augmentation X y = Returns (F, L) ->
  exists G, data_augmentation Z y = Returns (G, L) /\ Forall2 (fun x z => feature_scaling1 x = Returns z) F G.
Proof. exact augmented_scaled. Qed.
Print Assumptions C68_scaling_after_transposing.
Theorem C68_other_tables : forall dir e n d0 good parts d rest e', Forall2 (holds dir e) (d0 :: good) parts -> Forall (fun x => length x = n) (concat (map fst parts)) ->
  (exists ds, read_dataset d dir = Returns ds /\ ds_ensemble ds = Some e') -> e' <> e -> training_data dir (d0 :: good ++ d :: rest) = Raises SystemExit.
Proof. exact gather_differs. Qed.
Print Assumptions C68_other_tables.
Lemma plain_check n : forallb (fun p => forallb (fun i => negb (lower_string (substring i (String.length p) n) =? p)%string) (seq 0 (S (String.length n)))) ["_features"; "_annotations"]%string = true -> plain_name n.
Proof. intros C. cbn [forallb] in C. rewrite andb_true_r in C. apply andb_true_iff in C. destruct C. split; now apply never_check. Qed.
Lemma apart_check a b : String.prefix a b || String.prefix b a = false -> apart a b.
Proof. intros H r. apply orb_false_iff in H. destruct H as (H1 & H2). split; intros ->; [now rewrite prefix_own in H1|now rewrite prefix_own in H2]. Qed.
Fixpoint all_apart (l : list string) : bool := match l with [] => true | a :: l' => forallb (fun b => negb (String.prefix a b || String.prefix b a)) l' && all_apart l' end.
Lemma all_apart_ok l : all_apart l = true -> ForallOrdPairs apart l.
Proof.
  induction l as [|a l IH]; intros H; [constructor|]. cbn [all_apart] in H. apply andb_true_iff in H. destruct H as (H1 & H2). constructor; [|now apply IH]. rewrite forallb_forall in H1. apply Forall_forall. intros b I. apply apart_check. specialize (H1 b I). now apply negb_true_iff in H1.
Qed.
Theorem C68_names_of_the_trainer : Forall plain_name trainer_names /\ ForallOrdPairs apart trainer_names.
Proof. split; [unfold trainer_names; repeat (constructor; [apply plain_check; vm_compute; reflexivity|]); constructor|apply all_apart_ok; vm_compute; reflexivity]. Qed.
Print Assumptions C68_names_of_the_trainer.

(** A label that is unknown. *)
Theorem C68_unknown_label : forall m (z : list b64) t F L, length z = (24 * m)%nat -> (t < 12)%nat -> data_augmentation [z] [-1] = Returns (F, L) ->
  ~ is_key (nth t L 0) /\ nth t L 0 = (11 + Z.of_nat t) mod 12 - 12 /\ key_name (nth t L 0) = key_name (transpose_key (Z.of_nat t) 11).
Proof.
  intros m z t F L Lz T H. cbn [data_augmentation] in H. rewrite (transpose_eq z (-1) m Lz) in H. cbn [pybind] in H. rewrite !app_nil_r in H. apply EnsembleFacts.returns_eq, pair_equal_spec in H. destruct H as (_ & <-).
  do 12 (destruct t as [|t]; [vm_compute; split; [intros (A & _); now apply A|split; reflexivity]|]). lia.
Qed.
Print Assumptions C68_unknown_label.
Definition flat_row : list b64 := repeat fzero 24.
Definition odd_set : creator := mkCreator "data/odd" "odd" [] (Some []) [] [("one"%string, flat_row)] [("one"%string, -1)] (Some (["sapp"], ["ktg_linear"], true)%string) true.
Definition good_set : creator := mkCreator "data/good" "good" [] (Some []) [] [("one"%string, flat_row); ("two"%string, flat_row)] [("one"%string, 0); ("two"%string, 21)] (Some (["sapp"], ["ktg_linear"], false)%string) true.
Definition more_set : creator := mkCreator "more" "more" [] (Some []) [] [("one"%string, flat_row)] [("one"%string, 13)] (Some (["sapp"], ["ktg_linear"], false)%string) true.
Lemma set_complete c : In c [odd_set; good_set; more_set] -> complete ["sapp"%string] ["ktg_linear"%string] c.
Proof.
  intros [<-|[<-|[<-|[]]]]; (constructor; [apply plain_check; vm_compute; reflexivity|split; constructor|reflexivity|eexists; reflexivity|apply nodupb_spec; reflexivity|reflexivity|discriminate]).
Qed.
Lemma flat_finite : length flat_row = (24 * 1)%nat /\ Forall (fun v => is_finite v = true) flat_row.
Proof. split; [reflexivity|]. apply Forall_forall. intros v I. apply repeat_spec in I. now subst v. Qed.
Lemma sapp_listable : Forall listable ["sapp"%string] /\ Forall listable ["ktg_linear"%string].
Proof. split; (constructor; [apply listable_check; vm_compute; reflexivity|constructor]). Qed.
Theorem C68_every_class_is_a_key_refuted : ~ (forall ps ts c files F L, complete ps ts c -> written c = Returns files -> training_data files [c_name c] = Returns (F, L) -> Forall is_key L).
Proof.
  intros H. destruct sapp_listable as (LP & LT). assert (C : complete ["sapp"%string] ["ktg_linear"%string] odd_set) by (apply set_complete; now left). destruct (written odd_set) as [files|] eqn:W; [|discriminate].
  destruct (trained ["sapp"%string] ["ktg_linear"%string] [odd_set] [files] files 1) as (Z & S & LZ & T); try discriminate; try assumption.
  - constructor; [exact C|constructor].
  - repeat constructor.
  - repeat constructor. exact W.
  - cbn [concat]. now rewrite app_nil_r.
  - constructor; [exact flat_finite|constructor].
  - inversion S as [|x z X Z' E S' EX EZ]; subst. inversion S'; subst. inversion LZ as [|? ? Lz _]; subst. destruct (augmentation_ok 1 [z] [-1] eq_refl) as (F & L & D & _ & LL & _); [now constructor|].
    cbn [map] in T. change (labels_of [odd_set]) with [-1] in T. rewrite D in T. pose proof (H _ _ _ _ _ _ C W T) as K. destruct (C68_unknown_label 1 z 0 F L Lz ltac:(lia) D) as (N & _). apply N. rewrite Forall_forall in K. apply K. apply nth_In. rewrite LL. cbn. lia.
Qed.
Print Assumptions C68_every_class_is_a_key_refuted.
Example C68_case : exists files files' F L, written good_set = Returns files /\ written more_set = Returns files' /\ training_data (rev (files ++ files')) ["good"; "more"]%string = Returns (F, L) /\
  length F = 36%nat /\ L = map (fun t => transpose_key t 0) (zseq 12) ++ map (fun t => transpose_key t 21) (zseq 12) ++ map (fun t => transpose_key t 13) (zseq 12).
Proof.
  destruct (written good_set) as [f1|] eqn:W1; [|discriminate]. destruct (written more_set) as [f2|] eqn:W2; [|discriminate]. destruct sapp_listable as (LP & LT).
  assert (C : Forall (complete ["sapp"%string] ["ktg_linear"%string]) [good_set; more_set]) by (constructor; [apply set_complete; right; now left|constructor; [apply set_complete; right; right; now left|constructor]]).
  assert (A : ForallOrdPairs (fun c c' => apart (c_name c) (c_name c')) [good_set; more_set]) by (constructor; [constructor; [apply apart_check; reflexivity|constructor]|constructor; [constructor|constructor]]).
  assert (R : Forall (fun x => length x = (24 * 1)%nat /\ Forall (fun v => is_finite v = true) x) (rows_of [good_set; more_set])) by (do 3 (constructor; [exact flat_finite|]); constructor).
  assert (K : Forall is_key (labels_of [good_set; more_set])) by (change (Forall is_key [0; 21; 13]); do 3 (constructor; [unfold is_key; lia|]); constructor).
  destruct (C68_training_data ["sapp"%string] ["ktg_linear"%string] [good_set; more_set] [f1; f2] (rev (f1 ++ f2)) 1 ltac:(discriminate) ltac:(discriminate) ltac:(discriminate) ltac:(discriminate) LP LT C A) as (Z & F & L & _ & T & LF & LL & _ & Q);
    [constructor; [exact W1|constructor; [exact W2|constructor]]|cbn [concat]; rewrite app_nil_r; apply Permutation_sym, Permutation_rev|exact R|exact K|].
  exists f1, f2, F, L. split; [reflexivity|]. split; [reflexivity|]. split; [exact T|]. split; [exact LF|]. apply nth_ext with (d := -1) (d' := -1); [exact LL|]. intros n N. rewrite LL in N. change (12 * length (rows_of [good_set; more_set]))%nat with 36%nat in N.
  assert (E : exists i t, (i < 3)%nat /\ (t < 12)%nat /\ n = (12 * i + t)%nat).
  { exists (n / 12)%nat, (n mod 12)%nat. split; [apply Nat.div_lt_upper_bound; [discriminate|exact N]|]. split; [apply Nat.mod_upper_bound; discriminate|]. apply Nat.div_mod. discriminate. }
  destruct E as (i & t & Hi & Ht & ->). destruct (Q i t Hi Ht) as (-> & _). clear - Hi Ht. do 3 (destruct i as [|i]; [do 12 (destruct t as [|t]; [reflexivity|]); lia|]). lia.
Qed.
