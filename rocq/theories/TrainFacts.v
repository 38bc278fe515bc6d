(** Facts about the training data: scaling before or after transposing, several datasets in one folder. *)
From Coq Require Import Lia Lra Reals Ascii Permutation.
From Flocq Require Import Core.Core IEEE754.BinarySingleNaN.
From Verif Require Import Base BaseFacts Fp FpFacts Text Options PitchClass Py Output OptTables Main Dataset Ensemble Creator.
From Verif Require Import MusicSpec TextSpec TextFacts DatasetSpec DatasetFacts EnsembleRun EnsembleScale CreatorSpec CreatorFacts CreatorLoop CreatorStore CreatorMain CreatorRead.
Open Scope Z_scope.

(** ** Scaling does not depend on the order *)
Lemma same_value (x y : b64) : is_finite x = true -> is_finite y = true -> B2R x = B2R y -> x = y \/ exists s s', x = B754_zero s /\ y = B754_zero s'.
Proof.
  intros F G E. assert (Z : forall s e, forall z : b64, is_finite z = true -> B2R z = B2R (@B754_zero prec64 emax64 s) -> e = z -> exists s', z = B754_zero s').
  { clear. intros s e z F E _. destruct z as [s'| | |s' m ex B]; try discriminate; [now exists s'|]. exfalso. cbn in E. apply eq_0_F2R in E. destruct s'; discriminate. }
  destruct x as [s| | |s m e B]; try discriminate.
  - destruct (Z s y y G (eq_sym E) eq_refl) as (s' & ->). right. now exists s, s'.
  - destruct y as [s'| | |s' m' e' B']; try discriminate.
    + exfalso. destruct (Z s' (B754_finite s m e B) _ F E eq_refl) as (s2 & E2). discriminate.
    + left. now apply B2R_inj.
Qed.
Definition spread (m M : b64) : b64 := let range := fsub M m in if feq range fzero then py_float 1 else range.
Lemma spread_same (m m' M M' : b64) : is_finite m = true -> is_finite m' = true -> is_finite M = true -> is_finite M' = true -> B2R m = B2R m' -> B2R M = B2R M' -> spread m M = spread m' M'.
Proof.
  intros Fm Fm' FM FM' Em EM. destruct (same_value m m' Fm Fm' Em) as [<-|(s & s' & -> & ->)], (same_value M M' FM FM' EM) as [<-|(t & t' & -> & ->)]; try reflexivity.
  - unfold spread. destruct m as [sm| | |sm mm em Bm]; try discriminate; [|reflexivity]. destruct t, t', sm; reflexivity.
  - unfold spread. destruct M as [sM| | |sM mM eM BM]; try discriminate; [|reflexivity]. destruct s, s', sM; reflexivity.
  - unfold spread. destruct s, s', t, t'; reflexivity.
Qed.
Definition shift_of (m scale : b64) : b64 := fsub (py_float (-1)) (fmul m scale).
Lemma shift_same (m m' scale : b64) : is_finite m = true -> is_finite m' = true -> B2R m = B2R m' -> shift_of m scale = shift_of m' scale.
Proof.
  intros F F' E. destruct (same_value m m' F F' E) as [<-|(s & s' & -> & ->)]; [reflexivity|]. unfold shift_of. destruct py_float_neg1 as (N & V). revert N V. generalize (py_float (-1)). intros x N V.
  destruct x as [sx| | |sx mx ex Bx]; try discriminate; [cbn in V; lra|]. destruct scale as [sc|sc| |sc mc ec Bc], s, s'; reflexivity.
Qed.
Lemma scaled_by_one_map (row row' : list b64) z : Permutation row row' -> min_max_scale row = Returns z -> exists f, z = map f row /\ min_max_scale row' = Returns (map f row').
Proof.
  intros P H. unfold min_max_scale in *. destruct row as [|x l]; [discriminate|]. destruct row' as [|x' l']; [apply Permutation_sym, Permutation_nil in P; discriminate|].
  destruct (forallb is_finite (x :: l)) eqn:A; cbn [negb] in H; [|discriminate]. rewrite forallb_forall in A.
  assert (A' : forall y, In y (x' :: l') -> is_finite y = true) by (intros y I; apply A; apply (Permutation_in _ (Permutation_sym P)); exact I).
  assert (B' : forallb is_finite (x' :: l') = true) by (apply forallb_forall; exact A'). rewrite B'. cbn [negb].
  assert (FL : Forall (fun y => is_finite y = true) l) by (apply Forall_forall; intros y I; apply A; now right). assert (FL' : Forall (fun y => is_finite y = true) l') by (apply Forall_forall; intros y I; apply A'; now right).
  destruct (np_min_spec l x (A x (or_introl eq_refl)) FL) as (M1 & M2). destruct (np_min_spec l' x' (A' x' (or_introl eq_refl)) FL') as (M1' & M2').
  destruct (np_max_spec l x (A x (or_introl eq_refl)) FL) as (X1 & X2). destruct (np_max_spec l' x' (A' x' (or_introl eq_refl)) FL') as (X1' & X2').
  assert (EM : B2R (np_min x l) = B2R (np_min x' l')) by (apply Rle_antisym; [apply M2, (Permutation_in _ (Permutation_sym P)), M1'|apply M2', (Permutation_in _ P), M1]).
  assert (EX : B2R (np_max x l) = B2R (np_max x' l')) by (apply Rle_antisym; [apply X2', (Permutation_in _ P), X1|apply X2, (Permutation_in _ (Permutation_sym P)), X1']).
  set (m := np_min x l) in *. set (m' := np_min x' l') in *. set (M := np_max x l) in *. set (M' := np_max x' l') in *.
  set (scale := Bdiv mode_NE (py_float 2) (spread m M)).
  exists (fun v => fadd (fmul v scale) (shift_of m scale)). split; [symmetry; exact (EnsembleFacts.returns_eq _ _ H)|]. f_equal. apply map_ext. intros v.
  assert (ES : scale = Bdiv mode_NE (py_float 2) (spread m' M')) by (unfold scale; f_equal; apply spread_same; [apply A, M1|apply A', M1'|apply A, X1|apply A', X1'|exact EM|exact EX]).
  assert (EH : shift_of m scale = shift_of m' scale) by (apply shift_same; [apply A, M1|apply A', M1'|exact EM]). rewrite EH, ES. reflexivity.
Qed.

(** ** Transposing rows of 24 *)
Definition turn {A} (t : Z) (r : list A) : list A := roll t (firstn 12 r) ++ roll t (skipn 12 r).
Lemma roll_map {A B} (f : A -> B) t l : roll t (map f l) = map f (roll t l).
Proof. unfold roll, rotate. rewrite map_length, map_app, <- skipn_map, <- firstn_map. reflexivity. Qed.
Lemma turn_map {A B} (f : A -> B) t l : turn t (map f l) = map f (turn t l).
Proof. unfold turn. rewrite firstn_map, skipn_map, !roll_map, map_app. reflexivity. Qed.
Lemma turn_permutation {A} t (l : list A) : Permutation l (turn t l).
Proof. unfold turn, roll. rewrite <- (firstn_skipn 12 l) at 1. apply Permutation_app; apply Permutation_sym, rotate_permutation. Qed.
Lemma turn_length {A} t (l : list A) : length (turn t l) = length l.
Proof. apply Permutation_length, Permutation_sym, turn_permutation. Qed.
Lemma turn_scaled t r z : min_max_scale r = Returns z -> min_max_scale (turn t r) = Returns (turn t z).
Proof. intros H. destruct (scaled_by_one_map r (turn t r) z (turn_permutation t r) H) as (f & -> & ->). now rewrite turn_map. Qed.
Definition transposed {A} (t : Z) (m : nat) (x : list A) : list A := concat (map (roll t) (chunks (2 * m) x)).
Lemma transposed_blocks {A} t (blocks : list (list A)) : Forall (fun r => length r = 24%nat) blocks -> transposed t (length blocks) (concat blocks) = concat (map (turn t) blocks).
Proof.
  intros F. unfold transposed. induction F as [|r blocks L F IH]; [reflexivity|]. replace (2 * length (r :: blocks))%nat with (S (S (2 * length blocks))) by (cbn [length]; lia). cbn [concat chunks map].
  assert (E1 : firstn 12 (r ++ concat blocks) = firstn 12 r) by (rewrite firstn_app, L; cbn [Nat.sub firstn]; apply app_nil_r).
  assert (E2 : skipn 12 (r ++ concat blocks) = skipn 12 r ++ concat blocks) by (rewrite skipn_app, L; reflexivity).
  assert (L2 : length (skipn 12 r) = 12%nat) by (rewrite skipn_length, L; reflexivity).
  assert (TAIL : forall s : list A, length s = 12%nat -> firstn 12 (s ++ concat blocks) = s /\ skipn 12 (s ++ concat blocks) = concat blocks).
  { intros s Ls. split; [rewrite firstn_app, Ls, firstn_all2 by lia; cbn [Nat.sub firstn]; apply app_nil_r|rewrite skipn_app, Ls, skipn_all2 by lia; reflexivity]. }
  destruct (TAIL (skipn 12 r) L2) as (E3 & E4).
  rewrite E1, E2, E3, E4, IH. unfold turn. now rewrite <- app_assoc.
Qed.
Lemma cut_24 {A} m (x : list A) : length x = (24 * m)%nat -> exists blocks, x = concat blocks /\ length blocks = m /\ Forall (fun r => length r = 24%nat) blocks.
Proof.
  revert x. induction m as [|m IH]; intros x L; [exists []; split; [now apply length_zero_iff_nil in L|split; [reflexivity|constructor]]|].
  destruct (IH (skipn 24 x)) as (blocks & E & LB & F); [rewrite skipn_length; lia|]. exists (firstn 24 x :: blocks). split; [cbn [concat]; rewrite <- E; symmetry; apply firstn_skipn|].
  split; [cbn; now rewrite LB|]. constructor; [rewrite firstn_length; lia|exact F].
Qed.
Lemma pymap_inv {A B} (f : A -> py B) l z : pymap f l = Returns z -> Forall2 (fun a b => f a = Returns b) l z.
Proof.
  revert z. induction l as [|a l IH]; intros z H; cbn in H; [injection H as <-; constructor|]. destruct (f a) as [b|] eqn:E; [|discriminate]. cbn in H. destruct (pymap f l) as [bs|] eqn:P; [|discriminate]. cbn in H. injection H as <-. constructor; [exact E|now apply IH].
Qed.
Lemma scaled_length r z : min_max_scale r = Returns z -> length z = length r.
Proof. intros H. destruct (scaled_by_one_map r r z (Permutation_refl r) H) as (f & -> & _). apply map_length. Qed.
Lemma scaled_lengths rows zs : Forall (fun r => length r = 24%nat) rows -> Forall2 (fun r z => min_max_scale r = Returns z) rows zs -> Forall (fun r => length r = 24%nat) zs.
Proof. intros F H. induction H as [|r z rows zs E _ IH]; [constructor|]. apply Forall_cons_iff in F. destruct F as (L & F). constructor; [now rewrite (scaled_length r z E)|now apply IH]. Qed.
(** The blocks of a row and of the scaled row. *)
Lemma scaled_blocks m x z : length x = (24 * m)%nat -> feature_scaling1 x = Returns z ->
  exists rows zs, x = concat rows /\ z = concat zs /\ length rows = m /\ length zs = m /\ Forall (fun r => length r = 24%nat) rows /\ Forall (fun r => length r = 24%nat) zs /\ Forall2 (fun r z => min_max_scale r = Returns z) rows zs.
Proof.
  intros L H. destruct (cut_24 m x L) as (rows & -> & LR & F). unfold feature_scaling1 in H. rewrite reshape_concat in H by exact F. cbn [pybind] in H. destruct (pymap min_max_scale rows) as [zs|] eqn:P; [|discriminate]. cbn [pybind] in H. injection H as <-.
  apply pymap_inv in P. exists rows, zs. split; [reflexivity|]. split; [reflexivity|]. split; [exact LR|]. split; [rewrite <- LR; symmetry; exact (OptFacts.Forall2_length_eq _ _ _ P)|]. split; [exact F|]. split; [exact (scaled_lengths rows zs F P)|exact P].
Qed.
Lemma transposed_scaled t m x z : length x = (24 * m)%nat -> feature_scaling1 x = Returns z -> length z = (24 * m)%nat /\ feature_scaling1 (transposed t m x) = Returns (transposed t m z).
Proof.
  intros L H. destruct (scaled_blocks m x z L H) as (rows & zs & -> & -> & L1 & L2 & F1 & F2 & S). split; [rewrite concat_24 by exact F2; lia|].
  rewrite <- L1 at 1. rewrite <- L2 at 1. rewrite !transposed_blocks by assumption. apply scaling_rows.
  - apply Forall_map. apply Forall_impl with (2 := F1). intros r E. now rewrite turn_length.
  - clear - S. induction S as [|r z rows zs E _ IH]; [constructor|]. cbn [map]. constructor; [now apply turn_scaled|exact IH].
Qed.
Lemma augmented_scaled m X Z y F L : Forall (fun x => length x = (24 * m)%nat) X -> Forall2 (fun x z => feature_scaling1 x = Returns z) X Z -> data_augmentation X y = Returns (F, L) ->
  exists G, data_augmentation Z y = Returns (G, L) /\ Forall2 (fun x z => feature_scaling1 x = Returns z) F G.
Proof.
  intros W S. revert y F L. induction S as [|x z X Z E S IH]; intros y F L H; cbn [data_augmentation] in *; [injection H as <- <-; exists []; split; [reflexivity|constructor]|].
  apply Forall_cons_iff in W. destruct W as (Lx & W). destruct y as [|yi y]; [discriminate|]. rewrite (transpose_eq x yi m Lx) in H. cbn [pybind] in H. destruct (data_augmentation X y) as [[F' L']|] eqn:D; [|discriminate]. cbn [pybind fst snd] in H. apply EnsembleFacts.returns_eq, pair_equal_spec in H. destruct H as (<- & <-).
  destruct (IH W y F' L' D) as (G & -> & FG). destruct (transposed_scaled 0 m x z Lx E) as (Lz & _). rewrite (transpose_eq z yi m Lz). cbn [pybind]. eexists. split; [reflexivity|].
  apply Forall2_app; [|exact FG]. clear - Lx E. induction (zseq 12) as [|t l IH]; [constructor|]. cbn [map]. constructor; [exact (proj2 (transposed_scaled t m x z Lx E))|exact IH].
Qed.

(** ** All rows of the dataset *)
Lemma groups_concat {A} n (rows : list (list A)) : Forall (fun r => length r = n) rows -> groups (length rows) n (concat rows) = rows.
Proof.
  induction 1 as [|r rows L _ IH]; [reflexivity|]. cbn [length groups concat]. rewrite firstn_app, skipn_app, L, Nat.sub_diag, firstn_all2, skipn_all2 by lia. cbn [firstn skipn app]. rewrite app_nil_r. now rewrite IH.
Qed.
Lemma concat_length_all {A} n (rows : list (list A)) : Forall (fun r => length r = n) rows -> length (concat rows) = (length rows * n)%nat.
Proof. induction 1 as [|r rows L _ IH]; [reflexivity|]. cbn. rewrite app_length, L, IH. lia. Qed.
Lemma reshape_ok {A} n (rows : list (list A)) : n <> 0%nat -> Forall (fun r => length r = n) rows -> reshape n (concat rows) = Returns rows.
Proof. intros N F. unfold reshape. destruct n as [|n]; [congruence|]. rewrite (concat_length_all _ rows F), Nat.mod_mul, Nat.div_mul by discriminate. cbn [Nat.eqb]. now rewrite groups_concat. Qed.
Lemma all_blocks m X Z : Forall (fun x => length x = (24 * m)%nat) X -> Forall2 (fun x z => feature_scaling1 x = Returns z) X Z ->
  exists rows zs, concat X = concat rows /\ concat Z = concat zs /\ Forall (fun r => length r = 24%nat) rows /\ Forall2 (fun r z => min_max_scale r = Returns z) rows zs /\ Forall (fun z => length z = (24 * m)%nat) Z.
Proof.
  intros W S. induction S as [|x z X Z E S IH]; [exists [], []; repeat split; constructor|]. apply Forall_cons_iff in W. destruct W as (Lx & W). destruct (IH W) as (rows & zs & E1 & E2 & F & P & Q).
  destruct (scaled_blocks m x z Lx E) as (r1 & z1 & -> & -> & L1 & L2 & F1 & F2 & P1). exists (r1 ++ rows), (z1 ++ zs). cbn [concat]. rewrite !concat_app, E1, E2. split; [reflexivity|]. split; [reflexivity|]. split; [apply Forall_app; now split|].
  split; [now apply Forall2_app|]. constructor; [rewrite concat_24 by exact F2; lia|exact Q].
Qed.
Lemma scaling_all m X Z : m <> 0%nat -> X <> [] -> Forall (fun x => length x = (24 * m)%nat) X -> Forall2 (fun x z => feature_scaling1 x = Returns z) X Z -> feature_scaling X = Returns Z.
Proof.
  intros M N W S. destruct (all_blocks m X Z W S) as (rows & zs & E1 & E2 & F & P & Q). unfold feature_scaling. destruct X as [|x X]; [congruence|]. rewrite E1, reshape_ok by (discriminate || exact F). cbn [pybind].
  rewrite (EnsembleFacts.pymap_forall2 _ _ _ P). cbn [pybind]. rewrite <- E2. apply Forall_cons_iff in W. rewrite (proj1 W). apply reshape_ok; [lia|exact Q].
Qed.

(** ** Gathering datasets *)
(** A dataset in the folder, with these tables, rows and labels. *)
Definition holds (dir : list (string * content)) (e : list string * list string * bool) (d : string) (Xy : list (list b64) * list Z) : Prop :=
  exists ds, read_dataset d dir = Returns ds /\ ds_ensemble ds = Some e /\ get_X ds = Returns (fst Xy) /\ get_y ds = Returns (snd Xy).
Lemma strings_eqb_refl l : strings_eqb l l = true.
Proof. induction l as [|s l IH]; [reflexivity|]. cbn. now rewrite String.eqb_refl. Qed.
Lemma strings_eqb_eq a b : strings_eqb a b = true -> a = b.
Proof. revert b. induction a as [|s a IH]; intros [|t b] H; try discriminate; [reflexivity|]. cbn in H. apply andb_true_iff in H. destruct H as (H1 & H2). apply String.eqb_eq in H1. subst t. now rewrite (IH b H2). Qed.
Lemma ensemble_eqb_eq a b : ensemble_eqb a b = true <-> a = b.
Proof.
  destruct a as ((p & t) & m), b as ((p' & t') & m'). unfold ensemble_eqb. cbn [fst snd]. split.
  - intros H. apply andb_true_iff in H. destruct H as (H & H3). apply andb_true_iff in H. destruct H as (H1 & H2). apply strings_eqb_eq in H1, H2. apply Bool.eqb_prop in H3. congruence.
  - injection 1 as <- <- <-. now rewrite !strings_eqb_refl, Bool.eqb_reflx.
Qed.
Lemma same_width_all n X : Forall (fun x => length x = n) X -> same_width X = true.
Proof. intros F. destruct X as [|x X]; [reflexivity|]. apply Forall_cons_iff in F. destruct F as (E & F). cbn. apply forallb_forall. intros r I. rewrite Forall_forall in F. rewrite (F r I), E. apply Nat.eqb_refl. Qed.
Lemma gather_more dir e n names parts X y : Forall2 (holds dir e) names parts -> Forall (fun x => length x = n) (X ++ concat (map fst parts)) ->
  gather dir names (Some (e, X, y)) = Returns (X ++ concat (map fst parts), y ++ concat (map snd parts)).
Proof.
  intros H. revert X y. induction H as [|d (X' & y') names parts (ds & R & E & GX & GY) _ IH]; intros X y W; cbn [gather map concat fst snd] in *; [now rewrite !app_nil_r|].
  rewrite R. cbn [pybind]. unfold get_ensemble_of. rewrite E. cbn [pybind]. rewrite (proj2 (ensemble_eqb_eq e e) eq_refl). cbn [negb]. rewrite GX. cbn [pybind]. unfold concatenate.
  rewrite (same_width_all n) by (rewrite app_assoc in W; apply Forall_app in W; apply W). cbn [pybind]. rewrite GY. cbn [pybind]. rewrite IH by (now rewrite <- app_assoc). now rewrite <- !app_assoc.
Qed.
Lemma gather_all dir e n names parts : names <> [] -> Forall2 (holds dir e) names parts -> Forall (fun x => length x = n) (concat (map fst parts)) ->
  gather dir names None = Returns (concat (map fst parts), concat (map snd parts)).
Proof.
  intros N H W. destruct H as [|d (X & y) names parts (ds & R & E & GX & GY) H]; [congruence|]. cbn [gather map concat fst snd] in *. rewrite R. cbn [pybind]. unfold get_ensemble_of. rewrite E. cbn [pybind]. rewrite GX. cbn [pybind]. rewrite GY. cbn [pybind].
  now rewrite (gather_more dir e n names parts X y H W).
Qed.
Lemma training_ok dir e m names parts Z : names <> [] -> m <> 0%nat -> Forall2 (holds dir e) names parts -> Forall (fun x => length x = (24 * m)%nat) (concat (map fst parts)) -> concat (map fst parts) <> [] ->
  Forall2 (fun x z => feature_scaling1 x = Returns z) (concat (map fst parts)) Z -> training_data dir names = data_augmentation Z (concat (map snd parts)).
Proof.
  intros N M H W NE S. unfold training_data. rewrite (gather_all dir e (24 * m) names parts N H W). cbn [pybind fst snd]. now rewrite (scaling_all m _ Z M NE W S).
Qed.
Lemma gather_differs dir e n d0 good parts d rest e' : Forall2 (holds dir e) (d0 :: good) parts -> Forall (fun x => length x = n) (concat (map fst parts)) ->
  (exists ds, read_dataset d dir = Returns ds /\ ds_ensemble ds = Some e') -> e' <> e -> training_data dir (d0 :: good ++ d :: rest) = Raises SystemExit.
Proof.
  intros H W (ds & R & E) NE. inversion H as [|? (X & y) ? parts' (ds0 & R0 & E0 & GX & GY) H']; subst. unfold training_data. cbn [map concat fst snd] in W.
  assert (G : forall good parts X y, Forall2 (holds dir e) good parts -> Forall (fun x => length x = n) (X ++ concat (map fst parts)) -> gather dir (good ++ d :: rest) (Some (e, X, y)) = Raises SystemExit).
  { clear - R E NE. intros good parts X y H. revert X y. induction H as [|d1 (X' & y') names parts (ds1 & R1 & E1 & GX1 & GY1) _ IH]; intros X y W.
    - cbn [app gather]. rewrite R. cbn [pybind]. unfold get_ensemble_of. rewrite E. cbn [pybind]. destruct (ensemble_eqb e' e) eqn:Q; [apply ensemble_eqb_eq in Q; congruence|reflexivity].
    - cbn [app gather map concat fst] in *. rewrite R1. cbn [pybind]. unfold get_ensemble_of. rewrite E1. cbn [pybind]. rewrite (proj2 (ensemble_eqb_eq e e) eq_refl). cbn [negb]. rewrite GX1. cbn [pybind]. unfold concatenate.
      rewrite (same_width_all n) by (rewrite app_assoc in W; apply Forall_app in W; apply W). cbn [pybind]. rewrite GY1. cbn [pybind]. apply IH. now rewrite <- app_assoc. }
  cbn [gather]. rewrite R0. cbn [pybind]. unfold get_ensemble_of. rewrite E0. cbn [pybind]. rewrite GX. cbn [pybind]. rewrite GY. cbn [pybind fst snd]. now rewrite (G good parts' X y H' W).
Qed.

(** ** Several datasets in one folder *)
(** Neither name begins with the other. *)
Definition apart (a b : string) : Prop := forall r, b <> (a ++ r)%string /\ a <> (b ++ r)%string.
Lemma prefix_iff a s : String.prefix a s = true <-> exists r, s = (a ++ r)%string.
Proof.
  split; [|intros (r & ->); apply prefix_own]. revert s. induction a as [|c a IH]; intros s H; [now exists s|]. destruct s as [|d s]; [discriminate|]. cbn in H. destruct (ascii_dec c d) as [->|]; [|discriminate]. destruct (IH s H) as (r & ->). now exists r.
Qed.
Lemma apart_prefix a b s : apart a b -> String.prefix a (b ++ s) = false.
Proof.
  intros A. destruct (String.prefix a (b ++ s)) eqn:P; [|reflexivity]. exfalso. apply prefix_iff in P. destruct P as (r & E). destruct (string_app_cases b s a r E) as [(e & -> & _)|(e & x & -> & _)]; [now apply (proj2 (A e))|now apply (proj1 (A (String x e)))].
Qed.
Lemma written_names c files f : written c = Returns files -> In f files -> exists s, fst f = (c_name c ++ s)%string.
Proof.
  intros W I. unfold written in W. destruct (negb (c_has_features c)); [injection W as <-; destruct I|]. destruct (c_tables c) as [[[ps ts] mixed]|]; [|discriminate]. injection W as <-.
  destruct I as [<-|[<-|I]]; [eexists; reflexivity|eexists; reflexivity|]. apply in_app_or in I. destruct I as [I|I]; [destruct (c_labels c); [destruct I|]; destruct I as [<-|[]]; eexists; reflexivity|].
  apply in_concat in I. destruct I as (l & I1 & I2). apply in_map_iff in I1. destruct I1 as ((k & v) & <- & _). unfold split_files in I2. destruct (split_rows _ _ _) as [[[|x xs] ys]|]; [destruct I2| |destruct I2]. destruct I2 as [<-|I2]; [eexists; reflexivity|]. destruct ys; [destruct I2|]. destruct I2 as [<-|[]]. eexists. reflexivity.
Qed.
(** A complete dataset with these tables. *)
Record complete (ps ts : list string) (c : creator) : Prop := {
  co_name : plain_name (c_name c); co_splits : split_ok c; co_has : c_has_features c = true; co_tables : exists mixed, c_tables c = Some (ps, ts, mixed);
  co_distinct : NoDup (map fst (c_features c)); co_labels : map fst (c_labels c) = map fst (c_features c); co_some : c_labels c <> [] }.
Lemma stored_together ps ts cs all listing : ps <> [] -> ts <> [] -> Forall listable ps -> Forall listable ts -> Forall (complete ps ts) cs ->
  ForallOrdPairs (fun c c' => apart (c_name c) (c_name c')) cs -> Forall2 (fun c files => written c = Returns files) cs all -> Permutation listing (concat all) ->
  Forall2 (holds listing (ps, ts, false)) (map c_name cs) (map (fun c => (map snd (c_features c), map snd (c_labels c))) cs).
Proof.
  intros NP NT FP FT C AP W P.
  assert (EACH : forall before c after, cs = before ++ c :: after -> holds listing (ps, ts, false) (c_name c) (map snd (c_features c), map snd (c_labels c))).
  { intros before c after ->. apply Forall2_app_inv_l in W. destruct W as (all1 & all' & W1 & W2 & ->). inversion W2 as [|? files ? all2 Wc W3]; subst.
    assert (OUT : forall f, In f (concat all1 ++ concat all2) -> String.prefix (c_name c) (fst f) = false /\ ~ In (fst f) (map fst files)).
    { assert (OTHER : forall c' files' f, apart (c_name c) (c_name c') -> written c' = Returns files' -> In f files' -> String.prefix (c_name c) (fst f) = false /\ ~ In (fst f) (map fst files)).
      { intros c' files' f A W' I. destruct (written_names c' files' f W' I) as (s & E). rewrite E. pose proof (apart_prefix _ _ s A) as Q. split; [exact Q|]. intros J. apply in_map_iff in J. destruct J as (g & G & J). destruct (written_names c files g Wc J) as (s' & E'). rewrite <- G, E' in Q. now rewrite prefix_own in Q. }
      assert (SYM : forall a b, apart a b -> apart b a) by (intros a b A r; split; apply A).
      intros f I. apply in_app_or in I. destruct I as [I|I]; apply in_concat in I; destruct I as (files' & I1 & I2).
      - clear - AP W1 I1 I2 OTHER SYM. induction W1 as [|c1 f1 before all1 E1 _ IH]; [destruct I1|]. cbn [app] in AP. inversion AP as [|? ? A1 A2]; subst. destruct I1 as [->|I1]; [|now apply IH].
        apply (OTHER c1 files'); [|exact E1|exact I2]. apply SYM. rewrite Forall_forall in A1. apply A1. apply in_or_app. right. now left.
      - assert (AC : Forall (fun c' => apart (c_name c) (c_name c')) after) by (clear - AP; induction before as [|b before IH]; cbn [app] in AP; inversion AP; subst; [assumption|now apply IH]).
        clear - AC W3 I1 I2 OTHER. induction W3 as [|c1 f1 after all2 E1 _ IH]; [destruct I1|]. apply Forall_cons_iff in AC. destruct AC as (A1 & AC). destruct I1 as [->|I1]; [now apply (OTHER c1 files')|now apply IH]. }
    rewrite Forall_forall in C. assert (Cc : complete ps ts c) by (apply C; apply in_or_app; right; now left). destruct Cc as [Cn Cs Ch (mixed & Ct) Cd Cl Cso].
    pose proof (files_distinct c files Cs Wc) as NF.
    (* the rest of the folder may name a file twice; only the files of this dataset matter *)
    assert (SOUND : exists ds, read_dataset (c_name c) listing = Returns ds /\ ds_ensemble ds = Some (ps, ts, false) /\ forall a v, assoc String.eqb a (ds_arrays ds) = Some v <-> In (a, v) (all_arrays c)).
    { destruct (written_sound c files ps ts mixed Cn (proj2 Cs) Ch Ct NP NT FP FT Wc) as (S & R & A & TB).
      assert (PF : Permutation (filter (relevant (c_name c)) listing) files).
      { assert (FI : forall l, (forall f, In f l -> String.prefix (c_name c) (fst f) = false) -> filter (relevant (c_name c)) l = []).
        { induction l as [|f l IH]; intros Q; [reflexivity|]. cbn. unfold relevant at 1. rewrite (Q f (or_introl eq_refl)). apply IH. intros g G. apply Q. now right. }
        assert (FA : filter (relevant (c_name c)) files = files) by (clear - R; induction R as [|f files E _ IH]; [reflexivity|]; cbn; rewrite E; now rewrite IH).
        assert (PP : forall l l', Permutation l l' -> Permutation (filter (relevant (c_name c)) l) (filter (relevant (c_name c)) l')).
        { induction 1 as [|x l l' _ IH|x y l|l l' l'' _ IH1 _ IH2]; cbn; [constructor|destruct (relevant (c_name c) x); [now constructor|exact IH]|destruct (relevant (c_name c) x), (relevant (c_name c) y); try apply Permutation_refl; constructor|now transitivity (filter (relevant (c_name c)) l')]. }
        pose proof (PP _ _ P) as Q. rewrite concat_app in Q. cbn [concat] in Q. rewrite !filter_app, FA in Q. rewrite (FI (concat all1)), (FI (concat all2)) in Q by (intros f I; apply OUT, in_or_app; tauto). rewrite app_nil_r in Q. exact Q. }
      assert (SL : Forall (sound (c_name c)) (filter (relevant (c_name c)) listing)) by (apply (Permutation_Forall (Permutation_sym PF)); exact S).
      unfold read_dataset. rewrite read_all by exact SL. eexists. split; [reflexivity|]. cbn [ds_ensemble ds_arrays].
      pose proof (Permutation_flat_map (tables_in (c_name c)) PF) as PT. rewrite TB in PT. apply Permutation_sym, Permutation_length_1_inv in PT. rewrite PT. split; [reflexivity|].
      pose proof (Permutation_flat_map (array_in (c_name c)) PF) as PA. rewrite A in PA. set (l := flat_map (array_in (c_name c)) (filter (relevant (c_name c)) listing)) in *.
      assert (NL : NoDup (map fst l)) by (apply (Permutation_NoDup (l := map fst (all_arrays c))); [apply Permutation_sym; now apply Permutation_map|now apply arrays_distinct]).
      intros a v. rewrite record_new by exact NL. cbn [app]. split.
      - intros E. apply assoc_In in E. now apply (Permutation_in _ PA).
      - intros I. apply (NoDup_assoc String.eqb Seqb_spec'); [exact NL|]. now apply (Permutation_in _ (Permutation_sym PA)). }
    destruct SOUND as (ds & RD & EN & AR). exists ds. split; [exact RD|]. split; [exact EN|]. cbn [fst snd]. split.
    - unfold get_X. rewrite (proj2 (AR "X"%string (Rows (map snd (c_features c))))); [reflexivity|]. now left.
    - unfold get_y. rewrite (proj2 (AR "y"%string (Labels (map snd (c_labels c))))); [reflexivity|]. right. apply in_or_app. left. destruct (c_labels c); [congruence|now left]. }
  clear - EACH. assert (ALL : forall done todo, cs = done ++ todo -> Forall2 (holds listing (ps, ts, false)) (map c_name todo) (map (fun c => (map snd (c_features c), map snd (c_labels c))) todo)).
  { intros done todo. revert done. induction todo as [|c todo IH]; intros done E; [constructor|]. cbn [map]. constructor; [exact (EACH done c todo E)|]. apply (IH (done ++ [c])). now rewrite <- app_assoc. }
  now apply (ALL []).
Qed.
