(** Facts about model_tester.py. *)
From Coq Require Import Lia Ascii Permutation Reals Lra.
From Coq Require Import Floats.SpecFloat.
From Flocq Require Import Core.Core IEEE754.BinarySingleNaN.
From Verif Require Import Base BaseFacts Fp FpFacts Text PitchClass Py Dataset Ensemble Creator Tester.
From Verif Require Import MusicSpec DatasetSpec DatasetFacts EnsembleScale CreatorSpec TrainFacts.
Open Scope Z_scope.

Lemma combine_app {A B} (a a' : list A) (b b' : list B) : length a = length b -> combine (a ++ a') (b ++ b') = combine a b ++ combine a' b'.
Proof. revert b. induction a as [|x a IH]; intros [|y b] E; try discriminate E; [reflexivity|]. cbn [app combine]. f_equal. apply IH. cbn in E. lia. Qed.
(** The original rows are among the transposed ones. *)
Lemma augmented_keeps m (X : list (list b64)) y : Forall (fun x => length x = (24 * m)%nat) X -> length X = length y ->
  exists F L, data_augmentation X y = Returns (F, L) /\ length F = length L /\ forall x k, In (x, k) (combine X y) -> In (x, k) (combine F L).
Proof.
  intros W. revert y. induction W as [|x X Lx _ IH]; intros [|k y] E; try discriminate E; [exists [], []; repeat split; auto|].
  destruct (IH y) as (F & L & D & LF & I); [cbn in E; lia|]. cbn [data_augmentation]. rewrite (transpose_eq x k m Lx). cbn [pybind]. rewrite D. cbn [pybind]. do 2 eexists. split; [reflexivity|]. split.
  - rewrite !app_length, !map_length, LF. reflexivity.
  - intros x' k' J. rewrite combine_app by now rewrite !map_length. apply in_or_app. destruct J as [J|J]; [left|right; now apply I]. injection J as <- <-.
    change (zseq 12) with (0 :: map Z.of_nat (seq 1 11)). cbn [map combine]. left. f_equal.
    + rewrite (map_ext (roll 0) (fun r => r)) by apply roll_0. rewrite map_id. apply DatasetFacts.chunks_concat. lia.
    + rewrite Z.add_0_r. rewrite (Z.div_mod k 12) at 3 by lia. lia.
Qed.
(** Numbers are decidable, as numbers of the machine. *)
Lemma b64_dec (x y : b64) : {x = y} + {x <> y}.
Proof.
  assert (S : forall a b : spec_float, {a = b} + {a <> b}) by (decide equality; try apply Bool.bool_dec; try apply Pos.eq_dec; apply Z.eq_dec).
  destruct (S (B2SF x) (B2SF y)) as [E|N]; [left; now apply B2SF_inj|right; intros ->; now apply N].
Qed.
Definition rows_dec : forall a b : list b64, {a = b} + {a <> b} := list_eq_dec b64_dec.
(** A classifier that looks its answers up. *)
Definition look_up (guess : list b64 -> Z) (F : list (list b64)) (L : list Z) (x : list b64) : Z :=
  match find (fun p => if rows_dec x (fst p) then true else false) (combine F L) with Some p => snd p | None => guess x end.
Lemma look_up_in guess F L x k : (forall x k k', In (x, k) (combine F L) -> In (x, k') (combine F L) -> k = k') -> In (x, k) (combine F L) -> look_up guess F L x = k.
Proof.
  intros C I. unfold look_up. destruct (find _ _) as [[x' k']|] eqn:E.
  - apply find_some in E as (J & E). cbn [fst snd] in *. destruct (rows_dec x x') as [<-|]; [|discriminate E]. exact (C x k' k J I).
  - apply (find_none _ _ E) in I. cbn [fst] in I. destruct (rows_dec x x); [discriminate I|congruence].
Qed.
Lemma look_up_out guess F L x : length F = length L -> ~ In x F -> look_up guess F L x = guess x.
Proof.
  intros E N. unfold look_up. destruct (find _ _) as [[x' k']|] eqn:G; [|reflexivity]. apply find_some in G as (J & G). cbn [fst] in G. destruct (rows_dec x x') as [<-|]; [|discriminate G]. apply in_combine_l in J. now elim N.
Qed.
(** ** The score *)
Lemma accuracy_share predict X y : length X = length y -> X <> [] -> exists s, accuracy predict X y = Returns s /\ is_finite s = true /\ B2R s = rnd (IZR (Z.of_nat (length (filter (fun p => predict (fst p) =? snd p) (combine X y)))) / IZR (Z.of_nat (length X))).
Proof.
  intros E N. unfold accuracy. rewrite <- E, Nat.eqb_refl. cbn [negb orb]. destruct (Nat.eqb_spec (length X) 0) as [Z0|NZ]; [apply length_zero_iff_nil in Z0; congruence|]. apply int_div_share; [|lia].
  split; [lia|]. apply Nat2Z.inj_le. assert (G : forall (f : list b64 * Z -> bool) l, (length (filter f l) <= length l)%nat) by (intros f l; induction l as [|a l IH]; cbn [filter]; [lia|destruct (f a); cbn [length]; lia]).
  etransitivity; [apply G|]. rewrite combine_length. lia.
Qed.
Lemma all_right (predict : list b64 -> Z) X y : (forall x k, In (x, k) (combine X y) -> predict x = k) -> filter (fun p => predict (fst p) =? snd p) (combine X y) = combine X y.
Proof.
  intros H. assert (G : forall l, (forall x k, In (x, k) l -> predict x = k) -> filter (fun p => predict (fst p) =? snd p) l = l); [|now apply G]. induction l as [|[x k] l IH]; intros A; [reflexivity|]. cbn [filter fst snd]. rewrite (A x k) by now left. rewrite Z.eqb_refl. f_equal. apply IH. intros a b I. apply A. now right.
Qed.
Lemma accuracy_one (predict : list b64 -> Z) X y : length X = length y -> X <> [] -> (forall x k, In (x, k) (combine X y) -> predict x = k) -> exists s, accuracy predict X y = Returns s /\ is_finite s = true /\ B2R s = 1%R.
Proof.
  intros E N H. destruct (accuracy_share predict X y E N) as (s & A & F & B). exists s. split; [exact A|]. split; [exact F|]. rewrite B, all_right by exact H. rewrite combine_length, <- E, Nat.min_id.
  replace (IZR (Z.of_nat (length X)) / IZR (Z.of_nat (length X)))%R with 1%R.
  - apply round_generic; [typeclasses eauto|]. apply generic_format_FLT. apply (FLT_spec _ _ _ _ (Float radix2 1 0)); cbn; [unfold F2R; cbn; lra|lia|lia].
  - field. apply not_0_IZR. destruct X; [congruence|cbn [length]; lia].
Qed.
(** ** The folder *)
Lemma tested dir e m (X : list (list b64)) y Zs : m <> 0%nat -> X <> [] -> Forall (fun x => length x = (24 * m)%nat) X -> Forall2 (fun x z => feature_scaling1 x = Returns z) X Zs ->
  holds dir e tester_name (X, y) -> test_data dir = Returns (Zs, y).
Proof.
  intros M N W S (ds & R & _ & GX & GY). unfold test_data. rewrite R. cbn [pybind]. rewrite GX. cbn [pybind fst]. rewrite (scaling_all m X Zs M N W S). cbn [pybind]. rewrite GY. reflexivity.
Qed.
