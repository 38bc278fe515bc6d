(** Facts about reading and printing numbers, as used by the properties. *)
From Coq Require Import Lia Ascii Reals Lra Sorted.
From Flocq Require Import Core.Core IEEE754.BinarySingleNaN.
From Verif Require Import Base BaseFacts Fp FpFacts Key PitchClass Text Options Output Chromagram MusicSpec TextSpec TextFacts NumberFacts ReadFacts FormatFacts
  ChromaSpec ChromaFacts PrintSpec PrintFacts PrintUnique DumpFacts DumpMain.
From Coq Require Import ZifyBool ZifyNat.
Open Scope Z_scope.

Lemma stof_token s x : ~ begins_hexadecimal s -> stof s = Ret x -> token_value s (f32_to_64 x).
Proof.
  intros NH E. destruct (stof_every_text s) as [H|[H|[H|H]]].
  - apply stof_invalid in H. congruence.
  - contradiction.
  - destruct H as (ws & m & t & -> & W & [B|B]).
    + rewrite (stof_inf ws m t W B) in E. apply Ret_inj in E. subst x. apply (token_inf ws m t W B).
    + rewrite (stof_nan ws m t W B) in E. apply Ret_inj in E. subst x. apply (token_nan ws m t W B).
  - destruct H as (ws & d & r & -> & W & K & N).
    destruct (Classical_Prop.classic (overflows 24 128 d \/ underflows32 d)) as [O|O]; [rewrite (stof_range d ws r W K N O) in E; discriminate|].
    destruct (stof_decimal d ws r W K N ltac:(tauto) ltac:(tauto)) as (z & Ez & Fz & Vz & Sz). assert (z = x) by congruence. subst z.
    destruct (f32_to_64_value x Fz) as (A & B & C). apply token_decimal; try assumption; try tauto; [exact (eq_trans B Vz)|exact (eq_trans C Sz)].
Qed.
Lemma C43_stof_proof s y : ~ begins_hexadecimal s -> (exists x, stof s = Ret x /\ f32_to_64 x = y) <-> token_value s y.
Proof. intros H. split; [intros (x & E & <-); now apply stof_token|apply token_stof]. Qed.
Lemma C43_throws_proof s : ~ begins_hexadecimal s ->
  (stof s = Throws StdInvalidArgument <-> ~ begins_number s) /\ (stof s = Throws StdOutOfRange <-> out_of_float s) /\ (forall u, stof s <> Undef u).
Proof.
  intros NH. split; [apply stof_invalid|]. split; [split|].
  - intros E. destruct (stof_every_text s) as [H|[H|[H|H]]].
    + apply stof_invalid in H. congruence.
    + contradiction.
    + destruct H as (ws & m & t & -> & W & [B|B]); [rewrite (stof_inf ws m t W B) in E|rewrite (stof_nan ws m t W B) in E]; discriminate.
    + destruct H as (ws & d & r & -> & W & K & N). exists ws, d, r. split; [reflexivity|]. split; [exact W|]. split; [exact K|]. split; [exact N|].
      apply Classical_Prop.NNPP. intros O. destruct (stof_decimal d ws r W K N ltac:(tauto) ltac:(tauto)) as (z & Ez & _). congruence.
  - intros (ws & d & r & -> & W & K & N & O). now apply stof_range.
  - intros u E. destruct (stof_cases s) as [(x & X)|[X|X]]; congruence.
Qed.

(** ** Printing *)
Lemma in_print_exists x : exists s, in_print x s /\ forall s', in_print x s' -> s' = s.
Proof. exists (format_g x). split; [apply format_in_print|]. intros s' P. now apply in_print_iff. Qed.
Lemma C44_close_proof x s : is_finite x = true -> format_g x = s ->
  exists d, s = show_decimal d /\ (Rabs (decimal_value d - B2R x) <= 5 / 1000000 * Rabs (B2R x))%R /\
    (forall m e, Z.abs m < 1000000 -> B2R x = (IZR m * powerRZ 10 e)%R -> decimal_value d = B2R x).
Proof.
  intros F <-. destruct (format_printed x F) as (d & E & P). exists d. split; [exact E|]. rewrite (pr_value x d P). split; [apply six_error|].
  intros m e L Q. rewrite Q. rewrite <- bpow10. now apply six_exact.
Qed.
Lemma C44_order_proof x y d d' : is_finite x = true -> is_finite y = true -> (B2R x <= B2R y)%R -> printed x d -> printed y d' -> (decimal_value d <= decimal_value d')%R.
Proof. intros F F' L P P'. rewrite (pr_value x d P), (pr_value y d' P'). now apply six_le. Qed.
