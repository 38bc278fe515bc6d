(** Decision procedures for the hypotheses of the model theorems. *)
From Coq Require Import Reals Lra Lia ZifyBool.
From Flocq Require Import Core.Core IEEE754.BinarySingleNaN.
From Verif Require Import Base BaseFacts Fp FpFacts NumFacts Hmm MusicSpec HmmSpec LogFacts HmmAccuracy.
Open Scope Z_scope.

Definition prob_b (x : b64) : bool := is_finite x && (0 <=? scaled x).
Lemma prob_b_correct x : prob_b x = true -> probability x.
Proof. unfold prob_b. intros H. apply andb_prop in H. destruct H as [F S]. split; [exact F|]. apply scaled_nonneg; [exact F|lia]. Qed.
Definition fine_b (x y : b64) : bool := (scaled x * scaled y =? 0) || (2 ^ 1126 <=? scaled x * scaled y).
Lemma fine_b_correct x y : is_finite x = true -> is_finite y = true -> fine_b x y = true ->
  (B2R x * B2R y = 0 \/ / 2 ^ 1022 <= B2R x * B2R y)%R.
Proof.
  intros Fx Fy H. rewrite (scaled_correct x Fx), (scaled_correct y Fy).
  replace (IZR (scaled x) * bpow radix2 (-1074) * (IZR (scaled y) * bpow radix2 (-1074)))%R with
    (IZR (scaled x * scaled y) * bpow radix2 (-2148))%R
    by (rewrite mult_IZR; replace (bpow radix2 (-2148)) with (bpow radix2 (-1074) * bpow radix2 (-1074))%R by (rewrite <- bpow_plus; reflexivity); ring).
  unfold fine_b in H. apply orb_prop in H. destruct H as [H|H].
  - left. apply Z.eqb_eq in H. rewrite H. lra.
  - right. apply Z.leb_le in H. apply IZR_le in H. change 2 with (radix_val radix2) in H. rewrite IZR_Zpower in H by lia.
    rewrite <- bpow_neg1022. replace (bpow radix2 (-1022)) with (bpow radix2 1126 * bpow radix2 (-2148))%R by (rewrite <- bpow_plus; reflexivity).
    apply Rmult_le_compat_r; [apply bpow_ge_0|exact H].
Qed.

Definition proper_b (states obs : list Z) (h : hmm) : bool :=
  forallb (fun s => (0 <=? s) && (s <? 24)) states &&
  forallb (fun s => forallb (fun o =>
    let e := prob_emission h s o in let i := prob_initial h s in
    prob_b e && prob_b i && is_finite (fmul i e) && fine_b i e &&
    forallb (fun p => let t := prob_transition h p s in prob_b t && is_finite (fmul t e) && fine_b t e) states) obs) states.
Lemma proper_b_correct states obs h : proper_b states obs h = true -> h_states h = states -> incl (h_obs h) obs -> proper h /\ no_underflow h.
Proof.
  intros H Es Ho. unfold proper_b in H. apply andb_prop in H. destruct H as [H1 H2].
  assert (K : forall s o, In s states -> In o (h_obs h) -> 
    probability (prob_emission h s o) /\ probability (prob_initial h s) /\ is_finite (fmul (prob_initial h s) (prob_emission h s o)) = true /\
    fine_b (prob_initial h s) (prob_emission h s o) = true /\
    forall p, In p states -> probability (prob_transition h p s) /\ is_finite (fmul (prob_transition h p s) (prob_emission h s o)) = true /\ fine_b (prob_transition h p s) (prob_emission h s o) = true).
  { intros s o Hs Ho'. pose proof (proj1 (forallb_forall _ _) H2 s Hs) as Q. cbv beta in Q.
    pose proof (proj1 (forallb_forall _ _) Q o (Ho o Ho')) as Q2. cbv beta zeta in Q2.
    apply andb_prop in Q2. destruct Q2 as [Q2 QT]. apply andb_prop in Q2. destruct Q2 as [Q2 QF].
    apply andb_prop in Q2. destruct Q2 as [Q2 QM]. apply andb_prop in Q2. destruct Q2 as [QE QI].
    split; [now apply prob_b_correct|]. split; [now apply prob_b_correct|]. split; [exact QM|]. split; [exact QF|].
    intros p Hp. pose proof (proj1 (forallb_forall _ _) QT p Hp) as Q3. cbv beta zeta in Q3.
    apply andb_prop in Q3. destruct Q3 as [Q3 Q4]. apply andb_prop in Q3. destruct Q3 as [Q3 Q5].
    split; [now apply prob_b_correct|]. now split. }
  split.
  - split.
    + rewrite Es. apply Forall_forall. intros s Hs. pose proof (proj1 (forallb_forall _ _) H1 s Hs). unfold is_key. lia.
    + rewrite Es. intros s o Hs Ho'. destruct (K s o Hs Ho') as (A & B & C & _ & D). split; [exact A|]. split; [exact B|]. split; [exact C|].
      intros p Hp. destruct (D p Hp) as (E & F & _). now split.
  - unfold no_underflow. rewrite Es. intros s o Hs Ho'. destruct (K s o Hs Ho') as (A & B & C & D & E). split.
    + apply fine_b_correct; [apply B|apply A|exact D].
    + intros p Hp. destruct (E p Hp) as (F & G & I). apply fine_b_correct; [apply F|apply A|exact I].
Qed.
