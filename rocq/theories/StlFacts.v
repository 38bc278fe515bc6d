(** Proofs about the forward and Viterbi algorithm of ViterbiSTL.cc. *)
From Coq Require Import Reals Lra Lia.
From Flocq Require Import Core.Core IEEE754.BinarySingleNaN.
From Verif Require Import Base BaseFacts Fp FpFacts FloatKit Stl StlSpec.
Open Scope R_scope.

Section Weights.
  Context {S O D : Type} (mul : D -> D -> D) (start : S -> D) (trans : S -> S -> D) (emit : S -> O -> D) (zero : D).
  Lemma last_cons (y s : S) path : last (y :: path) s = last path y.
  Proof. revert y s. induction path as [|z path IH]; intros y s; [reflexivity|]. change (last (y :: z :: path) s) with (last (z :: path) s). now rewrite (IH z s), (IH z y). Qed.
  Lemma weight_from_snoc w s obs path o a b : length path = length obs -> last (s :: path) a = a ->
    weight_from mul trans emit w s (obs ++ [o]) (path ++ [b]) = mul (weight_from mul trans emit w s obs path) (mul (emit (last path s) o) (trans (last path s) b)).
  Proof.
    revert w s path. induction obs as [|x obs IH]; intros w s [|y path] L H; try discriminate; [reflexivity|]. cbn [app weight_from].
    rewrite IH; [|cbn in L; lia|]. 2:{ cbn [last] in H |- *. destruct path; exact H. }
    rewrite last_cons. reflexivity.
  Qed.
  Lemma last_snoc (p : list S) s d : last (p ++ [s]) d = s.
  Proof. induction p as [|a p IH]; [reflexivity|]. cbn. destruct (p ++ [s]) eqn:E; [destruct p; discriminate|exact IH]. Qed.
  Lemma weight_snoc obs path o a b : length path = length obs -> weight mul start trans emit zero (obs ++ [o]) (path ++ [a; b]) =
    mul (weight mul start trans emit zero obs (path ++ [a])) (mul (emit a o) (trans a b)).
  Proof.
    intros L. destruct path as [|s path].
    - destruct obs; [|discriminate]. reflexivity.
    - cbn [app weight]. change (path ++ [a; b]) with (path ++ ([a] ++ [b])). rewrite app_assoc.
      assert (E : last (path ++ [a]) s = a) by apply last_snoc.
      rewrite (weight_from_snoc (start s) s obs (path ++ [a]) o a b).
      + now rewrite E.
      + rewrite app_length. cbn in *. lia.
      + destruct (path ++ [a]) eqn:P; [destruct path; discriminate|]. rewrite <- P. change (last (s :: path ++ [a]) a) with (last ((s :: path) ++ [a]) a). apply last_snoc.
  Qed.
End Weights.

(** ** The tables of trackers *)
Lemma assign_fold {V} (f : string -> V) l (U : list (string * V)) s : In s l \/ assoc String.eqb s U = Some (f s) ->
  assoc String.eqb s (fold_left (fun U s => assign String.eqb s (f s) U) l U) = Some (f s).
Proof.
  revert U. induction l as [|a l IH]; intros U H; [destruct H as [[]|H]; exact H|]. cbn [fold_left]. apply IH.
  destruct (String.eqb_spec s a) as [->|N]; [right; apply (assoc_assign_same _ Seqb_spec')|]. destruct H as [[H|H]|H]; [congruence|now left|right].
  now rewrite (assoc_assign_other _ Seqb_spec').
Qed.

(** ** The best path *)
Section Best.
  Context {D : Type} (zero : D) (add mul : D -> D -> D) (gtb : D -> D -> bool) (val : D -> R) (good : D -> Prop).
  Hypothesis good_zero : good zero.
  Hypothesis val_zero : val zero = 0.
  Hypothesis good_pos : forall x, good x -> 0 <= val x.
  Hypothesis good_mul : forall x y, good x -> good y -> good (mul x y).
  Hypothesis mul_mono : forall x y p, good x -> good y -> good p -> val x <= val y -> val (mul x p) <= val (mul y p).
  Hypothesis mul_zero : forall p, good p -> val (mul zero p) = 0.
  Hypothesis gtb_val : forall x y, good x -> good y -> gtb x y = true <-> val y < val x.
  Variables (states : list string) (start_p : vector_map D) (trans_p emit_p : matrix_map D).
  Hypothesis good_start : forall s, good (get1 zero start_p s).
  Hypothesis good_trans : forall a b, good (get2 zero trans_p a b).
  Hypothesis good_emit : forall a o, good (get2 zero emit_p a o).
  Notation W := (weight mul (get1 zero start_p) (get2 zero trans_p) (get2 zero emit_p) zero).
  Notation path_of n p := (length p = n /\ Forall (fun s => In s states) p).
  Lemma gtb_false x y : good x -> good y -> gtb x y = false -> val x <= val y.
  Proof. intros X Y E. apply Rnot_lt_le. intros L. apply gtb_val in L; [congruence|assumption|assumption]. Qed.
  (** A tracker of a set of paths. *)
  Definition best (obs : list string) (P : list string -> Prop) (t : tracking D) : Prop :=
    good (t_vprob t) /\ (forall p, P p -> val (W obs p) <= val (t_vprob t)) /\ (0 < val (t_vprob t) -> P (t_path t) /\ W obs (t_path t) = t_vprob t).
  Definition clean (t : tracking D) : Prop := val (t_vprob t) = 0 -> t_path t = [].
  Definition ends_in (n : nat) (s : string) (p : list string) : Prop := exists q, p = q ++ [s] /\ length q = n /\ Forall (fun s => In s states) q.
  Lemma good_weight obs p : good (W obs p).
  Proof.
    destruct p as [|s p]; [exact good_zero|]. cbn [weight]. assert (G : good (get1 zero start_p s)) by apply good_start. revert G. generalize (get1 zero start_p s). intros w G. revert w s p G.
    induction obs as [|o obs IH]; intros w s [|s' p] G; cbn [weight_from]; try exact G. apply IH. apply good_mul; [exact G|]. apply good_mul; [apply good_emit|apply good_trans].
  Qed.
  (** Replacing or keeping. *)
  Lemma best_union obs (P Q R : list string -> Prop) t v pth pr : (forall p, R p <-> P p \/ Q p) ->
    best obs P t -> clean t -> good v -> (forall p, Q p -> val (W obs p) <= val v) -> (0 < val v -> Q pth /\ W obs pth = v) ->
    let t' := if gtb v (t_vprob t) then mkTracking pr pth v else mkTracking pr (t_path t) (t_vprob t) in best obs R t' /\ clean t'.
  Proof.
    intros E (G & U & H) K Gv Uv Hv. destruct (gtb v (t_vprob t)) eqn:C; cbv zeta.
    - apply (proj1 (gtb_val v (t_vprob t) Gv G)) in C. pose proof (good_pos _ G) as Z. destruct (Hv ltac:(lra)) as (Q1 & Q2). split; [|unfold clean; cbn; lra]. split; [exact Gv|]. cbn. split.
      + intros p Rp. apply E in Rp. destruct Rp as [Rp|Rp]; [specialize (U p Rp); lra|auto].
      + intros _. split; [apply E; now right|exact Q2].
    - apply gtb_false in C; [|assumption|assumption]. split; [|exact K]. split; [exact G|]. cbn. split.
      + intros p Rp. apply E in Rp. destruct Rp as [Rp|Rp]; [auto|specialize (Uv p Rp); lra].
      + intros H0. destruct (H H0) as (H1 & H2). split; [apply E; now left|exact H2].
  Qed.
  Lemma best_empty obs : best obs (fun _ => False) (no_tracking zero) /\ clean (no_tracking zero).
  Proof. split; [|intros _; reflexivity]. split; [exact good_zero|]. cbn. split; [intros p []|]. rewrite val_zero. lra. Qed.
  Lemma best_ext obs (P Q : list string -> Prop) t : (forall p, P p <-> Q p) -> best obs P t -> best obs Q t.
  Proof. intros E (G & U & H). split; [exact G|]. split; [intros p Hp; apply U, E, Hp|]. intros H0. destruct (H H0) as (A & B). split; [now apply E|exact B]. Qed.
  (** A fold over sources. *)
  Lemma best_fold obs (Q : string -> list string -> Prop) (f : tracking D -> string -> tracking D) l :
    (forall P t s, In s l -> best obs P t -> clean t -> best obs (fun p => P p \/ Q s p) (f t s) /\ clean (f t s)) ->
    forall P t, best obs P t -> clean t -> best obs (fun p => P p \/ exists s, In s l /\ Q s p) (fold_left f l t) /\ clean (fold_left f l t).
  Proof.
    intros F. induction l as [|s l IH]; intros P t B C.
    - cbn. split; [|exact C]. revert B. apply best_ext. intros p. split; [now left|]. intros [H|(s & [] & _)]. exact H.
    - cbn [fold_left]. destruct (F P t s (or_introl eq_refl) B C) as (B' & C'). destruct (IH (fun P t s' H => F P t s' (or_intror H)) _ _ B' C') as (B2 & C2). split; [|exact C2]. revert B2. apply best_ext. intros p. split.
      + intros [[H|H]|(s' & I & H)]; [now left|right; exists s; split; [now left|exact H]|right; exists s'; split; [now right|exact H]].
      + intros [H|(s' & [<-|I] & H)]; [now left; left|now left; right|right; now exists s'].
  Qed.
  Definition layer (n : nat) (obs : list string) (T : list (string * tracking D)) : Prop :=
    forall s, In s states -> best obs (ends_in n s) (get_tracking zero T s).
  Lemma layer_start : layer 0 [] (start_trackers zero states start_p).
  Proof.
    intros s Hs. unfold get_tracking, start_trackers. rewrite (assign_fold (fun s => mkTracking (get1 zero start_p s) [s] (get1 zero start_p s)) states [] s (or_introl Hs)).
    assert (X : ends_in 0 s [s]) by (exists []; repeat split; constructor).
    split; [apply good_start|]. cbn. split.
    - intros p (q & -> & L & _). apply length_zero_iff_nil in L. subst q. cbn. lra.
    - intros _. split; [exact X|reflexivity].
  Qed.
  Lemma layer_next n obs T o : length obs = n -> layer n obs T -> layer (S n) (obs ++ [o]) (next_trackers zero add mul gtb trans_p emit_p states T o).
  Proof.
    intros L H s Hs. unfold get_tracking, next_trackers. rewrite (assign_fold (fun s => next_tracker zero add mul gtb trans_p emit_p states T o s) states [] s (or_introl Hs)).
    unfold next_tracker. destruct (best_empty (obs ++ [o])) as (B0 & C0).
    destruct (best_fold (obs ++ [o]) (fun a p => exists q, p = q ++ [a; s] /\ length q = n /\ Forall (fun s => In s states) q) (from_source zero add mul gtb trans_p emit_p T o s) states) with (P := fun _ : list string => False) (t := no_tracking zero) as (B & _); try assumption.
    2:{ revert B. apply best_ext. intros p. unfold ends_in. split.
        - intros [[]|(a & Ia & q & -> & Lq & Fq)]. exists (q ++ [a]). rewrite <- app_assoc. split; [reflexivity|]. rewrite app_length. split; [cbn; lia|]. apply Forall_app. split; [exact Fq|repeat constructor; exact Ia].
        - intros (q & -> & Lq & Fq). right. destruct (exists_last (l := q)) as (q' & a & ->); [intros ->; discriminate|]. rewrite app_length in Lq. cbn in Lq. apply Forall_app in Fq. destruct Fq as (Fq & Fa). inversion Fa; subst. exists a. split; [assumption|]. exists q'. rewrite <- app_assoc. repeat split; [lia|exact Fq]. }
    intros P t a Ia Bt Ct. unfold from_source. set (st := get_tracking zero T a). destruct (H a Ia) as (G & U & K). fold st in G, U, K.
    set (pr := mul (get2 zero emit_p a o) (get2 zero trans_p a s)). assert (Gp : good pr) by (apply good_mul; [apply good_emit|apply good_trans]).
    cbv zeta. cbn [t_prob t_path t_vprob]. fold pr.
    apply (best_union (obs ++ [o]) P (fun p => exists q, p = q ++ [a; s] /\ length q = n /\ Forall (fun s => In s states) q)); try assumption.
    - intros p. reflexivity.
    - now apply good_mul.
    - intros p (q & -> & Lq & Fq). rewrite weight_snoc by lia. fold pr. apply mul_mono; [apply good_weight|exact G|exact Gp|]. apply U. now exists q.
    - intros Pos. assert (0 < val (t_vprob st)) as Pv.
      { destruct (Rle_lt_or_eq_dec _ _ (good_pos _ G)) as [|E]; [assumption|]. exfalso.
        assert (X : val (mul (t_vprob st) pr) <= val (mul zero pr)) by (apply mul_mono; try assumption; rewrite val_zero; lra).
        pose proof (mul_zero pr Gp). lra. }
      destruct (K Pv) as ((q & Eq & Lq & Fq) & Wq). rewrite Eq. split; [exists q; split; [now rewrite <- app_assoc|now split]|].
      rewrite <- app_assoc. cbn [app]. rewrite weight_snoc by lia. fold pr. rewrite <- Wq, Eq. reflexivity.
  Qed.
  Lemma layers obs : layer (length obs) obs (fold_left (next_trackers zero add mul gtb trans_p emit_p states) obs (start_trackers zero states start_p)).
  Proof.
    induction obs as [|o obs IH] using rev_ind; [exact layer_start|]. rewrite fold_left_app, app_length. cbn [fold_left length]. replace (length obs + 1)%nat with (S (length obs)) by lia. now apply layer_next.
  Qed.
  Lemma forward_best obs : let t := forward_viterbi zero add mul gtb obs states start_p trans_p emit_p in
    best obs (fun p => length p = S (length obs) /\ Forall (fun s => In s states) p) t /\ clean t.
  Proof.
    cbv zeta. unfold forward_viterbi. set (T := fold_left _ obs _). pose proof (layers obs) as H. fold T in H. destruct (best_empty obs) as (B0 & C0).
    destruct (best_fold obs (ends_in (length obs)) (final_step zero add gtb T) states) with (P := fun _ : list string => False) (t := no_tracking zero) as (B & C); try assumption.
    2:{ split; [|exact C]. revert B. apply best_ext. intros p. unfold ends_in. split.
        - intros [[]|(a & Ia & q & -> & Lq & Fq)]. rewrite app_length. split; [cbn; lia|]. apply Forall_app. split; [exact Fq|repeat constructor; exact Ia].
        - intros (Lp & Fp). right. destruct (exists_last (l := p)) as (q & a & ->); [intros ->; discriminate|]. rewrite app_length in Lp. cbn in Lp. apply Forall_app in Fp. destruct Fp as (Fq & Fa). inversion Fa; subst. exists a. split; [assumption|]. exists q. repeat split; [lia|exact Fq]. }
    intros P t a Ia Bt Ct. unfold final_step. set (st := get_tracking zero T a). destruct (H a Ia) as (G & U & K). fold st in G, U, K.
    cbv zeta. cbn [t_prob t_path t_vprob].
    apply (best_union obs P (ends_in (length obs) a)); try assumption. intros p. reflexivity.
  Qed.
End Best.

(** ** Real numbers *)
Definition Rgtb (x y : R) : bool := if Rlt_dec y x then true else false.
Definition forward_viterbiR := forward_viterbi 0 Rplus Rmult Rgtb.
Lemma total_app a b : total (a ++ b) = total a + total b.
Proof. unfold total. induction a as [|x a IH]; cbn; [lra|]. rewrite IH. lra. Qed.
Lemma total_flat_map {A} (f : A -> list R) l : total (flat_map f l) = total (map (fun x => total (f x)) l).
Proof. induction l as [|x l IH]; [reflexivity|]. cbn [flat_map map]. rewrite total_app, IH. reflexivity. Qed.
Lemma total_plus {A} (f g : A -> R) l : total (map (fun x => f x + g x) l) = total (map f l) + total (map g l).
Proof. induction l as [|x l IH]; cbn; [lra|]. unfold total in *. cbn. rewrite IH. lra. Qed.
Lemma total_zero {A} (l : list A) : total (map (fun _ => 0) l) = 0.
Proof. induction l as [|x l IH]; [reflexivity|]. unfold total in *. cbn. rewrite IH. lra. Qed.
Lemma total_swap {A B} (f : A -> B -> R) la lb : total (map (fun a => total (map (f a) lb)) la) = total (map (fun b => total (map (fun a => f a b) la)) lb).
Proof.
  induction la as [|a la IH]; [cbn; now rewrite total_zero|]. cbn [map]. change (total (total (map (f a) lb) :: map (fun a0 => total (map (f a0) lb)) la)) with (total (map (f a) lb) + total (map (fun a0 => total (map (f a0) lb)) la)).
  rewrite IH, <- total_plus. reflexivity.
Qed.
Lemma total_scale {A} (f : A -> R) c l : total (map (fun x => f x * c) l) = total (map f l) * c.
Proof. induction l as [|x l IH]; [cbn; lra|]. unfold total in *. cbn. rewrite IH. lra. Qed.
Lemma total_ext {A} (f g : A -> R) l : (forall x, In x l -> f x = g x) -> total (map f l) = total (map g l).
Proof. intros H. f_equal. apply map_ext_in. exact H. Qed.
Lemma total_sequences {A} (f : list A -> R) n l : total (map f (sequences (S n) l)) = total (map (fun x => total (map (fun q => f (x :: q)) (sequences n l))) l).
Proof.
  cbn [sequences]. rewrite flat_map_concat_map, concat_map, map_map, <- flat_map_concat_map, total_flat_map. apply total_ext. intros x _. now rewrite map_map.
Qed.
Lemma total_sequences_end {A} (f : list A -> R) n l : total (map f (sequences (S n) l)) = total (map (fun s => total (map (fun q => f (q ++ [s])) (sequences n l))) l).
Proof.
  revert f. induction n as [|n IH]; intros f.
  - rewrite total_sequences. apply total_ext. intros x _. reflexivity.
  - rewrite total_sequences. transitivity (total (map (fun x => total (map (fun s => total (map (fun q => f (x :: q ++ [s])) (sequences n l))) l)) l)).
    + apply total_ext. intros x _. now rewrite (IH (fun q => f (x :: q))).
    + rewrite total_swap. apply total_ext. intros s _. now rewrite total_sequences.
Qed.
Lemma sequences_length {A} n (l : list A) q : In q (sequences n l) -> length q = n.
Proof. revert q. induction n as [|n IH]; intros q H; cbn in H; [destruct H as [<-|[]]; reflexivity|]. apply in_flat_map in H. destruct H as (x & _ & H). apply in_map_iff in H. destruct H as (q' & <- & H). cbn. now rewrite (IH q'). Qed.

Section Sum.
  Variables (states : list string) (start_p : vector_map R) (trans_p emit_p : matrix_map R).
  Notation W := (weight Rmult (get1 0 start_p) (get2 0 trans_p) (get2 0 emit_p) 0).
  Lemma fold_prob (f : tracking R -> string -> tracking R) (g : string -> R) l t : (forall t s, In s l -> t_prob (f t s) = t_prob t + g s) -> t_prob (fold_left f l t) = t_prob t + total (map g l).
  Proof.
    intros F. revert t F. induction l as [|s l IH]; intros t F; [cbn; lra|]. cbn [fold_left map]. rewrite IH by (intros; apply F; now right). rewrite F by now left. unfold total. cbn. lra.
  Qed.
  Lemma sums obs s : In s states -> t_prob (get_tracking 0 (fold_left (next_trackers 0 Rplus Rmult Rgtb trans_p emit_p states) obs (start_trackers 0 states start_p)) s) = total (map (fun q => W obs (q ++ [s])) (sequences (length obs) states)).
  Proof.
    revert s. induction obs as [|o obs IH] using rev_ind; intros s Hs.
    - cbn [fold_left]. unfold get_tracking, start_trackers. rewrite (assign_fold (fun s => mkTracking (get1 0 start_p s) [s] (get1 0 start_p s)) states [] s (or_introl Hs)). cbn. lra.
    - rewrite fold_left_app. cbn [fold_left]. set (T := fold_left _ obs _) in *. unfold get_tracking at 1, next_trackers. rewrite (assign_fold (fun s => next_tracker 0 Rplus Rmult Rgtb trans_p emit_p states T o s) states [] s (or_introl Hs)).
      unfold next_tracker. rewrite (fold_prob _ (fun a => t_prob (get_tracking 0 T a) * (get2 0 emit_p a o * get2 0 trans_p a s))).
      2:{ intros t a _. unfold from_source. cbn. now destruct (Rgtb _ _). }
      cbn [t_prob no_tracking]. rewrite Rplus_0_l, app_length. cbn [length]. replace (length obs + 1)%nat with (S (length obs)) by lia. rewrite total_sequences_end. apply total_ext. intros a Ia. rewrite IH by exact Ia. rewrite <- total_scale. apply total_ext.
      intros q Hq. rewrite <- app_assoc. cbn [app]. rewrite weight_snoc by now rewrite (sequences_length _ _ _ Hq). reflexivity.
  Qed.
  Lemma C52_total_proof obs : t_prob (forward_viterbiR obs states start_p trans_p emit_p) = total (map (W obs) (sequences (S (length obs)) states)).
  Proof.
    unfold forward_viterbiR, forward_viterbi. set (T := fold_left _ obs _). rewrite (fold_prob _ (fun a => t_prob (get_tracking 0 T a))).
    2:{ intros t a _. unfold final_step. cbn. now destruct (Rgtb _ _). }
    cbn [t_prob no_tracking]. rewrite Rplus_0_l, total_sequences_end. apply total_ext. intros s Hs. now apply sums.
  Qed.
  Hypothesis pos_start : forall s, 0 <= get1 0 start_p s.
  Hypothesis pos_trans : forall a b, 0 <= get2 0 trans_p a b.
  Hypothesis pos_emit : forall a o, 0 <= get2 0 emit_p a o.
  Lemma C52_best_real_proof obs : let t := forward_viterbiR obs states start_p trans_p emit_p in
    (forall p, length p = S (length obs) -> Forall (fun s => In s states) p -> W obs p <= t_vprob t) /\
    ((0 < t_vprob t /\ length (t_path t) = S (length obs) /\ Forall (fun s => In s states) (t_path t) /\ W obs (t_path t) = t_vprob t) \/ (t_vprob t = 0 /\ t_path t = [])).
  Proof.
    cbv zeta. destruct (forward_best 0 Rplus Rmult Rgtb (fun x => x) (fun x => 0 <= x)) with (states := states) (start_p := start_p) (trans_p := trans_p) (emit_p := emit_p) (obs := obs) as ((G & U & H) & C); try assumption; try (intros; lra).
    - intros. now apply Rmult_le_pos.
    - intros x y p _ _ P L. now apply Rmult_le_compat_r.
    - intros x y _ _. unfold Rgtb. destruct (Rlt_dec y x); split; try lra; discriminate.
    - fold forward_viterbiR in *. set (t := forward_viterbiR obs states start_p trans_p emit_p) in *. split; [intros p L F; apply U; now split|].
      destruct (Rle_lt_or_eq_dec _ _ G) as [P|E]; [left|right; split; [now symmetry|apply C; now symmetry]]. destruct (H P) as ((L & F) & E). now repeat split.
  Qed.
End Sum.

(** ** Doubles *)
Definition unit_double (x : b64) : Prop := is_finite x = true /\ 0 <= B2R x <= 1.
Lemma fmul_unit x y : unit_double x -> unit_double y -> unit_double (fmul x y) /\ B2R (fmul x y) = rnd (B2R x * B2R y).
Proof.
  intros (Fx & X) (Fy & Y). assert (P : 0 <= B2R x * B2R y <= 1) by (split; [apply Rmult_le_pos; lra|replace 1 with (1 * 1) by lra; apply Rmult_le_compat; lra]).
  destruct (fmul_R x y Fx Fy) as (F & E). { rewrite Rabs_pos_eq by lra. apply Rle_trans with 1; [lra|]. change 1 with (bpow radix2 0). apply bpow_le. lia. }
  split; [|exact E]. split; [exact F|]. rewrite E. split; [apply rnd_ge0; lra|]. apply rnd_ub; [apply (int_format 1); lia|lra].
Qed.
Section Machine.
  Variables (states : list string) (start_p : vector_map b64) (trans_p emit_p : matrix_map b64).
  Notation W := (weight fmul (get1 fzero start_p) (get2 fzero trans_p) (get2 fzero emit_p) fzero).
  Hypothesis unit_start : Forall (fun e => unit_double (snd e)) start_p.
  Hypothesis unit_trans : Forall (fun r => Forall (fun e => unit_double (snd e)) (snd r)) trans_p.
  Hypothesis unit_emit : Forall (fun r => Forall (fun e => unit_double (snd e)) (snd r)) emit_p.
  Lemma unit_zero : unit_double fzero. Proof. split; [reflexivity|]. cbn. lra. Qed.
  Lemma get1_unit m s : Forall (fun e => unit_double (snd e)) m -> unit_double (get1 fzero m s).
  Proof. intros H. unfold get1. destruct (assoc _ _ _) eqn:E; [|apply unit_zero]. apply (assoc_In _ Seqb_spec') in E. rewrite Forall_forall in H. exact (H _ E). Qed.
  Lemma get2_unit m a b : Forall (fun r => Forall (fun e => unit_double (snd e)) (snd r)) m -> unit_double (get2 fzero m a b).
  Proof. intros H. unfold get2. destruct (assoc _ _ _) eqn:E; [|apply unit_zero]. apply (assoc_In _ Seqb_spec') in E. rewrite Forall_forall in H. apply get1_unit. exact (H _ E). Qed.
  Lemma C52_best_proof obs : let t := forward_viterbi64 obs states start_p trans_p emit_p in
    unit_double (t_vprob t) /\ (forall p, length p = S (length obs) -> Forall (fun s => In s states) p -> B2R (W obs p) <= B2R (t_vprob t)) /\
    ((0 < B2R (t_vprob t) /\ length (t_path t) = S (length obs) /\ Forall (fun s => In s states) (t_path t) /\ W obs (t_path t) = t_vprob t) \/ (B2R (t_vprob t) = 0 /\ t_path t = [])).
  Proof.
    cbv zeta. destruct (forward_best fzero fadd fmul fgt B2R unit_double) with (states := states) (start_p := start_p) (trans_p := trans_p) (emit_p := emit_p) (obs := obs) as ((G & U & H) & C).
    - apply unit_zero.
    - reflexivity.
    - intros x (_ & X). lra.
    - intros x y X Y. now apply fmul_unit.
    - intros x y p X Y P L. destruct (fmul_unit x p X P) as (_ & ->). destruct (fmul_unit y p Y P) as (_ & ->). apply rnd_le. apply Rmult_le_compat_r; [apply P|exact L].
    - intros p P. destruct (fmul_unit fzero p unit_zero P) as (_ & ->). cbn [B2R fzero]. rewrite Rmult_0_l. apply round_0, valid_rnd_N.
    - intros x y (X & _) (Y & _). rewrite fgt_finite by assumption. destruct (Rlt_bool_spec (B2R y) (B2R x)); split; try lra; try reflexivity; discriminate.
    - intros s. now apply get1_unit.
    - intros. now apply get2_unit.
    - intros. now apply get2_unit.
    - fold forward_viterbi64 in *. set (t := forward_viterbi64 obs states start_p trans_p emit_p) in *. split; [exact G|]. split; [intros p L F; apply U; now split|].
      destruct (Rle_lt_or_eq_dec 0 (B2R (t_vprob t))) as [P|E]; [apply G|left|right; split; [now symmetry|apply C; now symmetry]]. destruct (H P) as ((L & F) & E). now repeat split.
  Qed.
End Machine.
