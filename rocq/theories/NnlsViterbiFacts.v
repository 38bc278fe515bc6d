(** Proofs about ViterbiPath of the chroma plug-in. *)
From Coq Require Import Reals Lra Lia.
From Flocq Require Import Core.Core IEEE754.BinarySingleNaN.
From Verif Require Import Base BaseFacts Fp FpFacts NumFacts FloatKit StlFacts NnlsViterbi NnlsViterbiSpec.
Open Scope R_scope.

Lemma nth_map_seq {A} (f : nat -> A) n i d : (i < n)%nat -> nth i (map f (seq 0 n)) d = f i.
Proof. intros H. rewrite (nth_indep _ d (f O)) by (rewrite map_length, seq_length; exact H). rewrite map_nth, seq_nth by exact H. reflexivity. Qed.
Lemma nth_map' {A B} (f : A -> B) l i d d' : (i < length l)%nat -> nth i (map f l) d' = f (nth i l d).
Proof. intros H. rewrite (nth_indep _ d' (f d)) by (now rewrite map_length). apply map_nth. Qed.

Lemma back_states n psis e : (e < n)%nat -> Forall (fun psi => length psi = n /\ Forall (fun s => (s < n)%nat) psi) psis -> state_sequence n (S (length psis)) (back psis e).
Proof.
  intros He. induction psis as [|psi psis IH]; intros H; [split; [reflexivity|now repeat constructor]|]. inversion H as [|? ? (L & F) H']; subst. destruct (IH H') as (Lp & Fp). cbn [back]. cbv zeta. split; [cbn; now rewrite Lp|].
  apply Forall_cons; [|exact Fp]. destruct (back psis e) as [|a p]; [discriminate|]. cbn [hd]. rewrite Forall_forall in F. apply F, nth_In. inversion Fp; subst. lia.
Qed.

Lemma seq_range n : Forall (fun i => (i < n)%nat) (seq 0 n).
Proof. apply Forall_forall. intros i H. apply in_seq in H. lia. Qed.
Section Pick.
  Context {D : Type} (zero : D) (gtb : D -> D -> bool).
  Lemma pick_range n (v : nat -> D) l b : (fst b < n)%nat -> Forall (fun i => (i < n)%nat) l ->
    (fst (fold_left (fun b i => if gtb (v i) (snd b) then (i, v i) else b) l b) < n)%nat.
  Proof. revert b. induction l as [|i l IH]; intros b Hb Hl; [exact Hb|]. cbn [fold_left]. inversion Hl; subst. apply IH; [|assumption]. destruct (gtb _ _); assumption. Qed.
  Lemma last_state_range n d : (1 <= n)%nat -> (last_state zero gtb n d < n)%nat.
  Proof. intros H. unfold last_state. apply (pick_range n (fun i => at_ zero d i)); [cbn; lia|apply seq_range]. Qed.
End Pick.
(** ** Indices, whatever the arithmetic *)
Section Index.
  Context {D : Type} (zero one : D) (add mul div : D -> D -> D) (gtb : D -> D -> bool) (inv_count : nat -> D).
  Notation best_previous := (best_previous zero mul gtb).
  Notation frame := (frame zero add mul div gtb inv_count).
  Notation frames := (frames zero add mul div gtb inv_count).
  Lemma best_previous_range n trans d o j : (1 <= n)%nat -> (fst (best_previous n trans d o j) < n)%nat.
  Proof. intros H. unfold NnlsViterbi.best_previous. destruct (gtb o zero); [|cbn; lia]. apply (pick_range gtb n (fun i => mul (at_ zero d i) (at_ zero (nth i trans []) j))); [cbn; lia|apply seq_range]. Qed.
  Lemma frame_psi n trans d ob : (1 <= n)%nat -> let f := frame n trans d ob in length (fst (fst f)) = n /\ Forall (fun s => (s < n)%nat) (fst (fst f)) /\ length (snd (fst f)) = n.
  Proof.
    intros H. unfold NnlsViterbi.frame. cbv zeta. cbn [fst snd]. rewrite !map_length, seq_length. split; [reflexivity|]. split.
    - apply Forall_forall. intros s. rewrite map_map, in_map_iff. intros (j & <- & _). now apply best_previous_range.
    - destruct (gtb _ _); now rewrite !map_length, seq_length.
  Qed.
  Lemma frames_length n trans d obs : length (frames n trans d obs) = length obs.
  Proof. revert d. induction obs as [|ob obs IH]; intros d; [reflexivity|]. cbn. now rewrite IH. Qed.
  Lemma frames_psi n trans d obs : (1 <= n)%nat -> Forall (fun f => length (fst (fst f)) = n /\ Forall (fun s => (s < n)%nat) (fst (fst f)) /\ length (snd (fst f)) = n) (frames n trans d obs).
  Proof. intros H. revert d. induction obs as [|ob obs IH]; intros d; [constructor|]. cbn [NnlsViterbi.frames]. apply Forall_cons; [now apply frame_psi|apply IH]. Qed.
  Lemma run_states init trans ob obs : (1 <= length init)%nat ->
    let r := run_viterbi zero one add mul div gtb inv_count init trans ob obs in
    state_sequence (length init) (S (length obs)) (v_states r) /\ length (v_delta r) = S (length obs) /\ Forall (fun row => length row = length init) (v_delta r) /\ length (v_scale r) = S (length obs).
  Proof.
    intros H. unfold run_viterbi, first_frame. cbv zeta. cbn [v_states v_delta v_scale]. set (d := map _ (map _ (seq 0 _))). set (fs := frames _ _ d _).
    pose proof (frames_psi (length init) trans d obs H) as P. fold fs in P. pose proof (frames_length (length init) trans d obs) as L. fold fs in L.
    split; [|split; [|split]].
    - rewrite <- L, <- (map_length (fun f => fst (fst f)) fs). apply back_states; [now apply last_state_range|]. apply Forall_map. revert P. apply Forall_impl. now intros f (A & B & _).
    - cbn. now rewrite map_length, L.
    - apply Forall_cons; [unfold d; now rewrite !map_length, seq_length|]. apply Forall_map. revert P. apply Forall_impl. now intros f (_ & _ & C).
    - cbn. now rewrite map_length, L.
  Qed.
End Index.

(** ** The best path *)
Section Best.
  Context {D : Type} (zero one : D) (add mul div : D -> D -> D) (gtb : D -> D -> bool) (inv_count : nat -> D) (val : D -> R) (good sgood : D -> Prop) (small : nat -> Prop).
  Hypothesis good_zero : good zero.
  Hypothesis val_zero : val zero = 0.
  Hypothesis good_pos : forall x, good x -> 0 <= val x.
  Hypothesis good_mul : forall x y, good x -> good y -> good (mul x y).
  Hypothesis mul_mono : forall x y p, good x -> good y -> good p -> val x <= val y -> val (mul x p) <= val (mul y p).
  Hypothesis mul_zero : forall x p, good x -> good p -> val x = 0 -> val (mul x p) = 0.
  Hypothesis mul_zero_r : forall x p, good x -> good p -> val p = 0 -> val (mul x p) = 0.
  Hypothesis gtb_val : forall x y, good x -> good y -> gtb x y = true <-> val y < val x.
  Hypothesis sgtb_val : forall x, sgood x -> gtb x zero = true <-> 0 < val x.
  Hypothesis sum_ok : forall l, small (length l) -> Forall good l -> sgood (row_sum zero add l) /\ forall x, In x l -> val x <= val (row_sum zero add l).
  Hypothesis div_good : forall x s, good x -> sgood s -> 0 < val s -> val x <= val s -> good (div x s).
  Hypothesis div_mono : forall x y s, good x -> good y -> sgood s -> 0 < val s -> val x <= val y -> val y <= val s -> val (div x s) <= val (div y s).
  Hypothesis div_zero : forall x s, good x -> sgood s -> 0 < val s -> val x = 0 -> val (div x s) = 0.
  Notation best_previous := (best_previous zero mul gtb).
  Notation frame := (frame zero add mul div gtb inv_count).
  Notation frames := (frames zero add mul div gtb inv_count).
  Variables (n : nat) (trans : list (list D)).
  Hypothesis n_pos : (1 <= n)%nat.
  Hypothesis n_small : small n.
  Hypothesis good_trans : forall i j, good (nth j (nth i trans []) zero).
  Lemma gtb_false x y : good x -> good y -> gtb x y = false -> val x <= val y.
  Proof. intros X Y E. apply Rnot_lt_le. intros L. apply gtb_val in L; [congruence|assumption|assumption]. Qed.
  Definition good_row (d : list D) : Prop := forall i, good (nth i d zero).
  (** Choosing the largest. *)
  Lemma pick_best (v : nat -> D) l b : (forall i, good (v i)) -> good (snd b) ->
    let r := fold_left (fun b i => if gtb (v i) (snd b) then (i, v i) else b) l b in
    good (snd r) /\ val (snd b) <= val (snd r) /\ (forall i, In i l -> val (v i) <= val (snd r)) /\ (r = b \/ snd r = v (fst r) /\ val (snd b) < val (snd r)).
  Proof.
    intros V. revert b. induction l as [|i l IH]; intros b B; cbv zeta.
    - cbn. split; [exact B|]. split; [lra|]. split; [now intros i []|now left].
    - cbn [fold_left]. destruct (gtb (v i) (snd b)) eqn:E.
      + apply gtb_val in E; [|auto|auto]. destruct (IH (i, v i) (V i)) as (G & L & U & C). cbn [fst snd] in *. split; [exact G|]. split; [lra|]. split; [intros k [<-|K]; [exact L|auto]|].
        right. destruct C as [C|(C1 & C2)]; [rewrite C; cbn; split; [reflexivity|lra]|split; [exact C1|lra]].
      + apply gtb_false in E; [|auto|auto]. destruct (IH b B) as (G & L & U & C). split; [exact G|]. split; [exact L|]. split; [intros k [<-|K]; [lra|auto]|exact C].
  Qed.
  (** What is kept for one state. *)
  Lemma best_previous_ok d o j : good_row d -> good o -> let r := best_previous n trans d o j in
    good (snd r) /\ (forall i, (i < n)%nat -> val (mul (mul (nth i d zero) (nth j (nth i trans []) zero)) o) <= val (mul (snd r) o)) /\
    (0 < val (mul (snd r) o) -> snd r = mul (nth (fst r) d zero) (nth j (nth (fst r) trans []) zero)).
  Proof.
    intros Hd Ho. unfold NnlsViterbi.best_previous. destruct (gtb o zero) eqn:E; cbv zeta.
    - destruct (pick_best (fun i => mul (at_ zero d i) (at_ zero (nth i trans []) j)) (seq 0 n) ((n - 1)%nat, zero)) as (G & L & U & C); [intros i; apply good_mul; [apply Hd|apply good_trans]|exact good_zero|].
      cbv zeta. match goal with |- good (snd ?r) /\ _ => set (r0 := r) in * end. split; [exact G|]. split.
      + intros i Hi. apply mul_mono; [apply good_mul; [apply Hd|apply good_trans]|exact G|exact Ho|]. apply (U i). apply in_seq. lia.
      + intros P. destruct C as [C|(C & _)]; [|exact C]. exfalso. rewrite C in P. cbn [snd] in P. rewrite (mul_zero zero o good_zero Ho val_zero) in P. lra.
    - apply gtb_false in E; [|exact Ho|exact good_zero]. rewrite val_zero in E. assert (Z : val o = 0) by (pose proof (good_pos o Ho); lra). cbn [fst snd]. split; [exact good_zero|]. split.
      + intros i _. rewrite !mul_zero_r; try assumption; try lra. apply good_mul; [apply Hd|apply good_trans].
      + rewrite mul_zero_r by assumption. lra.
  Qed.
  (** One frame whose sum is positive. *)
  Lemma frame_ok d ob : good_row d -> good_row ob -> let f := frame n trans d ob in
    sgood (snd f) /\ (forall w i j, (i < n)%nat -> (j < n)%nat -> good w -> val w <= val (nth i d zero) -> val (mul (mul w (nth j (nth i trans []) zero)) (nth j ob zero)) <= val (snd f)) /\
    (0 < val (snd f) -> good_row (snd (fst f)) /\ forall j, (j < n)%nat ->
      (forall w i, (i < n)%nat -> good w -> val w <= val (nth i d zero) -> let x := mul (mul w (nth j (nth i trans []) zero)) (nth j ob zero) in good (div x (snd f)) /\ val (div x (snd f)) <= val (nth j (snd (fst f)) zero)) /\
      (0 < val (nth j (snd (fst f)) zero) -> let i := nth j (fst (fst f)) O in nth j (snd (fst f)) zero = div (mul (mul (nth i d zero) (nth j (nth i trans []) zero)) (nth j ob zero)) (snd f))).
  Proof.
    intros Hd Hob. unfold NnlsViterbi.frame. cbv zeta. cbn [fst snd].
    set (bests := map (fun j => best_previous n trans d (at_ zero ob j) j) (seq 0 n)). set (d' := map _ (seq 0 n)). set (s := row_sum zero add d').
    assert (Lb : length bests = n) by (unfold bests; now rewrite map_length, seq_length). assert (Ld : length d' = n) by (unfold d'; now rewrite map_length, seq_length).
    assert (B : forall j, (j < n)%nat -> nth j bests (O, zero) = best_previous n trans d (nth j ob zero) j) by (intros j Hj; unfold bests; now rewrite nth_map_seq).
    assert (E : forall j, (j < n)%nat -> nth j d' zero = mul (snd (best_previous n trans d (nth j ob zero) j)) (nth j ob zero)) by (intros j Hj; unfold d'; rewrite nth_map_seq by exact Hj; now rewrite B).
    assert (G : forall j, (j < n)%nat -> good (nth j d' zero)). { intros j Hj. rewrite E by exact Hj. apply good_mul; [|apply Hob]. now apply (best_previous_ok d (nth j ob zero) j Hd (Hob j)). }
    assert (GF : Forall good d'). { apply Forall_forall. intros x Hx. destruct (In_nth d' x zero Hx) as (j & Hj & <-). apply G. lia. }
    destruct (sum_ok d') as (Sg & U); [now rewrite Ld|exact GF|]. fold s in Sg, U. split; [exact Sg|].
    assert (Us : forall j, (j < n)%nat -> val (nth j d' zero) <= val s) by (intros j Hj; apply U, nth_In; lia).
    assert (X : forall w i j, (i < n)%nat -> (j < n)%nat -> good w -> val w <= val (nth i d zero) -> val (mul (mul w (nth j (nth i trans []) zero)) (nth j ob zero)) <= val (nth j d' zero)).
    { intros w i j Hi Hj Gw Lw. destruct (best_previous_ok d (nth j ob zero) j Hd (Hob j)) as (_ & U1 & _). rewrite E by exact Hj. apply Rle_trans with (2 := U1 i Hi). apply mul_mono; [now apply good_mul|apply good_mul; [apply Hd|apply good_trans]|apply Hob|]. now apply mul_mono. }
    split; [intros w i j Hi Hj Gw Lw; apply Rle_trans with (2 := Us j Hj); now apply X|]. intros P. rewrite (proj2 (sgtb_val s Sg) P).
    assert (N : forall j, (j < n)%nat -> nth j (map (fun x => div x s) d') zero = div (nth j d' zero) s) by (intros j Hj; rewrite (nth_map' (fun x => div x s) d' j zero zero) by lia; reflexivity).
    split.
    - intros j. destruct (Nat.lt_ge_cases j n) as [Hj|Hj]; [|rewrite nth_overflow by (rewrite map_length; lia); exact good_zero]. rewrite N by exact Hj. apply div_good; auto.
    - intros j Hj. rewrite N by exact Hj. destruct (best_previous_ok d (nth j ob zero) j Hd (Hob j)) as (G1 & U1 & K1). split.
      + intros w i Hi Gw Lw. cbv zeta. assert (Gx : good (mul (mul w (nth j (nth i trans []) zero)) (nth j ob zero))) by (apply good_mul; [apply good_mul; [exact Gw|apply good_trans]|apply Hob]).
        specialize (X w i j Hi Hj Gw Lw).
        pose proof (Us j Hj). split; [apply div_good; try assumption; lra|apply div_mono; auto].
      + intros Pj. rewrite (nth_map' fst bests j (O, zero) O) by lia. rewrite B by exact Hj. rewrite <- K1; [now rewrite E|].
        rewrite <- E by exact Hj. destruct (Rle_lt_or_eq_dec _ _ (good_pos _ (G j Hj))) as [|Z]; [assumption|]. rewrite div_zero in Pj; auto. lra.
  Qed.
  Notation chain := (scaled_from zero mul div trans).
  Lemma chain_zero obs sums : Forall good_row obs -> Forall (fun s => sgood s /\ 0 < val s) sums -> forall w i q, good w -> val w = 0 -> val (chain w i obs sums q) = 0.
  Proof.
    revert sums. induction obs as [|ob obs IH]; intros sums Ho Hs w i q Gw Zw; [exact Zw|]. destruct sums as [|s sums]; [exact Zw|]. destruct q as [|j q]; [exact Zw|].
    inversion Ho as [|? ? Hob Ho']; subst. inversion Hs as [|? ? (Sg & Sp) Hs']; subst. cbn [scaled_from].
    assert (G1 : good (mul w (nth j (nth i trans []) zero))) by (apply good_mul; auto). assert (Z1 := mul_zero _ _ Gw (good_trans i j) Zw).
    assert (G2 : good (mul (mul w (nth j (nth i trans []) zero)) (nth j ob zero))) by (apply good_mul; [exact G1|apply Hob]). assert (Z2 := mul_zero _ _ G1 (Hob j) Z1).
    apply IH; try assumption; [apply div_good; try assumption; lra|now apply div_zero].
  Qed.
  Lemma last_default {A} (l : list A) a b : l <> [] -> last l a = last l b.
  Proof. induction l as [|x l IH]; intros H; [congruence|]. destruct l; [reflexivity|]. cbn [last] in *. apply IH. discriminate. Qed.
  (** All further frames. *)
  Lemma frames_ok obs : forall d, good_row d -> length d = n -> Forall good_row obs ->
    let fs := frames n trans d obs in let rows := d :: map (fun f => snd (fst f)) fs in
    Forall (fun f => 0 < val (snd f)) fs ->
    Forall (fun s => sgood s /\ 0 < val s) (map snd fs) /\ forall e, (e < n)%nat ->
    let dl := last rows d in let p := back (map (fun f => fst (fst f)) fs) e in
    good_row dl /\
    (forall w i q, (i < n)%nat -> good w -> val w <= val (nth i d zero) -> state_sequence n (length obs) q -> last (i :: q) i = e ->
       good (chain w i obs (map snd fs) q) /\ val (chain w i obs (map snd fs) q) <= val (nth e dl zero)) /\
    (0 < val (nth e dl zero) -> chain (nth (hd O p) d zero) (hd O p) obs (map snd fs) (tl p) = nth e dl zero).
  Proof.
    induction obs as [|ob obs IH]; intros d Hd Ld Hobs; cbv zeta.
    - intros _. split; [constructor|]. intros e He. cbn. split; [exact Hd|]. split; [|reflexivity]. intros w i q Hi Gw Lw (Lq & _) Eq. apply length_zero_iff_nil in Lq. subst q. cbn in *. subst e. now split.
    - cbn [NnlsViterbi.frames map]. pose proof (Forall_inv Hobs) as Hob; pose proof (Forall_inv_tail Hobs) as Hobs'; cbv beta in Hob. set (f := frame n trans d ob). intros HF. pose proof (Forall_inv HF) as Pf; pose proof (Forall_inv_tail HF) as HF'; cbv beta in Pf.
      destruct (frame_ok d ob Hd Hob) as (Sf & _ & Hf). fold f in Hf, Sf. destruct (Hf Pf) as (Gd' & Hj).
      assert (Ld' : length (snd (fst f)) = n) by (apply (frame_psi zero add mul div gtb inv_count n trans d ob n_pos)).
      specialize (IH (snd (fst f)) Gd' Ld' Hobs'). cbv zeta in IH. specialize (IH HF'). destruct IH as (SS & IH). split; [apply Forall_cons; [now split|exact SS]|]. intros e He. specialize (IH e He). destruct IH as (Gl & U & K).
      set (fs := frames n trans (snd (fst f)) obs) in *. set (psis := map (fun f => fst (fst f)) fs) in *.
      assert (EL : last (d :: snd (fst f) :: map (fun f => snd (fst f)) fs) d = last (snd (fst f) :: map (fun f => snd (fst f)) fs) (snd (fst f))).
      { change (last (d :: snd (fst f) :: map (fun f => snd (fst f)) fs) d) with (last (snd (fst f) :: map (fun f => snd (fst f)) fs) d). apply last_default. discriminate. }
      rewrite EL. set (dl := last (snd (fst f) :: map (fun f => snd (fst f)) fs) (snd (fst f))) in *. split; [exact Gl|]. split.
      + intros w i q Hi Gw Lw (Lq & Fq) Eq. destruct q as [|j q]; [discriminate|]. pose proof (Forall_inv Fq) as Hjn; pose proof (Forall_inv_tail Fq) as Fq'; cbv beta in Hjn. cbn [scaled_from]. destruct (Hj j Hjn) as (A & _). destruct (A w i Hi Gw Lw) as (A1 & A2).
        apply U; try assumption; [split; [cbn in Lq; lia|exact Fq']|]. rewrite <- Eq. change (last (i :: j :: q) i) with (last (j :: q) i). apply last_default. discriminate.
      + intros P. specialize (K P). cbn [back]. cbv zeta. cbn [hd tl].
        assert (Sp : state_sequence n (S (length psis)) (back psis e)).
        { apply back_states; [exact He|]. unfold psis. apply Forall_map. pose proof (frames_psi zero add mul div gtb inv_count n trans (snd (fst f)) obs n_pos) as X. revert X. apply Forall_impl. now intros g (X1 & X2 & _). }
        destruct (back psis e) as [|j p]; [destruct Sp; discriminate|]. destruct Sp as (Lp & Fp). pose proof (Forall_inv Fp) as Hjn; pose proof (Forall_inv_tail Fp) as Fp'; cbv beta in Hjn. cbn [hd tl] in *. cbn [scaled_from]. destruct (Hj j Hjn) as (_ & B).
        rewrite <- B; [exact K|]. destruct (Rle_lt_or_eq_dec _ _ (good_pos _ (Gd' j))) as [|Z]; [assumption|]. exfalso.
        rewrite <- K in P. rewrite (chain_zero obs (map snd fs) Hobs' SS _ j p (Gd' j) (eq_sym Z)) in P. lra.
  Qed.
  (** The whole run, when no frame has to be restarted. *)
  Lemma run_best init ob obs : length init = n -> good_row init -> good_row ob -> Forall good_row obs ->
    let r := run_viterbi zero one add mul div gtb inv_count init trans ob obs in
    Forall (fun s => 0 < val s) (v_sums r) ->
    forall q, state_sequence n (S (length obs)) q ->
    val (scaled_weight zero mul div init trans (ob :: obs) (v_sums r) q) <= val (scaled_weight zero mul div init trans (ob :: obs) (v_sums r) (v_states r)).
  Proof.
    intros Li Hi Ho Hobs. unfold run_viterbi, first_frame. rewrite Li. cbv zeta. cbn [v_states v_sums].
    set (d0 := map (fun i => mul (at_ zero init i) (at_ zero ob i)) (seq 0 n)). set (s := row_sum zero add d0). set (d := map (fun x => div x s) d0). set (fs := frames n trans d obs).
    intros HP. pose proof (Forall_inv HP) as Ps; pose proof (Forall_inv_tail HP) as HP'; cbv beta in Ps.
    assert (Ld0 : length d0 = n) by (unfold d0; now rewrite map_length, seq_length). assert (Ld : length d = n) by (unfold d; now rewrite map_length).
    assert (E0 : forall i, (i < n)%nat -> nth i d0 zero = mul (nth i init zero) (nth i ob zero)) by (intros i Hn; unfold d0; now rewrite nth_map_seq).
    assert (GF : Forall good d0). { apply Forall_forall. intros x Hx. destruct (In_nth d0 x zero Hx) as (j & Hj & <-). rewrite E0 by lia. apply good_mul; [apply Hi|apply Ho]. }
    destruct (sum_ok d0) as (Sg & U0); [now rewrite Ld0|exact GF|]. fold s in Sg, U0.
    assert (E : forall i, (i < n)%nat -> nth i d zero = div (mul (nth i init zero) (nth i ob zero)) s) by (intros i Hn; unfold d; rewrite (nth_map' (fun x => div x s) d0 i zero zero) by lia; now rewrite E0).
    assert (Gd : good_row d).
    { intros i. destruct (Nat.lt_ge_cases i (n)) as [Hn|Hn]; [|rewrite nth_overflow by lia; exact good_zero]. rewrite E by exact Hn. rewrite <- E0 by exact Hn.
      apply div_good; try assumption; [rewrite Forall_forall in GF; apply GF, nth_In; lia|apply U0, nth_In; lia]. }
    assert (HF : Forall (fun f => 0 < val (snd f)) fs) by exact (proj1 (Forall_map snd (fun s => 0 < val s) fs) HP').
    destruct (frames_ok obs d Gd Ld Hobs HF) as (SS & OK). fold fs in SS, OK. set (dl := last (d :: map (fun f => snd (fst f)) fs) d) in *.
    set (e := last_state zero gtb (n) dl). assert (He : (e < n)%nat) by (apply last_state_range; exact n_pos).
    intros q (Lq & Fq). destruct q as [|i q]; [discriminate|]. pose proof (Forall_inv Fq) as Hin; pose proof (Forall_inv_tail Fq) as Fq'; cbv beta in Hin.
    (* the last value is the largest *)
    assert (M : forall k, (k < n)%nat -> val (nth k dl zero) <= val (nth e dl zero)).
    { destruct (OK e He) as (Gl & _ & _). intros k Hk. unfold e, last_state in *.
      destruct (pick_best (fun i => at_ zero dl i) (seq 0 (n)) ((n - 1)%nat, zero)) as (G & L & U & C); [exact Gl|exact good_zero|]. cbn [snd] in *.
      assert (Hk' : val (at_ zero dl k) <= val (snd (fold_left (fun b i => if gtb (at_ zero dl i) (snd b) then (i, at_ zero dl i) else b) (seq 0 (n)) ((n - 1)%nat, zero)))) by (apply U, in_seq; lia).
      unfold at_ at 1 in Hk'. destruct C as [C|(C & _)].
      - rewrite C in Hk' |- *. cbn [fst snd] in *. rewrite val_zero in Hk'. pose proof (good_pos _ (Gl (n - 1)%nat)). lra.
      - rewrite C in Hk'. exact Hk'. }
    set (e' := last (i :: q) i). assert (He' : (e' < n)%nat).
    { rewrite Forall_forall in Fq. apply Fq. unfold e'. destruct (exists_last (l := i :: q)) as (l & x & El); [discriminate|]. rewrite El. rewrite last_last. apply in_or_app. right. now left. }
    destruct (OK e' He') as (_ & U & _). destruct (OK e He) as (Gl & U2 & K).
    assert (Sp : state_sequence (n) (S (length (map (fun f => fst (fst f)) fs))) (back (map (fun f => fst (fst f)) fs) e)).
    { apply back_states; [exact He|]. apply Forall_map. pose proof (frames_psi zero add mul div gtb inv_count (n) trans d obs n_pos) as X. revert X. apply Forall_impl. now intros g (X1 & X2 & _). }
    destruct (back (map (fun f => fst (fst f)) fs) e) as [|a p]; [destruct Sp; discriminate|]. destruct Sp as (Lp & Fp). pose proof (Forall_inv Fp) as Han; pose proof (Forall_inv_tail Fp) as Fp'; cbv beta in Han. cbn [hd tl] in K.
    cbn [scaled_weight]. rewrite <- !E by assumption.
    destruct (U (nth i d zero) i q Hin (Gd i) (Rle_refl _)) as (_ & UU); [split; [cbn in Lq; lia|exact Fq']|reflexivity|]. specialize (M e' He').
    destruct (Rle_lt_or_eq_dec _ _ (good_pos _ (Gl e))) as [P|Z]; [rewrite (K P); lra|].
    assert (Lfs : length fs = length obs) by apply frames_length.
    set (e2 := last (a :: p) a). assert (He2 : (e2 < n)%nat).
    { rewrite Forall_forall in Fp. apply Fp. unfold e2. destruct (exists_last (l := a :: p)) as (l & x & El); [discriminate|]. rewrite El. rewrite last_last. apply in_or_app. right. now left. }
    destruct (OK e2 He2) as (_ & U3 & _). destruct (U3 (nth a d zero) a p Han (Gd a) (Rle_refl _)) as (G3 & _); [split; [cbn in Lp; rewrite map_length in Lp; lia|exact Fp']|reflexivity|]. apply good_pos in G3. lra.
  Qed.
End Best.

(** ** Real numbers *)
Definition viterbi_pathR := viterbi_path 0 1 Rplus Rmult Rdiv Rgtb (fun n => / INR n).
Definition runR := run_viterbi 0 1 Rplus Rmult Rdiv Rgtb (fun n => / INR n).
Lemma Rgtb_spec x y : Rgtb x y = true <-> y < x.
Proof. unfold Rgtb. destruct (Rlt_dec y x); split; try lra; discriminate. Qed.
Definition nonneg_row (l : list R) : Prop := Forall (fun x => 0 <= x) l.
Lemma nonneg_nth l : nonneg_row l -> forall i, 0 <= nth i l 0.
Proof. intros H i. destruct (Nat.lt_ge_cases i (length l)) as [L|L]; [|rewrite nth_overflow by exact L; lra]. unfold nonneg_row in H. rewrite Forall_forall in H. apply H, nth_In, L. Qed.
Lemma nonneg_nth2 m : Forall nonneg_row m -> forall i j, 0 <= nth j (nth i m []) 0.
Proof. intros H i j. apply nonneg_nth. destruct (Nat.lt_ge_cases i (length m)) as [L|L]; [|rewrite nth_overflow by exact L; constructor]. rewrite Forall_forall in H. apply H, nth_In, L. Qed.
Lemma fold_plus_ge l a : nonneg_row l -> a <= fold_left Rplus l a /\ forall x, In x l -> 0 <= a -> x <= fold_left Rplus l a.
Proof.
  revert a. induction l as [|y l IH]; intros a H; cbn [fold_left]; [split; [lra|now intros x []]|]. pose proof (Forall_inv H) as Y. cbv beta in Y. destruct (IH (a + y) (Forall_inv_tail H)) as (A & B). split; [lra|].
  intros x [<-|I] P; [lra|apply B; [exact I|lra]].
Qed.
Lemma exact_scale trans c w i obs q : exact_from trans (c * w) i obs q = c * exact_from trans w i obs q.
Proof.
  revert w i q. induction obs as [|ob obs IH]; intros w i q; [reflexivity|]. destruct q as [|j q]; [reflexivity|]. cbn [exact_from]. rewrite <- IH. f_equal. ring.
Qed.
Definition product (l : list R) : R := fold_right Rmult 1 l.
Lemma product_pos l : Forall (fun s => 0 < s) l -> 0 < product l.
Proof. induction l as [|s l IH]; intros H; cbn; [lra|]. apply Rmult_lt_0_compat; [exact (Forall_inv H)|apply IH, (Forall_inv_tail H)]. Qed.
Lemma scaled_exact trans sums : Forall (fun s => 0 < s) sums -> forall obs w i q, length sums = length obs -> length q = length obs ->
  exact_from trans w i obs q = scaled_from 0 Rmult Rdiv trans w i obs sums q * product sums.
Proof.
  induction sums as [|s sums IH]; intros H obs w i q L1 L2; destruct obs as [|ob obs]; try discriminate; [cbn; lra|]. destruct q as [|j q]; [discriminate|].
  cbn [exact_from scaled_from]. pose proof (Forall_inv H) as P. cbv beta in P. cbn in L1, L2. change (product (s :: sums)) with (s * product sums).
  set (x := w * nth j (nth i trans []) 0 * nth j ob 0). transitivity (s * exact_from trans (x / s) j obs q); [rewrite <- exact_scale; f_equal; field; lra|]. rewrite (IH (Forall_inv_tail H) obs (x / s) j q) by lia. ring.
Qed.
Lemma scaled_exact_weight init trans obs sums q : Forall (fun s => 0 < s) sums -> length sums = length obs -> length q = length obs ->
  exact_weight init trans obs q = scaled_weight 0 Rmult Rdiv init trans obs sums q * product sums.
Proof.
  intros H L1 L2. destruct obs as [|ob obs]; destruct sums as [|s sums]; destruct q as [|i q]; try discriminate; [cbn; lra|]. cbn [exact_weight scaled_weight]. pose proof (Forall_inv H) as P. cbv beta in P. cbn in L1, L2.
  change (product (s :: sums)) with (s * product sums). set (x := nth i init 0 * nth i ob 0).
  transitivity (s * exact_from trans (x / s) i obs q); [rewrite <- exact_scale; f_equal; field; lra|]. rewrite (scaled_exact trans sums (Forall_inv_tail H) obs (x / s) i q) by lia. ring.
Qed.
Lemma exact_zero trans i obs q : exact_from trans 0 i obs q = 0.
Proof. replace 0 with (0 * 0) at 1 by ring. rewrite exact_scale. ring. Qed.
Section Reals.
  Variables (init : list R) (trans : list (list R)) (ob : list R) (obs : list (list R)).
  Hypothesis n_pos : (1 <= length init)%nat.
  Hypothesis pos_init : nonneg_row init.
  Hypothesis pos_trans : Forall nonneg_row trans.
  Hypothesis pos_obs : Forall nonneg_row (ob :: obs).
  Let n := length init.
  Notation frameR := (frame 0 Rplus Rmult Rdiv Rgtb (fun n => / INR n)).
  Notation framesR := (frames 0 Rplus Rmult Rdiv Rgtb (fun n => / INR n)).
  Lemma frame_R d ob' : (forall i, 0 <= nth i d 0) -> nonneg_row ob' -> let f := frameR n trans d ob' in
    0 <= snd f /\ (forall i j, (i < n)%nat -> (j < n)%nat -> forall w, 0 <= w <= nth i d 0 -> w * nth j (nth i trans []) 0 * nth j ob' 0 <= snd f) /\
    (0 < snd f -> (forall j, 0 <= nth j (snd (fst f)) 0) /\ forall j, (j < n)%nat -> forall w i, (i < n)%nat -> 0 <= w <= nth i d 0 -> w * nth j (nth i trans []) 0 * nth j ob' 0 / snd f <= nth j (snd (fst f)) 0).
  Proof.
    intros Hd Ho. cbv zeta.
    destruct (frame_ok 0 Rplus Rmult Rdiv Rgtb (fun n => / INR n) (fun x => x) (fun x => 0 <= x) (fun x => 0 <= x) (fun _ => True)) with (n := n) (trans := trans) (d := d) (ob := ob') as (A & B & C); try exact I; try (intros; cbv beta in *; lra).
    - intros; now apply Rmult_le_pos.
    - intros; now apply Rmult_le_compat_r.
    - intros x p _ _ ->. apply Rmult_0_l.
    - intros x p _ _ ->. apply Rmult_0_r.
    - intros. apply Rgtb_spec.
    - intros. apply Rgtb_spec.
    - intros l _ H. destruct (fold_plus_ge l 0 H) as (P & Q). unfold row_sum. split; [exact P|]. intros x Hx. apply Q; [exact Hx|lra].
    - intros x s X S P _. unfold Rdiv. apply Rmult_le_pos; [exact X|]. left. now apply Rinv_0_lt_compat.
    - intros x y s X Y S P L _. unfold Rdiv. apply Rmult_le_compat_r; [left; now apply Rinv_0_lt_compat|exact L].
    - intros x s X S P ->. unfold Rdiv. apply Rmult_0_l.
    - exact n_pos.
    - intros. now apply nonneg_nth2.
    - exact Hd.
    - intros j. now apply nonneg_nth.
    - split; [exact A|]. split; [intros i j Hi Hj w Hw; apply B; try assumption; lra|]. intros P. destruct (C P) as (C1 & C2). split; [exact C1|]. intros j Hj w i Hi Hw. destruct (C2 j Hj) as (C3 & _). apply C3; try assumption; lra.
  Qed.
  (** A frame without any weight: then no sequence has weight. *)
  Lemma frames_zero os : Forall nonneg_row os -> forall d, (forall i, 0 <= nth i d 0) ->
    ~ Forall (fun f => 0 < snd f) (framesR n trans d os) -> forall w i q, (i < n)%nat -> 0 <= w <= nth i d 0 -> state_sequence n (length os) q -> exact_from trans w i os q = 0.
  Proof.
    induction os as [|o os IH]; intros Hos d Hd HN w i q Hi Hw (Lq & Fq); [exfalso; apply HN; constructor|]. destruct q as [|j q]; [discriminate|]. cbn [frames] in HN. cbn [exact_from].
    destruct (frame_R d o Hd (Forall_inv Hos)) as (A & B & C). set (f := frameR n trans d o) in *. pose proof (Forall_inv Fq) as Hj. cbv beta in Hj. specialize (B i j Hi Hj w Hw).
    set (x := w * nth j (nth i trans []) 0 * nth j o 0) in *. assert (Px : 0 <= x) by (apply Rmult_le_pos; [apply Rmult_le_pos; [lra|now apply nonneg_nth2]|apply nonneg_nth, (Forall_inv Hos)]).
    destruct (Rle_lt_or_eq_dec _ _ A) as [P|Z]; [|replace x with 0 by lra; apply exact_zero]. destruct (C P) as (C1 & C2). specialize (C2 j Hj w i Hi Hw). fold x in C2.
    replace x with (snd f * (x / snd f)) by (field; lra). rewrite exact_scale. rewrite (IH (Forall_inv_tail Hos) (snd (fst f)) C1); [lra| |exact Hj| |].
    - intros H. apply HN. now apply Forall_cons.
    - split; [|exact C2]. unfold Rdiv. apply Rmult_le_pos; [exact Px|]. left. now apply Rinv_0_lt_compat.
    - split; [cbn in Lq; lia|exact (Forall_inv_tail Fq)].
  Qed.
  Lemma run_R_scaled : let r := runR init trans ob obs in Forall (fun s => 0 < s) (v_sums r) -> forall q, state_sequence n (S (length obs)) q ->
    scaled_weight 0 Rmult Rdiv init trans (ob :: obs) (v_sums r) q <= scaled_weight 0 Rmult Rdiv init trans (ob :: obs) (v_sums r) (v_states r).
  Proof.
    apply (run_best 0 1 Rplus Rmult Rdiv Rgtb (fun n => / INR n) (fun x => x) (fun x => 0 <= x) (fun x => 0 <= x) (fun _ => True)); try exact I; try (intros; cbv beta in *; lra).
    - intros; now apply Rmult_le_pos.
    - intros; now apply Rmult_le_compat_r.
    - intros x p _ _ ->. apply Rmult_0_l.
    - intros x p _ _ ->. apply Rmult_0_r.
    - intros. apply Rgtb_spec.
    - intros. apply Rgtb_spec.
    - intros l _ H. destruct (fold_plus_ge l 0 H) as (P & Q). unfold row_sum. split; [exact P|]. intros x Hx. apply Q; [exact Hx|lra].
    - intros x s X S P _. unfold Rdiv. apply Rmult_le_pos; [exact X|]. left. now apply Rinv_0_lt_compat.
    - intros x y s X Y S P L _. unfold Rdiv. apply Rmult_le_compat_r; [left; now apply Rinv_0_lt_compat|exact L].
    - intros x s X S P ->. unfold Rdiv. apply Rmult_0_l.
    - exact n_pos.
    - intros. now apply nonneg_nth2.
    - reflexivity.
    - intros j. now apply nonneg_nth.
    - intros j. apply nonneg_nth, (Forall_inv pos_obs).
    - pose proof (Forall_inv_tail pos_obs) as H. revert H. apply Forall_impl. intros a Ha j. now apply nonneg_nth.
  Qed.
  Lemma run_R_best q : state_sequence n (S (length obs)) q -> exact_weight init trans (ob :: obs) q <= exact_weight init trans (ob :: obs) (v_states (runR init trans ob obs)).
  Proof.
    intros Hq. destruct (run_states 0 1 Rplus Rmult Rdiv Rgtb (fun n => / INR n) init trans ob obs n_pos) as ((Lr & Fr) & _). fold runR in Lr, Fr.
    set (r := runR init trans ob obs) in *. destruct (Forall_dec (fun s => 0 < s) (fun s => Rlt_dec 0 s) (v_sums r)) as [P|N].
    - assert (Ls : length (v_sums r) = length (ob :: obs)) by (unfold r, runR, run_viterbi; cbn; now rewrite map_length, frames_length).
      rewrite (scaled_exact_weight init trans (ob :: obs) (v_sums r) q P Ls) by apply Hq. rewrite (scaled_exact_weight init trans (ob :: obs) (v_sums r) (v_states r) P Ls Lr).
      apply Rmult_le_compat_r; [left; now apply product_pos|]. now apply run_R_scaled.
    - assert (Z : forall q, state_sequence n (S (length obs)) q -> exact_weight init trans (ob :: obs) q = 0).
      { clear q Hq. intros q (Lq & Fq). destruct q as [|i q]; [discriminate|]. cbn [exact_weight]. pose proof (Forall_inv Fq) as Hi. cbv beta in Hi.
        set (d0 := map (fun i => at_ 0 init i * at_ 0 ob i) (seq 0 n)). assert (E0 : forall k, (k < n)%nat -> nth k d0 0 = nth k init 0 * nth k ob 0) by (intros k Hk; unfold d0; now rewrite nth_map_seq).
        assert (L0 : length d0 = n) by (unfold d0; now rewrite map_length, seq_length).
        assert (P0 : forall k, 0 <= nth k init 0 * nth k ob 0) by (intros k; apply Rmult_le_pos; apply nonneg_nth; [exact pos_init|exact (Forall_inv pos_obs)]).
        assert (F0 : nonneg_row d0). { apply Forall_forall. intros x Hx. destruct (In_nth d0 x 0 Hx) as (k & Hk & <-). rewrite E0 by lia. apply P0. }
        destruct (fold_plus_ge d0 0 F0) as (A & B). set (s := fold_left Rplus d0 0) in *.
        assert (Bi : nth i init 0 * nth i ob 0 <= s) by (rewrite <- E0 by exact Hi; apply B; [apply nth_In; lia|lra]).
        destruct (Rle_lt_or_eq_dec _ _ A) as [Ps|Zs]; [|replace (nth i init 0 * nth i ob 0) with 0 by (specialize (P0 i); lra); apply exact_zero].
        set (d := map (fun x => x / s) d0). assert (Ed : forall k, (k < n)%nat -> nth k d 0 = nth k init 0 * nth k ob 0 / s) by (intros k Hk; unfold d; rewrite (nth_map' (fun x => x / s) d0 k 0 0) by lia; now rewrite E0).
        assert (Pd : forall k, 0 <= nth k init 0 * nth k ob 0 / s) by (intros k; unfold Rdiv; apply Rmult_le_pos; [apply P0|left; now apply Rinv_0_lt_compat]).
        replace (nth i init 0 * nth i ob 0) with (s * (nth i init 0 * nth i ob 0 / s)) by (field; lra). rewrite exact_scale.
        rewrite (frames_zero obs (Forall_inv_tail pos_obs) d); [lra| | |exact Hi| |].
        - intros k. destruct (Nat.lt_ge_cases k n) as [Hk|Hk]; [rewrite Ed by exact Hk; apply Pd|rewrite nth_overflow; [lra|unfold d; rewrite map_length; lia]].
        - intros H. apply N. unfold r, runR, run_viterbi, first_frame. cbv zeta. cbn [v_sums]. apply Forall_cons; [exact Ps|]. apply (proj2 (Forall_map snd (fun s => 0 < s) _)). exact H.
        - rewrite Ed by exact Hi. split; [apply Pd|lra].
        - split; [cbn in Lq; lia|exact (Forall_inv_tail Fq)]. }
      rewrite (Z q Hq), (Z (v_states r)); [lra|now split].
  Qed.
End Reals.
Definition rows_of (n : nat) {A} (m : list (list A)) : Prop := Forall (fun r => length r = n) m.
Lemma path_runs {D} (zero one : D) add mul div gtb inv init trans obs : (1 <= length init)%nat -> length trans = length init -> rows_of (length init) trans -> obs <> [] -> rows_of (length init) obs ->
  viterbi_path zero one add mul div gtb inv init trans obs = Ret (run_viterbi zero one add mul div gtb inv init trans (hd [] obs) (tl obs)).
Proof.
  intros Hn Lt Rt No Ro. unfold viterbi_path. destruct trans as [|t trans]; [cbn in Lt; lia|]. destruct obs as [|ob obs]; [congruence|]. cbn [hd tl].
  assert (Q : forall m, rows_of (length init) m -> forallb (fun r : list D => Nat.leb (length init) (length r)) m = true).
  { intros m Hm. apply forallb_forall. intros r Hr. unfold rows_of in Hm. rewrite Forall_forall in Hm. apply Nat.leb_le. rewrite (Hm r Hr). lia. }
  assert (L : Nat.leb 1 (length init) = true) by (apply Nat.leb_le; exact Hn). rewrite L, (Q _ Ro). rewrite Lt, Nat.leb_refl. rewrite <- Lt, firstn_all. rewrite Lt, (Q _ Rt). reflexivity.
Qed.
Lemma C53_states_proof {D} (zero one : D) add mul div gtb inv init trans obs : (1 <= length init)%nat -> length trans = length init -> rows_of (length init) trans -> obs <> [] -> rows_of (length init) obs ->
  exists r, viterbi_path zero one add mul div gtb inv init trans obs = Ret r /\ state_sequence (length init) (length obs) (v_states r) /\ length (v_delta r) = length obs /\ rows_of (length init) (v_delta r) /\ length (v_scale r) = length obs.
Proof.
  intros Hn Lt Rt No Ro. rewrite path_runs by assumption. eexists. split; [reflexivity|]. destruct obs as [|ob obs]; [congruence|]. cbn [hd tl length]. apply (run_states zero one add mul div gtb inv init trans ob obs Hn).
Qed.
Lemma C53_best_real_proof init trans obs : (1 <= length init)%nat -> length trans = length init -> rows_of (length init) trans -> obs <> [] -> rows_of (length init) obs ->
  nonneg_row init -> Forall nonneg_row trans -> Forall nonneg_row obs ->
  exists r, viterbi_pathR init trans obs = Ret r /\ state_sequence (length init) (length obs) (v_states r) /\ forall q, state_sequence (length init) (length obs) q -> exact_weight init trans obs q <= exact_weight init trans obs (v_states r).
Proof.
  intros Hn Lt Rt No Ro Pi Pt Po. unfold viterbi_pathR. rewrite path_runs by assumption. eexists. split; [reflexivity|]. destruct obs as [|ob obs]; [congruence|]. cbn [hd tl length]. split.
  - apply (run_states 0 1 Rplus Rmult Rdiv Rgtb (fun n => / INR n) init trans ob obs Hn).
  - intros q Hq. now apply run_R_best.
Qed.

(** ** Doubles *)
Definition fdiv64 : b64 -> b64 -> b64 := fun x y => Bdiv mode_NE x y.
Definition inv64 : nat -> b64 := fun n => rat64 1 (Pos.of_nat n).
Definition run64 := run_viterbi fzero (rat64 1 1) fadd fmul fdiv64 fgt inv64.
Definition sum_double (x : b64) : Prop := is_finite x = true /\ 0 <= B2R x.
Lemma fadd_sums l : forall k (a : b64), Forall unit_double l -> is_finite a = true -> 0 <= B2R a <= IZR k -> (0 <= k)%Z -> (k + Z.of_nat (length l) <= 2 ^ 50)%Z ->
  sum_double (fold_left fadd l a) /\ B2R a <= B2R (fold_left fadd l a) /\ forall x, In x l -> B2R x <= B2R (fold_left fadd l a).
Proof.
  induction l as [|y l IH]; intros k a H Fa Ha Hk Hl; cbn [fold_left]; [split; [split; [exact Fa|lra]|split; [lra|now intros x []]]|].
  destruct (Forall_inv H) as (Fy & Hy). cbn [length] in Hl. assert (K : IZR k + 1 = IZR (k + 1)) by (rewrite plus_IZR; reflexivity).
  destruct (fadd_R a y Fa Fy) as (F & E).
  { rewrite Rabs_pos_eq by lra. apply Rle_trans with (IZR (2 ^ 50)); [|rewrite IZR_bpow by lia; apply bpow_le; lia]. apply Rle_trans with (IZR (k + 1)); [lra|apply IZR_le; lia]. }
  assert (La : B2R a <= B2R (fadd a y)) by (rewrite E; apply rnd_lb; [apply generic_format_B2R|lra]). assert (Ly : B2R y <= B2R (fadd a y)) by (rewrite E; apply rnd_lb; [apply generic_format_B2R|lra]).
  destruct (IH (k + 1)%Z (fadd a y) (Forall_inv_tail H) F) as (A & B & C); [split; [lra|]; rewrite E; apply rnd_ub; [apply int_format; lia|lra]|lia|lia|].
  split; [exact A|]. split; [lra|]. intros x [<-|I]; [lra|now apply C].
Qed.
Lemma fdiv_unit (x s : b64) : unit_double x -> sum_double s -> 0 < B2R s -> B2R x <= B2R s -> unit_double (fdiv64 x s) /\ B2R (fdiv64 x s) = rnd (B2R x / B2R s).
Proof.
  intros (Fx & X) (Fs & _) P L. assert (Q : 0 <= B2R x / B2R s <= 1).
  { split; [unfold Rdiv; apply Rmult_le_pos; [lra|left; now apply Rinv_0_lt_compat]|]. apply (Rmult_le_reg_r (B2R s)); [exact P|]. unfold Rdiv. rewrite Rmult_assoc, Rinv_l by lra. lra. }
  destruct (fdiv_R x s Fx Fs) as (F & E); [lra|rewrite Rabs_pos_eq by lra; apply Rle_trans with 1; [lra|]; change 1 with (bpow radix2 0); apply bpow_le; lia|].
  split; [|exact E]. split; [exact F|]. unfold fdiv64. rewrite E. split; [apply rnd_ge0; lra|]. apply rnd_ub; [apply (int_format 1); lia|lra].
Qed.
Definition unit_row (l : list b64) : Prop := Forall unit_double l.
Lemma unit_nth l : unit_row l -> forall i, unit_double (nth i l fzero).
Proof. intros H i. destruct (Nat.lt_ge_cases i (length l)) as [L|L]; [|rewrite nth_overflow by exact L; apply unit_zero]. unfold unit_row in H. rewrite Forall_forall in H. apply H, nth_In, L. Qed.
Lemma unit_nth2 m : Forall unit_row m -> forall i j, unit_double (nth j (nth i m []) fzero).
Proof. intros H i j. apply unit_nth. destruct (Nat.lt_ge_cases i (length m)) as [L|L]; [|rewrite nth_overflow by exact L; constructor]. rewrite Forall_forall in H. apply H, nth_In, L. Qed.
Lemma rnd_0 : rnd 0 = 0. Proof. apply round_0, valid_rnd_N. Qed.
Lemma fgt_B2R (x y : b64) : is_finite x = true -> is_finite y = true -> fgt x y = true <-> B2R y < B2R x.
Proof. intros X Y. rewrite fgt_finite by assumption. destruct (Rlt_bool_spec (B2R y) (B2R x)); split; try lra; try reflexivity; discriminate. Qed.
Lemma run64_best init trans ob obs : (1 <= length init)%nat -> (Z.of_nat (length init) <= 2 ^ 50)%Z -> unit_row init -> Forall unit_row trans -> Forall unit_row (ob :: obs) ->
  let r := run64 init trans ob obs in Forall (fun s => 0 < B2R s) (v_sums r) -> forall q, state_sequence (length init) (S (length obs)) q ->
  B2R (scaled_weight fzero fmul fdiv64 init trans (ob :: obs) (v_sums r) q) <= B2R (scaled_weight fzero fmul fdiv64 init trans (ob :: obs) (v_sums r) (v_states r)).
Proof.
  intros Hn Hb Ui Ut Uo. apply (run_best fzero (rat64 1 1) fadd fmul fdiv64 fgt inv64 B2R unit_double sum_double (fun n => (Z.of_nat n <= 2 ^ 50)%Z)).
  - apply unit_zero.
  - reflexivity.
  - intros x (_ & X). lra.
  - intros x y X Y. now apply fmul_unit.
  - intros x y p X Y P L. destruct (fmul_unit x p X P) as (_ & ->). destruct (fmul_unit y p Y P) as (_ & ->). apply rnd_le. apply Rmult_le_compat_r; [apply P|exact L].
  - intros x p X P Z. destruct (fmul_unit x p X P) as (_ & ->). rewrite Z, Rmult_0_l. apply rnd_0.
  - intros x p X P Z. destruct (fmul_unit x p X P) as (_ & ->). rewrite Z, Rmult_0_r. apply rnd_0.
  - intros x y (X & _) (Y & _). now apply fgt_B2R.
  - intros x (X & _). now apply fgt_B2R.
  - intros l L H. destruct (fadd_sums l 0 fzero H) as (A & _ & B); try reflexivity; try lia; [cbn; lra|]. now split.
  - intros x s X S P L. now apply fdiv_unit.
  - intros x y s X Y S P L M. destruct (fdiv_unit x s X S P) as (_ & ->); [lra|]. destruct (fdiv_unit y s Y S P M) as (_ & ->). apply rnd_le. unfold Rdiv. apply Rmult_le_compat_r; [left; now apply Rinv_0_lt_compat|exact L].
  - intros x s X S P Z. destruct (fdiv_unit x s X S P) as (_ & ->); [lra|]. rewrite Z. unfold Rdiv. rewrite Rmult_0_l. apply rnd_0.
  - exact Hn.
  - exact Hb.
  - intros. now apply unit_nth2.
  - reflexivity.
  - intros j. now apply unit_nth.
  - intros j. apply unit_nth, (Forall_inv Uo).
  - pose proof (Forall_inv_tail Uo) as H. revert H. apply Forall_impl. intros a Ha j. now apply unit_nth.
Qed.

(** ** The first state of Chordino *)
Definition weightless (x : b64) : Prop := match x with B754_zero _ | B754_nan => True | _ => False end.
Lemma weightless_mul (x y : b64) : weightless x -> weightless (fmul x y).
Proof. destruct x; intros H; try contradiction H; destruct y; exact I. Qed.
Lemma weightless_div (x y : b64) : weightless x -> weightless (fdiv64 x y).
Proof. destruct x; intros H; try contradiction H; destruct y; exact I. Qed.
Lemma weightless_gt (x : b64) : weightless x -> fgt x fzero = false.
Proof. destruct x; intros H; try contradiction H; reflexivity. Qed.
Lemma pick_last (v : nat -> b64) n : (1 <= n)%nat -> (forall i, (i < n - 1)%nat -> weightless (v i)) ->
  fst (fold_left (fun b i => if fgt (v i) (snd b) then (i, v i) else b) (seq 0 n) ((n - 1)%nat, fzero)) = (n - 1)%nat.
Proof.
  intros Hn H. replace n with (n - 1 + 1)%nat at 1 by lia. rewrite seq_app, fold_left_app. cbn [seq fold_left]. rewrite Nat.add_0_l.
  assert (E : forall l, Forall (fun i => (i < n - 1)%nat) l -> fold_left (fun b i => if fgt (v i) (snd b) then (i, v i) else b) l ((n - 1)%nat, fzero) = ((n - 1)%nat, fzero)).
  { induction l as [|i l IH]; intros F; [reflexivity|]. cbn [fold_left snd]. rewrite (weightless_gt (v i)) by (apply H, (Forall_inv F)). apply IH, (Forall_inv_tail F). }
  rewrite E by apply seq_range. now destruct (fgt _ _).
Qed.
Lemma chord_init_length n : (1 <= n)%nat -> length (chord_init n) = n.
Proof. intros H. unfold chord_init. rewrite app_length, repeat_length. cbn. lia. Qed.
Lemma chord_trans_rows n : length (chord_trans n) = n /\ rows_of n (chord_trans n).
Proof.
  unfold chord_trans. cbv zeta. split; [now rewrite map_length, seq_length|]. apply Forall_map. apply Forall_forall. intros i Hi. apply in_seq in Hi. rewrite !app_length, !repeat_length. cbn [length]. lia.
Qed.
Lemma C53_first_proof n obs : (1 <= n)%nat -> obs <> [] -> rows_of n obs -> exists r, chord_path n obs = Ret r /\ state_sequence n (length obs) (v_states r) /\ hd O (v_states r) = (n - 1)%nat.
Proof.
  intros Hn No Ro. pose proof (chord_init_length n Hn) as Li. destruct (chord_trans_rows n) as (Lt & Rt). unfold chord_path, viterbi_path64. rewrite path_runs; try assumption; rewrite ?Li; try assumption. eexists. split; [reflexivity|].
  destruct obs as [|ob obs]; [congruence|]. cbn [hd tl length]. split.
  { rewrite <- Li at 1. apply (run_states fzero (rat64 1 1) fadd fmul _ fgt _ (chord_init n) (chord_trans n) ob obs). lia. }
  unfold run_viterbi, first_frame. rewrite Li. cbv zeta. cbn [v_states]. set (d0 := map _ (seq 0 n)). set (s := row_sum fzero fadd d0). set (d := map _ d0).
  assert (W : forall i, (i < n - 1)%nat -> weightless (nth i d fzero)).
  { intros i Hi. unfold d. rewrite (nth_map' (fun x => Bdiv mode_NE x s) d0 i fzero fzero) by (unfold d0; rewrite map_length, seq_length; lia). apply weightless_div. unfold d0. rewrite nth_map_seq by lia. apply weightless_mul.
    unfold at_, chord_init. rewrite app_nth1 by (rewrite repeat_length; lia). rewrite nth_repeat. exact I. }
  destruct obs as [|ob1 obs].
  - cbn [frames map back hd last]. unfold last_state. apply (pick_last (fun i => at_ fzero d i) n Hn). exact W.
  - cbn [frames map back]. cbv zeta. cbn [hd]. set (k := hd O _). unfold frame at 1. cbv zeta. cbn [fst]. rewrite map_map.
    assert (Q : forall j, fst (best_previous fzero fmul fgt n (chord_trans n) d (at_ fzero ob1 j) j) = (n - 1)%nat).
    { intros j. unfold best_previous. destruct (fgt _ _); [|reflexivity]. apply (pick_last (fun i => fmul (at_ fzero d i) (at_ fzero (nth i (chord_trans n) []) j)) n Hn). intros i Hi. apply weightless_mul, W, Hi. }
    rewrite nth_map_seq; [apply Q|]. unfold k. match goal with |- (hd O (back ?P ?e) < n)%nat => assert (X : state_sequence n (S (length P)) (back P e)) end.
    { apply back_states; [apply last_state_range; exact Hn|]. apply Forall_map. match goal with |- Forall _ (frames _ _ _ _ _ _ _ _ ?d1 ?o) => pose proof (frames_psi fzero fadd fmul (fun x y => Bdiv mode_NE x y) fgt (fun n => rat64 1 (Pos.of_nat n)) n (chord_trans n) d1 o Hn) as X end.
      revert X. apply Forall_impl. now intros g (X1 & X2 & _). }
    destruct (back _ _); [destruct X; discriminate|]. destruct X as (_ & X). exact (Forall_inv X).
Qed.

Lemma C53_best_proof init trans obs : (1 <= length init)%nat -> (Z.of_nat (length init) <= 2 ^ 50)%Z -> length trans = length init -> rows_of (length init) trans -> obs <> [] -> rows_of (length init) obs ->
  unit_row init -> Forall unit_row trans -> Forall unit_row obs ->
  exists r, viterbi_path64 init trans obs = Ret r /\ state_sequence (length init) (length obs) (v_states r) /\ (Forall (fun s => 0 < B2R s) (v_sums r) -> forall q, state_sequence (length init) (length obs) q ->
    B2R (scaled_weight fzero fmul (Bdiv mode_NE) init trans obs (v_sums r) q) <= B2R (scaled_weight fzero fmul (Bdiv mode_NE) init trans obs (v_sums r) (v_states r))).
Proof.
  intros Hn Hb Lt Rt No Ro Ui Ut Uo. unfold viterbi_path64. rewrite path_runs by assumption. eexists. split; [reflexivity|]. destruct obs as [|ob obs]; [congruence|]. cbn [hd tl length]. split.
  - apply (run_states fzero (rat64 1 1) fadd fmul fdiv64 fgt inv64 init trans ob obs Hn).
  - exact (run64_best init trans ob obs Hn Hb Ui Ut Uo).
Qed.
Lemma C53_short_proof {D} (zero one : D) add mul div gtb inv init trans obs : (1 <= length init)%nat -> trans = [] \/ obs = [] \/ Exists (fun r => (length r < length init)%nat) obs ->
  viterbi_path zero one add mul div gtb inv init trans obs = Undef OutOfBounds.
Proof.
  intros _ H. unfold viterbi_path. destruct trans as [|t trans]; [reflexivity|]. destruct obs as [|ob obs]; [reflexivity|]. destruct H as [H|[H|H]]; try discriminate.
  replace (forallb (fun r => Nat.leb (length init) (length r)) (ob :: obs)) with false; [now rewrite andb_false_r|]. symmetry. apply not_true_iff_false. intros F. rewrite forallb_forall in F. apply Exists_exists in H. destruct H as (r & I & L). apply F, Nat.leb_le in I. lia.
Qed.
