(** Signs and normalisation of the chroma. *)
From Coq Require Import Reals Lra Lia.
From Flocq Require Import Core.Core IEEE754.BinarySingleNaN.
From Verif Require Import Base BaseFacts Fp Options Chromagram ChromaFacts FpFacts FloatKit Nnls NnlsArith NnlsFacts NnlsSafe NnlsSingle Plug PlugSpec PlugFacts PlugNum PlugSafe PlugFrame PlugChroma PlugMain PlugClean PlugTuning PlugNan PlugNotes.
Open Scope Z_scope.

(** ** Without NNLS nothing is negative *)
Definition sg {p e} (x : binary_float p e) : Prop := match x with B754_infinity true | B754_finite true _ _ _ => False | _ => True end.
Lemma sg_pos {p e} (x : binary_float p e) : sg x -> (0 <= B2R x)%R.
Proof. destruct x as [|[|]| |[|] m k H]; cbn; intros X; try lra; try contradiction. apply Float_prop.F2R_ge_0. cbn. lia. Qed.
Lemma sg_value {p e} (x : binary_float p e) : (0 <= B2R x)%R -> is_finite x = true -> sg x.
Proof. destruct x as [|[|]| |[|] m k H]; cbn [sg]; intros X F; try exact Logic.I; try discriminate F. assert (B2R (B754_finite true m k H) < 0)%R by (cbn [B2R]; now apply Float_prop.F2R_lt_0). lra. Qed.
Lemma sg_infinite {p e} (x : binary_float p e) : B2SF x = SpecFloat.S754_infinity false -> sg x.
Proof. destruct x as [|[|]| |[|]]; cbn; intros X; try discriminate X; exact Logic.I. Qed.
Lemma fexp64_valid : Valid_exp (SpecFloat.fexp prec64 emax64). Proof. apply fexp_correct. reflexivity. Qed.
Lemma round64_nn v : (0 <= v)%R -> (0 <= round radix2 (SpecFloat.fexp prec64 emax64) (round_mode mode_NE) v)%R.
Proof. intros V. assert (Q := fexp64_valid). rewrite <- (round_0 radix2 (SpecFloat.fexp prec64 emax64) (round_mode mode_NE)). apply round_le; [exact Q|apply valid_rnd_N|exact V]. Qed.
Lemma sg_fadd (x y : b64) : sg x -> sg y -> sg (fadd x y).
Proof.
  intros X Y. unfold fadd. destruct x as [sx|[|]| |sx mx ex Hx], y as [sy|[|]| |sy my ey Hy]; try contradiction; try (destruct sx); try (destruct sy); try exact Logic.I; try contradiction.
  set (x := B754_finite false mx ex Hx : b64) in *. set (y := B754_finite false my ey Hy : b64) in *. assert (C := Bplus_correct prec64 emax64 _ _ mode_NE x y eq_refl eq_refl). destruct (Rlt_bool _ _).
  - destruct C as (C1 & C2 & _). apply sg_value; [|exact C2]. rewrite C1. apply round64_nn. assert (A := sg_pos x X). assert (B := sg_pos y Y). lra.
  - destruct C as (C & _). apply sg_infinite. exact C.
Qed.
Lemma sg_fmul (x y : b64) : sg x -> Bsign y = false -> sg (fmul x y).
Proof.
  intros X Y. unfold fmul. destruct x as [sx|[|]| |[|] mx ex Hx], y as [sy|sy| |sy my ey Hy]; cbn [Bsign] in Y; try subst sy; try contradiction; try exact Logic.I.
  set (x := B754_finite false mx ex Hx : b64) in *. set (y := B754_finite false my ey Hy : b64) in *. assert (C := Bmult_correct prec64 emax64 _ _ mode_NE x y). destruct (Rlt_bool _ _).
  - destruct C as (C1 & C2 & _). apply sg_value; [|exact C2]. rewrite C1. apply round64_nn. assert (A := sg_pos x X). assert (B := sg_pos y Logic.I). now apply Rmult_le_pos.
  - apply sg_infinite. exact C.
Qed.
Lemma sg_narrow (x : b64) : sg x -> nn (f64_to_32 x).
Proof.
  intros X. destruct x as [s|[|]| |[|] m e H]; try contradiction; try (destruct s); try (apply nn_iff; exact Logic.I). cbn [f64_to_32].
  assert (C := binary_normalize_correct prec32 emax32 prec32_gt_0 prec32_lt mode_NE (cond_Zopp false (Zpos m)) e false). cbv zeta in C. destruct (Rlt_bool _ _).
  - destruct C as (C1 & C2 & _). apply nn_value; [exact C2|]. rewrite C1. apply round_nn. apply Float_prop.F2R_ge_0. cbn. lia.
  - apply overflow_nn. rewrite C. rewrite Rlt_bool_false; [reflexivity|]. apply Float_prop.F2R_ge_0. cbn. lia.
Qed.
Lemma sg_widen (x : b32) : nn x -> sg (f32_to_64 x).
Proof.
  intros X. apply nn_iff in X. destruct x as [s|[|]| |[|] m e H]; try contradiction; try exact Logic.I. set (x := B754_finite false m e H : b32) in *.
  destruct (f32_to_64_value x eq_refl) as (A & B & _). apply sg_value; [|exact A]. rewrite B. apply nn_pos. apply nn_iff. exact Logic.I.
Qed.
Lemma smooth3_nn b i : Forall nn b -> nn (smooth3 b i).
Proof.
  intros B. unfold smooth3. assert (P : forall k, nn (znth z32 b k)) by (intros k; unfold znth; rewrite Forall_forall in B; destruct (nth_in_or_default (Z.to_nat k) b z32) as [I| ->]; [now apply B|exact nn_zero]).
  assert (G : forall l v, Forall (fun d => d = -1 \/ d = 0 \/ d = 1) l -> nn v -> nn (fold_left (fun v d => f64_to_32 (fadd (f32_to_64 v) (fmul (f32_to_64 (znth z32 b (i + d))) (weight d)))) l v)).
  { induction l as [|d l IH]; intros v D V; [exact V|]. cbn [fold_left]. apply Forall_inv in D as D1. apply Forall_inv_tail in D. apply IH; [exact D|]. apply sg_narrow, sg_fadd; [now apply sg_widen|]. apply sg_fmul; [apply sg_widen, P|]. destruct D1 as [-> |[-> | ->]]; reflexivity. }
  apply G; [repeat constructor; lia|exact nn_zero].
Qed.
Lemma windows_nn k : nn (znth z32 treblewindow k) /\ nn (znth z32 basswindow k).
Proof.
  assert (T : Forall nn treblewindow) by (apply Forall_forall; intros x X; assert (Q : forallb (fun x => negb (Bltb x z32)) treblewindow = true) by (vm_compute; reflexivity); rewrite forallb_forall in Q; apply Q in X; now apply negb_true_iff in X).
  assert (B : Forall nn basswindow) by (apply Forall_forall; intros x X; assert (Q : forallb (fun x => negb (Bltb x z32)) basswindow = true) by (vm_compute; reflexivity); rewrite forallb_forall in Q; apply Q in X; now apply negb_true_iff in X).
  rewrite Forall_forall in T, B. unfold znth. split; [destruct (nth_in_or_default (Z.to_nat k) treblewindow z32) as [H| ->]|destruct (nth_in_or_default (Z.to_nat k) basswindow z32) as [H| ->]]; try exact nn_zero; auto.
Qed.
Lemma folded_nn w notes c : (forall k, nn (znth z32 w k)) -> Forall nn notes -> nn (folded w notes c).
Proof.
  intros W N. unfold folded. assert (P : forall k, nn (znth z32 notes k)) by (intros k; unfold znth; rewrite Forall_forall in N; destruct (nth_in_or_default (Z.to_nat k) notes z32) as [H| ->]; [now apply N|exact nn_zero]).
  generalize [0; 1; 2; 3; 4; 5; 6]. intros l. generalize nn_zero. generalize z32 at 1 4. induction l as [|o l IH]; intros v V; [exact V|]. cbn [fold_left]. apply IH. apply nn_add; [exact V|]. apply (nn_mul _ _ (P _) (W _)).
Qed.
Lemma chroma_nn w notes : (forall k, nn (znth z32 w k)) -> Forall nn notes -> Forall nn (chroma_of w notes).
Proof. intros W N. apply Forall_forall. intros x X. unfold chroma_of in X. apply in_map_iff in X as (c & <- & _). now apply folded_nn. Qed.

(** ** Normalisation *)
Lemma ltb_R (x y : b32) : is_finite x = true -> is_finite y = true -> Bltb x y = true <-> (B2R x < B2R y)%R.
Proof. intros X Y. rewrite (Bltb_correct prec32 emax32 x y X Y). destruct (Rlt_bool_spec (B2R x) (B2R y)); split; intros H0; (assumption || reflexivity || discriminate || lra). Qed.
Lemma max_fold l : forall m, is_finite m = true -> Forall (fun v : b32 => is_finite v = true) l -> let r := fold_left (fun m v => if Bltb m v then v else m) l m in is_finite r = true /\ (B2R m <= B2R r)%R /\ Forall (fun v => (B2R v <= B2R r)%R) l /\ (r = m \/ In r l).
Proof.
  induction l as [|v l IH]; intros m M C; cbn [fold_left]; [split; [exact M|]; split; [lra|]; split; [constructor|now left]|]. apply Forall_inv in C as V. apply Forall_inv_tail in C. destruct (Bltb m v) eqn:E.
  - destruct (IH v V C) as (A & B & D & F). apply (ltb_R m v M V) in E. split; [exact A|]. split; [lra|]. split; [now constructor|]. destruct F as [-> |F]; [right; now left|right; now right].
  - destruct (IH m M C) as (A & B & D & F). assert (~ (B2R m < B2R v)%R) by (intros X; apply (ltb_R m v M V) in X; congruence). split; [exact A|]. split; [exact B|]. split; [constructor; [lra|exact D]|]. destruct F as [-> |F]; [now left|right; now right].
Qed.
Lemma max_element_ok l : l <> [] -> chroma_values l -> is_finite (max_element l) = true /\ Forall (fun v => (0 <= B2R v <= B2R (max_element l))%R) l /\ In (max_element l) l.
Proof.
  intros N C. destruct l as [|x l]; [congruence|]. unfold max_element. apply Forall_inv in C as X. apply Forall_inv_tail in C as C'. assert (Q : Forall (fun v : b32 => is_finite v = true) l) by (apply Forall_impl with (2 := C'); tauto). destruct (max_fold l x (proj1 X) Q) as (A & B & D & F). split; [exact A|]. split.
  - assert (P : Forall (fun v => (0 <= B2R v)%R) (x :: l)) by (apply Forall_impl with (2 := C); intros v (_ & V); now apply nn_pos). apply Forall_inv in P as P1. apply Forall_inv_tail in P. constructor; [lra|]. rewrite Forall_forall in *. intros v V. split; [now apply P|now apply D].
  - destruct F as [-> |F]; [now left|now right].
Qed.
(** Division by something that is at least as large. *)
Lemma div_unit (v n : b32) : is_finite v = true -> is_finite n = true -> (0 <= B2R v <= B2R n)%R -> (0 < B2R n)%R -> is_finite (fdiv32 v n) = true /\ (0 <= B2R (fdiv32 v n) <= 1)%R /\ (B2R v = B2R n -> B2R (fdiv32 v n) = 1%R).
Proof.
  intros V N H P. assert (Q : (0 <= B2R v / B2R n <= 1)%R) by (split; [apply Rmult_le_pos; [lra|]; left; now apply Rinv_0_lt_compat|]; apply Rmult_le_reg_r with (B2R n); [exact P|]; unfold Rdiv; rewrite Rmult_assoc, Rinv_l by lra; lra).
  assert (F1 : fmt 1%R) by (apply (fmt_int 1); lia). assert (C := Bdiv_correct prec32 emax32 _ _ mode_NE v n (Rgt_not_eq _ _ P)). change (round radix2 fexp32 (round_mode mode_NE) (B2R v / B2R n)) with (rnd32 (B2R v / B2R n)) in C.
  assert (L : (1 < bpow radix2 emax32)%R) by (change 1%R with (bpow radix2 0); now apply bpow_lt). rewrite (in_range _ 1 F1 L) in C by (rewrite Rabs_pos_eq; lra). destruct C as (C1 & C2 & _). unfold fdiv32. rewrite C1, C2. split; [exact V|]. split.
  - split; [apply round_nn; lra|]. rewrite <- (rnd32_id 1 F1). apply rnd32_le. lra.
  - intros E. rewrite E. replace (B2R n / B2R n)%R with 1%R by (field; lra). now apply rnd32_id.
Qed.
Lemma divided_unit l n : is_finite n = true -> chroma_values l -> Forall (fun v => (0 <= B2R v <= B2R n)%R) l -> (0 < B2R n)%R -> divided l n = map (fun v => fdiv32 v n) l /\ unit_values (divided l n).
Proof.
  intros N C F P. unfold divided. assert (G : gt32 n z32 = true) by (unfold gt32; apply ltb_R; [reflexivity|exact N|exact P]). rewrite G. split; [reflexivity|]. apply Forall_forall. intros x X. apply in_map_iff in X as (v & <- & V). unfold chroma_values in C. rewrite Forall_forall in C, F.
  destruct (div_unit v n (proj1 (C v V)) N (F v V) P) as (A & B & _). now split.
Qed.
Lemma divided_top l n v : is_finite n = true -> chroma_values l -> Forall (fun v => (0 <= B2R v <= B2R n)%R) l -> (0 < B2R n)%R -> In v l -> B2R v = B2R n -> exists x, In x (divided l n) /\ B2R x = 1%R.
Proof.
  intros N C F P V E. destruct (divided_unit l n N C F P) as (-> & _). exists (fdiv32 v n). split; [now apply (in_map (fun v => fdiv32 v n))|]. unfold chroma_values in C. rewrite Forall_forall in C, F. now destruct (div_unit v n (proj1 (C v V)) N (F v V) P) as (_ & _ & Q); apply Q.
Qed.
Lemma divided_none l n : (B2R n <= 0)%R -> is_finite n = true -> divided l n = l.
Proof. intros H N. unfold divided. destruct (gt32 n z32) eqn:G; [|reflexivity]. unfold gt32 in G. apply (ltb_R z32 n) in G; [|reflexivity|exact N]. cbn [B2R] in G. lra. Qed.
(** The maximum norm. *)
Lemma max_positive l : l <> [] -> chroma_values l -> sounding l <-> (0 < B2R (max_element l))%R.
Proof.
  intros N C. destruct (max_element_ok l N C) as (A & B & D). split.
  - intros H. apply Exists_exists in H as (v & V & P). rewrite Forall_forall in B. specialize (B v V). lra.
  - intros H. apply Exists_exists. now exists (max_element l).
Qed.
Lemma max_normalised l : l <> [] -> chroma_values l -> sounding l -> unit_values (divided l (max_element l)) /\ exists x, In x (divided l (max_element l)) /\ B2R x = 1%R.
Proof.
  intros N C H. destruct (max_element_ok l N C) as (A & B & D). apply (max_positive l N C) in H. split; [now apply divided_unit|]. now apply divided_top with (v := max_element l).
Qed.
Lemma max_unchanged l : l <> [] -> chroma_values l -> ~ sounding l -> divided l (max_element l) = l.
Proof. intros N C H. destruct (max_element_ok l N C) as (A & B & D). apply divided_none; [|exact A]. rewrite (max_positive l N C) in H. lra. Qed.
Lemma larger_of (a b : b32) : is_finite a = true -> is_finite b = true -> let m := if Bltb a b then b else a in is_finite m = true /\ (B2R a <= B2R m)%R /\ (B2R b <= B2R m)%R /\ (m = a \/ m = b).
Proof.
  intros A B. cbn zeta. destruct (Bltb a b) eqn:E.
  - apply (ltb_R a b A B) in E. split; [exact B|]. split; [lra|]. split; [lra|now right].
  - assert (~ (B2R a < B2R b)%R) by (intros X; apply (ltb_R a b A B) in X; congruence). split; [exact A|]. split; [lra|]. split; [lra|now left].
Qed.
Lemma normalised_max f4 f5 : f4 <> [] -> f5 <> [] -> chroma_values f4 -> chroma_values f5 -> exists a b ab, normalised (rat32 1 1) f4 f5 = Ret (a, b, ab) /\
  (sounding f4 -> unit_values a /\ exists x, In x a /\ B2R x = 1%R) /\ (~ sounding f4 -> a = f4) /\ (sounding f5 -> unit_values b /\ exists x, In x b /\ B2R x = 1%R) /\ (~ sounding f5 -> b = f5) /\
  (sounding (f5 ++ f4) -> unit_values ab /\ exists x, In x ab /\ B2R x = 1%R) /\ (~ sounding (f5 ++ f4) -> ab = f5 ++ f4).
Proof.
  intros N4 N5 C4 C5. unfold normalised. change (gt32 (rat32 1 1) z32) with true. change (to_int (f32_to_64 (rat32 1 1))) with (Ret 1). cbn [bind]. unfold norms. change (1 =? 1) with true. cbv iota zeta.
  do 3 eexists. split; [reflexivity|]. split; [now apply max_normalised|]. split; [now apply max_unchanged|]. split; [now apply max_normalised|]. split; [now apply max_unchanged|].
  destruct (max_element_ok f4 N4 C4) as (A4 & B4 & D4). destruct (max_element_ok f5 N5 C5) as (A5 & B5 & D5). destruct (larger_of _ _ A4 A5) as (A & L4 & L5 & W). set (m := if Bltb _ _ then _ else _) in *.
  assert (C : chroma_values (f5 ++ f4)) by (apply Forall_app; now split). assert (B : Forall (fun v => (0 <= B2R v <= B2R m)%R) (f5 ++ f4)) by (apply Forall_app; split; [apply Forall_impl with (2 := B5)|apply Forall_impl with (2 := B4)]; intros v V; lra).
  assert (I : In m (f5 ++ f4)) by (apply in_or_app; destruct W as [-> | ->]; [now right|now left]). split.
  - intros H. assert (P : (0 < B2R m)%R) by (apply Exists_exists in H as (v & V & P); rewrite Forall_forall in B; specialize (B v V); lra). split; [now apply divided_unit|now apply divided_top with (v := m)].
  - intros H. apply divided_none; [|exact A]. apply Rnot_lt_le. intros P. apply H. apply Exists_exists. now exists m.
Qed.
(** The sum of the values. *)
Lemma add_finite (x y : b32) : is_finite (fadd32 x y) = true -> is_finite x = true /\ is_finite y = true.
Proof. unfold fadd32. destruct x as [|[|]| |], y as [|[|]| |]; cbn [is_finite Bplus Bool.eqb]; intros H; try discriminate H; now split. Qed.
Lemma add_grows (x y : b32) : nn x -> nn y -> is_finite (fadd32 x y) = true -> (B2R x <= B2R (fadd32 x y))%R /\ (B2R y <= B2R (fadd32 x y))%R.
Proof.
  intros X Y F. destruct (add_finite x y F) as (FX & FY). assert (C := Bplus_correct prec32 emax32 _ _ mode_NE x y FX FY). apply nn_pos in X. apply nn_pos in Y. unfold fadd32 in *. destruct (Rlt_bool _ _).
  - destruct C as (C1 & _). rewrite C1. change (round radix2 fexp32 (round_mode mode_NE) (B2R x + B2R y)) with (rnd32 (B2R x + B2R y)). split; [rewrite <- (rnd32_id (B2R x) (fmt_float x)) at 1|rewrite <- (rnd32_id (B2R y) (fmt_float y)) at 1]; apply rnd32_le; lra.
  - destruct C as (C & _). assert (E : exists s, B2SF (Bplus mode_NE x y) = SpecFloat.S754_infinity s) by (eexists; exact C). destruct E as (s & E). destruct (Bplus mode_NE x y); discriminate.
Qed.
Lemma sum_fold l : forall s, nn s -> Forall nn l -> is_finite (fold_left fadd32 l s) = true -> is_finite s = true /\ (B2R s <= B2R (fold_left fadd32 l s))%R /\ Forall (fun v => is_finite v = true /\ (B2R v <= B2R (fold_left fadd32 l s))%R) l.
Proof.
  induction l as [|v l IH]; intros s P N F; cbn [fold_left] in *; [split; [exact F|]; split; [lra|constructor]|]. apply Forall_inv in N as V. apply Forall_inv_tail in N. destruct (IH _ (nn_add s v P V) N F) as (A & B & C). destruct (add_finite _ _ A) as (A1 & A2). destruct (add_grows s v P V A) as (G1 & G2).
  split; [exact A1|]. split; [lra|]. constructor; [split; [exact A2|lra]|exact C].
Qed.
Lemma sum_normalised l : Forall nn l -> is_finite (sum32 l) = true -> (sounding l -> unit_values (divided l (sum32 l))) /\ (~ sounding l -> divided l (sum32 l) = l).
Proof.
  intros N F. destruct (sum_fold l z32 nn_zero N F) as (_ & B & C). fold (sum32 l) in *. assert (CV : chroma_values l) by (unfold chroma_values; rewrite Forall_forall in *; intros v V; split; [now apply C|now apply N]).
  assert (U : Forall (fun v => (0 <= B2R v <= B2R (sum32 l))%R) l) by (rewrite Forall_forall in *; intros v V; split; [apply nn_pos; now apply N|now apply C]). split.
  - intros H. apply Exists_exists in H as (v & V & P). rewrite Forall_forall in U. assert (Q := U v V). apply divided_unit; [exact F|exact CV|apply Forall_forall; exact U|lra].
  - intros H. assert (Z : forall v, In v l -> B2R v = 0%R). { intros v V. rewrite Forall_forall in U. assert (Q := U v V). destruct (Rle_lt_or_eq_dec 0 (B2R v) (proj1 Q)) as [P|P]; [elim H; apply Exists_exists; now exists v|now symmetry]. }
    assert (G : forall l s, B2R s = 0%R -> is_finite s = true -> (forall v, In v l -> B2R v = 0%R) -> Forall (fun v : b32 => is_finite v = true) l -> is_finite (fold_left fadd32 l s) = true -> B2R (fold_left fadd32 l s) = 0%R).
    { clear. induction l as [|v l IH]; intros s S0 S1 Z F E; [exact S0|]. cbn [fold_left] in *. apply Forall_inv in F as Fv. apply Forall_inv_tail in F. destruct (add_R s v 1 S1 Fv) as (A & B); [apply (fmt_int 1); lia|change 1%R with (bpow radix2 0); now apply bpow_lt|rewrite S0, (Z v (or_introl eq_refl)), Rplus_0_r, Rabs_R0; lra|].
      apply IH; [|exact A|intros w W; apply Z; now right|exact F|exact E]. rewrite B, S0, (Z v (or_introl eq_refl)), Rplus_0_r. apply round_0. apply valid_rnd_N. }
    apply divided_none; [|exact F]. right. apply (G l z32); [reflexivity|reflexivity|exact Z| |exact F]. apply Forall_impl with (2 := C). tauto.
Qed.
Lemma normalised_sum f4 f5 : Forall nn f4 -> Forall nn f5 -> is_finite (sum32 f4) = true -> is_finite (sum32 f5) = true -> is_finite (sum32 (f5 ++ f4)) = true -> exists a b ab, normalised (rat32 2 1) f4 f5 = Ret (a, b, ab) /\
  (sounding f4 -> unit_values a) /\ (~ sounding f4 -> a = f4) /\ (sounding f5 -> unit_values b) /\ (~ sounding f5 -> b = f5) /\ (sounding (f5 ++ f4) -> unit_values ab) /\ (~ sounding (f5 ++ f4) -> ab = f5 ++ f4).
Proof.
  intros N4 N5 F4 F5 F. unfold normalised. change (gt32 (rat32 2 1) z32) with true. change (to_int (f32_to_64 (rat32 2 1))) with (Ret 2). cbn [bind]. unfold norms. change (2 =? 1) with false. change (2 =? 2) with true. cbv iota zeta.
  do 3 eexists. split; [reflexivity|]. assert (N : Forall nn (f5 ++ f4)) by (apply Forall_app; now split). destruct (sum_normalised f4 N4 F4), (sum_normalised f5 N5 F5), (sum_normalised (f5 ++ f4) N F). now repeat (split; [assumption|]).
Qed.
(** Whatever the setting is, what was not negative stays so. *)
Lemma divided_nn l n : Forall nn l -> Forall nn (divided l n).
Proof.
  intros N. unfold divided. destruct (gt32 n z32) eqn:G; [|exact N]. apply Forall_forall. intros x X. apply in_map_iff in X as (v & <- & V). rewrite Forall_forall in N. specialize (N v V). assert (S : Bsign n = false) by (destruct n as [?|[|]| |[|]]; try discriminate G; reflexivity).
  destruct (gt32 v z32) eqn:Gv; [now apply nn_div|]. apply nn_iff in N. unfold fdiv32. apply nn_iff. destruct v as [s|[|]| |[|]]; try contradiction; try discriminate Gv; destruct n as [?|[|]| |[|]]; try discriminate G; cbn; exact Logic.I.
Qed.
Lemma normalised_nn s f4 f5 a b ab : Forall nn f4 -> Forall nn f5 -> normalised s f4 f5 = Ret (a, b, ab) -> Forall nn a /\ Forall nn b /\ Forall nn ab.
Proof.
  intros N4 N5 E. assert (N : Forall nn (f5 ++ f4)) by (apply Forall_app; now split). unfold normalised in E. destruct (gt32 s z32).
  - destruct (to_int _); try discriminate E. cbn [bind] in E. destruct (norms _ _ _ _) as ((x, y), z). apply Ret_inj in E. apply pair_equal_spec in E as (E & <-). apply pair_equal_spec in E as (<- & <-). split; [now apply divided_nn|]. split; now apply divided_nn.
  - apply Ret_inj in E. apply pair_equal_spec in E as (E & <-). apply pair_equal_spec in E as (<- & <-). now split.
Qed.
Section Machine.
  Context (atan2 powf : b32 -> b32 -> b32) (ATAN : atan2_law atan2) (POW : forall s w, gt32 s z32 = true -> Bsign (powf s w) = false) {stamp : Type}.
  Lemma plain_outputs_nn c (frames : list (stamp * list b32)) o : ready c -> Forall (fun f => s_block c <= Z.of_nat (length (snd f))) frames -> Beqb (s_useNNLS c) z32 = true -> analyse atan2 powf c frames = Ret o ->
    Forall (fun tf => Forall nn (snd tf)) (o_notes o) /\ Forall (fun tf => Forall nn (snd tf)) (o_treble o) /\ Forall (fun tf => Forall nn (snd tf)) (o_bass o) /\ Forall (fun tf => Forall nn (snd tf)) (o_both o).
  Proof.
    intros R F U E. destruct (analyse_frames atan2 powf ATAN POW c frames o R F E) as ((_ & T & _) & parts & P & -> & -> & -> & ->).
    assert (G : forall f2, shaped nNote nn f2 -> Forall nn (notes_of (s_useNNLS c) (s_dict c) f2)).
    { intros f2 (L & V). destruct (existsb (fun v => gt32 v z32) f2) eqn:X.
      - rewrite notes_of_plain; [|exact L|apply Exists_exists; now apply existsb_exists in X|exact U]. apply Forall_forall. intros x Q. apply in_map_iff in Q as (k & <- & _). now apply smooth3_nn.
      - rewrite notes_of_silent; [|exact L|]. + apply Forall_forall. intros x Q. apply repeat_spec in Q. subst x. exact nn_zero.
        + apply Forall_forall. intros v Q. destruct (gt32 v z32) eqn:W; [|reflexivity]. exfalso; apply Bool.diff_true_false. assert (Y : existsb (fun v => gt32 v z32) f2 = true) by (apply existsb_exists; now exists v). exact (eq_trans (eq_sym Y) X). }
    clear - G T P. induction P as [|tf ((a, b), ab) l parts H P IH]; [repeat split; constructor|]. apply Forall_inv in T as T1. apply Forall_inv_tail in T. specialize (G _ T1) as G1. destruct (IH T) as (A & B & C & D). cbn [map combine fst snd].
    destruct (normalised_nn _ _ _ _ _ _ (chroma_nn treblewindow _ (fun k => proj1 (windows_nn k)) G1) (chroma_nn basswindow _ (fun k => proj2 (windows_nn k)) G1) H) as (Na & Nb & Nab). repeat (split; [constructor; assumption|]). now constructor.
  Qed.
End Machine.
Lemma normalised_keeps s f4 f5 a b ab : normalised s f4 f5 = Ret (a, b, ab) -> length a = length f4 /\ length b = length f5 /\ length ab = (length f5 + length f4)%nat /\ (Forall nn f4 -> Forall nn f5 -> Forall nn a /\ Forall nn b /\ Forall nn ab).
Proof.
  intros E. assert (L : length a = length f4 /\ length b = length f5 /\ length ab = (length f5 + length f4)%nat).
  { assert (H := E). unfold normalised in H. destruct (gt32 s z32); [destruct (to_int _); try discriminate H; cbn [bind] in H; destruct (norms _ _ _ _) as ((x, y), z)|]; apply Ret_inj in H; apply pair_equal_spec in H as (H & <-); apply pair_equal_spec in H as (<- & <-); rewrite ?divided_length, app_length; now repeat split. }
  destruct L as (L1 & L2 & L3). repeat (split; [assumption|]). intros N4 N5. now apply (normalised_nn s f4 f5).
Qed.
