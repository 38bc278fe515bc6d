(** The chroma of a frame is the sum of its semitones over the octaves, bit for bit. *)
From Coq Require Import Reals Lra Lia.
From Flocq Require Import Core.Core Plus_error IEEE754.BinarySingleNaN.
From Verif Require Import Base BaseFacts Fp Options Chromagram ChromaFacts Nnls NnlsArith NnlsFacts NnlsSafe NnlsSingle NnlsSums NnlsSpec NnlsMain NnlsEnds Plug PlugSpec PlugFacts PlugNum PlugSafe PlugFrame.
Open Scope Z_scope.

(** ** Sums that start at +0 *)
Definition not_minus_0 (x : b32) : Prop := x <> B754_zero true.
Lemma sum_not_minus_0 (x y : b32) : not_minus_0 x -> not_minus_0 (fadd32 x y).
Proof.
  intros X E. unfold fadd32 in E. destruct x as [[|]|sx| |sx mx ex Hx]; [now apply X|destruct y as [[|]| | |]; discriminate E|destruct y as [| [|] | |]; destruct sx; discriminate E|destruct y; discriminate E|].
  destruct y as [sy|sy| |sy my ey Hy]; try discriminate E.
  set (x := B754_finite sx mx ex Hx : b32) in *. set (y := B754_finite sy my ey Hy : b32) in *. assert (C := Bplus_correct prec32 emax32 _ _ mode_NE x y eq_refl eq_refl).
  change (@Bplus prec32 emax32 prec32_gt_0 prec32_lt mode_NE x y) with (fadd32 x y) in *. change (fadd32 x y = B754_zero true) in E. rewrite E in C. cbn [B2R is_finite Bsign B2SF] in C. destruct (Rlt_bool _ _).
  - destruct C as (C1 & _ & C3). destruct (Req_dec (B2R x + B2R y) 0) as [Z|Z].
    + rewrite Z, Rcompare_Eq in C3 by reflexivity. change (true = (sx && sy)) in C3. symmetry in C3. apply andb_prop in C3 as (-> & ->). cbn [B2R x y] in Z.
      assert (NX : (F2R (Float radix2 (Z.neg mx) ex) < 0)%R) by now apply Float_prop.F2R_lt_0. assert (NY : (F2R (Float radix2 (Z.neg my) ey) < 0)%R) by now apply Float_prop.F2R_lt_0.
      unfold x, y in Z. cbn [B2R cond_Zopp] in Z. change (Z.neg mx) with (- Z.pos mx) in NX. change (Z.neg my) with (- Z.pos my) in NY. cbn [Z.opp] in NX, NY. cbn [SpecFloat.cond_Zopp Z.opp] in Z. lra.
    + refine (round_plus_neq_0 radix2 fexp32 ZnearestE (B2R x) (B2R y) _ _ Z (eq_sym C1)); apply generic_format_B2R.
  - destruct C as (C & _). discriminate C.
Qed.
Lemma add_plus_0 (x : b32) : not_minus_0 x -> fadd32 x z32 = x.
Proof. intros X. destruct x as [[|]| | |]; try reflexivity. now elim X. Qed.
Definition positive_zero_times (w : b32) : bool := match mul32 z32 w with B754_zero false => true | _ => false end.
Lemma treble_zero k : mul32 z32 (znth z32 treblewindow k) = z32.
Proof.
  assert (H : forallb positive_zero_times treblewindow = true) by (vm_compute; reflexivity). rewrite forallb_forall in H. unfold znth. destruct (nth_in_or_default (Z.to_nat k) treblewindow z32) as [I|D].
  - apply H in I. unfold positive_zero_times in I. destruct (mul32 z32 _) as [[|]| | |]; try discriminate I. reflexivity.
  - rewrite D. reflexivity.
Qed.
Lemma bass_zero k : mul32 z32 (znth z32 basswindow k) = z32.
Proof.
  assert (H : forallb positive_zero_times basswindow = true) by (vm_compute; reflexivity). rewrite forallb_forall in H. unfold znth. destruct (nth_in_or_default (Z.to_nat k) basswindow z32) as [I|D].
  - apply H in I. unfold positive_zero_times in I. destruct (mul32 z32 _) as [[|]| | |]; try discriminate I. reflexivity.
  - rewrite D. reflexivity.
Qed.

(** ** Notes, one after the other *)
Section Notes.
  Context (w : list b32) (val : Z -> b32).
  Definition took (c : Z) (acc : b32) (k : Z) : b32 := if k mod 12 =? c then fadd32 acc (mul32 (val k) (znth z32 w k)) else acc.
  Definition partial (c n : Z) : b32 := fold_left (took c) (zrange 0 (n - 1)) z32.
  Lemma partial_0 c : partial c 0 = z32. Proof. reflexivity. Qed.
  Lemma partial_next c n : 0 <= n -> partial c (n + 1) = took c (partial c n) n.
  Proof. intros N. unfold partial. replace (n + 1 - 1) with (n - 1 + 1) by lia. rewrite zrange_snoc by lia. replace (n - 1 + 1) with n by lia. now rewrite fold_left_app. Qed.
  Lemma took_not_minus_0 c l acc : not_minus_0 acc -> not_minus_0 (fold_left (took c) l acc).
  Proof. revert acc. induction l as [|k l IH]; intros acc H; cbn [fold_left]; [exact H|]. apply IH. unfold took. destruct (_ =? _); [now apply sum_not_minus_0|exact H]. Qed.
  Lemma took_nothing (WZ : forall k, mul32 z32 (znth z32 w k) = z32) c n : val n = z32 -> took c (partial c n) n = partial c n.
  Proof. intros V. unfold took. destruct (_ =? _); [|reflexivity]. rewrite V, WZ. apply add_plus_0. apply took_not_minus_0. discriminate. Qed.
  Lemma partial_all c : 0 <= c < 12 -> partial c 84 = folded w (map val (zrange 0 83)) c.
  Proof.
    intros C. unfold partial, folded. assert (F : forall l acc, fold_left (took c) l acc = fold_left (fun acc k => fadd32 acc (mul32 (val k) (znth z32 w k))) (filter (fun k => k mod 12 =? c) l) acc).
    { induction l as [|k l IH]; intros acc; cbn [fold_left filter]; [reflexivity|]. unfold took at 2. destruct (k mod 12 =? c); cbn [fold_left]; apply IH. }
    rewrite F. assert (E : filter (fun k => k mod 12 =? c) (zrange 0 (84 - 1)) = map (fun o => c + 12 * o) [0; 1; 2; 3; 4; 5; 6]).
    { assert (K : c = 0 \/ c = 1 \/ c = 2 \/ c = 3 \/ c = 4 \/ c = 5 \/ c = 6 \/ c = 7 \/ c = 8 \/ c = 9 \/ c = 10 \/ c = 11) by lia. repeat destruct K as [K|K]; subst c; vm_compute; reflexivity. }
    rewrite E. assert (V : forall o, In o [0; 1; 2; 3; 4; 5; 6] -> znth z32 (map val (zrange 0 83)) (c + 12 * o) = val (c + 12 * o)).
    { intros o O. assert (0 <= o <= 6) by (cbn in O; lia). unfold znth. rewrite (nth_indep _ z32 (val 0)) by (rewrite map_length, zrange_length; lia). rewrite map_nth. f_equal. unfold zrange. rewrite (nth_indep _ 0 (0 + Z.of_nat 0)) by (rewrite map_length, seq_length; lia).
      rewrite (map_nth (fun k => 0 + Z.of_nat k)). rewrite seq_nth by lia. lia. }
    clear E F. revert V. generalize [0; 1; 2; 3; 4; 5; 6]. intros l V. generalize z32 at 2 5. induction l as [|o l IH]; intros acc; cbn [map fold_left]; [reflexivity|]. rewrite V by now left. apply IH. intros o' O. apply V. now right.
  Qed.
End Notes.

(** ** Frames *)
Lemma windows_84 : length treblewindow = 84%nat /\ length basswindow = 84%nat. Proof. split; reflexivity. Qed.
Lemma add_note_ok s v ch ba : 0 <= s < 84 -> length ch = 12%nat -> length ba = 12%nat ->
  add_note s v (ch, ba) = Ret (replace_nth ch (Z.to_nat (s mod 12)) (fadd32 (znth z32 ch (s mod 12)) (mul32 v (znth z32 treblewindow s))), replace_nth ba (Z.to_nat (s mod 12)) (fadd32 (znth z32 ba (s mod 12)) (mul32 v (znth z32 basswindow s)))).
Proof.
  intros S C B. assert (M := Z.mod_pos_bound s 12 ltac:(lia)). destruct windows_84 as (T84 & B84). unfold add_note. rewrite (elt_ok z32 treblewindow) by (rewrite T84; lia). cbn [bind]. unfold addto. rewrite (elt_ok z32 ch) by lia. cbn [bind]. rewrite upd_ok by lia. cbn [bind].
  rewrite (elt_ok z32 basswindow) by (rewrite B84; lia). cbn [bind]. rewrite (elt_ok z32 ba) by lia. cbn [bind]. rewrite upd_ok by lia. reflexivity.
Qed.
(** The two chromas when the first n semitones have been added. *)
Definition chromas (val : Z -> b32) (n : Z) (t : list b32 * list b32) : Prop :=
  length (fst t) = 12%nat /\ length (snd t) = 12%nat /\ forall c, 0 <= c < 12 -> znth z32 (fst t) c = partial treblewindow val c n /\ znth z32 (snd t) c = partial basswindow val c n.
Lemma chromas_0 val : chromas val 0 (chroma0, chroma0).
Proof. split; [reflexivity|]. split; [reflexivity|]. intros c C. rewrite !partial_0. cbn [fst snd]. assert (E : znth z32 chroma0 c = z32) by (unfold znth; apply nth_repeat). now split. Qed.
Lemma chromas_note val n t : 0 <= n < 84 -> chromas val n t -> ok (chromas val (n + 1)) (add_note n (val n) t).
Proof.
  intros N (A & B & C). destruct t as (ch, ba). cbn [fst snd] in *. rewrite add_note_ok by assumption. apply ok_ret. assert (M := Z.mod_pos_bound n 12 ltac:(lia)). unfold chromas. cbn [fst snd]. split; [now rewrite replace_nth_length|]. split; [cbn [snd]; now rewrite replace_nth_length|].
  intros c Hc. cbn [fst snd]. rewrite !znth_replace by lia. rewrite (partial_next treblewindow val c n), (partial_next basswindow val c n) by lia. unfold took. destruct (C c Hc) as (C1 & C2). rewrite Z.eqb_sym. destruct (Z.eqb_spec (n mod 12) c) as [->|E]; [|now split]. now rewrite C1, C2.
Qed.
Lemma chromas_skip val n t : 0 <= n -> val n = z32 -> chromas val n t -> chromas val (n + 1) t.
Proof.
  intros N V (A & B & C). split; [exact A|]. split; [exact B|]. intros c Hc. destruct (C c Hc) as (C1 & C2). rewrite (partial_next treblewindow val c n), (partial_next basswindow val c n) by exact N. now rewrite (took_nothing treblewindow val treble_zero c n V), (took_nothing basswindow val bass_zero c n V).
Qed.
Lemma chromas_end val t : chromas val 84 t -> t = (chroma_of treblewindow (map val (zrange 0 83)), chroma_of basswindow (map val (zrange 0 83))).
Proof.
  intros (A & B & C). destruct t as (ch, ba). cbn [fst snd] in *.
  assert (G : forall w l, (forall c, 0 <= c < 12 -> znth z32 l c = partial w val c 84) -> length l = 12%nat -> l = chroma_of w (map val (zrange 0 83))).
  { intros w l H L. apply (nth_ext _ _ z32 z32); [now rewrite L|]. intros n N. rewrite L in N. specialize (H (Z.of_nat n) ltac:(lia)). unfold znth in H. rewrite Nat2Z.id in H. rewrite H, partial_all by lia.
    unfold chroma_of. rewrite (nth_indep _ z32 (folded w (map val (zrange 0 83)) 0)) by (cbn; lia). rewrite map_nth. f_equal. do 12 (destruct n as [|n]; [reflexivity|]). lia. }
  f_equal; apply G; try assumption; intros c Hc; now destruct (C c Hc).
Qed.
Lemma over_filter {S T} (body : S -> T -> outcome S) (g : Z -> T) (p : Z -> bool) l s : over body (map g (filter p l)) s = each (fun s k => if p k then body s (g k) else Ret s) l s.
Proof. revert s. induction l as [|k l IH]; intros s; cbn [filter each]; [reflexivity|]. destruct (p k); cbn [map over bind]; [|apply IH]. destruct (body s (g k)); cbn [bind]; [apply IH|reflexivity|reflexivity]. Qed.
Definition frame_of (notes : list b32) : chroma_frame := mkFrame notes (chroma_of treblewindow notes) (chroma_of basswindow notes).
Lemma notes_ext (val : Z -> b32) (l : list b32) : length l = 84%nat -> (forall k, 0 <= k < 84 -> znth z32 l k = val k) -> l = map val (zrange 0 83).
Proof.
  intros L H. apply (nth_ext _ _ z32 z32); [now rewrite map_length, zrange_length|]. intros n N. rewrite L in N. specialize (H (Z.of_nat n) ltac:(lia)). unfold znth in H. rewrite Nat2Z.id in H. rewrite H.
  rewrite (nth_indep _ z32 (val 0)) by (rewrite map_length, zrange_length; lia). rewrite map_nth. f_equal. unfold zrange. rewrite (nth_indep _ 0 (0 + Z.of_nat 0)) by (rewrite map_length, seq_length; lia). rewrite (map_nth (fun k => 0 + Z.of_nat k)). rewrite seq_nth by lia. lia.
Qed.
Lemma nnls_frame_from dict b val : transcribe (A := single) dict b = Ret (map (fun k => (k, val k)) (heard (A := single) b)) -> (forall k, ~ In k (heard (A := single) b) -> val k = z32) -> nnls_frame dict b = Ret (frame_of (map val (zrange 0 83))).
Proof.
  intros T O. unfold nnls_frame. rewrite T. cbn [bind]. unfold heard. rewrite over_filter.
  destruct (ok_each (fun n (s : list b32 * (list b32 * list b32)) => length (fst s) = 84%nat /\ (forall k, 0 <= k < 84 -> znth z32 (fst s) k = if k <? n then val k else z32) /\ chromas val n (snd s))
    (fun s k => if strong (A := single) b k then (let '(f3, t) := s in fun '(s0, v) => do f3 <- upd f3 s0 v; do t <- add_note s0 v t; Ret (f3, t)) (k, val k) else Ret s) 0 83 (map (fun _ => z32) centres, (chroma0, chroma0))) as ((f3, t) & E & L & V & C).
  - lia.
  - cbn [fst snd]. split; [reflexivity|]. split; [|apply chromas_0]. intros k K. replace (k <? 0) with false by (symmetry; apply Z.ltb_ge; lia). unfold znth. destruct (nth_in_or_default (Z.to_nat k) (map (fun _ : Z => z32) centres) z32) as [I|D]; [apply in_map_iff in I as (x & <- & _); reflexivity|exact D].
  - intros k (f3, t) K (L & V & C). cbn [fst snd] in *. destruct (strong (A := single) b k) eqn:S.
    + rewrite upd_ok by lia. cbn [bind]. destruct (chromas_note val k t ltac:(lia) C) as (t' & -> & C'). cbn [bind]. apply ok_ret. cbn [fst snd]. split; [now rewrite replace_nth_length|]. split; [|exact C'].
      intros i I. rewrite znth_replace by lia. rewrite V by exact I. destruct (Z.eqb_spec i k) as [->|N]; [now replace (k <? k + 1) with true by (symmetry; apply Z.ltb_lt; lia)|]. destruct (Z.ltb_spec i k), (Z.ltb_spec i (k + 1)); try lia; reflexivity.
    + assert (Z : val k = z32) by (apply O; rewrite heard_In, S; intros (_ & X); discriminate X). apply ok_ret. cbn [fst snd]. split; [exact L|]. split; [|now apply chromas_skip; [lia|..]].
      intros i I. rewrite V by exact I. destruct (Z.ltb_spec i k), (Z.ltb_spec i (k + 1)); try lia; try reflexivity. replace i with k by lia. now rewrite Z.
  - unfold loop in E. rewrite E. cbn [bind fst snd] in *. change (83 + 1) with 84 in *. apply chromas_end in C. subst t. cbn [fst snd]. unfold frame_of. rewrite (notes_ext val f3 L); [reflexivity|]. intros k K. rewrite V by exact K. now replace (k <? 84) with true by (symmetry; apply Z.ltb_lt; lia).
Qed.
(** Without NNLS: the neighbours count half. *)
Definition smooth3 (b : list b32) (i : Z) : b32 := fold_left (fun v d => f64_to_32 (fadd (f32_to_64 v) (fmul (f32_to_64 (znth z32 b (i + d))) (weight d)))) [-1; 0; 1] z32.
Lemma smooth_eq b i : Z.of_nat (length b) = nNote -> 1 <= i <= 254 -> smooth_band b i = Ret (smooth3 b i).
Proof.
  intros L I. unfold nNote in L. unfold smooth_band. rewrite (loop_pure _ (fun v d => f64_to_32 (fadd (f32_to_64 v) (fmul (f32_to_64 (znth z32 b (i + d))) (weight d))))); [reflexivity|]. intros s d D. rewrite (elt_ok z32) by lia. reflexivity.
Qed.
Lemma plain_frame_eq b : Z.of_nat (length b) = nNote -> plain_frame b = Ret (frame_of (map (fun k => smooth3 b (3 + 3 * k)) (zrange 0 83))).
Proof.
  intros L. set (val := fun k => smooth3 b (3 + 3 * k)). unfold plain_frame. rewrite centres_eq.
  destruct (ok_numbered (fun n (s : list b32 * (list b32 * list b32) * Z) => fst (fst s) = map val (zrange 0 (n - 1)) /\ chromas val n (snd (fst s)) /\ snd s = n)
    (fun '(f3, t, iSemitone) iNote => do v <- smooth_band b iNote; do t <- add_note iSemitone v t; Ret (f3 ++ [v], t, iSemitone + 1)) 0 83 ([], (chroma0, chroma0), 0)) as (((f3, t), n) & E & F & C & N).
  - lia.
  - split; [reflexivity|]. split; [apply chromas_0|reflexivity].
  - intros k ((f3, t), n) K (F & C & N). cbn [fst snd] in *. subst n f3. rewrite smooth_eq by (assumption || lia). cbn [bind]. destruct (chromas_note val k t ltac:(lia) C) as (t' & Et & C'). unfold val in Et at 1. rewrite Et. cbn [bind]. apply ok_ret. cbn [fst snd].
    split; [|now split]. replace (k + 1 - 1) with (k - 1 + 1) by lia. rewrite (zrange_snoc 0 (k - 1)) by lia. replace (k - 1 + 1) with k by lia. now rewrite map_app.
  - rewrite E. cbn [bind fst snd] in *. change (83 + 1) with 84 in *. apply chromas_end in C. subst t f3. reflexivity.
Qed.
Lemma zero_frame : mkFrame (repeat z32 84) chroma0 chroma0 = frame_of (map (fun _ => z32) (zrange 0 83)).
Proof.
  assert (C : chromas (fun _ => z32) 84 (chroma0, chroma0)).
  { assert (G : forall n, chromas (fun _ => z32) (Z.of_nat n) (chroma0, chroma0)) by (induction n as [|n IH]; [apply chromas_0|]; replace (Z.of_nat (Datatypes.S n)) with (Z.of_nat n + 1) by lia; apply chromas_skip; [lia|reflexivity|exact IH]). exact (G 84%nat). }
  apply chromas_end in C. unfold frame_of. replace (repeat z32 84) with (map (fun _ : Z => z32) (zrange 0 83)) by reflexivity. apply pair_equal_spec in C as (C1 & C2). now rewrite <- C1, <- C2.
Qed.
