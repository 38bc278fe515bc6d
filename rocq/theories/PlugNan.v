(** One sample that is not a number spoils the tuning of the whole file. *)
From Coq Require Import Reals Lra Lia.
From Flocq Require Import Core.Core IEEE754.BinarySingleNaN.
From Verif Require Import Base BaseFacts Fp Options Chromagram ChromaFacts Nnls NnlsArith NnlsFacts NnlsSafe NnlsSingle Plug PlugSpec PlugFacts PlugNum PlugSafe PlugMain PlugClean PlugTuning.
Open Scope Z_scope.

Definition at_nan (l : list b32) (i : Z) : Prop := 0 <= i < Z.of_nat (length l) /\ znth z32 l i = B754_nan.
Lemma znth_map {T} (d : T) (g : Z -> T) n k : 0 <= k < n -> znth d (map g (zrange 0 (n - 1))) k = g k.
Proof.
  intros K. unfold znth. rewrite (nth_indep _ d (g 0)) by (rewrite map_length, zrange_length; lia). rewrite map_nth. f_equal. unfold zrange. rewrite (nth_indep _ 0 (0 + Z.of_nat 0)) by (rewrite map_length, seq_length; lia).
  rewrite (map_nth (fun k => 0 + Z.of_nat k)). rewrite seq_nth by lia. lia.
Qed.
Lemma magnitude_nan block fbuf k : znth z32 fbuf (2 * k) = B754_nan \/ znth z32 fbuf (2 * k + 1) = B754_nan -> magnitude block fbuf k = B754_nan.
Proof.
  intros H. unfold magnitude. replace (fadd32 _ _) with (B754_nan : b32) by (destruct H as [-> | ->]; [rewrite nan_mul_l, nan_add_l; reflexivity|rewrite nan_mul_l, nan_add_r; reflexivity]).
  unfold clip. change (f32_to_64 (sqrt32 B754_nan)) with (B754_nan : b64). replace (fgt B754_nan (rat64 block 1)) with false; [reflexivity|]. unfold fgt. now destruct (rat64 block 1) as [[|]|[|]| |[|]].
Qed.
(** The largest magnitude. *)
Lemma larger_num mx v : num mx -> num (larger mx v).
Proof. intros M. unfold larger. destruct (Bltb mx v) eqn:E; [|exact M]. unfold num. destruct v; try reflexivity. now rewrite Bltb_nan_r in E. Qed.
Lemma loud_kept l mx : num mx -> Bltb mx (rat32 2 1) = false \/ Exists (fun v => Bleb (rat32 2 1) v = true) l -> Bltb (fold_left larger l mx) (rat32 2 1) = false.
Proof.
  revert mx. assert (N2 : num (rat32 2 1)) by reflexivity. induction l as [|v l IH]; intros mx M H; cbn [fold_left]; [destruct H as [H|H]; [exact H|inversion H]|].
  apply IH; [now apply larger_num|]. destruct H as [H|H].
  - left. unfold larger. destruct (Bltb mx v) eqn:E; [|exact H]. assert (V : num v) by (assert (X := larger_num mx v M); unfold larger in X; now rewrite E in X).
    destruct (Bltb v (rat32 2 1)) eqn:Q; [|reflexivity]. apply (Bltb_ext _ _ V N2) in Q. apply (Bltb_ext _ _ M V) in E. rewrite (proj2 (Bltb_ext _ _ M N2)) in H; [discriminate H|lra].
  - inversion H as [? ? V2|? ? H']; subst; [|now right]. left. assert (V : num v) by (destruct v; try reflexivity; destruct (rat32 2 1) as [[|]|[|]| |[|]]; discriminate V2).
    assert (V3 : Bltb v (rat32 2 1) = false).
    { unfold Bltb, Bleb, SpecFloat.SFltb, SpecFloat.SFleb in *. rewrite <- !(Bcompare_correct_SF) in * || idtac. destruct (SpecFloat.SFcompare (B2SF (rat32 2 1)) (B2SF v)) as [[| |]|] eqn:C1; try discriminate V2.
      - destruct (SpecFloat.SFcompare (B2SF v) (B2SF (rat32 2 1))) as [[| |]|] eqn:C2; try reflexivity. exfalso. assert (S := Bcompare_swap prec32 emax32 v (rat32 2 1)). unfold Bcompare in S. rewrite C1, C2 in S. discriminate S.
      - destruct (SpecFloat.SFcompare (B2SF v) (B2SF (rat32 2 1))) as [[| |]|] eqn:C2; try reflexivity. exfalso. assert (S := Bcompare_swap prec32 emax32 v (rat32 2 1)). unfold Bcompare in S. rewrite C1, C2 in S. discriminate S. }
    unfold larger. destruct (Bltb mx v) eqn:E; [exact V3|]. destruct (Bltb mx (rat32 2 1)) eqn:Q; [|reflexivity]. exfalso. apply (Bltb_ext _ _ M N2) in Q.
    assert (~ (ext mx < ext v)%R) by (intros X; apply (Bltb_ext _ _ M V) in X; congruence). assert (~ (ext v < ext (rat32 2 1))%R) by (intros X; apply (Bltb_ext _ _ V N2) in X; congruence). lra.
Qed.
(** No bin is silenced when the energy is not a number. *)
Lemma energy_nan_l v : energy B754_nan v = B754_nan. Proof. unfold energy. cbn [f32_to_64]. now rewrite nan_fadd_l. Qed.
Lemma energy_nan_r s : energy s B754_nan = B754_nan. Proof. unfold energy, square64. cbn [f32_to_64]. now rewrite nan_fmul, nan_fadd_r. Qed.
Lemma energies_nan l s : s = B754_nan \/ In B754_nan l -> fold_left energy l s = B754_nan.
Proof. revert s. induction l as [|v l IH]; intros s H; cbn [fold_left]; [destruct H as [H|[]]; exact H|]. apply IH. destruct H as [-> |[-> |H]]; [left; apply energy_nan_l|left; apply energy_nan_r|now right]. Qed.
Lemma roll_on_nan rollon mag : In B754_nan mag -> roll_on rollon mag = Ret mag.
Proof.
  intros I. unfold roll_on. destruct (gt32 rollon z32); [|reflexivity]. rewrite (energies_nan mag z32 (or_intror I)). cbv zeta. rewrite nan_mul_l, nan_div_l.
  enough (G : ok (fun r => r = mag) (do (mag, _, _) <- loop 2 (Z.of_nat (length mag) - 1) (fun '(mag, cum, go) iBin =>
        if go : bool then
          do v <- elt mag iBin;
          let cum := energy cum v in
          if Bltb cum B754_nan then do mag <- upd mag (iBin - 2) z32; Ret (mag, cum, true) else Ret (mag, cum, false)
        else Ret (mag, cum, false)) (mag, z32, true); Ret mag)) by (destruct G as (r & G & ->); exact G).
  apply ok_bind with (P := fun r : list b32 * b32 * bool => fst (fst r) = mag); [|intros ((l, c), g) H; apply ok_ret; exact H].
  apply ok_keep; [reflexivity|]. intros i ((m, cu), g) K E. cbn [fst] in E. subst m. destruct g; [|now apply ok_ret]. at_elt z32. cbv zeta. rewrite Bltb_nan_r. now apply ok_ret.
Qed.
Lemma note_magnitudes_nan kernel n mag fft note v : Z.of_nat (length mag) = n -> Forall (fun '(fft, note, _) => 0 <= fft < n /\ 0 <= note < nNote) kernel -> In (fft, note, v) kernel -> znth z32 mag fft = B754_nan -> ok (fun nm => at_nan nm note) (note_magnitudes kernel mag).
Proof.
  intros L K I E. unfold note_magnitudes. apply ok_weaken with (P := fun nm => Z.of_nat (length nm) = nNote /\ (In (fft, note, v) kernel -> znth z32 nm note = B754_nan)).
  - apply (ok_over_at (fun done nm => Z.of_nat (length nm) = nNote /\ (In (fft, note, v) done -> znth z32 nm note = B754_nan))); [split; [reflexivity|intros []]|].
    intros done ((f, k), w) rest nm Ek (N & H). assert (X : In (f, k, w) kernel) by (rewrite Ek; apply in_elt). rewrite Forall_forall in K. assert (K1 := K _ X). assert (K2 := K _ I). cbn in K1, K2. at_elt z32. unfold addto. at_elt z32. rewrite upd_ok by lia. apply ok_ret. split; [now rewrite replace_nth_length|].
    intros J. apply in_app_or in J. rewrite znth_replace by lia. destruct J as [J|[J|[]]].
    + specialize (H J). destruct (Z.eqb_spec note k) as [<-|NE]; [|exact H]. now rewrite H, nan_add_l.
    + injection J as -> -> ->. rewrite Z.eqb_refl, E, nan_mul_l. apply nan_add_r.
  - intros nm (N & H). split; [|now apply H]. rewrite Forall_forall in K. assert (K2 := K _ I). cbn in K2. lia.
Qed.
(** Once the mean is not a number, it stays so. *)
Lemma update_tunings_nan n nm mean local i : shaped nNote nn nm -> shaped 3 anything mean -> shaped 3 anything local -> 0 <= i < 3 -> znth z32 mean i = B754_nan \/ (exists note, 0 <= note < 162 /\ note mod 3 = i /\ znth z32 nm note = B754_nan) ->
  ok (fun r => at_nan (fst r) i) (update_tunings n nm mean local).
Proof.
  intros (NL & _) M L I H. unfold update_tunings. rewrite each_over. set (x := f64_to_32 _). unfold nNote in NL.
  apply ok_weaken with (P := fun r : list b32 * list b32 => (shaped 3 anything (fst r) /\ shaped 3 anything (snd r)) /\ (znth z32 mean i = B754_nan \/ (exists t, In t tones /\ znth z32 nm (t + i) = B754_nan) -> znth z32 (fst r) i = B754_nan)).
  - apply (ok_over_at (fun done r => (shaped 3 anything (fst r) /\ shaped 3 anything (snd r)) /\ (znth z32 mean i = B754_nan \/ (exists t, In t done /\ znth z32 nm (t + i) = B754_nan) -> znth z32 (fst r) i = B754_nan))).
    + cbn [fst snd]. destruct M as (M & _). split; [split; [|exact L]; split; [now rewrite map_length|]; apply Forall_forall; now intros|].
      intros [Q|(t & [] & _)]. unfold znth in *. rewrite (nth_indep _ z32 (mul32 z32 (mul32 (rat32 (n - 1) 1) x))) by (rewrite map_length; lia). rewrite (map_nth (fun v => mul32 v (mul32 (rat32 (n - 1) 1) x))), Q. apply nan_mul_l.
    + intros done t rest (m, l) E ((Hm & Hl) & Hn). cbn [fst snd] in *. assert (T : In t tones) by (rewrite E; apply in_elt). apply tones_In in T.
      apply ok_bind with (P := fun m' => shaped 3 anything m' /\ (znth z32 m i = B754_nan \/ znth z32 nm (t + i) = B754_nan -> znth z32 m' i = B754_nan)).
      * apply ok_weaken with (P := fun m' => shaped 3 anything m' /\ (znth z32 m i = B754_nan \/ (i < nBPS - 1 + 1 /\ znth z32 nm (t + i) = B754_nan) -> znth z32 m' i = B754_nan)).
        2: { intros m' (A & B). split; [exact A|]. intros [Q|Q]; apply B; [now left|right]. split; [unfold nBPS; lia|exact Q]. }
        apply (ok_each (fun k m' => shaped 3 anything m' /\ (znth z32 m i = B754_nan \/ (i < k /\ znth z32 nm (t + i) = B754_nan) -> znth z32 m' i = B754_nan))); unfold nBPS; [lia|split; [exact Hm|]; intros [Q|(Q & _)]; [exact Q|lia]|].
        intros k m' K (A & B). assert (A0 := A). destruct A as (A & _). at_elt z32. unfold addto. at_elt z32. rewrite upd_ok by lia. apply ok_ret. split; [now apply shaped_replace|]. rewrite znth_replace by lia. destruct (Z.eqb_spec i k) as [->|NE].
        -- intros [Q|(Q1 & Q2)]; [rewrite B by (now left); apply nan_add_l|]. rewrite Q2, nan_mul_l. apply nan_add_r.
        -- intros [Q|(Q1 & Q2)]; apply B; [now left|right; split; [lia|exact Q2]].
      * intros m' (Hm' & Hn'). apply ok_bind with (P := shaped 3 anything).
        -- apply ok_keep; [exact Hl|]. unfold nBPS. intros k l' K H0. assert (H1 := H0). destruct H0 as (H0 & _). at_elt z32. at_elt z32. rewrite upd_ok by lia. apply ok_ret. now apply shaped_replace.
        -- intros l' Hl'. apply ok_ret. cbn [fst snd]. split; [now split|]. intros [Q|(t' & T' & Q)]; [apply Hn'; left; apply Hn; now left|]. apply in_app_or in T'. destruct T' as [T'|[-> |[]]]; [apply Hn'; left; apply Hn; right; now exists t'|apply Hn'; now right].
  - intros r (((A & _) & _) & B). split; [lia|]. apply B. destruct H as [H|(note & N1 & N2 & N3)]; [now left|]. right. exists (note - i). replace (note - i + i) with note by lia. split; [|exact N3].
    assert (D := Z.div_mod note 3 ltac:(lia)). unfold tones, by3. rewrite filter_In, zrange_In. unfold nBPS. split; [assert (note / 3 < 54) by (apply Z.div_lt_upper_bound; lia); assert (0 <= note / 3) by (apply Z.div_pos; lia); lia|]. apply Z.eqb_eq. replace (note - i - 0) with (note / 3 * 3) by lia. apply Z.mod_mul. lia.
Qed.
Lemma sums_nan sins coss tun i : 0 <= i < 3 -> znth z32 tun i = B754_nan -> fst (sums sins coss tun) = B754_nan /\ snd (sums sins coss tun) = B754_nan.
Proof.
  intros I E. unfold sums. change (zrange 0 2) with [0; 1; 2]. cbn [fold_left fst snd]. assert (C : i = 0 \/ i = 1 \/ i = 2) by lia. destruct C as [-> |[-> | ->]]; rewrite E; rewrite ?nan_mul_l, ?nan_add_r, ?nan_add_l; now split.
Qed.

Section Machine.
  Context (atan2 : b32 -> b32 -> b32) {stamp : Type}.
  Notation plug := (@plug stamp).
  Implicit Types (c : setup) (p : plug).
  (** A frame with not-a-number in a bin that belongs to a note which is used for the tuning, and with a bin that is loud enough. *)
  Definition spoiled c (fbuf : list b32) (i : Z) : Prop :=
    exists fft note v k, In (fft, note, v) (s_kernel c) /\ 0 <= note < 162 /\ note mod 3 = i /\ (znth z32 fbuf (2 * fft) = B754_nan \/ znth z32 fbuf (2 * fft + 1) = B754_nan) /\
      0 <= k < s_block c / 2 /\ Bleb (rat32 2 1) (magnitude (s_block c) fbuf k) = true.
  Lemma process_nan c p t fbuf i : ready c -> kept_well p -> s_block c <= Z.of_nat (length fbuf) -> 0 <= i < 3 -> znth z32 (p_mean p) i = B754_nan \/ spoiled c fbuf i ->
    ok (fun r => znth z32 (p_mean (fst r)) i = B754_nan) (process atan2 c p t fbuf).
  Proof.
    intros [Rd Rk Rh Rs Rc Rb Rn] [Km Kl Kt Kc Ks] B I H. unfold process. assert (MO := magnitudes_ok (s_block c) fbuf ltac:(lia)). rewrite magnitudes_eq in * by lia. cbn [bind]. set (mag := map _ _) in *. set (mx := fold_left _ _ _) in *.
    destruct MO as (r & Er & M). apply Ret_inj in Er. subst r. cbn [fst] in M.
    assert (E3 : forall nm, shaped nNote nn nm -> znth z32 (p_mean p) i = B754_nan \/ (exists note, 0 <= note < 162 /\ note mod 3 = i /\ znth z32 nm note = B754_nan) ->
      ok (fun r : plug * (stamp * list b32) => znth z32 (p_mean (fst r)) i = B754_nan) (do (mean, local) <- update_tunings (p_frames p + 1) nm (p_mean p) (p_local p); do a <- angle atan2 (s_sin c) (s_cos c) local; Ret (mkPlug (p_frames p + 1) mean local (p_tuning p ++ [a]) (p_spectra p ++ [(t, nm)]), (t, nm)))).
    { intros nm N X. apply ok_bind with (1 := ok_and _ _ _ (update_tunings_ok (p_frames p + 1) nm (p_mean p) (p_local p) N Km Kl) (update_tunings_nan (p_frames p + 1) nm (p_mean p) (p_local p) i N Km Kl I X)). intros (mean, local) ((Hm & Hl) & Hn). cbn [fst snd] in *.
      rewrite (angle_eq atan2 _ _ _ Rs Rc (shaped3 _ _ Hl)). cbn [bind]. apply ok_ret. exact (proj2 Hn). }
    destruct H as [H|(fft & note & v & k & H1 & H2 & H3 & H4 & H5 & H6)].
    - apply ok_bind with (1 := roll_on_ok nn (s_rollon c) _ mag nn_zero M). intros mag' M'. cbv zeta. assert (Q := quiet_ok nn mx _ mag' nn_zero M').
      apply ok_bind with (1 := note_magnitudes_ok (s_kernel c) _ _ Q Rk). intros nm N. apply E3; [exact N|now left].
    - assert (K0 := Rk). rewrite Forall_forall in K0. destruct (K0 _ H1) as (F1 & F2 & _). assert (MN : znth z32 mag fft = B754_nan) by (unfold mag; rewrite znth_map by lia; now apply magnitude_nan).
      assert (IN : In B754_nan mag) by (rewrite <- MN; unfold znth; apply nth_In; destruct M as (M & _); lia). rewrite roll_on_nan by exact IN. cbn [bind]. cbv zeta.
      assert (LQ : Bltb mx (rat32 2 1) = false). { unfold mx. apply loud_kept; [reflexivity|]. right. apply Exists_exists. exists (magnitude (s_block c) fbuf k). split; [|exact H6]. apply in_map. apply zrange_In. lia. }
      unfold quiet. rewrite LQ. assert (K1 : Forall (fun '(fft, note, _) => 0 <= fft < s_block c / 2 /\ 0 <= note < nNote) (s_kernel c)) by (apply Forall_impl with (2 := Rk); intros ((a, b), w); tauto).
      apply ok_bind with (1 := ok_and _ _ _ (note_magnitudes_ok (s_kernel c) _ _ M Rk) (note_magnitudes_nan (s_kernel c) _ mag fft note v (proj1 M) K1 H1 MN)). intros nm (N & _ & NN). apply E3; [exact N|]. right. exists note. auto.
  Qed.
  Lemma spoiled_run (ATAN : atan2_law atan2) c before (t : stamp) fbuf after p i : ready c -> Forall (fun f => s_block c <= Z.of_nat (length (snd f))) (before ++ (t, fbuf) :: after) -> 0 <= i < 3 -> spoiled c fbuf i ->
    processed atan2 c (before ++ (t, fbuf) :: after) reset = Ret p -> ~ in_tune atan2 c p.
  Proof.
    intros R F I Sp E. set (frames := before ++ (t, fbuf) :: after) in *.
    assert (G : ok (fun p : plug => (kept_well p /\ length (p_spectra p) = length frames) /\ ((length before < length frames)%nat -> znth z32 (p_mean p) i = B754_nan)) (processed atan2 c frames reset)).
    { unfold processed. apply (ok_over_at (fun done (p : plug) => (kept_well p /\ length (p_spectra p) = length done) /\ ((length before < length done)%nat -> znth z32 (p_mean p) i = B754_nan))); [split; [split; [apply reset_well|reflexivity]|cbn; lia]|].
      intros done (t', fb) rest q Ed ((Kq & Lq) & Hq). assert (B : s_block c <= Z.of_nat (length fb)) by (rewrite Ed in F; apply Forall_app in F as (_ & F); now apply Forall_inv in F).
      assert (PO := process_ok atan2 ATAN c q t' fb R Kq B). destruct (le_lt_dec (length before) (length done)) as [Le|Lt].
      - assert (X : znth z32 (p_mean q) i = B754_nan \/ spoiled c fb i).
        { destruct (Nat.eq_dec (length before) (length done)) as [Q|Q]; [right|left; apply Hq; lia]. unfold frames in Ed. assert (Eb : before = done /\ (t, fbuf) :: after = (t', fb) :: rest) by (revert Ed Q; clear; revert done; induction before as [|x l IH]; intros [|y d] Ed Q; try discriminate Q; cbn [app] in Ed; [now split|]; injection Ed as -> Ed; destruct (IH d Ed ltac:(cbn in Q; lia)) as (-> & Q'); now split).
          destruct Eb as (_ & Eb). apply (f_equal (hd (t, fbuf))) in Eb. cbn [hd] in Eb. apply pair_equal_spec in Eb as (_ & <-). exact Sp. }
        apply ok_bind with (1 := ok_and _ _ _ PO (process_nan c q t' fb i R Kq B I X)). intros (q', sp) ((K' & _ & S') & N'). cbn [fst snd] in *. apply ok_ret. apply (f_equal (@length _)) in S'. rewrite app_length, !map_length in S'. cbn [length] in S'. split; [split; [exact K'|rewrite app_length; cbn [length]; lia]|now intros _].
      - apply ok_bind with (1 := PO). intros (q', sp) (K' & _ & S'). cbn [fst snd] in *. apply ok_ret. apply (f_equal (@length _)) in S'. rewrite app_length, !map_length in S'. cbn [length] in S'. split; [split; [exact K'|rewrite app_length; cbn [length]; lia]|]. rewrite app_length. cbn [length]. lia. }
    destruct G as (p' & E' & (K & L) & N). rewrite E in E'. apply Ret_inj in E'. subst p'. specialize (N ltac:(unfold frames; rewrite app_length; cbn [length]; lia)).
    intros [T|(T & _)]; [rewrite T in L; unfold frames in L; rewrite app_length in L; cbn [length] in L; lia|]. apply T. unfold mean_angle. destruct (sums_nan (s_sin c) (s_cos c) (p_mean p) i I N) as (-> & ->). destruct (ATAN B754_nan B754_nan) as (_ & A). rewrite A by (now left). reflexivity.
  Qed.
End Machine.
