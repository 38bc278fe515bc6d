(** The chroma plug-in stays inside its arrays, and what it keeps is not negative. *)
From Coq Require Import Reals Lra Lia.
From Flocq Require Import Core.Core IEEE754.BinarySingleNaN.
From Verif Require Import Base BaseFacts Fp Options Chromagram ChromaFacts TextSpec ChromaSpec NumberFacts SequenceFacts Nnls NnlsArith NnlsFacts NnlsSafe NnlsSingle NnlsMain NnlsEnds Plug PlugFacts PlugNum.
Open Scope Z_scope.

Tactic Notation "at_elt" uconstr(d) := match goal with |- ok _ (bind (elt ?l ?i) _) => eapply (ok_eq _ _ _ _ (elt_ok d l i ltac:(lia))) end.
Ltac at_upd := match goal with |- ok _ (bind (upd ?l ?i ?v) _) => eapply (ok_eq _ _ _ _ (upd_ok l i v ltac:(lia))) end.
Definition shaped (n : Z) (P : b32 -> Prop) (l : list b32) : Prop := Z.of_nat (length l) = n /\ Forall P l.
Definition anything {T} (_ : T) : Prop := True.
Lemma shaped_snoc n P l v : shaped n P l -> P v -> shaped (n + 1) P (l ++ [v]).
Proof. intros (L & F) V. split; [rewrite app_length; cbn; lia|]. apply Forall_app. split; [exact F|now constructor]. Qed.
Lemma shaped_replace n P l i v : shaped n P l -> P v -> shaped n P (replace_nth l i v).
Proof. intros (L & F) V. split; [now rewrite replace_nth_length|now apply Forall_replace]. Qed.
Lemma shaped_any n P l : shaped n P l -> shaped n anything l.
Proof. intros (L & F). split; [exact L|]. apply Forall_forall. now intros. Qed.
Lemma shaped_repeat n (P : b32 -> Prop) v : 0 <= n -> P v -> shaped n P (repeat v (Z.to_nat n)).
Proof. intros N V. split; [rewrite repeat_length; lia|]. apply Forall_forall. intros x X. now apply repeat_spec in X; subst. Qed.
Lemma addto_ok n P l i v : shaped n P l -> 0 <= i < n -> (forall x, P x -> P (fadd32 x v)) -> ok (shaped n P) (addto l i v).
Proof. intros (L & F) I H. unfold addto. at_elt z32. rewrite upd_ok by lia. apply ok_ret. apply shaped_replace; [now split|]. apply H. apply Forall_znth; [exact F|lia]. Qed.

(** ** process() *)
Lemma rat32_sign n : 0 <= n -> nn (rat32 n 1).
Proof.
  intros N. destruct (Z.eq_dec n 0) as [->|Z]; [reflexivity|]. apply nn_sign. assert (C := ratB_correct prec32 emax32 n 1 Z). cbv zeta in C. unfold rat32. destruct (Rlt_bool _ _).
  - destruct C as (_ & _ & C). etransitivity; [exact C|]. apply Z.ltb_ge. lia.
  - rewrite C. cbn. apply Z.ltb_ge. lia.
Qed.
Lemma clip_nn block v : 0 <= block -> nn v -> nn (clip block v).
Proof. intros B V. unfold clip. destruct (fgt _ _); [now apply rat32_sign|exact V]. Qed.
Lemma magnitudes_ok block fbuf : 0 <= block <= Z.of_nat (length fbuf) -> ok (fun r => shaped (block / 2) nn (fst r)) (magnitudes block fbuf).
Proof.
  intros B. unfold magnitudes. assert (D : 0 <= block / 2) by (apply Z.div_pos; lia). assert (D2 := Z.mul_div_le block 2 ltac:(lia)).
  apply ok_weaken with (P := fun r : list b32 * b32 => shaped (block / 2 - 1 + 1) nn (fst r)); [|intros r; now replace (block / 2 - 1 + 1) with (block / 2) by lia].
  apply (ok_each (fun i (r : list b32 * b32) => shaped i nn (fst r))); [lia|split; [reflexivity|constructor]|].
  intros i (l, mx) I L. at_elt z32. at_elt z32. apply ok_ret. cbn [fst] in *. apply shaped_snoc; [exact L|]. apply clip_nn; [lia|apply nn_sqrt].
Qed.
Lemma roll_on_ok (P : b32 -> Prop) rollon n mag : P z32 -> shaped n P mag -> ok (shaped n P) (roll_on rollon mag).
Proof.
  intros P0 M. unfold roll_on. destruct (gt32 rollon z32); [|now apply ok_ret].
  apply ok_bind with (P := fun r : list b32 * b32 * bool => shaped n P (fst (fst r))); [|intros ((l, c), g) H; apply ok_ret; exact H].
  apply ok_keep; [exact M|]. intros i ((l, c), g) I L. cbn [fst] in L. destruct g; [|now apply ok_ret]. assert (E : Z.of_nat (length l) = Z.of_nat (length mag)) by (destruct L as (L & _), M as (M & _); lia).
  at_elt z32. destruct (Bltb _ _); [|now apply ok_ret]. at_upd. apply ok_ret. cbn [fst]. now apply shaped_replace.
Qed.
Lemma quiet_ok (P : b32 -> Prop) mx n mag : P z32 -> shaped n P mag -> shaped n P (quiet mx mag).
Proof. intros P0 (L & F). unfold quiet. destruct (Bltb _ _); [|now split]. split; [now rewrite map_length|]. apply Forall_forall. intros x X. apply in_map_iff in X as (y & <- & _). exact P0. Qed.
Lemma note_magnitudes_ok kernel n mag : shaped n nn mag -> Forall (fun '(fft, note, v) => 0 <= fft < n /\ 0 <= note < nNote /\ nn v) kernel -> ok (shaped nNote nn) (note_magnitudes kernel mag).
Proof.
  intros (L & F) K. unfold note_magnitudes. apply ok_over; [apply shaped_repeat; [unfold nNote; lia|exact nn_zero]|]. intros nm ((fft, note), v) X N. rewrite Forall_forall in K. destruct (K _ X) as (K1 & K2 & K3).
  at_elt z32. apply addto_ok; [exact N|exact K2|]. intros x Hx. apply nn_add; [exact Hx|]. apply nn_mul; [apply Forall_znth; [exact F|lia]|exact K3].
Qed.
Lemma tones_In i : In i tones -> 0 <= i <= 159.
Proof. unfold tones, by3. rewrite filter_In, zrange_In. tauto. Qed.
Lemma update_tunings_ok n nm mean local : shaped nNote nn nm -> shaped 3 anything mean -> shaped 3 anything local -> ok (fun r => shaped 3 anything (fst r) /\ shaped 3 anything (snd r)) (update_tunings n nm mean local).
Proof.
  intros (N & _) M L. unfold update_tunings. rewrite each_over. apply ok_over.
  - split; [|exact L]. cbn [fst]. destruct M as (M & _). split; [now rewrite map_length|]. apply Forall_forall. now intros.
  - intros (m, l) t T (Hm & Hl). cbn [fst snd] in *. apply tones_In in T. unfold nNote in N.
    apply ok_bind with (P := shaped 3 anything).
    { apply ok_keep; [exact Hm|]. unfold nBPS. intros i m' I H. at_elt z32. apply addto_ok; [exact H|lia|now intros]. }
    intros m' Hm'. apply ok_bind with (P := shaped 3 anything); [|intros l' Hl'; apply ok_ret; now split].
    apply ok_keep; [exact Hl|]. unfold nBPS. intros i l' I H. assert (H0 := H). destruct H as (H & _). at_elt z32. at_elt z32. rewrite upd_ok by lia. apply ok_ret. now apply shaped_replace.
Qed.
(** A tuning: not-a-number, or at most half a turn. *)
Definition half_turn (a : b32) : Prop := a = B754_nan \/ below a (1 / 2).
Section Machine.
  Context (atan2 : b32 -> b32 -> b32) {stamp : Type}.
  Definition sums (sins coss tun : list b32) : b32 * b32 :=
    fold_left (fun '(re, im) i => (fadd32 re (mul32 (znth z32 tun i) (znth z32 coss i)), fadd32 im (mul32 (znth z32 tun i) (znth z32 sins i)))) (zrange 0 2) (z32, z32).
  Lemma angle_eq sins coss tun : length sins = 3%nat -> length coss = 3%nat -> length tun = 3%nat -> angle atan2 sins coss tun = Ret (turn (atan2 (snd (sums sins coss tun)) (fst (sums sins coss tun)))).
  Proof.
    intros S C T. unfold angle. unfold nBPS. rewrite (loop_pure _ (fun '(re, im) i => (fadd32 re (mul32 (znth z32 tun i) (znth z32 coss i)), fadd32 im (mul32 (znth z32 tun i) (znth z32 sins i))))).
    - cbn [bind]. change (3 - 1) with 2. fold (sums sins coss tun). now destruct (sums sins coss tun).
    - intros (re, im) i I. rewrite !(elt_ok z32) by lia. reflexivity.
  Qed.
  Lemma turn_nan : turn B754_nan = B754_nan. Proof. reflexivity. Qed.
  Lemma angle_half (ATAN : atan2_law atan2) y x : half_turn (turn (atan2 y x)).
  Proof.
    destruct (ATAN y x) as (A & B). destruct (is_nan y); [left; rewrite B; [reflexivity|now left]|]. destruct (is_nan x); [left; rewrite B; [reflexivity|now right]|].
    right. destruct A as (A1 & A2); [now split|]. now apply turn_half.
  Qed.

  Record ready (c : setup) : Prop := mkReady {
    rd_dict : Z.of_nat (length (s_dict c)) = nNote * 84;
    rd_kernel : Forall (fun '(fft, note, v) => 0 <= fft < s_block c / 2 /\ 0 <= note < nNote /\ nn v) (s_kernel c);
    rd_hw : exists h, Z.of_nat (length (s_hw c)) = 2 * h + 1 /\ 0 <= h <= 127;
    rd_sin : length (s_sin c) = 3%nat; rd_cos : length (s_cos c) = 3%nat; rd_block : 0 <= s_block c;
    rd_normalize : gt32 (s_normalize c) z32 = true -> exists k, to_int (f32_to_64 (s_normalize c)) = Ret k }.
  Record kept_well (p : @plug stamp) : Prop := mkKept {
    kw_mean : shaped 3 anything (p_mean p); kw_local : shaped 3 anything (p_local p);
    kw_tuning : Forall half_turn (p_tuning p); kw_count : length (p_tuning p) = length (p_spectra p);
    kw_spectra : Forall (fun tf => shaped nNote nn (snd tf)) (p_spectra p) }.
  Lemma reset_well : kept_well reset.
  Proof. split; cbn; try constructor; try reflexivity; repeat constructor. Qed.
  Lemma shaped3 P l : shaped 3 P l -> length l = 3%nat. Proof. intros (L & _). lia. Qed.
  Lemma process_ok (ATAN : atan2_law atan2) c p t fbuf : ready c -> kept_well p -> s_block c <= Z.of_nat (length fbuf) ->
    ok (fun r => kept_well (fst r) /\ snd r = last (p_spectra (fst r)) (snd r) /\ map fst (p_spectra (fst r)) = map fst (p_spectra p) ++ [t]) (process atan2 c p t fbuf).
  Proof.
    intros [Rd Rk Rh Rs Rc Rb Rn] [Km Kl Kt Kc Ks] B. unfold process. apply ok_bind with (1 := magnitudes_ok (s_block c) fbuf ltac:(lia)). intros (mag, mx) M. cbn [fst] in M.
    apply ok_bind with (1 := roll_on_ok nn (s_rollon c) _ mag nn_zero M). intros mag' M'. cbv zeta. assert (Q := quiet_ok nn mx _ mag' nn_zero M').
    apply ok_bind with (1 := note_magnitudes_ok (s_kernel c) _ _ Q Rk). intros nm N.
    apply ok_bind with (1 := update_tunings_ok (p_frames p + 1) nm (p_mean p) (p_local p) N Km Kl). intros (mean, local) (Hm & Hl). cbn [fst snd] in *.
    rewrite (angle_eq _ _ _ Rs Rc (shaped3 _ _ Hl)). cbn [bind]. apply ok_ret. cbn [fst snd p_spectra]. split; [|split].
    - split; cbn [p_mean p_local p_tuning p_spectra]; [exact Hm|exact Hl| | |].
      + apply Forall_app. split; [exact Kt|]. constructor; [now apply angle_half|constructor].
      + rewrite !app_length. cbn. lia.
      + apply Forall_app. split; [exact Ks|]. constructor; [exact N|constructor].
    - now rewrite last_last.
    - now rewrite map_app.
  Qed.

End Machine.

(** ** Tuning and whitening *)
Lemma tuned_ok i f f1 : -2 <= i <= 1 -> nn f -> nn (sub32 one32 f) -> shaped nNote nn f1 -> ok (shaped nNote nn) (tuned i f f1).
Proof.
  intros I F F' (L & N). unfold tuned. unfold nNote in *. rewrite L. change (256 - 4) with 252.
  apply ok_bind with (P := shaped (252 + 1) nn).
  - apply (ok_each (fun k l => shaped k nn l)); [lia|repeat constructor|]. intros k l K H. at_elt z32. at_elt z32. apply ok_ret. apply shaped_snoc; [exact H|]. apply nn_add; apply nn_mul; try assumption; apply Forall_znth; try exact N; lia.
  - intros l (H1 & H2). apply ok_ret. split; [rewrite app_length; cbn [length]; lia|]. apply Forall_app. split; [exact H2|repeat constructor].
Qed.
Lemma special_convolution_ok l kernel h : Z.of_nat (length l) = nNote -> Z.of_nat (length kernel) = 2 * h + 1 -> 0 <= h <= 127 -> ok (shaped nNote anything) (special_convolution l kernel).
Proof.
  intros L K H. unfold special_convolution. unfold nNote in *. rewrite L, K. assert (E : (2 * h + 1) / 2 = h) by (symmetry; apply (Z.div_unique _ _ _ 1); lia). rewrite E.
  apply ok_bind with (P := shaped 256 anything).
  - apply ok_keep; [apply shaped_repeat; [lia|easy]|]. intros n z I Z. apply ok_bind with (P := anything).
    + apply ok_keep; [easy|]. intros m s M _. at_elt z32. at_elt z32. now apply ok_ret.
    + intros s _. assert (Z0 := Z). destruct Z as (Z & _). rewrite upd_ok by lia. apply ok_ret. now apply shaped_replace.
  - intros z Z. apply ok_bind with (P := shaped 256 anything).
    + apply ok_keep; [exact Z|]. intros n z' I Z'. assert (Z0 := Z'). destruct Z' as (Z' & _). at_elt z32. rewrite upd_ok by lia. apply ok_ret. now apply shaped_replace.
    + intros z2 Z2. apply ok_keep; [exact Z2|]. intros n z' I Z'. assert (Z0 := Z'). destruct Z' as (Z' & _). at_elt z32. rewrite upd_ok by lia. apply ok_ret. now apply shaped_replace.
Qed.
Lemma whiten_ok (powf : b32 -> b32 -> b32) (POW : forall s w, gt32 s z32 = true -> Bsign (powf s w) = false) hw h w f2 : Z.of_nat (length hw) = 2 * h + 1 -> 0 <= h <= 127 -> shaped nNote nn f2 -> ok (fun r => shaped nNote nn (fst r) /\ snd r = 0) (whiten powf hw w f2).
Proof.
  intros Hh H (L & N). unfold whiten. apply ok_bind with (1 := special_convolution_ok f2 hw h L Hh H). intros mean (Lm & _). unfold nNote in *.
  apply ok_bind with (P := shaped (256 - 1 + 1) anything).
  { apply (ok_each (fun k l => shaped k anything l)); [lia|split; [reflexivity|constructor]|]. intros i l I Hl. at_elt z32. at_elt z32. apply ok_ret. now apply shaped_snoc. }
  intros sq (Ls & _). change (256 - 1 + 1) with 256 in Ls. apply ok_bind with (1 := special_convolution_ok sq hw h Ls Hh H). intros std (Lstd & _). unfold nNote in *.
  apply ok_keep; [now split|]. intros i (f, e) I (F & E). cbn [fst snd] in *. subst e. assert (F0 := F). destruct F as (Lf & Nf). at_elt z32. cbv zeta. at_elt z32. at_elt z32.
  apply ok_bind with (P := shaped 256 nn).
  - destruct (gt32 (sqrt32 _) z32) eqn:S; [|now apply ok_ret]. rewrite upd_ok by lia. apply ok_ret. apply shaped_replace; [exact F0|]. destruct (gt32 (sub32 _ _) z32) eqn:D; [|reflexivity]. apply nn_div; [exact D|]. now apply POW.
  - intros f' (Lf' & Nf'). at_elt z32. apply ok_ret. cbn [fst snd]. split; [now split|]. assert (X := Forall_znth z32 _ f' i Nf' ltac:(lia)). unfold nn in X. now rewrite X.
Qed.
