(** Whole runs of the chroma plug-in. *)
From Coq Require Import Reals Lra Lia.
From Flocq Require Import Core.Core IEEE754.BinarySingleNaN.
From Verif Require Import Base BaseFacts Fp Options Chromagram ChromaFacts Nnls NnlsArith NnlsFacts NnlsSafe NnlsSingle NnlsSums NnlsSpec NnlsMain NnlsEnds Plug PlugSpec PlugFacts PlugNum PlugSafe PlugFrame PlugChroma.
Open Scope Z_scope.

(** ** A frame from its spectrum *)
Lemma copied (f2 : list b32) : Z.of_nat (length f2) = nNote -> loop 0 (nNote - 1) (fun b i => do v <- elt f2 i; Ret (b ++ [v])) [] = Ret f2.
Proof.
  intros L. unfold nNote in *. rewrite (loop_pure _ (fun b i => b ++ [znth z32 f2 i])) by (intros s i I; rewrite (elt_ok z32) by lia; reflexivity). f_equal.
  assert (G : forall l (acc : list b32), fold_left (fun b i => b ++ [znth z32 f2 i]) l acc = acc ++ map (znth z32 f2) l) by (induction l as [|x l IH]; intros acc; cbn [fold_left map]; [now rewrite app_nil_r|]; rewrite IH, <- app_assoc; reflexivity).
  rewrite G. cbn [app]. apply (nth_ext _ _ z32 z32); [rewrite map_length, zrange_length; lia|]. intros n N. rewrite map_length, zrange_length in N. rewrite (nth_indep _ z32 (znth z32 f2 0)) by (rewrite map_length, zrange_length; lia). rewrite map_nth.
  unfold zrange. rewrite (nth_indep _ 0 (0 + Z.of_nat 0)) by (rewrite map_length, seq_length; lia). rewrite (map_nth (fun k => 0 + Z.of_nat k)). rewrite seq_nth by lia. unfold znth. f_equal. lia.
Qed.
Lemma spectrum_frame_ok u dict f2 : Z.of_nat (length f2) = nNote -> Z.of_nat (length dict) = nNote * 84 ->
  exists notes, length notes = 84%nat /\ spectrum_frame u dict f2 = Ret (frame_of notes).
Proof.
  intros L D. assert (N : forall val : Z -> b32, length (map val (zrange 0 83)) = 84%nat) by (intros val; now rewrite map_length, zrange_length). unfold spectrum_frame. rewrite copied by exact L. cbn [bind]. destruct (existsb _ f2).
  - destruct (Beqb u z32).
    + rewrite plain_frame_eq by exact L. eexists. split; [|reflexivity]. apply N.
    + destruct (transcribe_ok (A := single) single_lawful dict f2 L D) as (val & T & O). rewrite (nnls_frame_from dict f2 val T O). eexists. split; [|reflexivity]. apply N.
  - rewrite zero_frame. eexists. split; [|reflexivity]. apply N.
Qed.
Lemma chroma_length w notes : length (chroma_of w notes) = 12%nat. Proof. unfold chroma_of. now rewrite map_length. Qed.
Lemma divided_length l n : length (divided l n) = length l. Proof. unfold divided. destruct (gt32 _ _); [apply map_length|reflexivity]. Qed.
Lemma normalised_ok s f4 f5 : (gt32 s z32 = true -> exists k, to_int (f32_to_64 s) = Ret k) -> ok (fun '(a, b, c) => length a = length f4 /\ length b = length f5 /\ length c = (length f5 + length f4)%nat) (normalised s f4 f5).
Proof.
  intros H. unfold normalised. destruct (gt32 s z32).
  - destruct (H eq_refl) as (k & ->). cbn [bind]. destruct (norms k f4 f5 (f5 ++ f4)) as ((a, b), c). apply ok_ret. now rewrite !divided_length, app_length.
  - apply ok_ret. now rewrite app_length.
Qed.

Section Machine.
  Context (atan2 powf : b32 -> b32 -> b32) (ATAN : atan2_law atan2) (POW : forall s w, gt32 s z32 = true -> Bsign (powf s w) = false) {stamp : Type}.
  Notation plug := (@plug stamp).
  Implicit Types (c : setup) (p : plug).
  (** ** All frames *)
  Definition processed c (frames : list (stamp * list b32)) p0 : outcome plug := over (fun p '(t, fbuf) => do (p, _) <- process atan2 c p t fbuf; Ret p) frames p0.
  Lemma processed_ok c frames p0 : ready c -> kept_well p0 -> Forall (fun f => s_block c <= Z.of_nat (length (snd f))) frames ->
    ok (fun p => kept_well p /\ map fst (p_spectra p) = map fst (p_spectra p0) ++ map fst frames) (processed c frames p0).
  Proof.
    intros R K F. unfold processed. apply (ok_over_at (fun done p => kept_well p /\ map fst (p_spectra p) = map fst (p_spectra p0) ++ map fst done)); [now rewrite app_nil_r|].
    intros done (t, fbuf) rest p E (Kp & Sp). assert (B : s_block c <= Z.of_nat (length fbuf)) by (rewrite E in F; apply Forall_app in F as (_ & F); now apply Forall_inv in F).
    apply ok_bind with (1 := process_ok atan2 ATAN c p t fbuf R Kp B). intros (p', sp) (K' & _ & S'). cbn [fst snd] in *. apply ok_ret. split; [exact K'|]. rewrite S', Sp, map_app, app_assoc. reflexivity.
  Qed.

  (** ** The tunings that are used *)
  Definition no_nan (a : b32) : Prop := a <> B754_nan.
  Definition usable (s : Z * b32) : Prop := -2 <= fst s <= 1 /\ nn (snd s) /\ nn (sub32 one32 (snd s)).
  Lemma usable_half a : half_turn a -> no_nan a -> ok usable (shifts a).
  Proof. intros [H|H] N; [contradiction|]. apply ok_weaken with (1 := shifts_ok a H). now intros (i, f). Qed.
  (** Without a tuning that is not a number, all spectra are tuned. *)
  Lemma tune_all_ok c p g : ready c -> kept_well p -> usable g -> (s_tuneLocal c = true -> Forall no_nan (p_tuning p)) ->
    ok (fun r => map fst (fst r) = map fst (p_spectra p) /\ Forall (fun tf => shaped nNote nn (snd tf)) (fst r) /\ snd r = 0) (tune_all powf c p g).
  Proof.
    intros [Rd Rk (h & Rh & Hh) Rs Rc Rb Rn] [Km Kl Kt Kc Ks] G T. unfold tune_all.
    apply ok_bind with (P := fun r : list (stamp * list b32) * Z * Z => map fst (fst (fst r)) = map fst (p_spectra p) /\ Forall (fun tf => shaped nNote nn (snd tf)) (fst (fst r)) /\ snd (fst r) = 0); [|intros ((l, e), n) H; apply ok_ret; exact H].
    apply ok_weaken with (P := fun r : list (stamp * list b32) * Z * Z => (map fst (fst (fst r)) = map fst (p_spectra p) /\ Forall (fun tf => shaped nNote nn (snd tf)) (fst (fst r)) /\ snd (fst r) = 0) /\ snd r = Z.of_nat (length (p_spectra p))); [|now intros r (H & _)].
    apply (ok_over_at (fun done r => (map fst (fst (fst r)) = map fst done /\ Forall (fun tf => shaped nNote nn (snd tf)) (fst (fst r)) /\ snd (fst r) = 0) /\ snd r = Z.of_nat (length done))); [repeat split; constructor|].
    intros done (t, f1) rest ((l, e), n) E ((A & B & C) & D). cbn [fst snd] in *. subst e n.
    assert (F1 : shaped nNote nn f1) by (rewrite E in Ks; apply Forall_app in Ks as (_ & Ks); now apply Forall_inv in Ks).
    apply ok_bind with (P := usable).
    { destruct (s_tuneLocal c) eqn:TL; [|now apply ok_ret]. assert (I : 0 <= Z.of_nat (length done) < Z.of_nat (length (p_tuning p))) by (rewrite Kc, E, app_length; cbn [length]; lia).
      rewrite (elt_ok z32) by exact I. cbn [bind]. apply usable_half; apply Forall_znth; try exact I; [exact Kt|now apply T]. }
    intros (i, f) (Ui & Uf & Uf'). cbn [fst snd] in *. apply ok_bind with (1 := tuned_ok i f f1 Ui Uf Uf' F1). intros f2 F2.
    apply ok_bind with (1 := whiten_ok powf POW (s_hw c) h (s_whitening c) f2 Rh Hh F2). intros (f2', e) (F2' & E'). cbn [fst snd] in *. subst e. apply ok_ret. cbn [fst snd]. split.
    - split; [rewrite !map_app, A; reflexivity|]. split; [|reflexivity]. apply Forall_app. split; [exact B|]. constructor; [exact F2'|constructor].
    - rewrite app_length. cbn [length]. lia.
  Qed.
  (** With one, it is converted to an int. *)
  Lemma tune_all_cast c p g : ready c -> kept_well p -> usable g -> s_tuneLocal c = true -> ~ Forall no_nan (p_tuning p) -> tune_all powf c p g = Undef FloatCast.
  Proof.
    intros [Rd Rk (h & Rh & Hh) Rs Rc Rb Rn] [Km Kl Kt Kc Ks] G TL T. unfold tune_all. rewrite TL.
    assert (X : forall rest tun done l e, Forall half_turn tun -> Forall (fun tf => shaped nNote nn (snd tf)) rest -> length tun = length rest -> p_tuning p = done ++ tun -> ~ Forall no_nan tun ->
      over (fun '(l, errors, count) '(t, f1) => do (i, f) <- (do a <- elt (p_tuning p) count; shifts a); do f2 <- tuned i f f1; do (f2, e) <- whiten powf (s_hw c) (s_whitening c) f2; Ret (l ++ [(t : stamp, f2)], errors + e, count + 1)) rest (l, e, Z.of_nat (length done)) = Undef FloatCast).
    { induction rest as [|(t, f1) rest IH]; intros [|a tun] done l e Ht Hs Lt E N; try discriminate Lt; [elim N; constructor|].
      cbn [over]. rewrite (elt_ok z32) by (rewrite E, app_length; cbn [length]; lia). cbn [bind]. assert (Ea : znth z32 (p_tuning p) (Z.of_nat (length done)) = a) by (unfold znth; rewrite Nat2Z.id, E, app_nth2, Nat.sub_diag by lia; reflexivity). rewrite Ea.
      apply Forall_inv in Ht as Ha. apply Forall_inv_tail in Ht. apply Forall_inv in Hs as Hf. apply Forall_inv_tail in Hs. cbn [snd] in Hf.
      destruct Ha as [-> |Ha]; [rewrite shifts_nan; reflexivity|]. assert (Na : no_nan a) by (intros Q; destruct Ha as (Fa & _); rewrite Q in Fa; discriminate Fa).
      destruct (usable_half a (or_intror Ha) Na) as ((i, f) & -> & Ui & Uf & Uf'). cbn [bind fst snd] in *. destruct (tuned_ok i f f1 Ui Uf Uf' Hf) as (f2 & -> & F2). cbn [bind].
      destruct (whiten_ok powf POW (s_hw c) h (s_whitening c) f2 Rh Hh F2) as ((f2', e') & -> & _). cbn [bind]. specialize (IH tun (done ++ [a]) (l ++ [(t, f2')]) (e + e') Ht Hs ltac:(cbn in Lt; lia) ltac:(now rewrite <- app_assoc)).
      rewrite app_length in IH. cbn [length] in IH. replace (Z.of_nat (length done) + 1) with (Z.of_nat (length done + 1)) by lia. apply IH. intros Q. apply N. now constructor. }
    specialize (X (p_spectra p) (p_tuning p) [] [] 0 Kt Ks Kc eq_refl T). cbn [length Z.of_nat] in X. now rewrite X.
  Qed.

  (** ** getRemainingFeatures() *)
  Definition mean_angle c p : b32 := turn (atan2 (snd (sums (s_sin c) (s_cos c) (p_mean p))) (fst (sums (s_sin c) (s_cos c) (p_mean p)))).
  (** Every tuning that is used is a number. *)
  Definition in_tune c p : Prop := p_spectra p = [] \/ no_nan (mean_angle c p) /\ (s_tuneLocal c = true -> Forall no_nan (p_tuning p)).
  Definition features (n : nat) (stamps : list stamp) (l : list (stamp * list b32)) : Prop := map fst l = stamps /\ Forall (fun tf => length (snd tf) = n) l.
  Definition good_outputs (stamps : list stamp) (o : outputs) : Prop :=
    map fst (o_tuned o) = stamps /\ Forall (fun tf => shaped nNote nn (snd tf)) (o_tuned o) /\ features 84 stamps (o_notes o) /\ features 12 stamps (o_treble o) /\ features 12 stamps (o_bass o) /\ features 24 stamps (o_both o) /\ o_errors o = 0.
  Lemma features_snoc n stamps l t v : features n stamps l -> length v = n -> features n (stamps ++ [t]) (l ++ [(t, v)]).
  Proof. intros (A & B) V. split; [rewrite map_app, A; reflexivity|]. apply Forall_app. split; [exact B|]. constructor; [exact V|constructor]. Qed.
  Lemma angle_mean c p : ready c -> kept_well p -> angle atan2 (s_sin c) (s_cos c) (p_mean p) = Ret (mean_angle c p).
  Proof. intros [Rd Rk Rh Rs Rc Rb Rn] [Km Kl Kt Kc Ks]. exact (angle_eq atan2 _ _ _ Rs Rc (shaped3 _ _ Km)). Qed.
  Lemma remaining_ok c p : ready c -> kept_well p -> in_tune c p -> ok (good_outputs (map fst (p_spectra p))) (remaining atan2 powf c p).
  Proof.
    intros R K T. unfold remaining. destruct (p_spectra p) as [|s0 rest] eqn:Sp; [apply ok_ret; repeat split; constructor|]. rewrite <- Sp in *. destruct T as [T|(T1 & T2)]; [congruence|]. clear Sp s0 rest.
    rewrite (angle_mean c p R K). cbn [bind]. apply ok_bind with (1 := usable_half _ (angle_half atan2 ATAN _ _) T1). intros g G. fold (mean_angle c p) in *.
    apply ok_bind with (1 := tune_all_ok c p g R K G T2). intros (l, e) (L1 & L2 & L3). cbn [fst snd] in *. subst e.
    apply ok_bind with (P := fun r : list (stamp * list b32) * list (stamp * list b32) * list (stamp * list b32) * list (stamp * list b32) => let '(f3, f4, f5, f6) := r in features 84 (map fst l) f3 /\ features 12 (map fst l) f4 /\ features 12 (map fst l) f5 /\ features 24 (map fst l) f6).
    - apply (ok_over_at (fun done r => let '(f3, f4, f5, f6) := r in features 84 (map fst done) f3 /\ features 12 (map fst done) f4 /\ features 12 (map fst done) f5 /\ features 24 (map fst done) f6)); [repeat split; constructor|].
      intros done (t, f2) rest (((f3, f4), f5), f6) E (A & B & C & D). assert (F2 : shaped nNote nn f2) by (rewrite E in L2; apply Forall_app in L2 as (_ & L2); now apply Forall_inv in L2).
      destruct R as [Rd Rk Rh Rs Rc Rb Rn]. destruct (spectrum_frame_ok (s_useNNLS c) (s_dict c) f2 (proj1 F2) Rd) as (notes & N & ->). cbn [bind frame_of f_notes f_treble f_bass].
      apply ok_bind with (1 := normalised_ok (s_normalize c) (chroma_of treblewindow notes) (chroma_of basswindow notes) Rn). intros ((a, b), ab) (La & Lb & Lab). rewrite !chroma_length in *. apply ok_ret. rewrite map_app. cbn [map fst].
      split; [now apply features_snoc|]. split; [now apply features_snoc|]. split; now apply features_snoc.
    - intros (((f3, f4), f5), f6) (A & B & C & D). apply ok_ret. rewrite L1 in *. now repeat (split; [assumption|]).
  Qed.
  Lemma remaining_cast c p : ready c -> kept_well p -> ~ in_tune c p -> remaining atan2 powf c p = Undef FloatCast.
  Proof.
    intros R K T. unfold remaining. destruct (p_spectra p) as [|s0 rest] eqn:Sp; [elim T; now left|]. clear Sp s0 rest. rewrite (angle_mean c p R K). cbn [bind].
    destruct (angle_half atan2 ATAN (snd (sums (s_sin c) (s_cos c) (p_mean p))) (fst (sums (s_sin c) (s_cos c) (p_mean p)))) as [Q|Q]; fold (mean_angle c p) in Q; [rewrite Q, shifts_nan; reflexivity|].
    assert (Na : no_nan (mean_angle c p)) by (intros X; destruct Q as (Fa & _); rewrite X in Fa; discriminate Fa). destruct (usable_half _ (or_intror Q) Na) as (g & -> & G). cbn [bind].
    destruct (s_tuneLocal c) eqn:TL; [|elim T; right; split; [exact Na|congruence]]. rewrite (tune_all_cast c p g R K G TL); [reflexivity|]. intros X. apply T. right. split; [exact Na|now intros _].
  Qed.
  (** ** Whole runs *)
  Lemma analyse_cases c frames : ready c -> Forall (fun f => s_block c <= Z.of_nat (length (snd f))) frames ->
    exists p, processed c frames reset = Ret p /\ kept_well p /\ map fst (p_spectra p) = map fst frames /\
      (in_tune c p -> exists o, analyse atan2 powf c frames = Ret o /\ good_outputs (map fst frames) o) /\ (~ in_tune c p -> analyse atan2 powf c frames = Undef FloatCast).
  Proof.
    intros R F. destruct (processed_ok c frames reset R reset_well F) as (p & E & K & S). cbn [reset p_spectra map app] in S. exists p. split; [exact E|]. split; [exact K|]. split; [exact S|]. unfold analyse. fold (processed c frames reset). rewrite E. cbn [bind]. split; intros T.
    - destruct (remaining_ok c p R K T) as (o & Eo & G). exists o. rewrite S in G. now split.
    - now apply remaining_cast.
  Qed.
End Machine.
