(** Whole runs of the chroma plug-in, from the blocks to the tuned spectra; silence. *)
From Coq Require Import Reals Lra Lia.
From Flocq Require Import Core.Core IEEE754.BinarySingleNaN.
From Verif Require Import Base BaseFacts Fp Options Chromagram ChromaFacts FpFacts FloatKit Nnls NnlsArith NnlsFacts NnlsSafe NnlsSingle Plug PlugSpec PlugStageSpec PlugFacts PlugNum PlugSafe PlugFrame PlugMain PlugClean PlugTuning PlugNan PlugNotes PlugStages.
Open Scope Z_scope.

Lemma note_value_ext kernel g h k : (forall fft note v, In (fft, note, v) kernel -> g fft = h fft) -> note_value kernel g k = note_value kernel h k.
Proof.
  intros E. unfold note_value. generalize nil32. induction kernel as [|((fft, note), v) kernel IH]; intros s; [reflexivity|]. cbn [filter]. assert (T : forall fft note v, In (fft, note, v) kernel -> g fft = h fft) by (intros a b c X; apply (E a b c); now right).
  destruct (note =? k); [cbn [fold_left]; rewrite (E fft note v (or_introl eq_refl))|]; now apply IH.
Qed.
Lemma mean_next_length n m s : length (mean_next n m s) = 3%nat. Proof. reflexivity. Qed.
Lemma local_next_length m s : length (local_next m s) = 3%nat. Proof. reflexivity. Qed.
Lemma mean_fold_count spectra n m : fst (fold_left (fun '(n, mean) notes => (n + 1, mean_next (n + 1) mean notes)) spectra (n, m)) = n + Z.of_nat (length spectra).
Proof. revert n m. induction spectra as [|s spectra IH]; intros n m; cbn [fold_left length]; [cbn; lia|]. rewrite IH. lia. Qed.
Lemma mean_after_snoc spectra s : mean_after (spectra ++ [s]) = mean_next (Z.of_nat (length spectra) + 1) (mean_after spectra) s.
Proof.
  unfold mean_after. rewrite fold_left_app. assert (C := mean_fold_count spectra 0 silent3). destruct (fold_left _ spectra _) as (n, m). cbn [fst] in C. cbn [fold_left snd]. now subst n.
Qed.
Lemma local_after_snoc spectra s : local_after (spectra ++ [s]) = local_next (local_after spectra) s.
Proof. unfold local_after. now rewrite fold_left_app. Qed.
Lemma mean_after_length spectra : length (mean_after spectra) = 3%nat.
Proof. destruct spectra as [|s l] using rev_ind; [reflexivity|]. now rewrite mean_after_snoc. Qed.
Lemma local_after_length spectra : length (local_after spectra) = 3%nat.
Proof. destruct spectra as [|s l] using rev_ind; [reflexivity|]. now rewrite local_after_snoc. Qed.
Definition local_tunings (atan2 : b32 -> b32 -> b32) (sins coss : list b32) (spectra : list (list b32)) : list b32 := map (fun n => tuning_angle atan2 sins coss (local_after (firstn n spectra))) (seq 1 (length spectra)).
Lemma local_tunings_snoc atan2 sins coss spectra s : local_tunings atan2 sins coss (spectra ++ [s]) = local_tunings atan2 sins coss spectra ++ [tuning_angle atan2 sins coss (local_after (spectra ++ [s]))].
Proof.
  unfold local_tunings. rewrite app_length. cbn [length]. rewrite seq_app, map_app. apply (f_equal2 (@app b32)).
  - apply map_ext_in. intros n N. apply in_seq in N. rewrite firstn_app. replace (n - length spectra)%nat with O by lia. cbn [firstn]. now rewrite app_nil_r.
  - cbn [seq map]. do 2 f_equal. rewrite firstn_all2; [reflexivity|]. rewrite app_length. cbn [length]. lia.
Qed.
Lemma combine_snoc {A B} (l : list A) (m : list B) a b : length l = length m -> combine (l ++ [a]) (m ++ [b]) = combine l m ++ [(a, b)].
Proof. revert m. induction l as [|x l IH]; intros [|y m] E; try discriminate E; [reflexivity|]. cbn. f_equal. apply IH. now injection E. Qed.

Section Machine.
  Context (atan2 powf : b32 -> b32 -> b32) (ATAN : atan2_law atan2) {stamp : Type}.
  Notation plug := (@plug stamp).
  Implicit Types (c : setup) (p : plug).
  Definition notes c (fbuf : list b32) : list b32 := note_spectrum (s_kernel c) (s_block c) (s_rollon c) fbuf.
  Lemma notes_length c fbuf : length (notes c fbuf) = 256%nat. Proof. unfold notes, note_spectrum. now rewrite map_length, zrange_length. Qed.
  Lemma process_eq c p t fbuf : ready c -> length (p_mean p) = 3%nat -> length (p_local p) = 3%nat -> s_block c <= Z.of_nat (length fbuf) ->
    process atan2 c p t fbuf = Ret (mkPlug (p_frames p + 1) (mean_next (p_frames p + 1) (p_mean p) (notes c fbuf)) (local_next (p_local p) (notes c fbuf))
      (p_tuning p ++ [tuning_angle atan2 (s_sin c) (s_cos c) (local_next (p_local p) (notes c fbuf))]) (p_spectra p ++ [(t, notes c fbuf)]), (t, notes c fbuf)).
  Proof.
    intros [Rd Rk Rh Rs Rc Rb Rn] M L B. unfold process. rewrite magnitudes_eq by lia. cbn [bind]. change (map (magnitude (s_block c) fbuf) (zrange 0 (s_block c / 2 - 1))) with (bin_sizes (s_block c) fbuf).
    assert (LB : Z.of_nat (length (bin_sizes (s_block c) fbuf)) = s_block c / 2) by (unfold bin_sizes; rewrite map_length, zrange_length; assert (0 <= s_block c / 2) by (apply Z.div_pos; lia); lia).
    rewrite roll_on_eq. cbn [bind]. rewrite LB. unfold quiet. rewrite quiet_iff by reflexivity. set (mags := if negb (audible _) then _ else _).
    assert (HM : Z.of_nat (length mags) = s_block c / 2 /\ forall i, 0 <= i < s_block c / 2 -> at_bin mags i = heard_bin (s_block c) (s_rollon c) fbuf i).
    { assert (0 <= s_block c / 2) by (apply Z.div_pos; lia). unfold mags, heard_bin. cbv zeta. destruct (audible (bin_sizes (s_block c) fbuf)); cbn [negb andb].
      - split; [rewrite map_length, zrange_length; lia|]. intros i I. unfold at_bin at 1. rewrite (znth_map nil32) by lia. destruct (rolled_off _ _ i); reflexivity.
      - split; [rewrite !map_length, zrange_length; lia|]. intros i I. rewrite map_map. unfold at_bin at 1. now rewrite (znth_map nil32) by lia. }
    destruct HM as (HM1 & HM2). clearbody mags.
    rewrite note_magnitudes_eq by (apply Forall_impl with (2 := Rk); intros ((fft, note), v) (A1 & A2 & _); split; [lia|exact A2]). cbn [bind].
    replace (map (note_value (s_kernel c) (at_bin mags)) (zrange 0 255)) with (notes c fbuf) by (apply map_ext; intros k; apply note_value_ext; intros fft note v X; rewrite Forall_forall in Rk; destruct (Rk _ X) as (A1 & _); symmetry; apply HM2; lia).
    assert (LN := notes_length c fbuf). generalize dependent (notes c fbuf). intros nm LN. rewrite (update_tunings_eq _ nm (p_mean p) (p_local p) LN M L). cbn [bind]. rewrite (tuning_angle_eq atan2 _ _ _ Rs Rc (local_next_length _ _)). reflexivity.
  Qed.
  Lemma processed_eq c frames : ready c -> Forall (fun f => s_block c <= Z.of_nat (length (snd f))) frames ->
    let spectra := map (fun f => notes c (snd f)) frames in
    processed atan2 c frames (reset : plug) = Ret (mkPlug (Z.of_nat (length frames)) (mean_after spectra) (local_after spectra) (local_tunings atan2 (s_sin c) (s_cos c) spectra) (combine (map fst frames) spectra)).
  Proof.
    intros R F. cbv zeta. enough (G : ok (fun p => p = mkPlug (Z.of_nat (length frames)) (mean_after (map (fun f => notes c (snd f)) frames)) (local_after (map (fun f => notes c (snd f)) frames)) (local_tunings atan2 (s_sin c) (s_cos c) (map (fun f => notes c (snd f)) frames)) (combine (map fst frames) (map (fun f => notes c (snd f)) frames))) (processed atan2 c frames reset)) by (destruct G as (p & G & ->); exact G).
    unfold processed. apply (ok_over_at (fun frames (p : plug) => p = mkPlug (Z.of_nat (length frames)) (mean_after (map (fun f => notes c (snd f)) frames)) (local_after (map (fun f => notes c (snd f)) frames)) (local_tunings atan2 (s_sin c) (s_cos c) (map (fun f => notes c (snd f)) frames)) (combine (map fst frames) (map (fun f => notes c (snd f)) frames)))); [reflexivity|].
    intros done (t, fbuf) rest p E ->. assert (B : s_block c <= Z.of_nat (length fbuf)) by (rewrite E in F; apply Forall_app in F as (_ & F); now apply Forall_inv in F). set (spectra := map (fun f => notes c (snd f)) done).
    rewrite process_eq; [|exact R|apply mean_after_length|apply local_after_length|exact B]. cbn [bind p_frames p_mean p_local p_tuning p_spectra]. apply ok_ret. rewrite !map_app. cbn [map fst snd]. fold spectra.
    assert (LS : length spectra = length done) by (unfold spectra; apply map_length). rewrite mean_after_snoc, local_tunings_snoc, local_after_snoc, combine_snoc by (rewrite map_length; lia). rewrite app_length. cbn [length]. rewrite LS. now replace (Z.of_nat (length done + 1)) with (Z.of_nat (length done) + 1) by lia.
  Qed.
  Lemma one_frame c a (t : stamp) f1 : ready c -> half_turn a -> length f1 = 256%nat -> (exists i f, shifts a = Ret (i, f)) -> exists e, (do (i, f) <- shifts a; do f2 <- tuned i f f1; whiten powf (s_hw c) (s_whitening c) f2) = Ret (whitened powf (s_hw c) (s_whitening c) (retuned a f1), e).
  Proof.
    intros [Rd Rk (h & Rh & Hh) Rs Rc Rb Rn] A L (i & f & E). destruct A as [-> |A]; [rewrite shifts_nan in E; discriminate E|]. rewrite E. cbn [bind]. destruct (shifts_ok a A) as ((i', f') & E' & I & _). rewrite E in E'. apply Ret_inj in E'. apply pair_equal_spec in E' as (<- & <-).
    destruct (shifts_eq a i f E A) as (-> & ->). rewrite tuned_eq by assumption. cbn [bind]. apply whiten_eq with h; [unfold retuned; now rewrite map_length, zrange_length|exact Rh|exact Hh].
  Qed.
  Definition tuned_frames c (frames : list (stamp * list b32)) : list (stamp * list b32) :=
    let spectra := map (fun f => notes c (snd f)) frames in
    map (fun '(t, (a, s)) => (t, whitened powf (s_hw c) (s_whitening c) (retuned a s))) (combine (map fst frames) (combine (tunings atan2 (s_tuneLocal c) (s_sin c) (s_cos c) spectra) spectra)).
  Lemma tunings_length local sins coss spectra : length (tunings atan2 local sins coss spectra) = length spectra.
  Proof. unfold tunings. now rewrite map_length, seq_length. Qed.
  Lemma tuning_angle_half sins coss l : half_turn (tuning_angle atan2 sins coss l). Proof. apply (angle_half atan2 ATAN). Qed.
  (** The frames one by one, when the tunings are as listed. *)
  Lemma over_frames c (tun : list b32) (use : Z -> outcome (Z * b32)) (stamps : list stamp) spectra l0 e0 n0 r : ready c -> length tun = length spectra -> length stamps = length spectra -> Forall (fun s => length s = 256%nat) spectra -> Forall half_turn tun ->
    (forall k, (k < length tun)%nat -> use (n0 + Z.of_nat k) = shifts (nth k tun z32)) ->
    over (fun '(l, errors, count) '(t, f1) => do (i, f) <- use count; do f2 <- tuned i f f1; do (f2, e) <- whiten powf (s_hw c) (s_whitening c) f2; Ret (l ++ [(t : stamp, f2)], errors + e, count + 1)) (combine stamps spectra) (l0, e0, n0) = Ret r ->
    fst (fst r) = l0 ++ map (fun '(t, (a, s)) => (t, whitened powf (s_hw c) (s_whitening c) (retuned a s))) (combine stamps (combine tun spectra)).
  Proof.
    intros R. revert tun stamps l0 e0 n0. induction spectra as [|s spectra IH]; intros [|a tun] [|t stamps] l0 e0 n0 T SL L H U E; try discriminate T; try discriminate SL.
    - apply Ret_inj in E. subst r. cbn. now rewrite app_nil_r.
    - cbn [combine over] in E. assert (U0 := U O ltac:(cbn; lia)). replace (n0 + Z.of_nat 0) with n0 in U0 by lia. cbn [nth] in U0. rewrite U0 in E. apply Forall_inv in L as L1. apply Forall_inv_tail in L. apply Forall_inv in H as H1. apply Forall_inv_tail in H.
      destruct (shifts a) as [(i, f)| |] eqn:Sh; try discriminate E. destruct (one_frame c a t s R H1 L1 (ex_intro _ i (ex_intro _ f Sh))) as (e & W). rewrite Sh in W. cbn [bind] in W, E. destruct (tuned i f s) as [f2| |]; try discriminate W. cbn [bind] in W, E. rewrite W in E. cbn [bind] in E.
      assert (U' : forall k, (k < length tun)%nat -> use (n0 + 1 + Z.of_nat k) = shifts (nth k tun z32)) by (intros k K; specialize (U (S k) ltac:(cbn; lia)); cbn [nth] in U; rewrite <- U; f_equal; lia).
      assert (T' : length tun = length spectra) by now injection T. assert (S' : length stamps = length spectra) by now injection SL.
      rewrite (IH tun stamps _ _ _ T' S' L H U' E). cbn [combine map]. now rewrite <- app_assoc.
  Qed.
  Lemma analyse_tuned c frames o : ready c -> Forall (fun f => s_block c <= Z.of_nat (length (snd f))) frames -> analyse atan2 powf c frames = Ret o -> o_tuned o = tuned_frames c frames.
  Proof.
    intros R F E. unfold analyse in E. fold (processed atan2 c frames reset) in E. rewrite (processed_eq c frames R F) in E. cbn [bind] in E. unfold tuned_frames. cbv zeta. set (spectra := map (fun f => notes c (snd f)) frames) in *.
    assert (LS : length spectra = length frames) by apply map_length. assert (LF : Forall (fun s => length s = 256%nat) spectra) by (apply Forall_map, Forall_forall; intros f _; apply notes_length).
    unfold remaining in E. cbn [p_spectra p_mean] in E. destruct (combine (map fst frames) spectra) as [|s0 rest] eqn:Sp.
    { apply Ret_inj in E. subst o. cbn [o_tuned]. destruct frames; [reflexivity|discriminate Sp]. }
    rewrite <- Sp in *. clear s0 rest Sp. destruct R as [Rd Rk Rh Rs Rc Rb Rn] eqn:ER. rewrite (tuning_angle_eq atan2 _ _ _ Rs Rc (mean_after_length _)) in E. cbn [bind] in E. clear ER.
    destruct (shifts _) as [g| |] eqn:G; try discriminate E. cbn [bind] in E. unfold tune_all in E. cbn [p_spectra p_tuning] in E.
    match type of E with context [over ?f (combine (map fst frames) spectra) ?s] => destruct (over f (combine (map fst frames) spectra) s) as [((l, e), n)| |] eqn:Q end; try discriminate E. cbn [bind] in E.
    match type of E with context [over ?f l ?s] => destruct (over f l s) as [(((f3, f4), f5), f6)| |] end; try discriminate E. cbn [bind] in E. apply Ret_inj in E. subst o. cbn [o_tuned].
    apply (over_frames c (tunings atan2 (s_tuneLocal c) (s_sin c) (s_cos c) spectra) (fun count => if s_tuneLocal c then do a <- elt (local_tunings atan2 (s_sin c) (s_cos c) spectra) count; shifts a else Ret g) _ _ _ _ _ (l, e, n)) in Q; [exact Q|now split|apply tunings_length|now rewrite map_length|exact LF|apply Forall_map, Forall_forall; intros k _; apply tuning_angle_half|].
    intros k K. rewrite tunings_length in K. cbn [Z.add]. destruct (s_tuneLocal c) eqn:TL.
    - rewrite (elt_ok z32) by (unfold local_tunings; rewrite map_length, seq_length; lia). cbn [bind]. unfold znth. rewrite Nat2Z.id. reflexivity.
    - rewrite <- G. f_equal. unfold tunings. rewrite (nth_indep _ z32 ((fun n => tuning_angle atan2 (s_sin c) (s_cos c) (mean_after spectra)) O)) by (rewrite map_length, seq_length; exact K).
      exact (eq_sym (map_nth (fun _ => tuning_angle atan2 (s_sin c) (s_cos c) (mean_after spectra)) (seq 1 (length spectra)) O k)).
  Qed.
End Machine.
