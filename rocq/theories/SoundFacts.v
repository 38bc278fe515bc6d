(** From a sound to a chromagram: the features of the plug-in as the detector stores them. *)
From Coq Require Import Reals Lra Lia String Sorted.
From Flocq Require Import Core.Core IEEE754.BinarySingleNaN.
From Verif Require Import Base BaseFacts Fp FpFacts Options Chromagram TextSpec ChromaSpec ChromaFacts ChromaMain Nnls NnlsArith NnlsSpec Plug PlugSpec PlugFacts PlugNum PlugSafe PlugFrame PlugNotes PlugMain PlugCases PlugStageSpec PlugSilence.
Open Scope Z_scope.

Definition turned (vs : list dbl) : list dbl := map (fun p => znth B754_nan vs ((p + 3) mod 12)) (zrange 0 11).
Definition row_of (tv : dbl * list dbl) : list dbl := fst tv :: snd tv.
Definition apart (times : list dbl) : Prop := ForallOrdPairs (fun t u => ~ same_time t u) times.

Lemma event_in_row t vs t' p v : length vs = 12%nat -> In (t', p, v) (row_events (t :: vs)) <-> t' = t /\ 0 <= p < 12 /\ v = znth B754_nan vs ((p + 3) mod 12).
Proof.
  intros L. do 12 (destruct vs as [|? vs]; [discriminate L|]). destruct vs; [|discriminate L].
  cbn. split.
  - intros H. repeat (destruct H as [H|H]; [injection H as <- <- <-; repeat split; try lia; reflexivity|]). destruct H.
  - intros (-> & P & ->). assert (C : p = 0 \/ p = 1 \/ p = 2 \/ p = 3 \/ p = 4 \/ p = 5 \/ p = 6 \/ p = 7 \/ p = 8 \/ p = 9 \/ p = 10 \/ p = 11) by lia.
    repeat (destruct C as [->|C]; [cbn; tauto|]). subst p. cbn. tauto.
Qed.
Lemma event_in_rows l t p v : Forall (fun tv => length (snd tv) = 12%nat) l -> In (t, p, v) (rows_events (map row_of l)) <-> exists vs, In (t, vs) l /\ 0 <= p < 12 /\ v = znth B754_nan vs ((p + 3) mod 12).
Proof.
  intros F. unfold rows_events. rewrite in_flat_map. split.
  - intros (row & H & E). apply in_map_iff in H. destruct H as ((t0 & vs) & <- & H). pose proof (proj1 (Forall_forall _ _) F _ H) as L. apply (event_in_row t0 vs t p v L) in E. destruct E as (-> & P & ->). exists vs. auto.
  - intros (vs & H & P & ->). exists (row_of (t, vs)). split; [now apply in_map|]. apply event_in_row; [exact (proj1 (Forall_forall _ _) F _ H)|auto].
Qed.
Lemma apart_same (l : list (dbl * list dbl)) t vs u ws : apart (map fst l) -> In (t, vs) l -> In (u, ws) l -> same_time t u -> (t, vs) = (u, ws).
Proof.
  induction l as [|[t0 v0] l IH]; [easy|]. cbn [map fst]. intros A [P|P] [Q|Q] H.
  - congruence.
  - injection P as -> ->. inversion A as [|? ? B _]; subst. elim (proj1 (Forall_forall _ _) B u (in_map fst _ _ Q) H).
  - injection Q as -> ->. inversion A as [|? ? B _]; subst. elim (proj1 (Forall_forall _ _) B t (in_map fst _ _ P)). now apply same_time_sym.
  - inversion A; subst. now apply IH.
Qed.
Lemma turned_nth vs p : 0 <= p < 12 -> nth (Z.to_nat p) (turned vs) B754_nan = znth B754_nan vs ((p + 3) mod 12).
Proof.
  intros P. assert (C : p = 0 \/ p = 1 \/ p = 2 \/ p = 3 \/ p = 4 \/ p = 5 \/ p = 6 \/ p = 7 \/ p = 8 \/ p = 9 \/ p = 10 \/ p = 11) by lia.
  repeat (destruct C as [->|C]; [reflexivity|]). subst p. reflexivity.
Qed.
Lemma shown_rows m l : Forall (fun tv => is_nan (fst tv) = false /\ length (snd tv) = 12%nat) l -> apart (map fst l) -> shows m (rows_events (map row_of l)) ->
  forall t vec, In (t, vec) m <-> exists vs, In (t, vs) l /\ vec = turned vs.
Proof.
  intros F A [SS SW ST SC]. assert (F2 : Forall (fun tv : dbl * list dbl => length (snd tv) = 12%nat) l) by (revert F; apply Forall_impl; tauto).
  assert (X : forall t vec, In (t, vec) m -> exists vs, In (t, vs) l /\ vec = turned vs).
  { intros t vec H. assert (U : first_use (rows_events (map row_of l)) t) by (apply ST; exact (in_map fst _ _ H)). destruct U as (a & p & v & b & E & _).
    assert (Q : In (t, p, v) (rows_events (map row_of l))) by (rewrite E; apply in_elt). apply event_in_rows in Q; [|exact F2]. destruct Q as (vs & Q & _ & _). exists vs. split; [exact Q|].
    apply nth_ext with (d := B754_nan) (d' := B754_nan); [now rewrite (SW t vec H)|]. intros n N. rewrite (SW t vec H) in N. pose proof (SC t vec (Z.of_nat n) H ltac:(lia)) as G. rewrite Nat2Z.id in G.
    rewrite <- (Nat2Z.id n) at 2. rewrite turned_nth by lia. destruct G as [(c & t' & d & E' & S' & _)|(_ & G)].
    - assert (Q' : In (t', Z.of_nat n, nth n vec B754_nan) (rows_events (map row_of l))) by (rewrite E'; apply in_elt). apply event_in_rows in Q'; [|exact F2]. destruct Q' as (vs' & Q' & _ & ->).
      pose proof (apart_same l _ _ _ _ A Q' Q S') as Y. congruence.
    - elim (G (t, Z.of_nat n, znth B754_nan vs ((Z.of_nat n + 3) mod 12))); [apply event_in_rows; [exact F2|]; exists vs; split; [exact Q|]; split; [lia|reflexivity]|]. split; [|reflexivity]. apply same_time_refl. exact (proj1 (proj1 (Forall_forall _ _) F _ Q)). }
  intros t vec. split; [apply X|]. intros (vs & H & ->).
  assert (U : first_use (rows_events (map row_of l)) t).
  { apply in_split in H. destruct H as (l1 & l2 & E). exists (rows_events (map row_of l1)), 9, (znth B754_nan vs 0).
    assert (L : length vs = 12%nat) by (apply (proj1 (Forall_forall _ _) F2 (t, vs)); rewrite E; apply in_elt).
    assert (R : exists b, row_events (t :: vs) = (t, 9, znth B754_nan vs 0) :: b) by (destruct vs; [discriminate L|]; cbn; eexists; reflexivity).
    destruct R as (b & R). exists (b ++ rows_events (map row_of l2)). split.
    - rewrite E. unfold rows_events. rewrite map_app, flat_map_app. cbn [map flat_map]. unfold row_of at 2. cbn [fst snd]. rewrite R. reflexivity.
    - intros ((t' & p') & v') I S'. assert (F1 : Forall (fun tv : dbl * list dbl => length (snd tv) = 12%nat) l1) by (rewrite E in F2; apply Forall_app in F2; tauto). apply event_in_rows in I; [|exact F1]. destruct I as (ws & I & _).
      rewrite E in A. rewrite map_app in A. clear - A I S'. cbn in S'. induction l1 as [|x l1 IH]; [destruct I|]. cbn [map app] in A. inversion A as [|? ? B C]; subst. destruct I as [->|I]; [|now apply IH].
      apply (proj1 (Forall_forall _ _) B t); [apply in_or_app; right; now left|exact S']. }
  apply ST in U. apply in_map_iff in U. destruct U as ((t1 & vec) & E & I). cbn in E. subst t1. destruct (X t vec I) as (vs' & H' & ->).
  pose proof (apart_same l t vs t vs' A H H' (same_time_refl t (proj1 (proj1 (Forall_forall _ _) F _ H)))) as Y. congruence.
Qed.

  (** Features with twelve values each. *)
  Lemma stored (fs : list (string * list b32)) times : Forall2 (fun f t => token_value (fst f) t) fs times -> Forall (fun f => length (snd f) = 12%nat) fs -> Forall (fun t => is_nan t = false) times -> apart times ->
    exists m, chromagram_from_audio (Features fs) = Ret (CHROMAGRAM_ORIGINAL_READY, m) /\ StronglySorted (fun a b => earlier (fst a) (fst b)) m /\
      forall t vec, In (t, vec) m <-> exists k f, nth_error times k = Some t /\ nth_error fs k = Some f /\ vec = turned (map f32_to_64 (snd f)).
  Proof.
    intros T L N A. set (l := combine times (map (fun f => map f32_to_64 (snd f)) fs)).
    assert (LE : length times = length fs) by (clear - T; induction T; [reflexivity|]; cbn; now f_equal).
    assert (E1 : map fst l = times). { unfold l. clear - LE. revert fs LE. induction times as [|t times IH]; intros [|f fs] LE; try discriminate; [reflexivity|]. cbn [map combine fst]. f_equal. apply IH. now injection LE. }
    assert (F : Forall (fun tv => is_nan (fst tv) = false /\ length (snd tv) = 12%nat) l).
    { unfold l. clear - T L N. induction T as [|f t fs times Ht T IH]; [constructor|]. inversion L; inversion N; subst. cbn [map combine]. constructor; [|now apply IH]. cbn [fst snd]. now rewrite map_length. }
    destruct (C33_audio_proof fs (map row_of l)) as (m & E & SH).
    - unfold l. clear - T. induction T as [|f t fs times Ht T IH]; [constructor|]. cbn [map combine]. constructor; [|exact IH]. exists t, (map f32_to_64 (snd f)). split; [reflexivity|]. split; [exact Ht|]. clear. induction (snd f); constructor; [now apply widened_iff|assumption].
    - apply Forall_map. revert F. apply Forall_impl. intros (t & vs) (Nt & _). cbn. now destruct vs.
    - exists m. split; [exact E|]. split; [exact (sh_sorted _ _ SH)|]. intros t vec. rewrite (shown_rows m l F) by (try exact SH; now rewrite E1). unfold l. clear - LE. split.
      + intros (vs & H & ->). apply In_nth_error in H. destruct H as (k & H). exists k.
        revert times fs LE H. induction k as [|k IH]; intros [|t0 times] [|f fs] LE H; try discriminate; cbn in *.
        * injection H as -> <-. exists f. auto.
        * apply (IH times fs); [now injection LE|exact H].
      + intros (k & f & H1 & H2 & ->). exists (map f32_to_64 (snd f)). split; [|reflexivity]. apply nth_error_In with (n := k).
        revert times fs LE H1 H2. induction k as [|k IH]; intros [|t0 times] [|f0 fs] LE H1 H2; try discriminate; cbn in *.
        * congruence.
        * apply (IH times fs); [now injection LE|exact H1|exact H2].
  Qed.
Section Run.
  Context (atan2 powf : b32 -> b32 -> b32) (ATAN : atan2_law atan2) (POW : forall s w, gt32 s z32 = true -> Bsign (powf s w) = false).

  (** The values of a frame as the chromagram has them: semitone k is pitch class (9 + k) mod 12. *)
  Definition heard_vector (notes : list b32) : list dbl := map (fun p => f32_to_64 (folded treblewindow notes ((p + 3) mod 12))) (zrange 0 11).
  Lemma turned_chroma notes : turned (map f32_to_64 (chroma_of treblewindow notes)) = heard_vector notes.
  Proof. reflexivity. Qed.
  Lemma sound c (frames : list (string * list b32)) o times : ready c -> Forall (fun f => s_block c <= Z.of_nat (length (snd f))) frames -> gt32 (s_normalize c) z32 = false -> analyse atan2 powf c frames = Ret o ->
    Forall2 (fun f t => token_value (fst f) t) frames times -> Forall (fun t => is_nan t = false) times -> apart times ->
    exists m, chromagram_from_audio (Features (o_treble o)) = Ret (CHROMAGRAM_ORIGINAL_READY, m) /\ StronglySorted (fun a b => earlier (fst a) (fst b)) m /\
      forall t vec, In (t, vec) m <-> exists k tn, nth_error times k = Some t /\ nth_error (o_notes o) k = Some tn /\ vec = heard_vector (snd tn).
  Proof.
    intros R F N E T NN A. destruct (analyse_plain_norm atan2 powf ATAN POW c frames o R F N E) as (ET & _ & _).
    destruct (C72_cases_proof atan2 powf ATAN POW c frames R F) as [(o' & E' & _ & _ & _ & (ST & L) & _)|E']; [|congruence]. assert (o' = o) by congruence. subst o'.
    destruct (stored (o_treble o) times) as (m & M & SS & H).
    - clear - ST T. revert frames ST T. induction (o_treble o) as [|f fs IH] in times |- *; intros [|f0 frames] ST T; try discriminate; inversion T; subst; constructor; [|apply (IH _ frames); [now injection ST|assumption]]. injection ST as ST _. rewrite ST. assumption.
    - exact L.
    - exact NN.
    - exact A.
    - exists m. split; [exact M|]. split; [exact SS|]. intros t vec. rewrite H, ET. split.
      + intros (k & f & H1 & H2 & ->). rewrite nth_error_map in H2. destruct (nth_error (o_notes o) k) as [tn|] eqn:E2; [|discriminate H2]. exists k, tn. split; [exact H1|]. split; [exact E2|]. cbn [option_map] in H2. assert (H3 : f = (fst tn, chroma_of treblewindow (snd tn))) by (apply (f_equal (fun x => match x with Some y => y | None => f end)) in H2; symmetry; exact H2). rewrite H3. apply turned_chroma.
      + intros (k & tn & H1 & H2 & ->). exists k, (fst tn, chroma_of treblewindow (snd tn)). split; [exact H1|]. split; [now rewrite nth_error_map, H2|]. symmetry. apply turned_chroma.
  Qed.
  Lemma sound_silence c (frames : list (string * list b32)) o times : ready c -> Forall (fun e : Z * Z * b32 => is_finite (snd e) = true) (s_kernel c) -> Forall (fun f => s_block c <= Z.of_nat (length (snd f))) frames -> analyse atan2 powf c frames = Ret o ->
    Forall2 (fun f t => token_value (fst f) t) frames times -> Forall (fun t => is_nan t = false) times -> apart times ->
    exists m, chromagram_from_audio (Features (o_treble o)) = Ret (CHROMAGRAM_ORIGINAL_READY, m) /\
      forall k f t, nth_error frames k = Some f -> nth_error times k = Some t -> audible (bin_sizes (s_block c) (snd f)) = false -> In (t, repeat (B754_zero false) 12) m.
  Proof.
    intros R Q F E T NN A.
    destruct (C72_cases_proof atan2 powf ATAN POW c frames R F) as [(o' & E' & _ & _ & _ & (ST & L) & _)|E']; [|congruence]. assert (o' = o) by congruence. subst o'.
    destruct (stored (o_treble o) times) as (m & M & SS & H).
    - clear - ST T. revert frames ST T. induction (o_treble o) as [|f fs IH] in times |- *; intros [|f0 frames] ST T; try discriminate; inversion T; subst; constructor; [|apply (IH _ frames); [now injection ST|assumption]]. injection ST as ST _. rewrite ST. assumption.
    - exact L.
    - exact NN.
    - exact A.
    - exists m. split; [exact M|]. intros k f t Hf Ht S. apply H. exists k. destruct (silence atan2 powf ATAN POW c frames o R Q F E k f Hf S) as (_ & _ & X & _). eexists. split; [exact Ht|]. split; [exact X|]. reflexivity.
  Qed.
End Run.
