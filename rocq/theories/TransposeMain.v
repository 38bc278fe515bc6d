(** Transposition and the printed key: when it follows, and that it does not always (C23). *)
From Coq Require Import Reals Lra Lia ZifyBool Permutation.
From Flocq Require Import Core.Core IEEE754.BinarySingleNaN.
From Verif Require Import Base BaseFacts Fp FpFacts Key PitchClass KeyProfile KeyTransition Hmm Pipeline MusicSpec KeyFacts ProfileFacts TransitionFacts ViterbiSpec HmmSpec HmmFacts NumFacts LogFacts PipelineSpec PipelineFacts TransposeFacts.
Open Scope Z_scope.

Lemma key_of_int_inj a b : Forall is_key a -> Forall is_key b -> map key_of_int a = map key_of_int b -> a = b.
Proof.
  intros Ha. revert b. induction Ha as [|x a Hx _ IH]; intros [|y b] Hb E; try discriminate; [reflexivity|].
  inversion Hb; subst. cbn [map] in E. injection E as E1 E2. apply (f_equal kint) in E1. rewrite !kint_key in E1 by assumption.
  apply Some_inj in E1. subst. f_equal. now apply IH.
Qed.
Lemma global_up log10 T t : length T = 24%nat -> forall locals J, Forall is_key locals -> is_key J ->
  global_score log10 T (map (transpose_key t) locals) (transpose_key t J) = global_score log10 T locals J.
Proof.
  intros LT locals J Hl HJ. destruct Hl as [|k0 ks Hk Hks]; [reflexivity|]. cbn [map global_score].
  rewrite C10_transpose_proof by assumption. generalize (log10 (fmul (rat64 1 24) (transition T J k0))).
  induction Hks as [|k ks Hk' _ IH]; intros acc; [reflexivity|]. cbn [map fold_left]. rewrite C10_transpose_proof by assumption. apply IH.
Qed.

Lemma C23_scores_proof : forall log10 iter iter' tb A B T notes t m h, log10_ok log10 -> iteration_order iter -> iteration_order iter' ->
  selects tb A B T -> usable A -> usable B -> usable T -> Forall is_note notes -> notes <> [] ->
  first_model tb (map pc_of_int notes) = Ret m -> run_viterbi log10 iter m = Ret h ->
  exists m' h', first_model tb (map pc_of_int (map (transpose_pc t) notes)) = Ret m' /\ run_viterbi log10 iter' m' = Ret h' /\
    (forall s, is_key s -> prob_entry h' (transpose_key t s) = prob_entry h s) /\ h_maxprob h' = h_maxprob h /\
    exists path, h_keys h' = map key_of_int (map (transpose_key t) path) /\ best_path fgt (hscore log10 m) (zseq 24) notes path.
Proof.
  intros log10 iter iter' tb A B T notes t m h Hlog Hi Hi' S UA UB UT Hn Hne Em E.
  rewrite (first_model_ret tb notes Hn) in Em. apply Ret_inj in Em. subst m.
  destruct (up_run t tb A B T S log10 Hlog UA UB UT iter iter' Hi Hi' notes h Hn Hne E) as (h' & E' & R).
  exists (model1 tb (map (transpose_pc t) notes)), h'. split; [apply first_model_ret, up_notes|]. split; [exact E'|exact R].
Qed.

Lemma C23_follows_proof : forall log10 iter1 iter2 tb A B T notes t h1 h2 K, log10_ok log10 -> iteration_order iter1 -> iteration_order iter2 ->
  selects tb A B T -> usable A -> usable B -> usable T -> Forall is_note notes -> notes <> [] -> is_key K ->
  detect log10 iter1 iter2 tb (map pc_of_int notes) = Ret (h1, h2, key_of_int K) ->
  (forall m q, first_model tb (map pc_of_int notes) = Ret m -> best_path fgt (hscore log10 m) (zseq 24) notes q -> map key_of_int q = h_keys h1) ->
  (forall J, is_key J -> J <> K -> fgt (prob_entry h2 K) (prob_entry h2 J) = true) ->
  exists h1' h2', detect log10 iter1 iter2 tb (map pc_of_int (map (transpose_pc t) notes)) = Ret (h1', h2', key_of_int (transpose_key t K)).
Proof.
  intros log10 iter1 iter2 tb A B T notes t h1 h2 K Hlog Hi1 Hi2 S UA UB UT Hn Hne HK E Hu Hg.
  destruct (selects_lengths tb A B T S) as (_ & _ & LT).
  destruct (detect_inv log10 iter1 iter2 Hi1 Hi2 tb notes h1 h2 _ Hn Hne E) as (locals & path & K0 & E1 & Ek1 & L & Hl & E2 & Ek2 & Ek & Hp & Hk).
  assert (Hlne : locals <> []) by (intros X; subst; destruct notes; [contradiction|discriminate]).
  destruct (up_run t tb A B T S log10 Hlog UA UB UT iter1 iter1 Hi1 Hi1 notes h1 Hn Hne E1) as (h1' & E1' & _ & _ & r & Er & Br).
  assert (Kr : Forall is_key r) by (apply Forall_impl with (2 := proj2 (proj1 Br)); intros x; apply In24).
  assert (r = locals) by (apply key_of_int_inj; try assumption; rewrite <- Ek1; apply (Hu (model1 tb notes)); [now apply first_model_ret|exact Br]). subst r.
  pose proof (up_keys t locals Hl) as Hl'. assert (Hlne' : map (transpose_key t) locals <> []) by (destruct locals; [contradiction|discriminate]).
  pose proof (model2_proper tb A B T locals S UT Hl) as P. pose proof (model2_proper tb A B T _ S UT Hl') as P'.
  assert (Ent := model2_entry log10 Hlog iter2 Hi2 tb A B T locals h2 S UT Hl Hlne E2).
  assert (R2 : exists h2', run_viterbi log10 iter2 (model2 tb (map (transpose_key t) locals)) = Ret h2').
  { apply (C21_proof log10 iter2 Hi2 Hlog (model2 tb (map (transpose_key t) locals)) Hlne' P').
    assert (Pc : forall ks J, is_key J -> is_path (zseq 24) ks (repeat J (length ks))).
    { intros ks J HJ. split; [apply repeat_length|]. apply Forall_forall. intros x Hx. apply repeat_spec in Hx. subst. now apply In24. }
    destruct (proj1 (proj1 (C21_proof log10 iter2 Hi2 Hlog (model2 tb locals) Hlne P)) (ex_intro _ h2 E2)) as (q & Hq & Pq).
    destruct q as [|J q]; [destruct locals; [contradiction|destruct Hq; discriminate]|].
    assert (Kq : Forall is_key (J :: q)) by (apply Forall_impl with (2 := proj2 Hq); intros x; apply In24). assert (HJ : is_key J) by now inversion Kq.
    rewrite (positive_constant tb A B T locals J q S UT Hl (proj1 Hq) Kq Pq) in Pq.
    exists (repeat (transpose_key t J) (length (map (transpose_key t) locals))). split; [apply Pc; now apply transpose_key_range|].
    destruct (hscore_positive log10 Hlog _ _ P' Hlne' (Pc (map (transpose_key t) locals) _ (transpose_key_range t J HJ))) as [[X _]|[_ X]]; [exact X|exfalso].
    rewrite (constant_score log10 tb A B T _ _ S UT Hl' (transpose_key_range t J HJ) Hlne'), global_up in X by assumption.
    destruct (hscore_positive log10 Hlog _ _ P Hlne (Pc locals _ HJ)) as [[_ Y]|[Y _]]; [|now apply Y].
    rewrite (constant_score log10 tb A B T _ _ S UT Hl HJ Hlne), X in Y. destruct Y as (Y & _). discriminate. }
  destruct R2 as (h2' & E2').
  destruct (C14_proof log10 iter2 Hi2 (model2 tb (map (transpose_key t) locals)) _ eq_refl Hlne' E2') as (p' & Ep' & Hp' & Kp' & _).
  destruct p' as [|K' p']; [exfalso; now apply (path_nonempty _ _ Hp' Hlne')|].
  assert (D : detect log10 iter1 iter2 tb (map pc_of_int (map (transpose_pc t) notes)) = Ret (h1', h2', key_of_int K')).
  { unfold detect. rewrite (first_model_ret tb _ (up_notes t notes)). cbn [bind]. rewrite E1'. cbn [bind]. rewrite Er, (second_model_ret tb _ Hl'). cbn [bind].
    rewrite E2'. cbn [bind]. rewrite Ep'. reflexivity. }
  exists h1', h2'. rewrite D. do 2 f_equal.
  destruct (C24_proof log10 Hlog iter1 iter2 Hi1 Hi2 tb A B T _ h1' h2' _ S UT (up_notes t notes) ltac:(destruct notes; [contradiction|discriminate]) D)
    as (loc' & K2 & Eloc & _ & Hloc & HK2 & EK2 & _ & _ & Hmax).
  rewrite Er in Eloc. apply key_of_int_inj in Eloc; try assumption. subst loc'.
  assert (K2 = K').
  { assert (X : [K'] = [K2]) by (apply key_of_int_inj; [constructor; [now inversion Kp'|constructor]|now constructor|]; cbn [map]; now rewrite EK2). now injection X. }
  subst K2. f_equal. destruct (Z.eq_dec K' (transpose_key t K)) as [->|N]; [reflexivity|exfalso].
  specialize (Hmax (transpose_key t K) (transpose_key_range t K HK)). set (J := transpose_key (- t) K').
  assert (HJ : is_key J) by now apply transpose_key_range.
  replace K' with (transpose_key t J) in Hmax by (apply transpose_key_inv'; exact HK2). rewrite !global_up in Hmax by assumption.
  rewrite <- !Ent in Hmax by assumption. rewrite Hg in Hmax; [discriminate|exact HJ|]. intros X. apply N. unfold J in X. rewrite <- X. symmetry. now apply transpose_key_inv'.
Qed.

(** ** A single note ties four keys *)
Definition default_tables : tables := mkTables "sapp" "sapp" zero_profile zero_profile "exponential10" zero_transition.
Definition tied (p s : Z) : bool := (tonic s =? p) || (tonic s =? (p + 5) mod 12).

Lemma log10_apart log10 x y : log10_ok log10 -> log10_accurate log10 -> is_finite x = true -> is_finite y = true ->
  3 * scaled y <= 2 * scaled x -> 0 <= scaled y -> 0 < scaled x -> fgt (log10 x) (log10 y) = true.
Proof.
  intros Hok Hacc Fx Fy H Hy Hx. pose proof (scaled_pos x Fx Hx) as Px. pose proof (proj1 (log10_pos log10 Hok x Fx Px)) as Flx.
  destruct (Z.eq_dec (scaled y) 0) as [E|E].
  - rewrite (log10_zero log10 Hok y Fy); [now apply fgt_ninf_r|]. rewrite (scaled_correct y Fy), E. lra.
  - pose proof (scaled_pos y Fy ltac:(lia)) as Py. pose proof (proj1 (log10_pos log10 Hok y Fy Py)) as Fly. rewrite fgt_finite by assumption.
    apply Rlt_bool_true. pose proof (Hacc x Fx Px) as Ax. pose proof (Hacc y Fy Py) as Ay. apply Rabs_le_inv in Ax. apply Rabs_le_inv in Ay.
    assert (R : (3 * B2R y <= 2 * B2R x)%R).
    { rewrite (scaled_correct x Fx), (scaled_correct y Fy). apply IZR_le in H. rewrite !mult_IZR in H. pose proof (bpow_gt_0 radix2 (-1074)). nra. }
    assert (D : (Rlog10 (B2R y) + / 27 <= Rlog10 (B2R x))%R).
    { unfold Rlog10. pose proof ln10_pos as P10.
      assert (L10 : (ln 10 <= 9)%R). { replace 10%R with (1 + 9)%R by lra. rewrite <- (ln_exp 9) at 2. apply Rlt_le, ln_increasing; [lra|]. apply exp_ineq1. lra. }
      assert (Lr : (/ 3 <= ln (B2R x) - ln (B2R y))%R).
      { assert (Q : (ln (B2R y) + - ln (2 / 3) <= ln (B2R x))%R).
        { replace (ln (B2R y) + - ln (2 / 3))%R with (ln (B2R y * (3 / 2)))%R.
          - destruct (Rle_lt_or_eq_dec (B2R y * (3 / 2)) (B2R x)) as [X|X]; [lra| |rewrite X; lra]. apply Rlt_le, ln_increasing; lra.
          - rewrite ln_mult by lra. replace (3 / 2)%R with (/ (2 / 3))%R by lra. rewrite ln_Rinv by lra. reflexivity. }
        assert (W : (ln (2 / 3) <= - / 3)%R).
        { replace (- / 3)%R with (ln (exp (- / 3))) by apply ln_exp. destruct (Rle_lt_or_eq_dec (2 / 3) (exp (- / 3))) as [X|X]; [|apply Rlt_le, ln_increasing; lra|rewrite X; lra].
          pose proof (exp_ineq1_le (- / 3)). lra. }
        lra. }
      apply Rmult_le_reg_r with (ln 10); [exact P10|]. rewrite Rmult_plus_distr_r. unfold Rdiv. rewrite !Rmult_assoc, Rinv_l by lra. nra. }
    assert (LE : (log_error <= / 100)%R).
    { unfold log_error. apply Rle_trans with (bpow radix2 (-7)); [apply bpow_le; lia|]. cbn. lra. }
    lra.
Qed.

Lemma fold_assign_map {V} (f : Z -> V) l : forall acc, NoDup (map fst acc ++ l) ->
  fold_left (fun m s => assign Z.eqb s (f s) m) l acc = acc ++ map (fun s => (s, f s)) l.
Proof.
  assert (N : forall (acc : list (Z * V)) s v, ~ In s (map fst acc) -> assign Z.eqb s v acc = acc ++ [(s, v)]).
  { induction acc as [|[k w] acc IH]; intros s v H; [reflexivity|]. cbn [assign app]. destruct (Z.eqb_spec s k) as [->|X]; [exfalso; apply H; now left|].
    f_equal. apply IH. intros Y. apply H. now right. }
  induction l as [|s l IH]; intros acc H; [now rewrite app_nil_r|]. cbn [fold_left map]. rewrite N.
  - rewrite IH; [now rewrite <- app_assoc|]. rewrite map_app. cbn [map fst]. now rewrite <- app_assoc.
  - apply NoDup_remove_2 in H. intros X. apply H. apply in_or_app. now left.
Qed.
Lemma scan_stay (es : list (Z * node b64)) st v pr : Forall (fun e => is_key (fst e) /\ fgt (fst (snd e)) v = false) es ->
  exists pr', scan_last b64 fgt es st v pr = Ret (st, v, pr').
Proof.
  intros H. revert pr. induction H as [|[s n] es [Hk Hg] _ IH]; intros pr; [now exists pr|]. cbn [scan_last fst snd] in *.
  unfold write_prob. replace ((0 <=? s) && (s <? 24)) with true by (unfold is_key in Hk; lia). cbn [bind]. rewrite Hg. apply IH.
Qed.
Lemma scan_pick (P : Z -> bool) (v : b64) (es : list (Z * node b64)) : good v ->
  Forall (fun e => is_key (fst e) /\ if P (fst e) then fst (snd e) = v else good (fst (snd e)) /\ fgt v (fst (snd e)) = true) es ->
  forall st mp pr, fgt v mp = true -> 
  match find P (map fst es) with
  | Some s => exists pr', scan_last b64 fgt es st mp pr = Ret (s, v, pr')
  | None => True
  end.
Proof.
  intros Gv H. assert (Irr : fgt v v = false) by (destruct (fgt v v) eqn:X; [|reflexivity]; pose proof (good_gt_asym v v Gv Gv X); congruence).
  induction H as [|[s n] es [Hk HP] Hes IH]; intros st mp pr Hm; [exact I|]. cbn [map fst find].
  cbn [fst snd] in HP. destruct (P s) eqn:Ps.
  - cbn [scan_last]. unfold write_prob. replace ((0 <=? s) && (s <? 24)) with true by (cbn in Hk; unfold is_key in Hk; lia). cbn [bind]. rewrite HP, Hm.
    apply scan_stay. apply Forall_impl with (2 := Hes). intros [s' n'] [Hk' HP']. cbn [fst snd] in *. split; [exact Hk'|].
    destruct (P s'); [now rewrite HP'|]. apply good_gt_asym; try assumption; apply HP'.
  - cbn [scan_last]. unfold write_prob. replace ((0 <=? s) && (s <? 24)) with true by (cbn in Hk; unfold is_key in Hk; lia). cbn [bind].
    destruct (fgt (fst n) mp); apply IH; [apply HP|exact Hm].
Qed.

Lemma run_single log10 iter h o (P : Z -> bool) v : iteration_order iter -> h_obs h = [o] -> h_states h = zseq 24 -> h_keys h = [] ->
  good v -> fgt v fninf = true ->
  (forall s, is_key s -> let w := log10 (fmul (prob_initial h s) (prob_emission h s o)) in if P s then w = v else good w /\ fgt v w = true) ->
  (exists s, is_key s /\ P s = true) ->
  exists h' s l, run_viterbi log10 iter h = Ret h' /\ h_keys h' = [key_of_int s] /\ map fst l = zseq 24 /\ find P (map fst (iter l)) = Some s /\ is_key s.
Proof.
  intros Hi Eo Es Ek Gv Hv HP (s0 & Hs0 & Ps0).
  set (w := (fun s => (log10 (fmul (at1 b64 fzero (h_initial h) s) (at2 b64 fzero (h_emissions h) s o)), -1)) : Z -> node b64).
  set (l := map (fun s => (s, w s)) (zseq 24) : list (Z * node b64)).
  assert (El : first_layer b64 fmul log10 fzero (zseq 24) (h_initial h) (h_emissions h) o = l).
  { unfold first_layer. change (fold_left (fun m s => assign Z.eqb s (w s) m) (zseq 24) [] = [] ++ l). apply fold_assign_map. cbn [map app]. apply zseq_NoDup. }
  assert (F : Forall (fun e => is_key (fst e) /\ if P (fst e) then fst (snd e) = v else good (fst (snd e)) /\ fgt v (fst (snd e)) = true) (iter l)).
  { apply Forall_forall. intros e He. apply (Permutation_in _ (Hi l)) in He. unfold l in He. apply in_map_iff in He. destruct He as (s & <- & Hs).
    apply In24 in Hs. cbn [fst snd]. split; [exact Hs|]. exact (HP s Hs). }
  pose proof (scan_pick P v (iter l) Gv F (-1) fninf (repeat fzero 24) Hv) as Q.
  assert (Fst : map fst l = zseq 24) by (unfold l; rewrite map_map; cbn [fst]; apply map_id).
  destruct (find P (map fst (iter l))) as [s|] eqn:Ef.
  2:{ exfalso. assert (X : In s0 (map fst (iter l))).
      { apply (Permutation_in _ (Permutation_map fst (Permutation_sym (Hi l)))). change (In s0 (map fst l)). rewrite Fst. now apply In24. }
      pose proof (find_none _ _ Ef s0 X). congruence. }
  destruct Q as (pr' & Q).
  assert (Ks : is_key s).
  { apply find_some in Ef. destruct Ef as [Ef _]. apply (Permutation_in _ (Permutation_map fst (Hi l))) in Ef. rewrite Fst in Ef. now apply In24. }
  eexists. exists s, l. split; [|split; [|split; [exact Fst|split; [exact Ef|exact Ks]]]].
  - unfold run_viterbi. rewrite Eo, Es, Ek. unfold viterbi. cbn [layers_from]. rewrite El. cbn [backtrack]. change (-1 =? -1) with true. rewrite Q. cbn [bind].
    unfold l at 1. rewrite (assoc_map_fun _ Zeqb_spec' w) by now apply In24. cbn [backtrack bind app rev]. reflexivity.
  - reflexivity.
Qed.

(** Sweeps over the default tables. *)
Definition weight1 (p s : Z) : b64 := fmul (rat64 1 24) (at2 b64 fzero (main_emissions default_tables) s p).
Definition weight2 (k s : Z) : b64 := fmul (rat64 1 24) (at2 b64 fzero (main_transitions default_tables) s k).
Definition top1 : b64 := fmul (rat64 1 24) (dec 2222222222222222 16).
Definition top2 : b64 := fmul (rat64 1 24) (rat64 100000000 144442221).
Definition sf_eqb (x y : SpecFloat.spec_float) : bool :=
  match x, y with
  | SpecFloat.S754_zero a, SpecFloat.S754_zero b => Bool.eqb a b
  | SpecFloat.S754_finite a m e, SpecFloat.S754_finite b n f => Bool.eqb a b && Pos.eqb m n && Z.eqb e f
  | _, _ => false
  end.
Lemma sf_eqb_true x y : sf_eqb x y = true -> x = y.
Proof.
  destruct x, y; cbn; try discriminate; intros H.
  - apply Bool.eqb_prop in H. now subst.
  - apply andb_prop in H. destruct H as [H H3]. apply andb_prop in H. destruct H as [H1 H2]. apply Bool.eqb_prop in H1.
    apply Pos.eqb_eq in H2. apply Z.eqb_eq in H3. now subst.
Qed.
Definition apart_b (top x : b64) : bool := is_finite x && (3 * scaled x <=? 2 * scaled top) && (0 <=? scaled x).
Definition sweep1 (p s : Z) : bool := if tied p s then sf_eqb (B2SF (weight1 p s)) (B2SF top1) else apart_b top1 (weight1 p s).
Definition sweep2 (k s : Z) : bool := if s =? k then sf_eqb (B2SF (weight2 k s)) (B2SF top2) else apart_b top2 (weight2 k s).
Lemma swept1 : forallb (fun p => forallb (sweep1 p) (zseq 24)) (zseq 12) = true.
Proof. vm_compute. reflexivity. Qed.
Lemma swept2 : forallb (fun k => forallb (sweep2 k) (zseq 24)) (zseq 24) = true.
Proof. vm_compute. reflexivity. Qed.

(** In any fixed order of the 24 keys some note's tie is not broken like that of note 0. *)
Fixpoint pos (x : Z) (l : list Z) : Z := match l with [] => 0 | y :: l' => if x =? y then 0 else 1 + pos x l' end.
Lemma pos_nonneg x l : 0 <= pos x l.
Proof. induction l as [|y l IH]; cbn [pos]; [lia|]. destruct (x =? y); lia. Qed.
Lemma find_first P l x y : find P l = Some x -> P y = true -> y <> x -> pos x l < pos y l.
Proof.
  induction l as [|z l IH]; cbn [find pos]; [discriminate|]. intros H Py N. destruct (P z) eqn:Pz.
  - apply Some_inj in H. subst z. rewrite Z.eqb_refl. destruct (Z.eqb_spec y x); [contradiction|]. pose proof (pos_nonneg y l). lia.
  - assert (y <> z) by congruence. assert (x <> z) by (apply find_some in H; destruct H; congruence).
    destruct (Z.eqb_spec x z), (Z.eqb_spec y z); try contradiction. specialize (IH H Py N). lia.
Qed.
Lemma tie_cycle l (f : Z -> Z) : (forall p, is_note p -> find (tied p) l = Some (f p) /\ is_key (f p)) ->
  exists t, is_note t /\ f t <> transpose_key t (f 0).
Proof.
  intros H. destruct (forallb (fun t => f t =? transpose_key t (f 0)) (zseq 12)) eqn:E.
  - exfalso. assert (Hf : forall t, is_note t -> f t = transpose_key t (f 0)) by (intros t Ht; apply Z.eqb_eq; exact (zseq_sweep 12 _ E t Ht)).
    assert (Hc : f 0 = 0 \/ f 0 = 5 \/ f 0 = 12 \/ f 0 = 17).
    { destruct (H 0 ltac:(unfold is_note; lia)) as [F K]. apply find_some in F. destruct F as [_ F]. unfold tied, tonic, is_key in *. Z.div_mod_to_equations. lia. }
    assert (Q : forall c d, f 0 = c -> (forall t, is_note t -> tied t (transpose_key t d) = true /\ transpose_key t d <> transpose_key t c) ->
      forall t, is_note t -> pos (transpose_key t c) l < pos (transpose_key t d) l).
    { intros c d Ec Hd t Ht. apply (find_first (tied t)); [|apply (Hd t Ht)|apply (Hd t Ht)]. rewrite <- Ec, <- (Hf t Ht). apply (H t Ht). }
    assert (Sw : forall c d, forallb (fun t => tied t (transpose_key t d) && negb (transpose_key t d =? transpose_key t c)) (zseq 12) = true ->
      forall t, is_note t -> tied t (transpose_key t d) = true /\ transpose_key t d <> transpose_key t c).
    { intros c d X t Ht. pose proof (zseq_sweep 12 _ X t Ht) as Y. cbv beta in Y. apply andb_prop in Y. destruct Y as [Y1 Y2]. split; [exact Y1|]. intros Z. rewrite Z, Z.eqb_refl in Y2. discriminate. }
    assert (N : forall c d, f 0 = c -> forallb (fun t => tied t (transpose_key t d) && negb (transpose_key t d =? transpose_key t c)) (zseq 12) = true ->
      forall t, is_note t -> pos (transpose_key t c) l < pos (transpose_key t d) l) by (intros c d Ec X; exact (Q c d Ec (Sw c d X))).
    assert (I : forall t, 0 <= t < 12 -> is_note t) by trivial.
    destruct Hc as [Hc|[Hc|[Hc|Hc]]].
    + pose proof (N 0 5 Hc eq_refl) as G.
      pose proof (G 0 (I 0 ltac:(lia))); pose proof (G 5 (I 5 ltac:(lia))); pose proof (G 10 (I 10 ltac:(lia))); pose proof (G 3 (I 3 ltac:(lia)));
      pose proof (G 8 (I 8 ltac:(lia))); pose proof (G 1 (I 1 ltac:(lia))); pose proof (G 6 (I 6 ltac:(lia))); pose proof (G 11 (I 11 ltac:(lia)));
      pose proof (G 4 (I 4 ltac:(lia))); pose proof (G 9 (I 9 ltac:(lia))); pose proof (G 2 (I 2 ltac:(lia))); pose proof (G 7 (I 7 ltac:(lia))). clear - H0 H1 H2 H3 H4 H5 H6 H7 H8 H9 H10 H11. unfold transpose_key, tonic, majorb in *. cbn in *. lia.
    + pose proof (N 5 0 Hc eq_refl) as G.
      pose proof (G 0 (I 0 ltac:(lia))); pose proof (G 5 (I 5 ltac:(lia))); pose proof (G 10 (I 10 ltac:(lia))); pose proof (G 3 (I 3 ltac:(lia)));
      pose proof (G 8 (I 8 ltac:(lia))); pose proof (G 1 (I 1 ltac:(lia))); pose proof (G 6 (I 6 ltac:(lia))); pose proof (G 11 (I 11 ltac:(lia)));
      pose proof (G 4 (I 4 ltac:(lia))); pose proof (G 9 (I 9 ltac:(lia))); pose proof (G 2 (I 2 ltac:(lia))); pose proof (G 7 (I 7 ltac:(lia))). clear - H0 H1 H2 H3 H4 H5 H6 H7 H8 H9 H10 H11. unfold transpose_key, tonic, majorb in *. cbn in *. lia.
    + pose proof (N 12 17 Hc eq_refl) as G.
      pose proof (G 0 (I 0 ltac:(lia))); pose proof (G 5 (I 5 ltac:(lia))); pose proof (G 10 (I 10 ltac:(lia))); pose proof (G 3 (I 3 ltac:(lia)));
      pose proof (G 8 (I 8 ltac:(lia))); pose proof (G 1 (I 1 ltac:(lia))); pose proof (G 6 (I 6 ltac:(lia))); pose proof (G 11 (I 11 ltac:(lia)));
      pose proof (G 4 (I 4 ltac:(lia))); pose proof (G 9 (I 9 ltac:(lia))); pose proof (G 2 (I 2 ltac:(lia))); pose proof (G 7 (I 7 ltac:(lia))). clear - H0 H1 H2 H3 H4 H5 H6 H7 H8 H9 H10 H11. unfold transpose_key, tonic, majorb in *. cbn in *. lia.
    + pose proof (N 17 12 Hc eq_refl) as G.
      pose proof (G 0 (I 0 ltac:(lia))); pose proof (G 5 (I 5 ltac:(lia))); pose proof (G 10 (I 10 ltac:(lia))); pose proof (G 3 (I 3 ltac:(lia)));
      pose proof (G 8 (I 8 ltac:(lia))); pose proof (G 1 (I 1 ltac:(lia))); pose proof (G 6 (I 6 ltac:(lia))); pose proof (G 11 (I 11 ltac:(lia)));
      pose proof (G 4 (I 4 ltac:(lia))); pose proof (G 9 (I 9 ltac:(lia))); pose proof (G 2 (I 2 ltac:(lia))); pose proof (G 7 (I 7 ltac:(lia))). clear - H0 H1 H2 H3 H4 H5 H6 H7 H8 H9 H10 H11. unfold transpose_key, tonic, majorb in *. cbn in *. lia.
  - assert (X : existsb (fun t => negb (f t =? transpose_key t (f 0))) (zseq 12) = true).
    { clear - E. induction (zseq 12) as [|t ts IH]; [discriminate|]. cbn [forallb existsb] in *. destruct (f t =? transpose_key t (f 0)); cbn in *; [now apply IH|reflexivity]. }
    apply existsb_exists in X. destruct X as (t & Ht & Hn). exists t. split; [apply zseq_In in Ht; exact Ht|]. lia.
Qed.

Lemma top1_pos : is_finite top1 = true /\ 0 < scaled top1.
Proof. split; vm_compute; reflexivity. Qed.
Lemma top2_pos : is_finite top2 = true /\ 0 < scaled top2.
Proof. split; vm_compute; reflexivity. Qed.
Lemma C23_tie_proof : forall log10 iter1 iter2, log10_ok log10 -> log10_accurate log10 -> iteration_order iter1 -> iteration_order iter2 ->
  forall p, is_note p -> exists h1 h2 K l, detect log10 iter1 iter2 default_tables [pc_of_int p] = Ret (h1, h2, key_of_int K) /\
    is_key K /\ map fst l = zseq 24 /\ find (tied p) (map fst (iter1 l)) = Some K.
Proof.
  intros log10 iter1 iter2 Hok Hacc Hi1 Hi2 p Hp.
  destruct (run_single log10 iter1 (model1 default_tables [p]) p (tied p) (log10 top1) Hi1 eq_refl eq_refl eq_refl) as (h1 & K & l & E1 & Ek1 & El & Ef & HK).
  - apply goodw_good. right. apply (log10_pos log10 Hok); [apply top1_pos|]. apply scaled_pos; apply top1_pos.
  - apply fgt_ninf_r. apply (log10_pos log10 Hok); [apply top1_pos|]. apply scaled_pos; apply top1_pos.
  - intros s Hs. unfold prob_initial, prob_emission. cbn [model1 h_initial h_emissions]. rewrite initial_24 by exact Hs. fold (weight1 p s).
    pose proof (zseq_sweep 24 _ (zseq_sweep 12 _ swept1 p Hp) s Hs) as Q. unfold sweep1 in Q. cbv zeta. destruct (tied p s).
    + apply sf_eqb_true, B2SF_inj in Q. now rewrite Q.
    + unfold apart_b in Q. apply andb_prop in Q. destruct Q as [Q Q3]. apply andb_prop in Q. destruct Q as [Q1 Q2].
      apply Z.leb_le in Q2. apply Z.leb_le in Q3. split.
      * apply goodw_good. apply (log10_goodw log10 _ Hok). split; [exact Q1|now apply scaled_nonneg].
      * apply log10_apart; try assumption; apply top1_pos.
  - exists p. split; [unfold is_key; unfold is_note in Hp; lia|]. unfold tied, tonic. rewrite Z.mod_small by exact Hp. now rewrite Z.eqb_refl.
  - destruct (run_single log10 iter2 (model2 default_tables [K]) K (fun s => s =? K) (log10 top2) Hi2 eq_refl eq_refl eq_refl) as (h2 & K2 & l2 & E2 & Ek2 & El2 & Ef2 & HK2).
    + apply goodw_good. right. apply (log10_pos log10 Hok); [apply top2_pos|]. apply scaled_pos; apply top2_pos.
    + apply fgt_ninf_r. apply (log10_pos log10 Hok); [apply top2_pos|]. apply scaled_pos; apply top2_pos.
    + intros s Hs. unfold prob_initial, prob_emission. cbn [model2 h_initial h_emissions]. rewrite initial_24 by exact Hs. fold (weight2 K s).
      pose proof (zseq_sweep 24 _ (zseq_sweep 24 _ swept2 K HK) s Hs) as Q. unfold sweep2 in Q. cbv zeta. destruct (s =? K).
      * apply sf_eqb_true, B2SF_inj in Q. now rewrite Q.
      * unfold apart_b in Q. apply andb_prop in Q. destruct Q as [Q Q3]. apply andb_prop in Q. destruct Q as [Q1 Q2].
        apply Z.leb_le in Q2. apply Z.leb_le in Q3. split.
        -- apply goodw_good. apply (log10_goodw log10 _ Hok). split; [exact Q1|now apply scaled_nonneg].
        -- apply log10_apart; try assumption; apply top2_pos.
    + exists K. split; [exact HK|]. apply Z.eqb_refl.
    + assert (K2 = K) by (apply find_some in Ef2; destruct Ef2 as [_ X]; lia). subst K2.
      exists h1, h2, K, l. split; [|split; [exact HK|split; [exact El|exact Ef]]].
      unfold detect. change [pc_of_int p] with (map pc_of_int [p]). rewrite first_model_ret by (constructor; [exact Hp|constructor]). cbn [bind]. rewrite E1. cbn [bind].
      rewrite Ek1. change [key_of_int K] with (map key_of_int [K]). rewrite second_model_ret by (constructor; [exact HK|constructor]). cbn [bind]. rewrite E2. cbn [bind].
      rewrite Ek2. reflexivity.
Qed.
Lemma C23_refuted_proof : forall log10 iter1 iter2, log10_ok log10 -> log10_accurate log10 -> iteration_order iter1 -> iteration_order iter2 -> key_order iter1 ->
  exists t h1 h2 K h1' h2' K', is_note t /\ is_key K /\ is_key K' /\
    detect log10 iter1 iter2 default_tables [pc_of_int 0] = Ret (h1, h2, key_of_int K) /\
    detect log10 iter1 iter2 default_tables [pc_of_int (transpose_pc t 0)] = Ret (h1', h2', key_of_int K') /\
    K' <> transpose_key t K.
Proof.
  intros log10 iter1 iter2 Hok Hacc Hi1 Hi2 (order & Ho).
  assert (D := C23_tie_proof log10 iter1 iter2 Hok Hacc Hi1 Hi2).
  set (f := fun p => match find (tied p) (order (zseq 24)) with Some s => s | None => 0 end).
  assert (F : forall p, is_note p -> find (tied p) (order (zseq 24)) = Some (f p) /\ is_key (f p) /\
    exists h1 h2, detect log10 iter1 iter2 default_tables [pc_of_int p] = Ret (h1, h2, key_of_int (f p))).
  { intros p Hp. destruct (D p Hp) as (h1 & h2 & K & l & E & HK & El & Ef). rewrite Ho, El in Ef. unfold f. rewrite Ef. split; [reflexivity|]. split; [exact HK|]. now exists h1, h2. }
  destruct (tie_cycle (order (zseq 24)) f) as (t & Ht & N).
  { intros p Hp. destruct (F p Hp) as (A & B & _). now split. }
  destruct (F 0 ltac:(unfold is_note; lia)) as (_ & K0 & h1 & h2 & E0). destruct (F t Ht) as (_ & Kt & h1' & h2' & Et).
  exists t, h1, h2, (f 0), h1', h2', (f t). repeat (split; [assumption|]). split; [|exact N].
  unfold transpose_pc. cbn [Z.add]. rewrite Z.mod_small by exact Ht. exact Et.
Qed.
