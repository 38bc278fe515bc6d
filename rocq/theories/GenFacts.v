(** Facts about the random tables of the optimizer. *)
From Coq Require Import Lia Lra Reals.
From Flocq Require Import Core.Core IEEE754.BinarySingleNaN.
From Verif Require Import Base Fp Text Py KeyProfile Options OptTables Optimizer.
From Verif Require Import TextSpec PrintSpec ChromaSpec MusicSpec DataSpec OptSpec FpFacts NumFacts FloatKit ChromaFacts OptFacts NearFacts.
Open Scope Z_scope.

(** ** Filling a list as planned *)
Fixpoint fill_plan (plan : list (nat * Z)) (a : list Z) : prog (list Z) :=
  match plan with [] => ret a | (i, b) :: plan' => run_do r <- randrange b; fill_plan plan' (replace_nth a i r) end.
Definition written (plan : list (nat * Z)) (a : list Z) (ds : list Z) : list Z :=
  fold_left (fun a e => replace_nth a (fst (fst e)) (snd e mod snd (fst e))) (combine plan ds) a.
Lemma fill_plan_done plan : forall a w ds, Forall (fun e => 0 < snd e) plan -> (length plan <= length ds)%nat ->
  fill_plan plan a w ds = Done (written plan a ds) w (skipn (length plan) ds).
Proof.
  induction plan as [|[i b] plan IH]; intros a w ds B L; [reflexivity|]. apply Forall_cons_iff in B. destruct B as [B0 B]. cbn [snd] in B0.
  destruct ds as [|d ds]; [cbn in L; lia|]. cbn [fill_plan]. unfold seq_run, randrange. replace (b <=? 0) with false by lia. cbn [length] in L.
  rewrite IH by (assumption || lia). reflexivity.
Qed.
Lemma fill_plan_error plan : forall a w ds, Exists (fun e => snd e <= 0) plan -> (length plan <= length ds)%nat -> fill_plan plan a w ds = Fails ValueError.
Proof.
  induction plan as [|[i b] plan IH]; intros a w ds B L; [inversion B|]. destruct ds as [|d ds]; [cbn in L; lia|]. cbn [length] in L. cbn [fill_plan]. unfold seq_run, randrange.
  destruct (Z.leb_spec b 0) as [B0|B0]; [reflexivity|]. apply IH; [|lia]. inversion B; subst; [cbn in *; lia|assumption].
Qed.
Lemma fill_plan_app p1 p2 : forall a w ds, fill_plan (p1 ++ p2) a w ds = seq_run (fill_plan p1 a) (fun a' => fill_plan p2 a') w ds.
Proof.
  induction p1 as [|[i b] p1 IH]; intros a w ds; [reflexivity|]. cbn [fill_plan app]. unfold seq_run in *. destruct (randrange b w ds); try reflexivity. apply IH.
Qed.
Lemma fill_group_plan b idxs : forall a w ds, fill_group b idxs a w ds = fill_plan (map (fun i => (i, b)) idxs) a w ds.
Proof. induction idxs as [|i idxs IH]; intros a w ds; [reflexivity|]. cbn [fill_group map fill_plan]. unfold seq_run. destruct (randrange b w ds); try reflexivity. apply IH. Qed.
Definition plan_of (maximum : Z) (groups : list (list nat * Z)) : list (nat * Z) := flat_map (fun g => map (fun i => (i, Z.quot maximum (2 ^ snd g))) (fst g)) groups.
(** The bound [int(maximum / 2**h)] without rounding. *)
Lemma bound_exact maximum h : Z.abs maximum <= 2 ^ 52 -> 0 <= h <= 8 -> exists q, int_div maximum (2 ^ h) = Returns q /\ py_int q = Z.quot maximum (2 ^ h).
Proof.
  intros M H. assert (P : exists p, 2 ^ h = Zpos p) by (exists (Z.to_pos (2 ^ h)); rewrite Z2Pos.id; [reflexivity|apply Z.pow_pos_nonneg; lia]).
  destruct P as (p & P). rewrite P. exists (rat64 maximum p). split; [reflexivity|]. unfold py_int.
  assert (G : generic_format radix2 fexp64 (IZR maximum / IZR (Zpos p))%R).
  { rewrite <- P. rewrite IZR_bpow by lia. unfold Rdiv. rewrite <- bpow_opp. apply (generic_format_FLT radix2 (-1074) 53).
    exists (Float radix2 maximum (- h)); [reflexivity|cbn; lia|cbn; lia]. }
  assert (E : B2R (rat64 maximum p) = (IZR maximum / IZR (Zpos p))%R).
  { destruct (Z.eq_dec maximum 0) as [->|N]; [unfold Rdiv; rewrite Rmult_0_l; reflexivity|].
    pose proof (NumberFacts.ratB_correct prec64 emax64 maximum p N) as C. cbv zeta in C. change (rounded prec64 emax64 (IZR maximum / IZR (Z.pos p))) with (rnd (IZR maximum / IZR (Z.pos p))) in C.
    rewrite rnd_id in C by exact G. rewrite Rlt_bool_true in C; [apply C|].
    apply Rle_lt_trans with (bpow radix2 52); [|apply bpow_lt; reflexivity]. unfold Rdiv. rewrite Rabs_mult. rewrite <- IZR_bpow by lia.
    rewrite <- (Rmult_1_r (IZR (2 ^ 52))). apply Rmult_le_compat; [apply Rabs_pos|apply Rabs_pos|rewrite <- abs_IZR; apply IZR_le; exact M|].
    rewrite Rabs_pos_eq by (apply Rlt_le, Rinv_0_lt_compat, IZR_lt; lia). rewrite <- Rinv_1. apply Rinv_le; [lra|]. apply IZR_le. lia. }
  apply eq_IZR. rewrite Btrunc_correct by reflexivity. rewrite E. unfold round, scaled_mantissa, cexp, FIX_exp, F2R. cbn [Fnum Fexp bpow Z.opp].
  rewrite !Rmult_1_r. f_equal.
  destruct (Z_le_gt_dec 0 maximum) as [S|S].
  - rewrite Ztrunc_floor by (apply Rmult_le_pos; [apply IZR_le; lia|apply Rlt_le, Rinv_0_lt_compat, IZR_lt; lia]). rewrite Zfloor_div by lia. symmetry. apply Z.quot_div_nonneg; lia.
  - rewrite Ztrunc_ceil. 2:{ assert (0 <= IZR (- maximum) / IZR (Zpos p))%R by (apply Rmult_le_pos; [apply IZR_le; lia|apply Rlt_le, Rinv_0_lt_compat, IZR_lt; lia]). rewrite opp_IZR in H0. unfold Rdiv in *. lra. }
    unfold Zceil. replace (- (IZR maximum / IZR (Z.pos p)))%R with (IZR (- maximum) / IZR (Z.pos p))%R by (rewrite opp_IZR; unfold Rdiv; ring).
    rewrite Zfloor_div by lia. rewrite <- Z.quot_div_nonneg by lia. rewrite Z.quot_opp_l by lia. lia.
Qed.
Lemma fill_groups_plan maximum groups : Z.abs maximum <= 2 ^ 52 -> Forall (fun g => 0 <= snd g <= 8) groups -> forall a w ds,
  fill_groups maximum groups a w ds = fill_plan (plan_of maximum groups) a w ds.
Proof.
  intros M. induction groups as [|[idxs h] groups IH]; intros H a w ds; [reflexivity|]. apply Forall_cons_iff in H. destruct H as [Hh H]. cbn [snd] in Hh.
  destruct (bound_exact maximum h M Hh) as (q & Q & E). cbn [fill_groups plan_of flat_map fst snd]. rewrite Q. fold (plan_of maximum groups). rewrite fill_plan_app.
  unfold seq_run. cbn [lift]. rewrite E, fill_group_plan. destruct (fill_plan _ a w ds); try reflexivity. now apply IH.
Qed.
(** What stands where. *)
Lemma written_length plan : forall a ds, length (written plan a ds) = length a.
Proof.
  induction plan as [|e plan IH]; intros a ds; [reflexivity|]. destruct ds as [|d ds]; [reflexivity|]. unfold written in *. cbn [combine fold_left]. rewrite IH. apply replace_nth_length.
Qed.
Lemma written_other plan : forall a ds i, ~ In i (map fst plan) -> nth i (written plan a ds) 0 = nth i a 0.
Proof.
  induction plan as [|e plan IH]; intros a ds i N; [reflexivity|]. destruct ds as [|d ds]; [reflexivity|]. unfold written in *. cbn [combine fold_left map In fst snd] in *.
  rewrite IH by tauto. apply replace_nth_other. tauto.
Qed.
Lemma written_at plan : forall a ds k e d, NoDup (map fst plan) -> nth_error plan k = Some e -> nth_error ds k = Some d -> (fst e < length a)%nat ->
  nth (fst e) (written plan a ds) 0 = d mod snd e.
Proof.
  induction plan as [|e0 plan IH]; intros a ds k e d N P D L; [now destruct k|]. destruct ds as [|d0 ds]; [now destruct k|].
  cbn [map] in N. apply NoDup_cons_iff in N. destruct N as [N0 N].
  destruct k as [|k]; cbn [nth_error] in P, D.
  - injection P as <-. injection D as <-. change (written (e0 :: plan) a (d0 :: ds)) with (written plan (replace_nth a (fst e0) (d0 mod snd e0)) ds).
    rewrite written_other by exact N0. now apply replace_nth_same.
  - change (written (e0 :: plan) a (d0 :: ds)) with (written plan (replace_nth a (fst e0) (d0 mod snd e0)) ds). apply (IH _ _ k); try assumption. now rewrite replace_nth_length.
Qed.

(** ** Dividing by the total *)
Lemma zsum_total l : zsum l = total l.
Proof.
  unfold zsum. assert (H : forall a, fold_left Z.add l a = a + total l); [|rewrite H; lia].
  induction l as [|x l IH]; intros a; cbn [fold_left total fold_right]; [lia|]. rewrite IH. change (fold_right Z.add 0 l) with (total l). lia.
Qed.
Lemma total_pos ns : Forall (fun n => 0 <= n) ns -> 0 <= total ns /\ Forall (fun n => n <= total ns) ns.
Proof.
  induction 1 as [|n ns H F IH]; [split; [cbn; lia|constructor]|]. destruct IH as [T U]. change (total (n :: ns)) with (n + total ns). split; [lia|].
  constructor; [lia|]. eapply Forall_impl; [|exact U]. cbn. intros; lia.
Qed.
Lemma normalise_zero ns : ns <> [] -> total ns = 0 -> normalise ns = Raises ZeroDivisionError.
Proof. intros N T. unfold normalise. rewrite zsum_total, T. now destruct ns. Qed.
Lemma shares_of s : forall ns, 0 < s -> Forall (fun n => 0 <= n <= s) ns -> exists l, pymap (fun x => int_div x s) ns = Returns l /\ Forall2 (share s) ns l.
Proof.
  intros ns S F. destruct s as [|p|]; try lia. induction F as [|n ns B F (l & E & H)]; [exists []; split; [reflexivity|constructor]|].
  exists (rat64 n p :: l). split; [cbn [pymap]; rewrite E; reflexivity|]. constructor; [|exact H]. exact (rat64_unit n p B).
Qed.
Lemma normalise_shares ns : Forall (fun n => 0 <= n) ns -> 0 < total ns -> exists l, normalise ns = Returns l /\ Forall2 (share (total ns)) ns l.
Proof.
  intros F T. unfold normalise. rewrite zsum_total. apply shares_of; [exact T|]. destruct (total_pos ns F) as [_ U]. rewrite Forall_forall in *. intros n I. split; [now apply F|now apply U].
Qed.

(** ** A table drawn group by group *)
Definition grouped (n : nat) (level : nat -> Z) (groups : list (list nat * Z)) : Prop :=
  Forall (fun g => 0 <= snd g <= 8 /\ Forall (fun i => level i = snd g /\ (i < n)%nat) (fst g)) groups /\ NoDup (flat_map fst groups) /\ length (flat_map fst groups) = n.
Definition groupedb (n : nat) (level : nat -> Z) (groups : list (list nat * Z)) : bool :=
  forallb (fun g => (0 <=? snd g) && (snd g <=? 8) && forallb (fun i => (level i =? snd g) && (i <? n)%nat) (fst g)) groups
  && forallb (fun i => (count_occ Nat.eq_dec (flat_map fst groups) i =? 1)%nat) (flat_map fst groups) && (length (flat_map fst groups) =? n)%nat.
Lemma groupedb_spec n level groups : groupedb n level groups = true -> grouped n level groups.
Proof.
  unfold groupedb. rewrite !andb_true_iff, !forallb_forall. intros ((A & B) & C). split; [|split].
  - apply Forall_forall. intros g I. specialize (A g I). rewrite !andb_true_iff, forallb_forall in A. destruct A as ((A1 & A2) & A3). split; [lia|].
    apply Forall_forall. intros i J. specialize (A3 i J). lia.
  - apply (NoDup_count_occ' Nat.eq_dec). intros i I. specialize (B i I). now apply Nat.eqb_eq.
  - now apply Nat.eqb_eq.
Qed.
Lemma plan_keys maximum groups : map fst (plan_of maximum groups) = flat_map fst groups.
Proof. induction groups as [|[l h] groups IH]; [reflexivity|]. cbn [plan_of flat_map fst snd]. rewrite map_app, map_map, map_id. cbn [fst]. f_equal. exact IH. Qed.
Lemma plan_length maximum groups : length (plan_of maximum groups) = length (flat_map fst groups).
Proof. rewrite <- (plan_keys maximum), map_length. reflexivity. Qed.
Lemma plan_bounds n level maximum groups : grouped n level groups -> Forall (fun e => (fst e < n)%nat /\ 0 <= level (fst e) <= 8 /\ snd e = Z.quot maximum (2 ^ level (fst e))) (plan_of maximum groups).
Proof.
  intros (F & _). apply Forall_forall. intros e I. apply in_flat_map in I. destruct I as (g & G & I). apply in_map_iff in I. destruct I as (i & <- & J). rewrite Forall_forall in F.
  destruct (F g G) as (H & K). rewrite Forall_forall in K. destruct (K i J) as (E & L). cbn [fst snd]. rewrite E. auto.
Qed.
Definition generate (n : nat) (maximum : Z) (groups : list (list nat * Z)) : prog table := run_do a <- fill_groups maximum groups (repeat 0 n); lift (normalise a).
Definition drawn (ns : list Z) (w : world) (rest : list Z) (r : run table) : Prop :=
  (total ns = 0 /\ r = Fails ZeroDivisionError) \/ (0 < total ns /\ exists l, r = Done l w rest /\ Forall2 (share (total ns)) ns l).
Lemma drawn_normalise ns w rest : ns <> [] -> Forall (fun n => 0 <= n) ns -> drawn ns w rest (lift (normalise ns) w rest).
Proof.
  intros N F. destruct (total_pos ns F) as [T _]. destruct (Z.eq_dec (total ns) 0) as [E|E].
  - left. split; [exact E|]. now rewrite normalise_zero.
  - right. split; [lia|]. destruct (normalise_shares ns F ltac:(lia)) as (l & -> & H). exists l. now split.
Qed.
Section Table.
Variables (n : nat) (level : nat -> Z) (groups : list (list nat * Z)) (maximum : Z).
Hypotheses (G : grouped n level groups) (N : (0 < n)%nat) (M : Z.abs maximum <= 2 ^ 52) (B : forall i, (i < n)%nat -> 2 ^ level i <= maximum).
Lemma pos_bounds : Forall (fun e => 0 < snd e) (plan_of maximum groups).
Proof.
  eapply Forall_impl; [|exact (plan_bounds n level maximum groups G)]. intros [i b] (L & H & ->). cbn [fst snd] in *. assert (B2 := B i L).
  apply Z.quot_str_pos. split; [apply Z.pow_pos_nonneg; lia|exact B2].
Qed.
Lemma every_index i : (i < n)%nat -> exists k e, nth_error (plan_of maximum groups) k = Some e /\ fst e = i.
Proof using G.
  clear N M B. intros L. assert (I : In i (map fst (plan_of maximum groups))).
  { rewrite plan_keys. destruct G as (_ & D & E). assert (incl (seq 0 n) (flat_map fst groups)); [|apply H, in_seq; lia].
    apply NoDup_length_incl; [exact D|rewrite seq_length; lia|]. intros j J. rewrite <- (plan_keys maximum) in J. apply in_map_iff in J. destruct J as (e & <- & J).
    pose proof (plan_bounds n level maximum groups G) as P. rewrite Forall_forall in P. apply in_seq. specialize (P e J). lia. }
  apply in_map_iff in I. destruct I as (e & E & I). apply In_nth_error in I. destruct I as (k & K). exists k, e. auto.
Qed.
Lemma generated_run w ds : (n <= length ds)%nat -> generate n maximum groups w ds = lift (normalise (written (plan_of maximum groups) (repeat 0 n) ds)) w (skipn n ds).
Proof.
  intros L. unfold generate, seq_run. assert (E : length (plan_of maximum groups) = n) by (rewrite plan_length; apply G).
  rewrite fill_groups_plan, fill_plan_done, E; [reflexivity| |lia|exact M|].
  - exact pos_bounds.
  - destruct G as (F & _). eapply Forall_impl; [|exact F]. intros g H. apply H.
Qed.
Lemma written_drawn ds : (n <= length ds)%nat -> drawn_below level maximum (written (plan_of maximum groups) (repeat 0 n) ds).
Proof.
  intros L i v E. assert (I : (i < n)%nat) by (apply nth_error_Some_lt in E || (assert (nth_error (written (plan_of maximum groups) (repeat 0 n) ds) i <> None) as Q by congruence; apply nth_error_Some in Q; rewrite written_length, repeat_length in Q; exact Q)).
  destruct (every_index i I) as (k & e & P & <-). pose proof (plan_bounds n level maximum groups G) as Q. rewrite Forall_forall in Q. destruct (Q e (nth_error_In _ _ P)) as (_ & H & S).
  assert (K : (k < length ds)%nat). { assert (nth_error (plan_of maximum groups) k <> None) as R by congruence. apply nth_error_Some in R. rewrite plan_length in R. destruct G as (_ & _ & T). lia. }
  destruct (nth_error ds k) as [d|] eqn:D; [|apply nth_error_None in D; lia].
  apply (nth_error_nth _ _ 0) in E. rewrite (written_at _ _ _ k e d) in E; [|rewrite plan_keys; apply G|exact P|exact D|rewrite repeat_length; exact I].
  subst v. assert (B2 := B (fst e) I). rewrite <- Z.quot_div_nonneg by (try apply Z.pow_pos_nonneg; lia || (assert (0 < 2 ^ level (fst e)) by (apply Z.pow_pos_nonneg; lia); lia)). rewrite <- S. apply Z.mod_pos_bound.
  pose proof pos_bounds as PB. rewrite Forall_forall in PB. apply PB, (nth_error_In _ _ P).
Qed.
Lemma drawn_nonneg ns : drawn_below level maximum ns -> Forall (fun x => 0 <= x) ns.
Proof. intros D. apply Forall_forall. intros x I. apply In_nth_error in I. destruct I as (i & I). apply (D i x I). Qed.
Lemma table_outcome w ds : (n <= length ds)%nat -> exists ns, length ns = n /\ drawn_below level maximum ns /\ drawn ns w (skipn n ds) (generate n maximum groups w ds).
Proof.
  intros L. exists (written (plan_of maximum groups) (repeat 0 n) ds). pose proof (written_length (plan_of maximum groups) (repeat 0 n) ds) as E. rewrite repeat_length in E.
  split; [exact E|]. split; [now apply written_drawn|]. rewrite generated_run by exact L. apply drawn_normalise.
  - intros X. rewrite X in E. cbn in E. lia.
  - now apply drawn_nonneg, written_drawn.
Qed.
Lemma table_reached ns : length ns = n -> drawn_below level maximum ns -> exists ds, length ds = n /\ forall w rest, drawn ns w rest (generate n maximum groups w (ds ++ rest)).
Proof.
  intros L D. exists (map (fun e => nth (fst e) ns 0) (plan_of maximum groups)). split; [rewrite map_length, plan_length; apply G|]. intros w rest.
  assert (E : length (map (fun e => nth (fst e) ns 0) (plan_of maximum groups)) = n) by (rewrite map_length, plan_length; apply G).
  rewrite generated_run by (rewrite app_length; lia). rewrite skipn_app, E, Nat.sub_diag, <- E, skipn_all. cbn [app skipn].
  replace (written _ _ _) with ns.
  - apply drawn_normalise; [intros ->; cbn in L; lia|now apply drawn_nonneg].
  - rewrite E. apply (nth_ext _ _ 0 0); [now rewrite written_length, repeat_length|]. intros i I. rewrite L in I. destruct (every_index i I) as (k & e & P & <-).
    rewrite (written_at _ _ _ k e (nth (fst e) ns 0)); [|rewrite plan_keys; apply G|exact P| |rewrite repeat_length; exact I].
    + destruct (nth_error ns (fst e)) as [v|] eqn:V; [|apply nth_error_None in V; lia]. rewrite (nth_error_nth _ _ 0 V). destruct (D _ _ V) as (D0 & D1).
      pose proof (plan_bounds n level maximum groups G) as Q. rewrite Forall_forall in Q. destruct (Q e (nth_error_In _ _ P)) as (_ & H & S). assert (B2 := B (fst e) I).
      assert (0 < 2 ^ level (fst e)) by (apply Z.pow_pos_nonneg; lia). rewrite S, Z.quot_div_nonneg by lia. symmetry. apply Z.mod_small. lia.
    + assert (K : (k < n)%nat). { assert (nth_error (plan_of maximum groups) k <> None) as R by congruence. apply nth_error_Some in R. rewrite map_length in E. lia. }
      rewrite nth_error_app1 by lia. now rewrite nth_error_map, P.
Qed.
End Table.
Lemma table_refused n level groups maximum i w ds : grouped n level groups -> Z.abs maximum <= 2 ^ 52 -> (i < n)%nat -> maximum < 2 ^ level i -> (n <= length ds)%nat ->
  generate n maximum groups w ds = Fails ValueError.
Proof.
  intros G M I S L. unfold generate, seq_run. assert (E : length (plan_of maximum groups) = n) by (rewrite plan_length; apply G).
  rewrite fill_groups_plan; [|exact M|destruct G as (F & _); eapply Forall_impl; [|exact F]; intros g H; apply H]. rewrite fill_plan_error; [reflexivity| |lia].
  destruct (every_index n level groups maximum G i I) as (k & e & P & <-). apply Exists_exists. exists e. split; [exact (nth_error_In _ _ P)|].
  pose proof (plan_bounds n level maximum groups G) as Q. rewrite Forall_forall in Q. destruct (Q e (nth_error_In _ _ P)) as (_ & H & ->).
  assert (0 < 2 ^ level (fst e)) by (apply Z.pow_pos_nonneg; lia). destruct (Z_le_gt_dec 0 maximum).
  - rewrite Z.quot_small by lia. lia.
  - rewrite <- (Z.opp_involutive maximum), Z.quot_opp_l by lia. assert (0 <= Z.quot (- maximum) (2 ^ level (fst e))) by (apply Z.quot_pos; lia). lia.
Qed.

(** ** The three kinds of tables *)
Lemma major_grouped : grouped 12 major_level major_groups.
Proof. apply groupedb_spec. vm_compute. reflexivity. Qed.
Lemma minor_grouped : grouped 12 minor_level minor_groups.
Proof. apply groupedb_spec. vm_compute. reflexivity. Qed.
Lemma key_grouped : grouped 24 key_level (numbered key_groups).
Proof. apply groupedb_spec. vm_compute. reflexivity. Qed.
Lemma major_levels i : 0 <= major_level i <= 2.
Proof. unfold major_level. repeat match goal with |- context [if ?b then _ else _] => destruct b end; lia. Qed.
Lemma minor_levels i : 0 <= minor_level i <= 3.
Proof. unfold minor_level. repeat match goal with |- context [if ?b then _ else _] => destruct b end; lia. Qed.
Lemma key_levels i : (i < 24)%nat -> 0 <= key_level i <= 8.
Proof.
  intros I. assert (F : forallb (fun i => (0 <=? key_level i) && (key_level i <=? 8)) (seq 0 24) = true) by (vm_compute; reflexivity). rewrite forallb_forall in F.
  specialize (F i ltac:(apply in_seq; lia)). lia.
Qed.
Lemma levels_fit m h i : 0 <= h <= i -> 2 ^ i <= m -> 2 ^ h <= m.
Proof. intros H M. apply Z.le_trans with (2 ^ i); [|exact M]. apply Z.pow_le_mono_r; lia. Qed.
Lemma major_outcome maximum w ds : 4 <= maximum <= 2 ^ 52 -> (12 <= length ds)%nat ->
  exists ns, length ns = 12%nat /\ drawn_below major_level maximum ns /\ drawn ns w (skipn 12 ds) (generate_major maximum w ds).
Proof. intros M L. apply (table_outcome 12 major_level major_groups maximum major_grouped); [lia|lia| |exact L]. intros i _. apply (levels_fit _ _ 2); [apply major_levels|exact (proj1 M)]. Qed.
Lemma minor_outcome maximum w ds : 8 <= maximum <= 2 ^ 52 -> (12 <= length ds)%nat ->
  exists ns, length ns = 12%nat /\ drawn_below minor_level maximum ns /\ drawn ns w (skipn 12 ds) (generate_minor maximum w ds).
Proof. intros M L. apply (table_outcome 12 minor_level minor_groups maximum minor_grouped); [lia|lia| |exact L]. intros i _. apply (levels_fit _ _ 3); [apply minor_levels|exact (proj1 M)]. Qed.
Lemma keys_outcome maximum w ds : 256 <= maximum <= 2 ^ 52 -> (24 <= length ds)%nat ->
  exists ns, length ns = 24%nat /\ drawn_below key_level maximum ns /\ drawn ns w (skipn 24 ds) (generate_stochastic maximum w ds).
Proof. intros M L. apply (table_outcome 24 key_level (numbered key_groups) maximum key_grouped); [lia|lia| |exact L]. intros i I. apply (levels_fit _ _ 8); [now apply key_levels|exact (proj1 M)]. Qed.
Lemma major_reached maximum ns : 4 <= maximum <= 2 ^ 52 -> length ns = 12%nat -> drawn_below major_level maximum ns ->
  exists ds, length ds = 12%nat /\ forall w rest, drawn ns w rest (generate_major maximum w (ds ++ rest)).
Proof. intros M. apply (table_reached 12 major_level major_groups maximum major_grouped); [lia|lia|]. intros i _. apply (levels_fit _ _ 2); [apply major_levels|exact (proj1 M)]. Qed.
Lemma minor_reached maximum ns : 8 <= maximum <= 2 ^ 52 -> length ns = 12%nat -> drawn_below minor_level maximum ns ->
  exists ds, length ds = 12%nat /\ forall w rest, drawn ns w rest (generate_minor maximum w (ds ++ rest)).
Proof. intros M. apply (table_reached 12 minor_level minor_groups maximum minor_grouped); [lia|lia|]. intros i _. apply (levels_fit _ _ 3); [apply minor_levels|exact (proj1 M)]. Qed.
Lemma keys_reached maximum ns : 256 <= maximum <= 2 ^ 52 -> length ns = 24%nat -> drawn_below key_level maximum ns ->
  exists ds, length ds = 24%nat /\ forall w rest, drawn ns w rest (generate_stochastic maximum w (ds ++ rest)).
Proof. intros M. apply (table_reached 24 key_level (numbered key_groups) maximum key_grouped); [lia|lia|]. intros i I. apply (levels_fit _ _ 8); [now apply key_levels|exact (proj1 M)]. Qed.
Lemma major_refused maximum w ds : - 2 ^ 52 <= maximum < 4 -> (12 <= length ds)%nat -> generate_major maximum w ds = Fails ValueError.
Proof. intros M. apply (table_refused 12 major_level major_groups maximum 1 w ds major_grouped); [lia|lia|]. exact (proj2 M). Qed.
Lemma minor_refused maximum w ds : - 2 ^ 52 <= maximum < 8 -> (12 <= length ds)%nat -> generate_minor maximum w ds = Fails ValueError.
Proof. intros M. apply (table_refused 12 minor_level minor_groups maximum 1 w ds minor_grouped); [lia|lia|]. exact (proj2 M). Qed.
Lemma keys_refused maximum w ds : - 2 ^ 52 <= maximum < 256 -> (24 <= length ds)%nat -> generate_stochastic maximum w ds = Fails ValueError.
Proof. intros M. apply (table_refused 24 key_level (numbered key_groups) maximum 6 w ds key_grouped); [lia|lia|]. exact (proj2 M). Qed.

(** ** Sums *)
Open Scope R_scope.
Lemma share_near s n y : (0 <= n <= s)%Z -> (0 < s <= 2 ^ 100)%Z -> share s n y -> is_finite y = true /\ 0 <= IZR n / IZR s /\ near 1 (B2R y) (IZR n / IZR s).
Proof.
  intros N S (F & E). assert (P : 0 < IZR s) by (apply IZR_lt; lia). assert (Q : 0 <= IZR n / IZR s) by (apply Rmult_le_pos; [apply IZR_le; lia|left; now apply Rinv_0_lt_compat]).
  split; [exact F|]. split; [exact Q|]. rewrite E. destruct (Z.eq_dec n 0) as [->|Z0].
  - unfold Rdiv. rewrite Rmult_0_l. change (rounded 53 1024 0) with (rnd 0). rewrite (rnd_id 0) by apply generic_format_0. unfold near, Rdiv. rewrite !Rmult_0_l. lra.
  - apply rnd_normal_near. apply Rle_trans with (bpow radix2 (- (100))); [apply bpow_le; lia|]. rewrite bpow_opp, <- IZR_bpow by lia. apply Rle_trans with (1 * / IZR s).
    + rewrite Rmult_1_l. apply Rinv_le; [exact P|apply IZR_le; lia].
    + apply Rmult_le_compat_r; [left; now apply Rinv_0_lt_compat|apply IZR_le; lia].
Qed.
Lemma rsum_shares s ns : IZR s <> 0 -> rsum (map (fun n => IZR n / IZR s) ns) = IZR (total ns) / IZR s.
Proof.
  intros S. induction ns as [|n ns IH]; cbn [map rsum fold_right total]; [change (IZR 0) with 0; field; exact S|]. change (fold_right Rplus 0 (map (fun n => IZR n / IZR s) ns)) with (rsum (map (fun n => IZR n / IZR s) ns)).
  change (fold_right Z.add 0%Z ns) with (total ns). rewrite IH, plus_IZR. field. exact S.
Qed.
Lemma shares_near ns l : Forall (fun n => 0 <= n)%Z ns -> (0 < total ns <= 2 ^ 100)%Z -> Forall2 (share (total ns)) ns l ->
  Forall2 (fun (x : b64) v => is_finite x = true /\ 0 <= v /\ near 1 (B2R x) v) l (map (fun n => IZR n / IZR (total ns)) ns).
Proof.
  intros F T. destruct (total_pos ns F) as [_ U]. revert T U. generalize (total ns) as s. intros s T U H. induction H as [|n y ns l E H IH]; [constructor|]. inversion F; subst. inversion U; subst.
  cbn [map]. constructor; [apply (share_near s n y); [lia|exact T|exact E]|]. now apply IH.
Qed.
Lemma real_total_near k l vs : Forall2 (fun (x : b64) v => is_finite x = true /\ 0 <= v /\ near k (B2R x) v) l vs -> near k (real_total l) (rsum vs).
Proof.
  induction 1 as [|x v l vs (F & V & N) H IH]; unfold real_total, rsum in *; cbn [map fold_right]; [|now apply near_plus]. unfold near, Rdiv. rewrite !Rmult_0_l. lra.
Qed.
Lemma one_no_warning k (s : b64) : (k <= 1000)%nat -> is_finite s = true -> near k (B2R s) 1 -> sum_warning s = false.
Proof.
  intros L F N. pose proof (near_double k _ 1 L ltac:(lra) N) as D. pose proof (near_error k _ 1 L ltac:(lra) N) as E. apply no_warning_from_99; [exact F|].
  rewrite Rabs_pos_eq by lra. split; [|lra]. destruct (py_float_R 1 ltac:(lia)) as (_ & ->). destruct hundredth as (_ & H).
  assert (INR (S k) * u <= 1 / 1000).
  { apply Rle_trans with (1001 * u); [|unfold u; lra]. apply Rmult_le_compat_r; [pose proof u_pos; lra|]. replace 1001 with (INR 1001) by (rewrite INR_IZR_INZ; reflexivity). apply le_INR. lia. }
  apply Rabs_le_inv in E. change (IZR 1) with 1. lra.
Qed.
Lemma shares_sum ns l : Forall (fun n => 0 <= n)%Z ns -> (0 < total ns <= 2 ^ 100)%Z -> (length ns <= 900)%nat -> Forall2 (share (total ns)) ns l ->
  Rabs (real_total l - 1) <= / 2 ^ 52 /\ sum_warning (py_sum l) = false.
Proof.
  intros F T L H. pose proof (shares_near ns l F T H) as N. pose proof (real_total_near _ _ _ N) as R. assert (P : IZR (total ns) <> 0) by (apply Rgt_not_eq, IZR_lt; lia).
  rewrite rsum_shares in R by exact P. replace (IZR (total ns) / IZR (total ns)) with 1 in R by (field; exact P). split.
  - apply Rle_trans with (1 := near_error 1 _ 1 ltac:(lia) ltac:(lra) R). unfold u. cbn [INR]. lra.
  - pose proof (OptFacts.Forall2_length_eq _ _ _ H) as E.
    destruct (py_sum_near 1 l _ N) as (A & B); [lia| |].
    + rewrite rsum_shares by exact P. replace (IZR (total ns) / IZR (total ns)) with 1 by (field; exact P). change 1 with (bpow radix2 0). apply bpow_le. lia.
    + rewrite rsum_shares in B by exact P. replace (IZR (total ns) / IZR (total ns)) with 1 in B by (field; exact P). apply (one_no_warning (1 + length l)); [lia|exact A|exact B].
Qed.
Open Scope Z_scope.
Lemma total_below level maximum ns : (forall i, 0 <= level i) -> 0 <= maximum -> drawn_below level maximum ns -> total ns <= Z.of_nat (length ns) * maximum.
Proof.
  intros N M D. assert (F : Forall (fun n => n <= maximum) ns).
  { apply Forall_forall. intros n I. apply In_nth_error in I. destruct I as (i & I). specialize (D i n I). assert (0 < 2 ^ level i) by (apply Z.pow_pos_nonneg; [lia|apply N]).
    assert (maximum / 2 ^ level i <= maximum); [|lia]. apply Z.div_le_upper_bound; [lia|]. nia. }
  clear D. induction F as [|n ns L F IH]; [cbn; lia|]. change (total (n :: ns)) with (n + total ns). cbn [length]. lia.
Qed.

(** ** Geometric tables *)
Section Geometric.
Variable pow : b64 -> Z -> b64.
Lemma filled_powers ratio (v : Z -> b64) : is_finite ratio = true -> (forall n, 0 <= n <= 8 -> pow ratio n = v n /\ is_finite (v n) = true) ->
  forall groups a, Forall (fun g => 0 <= snd g <= 8) groups ->
  fill_powers pow ratio 8 groups a = Returns (fold_left (fun a e => replace_nth a (fst e) (v (8 - snd e))) (flat_map (fun g => map (fun i => (i, snd g)) (fst g)) groups) a).
Proof.
  intros R V. induction groups as [|[idxs h] groups IH]; intros a F; [reflexivity|]. inversion F as [|? ? Hh F']; subst. cbn [snd] in Hh. cbn [fill_powers flat_map fst snd].
  destruct (V (8 - h) ltac:(lia)) as (E & FV). unfold power. rewrite E, FV, R. cbn [negb andb pybind]. rewrite IH by exact F'. rewrite fold_left_app. f_equal. f_equal.
  clear. revert a. induction idxs as [|i idxs IH]; intros a; [reflexivity|]. cbn [fold_left map fst snd]. apply IH.
Qed.
Open Scope R_scope.
Lemma rsum_app l1 l2 : rsum (l1 ++ l2) = rsum l1 + rsum l2.
Proof. unfold rsum. induction l1 as [|x l1 IH]; cbn [app fold_right]; [ring|]. rewrite IH. ring. Qed.
Lemma rsum_upto n f : rsum (map f (seq 0 n)) = upto_sum n f.
Proof. induction n as [|n IH]; [reflexivity|]. rewrite seq_S, map_app, rsum_app, IH. cbn. ring. Qed.
Variable ratio : b64.
Hypotheses (A : accurate_power pow) (F : is_finite ratio = true) (B : / 2 ^ 20 <= B2R ratio <= 2 ^ 20).
Let rho := B2R ratio.
Let v (k : nat) := rho ^ Z.to_nat (8 - key_level k).
Lemma rho_powers n : (n <= 8)%nat -> bpow radix2 (-160) <= rho ^ n <= bpow radix2 160.
Proof.
  intros L. assert (P : 0 < / 2 ^ 20) by (apply Rinv_0_lt_compat; lra). fold rho in B. split.
  - apply Rle_trans with ((/ 2 ^ 20) ^ n); [|apply pow_incr; lra]. apply Rle_trans with ((/ 2 ^ 20) ^ 8).
    + right. change (bpow radix2 (-160)) with (/ IZR (2 ^ 160)). rewrite pow_inv. f_equal. rewrite <- pow_mult. change (20 * 8)%nat with 160%nat. rewrite pow_IZR. reflexivity.
    + assert (C : / 2 ^ 20 <= 1) by (rewrite <- Rinv_1; apply Rinv_le; lra). revert C P. generalize (/ 2 ^ 20). intros c C P. replace 8%nat with (n + (8 - n))%nat by lia. rewrite pow_add.
      rewrite <- (Rmult_1_r (c ^ n)) at 2. apply Rmult_le_compat_l; [apply pow_le; lra|]. apply Rle_trans with (1 ^ (8 - n)); [apply pow_incr; lra|rewrite pow1; lra].
  - apply Rle_trans with ((2 ^ 20) ^ n); [apply pow_incr; lra|]. apply Rle_trans with ((2 ^ 20) ^ 8); [apply Rle_pow; [lra|exact L]|].
    right. rewrite <- pow_mult. change (20 * 8)%nat with 160%nat. change (bpow radix2 160) with (IZR (2 ^ 160)). rewrite pow_IZR. reflexivity.
Qed.
Lemma power_near n : (0 <= n <= 8)%Z -> is_finite (pow ratio n) = true /\ near 3 (B2R (pow ratio n)) (rho ^ Z.to_nat n).
Proof.
  intros N. destruct (A ratio n F B N) as (FP & E). split; [exact FP|]. fold rho in E. pose proof (rho_powers (Z.to_nat n) ltac:(lia)) as (P & _). pose proof (bpow_gt_0 radix2 (-160)) as P0.
  set (t := rho ^ Z.to_nat n) in *. set (y := B2R (pow ratio n)) in *. clearbody t y. apply Rabs_le_inv in E. pose proof u_pos as U.
  replace (/ 2 ^ 52) with (2 * u) in E by (unfold u; lra). unfold near. replace ((1 - u) ^ 3) with ((1 - u) * ((1 - u) * (1 - u))) by ring. split.
  - apply Rle_trans with (t * (1 - 2 * u)); [|lra]. apply Rmult_le_compat_l; [lra|]. nra.
  - apply Rle_trans with (t * (1 + 2 * u)); [lra|]. apply Rmult_le_compat_l; [lra|]. apply (Rmult_le_reg_r ((1 - u) * ((1 - u) * (1 - u)))); [apply Rmult_lt_0_compat; [lra|apply Rmult_lt_0_compat; lra]|].
    rewrite Rinv_l by (apply Rgt_not_eq; apply Rmult_lt_0_compat; [lra|apply Rmult_lt_0_compat; lra]). assert (0 <= u * u) by nra. assert (0 <= u * u * u) by nra. nra.
Qed.
Lemma levels_24 : Forall (fun k => 0 <= key_level k <= 8)%Z (seq 0 24).
Proof. apply Forall_forall. intros k K. apply key_levels. apply in_seq in K. lia. Qed.
Lemma powers_near : Forall2 (fun (x : b64) t => is_finite x = true /\ 0 <= t /\ near 3 (B2R x) t) (map (fun k => pow ratio (8 - key_level k)) (seq 0 24)) (map v (seq 0 24)).
Proof.
  pose proof levels_24 as L. induction L as [|k l K L IH]; cbn [map]; constructor; [|exact IH]. destruct (power_near (8 - key_level k) ltac:(lia)) as (FP & N).
  split; [exact FP|]. split; [|exact N]. pose proof (rho_powers (Z.to_nat (8 - key_level k)) ltac:(lia)) as (P & _). pose proof (bpow_gt_0 radix2 (-160)). unfold v. lra.
Qed.
Lemma v_bounds k : (k < 24)%nat -> bpow radix2 (-160) <= v k <= bpow radix2 160.
Proof. intros K. apply rho_powers. pose proof (key_levels k K). lia. Qed.
Lemma rsum_bounds lo hi l : Forall (fun x => lo <= x <= hi) l -> INR (length l) * lo <= rsum l <= INR (length l) * hi.
Proof. induction 1 as [|x l H G IH]; [cbn; lra|]. cbn [length rsum fold_right]. rewrite S_INR. change (fold_right Rplus 0 l) with (rsum l). lra. Qed.
Lemma sum_bounds : bpow radix2 (-160) <= upto_sum 24 v <= bpow radix2 170.
Proof.
  rewrite <- rsum_upto. assert (G : Forall (fun x => bpow radix2 (-160) <= x <= bpow radix2 160) (map v (seq 0 24))).
  { apply Forall_forall. intros x X. apply in_map_iff in X. destruct X as (k & <- & K). apply v_bounds. apply in_seq in K. lia. }
  apply rsum_bounds in G. rewrite map_length, seq_length in G. replace (INR 24) with 24 in G by (cbn; lra). pose proof (bpow_gt_0 radix2 (-160)). pose proof (bpow_gt_0 radix2 160). split; [lra|].
  change 170%Z with (10 + 160)%Z. rewrite bpow_plus. change (bpow radix2 10) with 1024. lra.
Qed.
Lemma geometric_table : exists l, generate_geometric pow ratio = Returns l /\ length l = 24%nat /\
  forall k, (k < 24)%nat -> exists y, nth_error l k = Some y /\ y = Bdiv mode_NE (pow ratio (8 - key_level k)) (py_sum (map (fun k => pow ratio (8 - key_level k)) (seq 0 24))) /\
    is_finite y = true /\ near 31 (B2R y) (geometric_share rho k).
Proof.
  set (a := map (fun k => pow ratio (8 - key_level k)) (seq 0 24)).
  assert (E : fill_powers pow ratio (Z.of_nat (length key_groups) - 1) (numbered key_groups) (repeat fzero 24) = Returns a).
  { change (Z.of_nat (length key_groups) - 1)%Z with 8%Z. rewrite (filled_powers ratio (pow ratio) F).
    - reflexivity.
    - intros n N. split; [reflexivity|]. now apply power_near.
    - destruct key_grouped as (G & _). eapply Forall_impl; [|exact G]. intros g H. apply H. }
  pose proof powers_near as N. fold a in N. pose proof sum_bounds as S. rewrite <- rsum_upto in S. pose proof (bpow_gt_0 radix2 (-160)) as P0.
  destruct (py_sum_near 3 a _ N) as (FS & NS); [subst a; rewrite map_length, seq_length; lia|apply Rle_trans with (1 := proj2 S); apply bpow_le; lia|].
  replace (3 + length a)%nat with 27%nat in NS by (subst a; now rewrite map_length, seq_length).
  assert (S2 : 0 < rsum (map v (seq 0 24))) by lra. assert (S3 := Rlt_le _ _ S2). pose proof (near_double 27 _ _ ltac:(lia) S3 NS) as D. assert (PS : 0 < B2R (py_sum a)) by exact (near_pos 27 _ _ S2 NS).
  exists (map (fun x => Bdiv mode_NE x (py_sum a)) a). split; [|split].
  - unfold generate_geometric. rewrite E. cbn [pybind]. assert (Z0 : feq (py_sum a) fzero = false).
    { unfold feq. rewrite Beqb_correct by (exact FS || reflexivity). apply Req_bool_false. change (B2R fzero) with 0. lra. }
    clear - Z0. revert Z0. generalize (py_sum a). intros s Z0. clearbody a. induction a as [|x a IH]; [reflexivity|]. cbn [pymap map]. unfold float_div at 1. rewrite Z0. cbn [pybind]. rewrite IH by assumption. reflexivity.
  - subst a. now rewrite !map_length, seq_length.
  - intros k K. exists (Bdiv mode_NE (pow ratio (8 - key_level k)) (py_sum a)). split; [|split; [reflexivity|]].
    + subst a. rewrite !nth_error_map. rewrite (nth_error_nth' (seq 0 24) 0%nat) by (rewrite seq_length; exact K). now rewrite seq_nth.
    + pose proof (key_levels k K) as L. destruct (power_near (8 - key_level k) ltac:(lia)) as (FP & NP). pose proof (v_bounds k K) as V. unfold v in V.
      assert (VP : 0 <= rho ^ Z.to_nat (8 - key_level k)) by lra. pose proof (near_double 3 _ _ ltac:(lia) VP NP) as DP. pose proof (near_half 3 _ _ ltac:(lia) VP NP) as HP. pose proof (near_half 27 _ _ ltac:(lia) S3 NS) as HS.
      assert (NQ : near 30 (B2R (pow ratio (8 - key_level k)) / B2R (py_sum a)) (geometric_share rho k)).
      { unfold geometric_share. change (upto_sum 24 (fun j => rho ^ Z.to_nat (8 - key_level j))) with (upto_sum 24 v). rewrite <- rsum_upto. apply (near_div 3 27); [lra|lra|exact NP|exact NS]. }
      assert (Q : bpow radix2 (-400) <= geometric_share rho k <= bpow radix2 400).
      { unfold geometric_share. change (upto_sum 24 (fun j => rho ^ Z.to_nat (8 - key_level j))) with (upto_sum 24 v). rewrite <- rsum_upto. set (t := rsum (map v (seq 0 24))) in *. split.
        - apply Rle_trans with (bpow radix2 (-160) * bpow radix2 (- (170))); [rewrite <- bpow_plus; apply bpow_le; lia|]. apply Rmult_le_compat; [lra|apply bpow_ge_0|lra|]. rewrite bpow_opp. apply Rinv_le; lra.
        - apply Rle_trans with (bpow radix2 160 * bpow radix2 160); [|rewrite <- bpow_plus; apply bpow_le; lia]. apply Rmult_le_compat; [lra|left; apply Rinv_0_lt_compat; lra|lra|].
          change (bpow radix2 160) with (bpow radix2 (- (-160))). rewrite bpow_opp. apply Rinv_le; lra. }
      assert (QP : 0 <= geometric_share rho k) by (pose proof (bpow_gt_0 radix2 (-400)); lra). pose proof (near_double 30 _ _ ltac:(lia) QP NQ) as DQ. pose proof (near_half 30 _ _ ltac:(lia) QP NQ) as HQ.
      destruct (fdiv_R (pow ratio (8 - key_level k)) (py_sum a) FP FS) as (FD & ED); [lra| |].
      { rewrite Rabs_pos_eq by lra. apply Rle_trans with (1 := proj2 DQ). apply Rle_trans with (2 * bpow radix2 400); [lra|]. unfold big. change 2 with (bpow radix2 1) at 1. rewrite <- bpow_plus. apply bpow_le. lia. }
      split; [exact FD|]. rewrite ED. change 31%nat with (1 + 30)%nat.
      apply (near_trans 1 30 _ (B2R (pow ratio (8 - key_level k)) / B2R (py_sum a))); [pose proof (bpow_gt_0 radix2 (-400)); lra| |exact NQ].
      apply rnd_normal_near. apply Rle_trans with (2 := HQ). apply Rle_trans with (bpow radix2 (-400) / 2); [|lra].
      change (bpow radix2 (-400)) with (bpow radix2 (1 + -401)). rewrite bpow_plus. change (bpow radix2 1) with 2. apply Rle_trans with (bpow radix2 (-401)); [apply bpow_le; lia|lra].
Qed.
End Geometric.
Section GeometricFacts.
Open Scope R_scope.
Variables (pow : b64 -> Z -> b64) (ratio : b64).
Hypotheses (A : accurate_power pow) (F : is_finite ratio = true) (B : / 2 ^ 20 <= B2R ratio <= 2 ^ 20).
Lemma share_pos k : (k < 24)%nat -> 0 < geometric_share (B2R ratio) k.
Proof.
  intros K. pose proof (v_bounds ratio B k K) as V. pose proof (sum_bounds ratio B) as S. pose proof (bpow_gt_0 radix2 (-160)) as P. unfold geometric_share. apply Rmult_lt_0_compat; [lra|apply Rinv_0_lt_compat; lra].
Qed.
Lemma geometric_accurate : exists l, generate_geometric pow ratio = Returns l /\ length l = 24%nat /\
  forall k y, nth_error l k = Some y -> is_finite y = true /\ Rabs (B2R y - geometric_share (B2R ratio) k) <= / 2 ^ 48 * geometric_share (B2R ratio) k.
Proof.
  destruct (geometric_table pow ratio A F B) as (l & E & L & T). exists l. split; [exact E|]. split; [exact L|]. intros k y N. assert (K : (k < 24)%nat) by (rewrite <- L; apply nth_error_Some; congruence).
  destruct (T k K) as (y' & N' & _ & FY & NY). rewrite N in N'. injection N' as <-. split; [exact FY|]. apply Rle_trans with (1 := near_error 31 _ _ ltac:(lia) (Rlt_le _ _ (share_pos k K)) NY).
  apply Rmult_le_compat_r; [left; now apply share_pos|]. unfold u. replace (INR 32) with 32 by (rewrite INR_IZR_INZ; reflexivity). lra.
Qed.
Lemma geometric_sum l : generate_geometric pow ratio = Returns l -> Rabs (real_total l - 1) <= / 2 ^ 48 /\ sum_warning (py_sum l) = false.
Proof.
  destruct (geometric_table pow ratio A F B) as (l' & E & L & T). intros E'. rewrite E in E'. injection E' as <-.
  assert (N : Forall2 (fun (x : b64) v => is_finite x = true /\ 0 <= v /\ near 31 (B2R x) v) l' (map (geometric_share (B2R ratio)) (seq 0 24))).
  { assert (G : forall n, (n <= 24)%nat -> Forall2 (fun (x : b64) v => is_finite x = true /\ 0 <= v /\ near 31 (B2R x) v) (firstn n l') (map (geometric_share (B2R ratio)) (seq 0 n))).
    { induction n as [|n IH]; intros Hn; [constructor|]. destruct (T n ltac:(lia)) as (y & Y & _ & FY & NY).
      rewrite seq_S, map_app. assert (Q : firstn (S n) l' = firstn n l' ++ [y]).
      { clear - Y. revert n Y. induction l' as [|x l' IH]; intros [|n] Y; cbn in *; try discriminate; [now injection Y as <-|]. f_equal. now apply IH. }
      rewrite Q. apply Forall2_app; [apply IH; lia|]. constructor; [|constructor]. split; [exact FY|]. split; [left; apply share_pos; lia|exact NY]. }
    specialize (G 24%nat (le_n _)). rewrite <- L, firstn_all, L in G. exact G. }
  assert (ONE : rsum (map (geometric_share (B2R ratio)) (seq 0 24)) = 1).
  { unfold geometric_share. pose proof (sum_bounds ratio B) as S. pose proof (bpow_gt_0 radix2 (-160)) as P. cbv zeta in S. set (f := fun j => B2R ratio ^ Z.to_nat (8 - key_level j)) in *. set (t := upto_sum 24 f) in *.
    assert (H : forall ks, rsum (map (fun k => f k / t) ks) = rsum (map f ks) / t).
    { induction ks as [|k ks IH]; cbn [map rsum fold_right]; [field; lra|]. unfold rsum in IH. rewrite IH. field. lra. }
    change (rsum (map (fun k => f k / t) (seq 0 24)) = 1). rewrite H, rsum_upto. fold t. field. lra. }
  pose proof (real_total_near _ _ _ N) as R. rewrite ONE in R. split.
  - apply Rle_trans with (1 := near_error 31 _ 1 ltac:(lia) Rle_0_1 R). unfold u. replace (INR 32) with 32 by (rewrite INR_IZR_INZ; reflexivity). lra.
  - destruct (py_sum_near 31 l' _ N) as (FS & NS); [lia|rewrite ONE; change 1 with (bpow radix2 0); apply bpow_le; lia|]. rewrite ONE in NS. apply (one_no_warning (31 + length l')); [lia|exact FS|exact NS].
Qed.
Lemma share_step j k d : 0 < d -> (j < 24)%nat -> (k < 24)%nat -> (key_level j < key_level k)%Z -> d <= B2R ratio -> 1 <= d -> geometric_share (B2R ratio) k * d <= geometric_share (B2R ratio) j.
Proof.
  intros D J K H R D1. pose proof (key_levels j J) as LJ. pose proof (key_levels k K) as LK. pose proof (sum_bounds ratio B) as SB. pose proof (bpow_gt_0 radix2 (-160)) as P.
  unfold geometric_share. change (upto_sum 24 (fun j0 => B2R ratio ^ Z.to_nat (8 - key_level j0))) with (upto_sum 24 (fun j0 => B2R ratio ^ Z.to_nat (8 - key_level j0))).
  set (t := upto_sum 24 (fun j0 => B2R ratio ^ Z.to_nat (8 - key_level j0))) in *. replace (B2R ratio ^ Z.to_nat (8 - key_level k) / t * d) with (B2R ratio ^ Z.to_nat (8 - key_level k) * d * / t) by (unfold Rdiv; ring).
  apply Rmult_le_compat_r; [left; apply Rinv_0_lt_compat; lra|]. apply Rle_trans with (B2R ratio ^ S (Z.to_nat (8 - key_level k))).
  - cbn [Rpow_def.pow]. rewrite Rmult_comm. apply Rmult_le_compat_r; [apply pow_le; lra|lra].
  - apply Rle_pow; [lra|lia].
Qed.
Lemma share_back j k d : 0 < d <= 1 -> (j < 24)%nat -> (k < 24)%nat -> (key_level j < key_level k)%Z -> B2R ratio <= d -> geometric_share (B2R ratio) j <= geometric_share (B2R ratio) k * d.
Proof.
  intros D J K H R. pose proof (key_levels j J) as LJ. pose proof (key_levels k K) as LK. pose proof (sum_bounds ratio B) as SB. pose proof (bpow_gt_0 radix2 (-160)) as P.
  assert (R0 : 0 < B2R ratio) by (apply Rlt_le_trans with (2 := proj1 B); apply Rinv_0_lt_compat; lra).
  unfold geometric_share. set (t := upto_sum 24 (fun j0 => B2R ratio ^ Z.to_nat (8 - key_level j0))) in *.
  assert (S' : bpow radix2 (-160) <= t <= bpow radix2 170) by exact SB.
  replace (B2R ratio ^ Z.to_nat (8 - key_level k) / t * d) with (B2R ratio ^ Z.to_nat (8 - key_level k) * d * / t) by (unfold Rdiv; ring).
  apply Rmult_le_compat_r; [left; apply Rinv_0_lt_compat; lra|]. apply Rle_trans with (B2R ratio ^ S (Z.to_nat (8 - key_level k))).
  - replace (Z.to_nat (8 - key_level j)) with (S (Z.to_nat (8 - key_level k)) + (Z.to_nat (8 - key_level j) - S (Z.to_nat (8 - key_level k))))%nat by lia. rewrite pow_add.
    rewrite <- (Rmult_1_r (B2R ratio ^ S (Z.to_nat (8 - key_level k)))) at 2. apply Rmult_le_compat_l; [apply pow_le; lra|].
    apply Rle_trans with (1 ^ (Z.to_nat (8 - key_level j) - S (Z.to_nat (8 - key_level k)))); [apply pow_incr; lra|rewrite pow1; lra].
  - cbn [Rpow_def.pow]. rewrite (Rmult_comm _ d). apply Rmult_le_compat_r; [apply pow_le; lra|lra].
Qed.
Lemma geometric_same l j k y z : generate_geometric pow ratio = Returns l -> nth_error l j = Some y -> nth_error l k = Some z -> key_level j = key_level k -> y = z.
Proof.
  destruct (geometric_table pow ratio A F B) as (l' & E & L & T). intros E' Y Z H. rewrite E in E'. injection E' as <-.
  assert (J : (j < 24)%nat) by (rewrite <- L; apply nth_error_Some; congruence). assert (K : (k < 24)%nat) by (rewrite <- L; apply nth_error_Some; congruence).
  destruct (T j J) as (y' & Y' & -> & _). destruct (T k K) as (z' & Z' & -> & _). rewrite Y in Y'. rewrite Z in Z'. injection Y' as ->. injection Z' as ->. now rewrite H.
Qed.
Lemma geometric_order l j k y z : generate_geometric pow ratio = Returns l -> nth_error l j = Some y -> nth_error l k = Some z -> (key_level j < key_level k)%Z ->
  (1 + / 2 ^ 40 <= B2R ratio -> B2R z < B2R y) /\ (B2R ratio <= 1 - / 2 ^ 40 -> B2R y < B2R z).
Proof.
  destruct geometric_accurate as (l' & E & L & T). intros E' Y Z H. rewrite E in E'. injection E' as <-.
  assert (J : (j < 24)%nat) by (rewrite <- L; apply nth_error_Some; congruence). assert (K : (k < 24)%nat) by (rewrite <- L; apply nth_error_Some; congruence).
  destruct (T j y Y) as (_ & EY). destruct (T k z Z) as (_ & EZ). apply Rabs_le_inv in EY. apply Rabs_le_inv in EZ. pose proof (share_pos j J) as PJ. pose proof (share_pos k K) as PK. split; intros R.
  - pose proof (share_step j k (1 + / 2 ^ 40) ltac:(lra) J K H R ltac:(lra)) as S. nra.
  - pose proof (share_back j k (1 - / 2 ^ 40) ltac:(lra) J K H R) as S. nra.
Qed.
End GeometricFacts.

(** ** New members of a population *)
Lemma unit_float_R d : is_finite (unit_float d) = true /\ (0 <= B2R (unit_float d) <= 1)%R.
Proof.
  assert (M : 0 <= d mod 2 ^ 53 < 2 ^ 53) by (apply Z.mod_pos_bound; lia). destruct (rat64_unit (d mod 2 ^ 53) (2 ^ 53) ltac:(lia)) as (F & E). split; [exact F|]. unfold unit_float. rewrite E.
  assert (P : (0 < IZR (2 ^ 53))%R) by (apply IZR_lt; lia). split.
  - apply rnd_ge0. apply Rmult_le_pos; [apply IZR_le; lia|left; now apply Rinv_0_lt_compat].
  - apply rnd_ub; [change 1%R with (IZR 1); apply int_format; lia|]. apply (Rmult_le_reg_r (IZR (2 ^ 53))); [exact P|]. unfold Rdiv. rewrite Rmult_assoc, Rinv_l by lra. rewrite Rmult_1_r, Rmult_1_l. apply IZR_le. lia.
Qed.
Lemma drawn_ratio d : is_finite (fadd (fmul (unit_float d) (py_float 48)) (py_float 2)) = true /\ (2 <= B2R (fadd (fmul (unit_float d) (py_float 48)) (py_float 2)) <= 50)%R.
Proof.
  destruct (unit_float_R d) as (FU & U). destruct (py_float_R 48 ltac:(lia)) as (F48 & E48). destruct (py_float_R 2 ltac:(lia)) as (F2 & E2).
  assert (BB : (100 <= big)%R) by (apply Rle_trans with (bpow radix2 7); [change (bpow radix2 7) with 128%R; lra|apply bpow_le; lia]).
  destruct (fmul_R (unit_float d) (py_float 48) FU F48) as (FM & EM); [rewrite E48, Rabs_pos_eq by nra; nra|]. rewrite E48 in EM.
  assert (UM : (0 <= B2R (fmul (unit_float d) (py_float 48)) <= 48)%R).
  { rewrite EM. split; [apply rnd_ge0; nra|]. apply rnd_ub; [apply int_format; lia|nra]. }
  destruct (fadd_R (fmul (unit_float d) (py_float 48)) (py_float 2) FM F2) as (FA & EA); [rewrite E2, Rabs_pos_eq by lra; lra|]. rewrite E2 in EA. split; [exact FA|]. rewrite EA. split.
  - apply rnd_lb; [apply int_format; lia|lra].
  - apply rnd_ub; [apply int_format; lia|lra].
Qed.
(** The worlds differ in one entry and a counter. *)
Definition new_entry (name : string) (l : table) (d d' : dict) : Prop := assoc String.eqb name d' = Some l /\ forall n, n <> name -> assoc String.eqb n d' = assoc String.eqb n d.
Lemma entered name (l : table) d : new_entry name l d (assign String.eqb name l d).
Proof. split; [rewrite assoc_assign, String.eqb_refl; reflexivity|]. intros n N. rewrite assoc_assign. now replace (n =? name)%string with false by (symmetry; now apply String.eqb_neq). Qed.
Lemma skipn_twice {A} n m : forall l : list A, skipn m (skipn n l) = skipn (n + m) l.
Proof. induction n as [|n IH]; intros l; [reflexivity|]. destruct l as [|x l]; [now destruct m|]. cbn [skipn Nat.add]. apply IH. Qed.
Lemma profile_generated maximum w ds : 8 <= maximum <= 2 ^ 52 -> (24 <= length ds)%nat ->
  generate_key_profile maximum w ds = Fails ZeroDivisionError \/
  exists ns ms lmaj lmin w', generate_key_profile maximum w ds = Done ("kp" ++ format_int (g_kp_id w))%string w' (skipn 24 ds) /\
    length ns = 12%nat /\ drawn_below major_level maximum ns /\ 0 < total ns /\ Forall2 (share (total ns)) ns lmaj /\
    length ms = 12%nat /\ drawn_below minor_level maximum ms /\ 0 < total ms /\ Forall2 (share (total ms)) ms lmin /\
    new_entry ("kp" ++ format_int (g_kp_id w))%string (lmaj ++ lmin) (w_kp w) (w_kp w') /\
    w_kt w' = w_kt w /\ w_ratio w' = w_ratio w /\ g_kp_id w' = g_kp_id w + 1 /\ g_kt_id w' = g_kt_id w /\ e_kp_id w' = e_kp_id w /\ e_kt_id w' = e_kt_id w.
Proof.
  intros M L. unfold generate_key_profile, seq_run. destruct (major_outcome maximum w ds ltac:(lia) ltac:(lia)) as (ns & LN & DN & [(T & ->)|(T & lmaj & -> & SN)]); [now left|].
  destruct (minor_outcome maximum w (skipn 12 ds) M ltac:(rewrite skipn_length; lia)) as (ms & LM & DM & [(T' & ->)|(T' & lmin & -> & SM)]); [now left|]. right.
  exists ns, ms, lmaj, lmin. eexists. split; [unfold look, change, ret; rewrite skipn_twice; reflexivity|]. repeat (split; [assumption|]). split; [apply entered|]. cbn. repeat split.
Qed.
Lemma kind_drawn w d0 ds : choice kt_types w (d0 :: ds) = Done (negb (d0 mod 10 =? 9)) w ds.
Proof.
  replace (choice kt_types w (d0 :: ds)) with (Done (nth (Z.to_nat (d0 mod 10)) kt_types true) w ds) by reflexivity. f_equal.
  assert (R : 0 <= d0 mod 10 < 10) by (apply Z.mod_pos_bound; lia). revert R. generalize (d0 mod 10). intros z R.
  assert (C : forallb (fun z => Bool.eqb (nth (Z.to_nat z) kt_types true) (negb (z =? 9))) [0;1;2;3;4;5;6;7;8;9] = true) by reflexivity. rewrite forallb_forall in C. apply Bool.eqb_prop. apply C.
  cbn [In]. lia.
Qed.
Lemma stochastic_generated pow maximum w d0 ds : 256 <= maximum <= 2 ^ 52 -> (24 <= length ds)%nat -> d0 mod 10 = 9 ->
  generate_key_transition pow maximum w (d0 :: ds) = Fails ZeroDivisionError \/
  exists ns l w', generate_key_transition pow maximum w (d0 :: ds) = Done ("kts" ++ format_int (g_kt_id w))%string w' (skipn 24 ds) /\
    length ns = 24%nat /\ drawn_below key_level maximum ns /\ 0 < total ns /\ Forall2 (share (total ns)) ns l /\
    new_entry ("kts" ++ format_int (g_kt_id w))%string l (w_kt w) (w_kt w') /\
    w_kp w' = w_kp w /\ w_ratio w' = w_ratio w /\ g_kp_id w' = g_kp_id w /\ g_kt_id w' = g_kt_id w + 1 /\ e_kp_id w' = e_kp_id w /\ e_kt_id w' = e_kt_id w.
Proof.
  intros M L D. unfold generate_key_transition, seq_run. rewrite kind_drawn, D. cbn [Z.eqb Pos.eqb negb].
  destruct (keys_outcome maximum w ds M L) as (ns & LN & DN & [(T & ->)|(T & l & -> & SN)]); [now left|]. right.
  exists ns, l. eexists. split; [reflexivity|]. repeat (split; [assumption|]). split; [apply entered|]. cbn. repeat split.
Qed.
Lemma geometric_generated pow maximum w d0 d1 ds : accurate_power pow -> d0 mod 10 <> 9 ->
  exists ratio l w', generate_key_transition pow maximum w (d0 :: d1 :: ds) = Done ("ktg" ++ format_int (g_kt_id w))%string w' ds /\
    is_finite ratio = true /\ (2 <= B2R ratio <= 50)%R /\ generate_geometric pow ratio = Returns l /\ length l = 24%nat /\
    (forall k y, nth_error l k = Some y -> is_finite y = true /\ (Rabs (B2R y - geometric_share (B2R ratio) k) <= / 2 ^ 48 * geometric_share (B2R ratio) k)%R) /\
    new_entry ("ktg" ++ format_int (g_kt_id w))%string l (w_kt w) (w_kt w') /\
    assoc String.eqb ("ktg" ++ format_int (g_kt_id w))%string (w_ratio w') = Some ratio /\
    (forall n, n <> ("ktg" ++ format_int (g_kt_id w))%string -> assoc String.eqb n (w_ratio w') = assoc String.eqb n (w_ratio w)) /\
    w_kp w' = w_kp w /\ g_kp_id w' = g_kp_id w /\ g_kt_id w' = g_kt_id w + 1 /\ e_kp_id w' = e_kp_id w /\ e_kt_id w' = e_kt_id w.
Proof.
  intros A D. unfold generate_key_transition, seq_run. rewrite kind_drawn. apply Z.eqb_neq in D. rewrite D. cbn [negb]. unfold random. set (ratio := fadd (fmul (unit_float d1) (py_float 48)) (py_float 2)). destruct (drawn_ratio d1) as (F & B). fold ratio in F, B.
  destruct (geometric_accurate pow ratio A F ltac:(lra)) as (l & G & L & T). exists ratio, l. eexists. cbv zeta. rewrite G. cbn [lift]. split; [reflexivity|].
  split; [exact F|]. split; [exact B|]. split; [reflexivity|]. split; [exact L|]. split; [exact T|]. split; [apply entered|]. cbn.
  split; [rewrite assoc_assign, String.eqb_refl; reflexivity|]. split; [|repeat split]. intros n N. rewrite assoc_assign. now replace (n =? _)%string with false by (symmetry; now apply String.eqb_neq).
Qed.
Lemma remotest_zero maximum w ds l w' r : 256 <= maximum < 512 -> (24 <= length ds)%nat -> generate_stochastic maximum w ds = Done l w' r -> exists y, nth_error l 6 = Some y /\ B2R y = 0%R.
Proof.
  intros M L E. destruct (keys_outcome maximum w ds ltac:(lia) L) as (ns & LN & D & [(_ & X)|(T & l' & X & H)]); rewrite E in X; [discriminate|]. injection X as -> _ _.
  assert (Q : exists n, nth_error ns 6 = Some n). { destruct (nth_error ns 6) as [n|] eqn:N; [eauto|]. apply nth_error_None in N. lia. } destruct Q as (n & N).
  pose proof (D 6%nat n N) as B. change (key_level 6) with 8 in B. assert (maximum / 2 ^ 8 = 1) by (symmetry; apply (Z.div_unique maximum (2 ^ 8) 1 (maximum - 256)); lia).
  assert (Z0 : n = 0) by lia. subst n. clear - N H. revert H. generalize (total ns). intros s H. revert ns l' N H. generalize 6%nat. induction n as [|n IH]; intros ns l' N H; (destruct ns as [|x ns]; [discriminate|]); inversion H as [|? y ? l2 (F & S) H']; subst; cbn [nth_error] in *.
  - injection N as ->. exists y. split; [reflexivity|]. rewrite S. unfold Rdiv. rewrite Rmult_0_l. change (rnd 0 = 0%R). apply rnd_id. apply generic_format_0.
  - now apply (IH ns).
Qed.
Lemma nothing_drawn maximum w : 8 <= maximum <= 2 ^ 52 -> generate_key_profile maximum w (repeat 0 24) = Fails ZeroDivisionError.
Proof.
  intros M. unfold generate_key_profile, seq_run. assert (E : generate_major maximum w (repeat 0 24) = Fails ZeroDivisionError); [|now rewrite E].
  unfold generate_major. change (generate 12 maximum major_groups w (repeat 0 24) = Fails ZeroDivisionError).
  rewrite (generated_run 12 major_level major_groups maximum major_grouped); [|lia|lia| |cbn; lia].
  - rewrite normalise_zero; [reflexivity| |]; vm_compute; congruence.
  - intros i _. apply (levels_fit _ _ 2); [apply major_levels|]. change (2 ^ 2) with 4. lia.
Qed.

(** An accurate power function exists: the correctly rounded one. *)
Definition rounded_power (x : b64) (n : Z) : b64 :=
  match x with
  | B754_finite s m e _ => binary_normalize prec64 emax64 _ _ mode_NE (cond_Zopp s (Zpos m) ^ n) (e * n) false
  | _ => fzero
  end.
Lemma F2R_pow m e n : (F2R (Float radix2 m e) ^ n)%R = F2R (Float radix2 (m ^ Z.of_nat n) (e * Z.of_nat n)).
Proof.
  unfold F2R. cbn [Fnum Fexp]. rewrite Rpow_mult_distr, pow_IZR. f_equal. induction n as [|n IH]; [now rewrite Z.mul_0_r|]. cbn [Rpow_def.pow]. rewrite IH, <- bpow_plus. f_equal. lia.
Qed.
Lemma rounded_power_accurate : accurate_power rounded_power.
Proof.
  intros x n F B N. assert (P : (0 < / 2 ^ 20)%R) by (apply Rinv_0_lt_compat; lra). pose proof (rho_powers x B (Z.to_nat n) ltac:(lia)) as (L & U).
  destruct x as [| | |s m e Hb]; try discriminate; try (cbn in B; exfalso; lra). unfold rounded_power.
  assert (E : (B2R (B754_finite s m e Hb) ^ Z.to_nat n)%R = F2R (Float radix2 (cond_Zopp s (Zpos m) ^ n) (e * n))).
  { cbn [B2R]. rewrite F2R_pow. rewrite Z2Nat.id by lia. reflexivity. }
  rewrite E in *. set (v := F2R (Float radix2 (cond_Zopp s (Zpos m) ^ n) (e * n))) in *.
  pose proof (binary_normalize_correct prec64 emax64 _ _ mode_NE (cond_Zopp s (Zpos m) ^ n) (e * n) false) as C. cbv zeta in C. fold v in C. cbn [round_mode] in C.
  assert (V : (Rabs v <= big)%R) by (pose proof (bpow_gt_0 radix2 (-160)); rewrite Rabs_pos_eq by lra; apply Rle_trans with (1 := U); apply bpow_le; lia).
  rewrite rnd_big in C by exact V. destruct C as (C1 & C2 & _). split; [exact C2|]. rewrite C1.
  assert (Q : near 1 (rnd v) v) by (apply rnd_normal_near; apply Rle_trans with (2 := L); apply bpow_le; lia).
  assert (V0 : (0 <= v)%R) by (pose proof (bpow_gt_0 radix2 (-160)); lra).
  apply Rle_trans with (1 := near_error 1 _ _ ltac:(lia) V0 Q). apply Rmult_le_compat_r; [exact V0|]. unfold u. cbn [INR]. lra.
Qed.
