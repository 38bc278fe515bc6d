(** Facts about the evolution of transition tables. *)
From Coq Require Import Lia Lra Reals.
From Flocq Require Import Core.Core IEEE754.BinarySingleNaN.
From Verif Require Import Base Fp Text Py KeyProfile Options OptTables Optimizer.
From Verif Require Import TextSpec PrintSpec ChromaSpec MusicSpec DataSpec OptSpec FpFacts NumFacts NumberFacts FormatFacts FloatKit ChromaFacts OptFacts NearFacts GenFacts EvoFacts.
Open Scope Z_scope.

(** ** The new ratio *)
Open Scope R_scope.
Lemma rnd_close r v : / 2 ^ 20 <= r -> 0 <= v -> v - u * v - u * r / 1000 <= rnd v <= v + u * v + u * r / 1000.
Proof.
  intros R V. pose proof (rnd_error v) as E. rewrite (Rabs_pos_eq v V) in E. change (bpow radix2 (-53)) with (/ 9007199254740992) in E.
  assert (T : bpow radix2 (-1075) <= / 2 ^ 100). { apply Rle_trans with (bpow radix2 (-100)); [apply bpow_le; lia|]. change (bpow radix2 (-100)) with (/ 1267650600228229401496703205376). lra. }
  apply Rabs_le_inv in E. assert (U : u = / 9007199254740992) by (unfold u; lra). rewrite U. assert (/ 2 ^ 100 <= / 9007199254740992 * r / 1000) by lra. lra.
Qed.
Lemma tenth_exact : is_finite mutation_ratio = true /\ B2R mutation_ratio = 7205759403792794 / 72057594037927936.
Proof.
  assert (E : B2SF mutation_ratio = SpecFloat.S754_finite false 7205759403792794 (-56)) by (vm_compute; reflexivity).
  split; [apply tenth_value|]. rewrite <- SF2R_B2SF, E. unfold SF2R, F2R. cbn [Fnum Fexp cond_Zopp]. change (bpow radix2 (-56)) with (/ 72057594037927936). lra.
Qed.
Lemma ratio_changed (r x : b64) : is_finite r = true -> is_finite x = true -> / 2 ^ 20 <= B2R r <= 2 ^ 20 -> 0 <= B2R x <= 1 ->
  let d := fmul r mutation_ratio in let a := fsub r d in let b := fadd r d in let r' := fadd a (fmul (fsub b a) x) in is_finite r' = true /\ about_a_tenth (B2R r) (B2R r').
Proof.
  intros FR FX B X. destruct tenth_exact as (FC & C). cbv zeta. assert (BB : 2 ^ 25 <= big) by (apply Rle_trans with (bpow radix2 25); [change (bpow radix2 25) with 33554432; lra|apply bpow_le; lia]).
  set (v := B2R r) in *. assert (V : 0 < v) by lra. pose proof u_pos as UP. assert (U : u = / 9007199254740992) by (unfold u; lra).
  destruct (fmul_R r mutation_ratio FR FC) as (FD & ED); [rewrite C; fold v; rewrite Rabs_pos_eq by lra; lra|]. rewrite C in ED. fold v in ED. set (d := fmul r mutation_ratio) in *.
  assert (V1 : 0 <= v * (7205759403792794 / 72057594037927936)) by lra.
  pose proof (rnd_close v _ (proj1 B) V1) as D. rewrite <- ED in D. rewrite U in D. clear V1.
  destruct (fsub_R r d FR FD) as (FA & EA); [fold v; rewrite Rabs_pos_eq by lra; lra|]. fold v in EA. set (a := fsub r d) in *. assert (V2 : 0 <= v - B2R d) by lra. pose proof (rnd_close v _ (proj1 B) V2) as A. rewrite <- EA, U in A.
  destruct (fadd_R r d FR FD) as (FB & EB); [fold v; rewrite Rabs_pos_eq by lra; lra|]. fold v in EB. set (b := fadd r d) in *. assert (V3 : 0 <= v + B2R d) by lra. pose proof (rnd_close v _ (proj1 B) V3) as Bb. rewrite <- EB, U in Bb.
  destruct (fsub_R b a FB FA) as (FS & ES); [rewrite Rabs_pos_eq by lra; lra|]. set (s := fsub b a) in *. assert (V4 : 0 <= B2R b - B2R a) by lra. pose proof (rnd_close v _ (proj1 B) V4) as S. rewrite <- ES, U in S.
  assert (SX : 0 <= B2R s * B2R x <= B2R s) by (split; [apply Rmult_le_pos; lra|]; rewrite <- (Rmult_1_r (B2R s)) at 2; apply Rmult_le_compat_l; lra). destruct (fmul_R s x FS FX) as (FM & EM); [rewrite Rabs_pos_eq by lra; lra|]. set (m := fmul s x) in *. pose proof (rnd_close v _ (proj1 B) (proj1 SX)) as M. rewrite <- EM, U in M.
  assert (M0 : 0 <= B2R m) by (rewrite EM; now apply rnd_ge0).
  destruct (fadd_R a m FA FM) as (FN & EN); [rewrite Rabs_pos_eq by lra; lra|]. assert (V5 : 0 <= B2R a + B2R m) by lra. pose proof (rnd_close v _ (proj1 B) V5) as N. rewrite <- EN, U in N. split; [exact FN|]. unfold about_a_tenth. apply Rabs_le. lra.
Qed.
Open Scope Z_scope.
Lemma below_one d : fgt kt_mutation_prob (unit_float d) = true.
Proof.
  destruct (unit_float_R d) as (F & _). assert (M : 0 <= d mod 2 ^ 53 < 2 ^ 53) by (apply Z.mod_pos_bound; lia). destruct (rat64_unit (d mod 2 ^ 53) (2 ^ 53) ltac:(lia)) as (_ & E).
  destruct (py_float_R 1 ltac:(lia)) as (F1 & E1). unfold kt_mutation_prob. rewrite fgt_finite by assumption. apply Rlt_bool_true. rewrite E1. unfold unit_float. rewrite E.
  apply Rle_lt_trans with (IZR 9007199254740991 * / 9007199254740992)%R; [|lra]. apply rnd_ub.
  - apply generic_format_FLT. exists (Float radix2 9007199254740991 (-53)); [|cbn; lia|cbn; lia]. unfold F2R. cbn [Fnum Fexp]. change (bpow radix2 (-53)) with (/ 9007199254740992)%R. reflexivity.
  - unfold Rdiv. apply Rmult_le_compat_r; [lra|]. apply IZR_le. lia.
Qed.

(** ** Worlds *)
Definition ratios_in (w : world) : ratios := fun n => assoc String.eqb n (w_ratio w).
Definition kt_known (w : world) (n : string) : Prop := exists l, transitions_in w n = Some l.
Definition kt_numbers {A} (b : string -> option A) (w : world) : Prop := numbers_below b ["ktgm"; "ktsm"]%string (e_kt_id w) /\ numbers_below b ["ktg"; "kts"]%string (g_kt_id w).
Definition kt_orderly (w : world) : Prop := kt_numbers (transitions_in w) w /\ kt_numbers (ratios_in w) w.
Record kt_grows (w w' : world) : Prop := {
  kg_has : kept_in (transitions_in w) (transitions_in w'); kg_ratio : kept_in (ratios_in w) (ratios_in w');
  kg_kp : w_kp w' = w_kp w; kg_gkp : g_kp_id w' = g_kp_id w; kg_ekp : e_kp_id w' = e_kp_id w;
  kg_e : e_kt_id w <= e_kt_id w'; kg_g : g_kt_id w <= g_kt_id w' }.
Lemma kt_grows_refl w : kt_grows w w. Proof. split; auto; try lia; intros n l H; exact H. Qed.
Lemma kt_grows_trans a b c : kt_grows a b -> kt_grows b c -> kt_grows a c.
Proof. intros A B. destruct A, B. split; try congruence; try lia; intros n l H; auto. Qed.
Lemma kt_grows_known w w' n : kt_grows w w' -> kt_known w n -> kt_known w' n.
Proof. intros G (l & H). exists l. now apply G. Qed.
(** One more entry. *)
Definition one_more {A} (b b' : string -> option A) (name : string) : Prop := forall n x, b' n = Some x -> n = name \/ b n = Some x.
Lemma assigned {V} (d : list (string * V)) name v : assoc String.eqb name d = None ->
  kept_in (fun n => assoc String.eqb n d) (fun n => assoc String.eqb n (assign String.eqb name v d)) /\ assoc String.eqb name (assign String.eqb name v d) = Some v /\
  one_more (fun n => assoc String.eqb n d) (fun n => assoc String.eqb n (assign String.eqb name v d)) name.
Proof.
  intros N. split; [|split].
  - intros n x H. rewrite assoc_assign. destruct (String.eqb_spec n name) as [->|_]; [congruence|exact H].
  - now rewrite assoc_assign, String.eqb_refl.
  - intros n x H. rewrite assoc_assign in H. destruct (String.eqb_spec n name); [now left|now right].
Qed.
Lemma serial_longer q c r i g : 0 <= g -> ~ In c digit_chars -> ~ serial (q ++ String c r) i (q ++ format_int g)%string.
Proof.
  intros G N (ds & _ & _ & _ & E). assert (A : forall a b c, ((a ++ b) ++ c = a ++ b ++ c)%string) by (clear; induction a; intros; cbn; congruence). rewrite A in E. apply string_app_inj in E. cbn in E.
  destruct (format_int_spec g G) as (a & EA & DA & _ & NE & _). destruct a as [|d a]; [congruence|]. inversion DA; subst. rewrite EA in E. cbn [show_digits] in E. injection E as E _. apply N. rewrite <- E. now apply show_digit_ok.
Qed.
Ltac other := intros (ds & _ & _ & _ & E); discriminate E.
Lemma mutation_number (q : string) p i e : 0 <= e -> q = "ktgm"%string \/ q = "ktsm"%string -> In p ["ktgm"; "ktsm"]%string -> serial p i (q ++ format_int e)%string -> i = e.
Proof.
  intros P [-> | ->] [<-|[<-|[]]]; try (intros S; exact (serial_det _ _ _ _ S (serial_format _ e P))); intros (ds & _ & _ & _ & E); discriminate E.
Qed.
Lemma mutation_no_number (q : string) p i s : q = "ktgm"%string \/ q = "ktsm"%string -> In p ["ktg"; "kts"]%string -> ~ serial p i (q ++ s)%string.
Proof.
  intros [-> | ->] [<-|[<-|[]]]; try other; [apply (serial_not "ktg" "m" "")|apply (serial_not "kts" "m" "")]; cbn; intuition discriminate.
Qed.
Lemma fresh_number (q : string) p i e : 0 <= e -> q = "ktg"%string \/ q = "kts"%string -> In p ["ktg"; "kts"]%string -> serial p i (q ++ format_int e)%string -> i = e.
Proof.
  intros P [-> | ->] [<-|[<-|[]]]; try (intros S; exact (serial_det _ _ _ _ S (serial_format _ e P))); intros (ds & _ & _ & _ & E); discriminate E.
Qed.
Lemma fresh_no_number (q : string) p i e : 0 <= e -> q = "ktg"%string \/ q = "kts"%string -> In p ["ktgm"; "ktsm"]%string -> ~ serial p i (q ++ format_int e)%string.
Proof.
  intros P [-> | ->] [<-|[<-|[]]]; try other; [apply (serial_longer "ktg" "m" "")|apply (serial_longer "kts" "m" "")]; try exact P; cbn; intuition discriminate.
Qed.
Lemma after_mutation {A} (b b' : string -> option A) w w' q : kt_numbers b w -> q = "ktgm"%string \/ q = "ktsm"%string -> one_more b b' (q ++ format_int (e_kt_id w))%string ->
  e_kt_id w' = e_kt_id w + 1 -> g_kt_id w' = g_kt_id w -> kt_numbers b' w'.
Proof.
  intros (O1 & O2) Q M E G. split.
  - refine (numbers_more _ _ _ _ _ _ O1 _ M _); [lia|]. intros p i I S. apply (mutation_number q) in S; [lia|apply O1|exact Q|exact I].
  - refine (numbers_more _ _ _ _ _ _ O2 _ M _); [lia|]. intros p i I S. now apply mutation_no_number in S.
Qed.
Lemma after_fresh {A} (b b' : string -> option A) w w' q : kt_numbers b w -> q = "ktg"%string \/ q = "kts"%string -> one_more b b' (q ++ format_int (g_kt_id w))%string ->
  e_kt_id w' = e_kt_id w -> g_kt_id w' = g_kt_id w + 1 -> kt_numbers b' w'.
Proof.
  intros (O1 & O2) Q M E G. split.
  - refine (numbers_more _ _ _ _ _ _ O1 _ M _); [lia|]. intros p i I S. apply fresh_no_number in S; [contradiction|apply O2|exact Q|exact I].
  - refine (numbers_more _ _ _ _ _ _ O2 _ M _); [lia|]. intros p i I S. apply (fresh_number q) in S; [lia|apply O2|exact Q|exact I].
Qed.
Lemma same_numbers {A} (b : string -> option A) w w' : kt_numbers b w -> e_kt_id w <= e_kt_id w' -> g_kt_id w <= g_kt_id w' -> kt_numbers b w'.
Proof. intros ((P1 & O1) & (P2 & O2)) E G. split; (split; [lia|]); intros n l p i B I S; [specialize (O1 n l p i B I S)|specialize (O2 n l p i B I S)]; lia. Qed.
Lemma unused_mutation {A} (b : string -> option A) w q : kt_numbers b w -> q = "ktgm"%string \/ q = "ktsm"%string -> b (q ++ format_int (e_kt_id w))%string = None.
Proof. intros (O & _) [-> | ->]; apply (name_unused _ _ _ _ O); cbn; tauto. Qed.
Lemma unused_fresh {A} (b : string -> option A) w q : kt_numbers b w -> q = "ktg"%string \/ q = "kts"%string -> b (q ++ format_int (g_kt_id w))%string = None.
Proof. intros (_ & O) [-> | ->]; apply (name_unused _ _ _ _ O); cbn; tauto. Qed.

(** ** One table *)
Definition kt_slack (t : R) (w : world) : R := (t + IZR (e_kt_id w) / 2 ^ 51)%R.
Definition fit (t lo hi : R) (w : world) (n : string) : Prop := exists l, transitions_in w n = Some l /\ transition_like (kt_slack t w) l /\
  (String.prefix "ktg" n = true /\ (exists x, ratios_in w n = Some x /\ is_finite x = true /\ (lo <= B2R x <= hi)%R) \/ String.prefix "ktg" n = false /\ String.prefix "kts" n = true).
Lemma transition_like_mono e e' l : (e <= e')%R -> transition_like e l -> transition_like e' l.
Proof. intros E (L & F & A). split; [exact L|]. split; [exact F|]. lra. Qed.
Lemma fit_grows t lo hi lo' hi' w w' n : kt_grows w w' -> (lo' <= lo)%R -> (hi <= hi')%R -> fit t lo hi w n -> fit t lo' hi' w' n.
Proof.
  intros G L H (l & E & T & K). exists l. split; [now apply G|]. split.
  - apply transition_like_mono with (2 := T). unfold kt_slack. pose proof (IZR_le _ _ (kg_e _ _ G)). lra.
  - destruct K as [(P & x & X & F & B)|K]; [left; split; [exact P|]; exists x; split; [now apply G|]; split; [exact F|lra]|now right].
Qed.
Lemma fit_known t lo hi w n : fit t lo hi w n -> kt_known w n.
Proof. intros (l & H & _). now exists l. Qed.
Lemma geometric_like (pow : b64 -> Z -> b64) (x : b64) : accurate_power pow -> is_finite x = true -> (/ 2 ^ 20 <= B2R x <= 2 ^ 20)%R ->
  exists l, generate_geometric pow x = Returns l /\ geometric_of (B2R x) l /\ transition_like (/ 2 ^ 48) l.
Proof.
  intros A F B. destruct (geometric_accurate pow x A F B) as (l & E & L & H). exists l. split; [exact E|]. split; [split; [exact L|exact H]|]. split; [exact L|]. split; [|apply (geometric_sum pow x A F B l E)].
  apply Forall_forall. intros y Y. apply In_nth_error in Y. destruct Y as (k & K). destruct (H k y K) as (FY & D). split; [exact FY|]. assert (LT : (k < 24)%nat) by (rewrite <- L; apply nth_error_Some; congruence).
  pose proof (share_pos x B k LT) as P. apply Rabs_le_inv in D. lra.
Qed.
Lemma prefix_app p s : String.prefix p (p ++ s) = true.
Proof. induction p as [|c p IH]; [destruct s; reflexivity|]. cbn. destruct (Ascii.ascii_dec c c); [exact IH|congruence]. Qed.

Section Evolving.
Variable pow : b64 -> Z -> b64.
Hypothesis ACC : accurate_power pow.
Definition coined_kt (w w' : world) (n : string) : Prop := ~ kt_known w n /\ kt_known w' n.
Definition succ (w w' : world) : string -> string -> Prop := successor (transitions_in w) (ratios_in w) (transitions_in w') (ratios_in w').
Lemma tenth_range (x y : R) : about_a_tenth x y -> (0 < x)%R -> (4 / 5 * x <= y <= 6 / 5 * x)%R.
Proof. intros A P. unfold about_a_tenth in A. apply Rabs_le_inv in A. lra. Qed.
Lemma prefix_ktsm s : String.prefix "ktg" ("ktsm" ++ s) = false /\ String.prefix "kts" ("ktsm" ++ s) = true.
Proof. split; [reflexivity|]. exact (prefix_app "kts" ("m" ++ s)). Qed.
Lemma prefix_ktgm s : String.prefix "ktg" ("ktgm" ++ s) = true.
Proof. exact (prefix_app "ktg" ("m" ++ s)). Qed.
Lemma kt_mutated t lo hi w ds n : kt_orderly w -> fit t lo hi w n -> (kt_slack t w <= 1)%R -> (/ 2 ^ 47 <= t)%R -> (/ 2 ^ 19 <= lo)%R -> (hi <= 2 ^ 19)%R ->
  mutate_transition pow n w ds = Starved \/
  exists r w' ds', mutate_transition pow n w ds = Done r w' ds' /\ kt_grows w w' /\ kt_orderly w' /\ fit t (4 / 5 * lo) (6 / 5 * hi) w' r /\ succ w w' n r /\ coined_kt w w' r /\ e_kt_id w' = e_kt_id w + 1.
Proof.
  intros O (l & H & T & K) SL TT LO HI. destruct O as (OT & OR). assert (E0 : 0 <= e_kt_id w) by apply OT. assert (SP : (0 <= IZR (e_kt_id w))%R) by (now apply IZR_le). unfold mutate_transition, starts_with.
  destruct K as [(P & x & X & FX & BX)|(P & P2)]; rewrite P.
  - unfold seq_run, look, change, uniform, seq_run, random, ret. destruct ds as [|d ds]; [now left|]. rewrite below_one. cbn [e_kt_id w_ratio next_e_kt]. cbv zeta. unfold ratios_in in X. rewrite X. cbn [lift].
    destruct ds as [|d2 ds]; [now left|]. destruct (unit_float_R d2) as (FU & BU).
    assert (RB : (/ 2 ^ 20 <= B2R x <= 2 ^ 20)%R) by lra.
    destruct (ratio_changed x (unit_float d2) FX FU RB BU) as (F' & A'). set (x' := fadd _ _) in F', A' |- *. clearbody x'.
    pose proof (tenth_range _ _ A' ltac:(lra)) as R'. destruct (geometric_like pow x' ACC F' ltac:(lra)) as (l' & G & GO & TL). rewrite G. cbn [lift]. right. eexists _, _, _. split; [reflexivity|].
    set (name := ("ktgm" ++ format_int (e_kt_id w))%string). match goal with |- kt_grows _ ?y /\ _ => set (w' := y) end.
    assert (N1 : transitions_in w name = None) by (apply (unused_mutation (transitions_in w) w "ktgm" OT); tauto). assert (N2 : ratios_in w name = None) by (apply (unused_mutation (ratios_in w) w "ktgm" OR); tauto).
    destruct (assigned (w_kt w) name l' N1) as (KT & ET & MT). destruct (assigned (w_ratio w) name x' N2) as (KR & ER & MR). fold (transitions_in w) in KT, MT. fold (ratios_in w) in KR, MR.
    change (fun n => assoc String.eqb n (assign String.eqb name l' (w_kt w))) with (transitions_in w') in KT, MT. change (fun n => assoc String.eqb n (assign String.eqb name x' (w_ratio w))) with (ratios_in w') in KR, MR.
    change (transitions_in w' name = Some l') in ET. change (ratios_in w' name = Some x') in ER.
    split; [split; try reflexivity; try assumption; cbn; lia|]. split; [split; [apply (after_mutation (transitions_in w) _ w w' "ktgm" OT)|apply (after_mutation (ratios_in w) _ w w' "ktgm" OR)]; try tauto; reflexivity|].
    split; [|split; [|split; [|reflexivity]]].
    + exists l'. split; [exact ET|]. split; [apply transition_like_mono with (2 := TL); unfold kt_slack; change (e_kt_id w') with (e_kt_id w + 1); rewrite plus_IZR; lra|]. left. split; [apply prefix_ktgm|]. exists x'. split; [exact ER|]. split; [exact F'|lra].
    + left. split; [exact P|]. split; [apply prefix_ktgm|]. exists x, x', l'. repeat (split; [assumption|]). exact GO.
    + split; [intros (z & Z); congruence|now exists l'].
  - rewrite P2. unfold seq_run, random, look, change. destruct ds as [|d ds]; [now left|]. rewrite below_one. cbn [e_kt_id w_kt next_e_kt]. cbv zeta.
    match goal with |- context [two_indices 0 23 ?w1 ds] => destruct (two_spec 0 23 w1 ltac:(lia) (length ds) ds ltac:(lia)) as [->|(i & j & ds' & -> & N & I & J)] end; [now left|].
    assert (FE : fetch (w_kt w) n = Returns l) by (unfold fetch; unfold transitions_in in H; now rewrite H). rewrite FE. cbn [lift fst snd].
    destruct (mutated_transition (kt_slack t w) l i j SL T N ltac:(lia) ltac:(lia)) as (l' & M & MV & TL). rewrite M. cbn [lift]. unfold ret. right. eexists _, _, _. split; [reflexivity|].
    set (name := ("ktsm" ++ format_int (e_kt_id w))%string). match goal with |- kt_grows _ ?y /\ _ => set (w' := y) end.
    assert (N1 : transitions_in w name = None) by (apply (unused_mutation (transitions_in w) w "ktsm" OT); tauto).
    destruct (assigned (w_kt w) name l' N1) as (KT & ET & MT). fold (transitions_in w) in KT, MT.
    change (fun n => assoc String.eqb n (assign String.eqb name l' (w_kt w))) with (transitions_in w') in KT, MT. change (transitions_in w' name = Some l') in ET.
    split; [split; try reflexivity; try assumption; try (cbn; lia); intros ? ? Z; exact Z|]. split; [split; [apply (after_mutation (transitions_in w) _ w w' "ktsm" OT); try tauto; reflexivity|apply (same_numbers (ratios_in w) w w' OR); cbn; lia]|].
    split; [|split; [|split; [|reflexivity]]].
    + exists l'. split; [exact ET|]. split; [apply transition_like_mono with (2 := TL); unfold kt_slack; change (e_kt_id w') with (e_kt_id w + 1); rewrite plus_IZR; lra|]. right. apply prefix_ktsm.
    + right. split; [exact P|]. split; [exact P2|]. split; [apply prefix_ktsm|]. exists l, l'. now repeat split.
    + split; [intros (z & Z); congruence|now exists l'].
Qed.
Lemma succ_later t lo hi w w1 w2 w3 n r : kt_grows w w1 -> kt_grows w2 w3 -> fit t lo hi w n -> succ w1 w2 n r -> succ w w3 n r.
Proof.
  intros G1 G3 (l & H & _ & K) [(P & Q & x & x' & l' & X & X' & L' & A & GO)|(P & P2 & Q & l1 & l' & L1 & L' & M)].
  - left. split; [exact P|]. split; [exact Q|]. destruct K as [(_ & y & Y & _)|(C & _)]; [|congruence]. pose proof (kg_ratio _ _ G1 _ _ Y) as Y1. rewrite X in Y1. injection Y1 as ->. exists y, x', l'. split; [exact Y|]. split; [now apply G3|]. split; [now apply G3|]. now split.
  - right. split; [exact P|]. split; [exact P2|]. split; [exact Q|]. pose proof (kg_has _ _ G1 _ _ H) as H1. rewrite L1 in H1. injection H1 as ->. exists l, l'. split; [exact H|]. split; [now apply G3|exact M].
Qed.
Lemma kt_mutated_all t lo hi names : (/ 2 ^ 47 <= t)%R -> (/ 2 ^ 19 <= lo)%R -> (lo <= hi)%R -> (hi <= 2 ^ 19)%R -> forall w ds, kt_orderly w -> Forall (fit t lo hi w) names -> (kt_slack t w + INR (length names) / 2 ^ 51 <= 1)%R ->
  each (mutate_transition pow) names w ds = Starved \/
  exists rs w' ds', each (mutate_transition pow) names w ds = Done rs w' ds' /\ kt_grows w w' /\ kt_orderly w' /\ Forall (fit t (4 / 5 * lo) (6 / 5 * hi) w') rs /\ Forall2 (succ w w') names rs /\ NoDup rs /\
    Forall (coined_kt w w') rs /\ e_kt_id w' = e_kt_id w + Z.of_nat (length names).
Proof.
  intros TT LO LH HI. induction names as [|n names IH]; intros w ds O S T.
  { right. exists [], w, ds. split; [reflexivity|]. split; [apply kt_grows_refl|]. split; [exact O|]. repeat (split; [constructor|]). cbn. lia. }
  inversion S as [|? ? S1 S2]; subst. cbn [each]. unfold seq_run. cbn [length] in T. rewrite S_INR in T. pose proof (pos_INR (length names)) as LP.
  destruct (kt_mutated t lo hi w ds n O S1) as [->|(r & w1 & ds1 & -> & G1 & O1 & Q1 & V1 & (C1 & C1') & I1)]; try assumption; [lra|now left|].
  destruct (IH w1 ds1 O1) as [->|(rs & w2 & ds2 & -> & G2 & O2 & Q2 & V2 & D2 & C2 & I2)].
  { eapply Forall_impl; [|exact S2]. intros x. apply fit_grows; [exact G1|lra|lra]. }
  { unfold kt_slack in *. rewrite I1, plus_IZR. lra. } { now left. }
  right. exists (r :: rs), w2, ds2. split; [reflexivity|]. split; [now apply (kt_grows_trans w w1 w2)|]. split; [exact O2|].
  split; [constructor; [apply (fit_grows t (4 / 5 * lo) (6 / 5 * hi) _ _ w1); try assumption; lra|exact Q2]|]. split.
  { constructor; [apply (succ_later t lo hi w w w1 w2); try assumption; apply kt_grows_refl|].
    clear - V2 S2 G1. induction V2 as [|x y xs ys V V2 IH]; [constructor|]. inversion S2; subst. constructor; [|now apply IH]. apply (succ_later t lo hi w w1 w2 w2); try assumption. apply kt_grows_refl. }
  rewrite Forall_forall in C2. split; [constructor; [|exact D2]; intros R; destruct (C2 r R); tauto|]. split; [|cbn [length]; lia].
  constructor; [split; [exact C1|now apply (kt_grows_known w1 w2)]|]. apply Forall_forall. intros x X. destruct (C2 x X) as (X1 & X2). split; [|exact X2]. intros Z. apply X1. now apply (kt_grows_known w w1).
Qed.
(** ** New tables *)
Definition new_kt (maximum : Z) (w : world) : string -> Prop := newly_drawn_transition maximum (transitions_in w) (ratios_in w).
Lemma stochastic_like maximum l : 0 <= maximum <= 2 ^ 52 -> drawn_stochastic maximum l -> transition_like (/ 2 ^ 52) l.
Proof.
  intros M (ns & L & D & T & F). assert (LV : forall i, 0 <= key_level i). { intros i. unfold key_level. generalize key_classes. induction l0 as [|c cs IH]; cbn [class_from]; [lia|]. destruct (existsb (denotes i) c); lia. }
  pose proof (total_below key_level maximum ns LV ltac:(lia) D) as B. rewrite L in B.
  assert (P : Forall (fun x => 0 <= x) ns) by (apply Forall_forall; intros x I; apply In_nth_error in I; destruct I as (i & I); apply (D i x I)).
  assert (T2 : 0 < total ns <= 2 ^ 100) by lia. split; [now rewrite <- (Forall2_length_eq _ _ _ F)|]. split; [|exact (proj1 (shares_sum ns l P T2 ltac:(lia) F))].
  pose proof (shares_near ns l P T2 F) as N. clear - N. revert N. generalize (map (fun n => (IZR n / IZR (total ns))%R) ns) as vs. intros vs N. induction N as [|x v l vs (FX & V & NX) N IH]; [constructor|]. constructor; [|exact IH].
  split; [exact FX|]. exact (near_nonneg 1 _ _ V NX).
Qed.
Lemma new_entry_parts w w' name (l : table) : new_entry name l (w_kt w) (w_kt w') -> transitions_in w name = None -> kept_in (transitions_in w) (transitions_in w') /\ transitions_in w' name = Some l /\ one_more (transitions_in w) (transitions_in w') name.
Proof.
  intros (A & B) N. split; [|split; [exact A|]].
  - intros n x H. unfold transitions_in in *. rewrite B; [exact H|]. intros ->. congruence.
  - intros n x H. destruct (String.eqb_spec n name); [now left|right]. unfold transitions_in in *. now rewrite <- B.
Qed.
Lemma kts_not_ktg n : String.prefix "kts" n = true -> String.prefix "ktg" n = false.
Proof.
  intros P. destruct n as [|a [|b [|c n]]]; cbn [String.prefix] in P; repeat (match type of P with context [Ascii.ascii_dec ?x ?y] => destruct (Ascii.ascii_dec x y) end; try discriminate); try discriminate; subst; reflexivity.
Qed.
Lemma kt_generated t maximum w ds : (/ 2 ^ 47 <= t)%R -> 256 <= maximum <= 2 ^ 52 -> kt_orderly w -> generate_key_transition pow maximum w ds = Starved \/ generate_key_transition pow maximum w ds = Fails ZeroDivisionError \/
  exists n w' ds', generate_key_transition pow maximum w ds = Done n w' ds' /\ kt_grows w w' /\ kt_orderly w' /\ coined_kt w w' n /\ new_kt maximum w' n /\ fit t 2 50 w' n /\ e_kt_id w' = e_kt_id w.
Proof.
  intros TT M (OT & OR). assert (E0 : 0 <= e_kt_id w) by apply OT. assert (SP : (0 <= IZR (e_kt_id w))%R) by (now apply IZR_le). destruct ds as [|d0 ds]; [now left|]. destruct (Z.eq_dec (d0 mod 10) 9) as [D|D].
  - destruct (Nat.lt_ge_cases (length ds) 24) as [L|L].
    { left. unfold generate_key_transition, seq_run. rewrite kind_drawn, D. cbn [Z.eqb Pos.eqb negb]. now rewrite keys_starved. }
    destruct (stochastic_generated pow maximum w d0 ds M L D) as [E|(ns & l & w' & E & LN & DN & TN & FN & NE & K1 & K2 & K3 & K4 & K5 & K6)]; [now right; left|]. right. right.
    assert (U : transitions_in w ("kts" ++ format_int (g_kt_id w))%string = None) by (apply (unused_fresh _ w "kts" OT); tauto).
    destruct (new_entry_parts w w' _ l NE U) as (KT & ET & MT). assert (RR : ratios_in w' = ratios_in w) by (unfold ratios_in; now rewrite K2).
    eexists _, w', _. split; [exact E|]. split; [split; try assumption; try lia; rewrite RR; intros n x H; exact H|].
    split; [split; [apply (after_fresh (transitions_in w) _ w w' "kts" OT); try assumption; tauto|rewrite RR; apply (same_numbers _ w w' OR); lia]|].
    split; [split; [intros (z & Z); congruence|now exists l]|]. assert (DS : drawn_stochastic maximum l) by (exists ns; now split). split; [|split; [|exact K6]].
    + exists l. split; [exact ET|]. right. split; [apply (prefix_app "kts")|exact DS].
    + exists l. split; [exact ET|]. split; [apply transition_like_mono with (2 := stochastic_like maximum l ltac:(lia) DS); unfold kt_slack; rewrite K6; lra|]. right. split; [apply kts_not_ktg|]; apply (prefix_app "kts").
  - destruct ds as [|d1 ds]. { left. unfold generate_key_transition, seq_run. rewrite kind_drawn. apply Z.eqb_neq in D. rewrite D. reflexivity. }
    destruct (geometric_generated pow maximum w d0 d1 ds ACC D) as (x & l & w' & E & FX & BX & G & LL & GA & NE & RX & RO & K1 & K2 & K3 & K4 & K5). right. right.
    set (name := ("ktg" ++ format_int (g_kt_id w))%string) in *.
    assert (U : transitions_in w name = None) by (apply (unused_fresh _ w "ktg" OT); tauto). assert (U2 : ratios_in w name = None) by (apply (unused_fresh _ w "ktg" OR); tauto).
    destruct (new_entry_parts w w' _ l NE U) as (KT & ET & MT).
    assert (KR : kept_in (ratios_in w) (ratios_in w')) by (intros n y H; unfold ratios_in in *; rewrite RO; [exact H|]; intros ->; congruence).
    assert (MR : one_more (ratios_in w) (ratios_in w') name) by (intros n y H; destruct (String.eqb_spec n name); [now left|right]; unfold ratios_in in *; now rewrite <- RO).
    exists name, w', ds. split; [exact E|]. split; [split; try assumption; lia|].
    split; [split; [apply (after_fresh (transitions_in w) _ w w' "ktg" OT)|apply (after_fresh (ratios_in w) _ w w' "ktg" OR)]; try assumption; tauto|].
    split; [split; [intros (z & Z); congruence|now exists l]|]. split; [|split; [|exact K5]].
    + exists l. split; [exact ET|]. left. split; [apply (prefix_app "ktg")|]. exists x. split; [exact RX|]. split; [exact FX|]. split; [exact BX|]. now split.
    + destruct (geometric_like pow x ACC FX ltac:(lra)) as (l2 & G2 & _ & TL). rewrite G in G2. injection G2 as <-. exists l. split; [exact ET|]. split; [apply transition_like_mono with (2 := TL); unfold kt_slack; rewrite K5; lra|]. left. split; [apply (prefix_app "ktg")|]. exists x. now split.
Qed.
Lemma kt_generated_all t maximum k : (/ 2 ^ 47 <= t)%R -> 256 <= maximum <= 2 ^ 52 -> forall w ds, kt_orderly w -> repeat_run k (generate_key_transition pow maximum) w ds = Starved \/ repeat_run k (generate_key_transition pow maximum) w ds = Fails ZeroDivisionError \/
  exists ns w' ds', repeat_run k (generate_key_transition pow maximum) w ds = Done ns w' ds' /\ length ns = k /\ kt_grows w w' /\ kt_orderly w' /\ NoDup ns /\ Forall (coined_kt w w') ns /\ Forall (new_kt maximum w') ns /\ Forall (fit t 2 50 w') ns /\ e_kt_id w' = e_kt_id w.
Proof.
  intros TT M. induction k as [|k IH]; intros w ds O.
  { right. right. exists [], w, ds. split; [reflexivity|]. split; [reflexivity|]. split; [apply kt_grows_refl|]. split; [exact O|]. repeat (split; [constructor|]). reflexivity. }
  cbn [repeat_run]. unfold seq_run. destruct (kt_generated t maximum w ds TT M O) as [->|[->|(n & w1 & ds1 & -> & G1 & O1 & (U1 & K1) & R1 & Q1 & I1)]]; [tauto|tauto|].
  destruct (IH w1 ds1 O1) as [->|[->|(ns & w2 & ds2 & -> & L2 & G2 & O2 & N2 & C2 & R2 & Q2 & I2)]]; [tauto|tauto|]. right. right.
  exists (n :: ns), w2, ds2. split; [reflexivity|]. split; [cbn; lia|]. split; [now apply (kt_grows_trans w w1 w2)|]. split; [exact O2|]. rewrite Forall_forall in C2.
  split; [constructor; [|exact N2]; intros X; destruct (C2 n X); tauto|]. split; [|split; [|split; [constructor; [apply (fit_grows t 2 50 _ _ w1); try assumption; lra|exact Q2]|lia]]].
  - constructor; [split; [exact U1|now apply (kt_grows_known w1 w2)]|]. apply Forall_forall. intros x X. destruct (C2 x X) as (X1 & X2). split; [|exact X2]. intros Z. apply X1. now apply (kt_grows_known w w1).
  - constructor; [|exact R2]. destruct R1 as (l & H & [(P & x & X & Q)|(P & Q)]); exists l; (split; [now apply G2|]); [left; split; [exact P|]; exists x; split; [now apply G2|exact Q]|right; now split].
Qed.

Lemma evolved_kt maximum t lo hi kts w ds : 256 <= maximum <= 2 ^ 52 -> (/ 2 ^ 47 <= t)%R -> kt_orderly w -> NoDup kts -> Forall (fit t lo hi w) kts -> Z.of_nat (length kts) <= 2 ^ 47 ->
  (/ 2 ^ 19 <= lo)%R -> (lo <= 2)%R -> (50 <= hi)%R -> (hi <= 2 ^ 19)%R -> (kt_slack t w + INR (length kts) / 2 ^ 51 <= 1)%R ->
  match evolve_key_transitions pow maximum kts w ds with
  | Starved => True
  | Fails x => x = ZeroDivisionError
  | Done new w' _ => next_transitions maximum (transitions_in w) (ratios_in w) (transitions_in w') (ratios_in w') kts new /\ NoDup new /\ Forall (fun n => ~ kt_known w n) new /\ Forall (fit t (4 / 5 * lo) (6 / 5 * hi) w') new /\
      kt_orderly w' /\ kt_grows w w' /\ e_kt_id w' <= e_kt_id w + Z.of_nat (length kts)
  end.
Proof.
  intros M T O N S L L1 L2 H1 H2 SL. unfold evolve_key_transitions. rewrite share_fifth by exact L. set (n := length kts) in *. set (f := (n / 5)%nat).
  assert (F5 : (5 * f <= n)%nat) by (apply Nat.mul_div_le; lia).
  destruct (nodup_parts kts f N) as (NK & NS & DJ). set (kept := firstn f kts) in *. assert (LK : length kept = f) by (apply firstn_length_le; lia).
  assert (SK : forall x, In x kts -> fit t lo hi w x) by (now apply Forall_forall).
  assert (KI : forall x, In x kept -> In x kts) by (intros x X; rewrite <- (firstn_skipn f kts); apply in_app_iff; now left).
  assert (OI : forall x, In x (skipn f kts) -> In x kts) by (intros x X; rewrite <- (firstn_skipn f kts); apply in_app_iff; now right).
  assert (PK : pick_old (skipn f kts) kept f [] w ds = Starved \/ exists old ds1, pick_old (skipn f kts) kept f [] w ds = Done old w ds1 /\ length old = f /\ NoDup old /\ (forall x, In x old -> In x (skipn f kts) /\ ~ In x kept)).
  { destruct (Nat.eq_dec f 0) as [Z|Z].
    - right. exists [], ds. split; [destruct ds; cbn [pick_old length]; rewrite Z; reflexivity|]. rewrite Z. split; [reflexivity|]. split; [constructor|]. intros x [].
    - apply picked; [|constructor|intros x []|cbn; lia]. intros E. apply (f_equal (@length string)) in E. rewrite skipn_length in E. cbn [length] in E. fold n in E. lia. }
  unfold seq_run. destruct PK as [->|(old & ds1 & -> & LO & NO & IO)]; [exact I|]. set (parents := kept ++ old) in *.
  assert (SP : Forall (fit t lo hi w) parents). { apply Forall_forall. intros x X. apply in_app_iff in X. destruct X as [X|X]; apply SK; [now apply KI|apply OI; now apply IO]. }
  assert (LP : length parents = (2 * f)%nat) by (unfold parents; rewrite app_length; lia).
  destruct (kt_mutated_all t lo hi parents T L1 ltac:(lra) H2 w ds1 O SP) as [->|(rs & w1 & ds2 & -> & G1 & O1 & Q1 & V1 & D1 & C1 & I1)].
  { rewrite LP. pose proof (le_INR (2 * f) n ltac:(lia)). lra. } { exact I. }
  assert (LR : length rs = (2 * f)%nat) by (rewrite <- (Forall2_length_eq _ _ _ V1); exact LP).
  destruct (kt_generated_all t maximum (n - length rs) T M w1 ds2 O1) as [->|[->|(fresh & w2 & ds3 & -> & LF & G2 & O2 & D2 & C2 & R2 & Q2 & I2)]]; [exact I|reflexivity|]. unfold ret.
  assert (G : kt_grows w w2) by (now apply (kt_grows_trans w w1 w2)).
  rewrite Forall_forall in C1, C2.
  split; [|split; [|split; [|split; [|split; [exact O2|split; [exact G|lia]]]]]].
  - unfold parents in V1. apply Forall2_app_inv_l in V1. destruct V1 as (A & B & VA & VB & ->). exists old, A, B, fresh. split; [now rewrite app_assoc|].
    split; [rewrite app_length; fold n; lia|]. 
    assert (LATER : forall n r, succ w w1 n r -> succ w w2 n r).
    { intros m r [(P & Q & x & x' & l' & X & X' & L' & AA & GO)|(P & P2 & Q & l1 & l' & LL & L' & MV)]; [left|right].
      - split; [exact P|]. split; [exact Q|]. exists x, x', l'. split; [exact X|]. split; [now apply G2|]. split; [now apply G2|]. now split.
      - split; [exact P|]. split; [exact P2|]. split; [exact Q|]. exists l1, l'. split; [exact LL|]. split; [now apply G2|exact MV]. }
    split; [exact (Forall2_weaken _ _ _ _ LATER VA)|]. split; [exact LO|]. split; [exact NO|]. split; [intros x X; apply IO; exact X|]. split; [exact (Forall2_weaken _ _ _ _ LATER VB)|]. exact R2.
  - apply nodup_two; [exact D1|exact D2|]. intros x X Y. destruct (C1 x X), (C2 x Y). tauto.
  - apply Forall_app. split; apply Forall_forall; intros x X; [now apply C1|]. intros Z. destruct (C2 x X) as (Y & _). apply Y. now apply (kt_grows_known w w1).
  - apply Forall_app. split; [|eapply Forall_impl; [|exact Q2]; intros x; apply fit_grows; [apply kt_grows_refl|lra|lra]]. eapply Forall_impl; [|exact Q1]. intros x. apply fit_grows; [exact G2|lra|lra].
Qed.
End Evolving.

(** ** The tables the program starts with *)
Lemma assoc_name {A} (d : list (string * A)) n x : assoc String.eqb n d = Some x -> In n (map fst d).
Proof. induction d as [|[k v] d IH]; cbn; [discriminate|]. destruct (String.eqb_spec n k); auto. Qed.
Lemma built_in_names n l : transitions_in initial_world n = Some l -> String.prefix "ktg_" n = true /\ ratios_in initial_world n = None.
Proof.
  intros H. apply assoc_name in H. cbn [w_kt initial_world] in H.
  assert (C : forallb (fun n => String.prefix "ktg_" n && match assoc String.eqb n initial_ratios with None => true | Some _ => false end) (map fst initial_transitions) = true) by (vm_compute; reflexivity).
  rewrite forallb_forall in C. specialize (C n H). apply andb_prop in C. split; [apply C|]. unfold ratios_in. cbn [w_ratio initial_world]. now destruct (assoc String.eqb n initial_ratios).
Qed.
Lemma initial_kt_orderly : kt_orderly initial_world.
Proof.
  assert (Q : forall n l p i, transitions_in initial_world n = Some l -> In p ["ktgm"; "ktsm"; "ktg"; "kts"]%string -> ~ serial p i n).
  { intros n l p i H M (ds & NE & F & _ & ->). apply built_in_names in H. destruct H as (P & _). destruct ds as [|d ds]; [congruence|]. inversion F as [|? ? D _]; subst. apply show_digit_ok in D.
    cbn in M. repeat (destruct M as [<-|M]; [cbn [String.prefix append show_digits] in P; try discriminate P|]); [|destruct M].
    repeat (match type of P with context [Ascii.ascii_dec ?x ?y] => destruct (Ascii.ascii_dec x y) as [EQ|]; [|discriminate]; (rewrite <- EQ in D || clear EQ) end). cbn in D. intuition discriminate. }
  assert (Q2 : forall n l p i, ratios_in initial_world n = Some l -> In p ["ktgm"; "ktsm"; "ktg"; "kts"]%string -> ~ serial p i n).
  { intros n l p i H M (ds & _ & _ & _ & E). apply assoc_name in H. cbn in H, M. repeat (destruct M as [<-|M]; [repeat (destruct H as [<-|H]; [discriminate|]); destruct H|]). destruct M. }
  assert (IN1 : forall p, In p ["ktgm"; "ktsm"]%string -> In p ["ktgm"; "ktsm"; "ktg"; "kts"]%string) by (cbn; tauto). assert (IN2 : forall p, In p ["ktg"; "kts"]%string -> In p ["ktgm"; "ktsm"; "ktg"; "kts"]%string) by (cbn; tauto).
  split; (split; (split; [cbn; lia|])); intros n l p i H M Z; exfalso; [apply (Q n l p i H)|apply (Q n l p i H)|apply (Q2 n l p i H)|apply (Q2 n l p i H)]; auto.
Qed.
Section More.
Variable pow : b64 -> Z -> b64.
Lemma no_ratio_fails w n ds : String.prefix "ktg" n = true -> ratios_in w n = None -> mutate_transition pow n w ds = Starved \/ mutate_transition pow n w ds = Fails TypeError.
Proof.
  intros P R. unfold mutate_transition, starts_with. rewrite P. unfold seq_run, look, change, random. destruct ds as [|d ds]; [now left|]. rewrite below_one. cbn [e_kt_id w_ratio next_e_kt]. cbv zeta. unfold ratios_in in R. rewrite R. right. reflexivity.
Qed.
Lemma no_ratio_raises maximum n kts w ds : String.prefix "ktg" n = true -> ratios_in w n = None -> (4 <= length kts)%nat -> Z.of_nat (length kts) < 2 ^ 47 ->
  evolve_key_transitions pow maximum (n :: kts) w ds = Starved \/ evolve_key_transitions pow maximum (n :: kts) w ds = Fails TypeError.
Proof.
  intros P R L4 L. unfold evolve_key_transitions. rewrite share_fifth by (cbn [length]; lia). set (f := (length (n :: kts) / 5)%nat).
  assert (F5 : (5 * f <= length (n :: kts))%nat) by (apply Nat.mul_div_le; lia). assert (F1 : (1 <= f)%nat) by (apply Nat.div_le_lower_bound; cbn [length]; lia).
  clearbody f. destruct f as [|f]; [lia|]. cbn [firstn skipn]. cbn [length] in F5.
  unfold seq_run. destruct (picked (skipn f kts) (n :: firstn f kts) (S f)) with (ds := ds) (old := @nil string) (w := w) as [->|(old & ds1 & -> & _)];
    [intros E; apply (f_equal (@length string)) in E; rewrite skipn_length in E; cbn [length] in E; lia|constructor|intros x []|cbn; lia|now left|].
  cbn [app each]. unfold seq_run. destruct (no_ratio_fails w n ds1 P R) as [E|E]; rewrite E; auto.
Qed.
Lemma few_kept maximum kts w ds : accurate_power pow -> 256 <= maximum <= 2 ^ 52 -> kt_orderly w -> (length kts < 5)%nat ->
  match evolve_key_transitions pow maximum kts w ds with
  | Starved => True
  | Fails x => x = ZeroDivisionError
  | Done new w' _ => length new = length kts /\ Forall (newly_drawn_transition maximum (transitions_in w') (ratios_in w')) new /\ Forall (fun n => ~ kt_known w n) new /\ kt_orderly w' /\ kt_grows w w'
  end.
Proof.
  intros A M O L. unfold evolve_key_transitions. rewrite share_fifth by lia. replace (length kts / 5)%nat with 0%nat by (symmetry; apply Nat.div_small; lia). cbn [firstn skipn app].
  assert (P : pick_old kts [] 0 [] w ds = Done [] w ds) by (destruct ds; reflexivity).
  unfold seq_run. rewrite P. cbn [app each]. unfold ret. cbn [length]. rewrite Nat.sub_0_r.
  destruct (kt_generated_all pow A 1 maximum (length kts) ltac:(lra) M w ds O) as [->|[->|(ns & w' & ds' & -> & LN & G & O' & N & C & R & Q & E)]]; [exact I|reflexivity|]. cbn [app].
  split; [exact LN|]. split; [exact R|]. split; [|now split]. eapply Forall_impl; [|exact C]. intros x X. apply X.
Qed.
End More.
Lemma mutated_transition_one pow : accurate_power pow -> forall t lo hi w ds n, kt_orderly w -> fit t lo hi w n -> (kt_slack t w <= 1)%R -> (/ 2 ^ 47 <= t)%R -> (/ 2 ^ 19 <= lo)%R -> (hi <= 2 ^ 19)%R ->
  mutate_transition pow n w ds = Starved \/
  exists r w' ds', mutate_transition pow n w ds = Done r w' ds' /\ kt_grows w w' /\ kt_orderly w' /\ fit t (4 / 5 * lo) (6 / 5 * hi) w' r /\ succ w w' n r /\ coined_kt w w' r /\ e_kt_id w' = e_kt_id w + 1.
Proof. exact (kt_mutated pow). Qed.
Definition all_built_in : list string := map fst initial_transitions.
Lemma built_in_not_evolve : ~ (forall pow maximum kts w ds, accurate_power pow -> 256 <= maximum <= 2 ^ 52 -> w = initial_world -> NoDup kts -> Forall (fun n => exists l, transitions_in w n = Some l) kts ->
  match evolve_key_transitions pow maximum kts w ds with Fails x => x = ZeroDivisionError | _ => True end).
Proof.
  intros A. assert (R : evolve_key_transitions rounded_power 256 all_built_in initial_world [0; 1; 0; 0; 0; 0] = Fails TypeError) by (vm_compute; reflexivity).
  specialize (A rounded_power 256 all_built_in initial_world [0; 1; 0; 0; 0; 0] rounded_power_accurate ltac:(lia) eq_refl). rewrite R in A. assert (TypeError = ZeroDivisionError); [|discriminate]. apply A.
  - unfold all_built_in. cbn [map fst initial_transitions]. repeat (constructor; [cbn; intuition discriminate|]). constructor.
  - assert (C : forallb (fun n => match transitions_in initial_world n with Some _ => true | None => false end) all_built_in = true) by (vm_compute; reflexivity). rewrite forallb_forall in C.
    apply Forall_forall. intros x X. specialize (C x X). destruct (transitions_in initial_world x) as [y|]; [now exists y|discriminate].
Qed.
