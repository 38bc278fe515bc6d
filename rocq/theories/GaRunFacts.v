(** Facts about runs of the genetic algorithm. *)
From Coq Require Import Lia Lra Reals Permutation Sorted.
From Flocq Require Import Core.Core IEEE754.BinarySingleNaN.
From Verif Require Import Base BaseFacts Fp FpFacts NumFacts HmmAccuracy FloatKit Text Py KeyProfile Options OptTables Optimizer Ga.
From Verif Require Import OptSpec GaSpec OptFacts GenFacts EvoFacts EvoKtFacts GaFacts EvalFacts.
Open Scope Z_scope.

Definition text_of_profile (w : world) (n : string) : string := as_argument (get_as_string (w_kp w) n).
Definition text_of_transition (w : world) (n : string) : string := as_argument (get_as_string (w_kt w) n).
Section Run.
Variable pow : b64 -> Z -> b64.
Variable detector : string -> string -> string -> option b64.
Variable files : list string.
Hypothesis SQ : fair_squares pow.
Hypothesis SC : fair_scores detector.
Hypothesis FEW : Z.of_nat (length files) <= 2 ^ 53.
Notation error := (fun w kp kt => fst (evaluate pow detector files w kp kt)).
Notation good := (good pow detector files).
Lemma FIN w kp kt : is_finite (err pow detector files w kp kt) = true.
Proof. unfold err, evaluate. cbn [fst]. now apply (total_range pow detector SQ SC files). Qed.
Lemma error_total w kp kt : let e := fst (evaluate pow detector files w kp kt) in
  is_finite e = true /\ (0 <= B2R e <= IZR (Z.of_nat (length files)))%R /\ (B2R e = 0%R <-> forall f, In f files -> perfect detector (text_of_profile w kp) (text_of_transition w kt) f).
Proof. cbv zeta. unfold evaluate. cbn [fst]. destruct (total_range pow detector SQ SC files (as_argument (get_as_string (w_kp w) kp)) (as_argument (get_as_string (w_kt w) kt)) FEW) as (A & B & _ & C). split; [exact A|]. split; [exact B|exact C]. Qed.
Definition well_numbered (w : world) : Prop := orderly w /\ kt_orderly w.
Definition valid (g : ga) (w : world) : Prop :=
  consistent (profiles_in w) (transitions_in w) (error w) (key_profiles g) (key_transitions g) (best_key_profile g) (best_key_transition g) (lowest_error g).
Lemma good_valid g w : good g w <-> well_numbered w /\ valid g w.
Proof.
  split.
  - intros [O KO NK NT K T BP BT L]. rewrite Forall_forall in K, T. split; [now split|]. split; [split; [exact NK|exact K]|split; [exact NT|exact T]|now split|exact L].
  - intros ((O & KO) & [(NK & K) (NT & T) (BP & BT) L]). split; try assumption; apply Forall_forall; assumption.
Qed.
Lemma worse_counts threshold g : after_failure threshold (bad_generations g) (profiles_mode g) (bad_generations (worse threshold g)) (profiles_mode (worse threshold g)).
Proof. unfold after_failure, worse. destruct (threshold <? bad_generations g + 1); now split. Qed.
Lemma better_means g g' : is_finite (lowest_error g') = true -> is_finite (lowest_error g) = true -> better g (lowest_error g') (scores g') = true ->
  (B2R (lowest_error g') < B2R (lowest_error g))%R \/ B2R (lowest_error g') = B2R (lowest_error g) /\ Bleb (py_sum (scores g')) (py_sum (scores g)) = true.
Proof.
  intros X L. unfold better. rewrite flt_R by assumption. destruct (Rlt_bool_spec (B2R (lowest_error g')) (B2R (lowest_error g))) as [C|C]; [intros _; now left|]. cbn [orb]. intros H. apply andb_prop in H. destruct H as (H & S).
  unfold feq in H. rewrite Beqb_correct in H by assumption. destruct (Req_bool_spec (B2R (lowest_error g')) (B2R (lowest_error g))); [right; now split|discriminate].
Qed.
(** What became of the population whose turn it was. *)
Definition outcome (threshold : Z) (stored : world -> string -> option (list b64)) (mark : world -> string -> b64) (names : ga -> list string) (best : ga -> string) (g : ga) (w : world) (g' : ga) (w' : world) : Prop :=
  (((B2R (lowest_error g') < B2R (lowest_error g))%R \/ B2R (lowest_error g') = B2R (lowest_error g) /\ Bleb (py_sum (scores g')) (py_sum (scores g)) = true) /\
   accepted (stored w') (mark w') (names g') (best g') (scores g') /\ bad_generations g' = 0 /\ profiles_mode g' = profiles_mode g) \/
  (names g' = names g /\ best g' = best g /\ lowest_error g' = lowest_error g /\ scores g' = scores g /\ (forall n l, stored w n = Some l -> stored w' n = Some l) /\
   after_failure threshold (bad_generations g) (profiles_mode g) (bad_generations g') (profiles_mode g')).
Lemma profile_generation_step maximum threshold g w ds : well_numbered w -> valid g w ->
  match profile_generation pow detector files maximum threshold g w ds with
  | Starved => True
  | Fails e => e <> KeyError
  | Done g' w' _ => well_numbered w' /\ valid g' w' /\ key_transitions g' = key_transitions g /\ best_key_transition g' = best_key_transition g /\ (forall n, transitions_in w' n = transitions_in w n /\ ratios_in w' n = ratios_in w n) /\
      outcome threshold profiles_in (fun w n => error w n (best_key_transition g)) key_profiles best_key_profile g w g' w'
  end.
Proof.
  intros O V. assert (D : good g w) by (now apply good_valid). pose proof (profile_generation_ok pow detector files FIN maximum threshold g w ds D) as H. unfold no_key in H. destruct (profile_generation pow detector files maximum threshold g w ds) as [g' w' ds'|e|]; [|exact H|exact I].
  destruct H as (D' & _ & ST). assert (FL : is_finite (lowest_error g) = true) by (rewrite (gd_low _ _ _ _ _ D); apply FIN). assert (FL' : is_finite (lowest_error g') = true) by (rewrite (gd_low _ _ _ _ _ D'); apply FIN).
  apply good_valid in D'. destruct D' as (O' & V'). destruct ST as ((T1 & T2 & _) & K1 & K2 & ST). split; [exact O'|]. split; [exact V'|]. split; [exact K1|]. split; [exact K2|]. split; [intros n; unfold transitions_in, ratios_in; now rewrite T1, T2|].
  destruct ST as [(B & S1 & S2 & S3 & S4 & S5 & S6)|(E & S1)].
  - left. split; [now apply better_means|]. split; [|now split]. split; [exact S1|]. split; [exact S2|]. split; [exact S4|exact S3].
  - right. subst g'. destruct (worse_fields threshold g) as (W1 & W2 & W3 & W4 & W5 & W6). split; [exact W1|]. split; [exact W3|]. split; [exact W5|]. split; [exact W6|]. split; [exact S1|apply worse_counts].
Qed.
Lemma transition_generation_step maximum threshold g w ds : well_numbered w -> valid g w ->
  match transition_generation pow detector files maximum threshold g w ds with
  | Starved => True
  | Fails e => e <> KeyError
  | Done g' w' _ => well_numbered w' /\ valid g' w' /\ key_profiles g' = key_profiles g /\ best_key_profile g' = best_key_profile g /\ (forall n, profiles_in w' n = profiles_in w n) /\
      outcome threshold transitions_in (fun w n => error w (best_key_profile g) n) key_transitions best_key_transition g w g' w'
  end.
Proof.
  intros O V. assert (D : good g w) by (now apply good_valid). pose proof (transition_generation_ok pow detector files FIN maximum threshold g w ds D) as H. unfold no_key in H. destruct (transition_generation pow detector files maximum threshold g w ds) as [g' w' ds'|e|]; [|exact H|exact I].
  destruct H as (D' & _ & ST). assert (FL : is_finite (lowest_error g) = true) by (rewrite (gd_low _ _ _ _ _ D); apply FIN). assert (FL' : is_finite (lowest_error g') = true) by (rewrite (gd_low _ _ _ _ _ D'); apply FIN).
  apply good_valid in D'. destruct D' as (O' & V'). destruct ST as ((T1 & _) & K1 & K2 & ST). split; [exact O'|]. split; [exact V'|]. split; [exact K1|]. split; [exact K2|]. split; [intros n; unfold profiles_in; now rewrite T1|].
  destruct ST as [(B & S1 & S2 & S3 & S4 & S5 & S6)|(E & S1 & _)].
  - left. split; [now apply better_means|]. split; [|now split]. split; [exact S1|]. split; [exact S2|]. split; [exact S4|exact S3].
  - right. subst g'. destruct (worse_fields threshold g) as (W1 & W2 & W3 & W4 & W5 & W6). split; [exact W2|]. split; [exact W4|]. split; [exact W5|]. split; [exact W6|]. split; [exact S1|apply worse_counts].
Qed.
Lemma start_best w kps kts : kps <> [] -> kts <> [] -> exists g, ga_start pow detector files w kps kts = Returns g /\
  (exists left, Permutation (key_transitions g ++ left) kts /\ (left = [] \/ B2R (lowest_error g) = 0%R)) /\
  Permutation (key_profiles g) kps /\ hd_error (key_profiles g) = Some (best_key_profile g) /\ hd_error (key_transitions g) = Some (best_key_transition g) /\
  scores g = map (fun n => error w n (best_key_transition g)) (key_profiles g) /\ ascending (scores g) /\ StronglySorted (at_least_as_good (error w) kps) (key_transitions g) /\
  lowest_error g = error w (best_key_profile g) (best_key_transition g) /\ (forall kp kt, In kp kps -> In kt kts -> (B2R (lowest_error g) <= B2R (error w kp kt))%R) /\
  bad_generations g = 0 /\ profiles_mode g = true.
Proof.
  intros NK NT. destruct (starting pow detector files FIN w kps kts NK NT) as (g & E & (left & P & Z) & B1 & B2 & B3 & B4 & B5 & B6 & B7 & B8 & B9). exists g. split; [exact E|]. split; [now exists left|].
  repeat (split; [assumption|]). split; [|exact B9]. intros kp kt K T. apply (Permutation_in _ (Permutation_sym P)) in T. apply in_app_iff in T. destruct T as [T|T]; [now apply B8|]. destruct Z as [->|Z]; [destruct T|]. rewrite Z. apply (error_total w kp kt).
Qed.
Lemma whole_run kps kts kpm ktm threshold just n w ds : kps <> [] -> kts <> [] -> NoDup kps -> NoDup kts -> (forall x, In x kps -> exists l, profiles_in w x = Some l) -> (forall x, In x kts -> exists l, transitions_in w x = Some l) -> well_numbered w ->
  match ga_runner pow detector files kps kts kpm ktm threshold just n w ds with
  | Starved => True
  | Fails e => e <> KeyError
  | Done g w' _ => well_numbered w' /\ valid g w' /\ (forall kp kt, In kp kps -> In kt kts -> (B2R (lowest_error g) <= B2R (error w kp kt))%R) /\
      (B2R (lowest_error g) = 0%R <-> forall f, In f files -> perfect detector (text_of_profile w' (best_key_profile g)) (text_of_transition w' (best_key_transition g)) f)
  end.
Proof.
  intros NE NF NK NT FK FT (O & KO). pose proof (runner_ok pow detector files FIN kps kts kpm ktm threshold just n w ds NE NF O KO NK NT ltac:(now apply Forall_forall) ltac:(now apply Forall_forall)) as H. unfold no_key in H.
  destruct (ga_runner pow detector files kps kts kpm ktm threshold just n w ds) as [g w' ds'|e|]; [|exact H|exact I]. destruct H as (D & L). pose proof (gd_low _ _ _ _ _ D) as LO. apply good_valid in D. destruct D as (O' & V). split; [exact O'|]. split; [exact V|]. split.
  - intros kp kt K T. apply L; try assumption. apply (error_total w kp kt).
  - rewrite LO. apply (error_total w' (best_key_profile g) (best_key_transition g)).
Qed.
Lemma lowest_falls kpm ktm threshold n g w ds : well_numbered w -> valid g w ->
  match ga_loop pow detector files kpm ktm threshold n g w ds with Done g' w' _ => (B2R (lowest_error g') <= B2R (lowest_error g))%R /\ well_numbered w' /\ valid g' w' | Fails e => e <> KeyError | Starved => True end.
Proof.
  intros O V. assert (D : good g w) by (now apply good_valid). pose proof (loop_ok pow detector files FIN kpm ktm threshold n g w ds D) as H. unfold no_key in H. destruct (ga_loop pow detector files kpm ktm threshold n g w ds) as [g' w' ds'|e|]; [|exact H|exact I].
  destruct H as (D' & L). apply good_valid in D'. now split.
Qed.
Lemma only_division kps kts kpm ktm threshold just n ds : accurate_power pow -> 8 <= kpm <= 2 ^ 52 -> 256 <= ktm <= 2 ^ 52 -> kps <> [] -> kts <> [] -> NoDup kps -> NoDup kts ->
  (forall x, In x kps -> exists l, profiles_in initial_world x = Some l) -> (forall x, In x kts -> exists l, transitions_in initial_world x = Some l) ->
  length kps <> 4%nat -> (length kts < 5)%nat -> Z.of_nat (length kps) <= 2 ^ 47 -> Z.of_nat (length kps) * Z.of_nat n <= 2 ^ 49 ->
  match ga_runner pow detector files kps kts kpm ktm threshold just n initial_world ds with
  | Starved => True
  | Fails e => e = ZeroDivisionError
  | Done g w _ => length (key_profiles g) = length kps /\ (length (key_transitions g) <= 4)%nat /\ forall x, In x (key_profiles g) -> exists l, profiles_in w x = Some l /\ profile_like 1 l
  end.
Proof.
  intros A KP KT NE NF NK NT FK FT K4 F5 KM R. destruct (starting pow detector files FIN initial_world kps kts NE NF) as (g & E & B).
  pose proof (start_good pow detector files initial_world kps kts g initial_orderly initial_kt_orderly NK NT ltac:(now apply Forall_forall) ltac:(now apply Forall_forall) B) as D. destruct B as ((left & P & _) & PK & _).
  assert (CP : capable pow detector files (/ 2 ^ 8) (length kps) n g initial_world).
  { split; [exact D| | | |].
    - apply Forall_forall. intros x X. apply initial_sound. apply FK. now apply (Permutation_in _ PK).
    - apply (Permutation_length PK).
    - apply Permutation_length in P. rewrite app_length in P. lia.
    - change (e_kp_id initial_world) with 0. apply IZR_le in R. rewrite mult_IZR, <- !INR_IZR_INZ in R. replace (IZR (2 ^ 49)) with (2 ^ 49)%R in R by (change (IZR (2 ^ 49)) with 562949953421312%R; ring). lra. }
  unfold ga_runner, seq_run, look, lift. rewrite E.
  assert (FIN' : forall g w, capable pow detector files (/ 2 ^ 8) (length kps) 0 g w -> length (key_profiles g) = length kps /\ (length (key_transitions g) <= 4)%nat /\ forall x, In x (key_profiles g) -> exists l, profiles_in w x = Some l /\ profile_like 1 l).
  { intros g0 w0 [D0 S0 L0 F0 R0]. split; [exact L0|]. split; [lia|]. rewrite Forall_forall in S0. intros x X. destruct (S0 x X) as (l & H & Q). exists l. split; [exact H|]. apply profile_like_mono with (2 := Q). unfold slack. cbn [INR] in R0. lra. }
  destruct just.
  - apply FIN'. destruct CP as [D0 S0 L0 F0 R0]. split; try assumption. cbn [INR]. change (e_kp_id initial_world) with 0. lra.
  - pose proof (loop_ends pow detector files FIN kpm ktm threshold (/ 2 ^ 8) (length kps) n A KP KT ltac:(lra) K4 KM g initial_world ds CP) as H. unfold ends in H. destruct (ga_loop pow detector files kpm ktm threshold n g initial_world ds) as [g' w' ds'|e|]; [now apply FIN'|exact H|exact I].
Qed.
End Run.

Lemma sorting (A : Type) (l : list (b64 * A)) : finite_keys l -> Permutation (sort_by l) l /\ StronglySorted up (sort_by l) /\ forall v, filter (fun p => Req_bool (B2R (fst p)) v) (sort_by l) = filter (fun p => Req_bool (B2R (fst p)) v) l.
Proof. intros F. split; [apply sort_perm|]. split; [now apply sort_sorted|]. intros v. now apply sort_stable. Qed.

(** ** A run in which the order of the profiles becomes wrong *)
Definition judge (kp kt file : string) : option b64 :=
  if (kp =? text_of_profile initial_world "sapp")%string then if (kt =? text_of_transition initial_world "ktg_linear")%string then Some (rat64 1 2) else Some (rat64 3 5)
  else if (kp =? text_of_profile initial_world "temperley")%string then if (kt =? text_of_transition initial_world "ktg_linear")%string then Some (rat64 1 4) else Some (rat64 1 1)
  else None.
Notation run_of_two := (ga_runner rounded_power judge ["a.mid"%string] ["temperley"; "sapp"]%string ["ktg_linear"]%string 100 256 0 false 2 initial_world (repeat 1 50)).
Lemma judge_fair : fair_scores judge.
Proof.
  intros kp kt file s. unfold judge. assert (X : forall p q, 0 <= p <= Z.pos q -> fraction (rat64 p q)).
  { intros p q H. destruct (rat64_unit p q H) as (F & E). split; [exact F|]. rewrite E. assert (Q0 : (0 < IZR (Z.pos q))%R) by (apply IZR_lt; lia).
    assert (V : (0 <= IZR p / IZR (Z.pos q) <= 1)%R). { split; [apply Rmult_le_pos; [apply IZR_le; lia|left; now apply Rinv_0_lt_compat]|]. apply (Rmult_le_reg_r (IZR (Z.pos q))); [exact Q0|]. unfold Rdiv. rewrite Rmult_assoc, Rinv_l, Rmult_1_r, Rmult_1_l by lra. apply IZR_le. lia. }
    split; [apply FloatKit.rnd_ge0; lra|apply FloatKit.rnd_ub; [exact (format_int 1 ltac:(lia))|lra]]. }
  destruct (kp =? _)%string; [destruct (kt =? _)%string; intros H; apply Some_inj in H; rewrite <- H; apply X; lia|]. destruct (kp =? _)%string; [|discriminate]. destruct (kt =? _)%string; intros H; apply Some_inj in H; rewrite <- H; apply X; lia.
Qed.
Lemma run_of_two_done : match run_of_two with
  | Done g w ds => ds = [] /\ key_profiles g = ["sapp"; "temperley"]%string /\ key_transitions g = ["ktg0"]%string /\ best_key_profile g = "sapp"%string /\ best_key_transition g = "ktg0"%string /\ profiles_mode g = false /\ bad_generations g = 0 /\
      flt (fst (evaluate rounded_power judge ["a.mid"%string] w "temperley" (best_key_transition g))) (fst (evaluate rounded_power judge ["a.mid"%string] w "sapp" (best_key_transition g))) = true
  | _ => False end.
Proof. vm_compute. repeat split. Qed.
Lemma two_known : (forall x, In x ["temperley"; "sapp"]%string -> exists l, profiles_in initial_world x = Some l) /\ forall x, In x ["ktg_linear"]%string -> exists l, transitions_in initial_world x = Some l.
Proof. split; intros x H; cbn in H; repeat (destruct H as [<-|H]; [eexists; reflexivity|]); destruct H. Qed.
Lemma order_not_kept : ~ (forall pow detector files kps kts kpm ktm threshold just n w ds g w' ds', fair_squares pow -> fair_scores detector -> Z.of_nat (length files) <= 2 ^ 53 -> kps <> [] -> kts <> [] -> NoDup kps -> NoDup kts ->
  (forall x, In x kps -> exists l, profiles_in w x = Some l) -> (forall x, In x kts -> exists l, transitions_in w x = Some l) -> well_numbered w ->
  ga_runner pow detector files kps kts kpm ktm threshold just n w ds = Done g w' ds' -> forall kp, In kp (key_profiles g) -> (B2R (lowest_error g) <= B2R (fst (evaluate pow detector files w' kp (best_key_transition g))))%R).
Proof.
  intros A. pose proof run_of_two_done as R. destruct run_of_two as [g w ds| |] eqn:E; [|contradiction|contradiction]. destruct R as (_ & K & _ & B1 & B2 & _ & _ & L).
  assert (ND2 : NoDup ["temperley"; "sapp"]%string) by (repeat constructor; cbn; intuition discriminate). assert (ND1 : NoDup ["ktg_linear"]%string) by (repeat constructor; cbn; intuition discriminate).
  assert (F1 : Z.of_nat (length ["a.mid"%string]) <= 2 ^ 53) by (cbn; lia). destruct two_known as (K1 & K2).
  pose proof (A rounded_power judge ["a.mid"%string] ["temperley"; "sapp"]%string ["ktg_linear"]%string 100 256 0 false 2%nat initial_world (repeat 1 50) g w ds rounded_squares judge_fair F1 ltac:(discriminate) ltac:(discriminate) ND2 ND1 K1 K2 (conj initial_orderly initial_kt_orderly) E "temperley"%string ltac:(rewrite K; cbn; tauto)) as Q.
  pose proof (whole_run rounded_power judge ["a.mid"%string] rounded_squares judge_fair F1 ["temperley"; "sapp"]%string ["ktg_linear"]%string 100 256 0 false 2%nat initial_world (repeat 1 50) ltac:(discriminate) ltac:(discriminate) ND2 ND1 K1 K2 (conj initial_orderly initial_kt_orderly)) as W.
  rewrite E in W. destruct W as (_ & V & _).
  rewrite (cs_lowest _ _ _ _ _ _ _ _ V), B1 in Q. rewrite flt_R in L by (apply (error_total rounded_power judge ["a.mid"%string] rounded_squares judge_fair F1)).
  match type of L with Rlt_bool ?x ?y = true => destruct (Rlt_bool_spec x y) as [C|C]; [|discriminate] end. lra.
Qed.
(** The names in the configuration. *)
Definition configured_profiles : list string := ["sapp"; "temperley"; "krumhansl_kessler"; "aarden_essen"; "albrecht_shanahan1"; "albrecht_shanahan2"; "bellman_budge"; "simple_natural_minor"; "simple_harmonic_minor"; "simple_melodic_minor"]%string.
Definition configured_transitions : list string := ["ktg_exponential5"; "ktg_exponential10"; "ktg_exponential15"]%string.
Lemma configured : NoDup configured_profiles /\ NoDup configured_transitions /\ (forall x, In x configured_profiles -> exists l, profiles_in initial_world x = Some l) /\ (forall x, In x configured_transitions -> exists l, transitions_in initial_world x = Some l).
Proof.
  split; [repeat (constructor; [cbn; intuition discriminate|]); constructor|]. split; [repeat (constructor; [cbn; intuition discriminate|]); constructor|].
  split; intros x H; cbn in H; repeat (destruct H as [<-|H]; [eexists; reflexivity|]); destruct H.
Qed.
Lemma configured_run pow detector files threshold n ds : accurate_power pow -> fair_squares pow -> fair_scores detector -> Z.of_nat (length files) <= 2 ^ 53 -> Z.of_nat n <= 2 ^ 45 ->
  match ga_runner pow detector files configured_profiles configured_transitions 100 256 threshold false n initial_world ds with
  | Starved => True | Fails e => e = ZeroDivisionError
  | Done g w _ => length (key_profiles g) = 10%nat /\ (length (key_transitions g) <= 4)%nat /\ forall x, In x (key_profiles g) -> exists l, profiles_in w x = Some l /\ profile_like 1 l end.
Proof.
  intros A SQ SC FEW N. destruct configured as (N1 & N2 & K1 & K2). apply (only_division pow detector files SQ SC FEW configured_profiles configured_transitions 100 256 threshold false n ds A); try assumption; try discriminate; try lia; cbn [length configured_profiles configured_transitions]; lia.
Qed.
