(** Facts about the CSV reader and the ordered map of frames. *)
From Coq Require Import Lia Lra Ascii Reals Sorted Permutation.
From Flocq Require Import Core.Core IEEE754.BinarySingleNaN.
From Verif Require Import Base BaseFacts Fp Key PitchClass Text Options Output Chromagram MusicSpec TextSpec TextFacts NumberFacts ReadFacts ChromaSpec.
From Coq Require Import ZifyBool ZifyNat.
Open Scope Z_scope.

(** ** Fields *)
Lemma join_snoc c l : l <> [] -> (join c l ++ String c "" = join c (l ++ [""]))%string.
Proof.
  induction l as [|s l IH]; [now intros []|]. intros _. destruct l as [|s' l].
  - cbn. reflexivity.
  - cbn [app join] in *. rewrite app_string_assoc. cbn [append]. now rewrite IH by discriminate.
Qed.
Lemma pieces_snoc c l : Forall (lacks c) l -> l <> [] -> pieces c (join c l ++ String c "") = l.
Proof.
  induction l as [|s l IH]; [now intros _ []|]. intros F _. apply Forall_cons_iff in F. destruct F as [Fs F]. destruct l as [|s' l].
  - cbn [join]. rewrite pieces_app by exact Fs. reflexivity.
  - cbn [join]. rewrite app_string_assoc. cbn [append]. rewrite pieces_app by exact Fs. f_equal. apply IH; [exact F|discriminate].
Qed.
Lemma fields_pieces c s l : fields c s l -> pieces c s = l.
Proof. intros [F [[-> N]|[-> N]]]; [now apply pieces_join|now apply pieces_snoc]. Qed.
Lemma pieces_cons c s : pieces c s = [] -> s = ""%string.
Proof. destruct s as [|d s]; [reflexivity|]. cbn. destruct (d =? c)%char; [discriminate|]. now destruct (pieces c s). Qed.
Lemma pieces_fields c s : fields c s (pieces c s).
Proof.
  induction s as [|d s IH]; [split; [constructor|left; now split]|]. cbn [pieces]. destruct (Ascii.eqb_spec d c) as [->|N].
  - destruct IH as [F H]. split; [constructor; [exact (fun x => x)|exact F]|]. destruct (pieces c s) as [|p ps] eqn:E.
    + apply pieces_cons in E. subst s. right. split; [reflexivity|discriminate].
    + destruct H as [[-> H]|[-> H]]; [left|right]; (split; [reflexivity|]); [exact H|discriminate].
  - destruct IH as [F H]. destruct (pieces c s) as [|p ps] eqn:E.
    + apply pieces_cons in E. subst s. split; [constructor; [|constructor]; apply lacks_cons; split; [exact N|exact (fun x => x)]|].
      left. split; [reflexivity|discriminate].
    + apply Forall_cons_iff in F. destruct F as [Fp F]. split; [constructor; [now apply lacks_cons|exact F]|].
      destruct H as [[-> H]|[-> H]]; [left|right]; (split; [destruct ps; reflexivity|]); [|discriminate].
      destruct ps; [discriminate|exact H].
Qed.
Lemma fields_iff c s l : fields c s l <-> pieces c s = l.
Proof. split; [apply fields_pieces|intros <-; apply pieces_fields]. Qed.

(** ** Floats as doubles *)
Lemma f32_format (x : b32) : generic_format radix2 (FLT_exp (3 - emax64 - prec64) prec64) (B2R x).
Proof.
  assert (H : generic_format radix2 (FLT_exp (3 - emax32 - prec32) prec32) (B2R x)) by apply generic_format_B2R.
  refine (generic_inclusion_le radix2 _ _ 200 _ _ _ H).
  - intros e He. unfold FLT_exp. cbv [emax64 prec64 emax32 prec32]. lia.
  - apply Rlt_le. apply Rlt_le_trans with (1 := abs_B2R_lt_emax prec32 emax32 x). apply bpow_le. cbv [emax32]. lia.
Qed.
Lemma f32_small (x : b32) : (Rabs (B2R x) < bpow radix2 emax64)%R.
Proof. apply Rlt_trans with (1 := abs_B2R_lt_emax prec32 emax32 x). apply bpow_lt. cbv [emax32 emax64]. lia. Qed.
Lemma f32_to_64_value (x : b32) : is_finite x = true -> is_finite (f32_to_64 x) = true /\ B2R (f32_to_64 x) = B2R x /\ Bsign (f32_to_64 x) = Bsign x.
Proof.
  destruct x as [s|s| |s m e H]; try discriminate; intros _; [now repeat split|]. cbn [f32_to_64].
  set (x := B754_finite s m e H : b32). assert (V : F2R (Float radix2 (cond_Zopp s (Zpos m)) e) = B2R x) by reflexivity.
  pose proof (binary_normalize_correct prec64 emax64 prec64_gt_0 prec64_lt mode_NE (cond_Zopp s (Zpos m)) e s) as C. cbv zeta in C. rewrite V in C.
  rewrite round_generic in C; [|apply valid_rnd_round_mode|apply f32_format]. rewrite Rlt_bool_true in C by apply f32_small.
  destruct C as (C1 & C2 & C3). split; [exact C2|]. split; [exact C1|].
  etransitivity; [exact C3|]. unfold x. cbn [B2R Bsign]. destruct s; cbn [cond_Zopp].
  - rewrite Rcompare_Lt; [reflexivity|]. now apply F2R_lt_0.
  - rewrite Rcompare_Gt; [reflexivity|]. now apply F2R_gt_0.
Qed.
Lemma sign_mark m t : head_ok t (fun c => ~ is_sign c) -> sign (show_mark m ++ t) = (match m with Minus => true | _ => false end, t).
Proof. intros H. destruct m; [now apply sign_nosign|reflexivity|reflexivity]. Qed.
Lemma skip_mark ws m t : spaces ws -> head_ok t (fun c => is_space c = false) -> skip_space (ws ++ show_mark m ++ t) = (show_mark m ++ t)%string.
Proof.
  intros W H. rewrite skip_spaces by exact W. apply skip_space_head. destruct m; [|reflexivity..]. cbn. exact H.
Qed.
Lemma word_scan w ws m t : spaces ws -> begins_word w t -> (exists v, w = String "i" v \/ w = String "n" v) ->
  sign (skip_space (ws ++ show_mark m ++ t)) = (match m with Minus => true | _ => false end, t).
Proof.
  intros W B (v & Hv). assert (Hd : exists d t', t = String d t' /\ (tolower d = "i"%char \/ tolower d = "n"%char)).
  { destruct Hv as [-> | ->]; apply word_head in B; destruct B as (d & t' & E1 & E2); exists d, t'; auto. }
  destruct Hd as (d & t' & -> & D). destruct (letter_head d D) as [S N]. rewrite skip_mark by assumption. now apply sign_mark.
Qed.
Lemma inf_scan ws m t : spaces ws -> begins_word "inf" t -> exists r, scan (ws ++ show_mark m ++ t) = Some (Infinite (match m with Minus => true | _ => false end), r).
Proof.
  intros W B. unfold scan. rewrite (word_scan "inf" ws m t W B) by (eexists; now left). apply starts_ci_iff in B. destruct B as (r & B).
  destruct (starts_ci "infinity" t) as [r'|]; [now exists r'|]. rewrite B. now exists r.
Qed.
Lemma starts_ci_first p d t r : starts_ci (String d p) t = Some r -> exists c t', t = String c t' /\ tolower c = d.
Proof. destruct t as [|c t]; [discriminate|]. cbn. destruct (Ascii.eqb_spec (tolower c) d) as [E|]; [|discriminate]. intros _. now exists c, t. Qed.
Lemma nan_scan ws m t : spaces ws -> begins_word "nan" t -> exists r, scan (ws ++ show_mark m ++ t) = Some (NotANumber, r).
Proof.
  intros W B. unfold scan. rewrite (word_scan "nan" ws m t W B) by (eexists; now right).
  destruct (word_head "n" "an" t B) as (c & t' & -> & E). apply starts_ci_iff in B. destruct B as (r & B).
  rewrite (starts_ci_head "nfinity" "i") by now rewrite E. rewrite (starts_ci_head "nf" "i") by now rewrite E. rewrite B. now exists r.
Qed.
Lemma token_stof tok y : token_value tok y -> exists x, stof tok = Ret x /\ f32_to_64 x = y.
Proof.
  intros [ws d r y' W K E O U Fy Vy Sy|ws m t W B|ws m t W B].
  - destruct (stof_decimal d ws r W K E O U) as (x & Ex & Fx & Vx & Sx). exists x. split; [exact Ex|].
    destruct (f32_to_64_value x Fx) as (A & B & C). apply B2R_Bsign_inj; [exact A|exact Fy|etransitivity; [exact B|etransitivity; [exact Vx|symmetry; exact Vy]]|etransitivity; [exact C|etransitivity; [exact Sx|symmetry; exact Sy]]].
  - destruct (inf_scan ws m t W B) as (r & E). unfold stof. rewrite E. eexists. split; reflexivity.
  - destruct (nan_scan ws m t W B) as (r & E). unfold stof. rewrite E. eexists. split; reflexivity.
Qed.

(** ** Times *)
(** A real number that orders the doubles that are not NaN. *)
Definition tval (t : b64) : R :=
  match t with B754_infinity s => if s then (- bpow radix2 1025)%R else bpow radix2 1025 | _ => B2R t end.
Lemma tval_finite (t : b64) : is_finite t = true -> tval t = B2R t.
Proof. destruct t; try discriminate; reflexivity. Qed.
Lemma tval_bound (t : b64) : is_finite t = true -> (- bpow radix2 1025 < tval t < bpow radix2 1025)%R.
Proof.
  intros F. rewrite tval_finite by exact F. apply Rabs_lt_inv. apply Rlt_trans with (1 := abs_B2R_lt_emax prec64 emax64 t). apply bpow_lt. cbv [emax64]. lia.
Qed.
Lemma compare_tval (t u : b64) : is_nan t = false -> is_nan u = false -> Bcompare t u = Some (Rcompare (tval t) (tval u)).
Proof.
  intros T U. destruct (is_finite t) eqn:Ft; destruct (is_finite u) eqn:Fu.
  - rewrite (Bcompare_correct prec64 emax64 t u Ft Fu). now rewrite !tval_finite.
  - destruct u as [s|s| |s m e H]; try discriminate. pose proof (tval_bound t Ft) as B. cbn [tval]. destruct s.
    + rewrite Rcompare_Gt by lra. destruct t; try discriminate; reflexivity.
    + rewrite Rcompare_Lt by lra. destruct t; try discriminate; reflexivity.
  - destruct t as [s|s| |s m e H]; try discriminate. pose proof (tval_bound u Fu) as B. cbn [tval]. destruct s.
    + rewrite Rcompare_Lt by lra. destruct u; try discriminate; reflexivity.
    + rewrite Rcompare_Gt by lra. destruct u; try discriminate; reflexivity.
  - destruct t as [s|s| |s m e H]; try discriminate. destruct u as [s'|s'| |s' m' e' H']; try discriminate. cbn [tval].
    pose proof (bpow_gt_0 radix2 1025) as P. destruct s, s'.
    + now rewrite Rcompare_Eq.
    + rewrite Rcompare_Lt by lra. reflexivity.
    + rewrite Rcompare_Gt by lra. reflexivity.
    + now rewrite Rcompare_Eq.
Qed.
Lemma earlier_tval (t u : b64) : is_nan t = false -> is_nan u = false -> earlier t u <-> (tval t < tval u)%R.
Proof.
  intros T U. unfold earlier, Bltb. change (SpecFloat.SFltb (B2SF t) (B2SF u)) with (match Bcompare t u with Some Lt => true | _ => false end).
  rewrite compare_tval by assumption. destruct (Rcompare_spec (tval t) (tval u)); split; intros H'; try discriminate; try lra; try reflexivity.
Qed.
Lemma same_tval (t u : b64) : is_nan t = false -> is_nan u = false -> same_time t u <-> tval t = tval u.
Proof.
  intros T U. unfold same_time, Beqb. change (SpecFloat.SFeqb (B2SF t) (B2SF u)) with (match Bcompare t u with Some Eq => true | _ => false end).
  rewrite compare_tval by assumption. destruct (Rcompare_spec (tval t) (tval u)); split; intros H'; try discriminate; try lra; try reflexivity.
Qed.
Lemma same_nan_l (t u : b64) : same_time t u -> is_nan t = false /\ is_nan u = false.
Proof. unfold same_time. destruct t, u; cbn; auto; discriminate. Qed.
Lemma earlier_nan (t u : b64) : earlier t u -> is_nan t = false /\ is_nan u = false.
Proof. unfold earlier. destruct t, u; cbn; auto; discriminate. Qed.
Lemma same_time_sym t u : same_time t u -> same_time u t.
Proof. intros H. destruct (same_nan_l _ _ H). apply same_tval in H; auto. now apply same_tval. Qed.
Lemma same_time_trans t u v : same_time t u -> same_time u v -> same_time t v.
Proof. intros H H'. destruct (same_nan_l _ _ H), (same_nan_l _ _ H'). apply same_tval in H, H'; auto. apply same_tval; auto. congruence. Qed.
Lemma earlier_trans t u v : earlier t u -> earlier u v -> earlier t v.
Proof. intros H H'. destruct (earlier_nan _ _ H), (earlier_nan _ _ H'). apply earlier_tval in H, H'; auto. apply earlier_tval; auto. lra. Qed.
Lemma earlier_not_same t u : earlier t u -> ~ same_time t u.
Proof. intros H H'. destruct (earlier_nan _ _ H). apply earlier_tval in H; auto. apply same_tval in H'; auto. lra. Qed.
Lemma time_cases t u : is_nan t = false -> is_nan u = false -> earlier t u \/ same_time t u \/ earlier u t.
Proof.
  intros T U. destruct (Rtotal_order (tval t) (tval u)) as [H|[H|H]]; [left|right; left|right; right];
  [now apply earlier_tval|now apply same_tval|now apply earlier_tval].
Qed.
Lemma same_earlier t u v : same_time t u -> earlier u v -> earlier t v.
Proof. intros H H'. destruct (same_nan_l _ _ H), (earlier_nan _ _ H'). apply same_tval in H; auto. apply earlier_tval in H'; auto. apply earlier_tval; auto. lra. Qed.
Lemma earlier_same t u v : earlier t u -> same_time u v -> earlier t v.
Proof. intros H H'. destruct (earlier_nan _ _ H), (same_nan_l _ _ H'). apply same_tval in H'; auto. apply earlier_tval in H; auto. apply earlier_tval; auto. lra. Qed.
Lemma same_time_refl t : is_nan t = false -> same_time t t.
Proof. intros H. now apply same_tval. Qed.

(** ** The ordered map *)
Definition ordered (m : chroma_map) : Prop := StronglySorted (fun a b => earlier (fst a) (fst b)) m.
Definition no_nan (m : chroma_map) : Prop := Forall (fun f => is_nan (fst f) = false) m.
Lemma update_cases t f m : is_nan t = false -> ordered m -> no_nan m ->
  (exists m1 u vec m2, m = m1 ++ (u, vec) :: m2 /\ same_time u t /\ map_update t f m = m1 ++ (u, f vec) :: m2) \/
  (exists m1 m2, m = m1 ++ m2 /\ map_update t f m = m1 ++ (t, f zero_vector) :: m2 /\
     Forall (fun g => earlier (fst g) t) m1 /\ Forall (fun g => earlier t (fst g)) m2).
Proof.
  intros T. induction m as [|[u vec] m IH]; intros O N.
  - right. exists [], []. repeat split; constructor.
  - apply Forall_cons_iff in N. destruct N as [U N]. cbn [fst] in U. apply StronglySorted_inv in O. destruct O as [O L]. cbn [map_update].
    destruct (flt t u) eqn:E1.
    + right. exists [], ((u, vec) :: m). repeat split; [constructor|]. constructor; [exact E1|].
      revert L. apply Forall_impl. intros g G. apply earlier_trans with u; [exact E1|exact G].
    + destruct (flt u t) eqn:E2.
      * destruct (IH O N) as [(m1 & w & vec' & m2 & -> & S & E)|(m1 & m2 & -> & E & A & B)].
        -- left. exists ((u, vec) :: m1), w, vec', m2. repeat split; [exact S|]. now rewrite E.
        -- right. exists ((u, vec) :: m1), m2. repeat split; [now rewrite E| |exact B]. constructor; [exact E2|exact A].
      * left. exists [], u, vec, m. repeat split. destruct (time_cases t u T U) as [X|[X|X]]; [elim (eq_true_false_abs _ X E1)|now apply same_time_sym|elim (eq_true_false_abs _ X E2)].
Qed.

Lemma replace_nth_other {A} (l : list A) n k v d : n <> k -> nth k (replace_nth l n v) d = nth k l d.
Proof. revert n k. induction l as [|x l IH]; intros [|n] [|k] H; cbn; try reflexivity; [now elim H|]. apply IH. congruence. Qed.
Lemma replace_nth_same {A} (l : list A) n v d : (n < length l)%nat -> nth n (replace_nth l n v) d = v.
Proof. revert n. induction l as [|x l IH]; intros [|n] H; cbn in *; try lia; [reflexivity|]. apply IH. lia. Qed.
Lemma replace_nth_length {A} (l : list A) n (v : A) : length (replace_nth l n v) = length l.
Proof. revert n. induction l as [|x l IH]; intros [|n]; cbn; auto. Qed.
(** ** One more value *)
Definition clean (es : list event) : Prop := Forall (fun e => is_nan (e_time e) = false /\ 0 <= e_pitch e < 12) es.
Lemma snoc_cases {A} (l : list A) : l = [] \/ exists l' x, l = l' ++ [x].
Proof. destruct l as [|y l] using rev_ind; [now left|right; now exists l, y]. Qed.
Lemma first_use_snoc es e t : first_use (es ++ [e]) t <-> first_use es t \/ (t = e_time e /\ forall e', In e' es -> ~ same_time (e_time e') t).
Proof.
  split.
  - intros (a & p & v & b & E & N). destruct (snoc_cases b) as [->|(b' & x & ->)].
    + apply app_inj_tail in E. destruct E as [-> ->]. right. split; [reflexivity|exact N].
    + change (a ++ (t, p, v) :: b' ++ [x]) with (a ++ ((t, p, v) :: b') ++ [x]) in E. rewrite app_assoc in E. apply app_inj_tail in E. destruct E as [-> _].
      left. now exists a, p, v, b'.
  - intros [(a & p & v & b & -> & N)|[-> N]].
    + exists a, p, v, (b ++ [e]). split; [now rewrite <- app_assoc|exact N].
    + destruct e as [[t p] v]. exists es, p, v, []. split; [reflexivity|exact N].
Qed.
Lemma first_use_event es t : first_use es t -> exists e, In e es /\ e_time e = t.
Proof. intros (a & p & v & b & -> & _). exists (t, p, v). split; [apply in_elt|reflexivity]. Qed.
Lemma event_first_use es e : clean es -> In e es -> exists t, first_use es t /\ same_time t (e_time e).
Proof.
  revert e. induction es as [|x es IH] using rev_ind; intros e C H; [destruct H|]. apply Forall_app in C. destruct C as [C Cx]. apply Forall_cons_iff in Cx. destruct Cx as [[Cx _] _].
  apply in_app_iff in H. destruct H as [H|[<-|[]]].
  - destruct (IH e C H) as (t & F & S). exists t. split; [apply first_use_snoc; now left|exact S].
  - assert (D : (exists e', In e' es /\ same_time (e_time e') (e_time x)) \/ forall e', In e' es -> ~ same_time (e_time e') (e_time x)).
    { clear - es. induction es as [|y es IH]; [right; intros ? []|]. destruct (Bool.bool_dec (Beqb (e_time y) (e_time x)) true) as [E|E].
      - left. exists y. split; [now left|exact E].
      - destruct IH as [(e' & I & E')|IH]; [left; exists e'; split; [now right|exact E']|]. right. intros e' [<-|I]; [exact E|now apply IH]. }
    destruct D as [(e' & I & S)|D].
    + destruct (IH e' C I) as (t & F & S'). exists t. split; [apply first_use_snoc; now left|]. now apply same_time_trans with (e_time e').
    + exists (e_time x). split; [apply first_use_snoc; right; now split|now apply same_time_refl].
Qed.
Lemma last_given_same es t t0 p v : same_time t0 t -> last_given (es ++ [(t0, p, v)]) t p v.
Proof. intros S. left. exists es, t0, []. split; [reflexivity|]. split; [exact S|]. intros e []. Qed.
Lemma last_given_other es t p v e : ~ (same_time (e_time e) t /\ e_pitch e = p) -> last_given es t p v -> last_given (es ++ [e]) t p v.
Proof.
  intros N [(a & t' & b & -> & S & B)|[-> B]].
  - left. exists a, t', (b ++ [e]). rewrite <- app_assoc. split; [reflexivity|]. split; [exact S|]. intros x X. apply in_app_iff in X. destruct X as [X|[<-|[]]]; [now apply B|exact N].
  - right. split; [reflexivity|]. intros x X. apply in_app_iff in X. destruct X as [X|[<-|[]]]; [now apply B|exact N].
Qed.
Lemma ordered_keys m : ordered m <-> StronglySorted earlier (map fst m).
Proof.
  unfold ordered. induction m as [|[t v] m IH]; cbn [map fst]; [split; constructor|]. split; intros H; apply StronglySorted_inv in H; destruct H as [H L]; constructor.
  - now apply IH.
  - now apply Forall_map.
  - now apply IH.
  - exact (proj1 (Forall_map _ _ _) L).
Qed.
Lemma ordered_app a b : StronglySorted earlier (a ++ b) <-> StronglySorted earlier a /\ StronglySorted earlier b /\ forall x y, In x a -> In y b -> earlier x y.
Proof.
  induction a as [|x a IH]; cbn [app].
  - split; [intros H; repeat split; [constructor|exact H|intros ? ? []]|intros (_ & H & _); exact H].
  - split.
    + intros H. apply StronglySorted_inv in H. destruct H as [H L]. apply IH in H. destruct H as (A & B & C). apply Forall_app in L. destruct L as [L1 L2].
      repeat split; [now constructor|exact B|]. intros y z [<-|Y] Z; [|now apply C]. rewrite Forall_forall in L2. now apply L2.
    + intros (A & B & C). apply StronglySorted_inv in A. destruct A as [A L]. constructor.
      * apply IH. repeat split; [exact A|exact B|]. intros y z Y Z. apply C; [now right|exact Z].
      * apply Forall_app. split; [exact L|]. apply Forall_forall. intros z Z. apply C; [now left|exact Z].
Qed.
Lemma shows_no_nan m es : clean es -> shows m es -> no_nan m.
Proof.
  intros C S. apply Forall_forall. intros [t vec] I. cbn [fst]. assert (F : first_use es t) by (apply (sh_times _ _ S), in_map_iff; exists (t, vec); now split).
  apply first_use_event in F. destruct F as (e & E & <-). unfold clean in C. rewrite Forall_forall in C. now apply C.
Qed.
Lemma zero_vector_nth p d : 0 <= p < 12 -> nth (Z.to_nat p) zero_vector d = fzero.
Proof. intros H. unfold zero_vector. rewrite nth_indep with (d' := fzero) by (rewrite repeat_length; lia). apply nth_repeat. Qed.
Lemma shows_snoc m es t0 p0 v0 : clean es -> shows m es -> is_nan t0 = false -> 0 <= p0 < 12 ->
  shows (map_update t0 (fun vec => replace_nth vec (Z.to_nat p0) v0) m) (es ++ [(t0, p0, v0)]).
Proof.
  intros C S T P. pose proof (shows_no_nan m es C S) as N. pose proof (sh_sorted _ _ S : ordered m) as O.
  destruct (update_cases t0 (fun vec => replace_nth vec (Z.to_nat p0) v0) m T O N) as [(m1 & u & vec & m2 & E & Su & ->)|(m1 & m2 & E & -> & A & B)].
  - assert (K : map fst (m1 ++ (u, replace_nth vec (Z.to_nat p0) v0) :: m2) = map fst m) by (rewrite E, !map_app; reflexivity).
    pose proof (proj1 (ordered_keys m) O) as OK. rewrite E, map_app in OK. cbn [map fst] in OK. apply ordered_app in OK. destruct OK as (_ & OK2 & OK1).
    apply StronglySorted_inv in OK2. destruct OK2 as [_ OK2]. rewrite Forall_forall in OK2.
    assert (D : forall t vec', In (t, vec') m1 \/ In (t, vec') m2 -> ~ same_time t0 t).
    { intros t vec' [I|I] X; apply (in_map fst) in I; cbn [fst] in I.
      - specialize (OK1 t u I (or_introl eq_refl)). apply (earlier_not_same t u OK1). apply same_time_sym. now apply same_time_trans with t0.
      - specialize (OK2 t I). apply (earlier_not_same u t OK2). now apply same_time_trans with t0. }
    constructor.
    + apply ordered_keys. rewrite K. now apply ordered_keys.
    + intros t vec' I. apply in_app_iff in I. destruct I as [I|[I|I]].
      * apply (sh_width _ _ S t). rewrite E. apply in_app_iff. now left.
      * injection I as <- <-. rewrite replace_nth_length. apply (sh_width _ _ S u). rewrite E. apply in_elt.
      * apply (sh_width _ _ S t). rewrite E. apply in_app_iff. right. now right.
    + intros t. rewrite K, first_use_snoc, (sh_times _ _ S t). split; [now left|]. intros [H|[-> H]]; [exact H|]. exfalso.
      assert (F : first_use es u) by (apply (sh_times _ _ S); rewrite E, map_app; apply in_elt). apply first_use_event in F. destruct F as (e & I & Eu).
      apply (H e I). rewrite Eu. exact Su.
    + intros t vec' p I Hp. apply in_app_iff in I.
      assert (Old : In (t, vec') m1 \/ In (t, vec') m2 -> last_given (es ++ [(t0, p0, v0)]) t p (nth (Z.to_nat p) vec' B754_nan)).
      { intros I'. apply last_given_other; [intros [X _]; exact (D t vec' I' X)|]. apply (sh_cells _ _ S t); [|exact Hp]. rewrite E. apply in_app_iff. destruct I'; [now left|right; now right]. }
      destruct I as [I|[I|I]]; [apply Old; now left| |apply Old; now right]. injection I as <- <-.
      assert (W : length vec = 12%nat) by (apply (sh_width _ _ S u); rewrite E; apply in_elt).
      destruct (Z.eq_dec p p0) as [->|Np].
      * rewrite replace_nth_same by lia. apply last_given_same. now apply same_time_sym.
      * rewrite replace_nth_other by lia. apply last_given_other; [intros [_ X]; cbn in X; congruence|]. apply (sh_cells _ _ S u); [|exact Hp]. rewrite E. apply in_elt.
  - assert (K : map fst (m1 ++ (t0, replace_nth zero_vector (Z.to_nat p0) v0) :: m2) = map fst m1 ++ t0 :: map fst m2) by (rewrite map_app; reflexivity).
    assert (Fresh : forall e, In e es -> ~ same_time (e_time e) t0).
    { intros e I X. destruct (event_first_use es e C I) as (t & F & St). apply (sh_times _ _ S) in F. rewrite E, map_app in F. apply in_app_iff in F.
      pose proof (same_time_trans _ _ _ St X) as Y. rewrite Forall_forall in A, B. destruct F as [F|F]; apply in_map_iff in F; destruct F as (g & <- & G).
      - exact (earlier_not_same _ _ (A g G) Y).
      - exact (earlier_not_same _ _ (B g G) (same_time_sym _ _ Y)). }
    assert (Out : forall t vec', In (t, vec') m1 \/ In (t, vec') m2 -> ~ same_time t0 t).
    { intros t vec' [I|I] X; rewrite Forall_forall in A, B.
      - exact (earlier_not_same _ _ (A _ I) (same_time_sym _ _ X)).
      - exact (earlier_not_same _ _ (B _ I) X). }
    constructor.
    + apply ordered_keys. rewrite K. pose proof (proj1 (ordered_keys m) O) as OK. rewrite E, map_app in OK. apply ordered_app in OK. destruct OK as (O1 & O2 & O3).
      apply ordered_app. repeat split; [exact O1| |].
      * constructor; [exact O2|]. now apply Forall_map.
      * intros x y X [<-|Y]; [|now apply O3]. apply in_map_iff in X. destruct X as (g & <- & G). rewrite Forall_forall in A. now apply A.
    + intros t vec' I. apply in_app_iff in I. destruct I as [I|[I|I]].
      * apply (sh_width _ _ S t). rewrite E. apply in_app_iff. now left.
      * pose proof (f_equal fst I) as I1. pose proof (f_equal snd I) as I2. cbn [fst snd] in I1, I2. rewrite <- ?I1, <- I2. clear I I1 I2. now rewrite replace_nth_length.
      * apply (sh_width _ _ S t). rewrite E. apply in_app_iff. now right.
    + intros t. rewrite K, first_use_snoc, <- (sh_times _ _ S t), E, map_app, !in_app_iff. cbn [In e_time fst]. split.
      * intros [H|[<-|H]]; [left; now left|right; split; [reflexivity|exact Fresh]|left; now right].
      * intros [[H|H]|[-> _]]; [now left|right; now right|right; now left].
    + intros t vec' p I Hp. apply in_app_iff in I.
      assert (Old : In (t, vec') m1 \/ In (t, vec') m2 -> last_given (es ++ [(t0, p0, v0)]) t p (nth (Z.to_nat p) vec' B754_nan)).
      { intros I'. apply last_given_other; [intros [X _]; exact (Out t vec' I' X)|]. apply (sh_cells _ _ S t); [|exact Hp]. rewrite E. now apply in_app_iff. }
      destruct I as [I|[I|I]]; [apply Old; now left| |apply Old; now right]. pose proof (f_equal fst I) as I1. pose proof (f_equal snd I) as I2. cbn [fst snd] in I1, I2. rewrite <- ?I1, <- I2. clear I I1 I2.
      destruct (Z.eq_dec p p0) as [->|Np].
      * rewrite replace_nth_same by (cbn; lia). apply last_given_same. now apply same_time_refl.
      * rewrite replace_nth_other by lia. rewrite zero_vector_nth by exact Hp. apply last_given_other; [intros [_ X]; cbn in X; congruence|].
        right. split; [reflexivity|]. intros e I [X _]. exact (Fresh e I X).
Qed.

(** ** The reader *)
Definition indexed_events (t : b64) (j : nat) (vs : list b64) : list event :=
  map (fun jv => (t, (9 + Z.of_nat (fst jv)) mod 12, snd jv)) (combine (seq j (length vs)) vs).
Lemma column_index_mod c : 0 <= c -> column_index c = (9 + c) mod 12.
Proof. intros H. unfold column_index. change PITCHCLASS_A_NATURAL with 9. change NUMBER_OF_PITCHCLASSES with 12. apply Z.rem_mod_nonneg; lia. Qed.
Lemma set_cell_ok m t i v : is_nan t = false -> set_cell m t i v = Ret (map_update t (fun vec => replace_nth vec (Z.to_nat i) v) m).
Proof. intros H. destruct t; try discriminate; reflexivity. Qed.
Lemma clean_app a b : clean (a ++ b) <-> clean a /\ clean b.
Proof. apply Forall_app. Qed.
Lemma indexed_clean t j vs : is_nan t = false -> clean (indexed_events t j vs).
Proof.
  intros T. apply Forall_forall. intros e H. apply in_map_iff in H. destruct H as (jv & <- & _). split; [exact T|]. cbn. apply Z.mod_pos_bound. lia.
Qed.
Lemma tokens_values toks : forall ys t m es j, Forall2 token_value toks ys -> (toks <> [] -> is_nan t = false) -> clean es -> shows m es ->
  exists m', csv_tokens (Z.of_nat (S j)) t m toks = Ret (t, m') /\ shows m' (es ++ indexed_events t j ys).
Proof.
  induction toks as [|tok toks IH]; intros ys t m es j F T C S; destruct ys as [|y ys]; try (inversion F; fail).
  - exists m. split; [reflexivity|]. now rewrite app_nil_r.
  - inversion F as [|? ? ? ? Ft F']; subst. destruct (token_stof tok y Ft) as (x & Ex & Ey). cbn [csv_tokens]. rewrite Ex. cbn [bind].
    replace (Z.of_nat (Datatypes.S j) =? 0) with false by lia. rewrite Ey. specialize (T ltac:(discriminate)). rewrite set_cell_ok by exact T. cbn [bind].
    replace (Z.of_nat (Datatypes.S j) - 1) with (Z.of_nat j) by lia. rewrite column_index_mod by lia.
    assert (P : 0 <= (9 + Z.of_nat j) mod 12 < 12) by (apply Z.mod_pos_bound; lia).
    pose proof (shows_snoc m es t ((9 + Z.of_nat j) mod 12) y C S T P) as S'.
    assert (C' : clean (es ++ [(t, (9 + Z.of_nat j) mod 12, y)])).
    { apply clean_app. split; [exact C|]. constructor; [split; [exact T|exact P]|constructor]. }
    destruct (IH ys t _ _ (Datatypes.S j) F' (fun _ => T) C' S') as (m' & E & S'').
    exists m'. split.
    + replace (Z.of_nat (Datatypes.S j) + 1) with (Z.of_nat (Datatypes.S (Datatypes.S j))) by lia. exact E.
    + rewrite <- app_assoc in S''. exact S''.
Qed.
Lemma row_events_indexed t vs : row_events (t :: vs) = indexed_events t 0 vs.
Proof. reflexivity. Qed.
Lemma row_clean r : proper_row r -> clean (row_events r).
Proof. destruct r as [|t [|v vs]]; intros P; [constructor|constructor|]. rewrite row_events_indexed. now apply indexed_clean. Qed.
Lemma rows_clean rows : Forall proper_row rows -> clean (rows_events rows).
Proof. induction 1 as [|r rows P F IH]; [constructor|]. cbn. apply clean_app. split; [now apply row_clean|exact IH]. Qed.
Lemma row_values line row t m es : row_text line row -> proper_row row -> clean es -> shows m es ->
  exists t' m', csv_tokens 0 t m (pieces "," line) = Ret (t', m') /\ shows m' (es ++ row_events row).
Proof.
  intros (toks & Fd & F) P C S. apply fields_iff in Fd. rewrite Fd. destruct F as [|tok y toks ys Ft F].
  - exists t, m. split; [reflexivity|]. now rewrite app_nil_r.
  - destruct (token_stof tok y Ft) as (x & Ex & Ey). cbn [csv_tokens]. rewrite Ex. cbn [bind Z.eqb]. rewrite Ey.
    destruct (tokens_values toks ys y m es 0 F) as (m' & E & S'); [|exact C|exact S|].
    { intros N. destruct F; [now elim N|]. exact P. }
    exists y, m'. split; [exact E|exact S'].
Qed.
Lemma lines_values lines rows : Forall2 row_text lines rows -> Forall proper_row rows -> forall t m es, clean es -> shows m es ->
  exists m', csv_lines t m lines = Ret m' /\ shows m' (es ++ rows_events rows).
Proof.
  induction 1 as [|line row lines rows R F IH]; intros P t m es C S.
  - exists m. split; [reflexivity|]. now rewrite app_nil_r.
  - apply Forall_cons_iff in P. destruct P as [P Ps]. destruct (row_values line row t m es R P C S) as (t' & m' & E & S').
    destruct (IH Ps t' m' (es ++ row_events row)) as (m'' & E' & S''); [apply clean_app; split; [exact C|now apply row_clean]|exact S'|].
    exists m''. split; [cbn [csv_lines]; rewrite E; exact E'|]. rewrite <- app_assoc in S''. exact S''.
Qed.
Lemma shows_nil : shows [] [].
Proof. constructor; [constructor|intros ? ? []| |intros ? ? ? []]. intros t. split; [intros []|]. intros (a & p & v & b & E & _). now destruct a. Qed.
Lemma C33_proof content rows : csv_text content rows -> Forall proper_row rows ->
  exists m, chromagram_from_csv (Some content) = Ret (CHROMAGRAM_ORIGINAL_READY, m) /\ shows m (rows_events rows).
Proof.
  intros (lines & Fd & F) P. apply fields_iff in Fd. destruct (lines_values lines rows F P fzero [] [] (Forall_nil _) shows_nil) as (m & E & S).
  exists m. split; [|exact S]. unfold chromagram_from_csv. change (chr 10) with "010"%char. rewrite Fd, E. reflexivity.
Qed.

(** ** The frames are determined by the values *)
Definition matches (t : b64) (p : Z) (e : event) : bool := Beqb (e_time e) t && (e_pitch e =? p).
Lemma matches_spec t p e : matches t p e = true <-> same_time (e_time e) t /\ e_pitch e = p.
Proof. unfold matches, same_time. now rewrite andb_true_iff, Z.eqb_eq. Qed.
Definition cellv (es : list event) (t : b64) (p : Z) (v0 : b64) : b64 := fold_left (fun acc e => if matches t p e then snd e else acc) es v0.
Lemma cellv_app a b t p v : cellv (a ++ b) t p v = cellv b t p (cellv a t p v).
Proof. apply fold_left_app. Qed.
Lemma cellv_none es t p v : (forall e, In e es -> ~ (same_time (e_time e) t /\ e_pitch e = p)) -> cellv es t p v = v.
Proof.
  revert v. induction es as [|e es IH]; intros v H; [reflexivity|]. cbn. destruct (matches t p e) eqn:M.
  - apply matches_spec in M. elim (H e (or_introl eq_refl) M).
  - apply IH. intros x X. apply H. now right.
Qed.
Lemma last_given_cellv es t p v : last_given es t p v <-> v = cellv es t p fzero.
Proof.
  assert (A : forall v, last_given es t p v -> v = cellv es t p fzero).
  { intros w [(a & t' & b & -> & S & B)|[-> B]].
    - rewrite cellv_app. change (cellv ((t', p, w) :: b) t p (cellv a t p fzero)) with (cellv b t p (if matches t p (t', p, w) then w else cellv a t p fzero)).
      rewrite (proj2 (matches_spec t p (t', p, w)) (conj S eq_refl)). symmetry. now apply cellv_none.
    - symmetry. now apply cellv_none. }
  split; [apply A|]. intros ->. clear A. induction es as [|e es IH] using rev_ind.
  - right. split; [reflexivity|]. intros e [].
  - rewrite cellv_app. cbn. destruct (matches t p e) eqn:M.
    + apply matches_spec in M. destruct M as [S <-]. destruct e as [[t' p'] v']. now apply last_given_same.
    + apply last_given_other; [|exact IH]. intros X. apply matches_spec in X. congruence.
Qed.
Lemma sorted_same l : forall l', StronglySorted earlier l -> StronglySorted earlier l' -> (forall t, In t l <-> In t l') -> l = l'.
Proof.
  induction l as [|x l IH]; intros l' S S' H.
  - destruct l' as [|y l']; [reflexivity|]. destruct (proj2 (H y) (or_introl eq_refl)).
  - destruct l' as [|y l']; [destruct (proj1 (H x) (or_introl eq_refl))|]. apply StronglySorted_inv in S, S'. destruct S as [S L], S' as [S' L'].
    rewrite Forall_forall in L, L'.
    assert (Irr : forall t, ~ earlier t t) by (intros t E; apply (earlier_not_same t t E), same_time_refl; now apply earlier_nan in E).
    assert (E : x = y).
    { destruct (proj1 (H x) (or_introl eq_refl)) as [E|E]; [now symmetry|]. destruct (proj2 (H y) (or_introl eq_refl)) as [E'|E']; [exact E'|].
      elim (Irr x). apply earlier_trans with y; [now apply L|now apply L']. }
    subst y. f_equal. apply IH; [assumption..|]. intros t. split; intros T.
    + destruct (proj1 (H t) (or_intror T)) as [<-|X]; [elim (Irr x); now apply L|exact X].
    + destruct (proj2 (H t) (or_intror T)) as [<-|X]; [elim (Irr x); now apply L'|exact X].
Qed.
Lemma vectors_same (m m' : chroma_map) : map fst m = map fst m' -> StronglySorted earlier (map fst m) ->
  (forall t vec, In (t, vec) m -> length vec = 12%nat) -> (forall t vec, In (t, vec) m' -> length vec = 12%nat) ->
  (forall t vec vec' p, In (t, vec) m -> In (t, vec') m' -> 0 <= p < 12 -> nth (Z.to_nat p) vec B754_nan = nth (Z.to_nat p) vec' B754_nan) -> m = m'.
Proof.
  revert m'. induction m as [|[t vec] m IH]; intros [|[t' vec'] m'] K S W W' C; try discriminate; [reflexivity|]. cbn [map fst] in K, S. injection K as <- K.
  apply StronglySorted_inv in S. destruct S as [S _]. f_equal.
  - f_equal. pose proof (W t vec (or_introl eq_refl)) as L. pose proof (W' t vec' (or_introl eq_refl)) as L'.
    apply nth_ext with (d := B754_nan) (d' := B754_nan); [congruence|]. intros n Hn. rewrite <- (Nat2Z.id n). apply (C t); [now left|now left|lia].
  - apply IH; [exact K|exact S|intros u w I; apply (W u); now right|intros u w I; apply (W' u); now right|].
    intros u w w' p I I'. apply (C u); now right.
Qed.
Lemma shows_same m m' es es' : shows m es -> shows m' es' -> (forall t, first_use es t <-> first_use es' t) ->
  (forall t p v, first_use es t -> last_given es t p v <-> last_given es' t p v) -> m = m'.
Proof.
  intros S S' F L. pose proof (proj1 (ordered_keys m) (sh_sorted _ _ S)) as O. pose proof (proj1 (ordered_keys m') (sh_sorted _ _ S')) as O'.
  apply vectors_same.
  - apply sorted_same; [assumption..|]. intros t. rewrite (sh_times _ _ S), (sh_times _ _ S'). apply F.
  - exact O.
  - apply (sh_width _ _ S).
  - apply (sh_width _ _ S').
  - intros t vec vec' p I I' P. pose proof (sh_cells _ _ S t vec p I P) as C. pose proof (sh_cells _ _ S' t vec' p I' P) as C'.
    assert (T : first_use es t) by (apply (sh_times _ _ S), in_map_iff; exists (t, vec); now split).
    apply (L t p _ T), last_given_cellv in C. apply last_given_cellv in C'. congruence.
Qed.
Lemma C33_unique_proof m m' es : shows m es -> shows m' es -> m = m'.
Proof. intros S S'. apply (shows_same m m' es es S S'); intros; reflexivity. Qed.

(** ** C34 *)
Lemma fop_permutation {A} (R : A -> A -> Prop) l l' : (forall x y, R x y -> R y x) -> Permutation l l' -> ForallOrdPairs R l -> ForallOrdPairs R l'.
Proof.
  intros Sy P. induction P as [|x l l' P IH|x y l|l l' l'' P IH P' IH']; intros F.
  - constructor.
  - inversion F; subst. constructor; [now apply Permutation_Forall with l|now apply IH].
  - inversion F as [|? ? A1 A2]; subst. inversion A2 as [|? ? B1 B2]; subst. apply Forall_cons_iff in A1. destruct A1 as [A0 A1].
    constructor; [constructor; [now apply Sy|exact B1]|now constructor].
  - now apply IH', IH.
Qed.
Lemma fop_split {A} (R : A -> A -> Prop) a x b : (forall x y, R x y -> R y x) -> ForallOrdPairs R (a ++ x :: b) -> forall y, In y (a ++ b) -> R y x.
Proof.
  intros Sy F y I. apply (fop_permutation R _ (x :: a ++ b) Sy) in F; [|apply Permutation_sym, Permutation_middle]. inversion F as [|? ? A1 _]; subst.
  rewrite Forall_forall in A1. apply Sy. now apply A1.
Qed.
Definition apart (r r' : list b64) : Prop := giving r -> giving r' -> ~ same_time (row_time r) (row_time r').
Lemma apart_sym r r' : apart r r' -> apart r' r.
Proof. intros H G G' X. apply (H G' G). now apply same_time_sym. Qed.
Lemma row_event_time r e : In e (row_events r) -> giving r /\ e_time e = row_time r.
Proof.
  destruct r as [|t [|v vs]]; [intros []|intros []|]. intros H. apply in_map_iff in H. destruct H as (jv & <- & _). split; [exact I|reflexivity].
Qed.
Lemma giving_event r : giving r -> exists p v b, row_events r = (row_time r, p, v) :: b.
Proof. destruct r as [|t [|v vs]]; intros []. cbn. eauto. Qed.
Lemma rows_event rows e : In e (rows_events rows) -> exists r, In r rows /\ giving r /\ e_time e = row_time r.
Proof. intros H. apply in_flat_map in H. destruct H as (r & R & E). exists r. split; [exact R|]. now apply row_event_time. Qed.
Lemma rows_events_app a b : rows_events (a ++ b) = rows_events a ++ rows_events b.
Proof. apply flat_map_app. Qed.
Lemma distinct_first rows t : distinct_times rows -> first_use (rows_events rows) t <-> exists r, In r rows /\ giving r /\ row_time r = t.
Proof.
  intros D. split.
  - intros F. apply first_use_event in F. destruct F as (e & I & <-). apply rows_event in I. destruct I as (r & R & G & E). now exists r.
  - intros (r & R & G & <-). apply in_split in R. destruct R as (a & b & ->). destruct (giving_event r G) as (p & v & c & E).
    exists (rows_events a), p, v, (c ++ rows_events b). split; [rewrite rows_events_app; cbn; now rewrite E|].
    intros e I X. apply rows_event in I. destruct I as (r' & R' & G' & E'). rewrite E' in X.
    apply (fop_split apart a r b apart_sym D r' ltac:(apply in_app_iff; now left) G' G X).
Qed.
Lemma distinct_cell rows r p : distinct_times rows -> In r rows -> giving r -> cellv (rows_events rows) (row_time r) p fzero = cellv (row_events r) (row_time r) p fzero.
Proof.
  intros D R G. apply in_split in R. destruct R as (a & b & ->). rewrite rows_events_app, cellv_app.
  assert (N : forall e, In e (rows_events a) \/ In e (rows_events b) -> ~ (same_time (e_time e) (row_time r) /\ e_pitch e = p)).
  { intros e I [X _]. assert (Q : exists r', In r' (a ++ b) /\ giving r' /\ e_time e = row_time r').
    { destruct I as [I|I]; apply rows_event in I; destruct I as (r' & R' & G' & E'); exists r'; (split; [apply in_app_iff; auto|now split]). }
    destruct Q as (r' & R' & G' & E'). rewrite E' in X. exact (fop_split apart a r b apart_sym D r' R' G' G X). }
  rewrite (cellv_none (rows_events a)) by (intros e I; apply N; now left). cbn [rows_events flat_map]. rewrite cellv_app. apply cellv_none. intros e I. apply N. now right.
Qed.
Lemma C34_shows_proof rows rows' m m' : Permutation rows rows' -> distinct_times rows -> shows m (rows_events rows) -> shows m' (rows_events rows') -> m = m'.
Proof.
  intros P D S S'. assert (D' : distinct_times rows') by (apply (fop_permutation apart rows rows' apart_sym P D)).
  apply (shows_same m m' _ _ S S').
  - intros t. rewrite (distinct_first rows t D), (distinct_first rows' t D').
    split; intros (r & R & G); exists r; (split; [|exact G]); [now apply Permutation_in with rows|apply Permutation_in with rows'; [now apply Permutation_sym|exact R]].
  - intros t p v F. apply (distinct_first rows t D) in F. destruct F as (r & R & G & <-).
    rewrite !last_given_cellv, (distinct_cell rows r p D R G), (distinct_cell rows' r p D' (Permutation_in _ P R) G). reflexivity.
Qed.
Lemma C34_proof content content' rows rows' : csv_text content rows -> csv_text content' rows' -> Permutation rows rows' -> Forall proper_row rows -> distinct_times rows ->
  chromagram_from_csv (Some content) = chromagram_from_csv (Some content').
Proof.
  intros T T' P Pr D. destruct (C33_proof content rows T Pr) as (m & E & S). destruct (C33_proof content' rows' T' (Permutation_Forall P Pr)) as (m' & E' & S').
  rewrite E, E'. now rewrite (C34_shows_proof rows rows' m m' P D S S').
Qed.
