(** Facts about the genetic algorithm of the optimizer. *)
From Coq Require Import Lia Lra Reals Ascii Permutation Sorted.
From Flocq Require Import Core.Core IEEE754.BinarySingleNaN.
From Verif Require Import Base BaseFacts Fp FpFacts Text Py KeyProfile Options OptTables Optimizer Ga.
From Verif Require Import OptSpec OptFacts GenFacts EvoFacts EvoKtFacts.
Open Scope Z_scope.

(** ** Runs that never raise KeyError *)
Definition no_key {A} (r : run A) (P : A -> world -> Prop) : Prop := match r with Starved => True | Fails e => e <> KeyError | Done a w _ => P a w end.
Lemma no_key_bind {A B} (c : prog A) (k : A -> prog B) w ds P Q : no_key (c w ds) P -> (forall a w' ds', P a w' -> no_key (k a w' ds') Q) -> no_key (seq_run c k w ds) Q.
Proof. unfold no_key, seq_run. destruct (c w ds) as [a w' ds'| |]; auto. intros H K. now apply K. Qed.
Lemma no_key_weaken {A} (r : run A) (P Q : A -> world -> Prop) : (forall a w, P a w -> Q a w) -> no_key r P -> no_key r Q.
Proof. unfold no_key. destruct r; auto. Qed.
Definition py_ok {A} (c : py A) : Prop := forall e, c = Raises e -> e <> KeyError.
Lemma lift_ok {A} (c : py A) w ds : py_ok c -> no_key (lift c w ds) (fun _ w' => w' = w).
Proof. intros H. unfold lift. destruct c as [a|e]; [reflexivity|]. now apply H. Qed.
Lemma pybind_ok {A B} (c : py A) (f : A -> py B) : py_ok c -> (forall a, py_ok (f a)) -> py_ok (pybind c f).
Proof. intros C F e. unfold pybind. destruct c as [a|x]; [apply F|]. intros [= <-]. now apply C. Qed.
Lemma pymap_ok {A B} (f : A -> py B) l : (forall a, py_ok (f a)) -> py_ok (pymap f l).
Proof. intros F. induction l as [|a l IH]; [intros e; discriminate|]. cbn [pymap]. apply pybind_ok; [apply F|]. intros b. apply pybind_ok; [exact IH|]. intros bs e. discriminate. Qed.
Lemma int_div_ok m n : py_ok (int_div m n).
Proof. intros e E ->. revert E. unfold int_div. destruct n; discriminate. Qed.
Lemma float_div_ok x y : py_ok (float_div x y).
Proof. intros e. unfold float_div. destruct (feq y fzero); [intros [= <-]|]; discriminate. Qed.
Lemma fetch_ok d n : py_ok (fetch d n).
Proof. intros e. unfold fetch. destruct (assoc String.eqb n d); [|intros [= <-]]; discriminate. Qed.
Lemma item_ok {A} (l : list A) i : py_ok (item l i).
Proof. intros e. unfold item. destruct (nth_error l i); [|intros [= <-]]; discriminate. Qed.
Lemma move_ok l r i j : py_ok (move_delta l r i j).
Proof. unfold move_delta. apply pybind_ok; [apply item_ok|]. intros x. apply pybind_ok; [apply item_ok|]. intros y. apply pybind_ok; [apply item_ok|]. intros z e. discriminate. Qed.
Lemma randrange_ok n w ds : no_key (randrange n w ds) (fun _ w' => w' = w).
Proof. unfold randrange. destruct (n <=? 0); [discriminate|]. now destruct ds. Qed.
Lemma choice_ok {A} (l : list A) w ds : no_key (choice l w ds) (fun _ w' => w' = w).
Proof. unfold choice. destruct l; [discriminate|]. now destruct ds. Qed.
Lemma random_ok w ds : no_key (random w ds) (fun _ w' => w' = w).
Proof. unfold random. now destruct ds. Qed.
Lemma uniform_ok a b w ds : no_key (uniform a b w ds) (fun _ w' => w' = w).
Proof. apply no_key_bind with (1 := random_ok w ds). intros r w' ds' ->. reflexivity. Qed.
Lemma fill_group_ok bound idxs : forall a w ds, no_key (fill_group bound idxs a w ds) (fun _ w' => w' = w).
Proof. induction idxs as [|i idxs IH]; intros a w ds; [reflexivity|]. cbn [fill_group]. apply no_key_bind with (1 := randrange_ok bound w ds). intros r w' ds' ->. apply IH. Qed.
Lemma fill_groups_ok maximum groups : forall a w ds, no_key (fill_groups maximum groups a w ds) (fun _ w' => w' = w).
Proof.
  induction groups as [|[idxs h] groups IH]; intros a w ds; [reflexivity|]. cbn [fill_groups]. apply no_key_bind with (1 := lift_ok _ w ds (int_div_ok _ _)). intros q w' ds' ->.
  apply no_key_bind with (1 := fill_group_ok _ _ _ w ds'). intros a' w' ds2 ->. apply IH.
Qed.
Lemma filled_ok maximum groups a w ds : no_key (seq_run (fill_groups maximum groups a) (fun a => lift (normalise a)) w ds) (fun _ w' => w' = w).
Proof. apply no_key_bind with (1 := fill_groups_ok _ _ _ w ds). intros l w' ds' ->. apply lift_ok. apply pymap_ok. intros x. apply int_div_ok. Qed.
Lemma geometric_ok pow ratio : py_ok (generate_geometric pow ratio).
Proof.
  unfold generate_geometric. apply pybind_ok; [|intros a; apply pymap_ok; intros x; apply float_div_ok]. generalize (numbered key_groups) as gs, (repeat fzero 24) as a, (Z.of_nat (length key_groups) - 1) as n.
  induction gs as [|[ks i] gs IH]; intros a n; [intros e; discriminate|]. cbn [fill_powers]. apply pybind_ok; [|intros r; apply IH]. intros e. unfold power. destruct (_ && _); [intros [= <-]|]; discriminate.
Qed.

(** ** Names, for profiles and for transitions alike *)
Section Names.
Variables (G : world -> world -> Prop) (O : world -> Prop) (K : world -> string -> Prop).
Hypotheses (G_refl : forall w, G w w) (G_trans : forall a b c, G a b -> G b c -> G a c) (G_K : forall w w' n, G w w' -> K w n -> K w' n).
Definition new_name (w w' : world) (n : string) : Prop := ~ K w n /\ K w' n.
Definition renames (f : string -> prog string) : Prop := forall n w ds, O w -> no_key (f n w ds) (fun r w' => G w w' /\ O w' /\ (r = n \/ new_name w w' r)).
Definition creates (c : prog string) : Prop := forall w ds, O w -> no_key (c w ds) (fun r w' => G w w' /\ O w' /\ new_name w w' r).
Lemma each_ok f : renames f -> forall names w ds, O w -> NoDup names -> Forall (K w) names -> no_key (each f names w ds) (fun rs w' => G w w' /\ O w' /\ NoDup rs /\ Forall (fun r => In r names \/ new_name w w' r) rs /\ length rs = length names).
Proof.
  intros R. induction names as [|n names IH]; intros w ds OW N S. { split; [apply G_refl|]. split; [exact OW|]. repeat (split; [constructor|]). reflexivity. }
  inversion N as [|? ? N1 N2]; subst. inversion S as [|? ? S1 S2]; subst. cbn [each]. apply no_key_bind with (1 := R n w ds OW). intros r w1 ds1 (G1 & O1 & C1).
  assert (S3 : Forall (K w1) names) by (eapply Forall_impl; [|exact S2]; intros x; now apply G_K).
  apply no_key_bind with (1 := IH w1 ds1 O1 N2 S3). intros rs w2 ds2 (G2 & O2 & D2 & C2 & L2). split; [now apply (G_trans w w1 w2)|]. split; [exact O2|].
  rewrite Forall_forall in C2, S2. assert (KR : K w1 r) by (destruct C1 as [->|C1]; [now apply (G_K w)|apply C1]).
  split. { constructor; [|exact D2]. intros X. destruct (C2 r X) as [X1|(X1 & _)]; [|tauto]. destruct C1 as [->|(C1 & _)]; [tauto|]. apply C1. now apply S2. }
  split; [|cbn; lia]. constructor; [destruct C1 as [->|(C1 & CK)]; [left; now left|right; split; [exact C1|now apply (G_K w1)]]|].
  apply Forall_forall. intros x X. destruct (C2 x X) as [X1|(X1 & X2)]; [left; now right|right]. split; [|exact X2]. intros Z. apply X1. now apply (G_K w).
Qed.
Lemma repeat_ok c k : creates c -> forall w ds, O w -> no_key (repeat_run k c w ds) (fun rs w' => G w w' /\ O w' /\ NoDup rs /\ Forall (new_name w w') rs /\ length rs = k).
Proof.
  intros C. induction k as [|k IH]; intros w ds OW. { split; [apply G_refl|]. split; [exact OW|]. repeat (split; [constructor|]). reflexivity. }
  cbn [repeat_run]. apply no_key_bind with (1 := C w ds OW). intros r w1 ds1 (G1 & O1 & U1 & K1). apply no_key_bind with (1 := IH w1 ds1 O1). intros rs w2 ds2 (G2 & O2 & D2 & C2 & L2).
  split; [now apply (G_trans w w1 w2)|]. split; [exact O2|]. rewrite Forall_forall in C2. split; [constructor; [|exact D2]; intros X; destruct (C2 r X); tauto|]. split; [|cbn; lia].
  constructor; [split; [exact U1|now apply (G_K w1)]|]. apply Forall_forall. intros x X. destruct (C2 x X) as (X1 & X2). split; [|exact X2]. intros Z. apply X1. now apply (G_K w).
Qed.
(** The tail of both evolvers. *)
Lemma finish_ok f c n parents w0 w ds : renames f -> creates c -> G w0 w -> O w -> NoDup parents -> Forall (K w) parents ->
  no_key (seq_run (each f parents) (fun mutated => seq_run (repeat_run (n - length mutated) c) (fun fresh => ret (mutated ++ fresh))) w ds)
    (fun new w' => G w0 w' /\ G w w' /\ O w' /\ NoDup new /\ Forall (fun r => In r parents \/ new_name w w' r) new).
Proof.
  intros R C G0 OW N S. apply no_key_bind with (1 := each_ok f R parents w ds OW N S). intros rs w1 ds1 (G1 & O1 & D1 & C1 & L1).
  apply no_key_bind with (1 := repeat_ok c (n - length rs) C w1 ds1 O1). intros fs w2 ds2 (G2 & O2 & D2 & C2 & L2). unfold ret, no_key.
  split; [apply (G_trans w0 w1 w2); [now apply (G_trans w0 w w1)|exact G2]|]. split; [now apply (G_trans w w1 w2)|]. split; [exact O2|]. rewrite Forall_forall in C1, C2, S.
  split. { apply nodup_two; [exact D1|exact D2|]. intros x X Y. destruct (C2 x Y) as (Y1 & _). apply Y1. destruct (C1 x X) as [Z|Z]; [now apply (G_K w), S|apply Z]. }
  apply Forall_app. split; apply Forall_forall; intros x X.
  - destruct (C1 x X) as [Z|(Z1 & Z2)]; [now left|right]. split; [exact Z1|now apply (G_K w1)].
  - right. destruct (C2 x X) as (Z1 & Z2). split; [|exact Z2]. intros Z. apply Z1. now apply (G_K w).
Qed.
End Names.
Lemma picking_ok pool kept count : forall ds old w, NoDup old -> (forall x, In x old -> In x pool /\ ~ In x kept) ->
  no_key (pick_old pool kept count old w ds) (fun old' w' => w' = w /\ NoDup old' /\ forall x, In x old' -> In x pool /\ ~ In x kept).
Proof.
  induction ds as [|d ds IH]; intros old w N S; cbn [pick_old].
  - destruct (count <=? length old)%nat; [now split|]. destruct pool; [discriminate|exact I].
  - destruct (count <=? length old)%nat; [now split|]. destruct pool as [|a pool]; [discriminate|]. set (k := nth _ _ _). assert (KI : In k (a :: pool)) by apply picked_In. clearbody k.
    destruct (elem k old) eqn:E1; [apply IH; assumption|]. destruct (elem k kept) eqn:E2; [apply IH; assumption|]. cbn [negb andb]. apply elem_not_In in E1. apply elem_not_In in E2. apply IH; [now apply nodup_snoc|].
    intros x X. apply in_app_iff in X. destruct X as [X|[<-|[]]]; [now apply S|]. now split.
Qed.
Lemma two_ok low high w : forall n ds, (length ds <= n)%nat -> no_key (two_indices low high w ds) (fun _ w' => w' = w).
Proof.
  induction n as [|n IH]; intros ds L; [destruct ds; [exact I|cbn in L; lia]|]. destruct ds as [|d1 [|d2 ds]]; [exact I|exact I|]. cbn [two_indices length] in *. destruct (_ =? _); [apply IH; lia|reflexivity].
Qed.

(** ** Profiles *)
Lemma generating_ok maximum : creates grows orderly known (generate_key_profile maximum).
Proof.
  intros w ds O. unfold generate_key_profile. apply no_key_bind with (1 := filled_ok maximum major_groups _ w ds). intros a w' ds' ->. apply no_key_bind with (1 := filled_ok maximum minor_groups _ w ds'). intros b w' ds2 ->.
  unfold seq_run, look, change, ret, no_key. cbn [g_kp_id next_g_kp]. match goal with |- grows _ ?x /\ _ => set (w' := x) end.
  destruct (enters w w' (fresh_name (g_kp_id w)) (a ++ b) (fresh_unknown w O)) as (G & H & M); try reflexivity; try (cbn; lia).
  split; [exact G|]. split; [apply (orderly_fresh w w' O); try reflexivity; exact M|]. split; [now apply fresh_unknown|now exists (a ++ b)].
Qed.
Lemma child_ok a b : creates grows orderly known (make_child a b).
Proof.
  intros w ds O. unfold make_child, seq_run, look, change. cbn [w_kp next_e_kp e_kp_id]. unfold lift. destruct (fetch (w_kp w) a) as [la|e] eqn:A; [|exact (fetch_ok _ _ _ A)]. destruct (fetch (w_kp w) b) as [lb|e] eqn:B; [|exact (fetch_ok _ _ _ B)].
  unfold ret, no_key. match goal with |- grows _ ?x /\ _ => set (w' := x) end.
  destruct (enters w w' (child_name (e_kp_id w)) (firstn 12 la ++ skipn 12 lb) (child_unknown w O)) as (G & H & M); try reflexivity; try (cbn; lia).
  split; [exact G|]. split; [apply (orderly_child w w' O); try reflexivity; exact M|]. split; [now apply child_unknown|eexists; exact H].
Qed.
Lemma make_child_draws a b w ds : match make_child a b w ds with Done c w' _ => make_child a b w ds = Done c w' ds | _ => True end.
Proof. unfold make_child, seq_run, look, change, lift. cbn [w_kp next_e_kp]. destruct (fetch (w_kp w) a); [|exact I]. destruct (fetch (w_kp w) b); [reflexivity|exact I]. Qed.
Lemma crossing_ok parents count w0 : forall n ds children w, (length ds <= n)%nat -> orderly w -> grows w0 w -> NoDup children -> Forall (new_name known w0 w) children ->
  no_key (cross parents count children w ds) (fun cs w' => grows w0 w' /\ orderly w' /\ NoDup cs /\ Forall (new_name known w0 w') cs).
Proof.
  induction n as [|n IH]; intros ds children w L O G N C.
  { destruct ds as [|? ?]; [|cbn in L; lia]. cbn [cross]. destruct (count <=? length children)%nat; [unfold no_key; now split|]. destruct parents; [discriminate|exact I]. }
  assert (D : no_key (Done children w ds) (fun cs w' => grows w0 w' /\ orderly w' /\ NoDup cs /\ Forall (new_name known w0 w') cs)) by (unfold no_key; now split).
  destruct ds as [|d1 [|d2 ds]]; cbn [cross]; (destruct (count <=? length children)%nat; [exact D|]); (destruct parents as [|a parents]; [discriminate|]); [exact I|exact I|]. clear D.
  set (x := nth (Z.to_nat (d1 mod _)) _ _). set (y := nth (Z.to_nat (d2 mod _)) _ _). cbn [length] in L. destruct (x =? y)%string; [apply IH; try assumption; lia|].
  pose proof (child_ok x y w ds O) as CK. destruct (make_child x y w ds) as [c w' ds'| |]; [|exact CK|exact I]. destruct CK as (G' & O' & U & K'). apply IH; [lia|exact O'|now apply (grows_trans w0 w w')| |].
  - apply nodup_snoc; [exact N|]. intros Z. rewrite Forall_forall in C. destruct (C _ Z) as (_ & Z2). tauto.
  - apply Forall_app. split; [eapply Forall_impl; [|exact C]; intros z (C1 & C2); split; [exact C1|now apply (grows_known w w')]|]. constructor; [|constructor]. split; [|exact K']. intros Z. apply U. now apply (grows_known w0 w).
Qed.
Lemma mutating_ok : renames grows orderly known mutate_profile.
Proof.
  intros n w ds O. unfold mutate_profile. apply no_key_bind with (1 := random_ok w ds). intros r w' ds1 ->. destruct (fgt kp_mutation_prob r); [|split; [apply grows_refl|]; split; [exact O|now left]].
  unfold seq_run at 1, look at 1. unfold seq_run at 1, change at 1. unfold seq_run at 1, look at 1. apply no_key_bind with (1 := choice_ok _ _ ds1). intros rg w' ds2 ->.
  apply no_key_bind with (1 := two_ok _ _ _ (length ds2) ds2 (le_n _)). intros ij w' ds3 ->. apply no_key_bind with (1 := lift_ok _ _ _ (fetch_ok _ _)). intros l w' ds4 ->.
  apply no_key_bind with (1 := lift_ok _ _ _ (move_ok _ _ _ _)). intros l' w' ds5 ->. unfold seq_run, change, ret, no_key. match goal with |- grows _ ?x /\ _ => set (w' := x) end.
  destruct (enters w w' (mutation_name (e_kp_id w)) l' (mutation_unknown w O)) as (G & H' & K); try reflexivity; try (cbn; lia).
  split; [exact G|]. split; [apply (orderly_mutation w w' O); try reflexivity; exact K|]. right. split; [now apply mutation_unknown|eexists; exact H'].
Qed.
Lemma evolving_ok maximum kps w ds : orderly w -> NoDup kps -> Forall (known w) kps ->
  no_key (evolve_key_profiles maximum kps w ds) (fun new w' => grows w w' /\ orderly w' /\ NoDup new /\ Forall (fun r => In r kps \/ new_name known w w' r) new).
Proof.
  intros O N S. unfold evolve_key_profiles. set (f := share_of kps (dec 2 1)). destruct (nodup_parts kps f N) as (NK & NS & DJ). rewrite Forall_forall in S.
  assert (KI : forall x, In x (firstn f kps) -> In x kps) by (intros x X; rewrite <- (firstn_skipn f kps); apply in_app_iff; now left).
  assert (OI : forall x, In x (skipn f kps) -> In x kps) by (intros x X; rewrite <- (firstn_skipn f kps); apply in_app_iff; now right).
  refine (no_key_bind _ _ _ _ _ _ (picking_ok (skipn f kps) (firstn f kps) f ds [] w (NoDup_nil _) _) _); [intros x []|]. intros old w' ds1 (-> & NO & IO).
  assert (NP : NoDup (firstn f kps ++ old)) by (apply nodup_two; [exact NK|exact NO|]; intros x X Y; destruct (IO x Y); tauto).
  assert (IP : forall x, In x (firstn f kps ++ old) -> In x kps) by (intros x X; apply in_app_iff in X; destruct X as [X|X]; [now apply KI|apply OI; now apply IO]).
  refine (no_key_bind _ _ _ _ _ _ (crossing_ok (firstn f kps ++ old) _ w (length ds1) ds1 [] w (le_n _) O (grows_refl w) (NoDup_nil _) (Forall_nil _)) _). intros cs w1 ds2 (G1 & O1 & DC & CC). rewrite Forall_forall in CC.
  refine (no_key_weaken _ _ _ _ (finish_ok grows orderly known grows_refl grows_trans grows_known mutate_profile (generate_key_profile maximum) (length kps) ((firstn f kps ++ old) ++ cs) w w1 ds2 mutating_ok (generating_ok maximum) G1 O1 _ _)).
  - intros new w2 (G2 & G3 & O2 & D2 & C2). split; [exact G2|]. split; [exact O2|]. split; [exact D2|]. eapply Forall_impl; [|exact C2]. intros r [X|(X1 & X2)]; [|right; split; [|exact X2]; intros Z; apply X1; now apply (grows_known w w1)].
    apply in_app_iff in X. destruct X as [X|X]; [left; now apply IP|right]. destruct (CC r X) as (Y1 & Y2). split; [exact Y1|now apply (grows_known w1 w2)].
  - apply nodup_two; [exact NP|exact DC|]. intros x X Y. destruct (CC x Y) as (Z & _). apply Z, S, IP, X.
  - apply Forall_app. split; apply Forall_forall; intros x X; [apply (grows_known w w1); [exact G1|]; now apply S, IP|now apply CC].
Qed.

(** ** Transitions *)
Lemma entering_kt w w' name (l : table) x : kt_orderly w -> kt_orderly w' -> ~ kt_known w name -> w_kt w' = assign String.eqb name l (w_kt w) ->
  w_ratio w' = w_ratio w \/ (ratios_in w name = None /\ w_ratio w' = assign String.eqb name x (w_ratio w)) -> w_kp w' = w_kp w -> g_kp_id w' = g_kp_id w -> e_kp_id w' = e_kp_id w -> e_kt_id w <= e_kt_id w' -> g_kt_id w <= g_kt_id w' ->
  kt_grows w w' /\ kt_orderly w' /\ new_name kt_known w w' name.
Proof.
  intros O O' U E R K1 K2 K3 K4 K5. assert (U' : transitions_in w name = None) by (destruct (transitions_in w name) as [z|] eqn:Z; [destruct U; now exists z|reflexivity]).
  destruct (assigned (w_kt w) name l U') as (KT & ET & MT). rewrite <- E in KT, ET. split; [|split; [exact O'|]].
  - split; try assumption. destruct R as [R|(R1 & R)]; unfold ratios_in; rewrite R; [intros n y H; exact H|]. apply (assigned (w_ratio w) name x R1).
  - split; [exact U|]. exists l. exact ET.
Qed.
Section Pow.
Variable pow : b64 -> Z -> b64.
Lemma generating_kt_ok maximum : creates kt_grows kt_orderly kt_known (generate_key_transition pow maximum).
Proof.
  intros w ds O. unfold generate_key_transition. apply no_key_bind with (1 := choice_ok _ w ds). intros g w' ds1 ->. destruct O as (OT & OR). destruct g.
  - apply no_key_bind with (1 := random_ok w ds1). intros r w' ds2 ->. cbv zeta. apply no_key_bind with (1 := lift_ok _ _ _ (geometric_ok pow _)). intros l w' ds3 ->.
    unfold seq_run, look, change, ret, no_key. set (name := ("ktg" ++ format_int (g_kt_id w))%string). set (x := fadd _ _).
    assert (N1 : transitions_in w name = None) by (apply (unused_fresh (transitions_in w) w "ktg" OT); tauto). assert (N2 : ratios_in w name = None) by (apply (unused_fresh (ratios_in w) w "ktg" OR); tauto).
    match goal with |- kt_grows _ ?x /\ _ => set (w' := x) end. apply (entering_kt w w' name l x); try reflexivity; try (cbn; lia).
    + now split.
    + split; [apply (after_fresh (transitions_in w) _ w w' "ktg" OT)|apply (after_fresh (ratios_in w) _ w w' "ktg" OR)]; try tauto; try reflexivity; [apply (assigned (w_kt w) name l N1)|apply (assigned (w_ratio w) name x N2)].
    + intros (z & Z). congruence.
    + right. now split.
  - apply no_key_bind with (1 := filled_ok maximum (numbered key_groups) _ w ds1). intros l w' ds2 ->.
    unfold seq_run, look, change, ret, no_key. set (name := ("kts" ++ format_int (g_kt_id w))%string).
    assert (N1 : transitions_in w name = None) by (apply (unused_fresh (transitions_in w) w "kts" OT); tauto).
    match goal with |- kt_grows _ ?x /\ _ => set (w' := x) end. apply (entering_kt w w' name l fzero); try reflexivity; try (cbn; lia).
    + now split.
    + split; [apply (after_fresh (transitions_in w) _ w w' "kts" OT)|apply (same_numbers (ratios_in w) w w' OR)]; try tauto; try reflexivity; try (cbn; lia). apply (assigned (w_kt w) name l N1).
    + intros (z & Z). congruence.
    + now left.
Qed.
Lemma mutating_kt_ok : renames kt_grows kt_orderly kt_known (mutate_transition pow).
Proof.
  intros n w ds O. assert (SAME : kt_grows w w /\ kt_orderly w /\ (n = n \/ new_name kt_known w w n)) by (split; [apply kt_grows_refl|]; split; [exact O|now left]).
  unfold mutate_transition. destruct (starts_with "ktg" n); [|destruct (starts_with "kts" n); [|exact SAME]]; (apply no_key_bind with (1 := random_ok w ds); intros r w' ds1 ->; destruct (fgt kt_mutation_prob r); [|exact SAME]); clear SAME; destruct O as (OT & OR);
    (unfold seq_run at 1, look at 1; unfold seq_run at 1, change at 1; unfold seq_run at 1, look at 1).
  - apply no_key_bind with (P := fun _ w' => w' = next_e_kt w); [apply lift_ok; intros e; destruct (assoc _ _ _); [|intros [= <-]]; discriminate|]. intros q w' ds2 ->.
    apply no_key_bind with (1 := uniform_ok _ _ _ ds2). intros x w' ds3 ->. apply no_key_bind with (1 := lift_ok _ _ _ (geometric_ok pow _)). intros l w' ds4 ->.
    unfold seq_run, change, ret, no_key. set (name := ("ktgm" ++ format_int (e_kt_id w))%string).
    assert (N1 : transitions_in w name = None) by (apply (unused_mutation (transitions_in w) w "ktgm" OT); tauto). assert (N2 : ratios_in w name = None) by (apply (unused_mutation (ratios_in w) w "ktgm" OR); tauto).
    match goal with |- kt_grows _ ?x /\ _ => set (w' := x) end. assert (E : kt_grows w w' /\ kt_orderly w' /\ new_name kt_known w w' name); [|destruct E as (E1 & E2 & E3); repeat split; try assumption; try apply E1; try apply E2; now right].
    apply (entering_kt w w' name l x); try reflexivity; try (cbn; lia).
    + now split.
    + split; [apply (after_mutation (transitions_in w) _ w w' "ktgm" OT)|apply (after_mutation (ratios_in w) _ w w' "ktgm" OR)]; try tauto; try reflexivity; [apply (assigned (w_kt w) name l N1)|apply (assigned (w_ratio w) name x N2)].
    + intros (z & Z). congruence.
    + right. now split.
  - apply no_key_bind with (1 := two_ok _ _ _ (length ds1) ds1 (le_n _)). intros ij w' ds3 ->. apply no_key_bind with (1 := lift_ok _ _ _ (fetch_ok _ _)). intros l0 w' ds4 ->. apply no_key_bind with (1 := lift_ok _ _ _ (move_ok _ _ _ _)). intros l w' ds5 ->.
    unfold seq_run, change, ret, no_key. set (name := ("ktsm" ++ format_int (e_kt_id w))%string).
    assert (N1 : transitions_in w name = None) by (apply (unused_mutation (transitions_in w) w "ktsm" OT); tauto).
    match goal with |- kt_grows _ ?x /\ _ => set (w' := x) end. assert (E : kt_grows w w' /\ kt_orderly w' /\ new_name kt_known w w' name); [|destruct E as (E1 & E2 & E3); repeat split; try assumption; try apply E1; try apply E2; now right].
    apply (entering_kt w w' name l fzero); try reflexivity; try (cbn; lia).
    + now split.
    + split; [apply (after_mutation (transitions_in w) _ w w' "ktsm" OT)|apply (same_numbers (ratios_in w) w w' OR)]; try tauto; try reflexivity; try (cbn; lia). apply (assigned (w_kt w) name l N1).
    + intros (z & Z). congruence.
    + now left.
Qed.
Lemma evolving_kt_ok maximum kts w ds : kt_orderly w -> NoDup kts -> Forall (kt_known w) kts ->
  no_key (evolve_key_transitions pow maximum kts w ds) (fun new w' => kt_grows w w' /\ kt_orderly w' /\ NoDup new /\ Forall (fun r => In r kts \/ new_name kt_known w w' r) new).
Proof.
  intros O N S. unfold evolve_key_transitions. set (f := share_of kts (dec 2 1)). destruct (nodup_parts kts f N) as (NK & NS & DJ). rewrite Forall_forall in S.
  assert (KI : forall x, In x (firstn f kts) -> In x kts) by (intros x X; rewrite <- (firstn_skipn f kts); apply in_app_iff; now left).
  assert (OI : forall x, In x (skipn f kts) -> In x kts) by (intros x X; rewrite <- (firstn_skipn f kts); apply in_app_iff; now right).
  refine (no_key_bind _ _ _ _ _ _ (picking_ok (skipn f kts) (firstn f kts) f ds [] w (NoDup_nil _) _) _); [intros x []|]. intros old w' ds1 (-> & NO & IO).
  assert (NP : NoDup (firstn f kts ++ old)) by (apply nodup_two; [exact NK|exact NO|]; intros x X Y; destruct (IO x Y); tauto).
  assert (IP : forall x, In x (firstn f kts ++ old) -> In x kts) by (intros x X; apply in_app_iff in X; destruct X as [X|X]; [now apply KI|apply OI; now apply IO]).
  refine (no_key_weaken _ _ _ _ (finish_ok kt_grows kt_orderly kt_known kt_grows_refl kt_grows_trans kt_grows_known (mutate_transition pow) (generate_key_transition pow maximum) (length kts) (firstn f kts ++ old) w w ds1 mutating_kt_ok (generating_kt_ok maximum) (kt_grows_refl w) O NP _)).
  - intros new w2 (G2 & _ & O2 & D2 & C2). split; [exact G2|]. split; [exact O2|]. split; [exact D2|]. eapply Forall_impl; [|exact C2]. intros r [X|X]; [left; now apply IP|now right].
  - apply Forall_forall. intros x X. now apply S, IP.
Qed.
End Pow.

(** ** Sorting *)
Lemma flt_R (x y : b64) : is_finite x = true -> is_finite y = true -> flt x y = Rlt_bool (B2R x) (B2R y).
Proof. intros X Y. change (flt x y) with (fgt y x). now apply fgt_finite. Qed.
Definition finite_keys {A} (l : list (b64 * A)) : Prop := Forall (fun p => is_finite (fst p) = true) l.
Definition up {A} (a b : b64 * A) : Prop := (B2R (fst a) <= B2R (fst b))%R.
Lemma insert_perm {A} (x : b64 * A) l : Permutation (insert_by x l) (x :: l).
Proof. induction l as [|y l IH]; cbn [insert_by]; [reflexivity|]. destruct (flt (fst y) (fst x)); [|reflexivity]. rewrite IH. apply perm_swap. Qed.
Lemma sort_perm {A} (l : list (b64 * A)) : Permutation (sort_by l) l.
Proof. induction l as [|x l IH]; [reflexivity|]. cbn [sort_by fold_right]. rewrite insert_perm. now apply perm_skip. Qed.
Lemma sort_finite {A} (l : list (b64 * A)) : finite_keys l -> finite_keys (sort_by l).
Proof. intros F. unfold finite_keys in *. rewrite Forall_forall in *. intros x X. apply F. apply (Permutation_in _ (sort_perm l) X). Qed.
Lemma sort_sorted {A} (l : list (b64 * A)) : finite_keys l -> StronglySorted up (sort_by l).
Proof.
  induction l as [|x l IH]; intros F; [constructor|]. inversion F as [|? ? FX FL]; subst. specialize (IH FL). pose proof (sort_finite l FL) as FS. cbn [sort_by fold_right]. change (fold_right insert_by [] l) with (sort_by l) in *. revert IH FS. generalize (sort_by l) as s. clear - FX.
  induction s as [|y s IH]; intros S FS; cbn [insert_by]; [repeat constructor|]. inversion FS as [|? ? FY FS']; subst. apply StronglySorted_inv in S. destruct S as (S & H). rewrite flt_R by assumption.
  destruct (Rlt_bool_spec (B2R (fst y)) (B2R (fst x))) as [C|C].
  - constructor; [now apply IH|]. apply Forall_forall. intros z Z. apply (Permutation_in _ (insert_perm x s)) in Z. destruct Z as [<-|Z]; [unfold up; lra|]. rewrite Forall_forall in H. now apply H.
  - constructor; [now constructor|]. constructor; [exact C|]. eapply Forall_impl; [|exact H]. unfold up. intros z Z. lra.
Qed.
(** Values of equal size stay in the order in which they came. *)
Lemma sort_stable {A} (l : list (b64 * A)) v : finite_keys l -> filter (fun p => Req_bool (B2R (fst p)) v) (sort_by l) = filter (fun p => Req_bool (B2R (fst p)) v) l.
Proof.
  induction l as [|x l IH]; intros F; [reflexivity|]. inversion F as [|? ? FX FL]; subst. specialize (IH FL). pose proof (sort_finite l FL) as FS. pose proof (sort_sorted l FL) as SS. cbn [sort_by fold_right]. change (fold_right insert_by [] l) with (sort_by l) in *. cbn [filter]. rewrite <- IH. clear IH.
  revert FS SS. generalize (sort_by l) as s. induction s as [|y s IH]; intros FS SS; cbn [insert_by]; [reflexivity|]. inversion FS as [|? ? FY FS']; subst. apply StronglySorted_inv in SS. destruct SS as (S & H). rewrite flt_R by assumption.
  destruct (Rlt_bool_spec (B2R (fst y)) (B2R (fst x))) as [C|C]; [|reflexivity]. cbn [filter]. rewrite IH by assumption. destruct (Req_bool_spec (B2R (fst x)) v) as [E1|E1]; [|reflexivity]. destruct (Req_bool_spec (B2R (fst y)) v) as [E2|E2]; [lra|reflexivity].
Qed.

(** ** Dictionaries *)
Lemma assoc_filter {A} (f : string -> bool) (d : list (string * A)) n : assoc String.eqb n (filter (fun e => f (fst e)) d) = if f n then assoc String.eqb n d else None.
Proof.
  induction d as [|[k v] d IH]; cbn [filter fst assoc]; [now destruct (f n)|]. destruct (String.eqb_spec n k) as [->|N].
  - destruct (f k) eqn:E; cbn [assoc]; [now rewrite String.eqb_refl|exact IH].
  - destruct (f k); cbn [assoc]; [|exact IH]. destruct (String.eqb_spec n k); [congruence|exact IH].
Qed.
Lemma assoc_keep {A} (d : list (string * A)) names n : assoc String.eqb n (keep d names) = if elem n names then assoc String.eqb n d else None.
Proof. exact (assoc_filter (fun k => elem k names) d n). Qed.
Lemma popped {A} names : forall d : list (string * A), NoDup names -> (forall n, In n names -> exists v, assoc String.eqb n d = Some v) ->
  exists d', pop_all d names = Returns d' /\ forall n, assoc String.eqb n d' = if elem n names then None else assoc String.eqb n d.
Proof.
  induction names as [|k names IH]; intros d N H; [exists d; split; [reflexivity|]; intros n; reflexivity|]. inversion N as [|? ? N1 N2]; subst. cbn [pop_all]. unfold pop, has_key. destruct (H k ltac:(now left)) as (v & V). rewrite V. cbn [pybind].
  assert (R : forall n, assoc String.eqb n (remove_key k d) = if (n =? k)%string then None else assoc String.eqb n d). { intros n. unfold remove_key. rewrite (assoc_filter (fun x => negb (x =? k)%string)). now destruct (n =? k)%string. }
  destruct (IH (remove_key k d) N2) as (d' & E & D).
  { intros n I. destruct (H n ltac:(now right)) as (x & X). exists x. rewrite R. destruct (String.eqb_spec n k); [congruence|exact X]. }
  exists d'. split; [exact E|]. intros n. rewrite D, R. cbn [elem existsb]. destruct (n =? k)%string; cbn [orb]; [now destruct (elem n names)|reflexivity].
Qed.
Lemma fewer_numbers {A} (b b' : string -> option A) ps k : (forall n l, b' n = Some l -> b n = Some l) -> numbers_below b ps k -> numbers_below b' ps k.
Proof. intros H (P & N). split; [exact P|]. intros n l p i E. apply (N n l). now apply H. Qed.
Lemma not_in_spec old new x : In x (not_in old new) <-> In x new /\ ~ In x old.
Proof. unfold not_in. rewrite filter_In. rewrite <- elem_not_In. now destruct (elem x old). Qed.
Lemma nodup_filter {A} (f : A -> bool) l : NoDup l -> NoDup (filter f l).
Proof. induction 1 as [|x l X N IH]; cbn; [constructor|]. destruct (f x); [|exact IH]. constructor; [|exact IH]. rewrite filter_In. tauto. Qed.

(** ** Generations *)
Section Ga.
Variable pow : b64 -> Z -> b64.
Variable detector : string -> string -> string -> option b64.
Variable files : list string.
Definition err (w : world) (kp kt : string) : b64 := fst (evaluate pow detector files w kp kt).
Hypothesis FIN : forall w kp kt, is_finite (err w kp kt) = true.
Lemma err_same w w' kp kt : profiles_in w' kp = profiles_in w kp -> transitions_in w' kt = transitions_in w kt -> err w' kp kt = err w kp kt.
Proof. intros P T. unfold err, evaluate, get_as_string. cbn [fst]. unfold profiles_in, transitions_in in *. now rewrite P, T. Qed.
Record good (g : ga) (w : world) : Prop := {
  gd_o : orderly w; gd_ko : kt_orderly w;
  gd_nk : NoDup (key_profiles g); gd_nt : NoDup (key_transitions g);
  gd_k : Forall (known w) (key_profiles g); gd_t : Forall (kt_known w) (key_transitions g);
  gd_bp : In (best_key_profile g) (key_profiles g); gd_bt : In (best_key_transition g) (key_transitions g);
  gd_low : lowest_error g = err w (best_key_profile g) (best_key_transition g) }.
Lemma better_le g x l : is_finite x = true -> is_finite (lowest_error g) = true -> better g x l = true -> (B2R x <= B2R (lowest_error g))%R.
Proof.
  intros X L. unfold better. rewrite flt_R by assumption. destruct (Rlt_bool_spec (B2R x) (B2R (lowest_error g))) as [C|C]; [intros _; lra|]. cbn [orb]. intros H. apply andb_prop in H. destruct H as (H & _).
  unfold feq in H. rewrite Beqb_correct in H by assumption. destruct (Req_bool_spec (B2R x) (B2R (lowest_error g))); [lra|discriminate].
Qed.
Lemma kt_orderly_same w w' : w_kt w' = w_kt w -> w_ratio w' = w_ratio w -> g_kt_id w' = g_kt_id w -> e_kt_id w' = e_kt_id w -> kt_orderly w -> kt_orderly w'.
Proof. intros A B C D. unfold kt_orderly, kt_numbers, transitions_in, ratios_in. now rewrite A, B, C, D. Qed.
Lemma orderly_same w w' : w_kp w' = w_kp w -> g_kp_id w' = g_kp_id w -> e_kp_id w' = e_kp_id w -> orderly w -> orderly w'.
Proof. intros A B C. unfold orderly, profiles_in. now rewrite A, B, C. Qed.
Definition same_transitions (w w' : world) : Prop := w_kt w' = w_kt w /\ w_ratio w' = w_ratio w /\ g_kt_id w' = g_kt_id w /\ e_kt_id w' = e_kt_id w.
Definition same_profiles (w w' : world) : Prop := w_kp w' = w_kp w /\ g_kp_id w' = g_kp_id w /\ e_kp_id w' = e_kp_id w.
(** What a generation of profiles does. *)
Definition profile_step (threshold : Z) (g : ga) (w : world) (g' : ga) (w' : world) : Prop :=
  same_transitions w w' /\ key_transitions g' = key_transitions g /\ best_key_transition g' = best_key_transition g /\
  ((better g (lowest_error g') (scores g') = true /\ (forall n, (exists l, profiles_in w' n = Some l) <-> In n (key_profiles g')) /\ scores g' = map (fun n => err w' n (best_key_transition g)) (key_profiles g') /\
    hd_error (key_profiles g') = Some (best_key_profile g') /\ StronglySorted (fun x y => (B2R x <= B2R y)%R) (scores g') /\ bad_generations g' = 0 /\ profiles_mode g' = profiles_mode g) \/
   (g' = worse threshold g /\ kept_in (profiles_in w) (profiles_in w'))).
Lemma grades_sorted w names kt : StronglySorted (fun x y => (B2R x <= B2R y)%R) (map fst (grade_key_profiles pow detector files w names kt)).
Proof.
  unfold grade_key_profiles. set (l := map _ names). assert (F : finite_keys l) by (apply Forall_forall; intros p P; apply in_map_iff in P; destruct P as (x & <- & _); apply FIN).
  pose proof (sort_sorted l F) as S. revert S. generalize (sort_by l) as s. induction s as [|a s IH]; intros S; cbn [map]; [constructor|]. apply StronglySorted_inv in S. destruct S as (S & H). constructor; [now apply IH|]. apply Forall_map. exact H.
Qed.
Lemma grades w names kt : let gr := grade_key_profiles pow detector files w names kt in
  Permutation (map (fun x => fst (snd x)) gr) names /\ Forall (fun p => p = evaluate pow detector files w (fst (snd p)) kt) gr.
Proof.
  cbv zeta. unfold grade_key_profiles. set (f := fun x => evaluate pow detector files w x kt). split.
  - transitivity (map (fun x => fst (snd x)) (map f names)); [apply Permutation_map, sort_perm|]. rewrite map_map. cbn. now rewrite map_id.
  - apply Forall_forall. intros p P. apply (Permutation_in _ (sort_perm _)) in P. apply in_map_iff in P. destruct P as (x & <- & _). reflexivity.
Qed.
Lemma worse_fields threshold g : let g' := worse threshold g in key_profiles g' = key_profiles g /\ key_transitions g' = key_transitions g /\ best_key_profile g' = best_key_profile g /\ best_key_transition g' = best_key_transition g /\
  lowest_error g' = lowest_error g /\ scores g' = scores g.
Proof. cbv zeta. unfold worse. destruct (threshold <? bad_generations g + 1); now repeat split. Qed.
Lemma profile_generation_ok maximum threshold g w ds : good g w ->
  no_key (profile_generation pow detector files maximum threshold g w ds) (fun g' w' => good g' w' /\ (B2R (lowest_error g') <= B2R (lowest_error g))%R /\ profile_step threshold g w g' w').
Proof.
  intros D. pose proof (gd_low _ _ D) as LOW. assert (FL : is_finite (lowest_error g) = true) by (rewrite LOW; apply FIN). unfold profile_generation.
  refine (no_key_bind _ _ _ _ _ _ (evolving_ok maximum (key_profiles g) w ds (gd_o _ _ D) (gd_nk _ _ D) (gd_k _ _ D)) _). intros new w1 ds1 (G & O1 & N1 & C1). rewrite Forall_forall in C1.
  assert (K1 : forall n, In n new -> known w1 n). { intros n X. destruct (C1 n X) as [Y|Y]; [|apply Y]. pose proof (gd_k _ _ D) as K. rewrite Forall_forall in K. now apply (grows_known w w1), K. }
  unfold seq_run at 1, look. destruct (grades w1 new (best_key_transition g)) as (PM & EV). pose proof (grades_sorted w1 new (best_key_transition g)) as SO. set (gr := grade_key_profiles _ _ _ _ _ _) in *.
  destruct gr as [|[e [bk bt]] rest] eqn:GR; [discriminate|]. assert (E0 : e = err w1 bk (best_key_transition g)). { inversion EV as [|? ? Q _]; subst. unfold evaluate in Q. cbn [fst snd] in Q. injection Q as Q _. unfold err, evaluate. exact Q. }
  cbv zeta. match goal with |- context [better g e ?l] => destruct (better g e l) eqn:B end.
  - unfold keep_key_profiles, change, seq_run, ret, no_key. set (names := map (fun x => fst (snd x)) ((e, (bk, bt)) :: rest)) in *. cbv beta. match goal with |- good _ ?x /\ _ => set (w2 := x) end.
    assert (PI : forall n, profiles_in w2 n = if elem n names then profiles_in w1 n else None) by (intros n; apply assoc_keep).
    assert (IN : forall n, In n names -> profiles_in w2 n = profiles_in w1 n) by (intros n X; rewrite PI; apply elem_In in X; now rewrite X).
    assert (IW : forall n, In n names -> In n new) by (intros n; apply (Permutation_in _ PM)).
    assert (TS : same_transitions w w2) by (destruct G; repeat split; assumption).
    assert (TT : forall n, transitions_in w2 n = transitions_in w1 n) by reflexivity.
    assert (SUB : forall n l, profiles_in w2 n = Some l -> profiles_in w1 n = Some l) by (intros n l H; rewrite PI in H; destruct (elem n names); [exact H|discriminate]).
    split; [|split].
    + split; cbn [key_profiles key_transitions best_key_profile best_key_transition lowest_error].
      * split; apply (fewer_numbers _ _ _ _ SUB); apply O1.
      * destruct TS as (T1 & T2 & T3 & T4). apply (kt_orderly_same w w2 T1 T2 T3 T4). apply D.
      * apply (Permutation_NoDup (Permutation_sym PM) N1).
      * apply D.
      * apply Forall_forall. intros n X. destruct (K1 n (IW n X)) as (l & L). exists l. unfold has. now rewrite IN.
      * eapply Forall_impl; [|apply D]. intros n (l & L). exists l. unfold transitions_in in *. destruct TS as (-> & _). exact L.
      * now left.
      * apply D.
      * rewrite E0. symmetry. apply err_same; [apply IN; now left|apply TT].
    + cbn [lowest_error]. apply (better_le g e _ ltac:(rewrite E0; apply FIN) FL B).
    + split; [exact TS|]. split; [reflexivity|]. split; [reflexivity|]. left. cbn [key_profiles best_key_profile scores lowest_error bad_generations profiles_mode]. split; [exact B|]. split.
      { intros n. rewrite PI. split; [intros (l & L); destruct (elem n names) eqn:X; [now apply elem_In|discriminate]|]. intros X. destruct (K1 n (IW n X)) as (l & L). exists l. assert (X' : elem n names = true) by (apply elem_In; exact X). now rewrite X'. }
      split; [|split; [reflexivity|split; [exact SO|now split]]].
      { rewrite map_map. apply map_ext_in. intros p P. rewrite Forall_forall in EV. rewrite (EV p P) at 1. change (fst (evaluate pow detector files w1 (fst (snd p)) (best_key_transition g))) with (err w1 (fst (snd p)) (best_key_transition g)).
        symmetry. apply err_same; [|apply TT]. apply IN. unfold names. apply in_map_iff. now exists p. }
  - unfold flush_key_profiles. unfold seq_run.
    assert (NN : forall n, In n (not_in (key_profiles g) new) -> In n new /\ ~ In n (key_profiles g)) by (intros n; apply not_in_spec).
    assert (ND : NoDup (not_in (key_profiles g) new)) by (now apply nodup_filter).
    destruct (popped (not_in (key_profiles g) new) (w_kp w1) ND) as (d & -> & PD). { intros n X. apply NN in X. destruct (K1 n (proj1 X)) as (l & L). now exists l. }
    unfold ret, no_key. set (w2 := with_profiles d w1). assert (PI : forall n, profiles_in w2 n = if elem n (not_in (key_profiles g) new) then None else profiles_in w1 n) by exact PD.
    assert (KEPT : kept_in (profiles_in w) (profiles_in w2)).
    { intros n l H. rewrite PI. destruct (elem n (not_in (key_profiles g) new)) eqn:X; [|now apply G]. apply elem_In in X. apply NN in X. destruct X as (X1 & X2). destruct (C1 n X1) as [Y|(Y & _)]; [tauto|]. destruct Y. now exists l. }
    assert (TS : same_transitions w w2) by (destruct G; repeat split; assumption).
    destruct (worse_fields threshold g) as (W1 & W2 & W3 & W4 & W5 & W6). split; [|split; [rewrite W5; lra|split; [exact TS|split; [exact W2|split; [exact W4|right; now split]]]]].
    assert (SUB : forall n l, profiles_in w2 n = Some l -> profiles_in w1 n = Some l) by (intros n l H; rewrite PI in H; destruct (elem n (not_in (key_profiles g) new)); [discriminate|exact H]).
    pose proof (gd_k _ _ D) as KP. rewrite Forall_forall in KP.
    split; rewrite ?W1, ?W2, ?W3, ?W4, ?W5; try apply D.
    + split; apply (fewer_numbers _ _ _ _ SUB); apply O1.
    + destruct TS as (T1 & T2 & T3 & T4). apply (kt_orderly_same w w2 T1 T2 T3 T4). apply D.
    + apply Forall_forall. intros n X. destruct (KP n X) as (l & L). exists l. now apply KEPT.
    + eapply Forall_impl; [|apply D]. intros n (l & L). exists l. unfold transitions_in in *. destruct TS as (-> & _). exact L.
    + rewrite LOW. symmetry. apply err_same; [|unfold transitions_in; now destruct TS as (-> & _)]. destruct (KP _ (gd_bp _ _ D)) as (l & L). rewrite (KEPT _ _ L). now rewrite L.
Qed.
Definition transition_step (threshold : Z) (g : ga) (w : world) (g' : ga) (w' : world) : Prop :=
  same_profiles w w' /\ key_profiles g' = key_profiles g /\ best_key_profile g' = best_key_profile g /\
  ((better g (lowest_error g') (scores g') = true /\ (forall n, (exists l, transitions_in w' n = Some l) <-> In n (key_transitions g')) /\ scores g' = map (fun n => err w' (best_key_profile g) n) (key_transitions g') /\
    hd_error (key_transitions g') = Some (best_key_transition g') /\ StronglySorted (fun x y => (B2R x <= B2R y)%R) (scores g') /\ bad_generations g' = 0 /\ profiles_mode g' = profiles_mode g) \/
   (g' = worse threshold g /\ kept_in (transitions_in w) (transitions_in w') /\ forall n l x, transitions_in w n = Some l -> ratios_in w n = Some x -> ratios_in w' n = Some x)).
Lemma grades_kt_sorted w names kp : StronglySorted (fun x y => (B2R x <= B2R y)%R) (map fst (grade_key_transitions pow detector files w kp names)).
Proof.
  unfold grade_key_transitions. set (l := map _ names). assert (F : finite_keys l) by (apply Forall_forall; intros p P; apply in_map_iff in P; destruct P as (x & <- & _); apply FIN).
  pose proof (sort_sorted l F) as S. revert S. generalize (sort_by l) as s. induction s as [|a s IH]; intros S; cbn [map]; [constructor|]. apply StronglySorted_inv in S. destruct S as (S & H). constructor; [now apply IH|]. apply Forall_map. exact H.
Qed.
Lemma grades_kt w names kp : let gr := grade_key_transitions pow detector files w kp names in
  Permutation (map (fun x => snd (snd x)) gr) names /\ Forall (fun p => p = evaluate pow detector files w kp (snd (snd p))) gr.
Proof.
  cbv zeta. unfold grade_key_transitions. set (f := fun x => evaluate pow detector files w kp x). split.
  - transitivity (map (fun x => snd (snd x)) (map f names)); [apply Permutation_map, sort_perm|]. rewrite map_map. cbn. now rewrite map_id.
  - apply Forall_forall. intros p P. apply (Permutation_in _ (sort_perm _)) in P. apply in_map_iff in P. destruct P as (x & <- & _). reflexivity.
Qed.
Lemma transition_generation_ok maximum threshold g w ds : good g w ->
  no_key (transition_generation pow detector files maximum threshold g w ds) (fun g' w' => good g' w' /\ (B2R (lowest_error g') <= B2R (lowest_error g))%R /\ transition_step threshold g w g' w').
Proof.
  intros D. pose proof (gd_low _ _ D) as LOW. assert (FL : is_finite (lowest_error g) = true) by (rewrite LOW; apply FIN). unfold transition_generation.
  refine (no_key_bind _ _ _ _ _ _ (evolving_kt_ok pow maximum (key_transitions g) w ds (gd_ko _ _ D) (gd_nt _ _ D) (gd_t _ _ D)) _). intros new w1 ds1 (G & O1 & N1 & C1). rewrite Forall_forall in C1.
  assert (K1 : forall n, In n new -> kt_known w1 n). { intros n X. destruct (C1 n X) as [Y|Y]; [|apply Y]. pose proof (gd_t _ _ D) as K. rewrite Forall_forall in K. now apply (kt_grows_known w w1), K. }
  unfold seq_run at 1, look. destruct (grades_kt w1 new (best_key_profile g)) as (PM & EV). pose proof (grades_kt_sorted w1 new (best_key_profile g)) as SO. set (gr := grade_key_transitions _ _ _ _ _ _) in *.
  destruct gr as [|[e [bp bk]] rest] eqn:GR; [discriminate|]. assert (E0 : e = err w1 (best_key_profile g) bk). { inversion EV as [|? ? Q _]; subst. unfold evaluate in Q. cbn [fst snd] in Q. injection Q as Q _. unfold err, evaluate. exact Q. }
  cbv zeta. match goal with |- context [better g e ?l] => destruct (better g e l) eqn:B end.
  - unfold keep_key_transitions, change, seq_run, ret, no_key. set (names := map (fun x => snd (snd x)) ((e, (bp, bk)) :: rest)) in *. cbv beta. match goal with |- good _ ?x /\ _ => set (w2 := x) end.
    assert (PI : forall n, transitions_in w2 n = if elem n names then transitions_in w1 n else None) by (intros n; apply assoc_keep).
    assert (PR : forall n, ratios_in w2 n = if elem n names then ratios_in w1 n else None) by (intros n; apply assoc_keep).
    assert (IN : forall n, In n names -> transitions_in w2 n = transitions_in w1 n) by (intros n X; rewrite PI; apply elem_In in X; now rewrite X).
    assert (IW : forall n, In n names -> In n new) by (intros n; apply (Permutation_in _ PM)).
    assert (TS : same_profiles w w2) by (destruct G; repeat split; assumption).
    assert (TT : forall n, profiles_in w2 n = profiles_in w1 n) by reflexivity.
    assert (SUB : forall n l, transitions_in w2 n = Some l -> transitions_in w1 n = Some l) by (intros n l H; rewrite PI in H; destruct (elem n names); [exact H|discriminate]).
    assert (SUBR : forall n l, ratios_in w2 n = Some l -> ratios_in w1 n = Some l) by (intros n l H; rewrite PR in H; destruct (elem n names); [exact H|discriminate]).
    split; [|split].
    + split; cbn [key_profiles key_transitions best_key_profile best_key_transition lowest_error].
      * destruct TS as (T1 & T2 & T3). apply (orderly_same w w2 T1 T2 T3). apply D.
      * destruct O1 as ((O1 & O2) & O3 & O4). split; split; [apply (fewer_numbers _ _ _ _ SUB O1)|apply (fewer_numbers _ _ _ _ SUB O2)|apply (fewer_numbers _ _ _ _ SUBR O3)|apply (fewer_numbers _ _ _ _ SUBR O4)].
      * apply D.
      * apply (Permutation_NoDup (Permutation_sym PM) N1).
      * eapply Forall_impl; [|apply D]. intros n (l & L). exists l. unfold has, profiles_in in *. destruct TS as (-> & _). exact L.
      * apply Forall_forall. intros n X. destruct (K1 n (IW n X)) as (l & L). exists l. now rewrite IN.
      * apply D.
      * now left.
      * rewrite E0. symmetry. apply err_same; [apply TT|apply IN; now left].
    + cbn [lowest_error]. apply (better_le g e _ ltac:(rewrite E0; apply FIN) FL B).
    + split; [exact TS|]. split; [reflexivity|]. split; [reflexivity|]. left. cbn [key_transitions best_key_transition scores lowest_error bad_generations profiles_mode]. split; [exact B|]. split.
      { intros n. rewrite PI. split; [intros (l & L); destruct (elem n names) eqn:X; [now apply elem_In|discriminate]|]. intros X. destruct (K1 n (IW n X)) as (l & L). exists l. assert (X' : elem n names = true) by (apply elem_In; exact X). now rewrite X'. }
      split; [|split; [reflexivity|split; [exact SO|now split]]].
      { rewrite map_map. apply map_ext_in. intros p P. rewrite Forall_forall in EV. rewrite (EV p P) at 1. change (fst (evaluate pow detector files w1 (best_key_profile g) (snd (snd p)))) with (err w1 (best_key_profile g) (snd (snd p))).
        symmetry. apply err_same; [apply TT|]. apply IN. unfold names. apply in_map_iff. now exists p. }
  - unfold flush_key_transitions. unfold seq_run. set (gone := not_in (key_transitions g) new) in *.
    assert (NN : forall n, In n gone -> In n new /\ ~ In n (key_transitions g)) by (intros n; apply not_in_spec).
    assert (ND : NoDup gone) by (now apply nodup_filter).
    destruct (popped gone (w_kt w1) ND) as (d & -> & PD). { intros n X. apply NN in X. destruct (K1 n (proj1 X)) as (l & L). now exists l. }
    destruct (popped (filter (fun r => has_key r (w_ratio w1)) gone) (w_ratio w1) (nodup_filter _ _ ND)) as (d2 & -> & PD2). { intros n X. apply filter_In in X. destruct X as (_ & X). unfold has_key in X. destruct (assoc String.eqb n (w_ratio w1)) as [v|]; [now exists v|discriminate]. }
    unfold ret, no_key. cbv beta. match goal with |- good _ ?x /\ _ => set (w2 := x) end. assert (PI : forall n, transitions_in w2 n = if elem n gone then None else transitions_in w1 n) by exact PD.
    assert (GONE : forall n, In n gone -> transitions_in w n = None).
    { intros n X. apply NN in X. destruct X as (X1 & X2). destruct (C1 n X1) as [Y|(Y & _)]; [tauto|]. destruct (transitions_in w n) as [l|] eqn:H; [|reflexivity]. destruct Y. now exists l. }
    assert (KEPT : kept_in (transitions_in w) (transitions_in w2)). { intros n l H. rewrite PI. destruct (elem n gone) eqn:X; [|now apply G]. apply elem_In, GONE in X. congruence. }
    assert (KEPTR : forall n l x, transitions_in w n = Some l -> ratios_in w n = Some x -> ratios_in w2 n = Some x).
    { intros n l x H R. unfold ratios_in at 1. cbn [w_ratio w2 with_transitions]. rewrite PD2. destruct (elem n (filter _ gone)) eqn:X; [|now apply (kg_ratio _ _ G)]. apply elem_In, filter_In in X. destruct X as (X & _). apply GONE in X. congruence. }
    assert (TS : same_profiles w w2) by (destruct G; repeat split; assumption).
    destruct (worse_fields threshold g) as (W1 & W2 & W3 & W4 & W5 & W6). split; [|split; [rewrite W5; lra|split; [exact TS|split; [exact W1|split; [exact W3|right; now split]]]]].
    assert (SUB : forall n l, transitions_in w2 n = Some l -> transitions_in w1 n = Some l) by (intros n l H; rewrite PI in H; destruct (elem n gone); [discriminate|exact H]).
    assert (SUBR : forall n l, ratios_in w2 n = Some l -> ratios_in w1 n = Some l) by (intros n l H; unfold ratios_in at 1 in H; cbn [w_ratio w2 with_transitions] in H; rewrite PD2 in H; destruct (elem n _) in H; [discriminate|exact H]).
    pose proof (gd_t _ _ D) as KP. rewrite Forall_forall in KP.
    split; rewrite ?W1, ?W2, ?W3, ?W4, ?W5; try apply D.
    + destruct TS as (T1 & T2 & T3). apply (orderly_same w w2 T1 T2 T3). apply D.
    + destruct O1 as ((O1 & O2) & O3 & O4). split; split; [apply (fewer_numbers _ _ _ _ SUB O1)|apply (fewer_numbers _ _ _ _ SUB O2)|apply (fewer_numbers _ _ _ _ SUBR O3)|apply (fewer_numbers _ _ _ _ SUBR O4)].
    + eapply Forall_impl; [|apply D]. intros n (l & L). exists l. unfold has, profiles_in in *. destruct TS as (-> & _). exact L.
    + apply Forall_forall. intros n X. destruct (KP n X) as (l & L). exists l. now apply KEPT.
    + rewrite LOW. symmetry. apply err_same; [unfold profiles_in; now destruct TS as (-> & _)|]. destruct (KP _ (gd_bt _ _ D)) as (l & L). rewrite (KEPT _ _ L). now rewrite L.
Qed.
Lemma loop_ok kpm ktm threshold n : forall g w ds, good g w ->
  no_key (ga_loop pow detector files kpm ktm threshold n g w ds) (fun g' w' => good g' w' /\ (B2R (lowest_error g') <= B2R (lowest_error g))%R).
Proof.
  induction n as [|n IH]; intros g w ds D; [split; [exact D|lra]|]. cbn [ga_loop]. destruct (fgt (lowest_error g) (py_float 0)); [|split; [exact D|lra]].
  destruct (profiles_mode g).
  - refine (no_key_bind _ _ _ _ _ _ (profile_generation_ok kpm threshold g w ds D) _). intros g1 w1 ds1 (D1 & L1 & _). refine (no_key_weaken _ _ _ _ (IH g1 w1 ds1 D1)). intros g2 w2 (D2 & L2). split; [exact D2|lra].
  - refine (no_key_bind _ _ _ _ _ _ (transition_generation_ok ktm threshold g w ds D) _). intros g1 w1 ds1 (D1 & L1 & _). refine (no_key_weaken _ _ _ _ (IH g1 w1 ds1 D1)). intros g2 w2 (D2 & L2). split; [exact D2|lra].
Qed.

(** ** The initial tables *)
Notation le64 := (fun x y : b64 => (B2R x <= B2R y)%R).
Definition least (w : world) (kps : list string) (kt : string) (e : b64) : Prop := (exists kp, In kp kps /\ e = err w kp kt) /\ forall kp, In kp kps -> (B2R e <= B2R (err w kp kt))%R.
Record started (w : world) (kps seen : list string) (g : ga) (gr : list (b64 * string)) : Prop := {
  st_perm : Permutation (key_profiles g) kps;
  st_hd : hd_error (key_profiles g) = Some (best_key_profile g);
  st_scores : scores g = map (fun n => err w n (best_key_transition g)) (key_profiles g);
  st_sorted : StronglySorted le64 (scores g);
  st_bt : In (best_key_transition g) seen;
  st_low : lowest_error g = err w (best_key_profile g) (best_key_transition g);
  st_least : forall kp kt, In kp kps -> In kt seen -> (B2R (lowest_error g) <= B2R (err w kp kt))%R;
  st_gr : Forall2 (fun kt p => snd p = kt /\ least w kps kt (fst p)) seen gr;
  st_first : hd_error (map snd (filter (fun p => Req_bool (B2R (fst p)) (B2R (lowest_error g))) gr)) = Some (best_key_transition g);
  st_bad : bad_generations g = 0; st_mode : profiles_mode g = true }.
Lemma graded_best w names kt : names <> [] -> exists e kp rest, grade_key_profiles pow detector files w names kt = (e, (kp, kt)) :: rest /\ e = err w kp kt /\
  Permutation (map (fun x => fst (snd x)) ((e, (kp, kt)) :: rest)) names /\ map fst ((e, (kp, kt)) :: rest) = map (fun n => err w n kt) (map (fun x => fst (snd x)) ((e, (kp, kt)) :: rest)) /\
  StronglySorted le64 (map fst ((e, (kp, kt)) :: rest)) /\ forall n, In n names -> (B2R e <= B2R (err w n kt))%R.
Proof.
  intros NE. destruct (grades w names kt) as (PM & EV). pose proof (grades_sorted w names kt) as SO. destruct (grade_key_profiles pow detector files w names kt) as [|[e [kp t]] rest].
  - apply Permutation_length in PM. destruct names; [congruence|discriminate].
  - assert (E0 : e = err w kp kt /\ t = kt) by (inversion EV as [|? ? Q _]; subst; unfold evaluate in Q; cbn [fst snd] in Q; injection Q as Q1 Q2; split; [exact Q1|exact Q2]). destruct E0 as (E0 & ->).
    assert (SC : map fst ((e, (kp, kt)) :: rest) = map (fun n => err w n kt) (map (fun x => fst (snd x)) ((e, (kp, kt)) :: rest))).
    { rewrite map_map. apply map_ext_in. intros p P. rewrite Forall_forall in EV. rewrite (EV p P) at 1. reflexivity. }
    exists e, kp, rest. split; [reflexivity|]. split; [exact E0|]. split; [exact PM|]. split; [exact SC|]. split; [exact SO|].
    intros n N. apply (Permutation_in _ (Permutation_sym PM)) in N. apply (in_map (fun n => err w n kt)) in N. assert (N' : In (err w n kt) (map fst ((e, (kp, kt)) :: rest))) by (rewrite SC; exact N). clear N. rename N' into N. cbn [map fst] in SO, N. destruct N as [<-|N]; [lra|]. apply StronglySorted_inv in SO. destruct SO as (_ & H). rewrite Forall_forall in H. now apply H.
Qed.
Lemma hd_app {A} (l l' : list A) x : hd_error l = Some x -> hd_error (l ++ l') = Some x. Proof. now destruct l. Qed.
Lemma finding w kps kts : forall seen g gr, started w kps seen g gr -> exists seen' rest g' gr', find_best pow detector files w kts g gr = Returns (g', gr') /\ seen ++ kts = seen' ++ rest /\ (exists more, seen' = seen ++ more) /\ started w kps seen' g' gr' /\ (rest = [] \/ B2R (lowest_error g') = 0%R).
Proof.
  induction kts as [|kt kts IH]; intros seen g gr S; cbn [find_best].
  - exists seen, [], g, gr. split; [reflexivity|]. split; [reflexivity|]. split; [exists []; now rewrite app_nil_r|]. split; [exact S|now left].
  - assert (NE : key_profiles g <> []) by (pose proof (st_hd _ _ _ _ _ S) as H; intros Q; rewrite Q in H; discriminate). destruct (graded_best w (key_profiles g) kt NE) as (e & kp & rest & -> & E & PM & SC & SO & MI). cbv zeta iota beta.
    assert (FE : is_finite e = true) by (rewrite E; apply FIN). assert (FL : is_finite (lowest_error g) = true) by (rewrite (st_low _ _ _ _ _ S); apply FIN).
    pose proof (st_perm _ _ _ _ _ S) as SP. assert (PK : Permutation (map (fun x => fst (snd x)) ((e, (kp, kt)) :: rest)) kps) by (transitivity (key_profiles g); [exact PM|exact SP]).
    assert (LE : least w kps kt e). { split; [exists kp; split; [apply (Permutation_in _ PK); now left|exact E]|]. intros n N. apply MI. now apply (Permutation_in _ (Permutation_sym SP)). }
    assert (GR : Forall2 (fun kt p => snd p = kt /\ least w kps kt (fst p)) (seen ++ [kt]) (gr ++ [(e, kt)])) by (apply Forall2_app; [apply S|constructor; [split; [reflexivity|exact LE]|constructor]]).
    rewrite flt_R by assumption. destruct (Rlt_bool_spec (B2R e) (B2R (lowest_error g))) as [C|C].
    + match goal with |- context [if feq e _ then Returns (?x, _) else _] => set (g' := x) end. assert (S' : started w kps (seen ++ [kt]) g' (gr ++ [(e, kt)])).
      { split; cbn [g' key_profiles best_key_profile best_key_transition lowest_error scores bad_generations profiles_mode]; try assumption; try apply S; try reflexivity.
        - apply in_app_iff. right. now left.
        - intros p t P T. apply in_app_iff in T. destruct T as [T|[<-|[]]]; [|now apply LE]. pose proof (st_least _ _ _ _ _ S p t P T). lra.
        - rewrite filter_app, map_app. cbn [filter fst map]. rewrite Req_bool_true by reflexivity. cbn [map snd]. replace (filter _ gr) with (@nil (b64 * string)); [reflexivity|]. symmetry.
          assert (X : forall p, In p gr -> (B2R e < B2R (fst p))%R).
          { intros p P. pose proof (st_gr _ _ _ _ _ S) as F. pose proof (st_least _ _ _ _ _ S) as S'. clear - F P S' C. assert (Q : exists t, In t seen /\ least w kps t (fst p)). { clear S'. induction F as [|a b la lb (H1 & H2) F IH]; [destruct P|]. destruct P as [<-|P]; [exists a; split; [now left|exact H2]|]. destruct (IH P) as (t & T1 & T2). exists t. split; [now right|exact T2]. }
            destruct Q as (t & T & (q & Q & ->) & _). exact (Rlt_le_trans _ _ _ C (S' q t Q T)). }
          clear - X. induction gr as [|a l IH]; [reflexivity|]. cbn [filter]. rewrite Req_bool_false by (apply Rgt_not_eq, X; now left). apply IH. intros p P. apply X. now right. }
      destruct (feq e (py_float 0)) eqn:Z.
      * exists (seen ++ [kt]), kts, g', (gr ++ [(e, kt)]). split; [reflexivity|]. split; [now rewrite <- app_assoc|]. split; [now exists [kt]|]. split; [exact S'|]. right. cbn [g' lowest_error]. unfold feq in Z. rewrite Beqb_correct in Z by (assumption || reflexivity). destruct (Req_bool_spec (B2R e) (B2R (py_float 0))) as [Q|]; [exact Q|discriminate].
      * destruct (IH (seen ++ [kt]) g' (gr ++ [(e, kt)]) S') as (s' & r' & g2 & gr2 & F1 & F2 & (more & F3) & F4). exists s', r', g2, gr2. split; [exact F1|]. split; [now rewrite <- F2, <- app_assoc|]. split; [exists (kt :: more); rewrite F3, <- app_assoc; reflexivity|exact F4].
    + assert (S' : started w kps (seen ++ [kt]) g (gr ++ [(e, kt)])).
      { split; try apply S; try exact GR.
        - apply in_app_iff. left. apply S.
        - intros p t P T. apply in_app_iff in T. destruct T as [T|[<-|[]]]; [now apply (st_least _ _ _ _ _ S)|]. pose proof (proj2 LE p P). lra.
        - rewrite filter_app, map_app. apply hd_app. apply S. }
      destruct (IH (seen ++ [kt]) g (gr ++ [(e, kt)]) S') as (s' & r' & g2 & gr2 & F1 & F2 & (more & F3) & F4). exists s', r', g2, gr2. split; [exact F1|]. split; [now rewrite <- F2, <- app_assoc|]. split; [exists (kt :: more); rewrite F3, <- app_assoc; reflexivity|exact F4].
Qed.
Definition no_worse (w : world) (kps : list string) (a b : string) : Prop := forall kp, In kp kps -> exists kp', In kp' kps /\ (B2R (err w kp' a) <= B2R (err w kp b))%R.
Definition best_start (w : world) (kps kts : list string) (g : ga) : Prop :=
  (exists left, Permutation (key_transitions g ++ left) kts /\ (left = [] \/ B2R (lowest_error g) = 0%R)) /\
  Permutation (key_profiles g) kps /\ hd_error (key_profiles g) = Some (best_key_profile g) /\ hd_error (key_transitions g) = Some (best_key_transition g) /\
  scores g = map (fun n => err w n (best_key_transition g)) (key_profiles g) /\ StronglySorted le64 (scores g) /\ StronglySorted (no_worse w kps) (key_transitions g) /\
  lowest_error g = err w (best_key_profile g) (best_key_transition g) /\ (forall kp kt, In kp kps -> In kt (key_transitions g) -> (B2R (lowest_error g) <= B2R (err w kp kt))%R) /\
  bad_generations g = 0 /\ profiles_mode g = true.
Lemma filter_head {A} (l : list (b64 * A)) v x : StronglySorted up l -> (forall p, In p l -> (v <= B2R (fst p))%R) -> hd_error (map snd (filter (fun p => Req_bool (B2R (fst p)) v) l)) = Some x -> hd_error (map snd l) = Some x.
Proof.
  destruct l as [|p l]; [discriminate|]. intros S H. cbn [filter map hd_error]. destruct (Req_bool_spec (B2R (fst p)) v) as [E|E]; [cbn; congruence|]. intros F. exfalso. apply StronglySorted_inv in S. destruct S as (_ & S). rewrite Forall_forall in S.
  destruct (filter _ l) as [|q l'] eqn:Q; [discriminate|]. assert (I : In q (filter (fun p => Req_bool (B2R (fst p)) v) l)) by (rewrite Q; now left). apply filter_In in I. destruct I as (I & J). destruct (Req_bool_spec (B2R (fst q)) v) as [K|]; [|discriminate].
  specialize (S q I). unfold up in S. pose proof (H p ltac:(now left)). lra.
Qed.
Lemma starting w kps kts : kps <> [] -> kts <> [] -> exists g, ga_start pow detector files w kps kts = Returns g /\ best_start w kps kts g.
Proof.
  intros NK NT. destruct kts as [|kt kts]; [congruence|]. unfold ga_start. cbn [find_best key_profiles]. destruct (graded_best w kps kt NK) as (e & kp & rest & -> & E & PM & SC & SO & MI). cbv zeta iota beta. cbn [lowest_error].
  assert (FE : is_finite e = true) by (rewrite E; apply FIN). assert (LT : flt e fpinf = true) by (destruct e; try discriminate; reflexivity). rewrite LT.
  assert (LE : least w kps kt e) by (split; [exists kp; split; [apply (Permutation_in _ PM); now left|exact E]|exact MI]).
  match goal with |- context [if feq e _ then Returns (?x, _) else _] => set (g' := x) end. assert (S' : started w kps [kt] g' [(e, kt)]).
  { split; cbn [g' key_profiles best_key_profile best_key_transition lowest_error scores bad_generations profiles_mode]; try assumption; try reflexivity.
    - now left.
    - intros p t P [<-|[]]. now apply MI.
    - constructor; [split; [reflexivity|exact LE]|constructor].
    - cbn [filter fst]. now rewrite Req_bool_true. }
  assert (R : exists seen left g gr, (if feq e (py_float 0) then Returns (g', [] ++ [(e, kt)]) else find_best pow detector files w kts g' ([] ++ [(e, kt)])) = Returns (g, gr) /\ kt :: kts = seen ++ left /\ started w kps seen g gr /\ (left = [] \/ B2R (lowest_error g) = 0%R)).
  { destruct (feq e (py_float 0)) eqn:Z.
    - exists [kt], kts, g', [(e, kt)]. split; [reflexivity|]. split; [reflexivity|]. split; [exact S'|]. right. cbn [g' lowest_error]. unfold feq in Z. rewrite Beqb_correct in Z by (assumption || reflexivity). destruct (Req_bool_spec (B2R e) (B2R (py_float 0))) as [Q|]; [exact Q|discriminate].
    - destruct (finding w kps kts [kt] g' [(e, kt)] S') as (s' & r' & g2 & gr2 & F1 & F2 & _ & F4 & F5). exists s', r', g2, gr2. split; [exact F1|]. split; [exact F2|]. split; [exact F4|exact F5]. }
  destruct R as (seen & left & g & gr & -> & KE & S & Z). unfold pybind. cbn [fst snd]. eexists. split; [reflexivity|].
  assert (GP : Permutation (map snd gr) seen). { replace (map snd gr) with seen; [reflexivity|]. generalize (st_gr _ _ _ _ _ S). clear. intros F. induction F as [|a b la lb (H & _) F IH]; [reflexivity|]. cbn [map]. now rewrite H, IH. }
  assert (GL : forall p, In p gr -> In (snd p) seen /\ least w kps (snd p) (fst p)).
  { generalize (st_gr _ _ _ _ _ S). clear. intros F. induction F as [|a b la lb (H1 & H2) F IH]; intros p P; [destruct P|]. destruct P as [<-|P]; [rewrite H1; split; [now left|exact H2]|]. destruct (IH p P) as (T1 & T2). split; [now right|exact T2]. }
  assert (GF : finite_keys gr) by (apply Forall_forall; intros p P; destruct (GL p P) as (_ & (q & _ & ->) & _); apply FIN).
  assert (SP : Permutation (map snd (sort_by gr)) seen) by (transitivity (map snd gr); [apply Permutation_map, sort_perm|exact GP]).
  unfold best_start. cbn [key_profiles key_transitions best_key_profile best_key_transition lowest_error scores bad_generations profiles_mode].
  split; [exists left; split; [rewrite KE; now apply Permutation_app_tail|exact Z]|]. split; [apply S|]. split; [apply S|]. split.
  { apply (filter_head _ (B2R (lowest_error g))); [now apply sort_sorted| |rewrite sort_stable by exact GF; apply S]. intros p P. apply (Permutation_in _ (sort_perm gr)) in P. destruct (GL p P) as (I & (q & Q & ->) & _). now apply (st_least _ _ _ _ _ S). }
  split; [apply S|]. split; [apply S|]. split.
  { assert (X : forall p, In p (sort_by gr) -> least w kps (snd p) (fst p)) by (intros p P; apply GL; now apply (Permutation_in _ (sort_perm gr))). pose proof (sort_sorted gr GF) as SS. revert X SS. generalize (sort_by gr) as l. clear. induction l as [|a l IH]; intros X SS; [constructor|]. cbn [map]. apply StronglySorted_inv in SS. destruct SS as (SS & H). constructor; [apply IH; [intros p P; apply X; now right|exact SS]|].
    apply Forall_forall. intros b B. apply in_map_iff in B. destruct B as (p & <- & P). rewrite Forall_forall in H. specialize (H p P). unfold up in H. destruct (X a ltac:(now left)) as ((q & Q & E) & _). destruct (X p ltac:(now right)) as (_ & M). intros kp K. exists q. split; [exact Q|]. rewrite <- E. pose proof (M kp K). lra. }
  split; [apply S|]. split; [intros p t P T; apply (st_least _ _ _ _ _ S p t P); now apply (Permutation_in _ SP)|now split].
Qed.
Lemma nothing_to_start w kts : kts <> [] -> ga_start pow detector files w [] kts = Raises IndexError.
Proof. destruct kts; [congruence|reflexivity]. Qed.
Lemma nodup_front {A} (l l' : list A) : NoDup (l ++ l') -> NoDup l.
Proof. induction l as [|a l IH]; intros N; [constructor|]. inversion N as [|? ? N1 N2]; subst. constructor; [intros X; apply N1, in_app_iff; now left|now apply IH]. Qed.
Lemma start_good w kps kts g : orderly w -> kt_orderly w -> NoDup kps -> NoDup kts -> Forall (known w) kps -> Forall (kt_known w) kts -> best_start w kps kts g -> good g w.
Proof.
  intros O KO NK NT FK FT ((left & P & _) & PK & H1 & H2 & _ & _ & _ & L & _).
  assert (IN : forall n, In n (key_transitions g) -> In n kts) by (intros n X; apply (Permutation_in _ P), in_app_iff; now left). rewrite Forall_forall in FK, FT.
  split; try assumption.
  - apply (Permutation_NoDup (Permutation_sym PK) NK).
  - apply (Permutation_NoDup (Permutation_sym P)) in NT. exact (nodup_front _ _ NT).
  - apply Forall_forall. intros n X. apply FK. now apply (Permutation_in _ PK).
  - apply Forall_forall. intros n X. now apply FT, IN.
  - destruct (key_profiles g); [discriminate|]. injection H1 as ->. now left.
  - destruct (key_transitions g); [discriminate|]. injection H2 as ->. now left.
Qed.
(** ** Whole runs *)
Lemma runner_ok kps kts kpm ktm threshold just n w ds : kps <> [] -> kts <> [] -> orderly w -> kt_orderly w -> NoDup kps -> NoDup kts -> Forall (known w) kps -> Forall (kt_known w) kts ->
  no_key (ga_runner pow detector files kps kts kpm ktm threshold just n w ds) (fun g' w' => good g' w' /\ forall kp kt, In kp kps -> In kt kts -> (0 <= B2R (err w kp kt))%R -> (B2R (lowest_error g') <= B2R (err w kp kt))%R).
Proof.
  intros NE NF O KO NK NT FK FT. destruct (starting w kps kts NE NF) as (g & E & B). pose proof (start_good w kps kts g O KO NK NT FK FT B) as D. destruct B as ((left & P & Z) & _ & _ & _ & _ & _ & _ & _ & L & _).
  assert (LL : forall kp kt, In kp kps -> In kt kts -> (0 <= B2R (err w kp kt))%R -> (B2R (lowest_error g) <= B2R (err w kp kt))%R).
  { intros kp kt K T Q. apply (Permutation_in _ (Permutation_sym P)) in T. apply in_app_iff in T. destruct T as [T|T]; [now apply L|]. destruct Z as [->|Z]; [destruct T|lra]. }
  unfold ga_runner, seq_run, look, lift. rewrite E. destruct just; [split; [exact D|exact LL]|]. refine (no_key_weaken _ _ _ _ (loop_ok kpm ktm threshold n g w ds D)). intros g' w' (D' & L'). split; [exact D'|]. intros kp kt K T Q. pose proof (LL kp kt K T Q). lra.
Qed.

(** ** Runs whose only error is a division by zero *)
Lemma pop_some {A} names : forall (d0 d1 : list (string * A)), pop_all d0 names = Returns d1 -> forall y v, assoc String.eqb y d1 = Some v -> assoc String.eqb y d0 = Some v.
Proof.
  induction names as [|a names IH]; intros d0 d1; cbn [pop_all]; [intros [= ->]; auto|]. unfold pop. destruct (has_key a d0); [|discriminate]. cbn [pybind]. intros H y v Y. pose proof (IH _ _ H y v Y) as Q. unfold remove_key in Q. rewrite (assoc_filter (fun z => negb (z =? a)%string)) in Q.
  destruct (negb _) in Q; [exact Q|discriminate].
Qed.
Definition ends {A} (r : run A) (P : A -> world -> Prop) : Prop := match r with Starved => True | Fails x => x = ZeroDivisionError | Done a w _ => P a w end.
Record capable (t : R) (k n : nat) (g : ga) (w : world) : Prop := {
  cp_good : good g w; cp_sound : Forall (sound t w) (key_profiles g); cp_len : length (key_profiles g) = k; cp_few : (length (key_transitions g) < 5)%nat;
  cp_room : (t + IZR (e_kp_id w) / 2 ^ 51 + 2 * INR k * INR n / 2 ^ 51 <= 1)%R }.
Lemma room_down t k n x y : (t + IZR x / 2 ^ 51 + 2 * INR k * INR (S n) / 2 ^ 51 <= 1)%R -> y <= x + 2 * Z.of_nat k -> (t + IZR y / 2 ^ 51 + 2 * INR k * INR n / 2 ^ 51 <= 1)%R.
Proof. intros H L. apply IZR_le in L. rewrite plus_IZR, mult_IZR, <- INR_IZR_INZ in L. rewrite S_INR in H. pose proof (pos_INR k). lra. Qed.
Lemma profile_generation_ends maximum threshold t k n g w ds : 8 <= maximum <= 2 ^ 52 -> (/ 2 ^ 52 <= t)%R -> k <> 4%nat -> Z.of_nat k <= 2 ^ 47 -> capable t k (S n) g w ->
  ends (profile_generation pow detector files maximum threshold g w ds) (capable t k n).
Proof.
  intros M T K4 KM [D S L F R]. pose proof (profile_generation_ok maximum threshold g w ds D) as OK. unfold profile_generation in *.
  assert (EV : ends (evolve_key_profiles maximum (key_profiles g) w ds) (fun new w' => NoDup new /\ length new = k /\ Forall (sound t w') new /\ grows w w' /\ e_kp_id w' <= e_kp_id w + 2 * Z.of_nat k)).
  { pose proof (evolved maximum t (key_profiles g) w ds M T (gd_o _ _ D) (gd_nk _ _ D) S) as Q. rewrite L in Q. specialize (Q K4 KM). assert (SL : (slack t w + 2 * INR k / 2 ^ 51 <= 1)%R) by (unfold slack; rewrite S_INR in R; pose proof (pos_INR k); pose proof (pos_INR n); nra). specialize (Q SL).
    destruct (evolve_key_profiles maximum (key_profiles g) w ds) as [new w' ds'|x|]; [|exact Q|exact I]. destruct Q as (Q1 & Q0 & Q2 & _ & Q3 & Q4). split; [exact Q0|]. split; [|split; [exact Q2|split; [exact Q3|exact Q4]]]. destruct Q1 as (? & ? & ? & ? & ? & ? & _ & Q1 & _). now rewrite Q1. }
  unfold seq_run at 1 in OK. unfold seq_run at 1. destruct (evolve_key_profiles maximum (key_profiles g) w ds) as [new w1 ds1|x|]; [|exact EV|exact I]. destruct EV as (E0 & E1 & E2 & E3 & E4).
  unfold seq_run at 1, look in OK. unfold seq_run at 1, look. destruct (grades w1 new (best_key_transition g)) as (PM & _). pose proof (Permutation_length PM) as PL. rewrite map_length in PL.
  assert (NZ : k <> 0%nat) by (pose proof (gd_bp _ _ D) as X; destruct (key_profiles g); [destruct X|cbn in L; lia]).
  destruct (grade_key_profiles pow detector files w1 new (best_key_transition g)) as [|[e [bk bt]] rest]; [cbn in PL; lia|]. cbv zeta in *.
  match goal with |- context [better g e ?l] => destruct (better g e l) end.
  - unfold keep_key_profiles, change, seq_run, ret in *. cbv beta in *. cbn [no_key ends] in *. destruct OK as (OK & _). split; [exact OK| | |exact F|].
    + cbn [key_profiles]. apply Forall_forall. intros x X. pose proof (gd_k _ _ OK) as KN. cbn [key_profiles] in KN. rewrite Forall_forall in KN. destruct (KN x X) as (l & HL). exists l. split; [exact HL|].
      rewrite Forall_forall in E2. destruct (E2 x (Permutation_in _ PM X)) as (l' & H' & P'). assert (l' = l); [|subst l'; exact P']. unfold has, profiles_in in *. cbn [w_kp with_profiles] in HL. rewrite assoc_keep in HL. destruct (elem x _) in HL; congruence.
    + cbn [key_profiles]. rewrite map_length. lia.
    + apply (room_down t k n (e_kp_id w)); [exact R|exact E4].
  - unfold flush_key_profiles, seq_run, ret in *. destruct (pop_all (w_kp w1) (not_in (key_profiles g) new)) as [d|x] eqn:P.
    + cbn [no_key ends] in *. destruct OK as (OK & _). destruct (worse_fields threshold g) as (W1 & W2 & _). split; rewrite ?W1, ?W2; try assumption.
      * apply Forall_forall. intros x X. rewrite Forall_forall in S. destruct (S x X) as (l & HL & PL'). pose proof (gd_k _ _ OK) as KN. rewrite W1, Forall_forall in KN. destruct (KN x X) as (l' & HL'). exists l'. split; [exact HL'|].
        assert (l' = l); [|subst l'; apply profile_like_mono with (2 := PL'); unfold slack; cbn [e_kp_id with_profiles]; pose proof (IZR_le _ _ (gr_e _ _ E3)); lra].
        assert (HH : has w1 x l) by (now apply E3). unfold has, profiles_in in HL', HH. cbn [w_kp with_profiles] in HL'. pose proof (pop_some _ _ _ P x l' HL'). congruence.
      * apply (room_down t k n (e_kp_id w)); [exact R|exact E4].
    + exfalso. destruct (popped (not_in (key_profiles g) new) (w_kp w1)) as (d & Q & _); [now apply nodup_filter|intros x0 X; apply not_in_spec in X; rewrite Forall_forall in E2; destruct (E2 x0 (proj1 X)) as (l & HL & _); now exists l|congruence].
Qed.
Lemma transition_generation_ends maximum threshold t k n g w ds : accurate_power pow -> 256 <= maximum <= 2 ^ 52 -> capable t k (S n) g w ->
  ends (transition_generation pow detector files maximum threshold g w ds) (capable t k n).
Proof.
  intros A M [D S L F R]. pose proof (transition_generation_ok maximum threshold g w ds D) as OK. unfold transition_generation in *.
  pose proof (evolving_kt_ok pow maximum (key_transitions g) w ds (gd_ko _ _ D) (gd_nt _ _ D) (gd_t _ _ D)) as N. pose proof (few_kept pow maximum (key_transitions g) w ds A M (gd_ko _ _ D) F) as EV.
  unfold seq_run at 1 in OK. unfold seq_run at 1. destruct (evolve_key_transitions pow maximum (key_transitions g) w ds) as [new w1 ds1|x|]; [|exact EV|exact I]. destruct EV as (E1 & _ & _ & _ & E3). destruct N as (_ & _ & ND & C1). rewrite Forall_forall in C1.
  assert (K1 : forall n, In n new -> kt_known w1 n). { intros x X. destruct (C1 x X) as [Y|Y]; [|apply Y]. pose proof (gd_t _ _ D) as K. rewrite Forall_forall in K. now apply (kt_grows_known w w1), K. }
  unfold seq_run at 1, look in OK. unfold seq_run at 1, look. destruct (grades_kt w1 new (best_key_profile g)) as (PM & _). pose proof (Permutation_length PM) as PL. rewrite map_length in PL.
  assert (NZ : length (key_transitions g) <> 0%nat) by (pose proof (gd_bt _ _ D) as X; destruct (key_transitions g); [destruct X|discriminate]).
  assert (SO : forall d r, Forall (sound t (with_transitions d r w1)) (key_profiles g)) by (intros d r; eapply Forall_impl; [|exact S]; intros x (l & H & P); exists l; split; [unfold has, profiles_in; cbn [w_kp with_transitions]; now rewrite (kg_kp _ _ E3)|unfold slack; cbn [e_kp_id with_transitions]; now rewrite (kg_ekp _ _ E3)]).
  assert (RO : (t + IZR (e_kp_id w1) / 2 ^ 51 + 2 * INR k * INR n / 2 ^ 51 <= 1)%R) by (apply (room_down t k n (e_kp_id w)); [exact R|]; rewrite (kg_ekp _ _ E3); lia).
  destruct (grade_key_transitions pow detector files w1 (best_key_profile g) new) as [|[e [bp bk]] rest]; [cbn in PL; lia|]. cbv zeta in *.
  match goal with |- context [better g e ?l] => destruct (better g e l) end.
  - unfold keep_key_transitions, change, seq_run, ret in *. cbv beta in *. cbn [no_key ends] in *. destruct OK as (OK & _). split; [exact OK|apply SO|exact L|cbn [key_transitions]; rewrite map_length; lia|exact RO].
  - unfold flush_key_transitions, seq_run, ret in *. pose proof (nodup_filter (fun k => negb (elem k (key_transitions g))) new ND) as N2. fold (not_in (key_transitions g) new) in N2. set (gone := not_in (key_transitions g) new) in *.
    destruct (popped gone (w_kt w1) N2) as (d & P & _); [intros x X; apply not_in_spec in X; destruct (K1 x (proj1 X)) as (l & HL); now exists l|].
    destruct (popped (filter (fun r => has_key r (w_ratio w1)) gone) (w_ratio w1) (nodup_filter _ _ N2)) as (d2 & P2 & _). { intros x X. apply filter_In in X. destruct X as (_ & X). unfold has_key in X. destruct (assoc String.eqb x (w_ratio w1)) as [v|]; [now exists v|discriminate]. }
    rewrite P, P2 in *. cbn [no_key ends] in *. destruct OK as (OK & _). destruct (worse_fields threshold g) as (W1 & W2 & _). split; rewrite ?W1, ?W2; try assumption. apply SO.
Qed.
Lemma loop_ends kpm ktm threshold t k n : accurate_power pow -> 8 <= kpm <= 2 ^ 52 -> 256 <= ktm <= 2 ^ 52 -> (/ 2 ^ 52 <= t)%R -> k <> 4%nat -> Z.of_nat k <= 2 ^ 47 -> forall g w ds, capable t k n g w ->
  ends (ga_loop pow detector files kpm ktm threshold n g w ds) (fun g' w' => capable t k 0 g' w').
Proof.
  intros A KP KT T K4 KM. assert (Z : forall m g w, capable t k m g w -> capable t k 0 g w).
  { intros m g w [D S L F R]. split; try assumption. pose proof (pos_INR k). pose proof (pos_INR m). cbn [INR]. assert (0 <= INR k * INR m)%R by (now apply Rmult_le_pos). lra. }
  induction n as [|n IH]; intros g w ds D; [exact D|]. cbn [ga_loop]. destruct (fgt (lowest_error g) (py_float 0)); [|exact (Z _ _ _ D)]. unfold seq_run. destruct (profiles_mode g).
  - pose proof (profile_generation_ends kpm threshold t k n g w ds KP T K4 KM D) as E. destruct (profile_generation pow detector files kpm threshold g w ds) as [g1 w1 ds1|x|]; [|exact E|exact I]. now apply IH.
  - pose proof (transition_generation_ends ktm threshold t k n g w ds A KT D) as E. destruct (transition_generation pow detector files ktm threshold g w ds) as [g1 w1 ds1|x|]; [|exact E|exact I]. now apply IH.
Qed.
End Ga.
