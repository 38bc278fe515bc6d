(** Generic proofs about the Viterbi procedure, over any number type satisfying the stated laws. *)
From Coq Require Import Lia ZifyBool Permutation.
From Verif Require Import Base BaseFacts Key Hmm ViterbiSpec.

Section Generic.
  Variable D : Type.
  Variable gt : D -> D -> bool.
  Variable add mul : D -> D -> D.
  Variable log10 : D -> D.
  Variable ninf zero : D.
  Variable states : list Z.
  Variable initial : table1 D.
  Variable transitions emissions : table2 D.

  Notation layer := (layer D).
  Notation at_layer := (at_layer D ninf).
  Notation first_layer := (first_layer D mul log10 zero states initial emissions).
  Notation step_weight := (step_weight D mul log10 zero transitions emissions).
  Notation best_node := (best_node D gt add mul log10 ninf zero states transitions emissions).
  Notation next_layer := (next_layer D gt add mul log10 ninf zero states transitions emissions).
  Notation layers_from := (layers_from D gt add mul log10 ninf zero states transitions emissions).

  (** The weights of starting and of one step. *)
  Definition start_weight (s o : Z) : D := log10 (mul (at1 D zero initial s) (at2 D zero emissions s o)).

  (** ** Contents of the layers *)
  Lemma fold_assign_lookup {V} (f : Z -> V) (l : list Z) m k :
    assoc Z.eqb k (fold_left (fun m s => assign Z.eqb s (f s) m) l m) =
    if existsb (Z.eqb k) l then Some (f k) else assoc Z.eqb k m.
  Proof.
    revert m. induction l as [|x l IH]; intros m; cbn [fold_left existsb]; [reflexivity|].
    rewrite IH. destruct (existsb (Z.eqb k) l); [now rewrite orb_true_r|]. rewrite orb_false_r.
    destruct (Z.eqb_spec k x) as [->|H]; [apply (assoc_assign_same _ Zeqb_spec')|now apply (assoc_assign_other _ Zeqb_spec')].
  Qed.
  Lemma fold_assign_keys {V} (f : Z -> V) (l : list Z) m : NoDup (map fst m) ->
    NoDup (map fst (fold_left (fun m s => assign Z.eqb s (f s) m) l m)).
  Proof.
    revert m. induction l as [|x l IH]; intros m H; cbn [fold_left]; [exact H|].
    apply IH. now apply (assign_NoDup _ Zeqb_spec').
  Qed.
  Lemma fold_assign_keys_eq {V W} (f : Z -> V) (g : Z -> W) (l : list Z) m m' : map fst m = map fst m' ->
    map fst (fold_left (fun m s => assign Z.eqb s (f s) m) l m) = map fst (fold_left (fun m s => assign Z.eqb s (g s) m) l m').
  Proof.
    revert m m'. induction l as [|x l IH]; intros m m' H; cbn [fold_left]; [exact H|].
    apply IH. revert m' H. induction m as [|[k v] m IHm]; intros [|[k' v'] m'] H; try discriminate; [reflexivity|].
    cbn [map fst] in H. injection H as <- H. cbn [assign]. destruct (x =? k); cbn [map fst]; f_equal; [exact H|now apply IHm].
  Qed.
  Lemma existsb_In k l : existsb (Z.eqb k) l = true <-> In k l.
  Proof. rewrite existsb_exists. split; [intros (x & H & E); apply Z.eqb_eq in E; now subst|intros H; exists k; split; [exact H|apply Z.eqb_refl]]. Qed.

  Definition layer_ok (l : layer) : Prop := NoDup (map fst l) /\ forall s, In s (map fst l) <-> In s states.
  Lemma fold_layer_ok (f : Z -> node D) : layer_ok (fold_left (fun m s => assign Z.eqb s (f s) m) states []).
  Proof.
    split; [apply fold_assign_keys; constructor|]. intros s. rewrite <- (existsb_In s states).
    pose proof (fold_assign_lookup f states [] s) as E. cbn [assoc] in E.
    split; intros H.
    - apply (assoc_Some_In _ Zeqb_spec') in H. destruct H as [v H]. rewrite H in E. destruct (existsb (Z.eqb s) states); [reflexivity|discriminate].
    - rewrite H in E. apply (assoc_In _ Zeqb_spec') in E. apply in_map_iff. now exists (s, f s).
  Qed.
  Lemma first_layer_ok o : layer_ok (first_layer o).
  Proof. apply (fold_layer_ok (fun s => (start_weight s o, -1))). Qed.
  Lemma next_layer_ok l o : layer_ok (next_layer l o).
  Proof. apply (fold_layer_ok (fun s => best_node l s o)). Qed.
  Lemma first_layer_node o s : assoc Z.eqb s (first_layer o) = if existsb (Z.eqb s) states then Some (start_weight s o, -1) else None.
  Proof. apply (fold_assign_lookup (fun s => (start_weight s o, -1)) states []). Qed.
  Lemma next_layer_node l o s : assoc Z.eqb s (next_layer l o) = if existsb (Z.eqb s) states then Some (best_node l s o) else None.
  Proof. apply (fold_assign_lookup (fun s => best_node l s o) states []). Qed.

  (** ** The layers, last first, with the observations, last first *)
  Inductive chain : list layer -> list Z -> Prop :=
  | chain0 o : chain [first_layer o] [o]
  | chainS l ls o os : chain (l :: ls) os -> chain (next_layer l o :: l :: ls) (o :: os).
  Lemma layers_chain obs : forall acc l os, chain (l :: acc) os -> chain (layers_from acc l obs) (rev obs ++ os).
  Proof.
    induction obs as [|o obs IH]; intros acc l os H; cbn [layers_from rev app]; [exact H|].
    rewrite <- app_assoc. cbn [app]. apply IH. now constructor.
  Qed.
  Lemma viterbi_chain o obs : chain (layers_from [] (first_layer o) obs) (rev (o :: obs)).
  Proof. cbn [rev]. apply layers_chain. constructor. Qed.
  Lemma chain_ok ls os : chain ls os -> exists l ls', ls = l :: ls' /\ layer_ok l /\ length ls = length os.
  Proof.
    induction 1 as [o|l ls o os H IH].
    - exists (first_layer o), []. split; [reflexivity|]. split; [apply first_layer_ok|reflexivity].
    - exists (next_layer l o), (l :: ls). split; [reflexivity|]. split; [apply next_layer_ok|].
      destruct IH as (l' & ls' & _ & _ & E). cbn [length] in *. lia.
  Qed.

  (** Score of a path given last state first. *)
  Fixpoint rscore (rp os : list Z) : D :=
    match rp, os with
    | [s], [o] => start_weight s o
    | s :: ((p :: _) as rp'), o :: os' => add (rscore rp' os') (step_weight p s o)
    | _, _ => zero
    end.
  Lemma rscore_cons s p rp o os : rscore (s :: p :: rp) (o :: os) = add (rscore (p :: rp) os) (step_weight p s o).
  Proof. reflexivity. Qed.
  Notation score := (path_score add start_weight step_weight ninf).
  Lemma score_from_app acc prev path obs s o : length path = length obs ->
    score_from add step_weight acc prev (path ++ [s]) (obs ++ [o]) =
    add (score_from add step_weight acc prev path obs) (step_weight (last path prev) s o).
  Proof.
    revert acc prev obs. induction path as [|x path IH]; intros acc prev [|y obs] H; try discriminate; [reflexivity|].
    cbn [app score_from]. rewrite IH by (cbn in H; lia). f_equal. f_equal.
    destruct path; [reflexivity|]. cbn [last]. clear. revert z. induction path as [|a path IH]; intros z; [reflexivity|]. cbn [last] in *. apply IH.
  Qed.
  Lemma last_rev (l : list Z) x d : last (rev (x :: l)) d = x.
  Proof. cbn [rev]. apply last_last. Qed.
  Lemma rscore_score rp os : rp <> [] -> length rp = length os -> rscore rp os = score (rev rp) (rev os).
  Proof.
    revert os. induction rp as [|s rp IH]; intros [|o os] Hne Hl; try contradiction; try discriminate.
    destruct rp as [|p rp].
    - destruct os; [|discriminate]. reflexivity.
    - destruct os as [|o' os]; [discriminate|]. rewrite rscore_cons. rewrite IH by (try discriminate; cbn in *; lia).
      change (rev (s :: p :: rp)) with (rev (p :: rp) ++ [s]). change (rev (o :: o' :: os)) with (rev (o' :: os) ++ [o]).
      assert (L : length (rev (p :: rp)) = length (rev (o' :: os))) by (rewrite !rev_length; cbn in *; lia).
      pose proof (last_rev rp p 0) as Hlast.
      destruct (rev (p :: rp)) as [|s0 path] eqn:E1; [exfalso; apply (f_equal (@length Z)) in E1; rewrite rev_length in E1; discriminate|].
      destruct (rev (o' :: os)) as [|o0 obs] eqn:E2; [discriminate|].
      cbn [app path_score]. rewrite score_from_app by (cbn in L; lia). f_equal. f_equal.
      destruct path as [|x path]; [exact (eq_sym Hlast)|]. rewrite <- Hlast. cbn [last].
      clear. revert x. induction path as [|a path IH]; intros x; [reflexivity|]. cbn [last] in *. apply IH.
  Qed.

  (** ** Back-tracking follows a path whose score is the node's probability *)
  Hypothesis gt_add : forall x y z, gt (add x y) z = true -> gt x ninf = true.
  Hypothesis gt_ninf : forall p z, gt p z = true -> gt p ninf = true.

  Lemma best_node_gen l next obs sts b : 
    let r := fold_left (fun (best : node D) cur =>
      let trial := add (fst (at_layer l cur)) (step_weight cur next obs) in
      if gt trial (fst best) then (trial, cur) else best) sts b in
    r = b \/ exists cur, In cur sts /\ r = (add (fst (at_layer l cur)) (step_weight cur next obs), cur) /\
                         gt (fst (at_layer l cur)) ninf = true.
  Proof.
    cbv zeta. revert b. induction sts as [|x sts IH]; intros b; cbn [fold_left]; [now left|].
    destruct (gt (add (fst (at_layer l x)) (step_weight x next obs)) (fst b)) eqn:G.
    - destruct (IH (add (fst (at_layer l x)) (step_weight x next obs), x)) as [H|(c & Hc & H & Hg)].
      + right. exists x. split; [now left|]. split; [exact H|]. now apply gt_add in G.
      + right. exists c. split; [now right|]. now split.
    - destruct (IH b) as [H|(c & Hc & H & Hg)]; [now left|]. right. exists c. split; [now right|]. now split.
  Qed.
  Lemma best_node_pred l next obs : gt (fst (best_node l next obs)) ninf = true -> gt ninf ninf = false ->
    exists cur, In cur states /\ best_node l next obs = (add (fst (at_layer l cur)) (step_weight cur next obs), cur) /\
                gt (fst (at_layer l cur)) ninf = true.
  Proof.
    intros H Hi. destruct (best_node_gen l next obs states (default_node D ninf)) as [E|E]; [|exact E].
    cbv zeta in E. unfold best_node in H. rewrite E in H. cbn [fst default_node] in H. congruence.
  Qed.

  Variable iter : layer -> list (Z * node D).
  Notation backtrack := (backtrack D gt iter).

  Lemma at_layer_some l s n : assoc Z.eqb s l = Some n -> at_layer l s = n.
  Proof. intros H. unfold Hmm.at_layer. now rewrite H. Qed.

  Hypothesis gt_irrefl_ninf : gt ninf ninf = false.
  Hypothesis states_valid : ~ In (-1) states.

  (** The states visited from [st], last first: what back-tracking yields. *)
  Fixpoint trace (ls : list layer) (st : Z) : list Z :=
    match ls with
    | [] => []
    | l :: ls' => match assoc Z.eqb st l with None => [] | Some n => st :: trace ls' (snd n) end
    end.
  Lemma backtrack_trace ls os : chain ls os -> forall l ls' st n mp pr keys, ls = l :: ls' ->
    assoc Z.eqb st l = Some n -> gt (fst n) ninf = true -> In st states ->
    backtrack ls st mp pr keys = Ret (keys ++ map key_of_int (trace ls st), mp, pr).
  Proof.
    induction 1 as [o|l ls o os H IH]; intros l0 ls0 st n mp pr keys E En Hg Hin.
    - injection E as <- <-. cbn [Hmm.backtrack trace].
      destruct (Z.eqb_spec st (-1)) as [->|_]; [contradiction|]. cbn [bind]. now rewrite En.
    - injection E as <- <-. cbn [Hmm.backtrack]. change (trace (next_layer l o :: l :: ls) st) with
        (match assoc Z.eqb st (next_layer l o) with None => [] | Some n => st :: trace (l :: ls) (snd n) end).
      destruct (Z.eqb_spec st (-1)) as [->|_]; [contradiction|]. cbn [bind]. rewrite En.
      rewrite next_layer_node in En. destruct (existsb (Z.eqb st) states) eqn:Ex; [|discriminate]. injection En as <-.
      destruct (best_node_pred l st o Hg gt_irrefl_ninf) as (cur & Hcur & Eb & Hg').
      rewrite Eb. cbn [snd fst].
      destruct (chain_ok _ _ H) as (l1 & ls1 & E1 & Hok & _). injection E1 as <- <-.
      destruct Hok as [_ Hk]. apply Hk in Hcur as Hcl. apply (assoc_Some_In _ Zeqb_spec') in Hcl. destruct Hcl as [n' En'].
      rewrite (at_layer_some _ _ _ En') in Hg'.
      pose proof (IH l ls cur n' mp pr (keys ++ [key_of_int st]) eq_refl En' Hg' Hcur) as Eb'.
      cbn [Hmm.backtrack bind] in Eb'. rewrite Eb', <- app_assoc. reflexivity.
  Qed.
  Lemma backtrack_ok ls os : chain ls os -> forall l ls' st n mp pr keys, ls = l :: ls' ->
    assoc Z.eqb st l = Some n -> gt (fst n) ninf = true -> In st states ->
    exists rp, backtrack ls st mp pr keys = Ret (keys ++ map key_of_int (st :: rp), mp, pr) /\
               length (st :: rp) = length os /\ Forall (fun s => In s states) (st :: rp) /\ rscore (st :: rp) os = fst n.
  Proof.
    induction 1 as [o|l ls o os H IH]; intros l0 ls0 st n mp pr keys E En Hg Hin.
    - injection E as <- <-. exists []. cbn [Hmm.backtrack].
      destruct (Z.eqb_spec st (-1)) as [->|_]; [contradiction|]. cbn [bind]. rewrite En.
      split; [reflexivity|]. split; [reflexivity|]. split; [constructor; [exact Hin|constructor]|].
      rewrite first_layer_node in En. destruct (existsb (Z.eqb st) states); [|discriminate]. injection En as <-. reflexivity.
    - injection E as <- <-. cbn [Hmm.backtrack].
      destruct (Z.eqb_spec st (-1)) as [->|_]; [contradiction|]. cbn [bind]. rewrite En.
      rewrite next_layer_node in En. destruct (existsb (Z.eqb st) states) eqn:Ex; [|discriminate]. injection En as <-.
      destruct (best_node_pred l st o Hg gt_irrefl_ninf) as (cur & Hcur & Eb & Hg').
      rewrite Eb. cbn [snd fst].
      destruct (chain_ok _ _ H) as (l1 & ls1 & E1 & Hok & _). injection E1 as <- <-.
      destruct Hok as [_ Hk]. apply Hk in Hcur as Hcl. apply (assoc_Some_In _ Zeqb_spec') in Hcl. destruct Hcl as [n' En'].
      rewrite (at_layer_some _ _ _ En') in Hg'.
      destruct (IH l ls cur n' mp pr (keys ++ [key_of_int st]) eq_refl En' Hg' Hcur) as (rp & Eb' & Hl & Hf & Hs).
      exists (cur :: rp). cbn [Hmm.backtrack bind] in Eb'. split; [|split; [|split]].
      + rewrite Eb'. rewrite <- app_assoc. reflexivity.
      + cbn [length] in *. lia.
      + now constructor.
      + rewrite rscore_cons, Hs.
        now rewrite (at_layer_some _ _ _ En').
  Qed.

  (** ** The scan of the last layer *)
  Hypothesis iter_perm : forall l, Permutation (iter l) l.

  Lemma set_nth_length i p (v : list D) : length (set_nth D i p v) = length v.
  Proof. revert i. induction v as [|x v IH]; intros [|i]; cbn; congruence. Qed.
  Lemma set_nth_same i p (v : list D) d : (i < length v)%nat -> nth i (set_nth D i p v) d = p.
  Proof. revert i. induction v as [|x v IH]; intros [|i] H; cbn in *; try lia; [reflexivity|]. apply IH. lia. Qed.
  Lemma set_nth_other i j p (v : list D) d : i <> j -> nth j (set_nth D i p v) d = nth j v d.
  Proof.
    revert i j. induction v as [|x v IH]; intros [|i] [|j] H; cbn; try reflexivity; try contradiction.
    apply IH. congruence.
  Qed.
  Definition valid_states : Prop := Forall (fun s => 0 <= s < 24) states.

  Lemma scan_last_ok es : forall st mp pr, Forall (fun e => 0 <= fst e < 24) es -> NoDup (map fst es) -> length pr = 24%nat ->
    exists st' mp' pr', scan_last D gt es st mp pr = Ret (st', mp', pr') /\ length pr' = 24%nat /\
      ((st' = st /\ mp' = mp /\ forall e, In e es -> gt (fst (snd e)) mp = false) \/ exists n, In (st', n) es /\ mp' = fst n /\ gt mp' ninf = true) /\
      (forall s d, 0 <= s -> znth d pr' s = match assoc Z.eqb s es with Some n => fst n | None => znth d pr s end).
  Proof.
    induction es as [|[s n] es IH]; intros st mp pr Hv Hnd Hl.
    - exists st, mp, pr. cbn. repeat split; try assumption. left. repeat split. contradiction.
    - inversion Hv as [|? ? Hs Hv']; subst. inversion Hnd as [|? ? Hn Hnd']; subst. cbn [fst] in *.
      cbn [scan_last]. unfold write_prob. replace ((0 <=? s) && (s <? 24)) with true by lia. cbn [bind].
      assert (L : length (set_nth D (Z.to_nat s) (fst n) pr) = 24%nat) by now rewrite set_nth_length.
      assert (P : forall pr', (forall s0 d, 0 <= s0 -> znth d pr' s0 = match assoc Z.eqb s0 es with Some n => fst n | None => znth d (set_nth D (Z.to_nat s) (fst n) pr) s0 end) ->
        forall s0 d, 0 <= s0 -> znth d pr' s0 = match assoc Z.eqb s0 ((s, n) :: es) with Some n => fst n | None => znth d pr s0 end).
      { intros pr' H s0 d H0. rewrite H by exact H0. cbn [assoc]. destruct (Z.eqb_spec s0 s) as [->|Hne].
        - assert (assoc Z.eqb s es = None) as -> by now apply (assoc_None _ Zeqb_spec').
          unfold znth. apply set_nth_same. rewrite Hl. lia.
        - destruct (assoc Z.eqb s0 es); [reflexivity|]. unfold znth. apply set_nth_other. lia. }
      destruct (gt (fst n) mp) eqn:G.
      + destruct (IH s (fst n) (set_nth D (Z.to_nat s) (fst n) pr) Hv' Hnd' L) as (st' & mp' & pr' & E & L' & C & Q).
        exists st', mp', pr'. split; [exact E|]. split; [exact L'|]. split; [|now apply P].
        right. destruct C as [( -> & -> & _ )|(n' & Hin & -> & Hg)].
        * exists n. split; [now left|]. split; [reflexivity|]. now apply gt_ninf in G.
        * exists n'. split; [now right|]. now split.
      + destruct (IH st mp (set_nth D (Z.to_nat s) (fst n) pr) Hv' Hnd' L) as (st' & mp' & pr' & E & L' & C & Q).
        exists st', mp', pr'. split; [exact E|]. split; [exact L'|]. split; [|now apply P].
        destruct C as [( -> & -> & C)|(n' & Hin & -> & Hg)]; [left|].
        { repeat split. intros e [<-|He]; [exact G|now apply C]. }
        right. exists n'. split; [now right|]. now split.
  Qed.
  Lemma scan_last_bad es st mp pr : ~ Forall (fun e => 0 <= fst e < 24) es -> scan_last D gt es st mp pr = Undef OutOfBounds.
  Proof.
    revert st mp pr. induction es as [|[s n] es IH]; intros st mp pr H; [exfalso; apply H; constructor|].
    cbn [scan_last]. unfold write_prob. destruct ((0 <=? s) && (s <? 24)) eqn:E; [|reflexivity]. cbn [bind].
    assert (~ Forall (fun e : Z * node D => 0 <= fst e < 24) es).
    { intros X. apply H. constructor; [cbn; lia|exact X]. }
    destruct (gt (fst n) mp); now apply IH.
  Qed.

  (** ** The whole procedure, whatever the numbers are *)
  Notation viterbi := (viterbi D gt add mul log10 ninf zero states initial transitions emissions iter).
  Definition final_layer (obs : list Z) : layer :=
    match obs with [] => [] | o :: obs' => hd [] (layers_from [] (first_layer o) obs') end.
  (** The final probability of a state. *)
  Definition final (obs : list Z) (s : Z) : D := fst (at_layer (final_layer obs) s).

  Lemma iter_valid l : layer_ok l -> (valid_states <-> Forall (fun e => 0 <= fst e < 24) (iter l)).
  Proof.
    intros [_ Hk]. unfold valid_states. rewrite !Forall_forall. split; intros H.
    - intros e He. apply H. apply Hk. apply in_map. now apply (Permutation_in _ (iter_perm l)).
    - intros s Hs. apply Hk in Hs. apply in_map_iff in Hs. destruct Hs as (e & <- & He). apply H.
      now apply (Permutation_in _ (Permutation_sym (iter_perm l))).
  Qed.
  Lemma iter_nodup l : layer_ok l -> NoDup (map fst (iter l)).
  Proof.
    intros [Hn _]. apply (Permutation_NoDup (l := map fst l)); [|exact Hn].
    apply Permutation_map. apply Permutation_sym, iter_perm.
  Qed.
  Lemma assoc_perm (l m : list (Z * node D)) s : NoDup (map fst l) -> Permutation l m -> assoc Z.eqb s l = assoc Z.eqb s m.
  Proof.
    intros Hn Hp. assert (Hn' : NoDup (map fst m)) by (apply (Permutation_NoDup (l := map fst l)); [now apply Permutation_map|exact Hn]).
    destruct (assoc Z.eqb s l) as [n|] eqn:E.
    - apply (assoc_In _ Zeqb_spec') in E. symmetry. apply (NoDup_assoc _ Zeqb_spec'); [exact Hn'|]. now apply (Permutation_in _ Hp).
    - symmetry. apply (assoc_None _ Zeqb_spec'). apply (assoc_None _ Zeqb_spec') in E. intros X. apply E.
      apply (Permutation_in _ (Permutation_map fst (Permutation_sym Hp))). exact X.
  Qed.

  Lemma viterbi_invalid o obs keys : ~ valid_states -> viterbi (o :: obs) keys = Undef OutOfBounds.
  Proof.
    intros H. cbn [Hmm.viterbi]. destruct (chain_ok _ _ (viterbi_chain o obs)) as (l & ls' & E & Hok & _).
    rewrite E. cbn [Hmm.backtrack]. change (-1 =? -1) with true. cbv iota.
    rewrite scan_last_bad; [reflexivity|]. rewrite <- (iter_valid l Hok). exact H.
  Qed.

  Lemma ends_in_rev rp s : ends_in (rev (s :: rp)) s.
  Proof. exists (rev rp). reflexivity. Qed.

  Lemma viterbi_general o obs keys : valid_states ->
    (exists path last mp pr,
       viterbi (o :: obs) keys = Ret (map key_of_int path ++ rev keys, mp, pr) /\
       is_path states (o :: obs) path /\ ends_in path last /\ In last states /\
       score path (o :: obs) = mp /\ gt mp ninf = true /\ final (o :: obs) last = mp /\
       length pr = 24%nat /\
       (forall s d, 0 <= s < 24 -> znth d pr s = if existsb (Z.eqb s) states then final (o :: obs) s else zero))
    \/ (viterbi (o :: obs) keys = Throws StdOutOfRange /\
        forall s, In s states -> gt (final (o :: obs) s) ninf = false).
  Proof.
    intros Hv. pose proof (viterbi_chain o obs) as Hc. destruct (chain_ok _ _ Hc) as (l & ls' & E & Hok & _).
    cbn [Hmm.viterbi]. unfold final, final_layer. rewrite E in *. cbn [hd].
    pose proof (proj1 (iter_valid l Hok) Hv) as Hvi.
    destruct (scan_last_ok (iter l) (-1) ninf (repeat zero 24) Hvi (iter_nodup l Hok) (repeat_length _ _))
      as (st & mp & pr & Es & Hl & C & Q).
    assert (Hv1 : ~ In (-1) (map fst l)).
    { intros X. apply (proj2 Hok) in X. pose proof (proj1 (Forall_forall _ _) Hv _ X). cbn in *. lia. }
    destruct C as [( -> & -> & Hno)|(n & Hin & -> & Hg)].
    - right. split.
      + cbn [Hmm.backtrack]. change (-1 =? -1) with true. cbv iota. rewrite Es. cbn [bind].
        assert (assoc Z.eqb (-1) l = None) as -> by now apply (assoc_None _ Zeqb_spec'). reflexivity.
      + intros s Hs. apply (proj2 Hok) in Hs. apply (assoc_Some_In _ Zeqb_spec') in Hs. destruct Hs as [n En].
        rewrite (at_layer_some _ _ _ En). apply (assoc_In _ Zeqb_spec') in En.
        apply (Hno (s, n)). now apply (Permutation_in _ (Permutation_sym (iter_perm l))).
    - left. apply (Permutation_in _ (iter_perm l)) in Hin.
      pose proof (NoDup_assoc _ Zeqb_spec' _ _ _ (proj1 Hok) Hin) as En.
      assert (Hst : In st states). { apply (proj2 Hok). apply in_map_iff. now exists (st, n). }
      destruct (backtrack_ok _ _ Hc l ls' st n (fst n) pr keys eq_refl En Hg Hst) as (rp & Eb & Hlen & Hf & Hs).
      assert (Hne : st <> -1). { intros ->. apply Hv1. apply in_map_iff. now exists (-1, n). }
      exists (rev (st :: rp)), st, (fst n), pr. split; [|split; [|split; [|split; [|split; [|split; [|split; [|split]]]]]]].
      + cbn [Hmm.backtrack]. change (-1 =? -1) with true. cbv iota. rewrite Es. cbn [bind].
        cbn [Hmm.backtrack] in Eb. destruct (Z.eqb_spec st (-1)); [contradiction|]. cbn [bind] in Eb. rewrite Eb.
        cbn [bind]. rewrite rev_app_distr, map_rev. reflexivity.
      + split; [rewrite !rev_length in *; exact Hlen|]. now apply Forall_rev.
      + apply ends_in_rev.
      + exact Hst.
      + rewrite <- Hs, rscore_score; [now rewrite rev_involutive|discriminate|exact Hlen].
      + exact Hg.
      + now rewrite (at_layer_some _ _ _ En).
      + exact Hl.
      + intros s d Hs0. rewrite Q by lia. rewrite (assoc_perm _ l s (iter_nodup l Hok) (iter_perm l)).
        destruct (existsb (Z.eqb s) states) eqn:Ex.
        * apply existsb_In in Ex. apply (proj2 Hok) in Ex. apply (assoc_Some_In _ Zeqb_spec') in Ex. destruct Ex as [n' En'].
          rewrite En'. now rewrite (at_layer_some _ _ _ En').
        * assert (assoc Z.eqb s l = None) as ->.
          { apply (assoc_None _ Zeqb_spec'). intros X. apply (proj2 Hok) in X. apply existsb_In in X. congruence. }
          unfold znth. rewrite nth_indep with (d' := zero) by (rewrite repeat_length; lia). apply nth_repeat.
  Qed.

  (** The path kept for each final state; it does not depend on the iteration order. *)
  Definition kept_path (obs : list Z) (st : Z) : list Z :=
    match obs with [] => [] | o :: obs' => rev (trace (layers_from [] (first_layer o) obs') st) end.
  Lemma viterbi_kept o obs keys ks mp pr : valid_states -> viterbi (o :: obs) keys = Ret (ks, mp, pr) ->
    exists st, scan_last D gt (iter (final_layer (o :: obs))) (-1) ninf (repeat zero 24) = Ret (st, mp, pr) /\
      In st states /\ final (o :: obs) st = mp /\ gt mp ninf = true /\
      ks = map key_of_int (kept_path (o :: obs) st) ++ rev keys.
  Proof.
    intros Hv Ev. pose proof (viterbi_chain o obs) as Hc. destruct (chain_ok _ _ Hc) as (l & ls' & E & Hok & _).
    cbn [Hmm.viterbi] in Ev. unfold final, final_layer, kept_path. rewrite E in *. cbn [hd].
    cbn [Hmm.backtrack] in Ev. change (-1 =? -1) with true in Ev. cbv iota in Ev.
    destruct (scan_last_ok (iter l) (-1) ninf (repeat zero 24) (proj1 (iter_valid l Hok) Hv) (iter_nodup l Hok) (repeat_length _ _))
      as (st & m & p & Es & _ & C & _). rewrite Es in *. cbn [bind] in Ev.
    assert (Hv1 : ~ In (-1) (map fst l)).
    { intros X. apply (proj2 Hok) in X. contradiction. }
    destruct C as [( -> & _ & _)|(n & Hin & Em & Hg)].
    - assert (A : assoc Z.eqb (-1) l = None) by now apply (assoc_None _ Zeqb_spec'). rewrite A in Ev. discriminate.
    - apply (Permutation_in _ (iter_perm l)) in Hin. pose proof (NoDup_assoc _ Zeqb_spec' _ _ _ (proj1 Hok) Hin) as En.
      assert (Hst : In st states). { apply (proj2 Hok). apply in_map_iff. now exists (st, n). }
      assert (Hg' : gt (fst n) ninf = true) by now rewrite <- Em.
      pose proof (backtrack_trace _ _ Hc l ls' st n m p keys eq_refl En Hg' Hst) as Eb.
      cbn [Hmm.backtrack] in Eb. destruct (Z.eqb_spec st (-1)); [subst; contradiction|]. cbn [bind] in Eb.
      rewrite Eb in Ev. cbn [bind] in Ev. injection Ev as <- <- <-. exists st. split; [reflexivity|]. split; [exact Hst|].
      split; [now rewrite (at_layer_some _ _ _ En)|]. split; [exact Hg|]. now rewrite rev_app_distr, map_rev.
  Qed.
  (** Entries that are not above the current maximum do not change the choice. *)
  Lemma scan_last_stay es : forall st mp pr st' mp' pr', (forall e, In e es -> gt (fst (snd e)) mp = false) ->
    scan_last D gt es st mp pr = Ret (st', mp', pr') -> st' = st.
  Proof.
    induction es as [|[s n] es IH]; intros st mp pr st' mp' pr' H E; cbn [scan_last] in E; [congruence|].
    destruct (write_prob D pr s (fst n)); cbn [bind] in E; try discriminate.
    pose proof (H (s, n) ltac:(now left)) as G. cbn [fst snd] in G. rewrite G in E. apply (IH _ _ _ _ _ _ ltac:(intros; apply H; now right) E).
  Qed.

  (** ** Optimality, when the numbers are well behaved *)
  Variable good goodw : D -> Prop.
  Hypothesis good_ninf : good ninf.
  Hypothesis goodw_good : forall x, goodw x -> good x.
  Hypothesis good_add : forall x w, good x -> goodw w -> good (add x w).
  Hypothesis le_trans : forall x y z, good x -> good y -> good z -> gt x y = false -> gt y z = false -> gt x z = false.
  Hypothesis gt_asym : forall x y, good x -> good y -> gt x y = true -> gt y x = false.
  Hypothesis le_antisym : forall x y, good x -> good y -> gt x y = false -> gt y x = false -> x = y.
  Hypothesis le_add : forall x y w, good x -> good y -> goodw w -> gt x y = false -> gt (add x w) (add y w) = false.
  Hypothesis ninf_least : forall x, good x -> gt ninf x = false.
  Variable Obs : Z -> Prop.
  Hypothesis start_good : forall s o, In s states -> Obs o -> goodw (start_weight s o).
  Hypothesis step_good : forall p s o, In p states -> In s states -> Obs o -> goodw (step_weight p s o).

  Lemma le_refl x : good x -> gt x x = false.
  Proof. intros H. destruct (gt x x) eqn:E; [|reflexivity]. exact (eq_sym (eq_trans (eq_sym (gt_asym x x H H E)) E)). Qed.
  Lemma not_above_ninf x : good x -> gt x ninf = false -> x = ninf.
  Proof. intros H E. apply le_antisym; try assumption. now apply ninf_least. Qed.

  (** Scanning for the first maximum of [f]. *)
  Lemma scan_max (f : Z -> D) sts b : good (fst b) -> (forall c, In c sts -> good (f c)) ->
    let r := fold_left (fun (best : node D) cur => if gt (f cur) (fst best) then (f cur, cur) else best) sts b in
    good (fst r) /\ gt (fst b) (fst r) = false /\ (forall c, In c sts -> gt (f c) (fst r) = false) /\
    (r = b \/ exists c, In c sts /\ r = (f c, c)).
  Proof.
    cbv zeta. revert b. induction sts as [|x sts IH]; intros b Hb Hf; cbn [fold_left].
    - repeat split; [exact Hb|now apply le_refl|contradiction|now left].
    - assert (Hx : good (f x)) by (apply Hf; now left).
      assert (Hf' : forall c, In c sts -> good (f c)) by (intros c Hc; apply Hf; now right).
      destruct (gt (f x) (fst b)) eqn:G.
      + destruct (IH (f x, x) Hx Hf') as (A & B & C & E). cbn [fst] in B. split; [exact A|]. split; [|split].
        * apply (le_trans _ (f x)); try assumption. now apply gt_asym.
        * intros c [<-|Hc]; [exact B|now apply C].
        * right. destruct E as [E|(c & Hc & E)]; [exists x; split; [now left|exact E]|exists c; split; [now right|exact E]].
      + destruct (IH b Hb Hf') as (A & B & C & E). split; [exact A|]. split; [exact B|]. split.
        * intros c [<-|Hc]; [|now apply C]. now apply (le_trans _ (fst b)).
        * destruct E as [E|(c & Hc & E)]; [now left|right; exists c; split; [now right|exact E]].
  Qed.

  (** The value of a state in a layer is good and at least the score of each path ending there. *)
  Lemma chain_best ls os : chain ls os -> Forall Obs os -> forall l ls', ls = l :: ls' -> forall s, In s states ->
    good (fst (at_layer l s)) /\
    forall rp, length (s :: rp) = length os -> Forall (fun s => In s states) rp ->
               good (rscore (s :: rp) os) /\ gt (rscore (s :: rp) os) (fst (at_layer l s)) = false.
  Proof.
    induction 1 as [o|l ls o os H IH]; intros HO l0 ls0 E s Hs; injection E as <- <-.
    - inversion HO as [|? ? Ho _]; subst.
      assert (X : at_layer (first_layer o) s = (start_weight s o, -1)).
      { apply at_layer_some. rewrite first_layer_node. apply existsb_In in Hs. now rewrite Hs. }
      rewrite X. cbn [fst]. pose proof (goodw_good _ (start_good s o Hs Ho)) as G. split; [exact G|].
      intros rp Hl _. destruct rp; [|discriminate]. cbn [rscore]. split; [exact G|now apply le_refl].
    - inversion HO as [|? ? Ho HO']; subst.
      assert (X : at_layer (next_layer l o) s = best_node l s o).
      { apply at_layer_some. rewrite next_layer_node. apply existsb_In in Hs. now rewrite Hs. }
      rewrite X. pose proof (fun p Hp => IH HO' l ls eq_refl p Hp) as IH'.
      pose proof (scan_max (fun cur => add (fst (at_layer l cur)) (step_weight cur s o)) states (default_node D ninf) good_ninf) as M.
      cbv zeta in M. destruct M as (A & _ & C & _).
      { intros c Hc. apply good_add; [apply IH'; exact Hc|now apply step_good]. }
      unfold best_node. split; [exact A|]. intros rp Hl Hf.
      destruct (chain_ok _ _ H) as (? & ? & _ & _ & Hlen).
      destruct rp as [|p rp]; [cbn [length] in *; lia|]. inversion Hf as [|? ? Hp Hf']; subst.
      destruct (IH' p Hp) as [Gp Bp]. destruct (Bp rp ltac:(cbn [length] in *; lia) Hf') as [Gr Br].
      rewrite rscore_cons. pose proof (step_good p s o Hp Hs Ho) as Gw. split; [now apply good_add|].
      apply (le_trans _ (add (fst (at_layer l p)) (step_weight p s o))); try (now apply good_add); try assumption.
      + now apply le_add.
      + now apply C.
  Qed.

  Lemma path_rev obs path s : is_path states obs path -> ends_in path s ->
    exists rp, rev path = s :: rp /\ length (s :: rp) = length (rev obs) /\ Forall (fun s => In s states) rp /\ In s states.
  Proof.
    intros [Hl Hf] (p & ->). exists (rev p). rewrite rev_app_distr. cbn [rev app]. split; [reflexivity|].
    rewrite Forall_app in Hf. destruct Hf as [Hf1 Hf2]. inversion Hf2; subst. split; [|split; [now apply Forall_rev|assumption]].
    rewrite app_length in Hl. cbn [length] in *. rewrite !rev_length. lia.
  Qed.
  Lemma path_last obs path : is_path states obs path -> obs <> [] -> exists s, ends_in path s /\ In s states.
  Proof.
    intros [Hl Hf] Hne. destruct path as [|x path] using rev_ind; [destruct obs; [contradiction|discriminate]|].
    exists x. split; [now exists path|]. apply Forall_app in Hf. destruct Hf as [_ Hf]. now inversion Hf.
  Qed.

  (** [final] is the largest score among the paths ending in a state; it is attained. *)
  Lemma final_best o obs s path : Forall Obs (o :: obs) -> is_path states (o :: obs) path -> ends_in path s ->
    good (score path (o :: obs)) /\ good (final (o :: obs) s) /\ gt (score path (o :: obs)) (final (o :: obs) s) = false.
  Proof.
    intros HO Hp He. destruct (path_rev _ _ _ Hp He) as (rp & Er & Hl & Hf & Hs).
    pose proof (viterbi_chain o obs) as Hc. destruct (chain_ok _ _ Hc) as (l & ls' & E & Hok & _).
    unfold final, final_layer. rewrite E in *. cbn [hd].
    assert (HO' : Forall Obs (rev (o :: obs))) by now apply Forall_rev.
    destruct (chain_best _ _ Hc HO' l ls' eq_refl s Hs) as [G B]. destruct (B rp Hl Hf) as [G' B'].
    rewrite rscore_score in G', B' by (try discriminate; exact Hl). rewrite <- Er, !rev_involutive in *.
    repeat split; assumption.
  Qed.
  Lemma final_good o obs s : Forall Obs (o :: obs) -> In s states -> good (final (o :: obs) s).
  Proof.
    intros HO Hs. pose proof (viterbi_chain o obs) as Hc. destruct (chain_ok _ _ Hc) as (l & ls' & E & Hok & _).
    unfold final, final_layer. rewrite E in *. cbn [hd].
    apply (chain_best _ _ Hc (Forall_rev HO) l ls' eq_refl s Hs).
  Qed.
  Lemma constant_path obs s : In s states -> obs <> [] -> is_path states obs (repeat s (length obs)) /\ ends_in (repeat s (length obs)) s.
  Proof.
    intros Hs Hne. split.
    - split; [apply repeat_length|]. apply Forall_forall. intros x Hx. apply repeat_spec in Hx. now subst.
    - destruct obs as [|o obs]; [contradiction|]. cbn [length]. exists (repeat s (length obs)).
      change (repeat s (S (length obs))) with (s :: repeat s (length obs)).
      clear. induction (length obs) as [|n IH]; [reflexivity|]. cbn [repeat app] in *. now rewrite <- IH.
  Qed.
  Lemma final_attained o obs s : Forall Obs (o :: obs) -> In s states ->
    exists path, is_path states (o :: obs) path /\ ends_in path s /\ score path (o :: obs) = final (o :: obs) s.
  Proof.
    intros HO Hs. destruct (gt (final (o :: obs) s) ninf) eqn:G.
    - pose proof (viterbi_chain o obs) as Hc. destruct (chain_ok _ _ Hc) as (l & ls' & E & Hok & _).
      unfold final, final_layer in *. rewrite E in *. cbn [hd] in *.
      apply (proj2 Hok) in Hs as Hin. apply (assoc_Some_In _ Zeqb_spec') in Hin. destruct Hin as [n En].
      rewrite (at_layer_some _ _ _ En) in *.
      destruct (backtrack_ok _ _ Hc l ls' s n ninf [] [] eq_refl En G Hs) as (rp & _ & Hlen & Hf & Hsc).
      exists (rev (s :: rp)). split; [|split; [apply ends_in_rev|]].
      + split; [rewrite !rev_length in *; exact Hlen|]. now apply Forall_rev.
      + rewrite <- Hsc, rscore_score; [now rewrite rev_involutive|discriminate|exact Hlen].
    - destruct (constant_path (o :: obs) s Hs ltac:(discriminate)) as [Hp He].
      exists (repeat s (length (o :: obs))). split; [exact Hp|]. split; [exact He|].
      destruct (final_best o obs s _ HO Hp He) as (A & B & C).
      rewrite (not_above_ninf _ B G) in *. now apply not_above_ninf.
  Qed.

  (** The scan of the last layer finds the maximum, in whatever order. *)
  Lemma scan_last_max es : forall st mp pr st' mp' pr', good mp -> Forall (fun e => good (fst (snd e))) es ->
    scan_last D gt es st mp pr = Ret (st', mp', pr') ->
    good mp' /\ gt mp mp' = false /\ forall e, In e es -> gt (fst (snd e)) mp' = false.
  Proof.
    induction es as [|[s n] es IH]; intros st mp pr st' mp' pr' Gm Ge E; cbn [scan_last] in E.
    - injection E as <- <- <-. repeat split; [exact Gm|now apply le_refl|contradiction].
    - inversion Ge as [|? ? Gn Ge']; subst. cbn [fst snd] in *. unfold write_prob in E.
      destruct ((0 <=? s) && (s <? 24)); [|discriminate]. cbn [bind] in E.
      destruct (gt (fst n) mp) eqn:G.
      + destruct (IH _ _ _ _ _ _ Gn Ge' E) as (A & B & C). split; [exact A|]. split.
        * apply (le_trans _ (fst n)); try assumption. now apply gt_asym.
        * intros e [<-|He]; [exact B|now apply C].
      + destruct (IH _ _ _ _ _ _ Gm Ge' E) as (A & B & C). split; [exact A|]. split; [exact B|].
        intros e [<-|He]; [|now apply C]. now apply (le_trans _ mp).
  Qed.
  Lemma viterbi_max o obs keys ks mp pr : Forall Obs (o :: obs) -> viterbi (o :: obs) keys = Ret (ks, mp, pr) ->
    good mp /\ forall s, In s states -> gt (final (o :: obs) s) mp = false.
  Proof.
    intros HO Ev. pose proof (viterbi_chain o obs) as Hc. destruct (chain_ok _ _ Hc) as (l & ls' & E & Hok & _).
    cbn [Hmm.viterbi] in Ev. unfold final, final_layer. rewrite E in *. cbn [hd].
    assert (Gi : Forall (fun e => good (fst (snd e))) (iter l)).
    { apply Forall_forall. intros [s n] He. apply (Permutation_in _ (iter_perm l)) in He. cbn [snd].
      pose proof (NoDup_assoc _ Zeqb_spec' _ _ _ (proj1 Hok) He) as En.
      destruct (chain_best _ _ Hc (Forall_rev HO) l ls' eq_refl s) as [G _].
      - apply (proj2 Hok). apply in_map_iff. now exists (s, n).
      - now rewrite (at_layer_some _ _ _ En) in G. }
    cbn [Hmm.backtrack] in Ev. change (-1 =? -1) with true in Ev. cbv iota in Ev.
    destruct (scan_last D gt (iter l) (-1) ninf (repeat zero 24)) as [[[st' mp'] pr']| |] eqn:Es; cbn [bind] in Ev; try discriminate.
    destruct (scan_last_max _ _ _ _ _ _ _ good_ninf Gi Es) as (A & _ & C).
    assert (mp' = mp).
    { destruct (assoc Z.eqb st' l) as [n|] eqn:En; [|discriminate].
      destruct (Forall_dec (fun s => 0 <= s < 24) ltac:(intros; destruct (Z_le_dec 0 x); destruct (Z_lt_dec x 24); [left|right|right|right]; lia) states) as [Hv|Hv].
      2:{ exfalso. rewrite scan_last_bad in Es; [discriminate|]. rewrite <- (iter_valid l Hok). exact Hv. }
      destruct (scan_last_ok (iter l) (-1) ninf (repeat zero 24) (proj1 (iter_valid l Hok) Hv) (iter_nodup l Hok) (repeat_length _ _))
        as (st2 & mp2 & pr2 & Es2 & _ & Cc & _). rewrite Es in Es2. injection Es2 as <- <- <-.
      assert (Hst : In st' states). { apply (proj2 Hok). apply (assoc_In _ Zeqb_spec') in En. apply in_map_iff. now exists (st', n). }
      destruct Cc as [( -> & _ & _)|(n2 & Hin & Em & Hg)]; [exfalso; contradiction|].
      apply (Permutation_in _ (iter_perm l)) in Hin. pose proof (NoDup_assoc _ Zeqb_spec' _ _ _ (proj1 Hok) Hin) as En2.
      rewrite En in En2. injection En2 as <-. subst mp'.
      destruct (backtrack_ok _ _ Hc l ls' st' n (fst n) pr' keys eq_refl En Hg Hst) as (rp & Eb & _).
      cbn [Hmm.backtrack] in Eb. destruct (Z.eqb_spec st' (-1)); [subst; contradiction|]. cbn [bind] in Eb. rewrite En in Eb.
      rewrite Eb in Ev. cbn [bind] in Ev. congruence. }
    subst mp'. split; [exact A|]. intros s Hs. apply (proj2 Hok) in Hs. apply (assoc_Some_In _ Zeqb_spec') in Hs. destruct Hs as [n En].
    rewrite (at_layer_some _ _ _ En). apply (assoc_In _ Zeqb_spec') in En. apply (C (s, n)).
    now apply (Permutation_in _ (Permutation_sym (iter_perm l))).
  Qed.
End Generic.
