(** The stored tables meet the numeric conditions of the detection theorems. *)
From Coq Require Import Reals Lra Lia ZifyBool.
From Flocq Require Import Core.Core IEEE754.BinarySingleNaN.
From Verif Require Import Base BaseFacts Fp FpFacts Key PitchClass KeyProfile KeyTransition Hmm Pipeline MusicSpec ProfileFacts TransitionFacts HmmSpec NumFacts PipelineSpec PipelineFacts.
Open Scope Z_scope.

Definition usable_b (l : list b64) : bool := forallb (fun x => is_finite x && (0 <=? scaled x) && (scaled x <=? 2 ^ 1574)) l.
Definition clear_b (l : list b64) : bool := forallb (fun x => is_finite x && ((scaled x =? 0) || (2 ^ 574 <=? scaled x))) l.
Definition positive_b (x : b64) : bool := is_finite x && (0 <? scaled x).
Lemma positive_b_ok x : positive_b x = true -> positive x.
Proof. unfold positive_b. intros H. apply andb_prop in H. destruct H as [F H]. apply scaled_pos; [exact F|lia]. Qed.
Lemma scaled_bpow x e : is_finite x = true -> 0 <= e -> (scaled x <= 2 ^ e -> (B2R x <= bpow radix2 (e - 1074))%R) /\ (2 ^ e <= scaled x -> (bpow radix2 (e - 1074) <= B2R x)%R).
Proof.
  intros F He. rewrite (scaled_correct x F). replace (bpow radix2 (e - 1074)) with (IZR (2 ^ e) * bpow radix2 (-1074))%R.
  - split; intros H; apply Rmult_le_compat_r; try apply bpow_ge_0; now apply IZR_le.
  - change 2 with (radix_val radix2). rewrite IZR_Zpower by exact He. rewrite <- bpow_plus. f_equal.
Qed.
Lemma usable_b_ok l : usable_b l = true -> usable l.
Proof.
  intros H. apply Forall_forall. intros x Hx. apply (proj1 (forallb_forall _ _) H) in Hx. apply andb_prop in Hx. destruct Hx as [Hx H3]. apply andb_prop in Hx. destruct Hx as [F H2].
  split; [exact F|]. split; [apply scaled_nonneg; [exact F|lia]|]. apply (scaled_bpow x 1574 F); [lia|]. now apply Z.leb_le.
Qed.
Lemma clear_b_ok l : clear_b l = true -> clear l.
Proof.
  intros H. apply Forall_forall. intros x Hx. apply (proj1 (forallb_forall _ _) H) in Hx. apply andb_prop in Hx. destruct Hx as [F Hx].
  apply orb_prop in Hx. destruct Hx as [Hx|Hx].
  - left. rewrite (scaled_correct x F). apply Z.eqb_eq in Hx. rewrite Hx. lra.
  - right. apply (scaled_bpow x 574 F); [lia|]. now apply Z.leb_le.
Qed.
Lemma profiles_fine : forallb (fun e => usable_b (snd e) && clear_b (snd e) && existsb positive_b (snd e)) (builtin_major ++ builtin_minor) = true.
Proof. vm_compute. reflexivity. Qed.
Lemma transitions_fine : forallb (fun e => usable_b (snd e) && clear_b (snd e) && (String.eqb (fst e) "zero" || forallb positive_b (snd e))) builtin_transitions = true.
Proof. vm_compute. reflexivity. Qed.
Lemma profile_fine n A : In (n, A) builtin_major \/ In (n, A) builtin_minor -> usable A /\ clear A /\ Exists positive A.
Proof.
  intros H. apply in_or_app in H. apply (proj1 (forallb_forall _ _) profiles_fine) in H. cbn [snd] in H. apply andb_prop in H. destruct H as [H H3]. apply andb_prop in H. destruct H as [H1 H2].
  split; [now apply usable_b_ok|]. split; [now apply clear_b_ok|]. apply existsb_exists in H3. destruct H3 as (x & Hx & Px). apply Exists_exists. exists x. split; [exact Hx|now apply positive_b_ok].
Qed.
Lemma transition_fine n T : In (n, T) builtin_transitions -> usable T /\ clear T /\ (n <> "zero"%string -> Forall positive T).
Proof.
  intros H. apply (proj1 (forallb_forall _ _) transitions_fine) in H. cbn [fst snd] in H. apply andb_prop in H. destruct H as [H H3]. apply andb_prop in H. destruct H as [H1 H2].
  split; [now apply usable_b_ok|]. split; [now apply clear_b_ok|]. intros N. destruct (String.eqb_spec n "zero"); [contradiction|]. cbn [orb] in H3.
  apply Forall_forall. intros x Hx. apply positive_b_ok. exact (proj1 (forallb_forall _ _) H3 x Hx).
Qed.
Lemma stored_chosen {stored : list (string * list b64)} n A c : NoDup (map fst stored) -> ~ In "custom"%string (map fst stored) -> In (n, A) stored -> chosen stored n c = Some A.
Proof.
  intros N C H. unfold chosen. destruct (String.eqb_spec n "custom") as [->|_]; [exfalso; apply C; now apply (in_map fst) in H|].
  now apply (NoDup_assoc _ Seqb_spec').
Qed.
Fixpoint distinct_b (l : list string) : bool := match l with [] => true | x :: l' => negb (existsb (String.eqb x) l') && distinct_b l' end.
Lemma distinct_b_ok l : distinct_b l = true -> NoDup l.
Proof.
  induction l as [|x l IH]; intros H; [constructor|]. cbn [distinct_b] in H. apply andb_prop in H. destruct H as [H1 H2]. constructor; [|now apply IH].
  intros X. apply Bool.negb_true_iff in H1. assert (Y : existsb (String.eqb x) l = true) by (apply existsb_exists; exists x; split; [exact X|apply String.eqb_refl]). congruence.
Qed.
Definition stored_tables (maj mino name : string) : tables := mkTables maj mino zero_profile zero_profile name zero_transition.
Lemma stored_selects maj mino name A B T : In (maj, A) builtin_major -> In (mino, B) builtin_minor -> In (name, T) builtin_transitions ->
  selects (stored_tables maj mino name) A B T.
Proof.
  intros HA HB HT. split.
  - apply stored_chosen; [apply distinct_b_ok; reflexivity| |exact HA]. cbn. intuition discriminate.
  - apply stored_chosen; [apply distinct_b_ok; reflexivity| |exact HB]. cbn. intuition discriminate.
  - apply (@stored_chosen builtin_transitions); [apply distinct_b_ok; reflexivity| |exact HT]. cbn. intuition discriminate.
  - repeat split.
Qed.
Lemma C22_stored_proof : forall log10, log10_ok log10 -> forall iter1 iter2, iteration_order iter1 -> iteration_order iter2 ->
  forall maj mino name A B T notes, In (maj, A) builtin_major -> In (mino, B) builtin_minor -> In (name, T) builtin_transitions -> name <> "zero"%string ->
  Forall is_note notes -> notes <> [] ->
  exists h1 h2 K, detect log10 iter1 iter2 (stored_tables maj mino name) (map pc_of_int notes) = Ret (h1, h2, key_of_int K) /\ is_key K /\
    length (h_keys h1) = length notes.
Proof.
  intros log10 Hlog iter1 iter2 Hi1 Hi2 maj mino name A B T notes HA HB HT Hz Hn Hne.
  destruct (profile_fine maj A (or_introl HA)) as (UA & CA & EA). destruct (profile_fine mino B (or_intror HB)) as (UB & CB & EB).
  destruct (transition_fine name T HT) as (UT & CT & PT).
  exact (C22_proof log10 Hlog iter1 iter2 Hi1 Hi2 _ A B T notes (stored_selects _ _ _ _ _ _ HA HB HT) UA UB UT CA CB CT (or_introl EA) (PT Hz) Hn Hne).
Qed.
