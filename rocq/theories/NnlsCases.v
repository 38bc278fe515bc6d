(** nnls() on given numbers. *)
From Coq Require Import Reals Lra Lia.
From Flocq Require Import Core.Core IEEE754.BinarySingleNaN.
From Verif Require Import Base BaseFacts Fp Nnls NnlsArith NnlsSpec NnlsVisited NnlsSums NnlsMain NnlsSingle NnlsEnds.
Open Scope Z_scope.

(** What a call shows: mode, x, norm. *)
Definition shown (r : option (outcome (result single))) :=
  match r with Some (Ret r) => Some (r_mode r, map (fun i => option_map B2SF (cell (r_x r) i)) [0; 1], option_map B2SF (r_norm r)) | _ => None end.
Notation square a b := (nnls (A := single) (of_list a) 2 2 2 (of_list b) (fresh 2) (fresh 2) (fresh 2) (fresh 2) 96).
Lemma shown_some o k u v t : shown o = Some (k, [u; v], t) -> exists r, o = Some (Ret r) /\ r_mode r = k /\ option_map B2SF (cell (r_x r) 0) = u.
Proof. destruct o as [[r|e|e]|]; cbn [shown map]; try discriminate. intros E. injection E as <- <- _ _. exists r. now repeat split. Qed.
Definition tiny (z : Z) : b32 := fdiv32 (rat32 z 1) (rat32 (10 ^ 10) 1).
Definition huge (z : Z) : b32 := rat32 (z * 10 ^ 29) 1.
Lemma overflow_run : shown (square [tiny (-2); tiny 2; tiny 0; tiny 1] [huge 2; huge 6]) = Some (1, [Some (SpecFloat.S754_infinity true); Some (SpecFloat.S754_infinity false)], Some (SpecFloat.S754_zero false)).
Proof. vm_compute. reflexivity. Qed.
Lemma overflow_finite : Forall (fun v => is_finite v = true) ([tiny (-2); tiny 2; tiny 0; tiny 1] ++ [huge 2; huge 6]).
Proof. apply Forall_forall. apply (forallb_forall (fun v : b32 => is_finite v)). vm_compute. reflexivity. Qed.
Lemma infinite_answer (a b : list b32) v t : length a = 4%nat -> length b = 2%nat -> Forall (fun v => is_finite v = true) (a ++ b) -> shown (square a b) = Some (1, [Some (SpecFloat.S754_infinity true); v], t) ->
  exists (a b : list b32) r, length a = 4%nat /\ length b = 2%nat /\ Forall (fun v => is_finite v = true) (a ++ b) /\
  nnls (A := single) (of_list a) 2 2 2 (of_list b) (fresh 2) (fresh 2) (fresh 2) (fresh 2) 96 = Some (Ret r) /\ r_mode r = 1 /\ cell (r_x r) 0 = Some (B754_infinity true).
Proof.
  intros La Lb F H. destruct (shown_some _ _ _ _ _ H) as (r & E & M & X). exists a, b, r. do 3 (split; [assumption|]). split; [exact E|]. split; [exact M|].
  destruct (cell (r_x r) 0) as [u|]; [|discriminate X]. cbn [option_map] in X. destruct u as [|[|]| |]; try discriminate X. reflexivity.
Qed.
Lemma C71_refuted_proof : exists (a b : list b32) r, length a = 4%nat /\ length b = 2%nat /\ Forall (fun v => is_finite v = true) (a ++ b) /\
  nnls (A := single) (of_list a) 2 2 2 (of_list b) (fresh 2) (fresh 2) (fresh 2) (fresh 2) 96 = Some (Ret r) /\ r_mode r = 1 /\ cell (r_x r) 0 = Some (B754_infinity true).
Proof. exact (infinite_answer [tiny (-2); tiny 2; tiny 0; tiny 1] [huge 2; huge 6] _ _ eq_refl eq_refl overflow_finite overflow_run). Qed.
(** No overflow: columns (1, 1) and (1, 2), b = (1, 3). *)
Definition fine (l : label) (s : st single) : bool := match l with L210 => forallb (fun j => match cell (vx s) j with Some v => is_finite v | None => false end) [0; 1] | _ => true end.
Definition start (a b : list b32) : bool :=
  match initial (A := single) 2 (fresh 2) (fresh 2) with Ret (x, i) => checked (A := single) 2 2 2 fine 96 L30 (mkSt (A := single) (of_list a) (of_list b) x (fresh 2) (fresh 2) i 0 0 1 1 None 1) | _ => false end.
Lemma start_fine a b : start a b = true -> forall s j, visited (A := single) 2 2 2 (of_list a) (of_list b) (fresh 2) (fresh 2) (fresh 2) (fresh 2) L210 s -> (j < 2)%nat -> exists v, cell (vx s) (Z.of_nat j) = Some v /\ is_finite v = true.
Proof.
  unfold start. destruct (initial (A := single) 2 (fresh 2) (fresh 2)) as [(x', i')|e|e] eqn:Ei; try discriminate. intros C s j V J.
  assert (F := checked_visited (A := single) 2 2 2 (of_list a) (of_list b) (fresh 2) (fresh 2) (fresh 2) (fresh 2) fine x' i' 96 Ei C L210 s V). cbn [fine] in F. rewrite forallb_forall in F.
  specialize (F (Z.of_nat j)). destruct (cell (vx s) (Z.of_nat j)) as [v|]; [exists v; split; [reflexivity|apply F]|exfalso; cut (false = true); [discriminate|apply F]];
    destruct j as [|[|j]]; [now left|right; now left|lia|now left|right; now left|lia].
Qed.
Lemma modest_fine : start [rat32 1 1; rat32 1 1; rat32 1 1; rat32 2 1] [rat32 1 1; rat32 3 1] = true.
Proof. vm_compute. reflexivity. Qed.
(** In real numbers, step by step: the column (2) and b = (4). *)
Ltac evaluate := cbv -[Rplus Rminus Rmult Rdiv Ropp sqrt Rlt_dec Rle_dec Req_EM_T IZR Rinv].
Ltac tidy H := rewrite ?sqrt_0 in H; repeat match type of H with context [Rle_dec ?a ?b] => let N := fresh "N" in destruct (Rle_dec a b) as [N|N]; try (exfalso; lra) end.
Ltac decide_one := match goal with
  | |- context [Rlt_dec ?a ?b] => let H := fresh "H" in destruct (Rlt_dec a b) as [H|H]; tidy H; try (exfalso; lra)
  | |- context [Rle_dec ?a ?b] => let H := fresh "H" in destruct (Rle_dec a b) as [H|H]; tidy H; try (exfalso; lra)
  | |- context [Req_EM_T ?a ?b] => let H := fresh "H" in destruct (Req_EM_T a b) as [H|H]; tidy H; try (exfalso; lra) end.
Lemma run_next {A : arith} mda m n f l (s : st A) l' s' : step mda m n l s = Ret (l', s') -> l <> L350 -> run mda m n (S f) l s = run mda m n f l' s'.
Proof. intros E N. destruct l; try congruence; cbn [run]; now rewrite E. Qed.
Lemma small_run : exists r, nnls (A := exact) (of_list [2%R]) 1 1 1 (of_list [4%R]) (fresh 1) (fresh 1) (fresh 1) (fresh 1) 55 = Some (Ret r) /\ r_mode r = 1 /\ cell (r_x r) 0 = Some (4 / 2)%R.
Proof.
  assert (X : exists x i s2 s3 s4 s5 t, initial (A := exact) 1 (fresh 1) (fresh 1) = Ret (x, i) /\
    step (A := exact) 1 1 1 L30 (mkSt (A := exact) (of_list [2%R]) (of_list [4%R]) x (fresh 1) (fresh 1) i 0 0 1 1 None 1) = Ret (L60, s2) /\
    step (A := exact) 1 1 1 L60 s2 = Ret (L210, s3) /\ step (A := exact) 1 1 1 L210 s3 = Ret (L330, s4) /\ step (A := exact) 1 1 1 L330 s4 = Ret (L30, s5) /\ step (A := exact) 1 1 1 L30 s5 = Ret (L350, s5) /\
    finish (A := exact) 1 1 s5 = Ret t /\ vmode (snd t) = 1 /\ cell (vx (snd t)) 0 = Some (4 / 2)%R).
  { do 7 eexists. split; [evaluate; reflexivity|]. split; [evaluate; reflexivity|]. 
    split; [evaluate; repeat decide_one; reflexivity|]. split; [evaluate; repeat decide_one; reflexivity|]. split; [evaluate; reflexivity|]. split; [evaluate; reflexivity|]. split; [evaluate; reflexivity|]. split; evaluate; reflexivity. }
  destruct X as (x & i & s2 & s3 & s4 & s5 & t & Ei & E1 & E2 & E3 & E4 & E5 & Ef & M & C).
  exists (mkRes (A := exact) (vmode (snd t)) (vx (snd t)) (Some (fst t)) (vw (snd t)) (va (snd t)) (vb (snd t))). split; [|split; [exact M|exact C]].
  unfold nnls. rewrite Ei. change ((1 <=? 0) || (1 <=? 0)) with false. cbv iota. change 55%nat with (S (S (S (S (S 50))))).
  rewrite (run_next _ _ _ _ _ _ _ _ E1), (run_next _ _ _ _ _ _ _ _ E2), (run_next _ _ _ _ _ _ _ _ E3), (run_next _ _ _ _ _ _ _ _ E4), (run_next _ _ _ _ _ _ _ _ E5) by discriminate.
  change (run (A := exact) 1 1 1 50 L350 s5) with (Some (finish (A := exact) 1 1 s5)). rewrite Ef. destruct t. reflexivity.
Qed.
