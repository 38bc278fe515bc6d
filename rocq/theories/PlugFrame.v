(** One frame of the chroma plug-in: the semitones that are heard, their values, and the chroma made of them. *)
From Coq Require Import Reals Lra Lia.
From Flocq Require Import Core.Core IEEE754.BinarySingleNaN.
From Verif Require Import Base BaseFacts Fp Options Chromagram ChromaFacts Nnls NnlsArith NnlsFacts NnlsSafe NnlsSingle NnlsSums NnlsSpec NnlsMain NnlsEnds Plug PlugFacts PlugNum PlugSafe.
Open Scope Z_scope.

(** ** Lists *)
Definition numbered (lo hi : Z) : list Z := map (fun k => 3 + 3 * k) (zrange lo hi).
Lemma centres_eq : centres = numbered 0 83. Proof. reflexivity. Qed.
Lemma each_app {S} (body : S -> Z -> outcome S) l l' s : each body (l ++ l') s = do s' <- each body l s; each body l' s'.
Proof. revert s. induction l as [|x l IH]; intros s; cbn; [reflexivity|]. destruct (body s x); [apply IH|reflexivity|reflexivity]. Qed.
(** A loop over the centres that counts the semitones. *)
Lemma ok_numbered {S} (Inv : Z -> S -> Prop) (body : S -> Z -> outcome S) lo hi s : lo <= hi + 1 -> Inv lo s -> (forall k s, lo <= k <= hi -> Inv k s -> ok (Inv (k + 1)) (body s (3 + 3 * k))) -> ok (Inv (hi + 1)) (each body (numbered lo hi) s).
Proof.
  intros L H B. assert (E : forall l s, each body (map (fun k => 3 + 3 * k) l) s = each (fun s k => body s (3 + 3 * k)) l s) by (induction l as [|x l IH]; intros s0; cbn [map each]; [reflexivity|]; destruct (body s0 (3 + 3 * x)); cbn [bind]; [apply IH|reflexivity|reflexivity]).
  unfold numbered. rewrite E. now apply (ok_each Inv (fun s k => body s (3 + 3 * k)) lo hi s).
Qed.
Lemma filter_snoc {T} (p : T -> bool) l x : filter p (l ++ [x]) = filter p l ++ (if p x then [x] else []).
Proof. rewrite filter_app. cbn. reflexivity. Qed.
Lemma named {T} (d : T) (l : list Z) (ys : list T) : NoDup l -> length l = length ys -> exists f, map f l = ys /\ forall k, ~ In k l -> f k = d.
Proof.
  intros N. revert ys. induction N as [|x l X N IH]; intros [|y ys] L; try discriminate L.
  - exists (fun _ => d). now split.
  - destruct (IH ys ltac:(cbn in L; lia)) as (f & F & O). exists (fun k => if k =? x then y else f k). split.
    + cbn [map]. rewrite Z.eqb_refl. f_equal. rewrite <- F. apply map_ext_in. intros k K. destruct (Z.eqb_spec k x); [subst; contradiction|reflexivity].
    + intros k K. destruct (Z.eqb_spec k x) as [->|E]; [elim K; now left|]. apply O. intros Q. apply K. now right.
Qed.

(** ** The semitones with a positive band *)
Section Generic.
  Context {A : arith} (LA : lawful A).
  Notation num := (num A).
  Definition band3 (b : list num) (i : Z) : num := add (add (add zero (znth zero b (i - 1))) (znth zero b i)) (znth zero b (i + 1)).
  Definition strong (b : list num) (k : Z) : bool := gtb (band3 b (3 + 3 * k)) zero.
  Definition heard (b : list num) : list Z := filter (strong b) (zrange 0 83).
  Lemma heard_In b k : In k (heard b) <-> 0 <= k <= 83 /\ strong b k = true.
  Proof. unfold heard. now rewrite filter_In, zrange_In. Qed.
  Lemma heard_NoDup b : NoDup (heard b). Proof. apply NoDup_filter, zrange_NoDup. Qed.
  Lemma heard_few b : (length (heard b) <= 84)%nat. Proof. unfold heard. etransitivity; [apply filter_shorter|]. now rewrite zrange_length. Qed.
  Lemma band_eq b i : Z.of_nat (length b) = nNote -> 1 <= i <= 254 -> band b i = Ret (band3 b i).
  Proof.
    intros L I. unfold nNote in L. unfold band, loop. change (zrange (-1) 1) with [-1; 0; 1]. cbn [each]. rewrite (elt_ok zero b (i + -1)) by lia. cbn [bind]. rewrite (elt_ok zero b (i + 0)) by lia. cbn [bind]. rewrite (elt_ok zero b (i + 1)) by lia. cbn [bind].
    unfold band3. now replace (i + -1) with (i - 1) by lia; replace (i + 0) with i by lia.
  Qed.
  Lemma significant_eq b : Z.of_nat (length b) = nNote -> significant b = Ret (heard b).
  Proof.
    intros L. unfold significant. rewrite centres_eq.
    destruct (ok_numbered (fun k (s : list Z * Z) => s = (filter (strong b) (zrange 0 (k - 1)), k)) (fun '(sig, index) iNote => do v <- band b iNote; Ret (if gtb v zero then sig ++ [index] else sig, index + 1)) 0 83 ([], 0)) as (s & -> & ->); [lia|reflexivity| |reflexivity].
    intros k s K ->. rewrite band_eq by (assumption || lia). cbn [bind]. apply ok_ret. replace (k + 1 - 1) with (k - 1 + 1) by lia. rewrite (zrange_snoc 0 (k - 1)) by lia. replace (k - 1 + 1) with k by lia. rewrite filter_snoc. unfold strong. destruct (gtb _ _); [reflexivity|now rewrite app_nil_r].
  Qed.
  (** The columns of the dictionary, one after the other. *)
  Definition column (dict : list num) (s : Z) : list num := map (fun i => znth zero dict (s * nNote + i)) (zrange 0 (nNote - 1)).
  Lemma columns_eq dict sig : Z.of_nat (length dict) = nNote * 84 -> Forall (fun s => 0 <= s <= 83) sig -> columns dict sig = Ret (flat_map (column dict) sig).
  Proof.
    intros L F. unfold columns. assert (G : forall a, each (fun a s => loop 0 (nNote - 1) (fun a iBin => do v <- elt dict (s * nNote + iBin); Ret (a ++ [v])) a) sig a = Ret (a ++ flat_map (column dict) sig)); [|exact (G [])].
    induction F as [|s sig S F IH]; intros a; cbn [each flat_map]; [now rewrite app_nil_r|].
    rewrite (loop_pure _ (fun a i => a ++ [znth zero dict (s * nNote + i)])) by (intros a' i I; rewrite (elt_ok zero) by (unfold nNote in *; lia); reflexivity).
    cbn [bind]. rewrite IH. f_equal. rewrite app_assoc. f_equal. unfold column. generalize (zrange 0 (nNote - 1)). intros l. clear. revert a. induction l as [|x l IH]; intros a; cbn [fold_left map]; [now rewrite app_nil_r|]. rewrite IH, <- app_assoc. reflexivity.
  Qed.
  Lemma column_length dict s : length (column dict s) = Z.to_nat nNote.
  Proof. unfold column. now rewrite map_length, zrange_length. Qed.
  Lemma columns_length dict sig : length (flat_map (column dict) sig) = (Z.to_nat nNote * length sig)%nat.
  Proof. induction sig as [|s sig IH]; [cbn; lia|]. cbn [flat_map length]. rewrite app_length, column_length, IH. lia. Qed.

  (** The call of nnls() for a frame. *)
  Definition called (dict b : list num) : option (outcome (result A)) :=
    nnls (of_list (flat_map (column dict) (heard b))) nNote nNote (Z.of_nat (length (heard b))) (of_list b) (mkArray 1084 (fun k => if k =? 0 then None else Some one)) (fresh 1084) (fresh 1084) (fresh 1084)
      (Z.to_nat ((3 * Z.of_nat (length (heard b)) + 2) * (Z.of_nat (length (heard b)) + 10))).
  Lemma called_ends dict b : Z.of_nat (length b) = nNote -> exists r, called dict b = Some (Ret r) /\ live (r_x r) (Z.of_nat (length (heard b))).
  Proof.
    intros L. assert (F := heard_few b). unfold called. set (n := length (heard b)) in *. destruct (Nat.eq_dec n 0) as [Z|Z].
    - rewrite Z. cbn [Z.of_nat]. rewrite nnls_empty by (right; lia). eexists. split; [reflexivity|]. cbn [r_x]. split; [cbn; lia|]. intros i I. lia.
    - unfold nNote in *. destruct (nnls_safe LA 256 256 (Z.of_nat n) ltac:(lia) ltac:(lia) ltac:(lia) (of_list (flat_map (column dict) (heard b))) (of_list b) (mkArray 1084 (fun k => if k =? 0 then None else Some one)) (fresh 1084) (fresh 1084) (fresh 1084)
        (Z.to_nat ((3 * Z.of_nat n + 2) * (Z.of_nat n + 10)))) as (r & E & Lx & _); [apply live_of_list; rewrite columns_length; fold n; unfold nNote; rewrite Nat2Z.inj_mul, Z2Nat.id by lia; lia|apply live_of_list; lia|cbn [size fresh]; lia|cbn [size fresh]; lia|cbn [size fresh]; lia|cbn [size fresh]; lia|unfold enough; nia|].
      exists r. split; [exact E|exact Lx].
  Qed.
  (** The values that are taken from a result. *)
  Lemma read_all (x : array num) (sig : list Z) (y : nat -> num) : live x (Z.of_nat (length sig)) -> (forall j, (j < length sig)%nat -> cell x (Z.of_nat j) = Some (y j)) ->
    (do (l, _) <- each (fun '(l, iNote) s => do v <- rd x iNote; Ret (l ++ [(s, v)], iNote + 1)) sig ([], 0); Ret l) = Ret (combine sig (map y (seq 0 (length sig)))).
  Proof.
    intros (B & _) C. assert (G : forall rest done, sig = done ++ rest -> forall l, each (fun '(l, iNote) s => do v <- rd x iNote; Ret (l ++ [(s, v)], iNote + 1)) rest (l, Z.of_nat (length done)) = Ret (l ++ combine rest (map y (seq (length done) (length rest))), Z.of_nat (length sig))).
    { induction rest as [|s rest IH]; intros done E l; cbn [each]; [rewrite app_nil_r in E; subst done; cbn; now rewrite app_nil_r|].
      assert (J : (length done < length sig)%nat) by (rewrite E, app_length; cbn; lia). unfold rd at 1. replace ((0 <=? Z.of_nat (length done)) && (Z.of_nat (length done) <? size x)) with true by (symmetry; apply andb_true_intro; split; [apply Z.leb_le|apply Z.ltb_lt]; lia).
      rewrite (C _ J). cbn [bind]. specialize (IH (done ++ [s]) ltac:(now rewrite <- app_assoc)). rewrite app_length in IH. cbn [length] in IH. replace (Z.of_nat (length done) + 1) with (Z.of_nat (length done + 1)) by lia. rewrite IH. cbn [length seq map combine].
      replace (S (length done)) with (length done + 1)%nat by lia. now rewrite <- app_assoc. }
    specialize (G sig [] eq_refl []). cbn [length Z.of_nat] in G. rewrite G. reflexivity.
  Qed.
  Lemma transcribe_from dict b r y : Z.of_nat (length b) = nNote -> Z.of_nat (length dict) = nNote * 84 -> called dict b = Some (Ret r) -> live (r_x r) (Z.of_nat (length (heard b))) ->
    (forall j, (j < length (heard b))%nat -> cell (r_x r) (Z.of_nat j) = Some (y j)) ->
    exists val, transcribe dict b = Ret (map (fun k => (k, val k)) (heard b)) /\ map val (heard b) = map y (seq 0 (length (heard b))) /\ forall k, ~ In k (heard b) -> val k = zero.
  Proof.
    intros L D E Lx C. destruct (named zero (heard b) (map y (seq 0 (length (heard b)))) (heard_NoDup b) ltac:(now rewrite map_length, seq_length)) as (val & V & O). exists val. split; [|split; [exact V|exact O]].
    unfold transcribe. rewrite significant_eq by exact L. cbn [bind]. rewrite columns_eq; [|exact D|apply Forall_forall; intros s S; now apply heard_In in S]. cbn [bind]. unfold activations. fold (called dict b). rewrite E. cbn [bind].
    rewrite (read_all _ _ y Lx C). rewrite <- V. f_equal. clear. induction (heard b) as [|k l IH]; [reflexivity|]. cbn [map combine]. now rewrite IH.
  Qed.
  Lemma transcribe_ok dict b : Z.of_nat (length b) = nNote -> Z.of_nat (length dict) = nNote * 84 ->
    exists val, transcribe dict b = Ret (map (fun k => (k, val k)) (heard b)) /\ forall k, ~ In k (heard b) -> val k = zero.
  Proof.
    intros L D. destruct (called_ends dict b L) as (r & E & Lx). destruct (transcribe_from dict b r (fun j => match cell (r_x r) (Z.of_nat j) with Some v => v | None => zero end) L D E Lx) as (val & T & _ & O).
    - intros j J. destruct Lx as (_ & Lx). specialize (Lx (Z.of_nat j) ltac:(lia)). now destruct (cell (r_x r) (Z.of_nat j)).
    - exists val. now split.
  Qed.
End Generic.
