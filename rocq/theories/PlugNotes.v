(** The values of the chroma plug-in: what a whole run returns, signs, the best transcription, and normalisation. *)
From Coq Require Import Reals Lra Lia.
From Flocq Require Import Core.Core IEEE754.BinarySingleNaN.
From Verif Require Import Base BaseFacts Fp Options Chromagram ChromaFacts FpFacts FloatKit Nnls NnlsArith NnlsFacts NnlsSafe NnlsSingle NnlsSums NnlsSpec NnlsMain NnlsEnds Plug PlugSpec PlugFacts PlugNum PlugSafe PlugFrame PlugChroma PlugMain PlugClean PlugTuning PlugNan.
Open Scope Z_scope.

(** ** The sparse kernel *)
Lemma sparse_ok block matrix : 0 <= block -> block / 2 * nNote <= Z.of_nat (length matrix) ->
  ok (fun kernel => forall fft note v, In (fft, note, v) kernel <-> 0 <= fft < block / 2 /\ 0 <= note < nNote /\ v = znth z32 matrix (fft + block / 2 * note) /\ gt32 v z32 = true) (sparse block matrix).
Proof.
  intros B L. assert (H : 0 <= block / 2) by (apply Z.div_pos; lia). set (h := block / 2) in *. unfold sparse. fold h. unfold nNote in *.
  apply ok_weaken with (P := fun kernel => forall fft note v, In (fft, note, v) kernel <-> 0 <= fft < h /\ 0 <= note < 256 - 1 + 1 /\ v = znth z32 matrix (fft + h * note) /\ gt32 v z32 = true); [|now intros kernel K].
  apply (ok_each (fun n kernel => forall fft note v, In (fft, note, v) kernel <-> 0 <= fft < h /\ 0 <= note < n /\ v = znth z32 matrix (fft + h * note) /\ gt32 v z32 = true)); [lia|intros fft note v; split; [intros []|lia]|].
  intros n kernel N K. apply ok_weaken with (P := fun kernel' => forall fft note v, In (fft, note, v) kernel' <-> In (fft, note, v) kernel \/ 0 <= fft < h - 1 + 1 /\ note = n /\ v = znth z32 matrix (fft + h * n) /\ gt32 v z32 = true).
  - apply (ok_each (fun m kernel' => forall fft note v, In (fft, note, v) kernel' <-> In (fft, note, v) kernel \/ 0 <= fft < m /\ note = n /\ v = znth z32 matrix (fft + h * n) /\ gt32 v z32 = true)); [lia|intros fft note v; split; [now left|intros [Q|Q]; [exact Q|lia]]|].
    intros m kernel' M K'. rewrite (elt_ok z32) by nia. cbn [bind]. apply ok_ret. intros fft note v. set (w := znth z32 matrix (m + h * n)). destruct (gt32 w z32) eqn:G.
    + rewrite in_app_iff, K'. cbn [In]. split.
      * intros [[Q|Q]|[Q|[]]]; [now left|right; intuition lia|]. injection Q as <- <- <-. right. repeat split; (lia || exact G || reflexivity).
      * intros [Q|(Q1 & -> & Q3 & Q4)]; [now left; left|]. destruct (Z.eq_dec fft m) as [->|E]; [right; left; now rewrite Q3|left; right; intuition lia].
    + rewrite K'. split; (intros [Q|(Q1 & -> & Q3 & Q4)]; [now left|]); [right; intuition lia|]. destruct (Z.eq_dec fft m) as [->|E]; [fold w in Q3; congruence|right; intuition lia].
  - intros kernel' K' fft note v. rewrite K', K. split.
    + intros [Q|(Q1 & -> & Q3 & Q4)]; intuition lia.
    + intros (Q1 & Q2 & Q3 & Q4). destruct (Z.eq_dec note n) as [->|E]; [right|left]; intuition lia.
Qed.

(** ** A loud sample *)
Lemma ext_ge (x : b32) (m : R) : is_finite x = true -> (m <= B2R x)%R -> (m <= ext x)%R.
Proof. intros F. now destruct x. Qed.
Lemma infinite_ext (x : b32) s : B2SF x = SpecFloat.S754_infinity s -> ext x = (if s then - bpow radix2 200 else bpow radix2 200)%R.
Proof. destruct x; try discriminate. intros [= ->]. now destruct s. Qed.
Lemma small_200 m : (m <= 4 -> m <= bpow radix2 200)%R.
Proof. intros H. apply Rle_trans with (1 := H). change 4%R with (bpow radix2 2). apply bpow_le. lia. Qed.
Lemma square_loud x : Bleb (rat32 2 1) x = true -> num (mul32 x x) /\ nn (mul32 x x) /\ (4 <= ext (mul32 x x))%R.
Proof.
  intros H. assert (NX : num x) by (destruct x; try reflexivity; destruct (rat32 2 1) as [[|]|[|]| |[|]]; discriminate H). destruct (square_num x NX) as (N & P). split; [exact N|]. split; [exact P|].
  destruct (rat32_int 2 ltac:(lia)) as (F2 & V2). destruct (is_finite x) eqn:FX.
  - rewrite (Bleb_correct prec32 emax32 (rat32 2 1) x F2 FX) in H. (destruct (Rle_bool_spec (B2R (rat32 2 1)) (B2R x)) as [Q|Q]; [clear H; rename Q into H|discriminate H]). rewrite V2 in H.
    assert (C := Bmult_correct prec32 emax32 _ _ mode_NE x x). destruct (Rlt_bool _ _).
    + destruct C as (C1 & C2 & _). rewrite FX in C2. apply ext_ge; [exact C2|]. unfold mul32. rewrite C1. change (4 <= rnd32 (B2R x * B2R x))%R. rewrite <- (rnd32_id 4) by (apply fmt_int; lia). apply rnd32_le. nra.
    + unfold mul32. rewrite (infinite_ext _ (xorb (Bsign x) (Bsign x)) C). rewrite xorb_nilpotent. apply small_200. lra.
  - destruct x as [|[|]| |]; try discriminate. cbn [ext mul32 Bmult xorb]. apply small_200. lra.
Qed.
Lemma ext_nn x : nn x -> num x -> (0 <= ext x)%R.
Proof. intros N X. destruct (is_finite x) eqn:F; [apply ext_ge; [exact F|]; now apply nn_pos|]. apply nn_iff in N. destruct x as [|[|]| |]; try discriminate; try contradiction. change (0 <= bpow radix2 200)%R. apply bpow_ge_0. Qed.
Lemma add_loud x y m : nn x -> nn y -> num x -> num y -> (0 <= m <= 4)%R -> fmt m -> (m <= ext x \/ m <= ext y)%R -> (m <= ext (fadd32 x y))%R.
Proof.
  intros Px Py X Y M Fm H. assert (Ex := ext_nn x Px X). assert (Ey := ext_nn y Py Y). destruct (is_finite x) eqn:FX, (is_finite y) eqn:FY.
  - assert (C := Bplus_correct prec32 emax32 _ _ mode_NE x y FX FY). replace (ext x) with (B2R x) in * by (destruct x; try discriminate FX; reflexivity). replace (ext y) with (B2R y) in * by (destruct y; try discriminate FY; reflexivity). destruct (Rlt_bool _ _).
    + destruct C as (C1 & C2 & _). apply ext_ge; [exact C2|]. unfold fadd32. rewrite C1. change (m <= rnd32 (B2R x + B2R y))%R. rewrite <- (rnd32_id m Fm). apply rnd32_le. lra.
    + destruct C as (C1 & C2). unfold fadd32. assert (Z := add_num x y Px Py X Y). unfold fadd32 in Z. assert (P := nn_add x y Px Py). unfold fadd32 in P. assert (E : exists s, B2SF (Bplus mode_NE x y) = SpecFloat.S754_infinity s) by (eexists; exact C1). destruct E as (s & E). apply nn_iff in P. destruct (Bplus mode_NE x y) as [|[|]| |]; try discriminate E; [contradiction|]. cbn [ext mul32 Bmult xorb]. apply small_200. lra.
  - apply nn_iff in Py. destruct y as [|[|]| |]; try discriminate; try contradiction. destruct x; try discriminate FX; cbn [ext fadd32 Bplus]; apply small_200; lra.
  - apply nn_iff in Px. destruct x as [|[|]| |]; try discriminate; try contradiction. destruct y; try discriminate FY; cbn [ext fadd32 Bplus]; apply small_200; lra.
  - apply nn_iff in Py. apply nn_iff in Px. destruct y as [|[|]| |]; try discriminate; try contradiction. destruct x as [|[|]| |]; try discriminate; try contradiction. cbn [ext]; apply small_200; lra.
Qed.
Lemma sqrt_loud x : nn x -> num x -> (4 <= ext x -> 2 <= ext (sqrt32 x))%R.
Proof.
  intros P X H. destruct (is_finite x) eqn:F.
  - replace (ext x) with (B2R x) in H by (destruct x; try discriminate F; reflexivity). destruct (sqrt_R x ltac:(lra) F) as (S1 & S2). apply ext_ge; [exact S1|]. rewrite S2, <- (rnd32_id 2) by (apply fmt_int; lia). apply rnd32_le. rewrite <- (sqrt_square 2) by lra. apply sqrt_le_1; lra.
  - apply nn_iff in P. destruct x as [|[|]| |]; try discriminate; try contradiction. cbn [ext]; apply small_200; lra.
Qed.
Lemma ge_ext x : num x -> (2 <= ext x)%R -> Bleb (rat32 2 1) x = true.
Proof.
  intros X H. destruct (rat32_int 2 ltac:(lia)) as (F2 & V2). destruct (is_finite x) eqn:F.
  - rewrite (Bleb_correct prec32 emax32 (rat32 2 1) x F2 F). apply Rle_bool_true. rewrite V2. now destruct x.
  - destruct x as [|[|]| |]; try discriminate; [|reflexivity]. cbn in H. assert (Q := bpow_gt_0 radix2 200). lra.
Qed.
Lemma block_loud block : 2 <= block <= 2 ^ 24 -> Bleb (rat32 2 1) (rat32 block 1) = true.
Proof. intros B. destruct (rat32_int block ltac:(lia)) as (F & V). apply ge_ext; [unfold num; now destruct (rat32 block 1)|]. apply ext_ge; [exact F|]. rewrite V. apply IZR_le. lia. Qed.
Lemma magnitude_loud block fbuf k : 2 <= block <= 2 ^ 24 -> Bleb (rat32 2 1) (znth z32 fbuf (2 * k)) = true -> num (znth z32 fbuf (2 * k + 1)) -> Bleb (rat32 2 1) (magnitude block fbuf k) = true.
Proof.
  intros B H N. unfold magnitude. destruct (square_loud _ H) as (N1 & P1 & L1). destruct (square_num _ N) as (N2 & P2). set (x := mul32 (znth z32 fbuf (2 * k)) _) in *. set (y := mul32 (znth z32 fbuf (2 * k + 1)) _) in *.
  assert (NS := add_num x y P1 P2 N1 N2). assert (PS := nn_add x y P1 P2). assert (L := add_loud x y 4 P1 P2 N1 N2 ltac:(lra) ltac:(apply fmt_int; lia) (or_introl L1)). unfold clip. destruct (fgt _ _); [now apply block_loud|].
  apply ge_ext; [now apply sqrt_num|]. now apply sqrt_loud.
Qed.

(** ** The frames of a run *)
  (** The semitones of a spectrum. *)
  Definition notes_of u dict f2 : list b32 := match spectrum_frame u dict f2 with Ret f => f_notes f | _ => [] end.
  Lemma notes_of_frame u dict f2 : Z.of_nat (length f2) = nNote -> Z.of_nat (length dict) = nNote * 84 -> spectrum_frame u dict f2 = Ret (frame_of (notes_of u dict f2)) /\ length (notes_of u dict f2) = 84%nat.
  Proof. intros L D. unfold notes_of. destruct (spectrum_frame_ok u dict f2 L D) as (notes & N & ->). now split. Qed.
  Lemma notes_of_silent u dict f2 : Z.of_nat (length f2) = nNote -> Forall (fun v => gt32 v z32 = false) f2 -> notes_of u dict f2 = repeat z32 84.
  Proof.
    intros L S. unfold notes_of, spectrum_frame. rewrite copied by exact L. cbn [bind]. replace (existsb (fun v => gt32 v z32) f2) with false; [reflexivity|]. symmetry. clear L. induction S as [|v l V S IH]; [reflexivity|]. cbn [existsb]. now rewrite V.
  Qed.
  Lemma notes_of_plain u dict f2 : Z.of_nat (length f2) = nNote -> Exists (fun v => gt32 v z32 = true) f2 -> Beqb u z32 = true -> notes_of u dict f2 = map (fun k => smooth3 f2 (3 + 3 * k)) (zrange 0 83).
  Proof.
    intros L S U. unfold notes_of, spectrum_frame. rewrite copied by exact L. cbn [bind]. replace (existsb (fun v => gt32 v z32) f2) with true by (symmetry; apply existsb_exists; now apply Exists_exists in S). rewrite U, plain_frame_eq by exact L. reflexivity.
  Qed.
  Lemma notes_of_nnls u dict f2 k : Z.of_nat (length f2) = nNote -> Z.of_nat (length dict) = nNote * 84 -> Exists (fun v => gt32 v z32 = true) f2 -> Beqb u z32 = false -> 0 <= k < 84 ->
    exists val, transcribe (A := single) dict f2 = Ret (map (fun k => (k, val k)) (heard (A := single) f2)) /\ znth z32 (notes_of u dict f2) k = val k /\ (strong (A := single) f2 k = false -> val k = z32).
  Proof.
    intros L D S U K. unfold notes_of, spectrum_frame. rewrite copied by exact L. cbn [bind]. replace (existsb (fun v => gt32 v z32) f2) with true by (symmetry; apply existsb_exists; now apply Exists_exists in S). rewrite U.
    destruct (transcribe_ok (A := single) single_lawful dict f2 L D) as (val & T & O). rewrite (nnls_frame_from dict f2 val T O). cbn [frame_of f_notes]. exists val. split; [exact T|]. split; [apply (znth_map z32 val 84); lia|]. intros Q. apply O. rewrite heard_In, Q. now intros (_ & X).
  Qed.
Section Machine.
  Context (atan2 powf : b32 -> b32 -> b32) (ATAN : atan2_law atan2) (POW : forall s w, gt32 s z32 = true -> Bsign (powf s w) = false) {stamp : Type}.
  Implicit Types (c : setup).
  (** What is returned, from the tuned spectra. *)
  Lemma analyse_frames c (frames : list (stamp * list b32)) o : ready c -> Forall (fun f => s_block c <= Z.of_nat (length (snd f))) frames -> analyse atan2 powf c frames = Ret o ->
    good_outputs (map fst frames) o /\ exists parts : list (list b32 * list b32 * list b32),
      Forall2 (fun tf abc => normalised (s_normalize c) (chroma_of treblewindow (notes_of (s_useNNLS c) (s_dict c) (snd tf))) (chroma_of basswindow (notes_of (s_useNNLS c) (s_dict c) (snd tf))) = Ret abc) (o_tuned o) parts /\
      o_notes o = map (fun tf => (fst tf, notes_of (s_useNNLS c) (s_dict c) (snd tf))) (o_tuned o) /\
      o_treble o = combine (map fst (o_tuned o)) (map (fun abc => fst (fst abc)) parts) /\ o_bass o = combine (map fst (o_tuned o)) (map (fun abc => snd (fst abc)) parts) /\ o_both o = combine (map fst (o_tuned o)) (map snd parts).
  Proof.
    intros R F E. destruct (analyse_cases atan2 powf ATAN POW c frames R F) as (p & Ep & K & S & T1 & T2). assert (G : good_outputs (map fst frames) o).
    { assert (D : in_tune atan2 c p \/ ~ in_tune atan2 c p) by apply Classical_Prop.classic. destruct D as [D|D]; [destruct (T1 D) as (o' & Eo & G); rewrite E in Eo; apply Ret_inj in Eo; now subst o'|rewrite T2 in E by exact D; discriminate E]. }
    split; [exact G|]. unfold analyse in E. fold (processed atan2 c frames reset) in E. rewrite Ep in E. cbn [bind] in E. unfold remaining in E. destruct (p_spectra p) as [|s0 rest] eqn:Sp; [apply Ret_inj in E; subst o; exists []; cbn [o_tuned o_notes o_treble o_bass o_both map combine]; split; [constructor|now repeat split]|].
    destruct (angle _ _ _ _) as [a| |]; try discriminate E. cbn [bind] in E. destruct (shifts a) as [g| |]; try discriminate E. cbn [bind] in E. destruct (tune_all _ _ _ _) as [(l, e)| |]; try discriminate E. cbn [bind] in E.
    assert (X : forall l f3 f4 f5 f6 r, Forall (fun tf : stamp * list b32 => Z.of_nat (length (snd tf)) = nNote) l -> over (fun '(f3, f4, f5, f6) '(t, f2) => do f <- spectrum_frame (s_useNNLS c) (s_dict c) f2; do (a, b, ab) <- normalised (s_normalize c) (f_treble f) (f_bass f);
          Ret (f3 ++ [(t, f_notes f)], f4 ++ [(t, a)], f5 ++ [(t, b)], f6 ++ [(t, ab)])) l (f3, f4, f5, f6) = Ret r -> exists parts : list (list b32 * list b32 * list b32),
        Forall2 (fun tf abc => normalised (s_normalize c) (chroma_of treblewindow (notes_of (s_useNNLS c) (s_dict c) (snd tf))) (chroma_of basswindow (notes_of (s_useNNLS c) (s_dict c) (snd tf))) = Ret abc) l parts /\
        r = (f3 ++ map (fun tf => (fst tf, notes_of (s_useNNLS c) (s_dict c) (snd tf))) l, f4 ++ combine (map fst l) (map (fun abc => fst (fst abc)) parts), f5 ++ combine (map fst l) (map (fun abc => snd (fst abc)) parts), f6 ++ combine (map fst l) (map snd parts))).
    { clear - R. induction l as [|(t, f2) l IH]; intros f3 f4 f5 f6 r L Q; cbn [over] in Q.
      - apply Ret_inj in Q. subst r. exists []. split; [constructor|]. cbn [map combine]. now rewrite !app_nil_r.
      - apply Forall_inv in L as L1. apply Forall_inv_tail in L. cbn [snd] in L1. destruct R as [Rd Rk Rh Rs Rc Rb Rn]. destruct (notes_of_frame (s_useNNLS c) (s_dict c) f2 L1 Rd) as (Q1 & _). rewrite Q1 in Q. cbn [bind frame_of f_notes f_treble f_bass] in Q.
        destruct (normalised _ _ _) as [((a, b), ab)| |] eqn:N; try discriminate Q. cbn [bind] in Q. destruct (IH _ _ _ _ _ L Q) as (parts & P & ->). exists ((a, b, ab) :: parts). split; [now constructor|]. cbn [map combine fst snd]. now rewrite <- !app_assoc. }
    destruct (over _ l _) as [r| |] eqn:Q; try discriminate E. cbn [bind] in E. destruct (X l [] [] [] [] r) as (parts & P & ->); [|exact Q|].
    - destruct r as (((f3, f4), f5), f6). apply Ret_inj in E. subst o. destruct G as (_ & G & _). cbn [o_tuned] in G. apply Forall_impl with (2 := G). now intros tf (L & _).
    - apply Ret_inj in E. subst o. exists parts. cbn [o_tuned o_notes o_treble o_bass o_both app]. split; [exact P|]. now repeat split.
  Qed.
  Lemma analyse_plain_norm c (frames : list (stamp * list b32)) o : ready c -> Forall (fun f => s_block c <= Z.of_nat (length (snd f))) frames -> gt32 (s_normalize c) z32 = false -> analyse atan2 powf c frames = Ret o ->
    o_treble o = map (fun tn => (fst tn, chroma_of treblewindow (snd tn))) (o_notes o) /\ o_bass o = map (fun tn => (fst tn, chroma_of basswindow (snd tn))) (o_notes o) /\
    o_both o = map (fun tn => (fst tn, chroma_of basswindow (snd tn) ++ chroma_of treblewindow (snd tn))) (o_notes o).
  Proof.
    intros R F N E. destruct (analyse_frames c frames o R F E) as (_ & parts & P & -> & -> & -> & ->). clear - P N. induction P as [|tf abc l parts H P IH]; [repeat split|]. unfold normalised in H. rewrite N in H. apply Ret_inj in H. subst abc. cbn [map combine fst snd].
    destruct IH as (A & B & C). rewrite A, B, C. repeat split.
  Qed.
End Machine.

(** ** The best transcription *)
Lemma total_ext k f g : (forall j, (j < k)%nat -> f j = g j) -> total k f = total k g.
Proof. induction k as [|k IH]; intros H; [reflexivity|]. cbn. rewrite IH by (intros; apply H; lia). now rewrite H by lia. Qed.
Lemma sum_over_ext l f g : (forall k, In k l -> f k = g k) -> sum_over l f = sum_over l g.
Proof. induction l as [|k l IH]; intros H; [reflexivity|]. cbn. rewrite H by now left. rewrite IH; [reflexivity|]. intros; apply H; now right. Qed.
Lemma total_shift n f : total (S n) f = (f O + total n (fun j => f (S j)))%R.
Proof. induction n as [|n IH]; [cbn; lra|]. change (total (S (S n)) f) with (total (S n) f + f (S n))%R. rewrite IH. cbn. lra. Qed.
Lemma total_sum_over l (f : Z -> R) : total (length l) (fun j => f (nth j l 0)) = sum_over l f.
Proof. induction l as [|k l IH]; [reflexivity|]. cbn [length]. rewrite total_shift. cbn [nth sum_over]. now rewrite IH. Qed.
Lemma flat_column (dict : list R) l row j : (row < 256)%nat -> (j < length l)%nat -> nth (j * 256 + row) (flat_map (column (A := exact) dict) l) 0%R = znth 0%R dict (nth j l 0 * 256 + Z.of_nat row).
Proof.
  intros Hr. revert j. induction l as [|k l IH]; intros j J; [cbn in J; lia|]. cbn [flat_map]. assert (CL := column_length (A := exact) dict k). change (Z.to_nat nNote) with 256%nat in CL. destruct j as [|j].
  - cbn [Nat.mul Nat.add nth]. rewrite app_nth1 by (rewrite CL; lia). unfold column. assert (Q := znth_map (0%R : R) (fun i => znth 0%R dict (k * nNote + i)) nNote (Z.of_nat row) ltac:(unfold nNote; lia)). unfold znth at 1 in Q. rewrite Nat2Z.id in Q. exact Q.
  - rewrite app_nth2 by (rewrite CL; lia). rewrite CL. replace (S j * 256 + row - 256)%nat with (j * 256 + row)%nat by lia. cbn [nth]. apply IH. cbn in J. lia.
Qed.
Lemma transcribe_best (dict b : list R) : Z.of_nat (length b) = nNote -> Z.of_nat (length dict) = nNote * 84 ->
  exists val r, transcribe (A := exact) dict b = Ret (map (fun k => (k, val k)) (heard (A := exact) b)) /\ called (A := exact) dict b = Some (Ret r) /\ (forall k, 0 <= val k)%R /\
    (r_mode r = 1 -> forall other, (forall k, 0 <= other k)%R -> (distance dict b (heard (A := exact) b) val <= distance dict b (heard (A := exact) b) other)%R).
Proof.
  intros L D. set (l := heard (A := exact) b). destruct (Nat.eq_dec (length l) 0) as [Zl|Zl].
  - destruct (called_ends (A := exact) exact_lawful dict b L) as (r & E & Lx). destruct (transcribe_from (A := exact) dict b r (fun _ => 0%R) L D E Lx) as (val & T & V & O); [fold l; lia|]. exists val, r. split; [exact T|]. split; [exact E|].
    assert (El : l = []) by (destruct l; [reflexivity|discriminate Zl]). split; [intros k; rewrite O by (fold l; rewrite El; intros []); apply Rle_refl|]. intros _ other _. rewrite El. unfold distance. cbn [sum_over]. apply Rle_refl.
  - unfold nNote in L, D. assert (Few := heard_few (A := exact) b). fold l in Few. destruct (nnls_best 256 256 (length l) (flat_map (column (A := exact) dict) l) b (mkArray 1084 (fun k => if k =? 0 then None else Some 1%R)) (fresh 1084) (fresh 1084) (fresh 1084) (Z.to_nat ((3 * Z.of_nat (length l) + 2) * (Z.of_nat (length l) + 10)))) as (r & y & E & C & P & M & B);
      [lia|lia|rewrite (columns_length (A := exact)); change (Z.to_nat nNote) with 256%nat; lia|lia|cbn [size fresh]; lia|cbn [size fresh]; lia|cbn [size fresh]; lia|cbn [size fresh]; lia| |].
    { rewrite Z2Nat.inj_mul, !Z2Nat.inj_add, Z2Nat.inj_mul, Nat2Z.id by lia. cbn [Z.to_nat Pos.to_nat Pos.iter_op Init.Nat.add]. lia. }
    destruct (called_ends (A := exact) exact_lawful dict b L) as (r' & E' & Lx). assert (r' = r). { unfold called in E'. fold l in E'. unfold nNote in E'. change (Z.of_nat 256) with 256 in E. assert (Y := eq_trans (eq_sym E) E'). injection Y as ->. reflexivity. } subst r'. fold l in Lx.
    destruct (transcribe_from (A := exact) dict b r y L D E' Lx C) as (val & T & V & O). fold l in T, V, O. exists val, r. split; [exact T|]. split; [exact E'|].
    assert (VN : forall j, (j < length l)%nat -> val (nth j l 0) = y j).
    { intros j J. assert (Q : nth j (map val l) 0%R = nth j (map y (seq 0 (length l))) 0%R) by now rewrite V. rewrite (nth_indep _ 0%R (val 0)) in Q by now rewrite map_length. rewrite map_nth in Q. rewrite (nth_indep _ 0%R (y 0%nat)) in Q by now rewrite map_length, seq_length. rewrite map_nth, seq_nth in Q by exact J. exact Q. }
    split.
    + intros k. destruct (in_dec Z.eq_dec k l) as [I|I]; [|rewrite O by exact I; apply Rle_refl]. apply (In_nth _ _ 0) in I as (j & J & <-). rewrite VN by exact J. now apply P.
    + intros Md other Ho. destruct (B Md) as ((_ & Bst) & _). assert (X : forall v : Z -> R, distance dict b l v = squared_length 256 (residual (length l) (stored 256 (flat_map (column (A := exact) dict) l)) (fun i => nth i b 0%R) (fun j => v (nth j l 0)))).
      { intros v. unfold distance, squared_length. apply total_ext. intros row Hr. unfold Rsqr, residual. assert (Q : sum_over l (fun k => znth 0%R dict (k * 256 + Z.of_nat row) * v k)%R = total (length l) (fun j => stored 256 (flat_map (column (A := exact) dict) l) row j * v (nth j l 0%Z))%R).
        { rewrite <- (total_sum_over l (fun k => znth 0%R dict (k * 256 + Z.of_nat row) * v k)%R). apply total_ext. intros j J. unfold stored. rewrite flat_column by assumption. reflexivity. } rewrite Q. reflexivity. }
      rewrite !X. assert (X2 : squared_length 256 (residual (length l) (stored 256 (flat_map (column (A := exact) dict) l)) (fun i => nth i b 0%R) (fun j => val (nth j l 0))) = squared_length 256 (residual (length l) (stored 256 (flat_map (column (A := exact) dict) l)) (fun i => nth i b 0%R) y)).
      { unfold squared_length. apply total_ext. intros row Hr. assert (Q : residual (length l) (stored 256 (flat_map (column (A := exact) dict) l)) (fun i => nth i b 0%R) (fun j => val (nth j l 0)) row = residual (length l) (stored 256 (flat_map (column (A := exact) dict) l)) (fun i => nth i b 0%R) y row) by (unfold residual; f_equal; apply total_ext; intros j J; now rewrite VN). now rewrite Q. }
      rewrite X2. apply Bst. intros j J. apply Ho.
Qed.
