(** Facts for the note dictionary, in any arithmetic and in real numbers. *)
From Coq Require Import Reals Lra Lia.
From Flocq Require Import Core.Core IEEE754.BinarySingleNaN.
From Verif Require Import Base BaseFacts Fp Options Chromagram ChromaFacts Nnls NnlsArith NnlsSpec NnlsFacts Plug PlugSpec PlugFacts PlugNotes Setup SetupSpec.
Open Scope Z_scope.

Section Any.
  Context (M : mixed).
  Notation z := (f_int M 0).
  (** What harmonic h of note k does to the value in a row. *)
  Definition touched (s : fl M) (k row : Z) (v : fl M) (h : Z) : fl M :=
    if d_ltb M (d_abs M (d_sub M (d_int M (row + 1)) (up M (floatbin M k h)))) (d_int M 2) then f_add M v (f_mul M (cospuls M (down M (d_int M (row + 1))) (floatbin M k h) (f_int M nBPS)) (amplitude M s h)) else v.
  Definition all_harmonics (s : fl M) (k row : Z) (v : fl M) : fl M := fold_left (touched s k row) (zrange 1 20) v.
  Notation full dm := (Z.of_nat (length dm) = nNote * 84).
  Lemma one_harmonic dm s k h : full dm -> 0 <= k < 84 ->
    ok (fun d => full d /\ forall j, 0 <= j < nNote * 84 -> znth z d j = if j / nNote =? k then touched s k (j mod nNote) (znth z dm j) h else znth z dm j)
      (loop 0 (nNote - 1) (add_pulse M (floatbin M k h) (amplitude M s h) k) dm).
  Proof.
    intros F K.
    apply ok_weaken with (P := fun d => full d /\ forall j, 0 <= j < nNote * 84 -> znth z d j = if (j / nNote =? k) && (j mod nNote <? nNote - 1 + 1) then touched s k (j mod nNote) (znth z dm j) h else znth z dm j).
    - apply (ok_each (fun i d => full d /\ forall j, 0 <= j < nNote * 84 -> znth z d j = if (j / nNote =? k) && (j mod nNote <? i) then touched s k (j mod nNote) (znth z dm j) h else znth z dm j)); [unfold nNote; lia| |].
      + split; [exact F|]. intros j J. replace (j mod nNote <? 0) with false by (symmetry; apply Z.ltb_ge; apply Z.mod_pos_bound; reflexivity). now rewrite andb_false_r.
      + intros i d I (Fd & Hd). unfold add_pulse. assert (B : 0 <= i + nNote * k < nNote * 84) by (unfold nNote in *; lia).
        assert (Q : (i + nNote * k) / nNote = k /\ (i + nNote * k) mod nNote = i) by (unfold nNote in *; Z.div_mod_to_equations; lia).
        assert (V : znth z d (i + nNote * k) = znth z dm (i + nNote * k)) by (rewrite (Hd _ B); destruct Q as (_ & ->); rewrite Z.ltb_irrefl, andb_false_r; reflexivity).
        assert (T : forall j, 0 <= j < nNote * 84 -> j <> i + nNote * k -> (j / nNote =? k) && (j mod nNote <? i + 1) = (j / nNote =? k) && (j mod nNote <? i)).
        { intros j J N. destruct (j / nNote =? k) eqn:E; [|reflexivity]. apply Z.eqb_eq in E. cbn [andb]. assert (j mod nNote <> i) by (unfold nNote in *; Z.div_mod_to_equations; lia). destruct (Z.ltb_spec (j mod nNote) (i + 1)), (Z.ltb_spec (j mod nNote) i); reflexivity || lia. }
        assert (T' : (k =? k) && (i <? i + 1) = true) by (rewrite Z.eqb_refl; cbn [andb]; apply Z.ltb_lt; lia).
        destruct (d_ltb M _ (d_int M 2)) eqn:G.
        * rewrite (elt_ok z) by (rewrite Fd; exact B). cbn [bind]. rewrite upd_ok by (rewrite Fd; exact B). apply ok_ret. split; [now rewrite replace_nth_length|].
          intros j J. rewrite znth_replace by (rewrite ?Fd; lia). destruct (Z.eqb_spec j (i + nNote * k)) as [->|N].
          -- destruct Q as (-> & ->). rewrite T'. rewrite V. unfold touched. now rewrite G.
          -- rewrite (T j J N). now apply Hd.
        * apply ok_ret. split; [exact Fd|]. intros j J. destruct (Z.eq_dec j (i + nNote * k)) as [->|N].
          -- rewrite V. destruct Q as (-> & ->). rewrite T'. unfold touched. now rewrite G.
          -- rewrite (T j J N). now apply Hd.
    - intros d (Fd & Hd). split; [exact Fd|]. intros j J. rewrite (Hd j J). replace (j mod nNote <? nNote - 1 + 1) with true; [now rewrite andb_true_r|]. symmetry. apply Z.ltb_lt. assert (X := Z.mod_pos_bound j nNote eq_refl). lia.
  Qed.
  Lemma dictionary_ok dm s : full dm -> ok (fun d => full d /\ forall k row, 0 <= k < 84 -> 0 <= row < nNote -> znth z d (k * nNote + row) = all_harmonics s k row (znth z dm (k * nNote + row))) (dictionary_matrix M dm s).
  Proof.
    intros F. unfold dictionary_matrix.
    apply ok_weaken with (P := fun d => full d /\ forall j, 0 <= j < nNote * 84 -> znth z d j = if j / nNote <? 83 + 1 then all_harmonics s (j / nNote) (j mod nNote) (znth z dm j) else znth z dm j).
    - apply (ok_each (fun k d => full d /\ forall j, 0 <= j < nNote * 84 -> znth z d j = if j / nNote <? k then all_harmonics s (j / nNote) (j mod nNote) (znth z dm j) else znth z dm j)); [lia| |].
      + split; [exact F|]. intros j J. replace (j / nNote <? 0) with false; [reflexivity|]. symmetry. apply Z.ltb_ge. apply Z.div_pos; [lia|reflexivity].
      + intros k d K (Fd & Hd).
        apply ok_weaken with (P := fun d' => full d' /\ forall j, 0 <= j < nNote * 84 -> znth z d' j = if j / nNote =? k then fold_left (touched s k (j mod nNote)) (zrange 1 (20 + 1 - 1)) (znth z d j) else znth z d j).
        * apply (ok_each (fun h d' => full d' /\ forall j, 0 <= j < nNote * 84 -> znth z d' j = if j / nNote =? k then fold_left (touched s k (j mod nNote)) (zrange 1 (h - 1)) (znth z d j) else znth z d j)); [lia| |].
          -- split; [exact Fd|]. intros j J. rewrite zrange_nil by lia. cbn [fold_left]. now destruct (j / nNote =? k).
          -- intros h d' Hh (Fd' & Hd'). apply ok_weaken with (1 := one_harmonic d' s k h Fd' ltac:(lia)). intros d'' (Fd'' & Hd''). split; [exact Fd''|]. intros j J. rewrite (Hd'' j J), (Hd' j J).
             destruct (j / nNote =? k); [|reflexivity]. replace (h + 1 - 1) with (h - 1 + 1) by lia. rewrite zrange_snoc by lia. rewrite fold_left_app. cbn [fold_left]. now replace (h - 1 + 1) with h by lia.
        * intros d' (Fd' & Hd'). split; [exact Fd'|]. intros j J. rewrite (Hd' j J), (Hd j J). destruct (Z.eqb_spec (j / nNote) k) as [E|N].
          -- rewrite E. replace (k <? k) with false by (symmetry; apply Z.ltb_irrefl). replace (k <? k + 1) with true by (symmetry; apply Z.ltb_lt; lia). change (20 + 1 - 1) with 20. unfold all_harmonics. reflexivity.
          -- destruct (Z.ltb_spec (j / nNote) (k + 1)), (Z.ltb_spec (j / nNote) k); reflexivity || lia.
    - intros d (Fd & Hd). split; [exact Fd|]. intros k row K R. assert (J : 0 <= k * nNote + row < nNote * 84) by (unfold nNote in *; lia). rewrite (Hd _ J).
      assert (Q : (k * nNote + row) / nNote = k /\ (k * nNote + row) mod nNote = row) by (unfold nNote in *; Z.div_mod_to_equations; lia). destruct Q as (-> & ->). now replace (k <? 83 + 1) with true by (symmetry; apply Z.ltb_lt; lia).
  Qed.
End Any.

(** ** In real numbers *)
Open Scope R_scope.
Lemma pulse_range x : 0 <= pulse x <= 1.
Proof. unfold pulse. destruct (Rle_dec _ _); [|lra]. assert (B := COS_bound (2 * PI * x / 3)). lra. Qed.
Lemma pulse_0 : pulse 0 = 1.
Proof. unfold pulse. rewrite Rabs_R0. destruct (Rle_dec 0 (3 / 2)) as [_|N]; [|lra]. replace (2 * PI * 0 / 3) with 0 by field. rewrite cos_0. field. Qed.
Lemma cospuls_ideal d c : cospuls ideal (d + c) c 3 = pulse d.
Proof.
  unfold cospuls, pulse. cbn [ideal up down f_int d_int d_half d_pi f_add f_sub f_mul f_abs d_add d_sub d_mul d_div d_abs d_leb d_ltb d_cos fl db]. replace (d + c - c) with d by ring.
  destruct (Rle_dec (Rabs d) (/ 2 * 3)) as [A|A], (Rle_dec (Rabs d) (3 / 2)) as [B|B]; try lra. replace (d * 2 * PI * (1 / 3)) with (2 * PI * d / 3) by field. field.
Qed.
Lemma touched_ideal (s : R) k row (v : R) i : 0 < s -> touched ideal s k row v (Z.of_nat (S i)) = v + s ^ i * pulse (IZR row - IZR (3 * k + 3) - harmonic (S i)).
Proof.
  intros S0. unfold touched, floatbin, amplitude. cbn [ideal up down f_int d_int d_half d_pi f_add f_sub f_mul f_abs d_add d_sub d_mul d_div d_abs d_leb d_ltb d_cos d_log2 f_pow fl db].
  set (c := IZR ((k + 1) * nBPS + 1) + IZR (nBPS * 12) * (ln (IZR (Z.of_nat (S i))) / ln 2)). set (d := IZR row - IZR (3 * k + 3) - harmonic (S i)).
  assert (E : IZR (row + 1) = d + c).
  { unfold d, c, harmonic, nBPS. rewrite <- INR_IZR_INZ. change (3 * 12)%Z with 36%Z. rewrite !plus_IZR, !mult_IZR, !plus_IZR. ring. }
  rewrite E. match goal with |- context [cospuls ideal ?a ?b ?w] => change (cospuls ideal a b w) with (cospuls ideal (d + c) c 3) end. rewrite (cospuls_ideal d c). replace (d + c - c) with d by ring.
  replace (Z.of_nat (S i) - 1)%Z with (Z.of_nat i) by lia. rewrite <- INR_IZR_INZ. rewrite Rpower_pow by exact S0. destruct (Rlt_dec (Rabs d) 2) as [A|A]; [now rewrite (Rmult_comm (pulse d))|].
  replace (pulse d) with 0; [change (v = v + s ^ i * 0 :> R); ring|]. unfold pulse. destruct (Rle_dec (Rabs d) (3 / 2)); [lra|reflexivity].
Qed.
Lemma harmonics_ideal (s : R) k row (v : R) n : 0 < s -> fold_left (touched ideal s k row) (zrange 1 (Z.of_nat n)) v = v + total n (fun i => s ^ i * pulse (IZR row - IZR (3 * k + 3) - harmonic (S i))).
Proof.
  intros S0. induction n as [|n IH]; [rewrite zrange_nil by (cbn; lia); cbn; symmetry; apply Rplus_0_r|].
  rewrite Nat2Z.inj_succ. unfold Z.succ. rewrite zrange_snoc by lia. rewrite fold_left_app, IH. cbn [fold_left total]. replace (Z.of_nat n + 1)%Z with (Z.of_nat (S n)) by lia.
  rewrite touched_ideal by exact S0. apply Rplus_assoc.
Qed.
Lemma dictionary_ideal dm s : 0 < s -> Z.of_nat (length dm) = (256 * 84)%Z -> exists d, dictionary_matrix ideal dm s = Ret d /\ Z.of_nat (length d) = (256 * 84)%Z /\
  forall k row, (0 <= k < 84)%Z -> (0 <= row < 256)%Z -> znth 0 d (k * 256 + row) = znth 0 dm (k * 256 + row) + sound s k row.
Proof.
  intros S0 F. destruct (dictionary_ok ideal dm s F) as (d & E & L & H). exists d. split; [exact E|]. split; [exact L|]. intros k row K R0. etransitivity; [exact (H k row K R0)|].
  unfold all_harmonics. exact (harmonics_ideal s k row _ 20 S0).
Qed.
(** ** The sound of a semitone *)
Lemma total_nonneg n f : (forall i, (i < n)%nat -> 0 <= f i) -> 0 <= total n f.
Proof. induction n as [|n IH]; intros H; cbn [total]; [lra|]. assert (0 <= total n f) by (apply IH; intros; apply H; lia). assert (0 <= f n) by (apply H; lia). lra. Qed.
Lemma total_le n f g : (forall i, (i < n)%nat -> f i <= g i) -> total n f <= total n g.
Proof. induction n as [|n IH]; intros H; cbn [total]; [lra|]. assert (total n f <= total n g) by (apply IH; intros; apply H; lia). assert (f n <= g n) by (apply H; lia). lra. Qed.
Lemma total_const n c : total n (fun _ => c) = INR n * c.
Proof. induction n as [|n IH]; [cbn; lra|]. cbn [total]. rewrite IH, S_INR. ring. Qed.
Lemma sound_nonneg s k row : 0 <= s -> 0 <= sound s k row.
Proof. intros H. apply total_nonneg. intros i _. apply Rmult_le_pos; [now apply pow_le|]. apply pulse_range. Qed.
Lemma sound_upper s k row : 0 <= s <= 1 -> sound s k row <= 20.
Proof.
  intros H. apply Rle_trans with (total 20 (fun _ => 1)); [|rewrite total_const; cbn; lra]. apply total_le. intros i _. assert (P := pulse_range (IZR row - IZR (3 * k + 3) - harmonic (S i))).
  assert (Q : 0 <= s ^ i <= 1). { split; [apply pow_le; lra|]. rewrite <- (pow1 i). apply pow_incr. lra. } rewrite <- (Rmult_1_r 1). apply Rmult_le_compat; lra.
Qed.
Lemma sound_centre s k : 0 <= s -> 1 <= sound s k (3 * k + 3).
Proof.
  intros H. unfold sound. rewrite total_shift. replace (IZR (3 * k + 3) - IZR (3 * k + 3) - harmonic 1) with 0; [|unfold harmonic; cbn [INR]; rewrite ln_1; field; apply Rgt_not_eq; rewrite <- ln_1; apply ln_increasing; lra].
  rewrite pulse_0. assert (Q : 0 <= total 19 (fun j => s ^ S j * pulse (IZR (3 * k + 3) - IZR (3 * k + 3) - harmonic (S (S j))))) by (apply total_nonneg; intros i _; apply Rmult_le_pos; [now apply pow_le|apply pulse_range]). rewrite pow_O. lra.
Qed.
Lemma sound_moves s k row : sound s (k + 1) (row + 3) = sound s k row.
Proof. apply total_ext. intros i _. do 2 f_equal. rewrite !plus_IZR, !mult_IZR, !plus_IZR. ring. Qed.
