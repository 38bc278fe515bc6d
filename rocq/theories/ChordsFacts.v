(** Facts about the dictionary of chords. *)
From Coq Require Import String Ascii Lia.
From Flocq Require Import Core.Core IEEE754.BinarySingleNaN.
From Verif Require Import Base BaseFacts Fp Options Chromagram Nnls NnlsArith NnlsFacts Plug PlugFacts PlugNan Chords ChordsSpec.
Open Scope Z_scope.

Lemma ok_inj {A} (P : A -> Prop) o v : ok P o -> o = Ret v -> P v.
Proof. intros (w & E & H) F. rewrite E in F. assert (w = v) by now injection F. now subst. Qed.
Lemma append_nil_r_local (x : string) : (x ++ "")%string = x.
Proof. induction x as [|c x IH]; [reflexivity|]. cbn. now rewrite IH. Qed.
Lemma append_assoc_local (x y z : string) : (x ++ y ++ z)%string = ((x ++ y) ++ z)%string.
Proof. induction x as [|c x IH]; [reflexivity|]. cbn. now rewrite IH. Qed.
Section Dictionary.
  Context (harte : b32) (names : list string) (values : list b32).
  Notation types := (Z.of_nat (length names)).
  Context (enough : 24 * types <= Z.of_nat (length values)).
  Notation bv := (bass_value values). Notation tv := (treble_value values). Notation bw := (bass_weight values).
  Lemma semitones_range : semitones = zrange 0 11. Proof. reflexivity. Qed.
  Lemma bass_elt t j : 0 <= t < types -> 0 <= j < 12 -> elt values (24 * t + j) = Ret (bv t j).
  Proof. intros T J. unfold bass_value. apply (elt_ok z32). lia. Qed.
  Lemma treble_elt t j : 0 <= t < types -> 0 <= j < 12 -> elt values (24 * t + j + 12) = Ret (tv t j).
  Proof. intros T J. unfold treble_value. replace (24 * t + 12 + j) with (24 * t + j + 12) by lia. apply (elt_ok z32). lia. Qed.
  Lemma shifted k s : (k - s + 12) mod 12 = (k - s) mod 12.
  Proof. replace (k - s + 12) with (k - s + 1 * 12) by lia. apply Z.mod_add. lia. Qed.
  Lemma slash_ok t s : 0 <= t < types -> 0 <= s < 12 -> ok (slash_is harte values t s) (slash_notation harte values t s).
  Proof.
    intros T S. set (inv := fun i x => (exists k, 1 <= k < i /\ in_bass values t k /\ (forall k', k < k' < i -> ~ in_bass values t k') /\ x = bass_name harte s k) \/ (forall k, 1 <= k < i -> ~ in_bass values t k) /\ x = ""%string).
    eapply ok_weaken; [apply (ok_each inv)|].
    - lia.
    - right. split; [lia|reflexivity].
    - intros i x I H. rewrite Z.mod_small by lia. rewrite bass_elt by lia. cbn [bind]. destruct (fgt (f32_to_64 (bv t i)) (rat64 99 100)) eqn:E.
      + assert (L : Z.of_nat (length bass_names) = 13) by reflexivity. assert (R : Forall (fun r : list string => length r = 12%nat) bass_names) by repeat constructor.
        rewrite (elt_ok []) by (destruct (Beqb harte z32); lia). cbn [bind]. rewrite (elt_ok ""%string) by (rewrite (Forall_znth [] _ _ _ R) by (destruct (Beqb harte z32); lia); lia). apply ok_ret. left. exists i. split; [lia|]. split; [exact E|]. split; [lia|reflexivity].
      + apply ok_ret. destruct H as [(k & K & B & N & X)|(N & X)].
        * left. exists k. split; [lia|]. split; [exact B|]. split; [|exact X]. intros k' K'. destruct (Z.eq_dec k' i) as [->|NE]; [unfold in_bass; congruence|apply N; lia].
        * right. split; [|exact X]. intros k K. destruct (Z.eq_dec k i) as [->|NE]; [unfold in_bass; congruence|apply N; lia].
    - intros x [(k & K & B & N & X)|(N & X)]; [left; exists k; split; [lia|]; split; [exact B|]; split; [|exact X]; intros; apply N; lia|right; split; [|exact X]; intros; apply N; lia].
  Qed.
  (** A loop that appends a value and perhaps a note at every step. *)
  Lemma gather (f : Z -> b32) (p : Z -> bool) (g : Z -> Z) l vals notes :
    fold_left (fun (x : list b32 * list Z) k => (fst x ++ [f k], if p k then snd x ++ [g k] else snd x)) l (vals, notes) = (vals ++ map f l, notes ++ map g (filter p l)).
  Proof.
    revert vals notes. induction l as [|k l IH]; intros vals notes; cbn [fold_left map filter]; [now rewrite !app_nil_r|]. cbn [fst snd]. rewrite IH. destruct (p k); cbn [map]; rewrite <- ?app_assoc; reflexivity.
  Qed.
  Lemma one_chord_ok t s : 0 <= t < types -> 0 <= s < 12 ->
    ok (fun c => c_values c = profile values t s /\ exists x, slash_is harte values t s x /\ name_is names t s x (c_name c) /\ notes_are values t s x (c_notes c)) (one_chord harte names values t s).
  Proof.
    intros T S. unfold one_chord. eapply ok_bind; [exact (slash_ok t s T S)|]. intros x X.
    assert (M : forall k, 0 <= (k - s) mod 12 < 12) by (intros k; apply Z.mod_pos_bound; lia).
    rewrite (loop_pure _ (fun y k => (fst y ++ [bw t ((k - s) mod 12)], if Beqb (bv t ((k - s) mod 12)) one32 then snd y ++ [MIDI_basenote + (k + 12) mod 12] else snd y))).
    2: { intros (vals & notes) k K. rewrite shifted, bass_elt, treble_elt by (try apply M; lia). cbn [bind fst snd]. unfold bass_weight. destruct (Beqb (bv t ((k - s) mod 12)) one32); reflexivity. }
    rewrite gather. cbn [bind].
    rewrite (loop_pure _ (fun y k => (fst y ++ [tv t ((k - s) mod 12)], if gt32 (tv t ((k - s) mod 12)) z32 then snd y ++ [MIDI_basenote + (k + 12 + 6) mod 12 - 6 + 24] else snd y))).
    2: { intros (vals & notes) k K. rewrite shifted, treble_elt by (try apply M; lia). cbn [bind fst snd]. reflexivity. }
    rewrite gather. cbn [bind].
    rewrite (elt_ok ""%string) by (cbn; lia). cbn [bind]. rewrite (elt_ok ""%string) by lia. cbn [bind]. apply ok_ret. cbn [c_values c_name c_notes]. split; [unfold profile; rewrite semitones_range; reflexivity|].
    exists x. split; [exact X|]. split.
    - unfold name_is. destruct (String.eqb x ""); [now rewrite append_nil_r_local|now rewrite append_assoc_local].
    - unfold notes_are. rewrite semitones_range. unfold MIDI_basenote. rewrite <- app_assoc. f_equal; [destruct (String.eqb x ""); [f_equal; f_equal; replace (s + 12) with (s + 1 * 12) by lia; rewrite Z.mod_add by lia; apply Z.mod_small; lia|reflexivity]|].
      f_equal; apply map_ext_in; intros k K; apply filter_In in K; destruct K as (K & _); apply zrange_In in K.
      + f_equal. replace (k + 12) with (k + 1 * 12) by lia. rewrite Z.mod_add by lia. apply Z.mod_small. lia.
      + replace (k + 12 + 6) with (k + 6 + 1 * 12) by lia. rewrite Z.mod_add by lia. lia.
  Qed.
  Lemma all_chords_ok : ok (fun l => Z.of_nat (length l) = 12 * types /\ forall t s, 0 <= t < types -> 0 <= s < 12 -> exists c, nth_error l (Z.to_nat (12 * t + s)) = Some c /\
      c_values c = profile values t s /\ exists x, slash_is harte values t s x /\ name_is names t s x (c_name c) /\ notes_are values t s x (c_notes c)) (all_chords harte names values).
  Proof.
    unfold all_chords. set (good := fun t s c => c_values c = profile values t s /\ exists x, slash_is harte values t s x /\ name_is names t s x (c_name c) /\ notes_are values t s x (c_notes c)).
    set (inv := fun m (l : list chord) => Z.of_nat (length l) = m /\ forall t s, 0 <= t -> 0 <= s < 12 -> 12 * t + s < m -> exists c, nth_error l (Z.to_nat (12 * t + s)) = Some c /\ good t s c).
    eapply ok_weaken; [apply (ok_each (fun t => inv (12 * t)))|].
    - lia.
    - split; [reflexivity|lia].
    - intros t l T H. replace (12 * (t + 1)) with (12 * t + (11 + 1)) by lia. apply (ok_each (fun s => inv (12 * t + s))); [lia|now rewrite Z.add_0_r|].
      intros s l' S (L & G). eapply ok_bind; [apply (one_chord_ok t s); lia|]. intros c C. apply ok_ret. split; [rewrite app_length; cbn [length]; lia|].
      intros t' s' T' S' B. destruct (Z.eq_dec (12 * t' + s') (12 * t + s)) as [E|N].
      + assert (t' = t /\ s' = s) as (-> & ->) by lia. exists c. split; [|exact C]. rewrite nth_error_app2 by lia. replace (Z.to_nat (12 * t + s) - length l')%nat with O by lia. reflexivity.
      + destruct (G t' s') as (c' & E & C'); [lia..|]. exists c'. split; [|exact C']. rewrite nth_error_app1 by lia. exact E.
    - intros l (L & G). replace (12 * (types - 1 + 1)) with (12 * types) in * by lia. split; [exact L|]. intros t s T S. apply G; lia.
  Qed.
  Lemma dictionary_ok powf boost : exists l, chord_dictionary powf boost harte names values = Ret l /\ Z.of_nat (length l) = 12 * types + 1 /\
    (forall t s, 0 <= t < types -> 0 <= s < 12 -> exists c, nth_error l (Z.to_nat (12 * t + s)) = Some c /\ c_values c = map (fun v => fdiv32 v (stand_of powf None (profile values t s))) (profile values t s) /\
      exists x, slash_is harte values t s x /\ name_is names t s x (c_name c) /\ notes_are values t s x (c_notes c)) /\
    nth_error l (Z.to_nat (12 * types)) = Some (mkChord "N" (map (fun v => fdiv32 v (stand_of powf (Some boost) (repeat half32 12 ++ repeat one32 12))) (repeat half32 12 ++ repeat one32 12)) []).
  Proof.
    destruct all_chords_ok as (l & E & L & G). unfold chord_dictionary. rewrite E. cbn [bind]. eexists. split; [reflexivity|]. split; [rewrite app_length, map_length; cbn [length]; lia|]. split.
    - intros t s T S. destruct (G t s T S) as (c & N & V & X). exists (scaled powf None c). split; [rewrite nth_error_app1 by (rewrite map_length; lia); now rewrite nth_error_map, N|]. split; [unfold scaled; cbn [c_values]; now rewrite V|exact X].
    - rewrite nth_error_app2 by (rewrite map_length; lia). rewrite map_length. replace (Z.to_nat (12 * types) - length l)%nat with O by lia. reflexivity.
  Qed.
End Dictionary.

(** A loop that returns has returned at every step. *)
Lemma each_inv {S} (body : S -> Z -> outcome S) l s s' : each body l s = Ret s' -> forall i, In i l -> exists s1 s2, body s1 i = Ret s2.
Proof.
  revert s. induction l as [|k l IH]; intros s E i I; [now destruct I|]. destruct I as [<-|I]; cbn [each] in E; destruct (body s k) as [s1| |] eqn:B; try discriminate E; [now exists s, s1|]. exact (IH _ E i I).
Qed.
Lemma loop_inv {S} (body : S -> Z -> outcome S) lo hi s s' i : loop lo hi body s = Ret s' -> lo <= i <= hi -> exists s1 s2, body s1 i = Ret s2.
Proof. intros E I. apply (each_inv _ _ _ _ E). now apply zrange_In. Qed.
Lemma bind_inv {A B} (o : outcome A) (f : A -> outcome B) v : bind o f = Ret v -> exists a, o = Ret a /\ f a = Ret v.
Proof. destruct o as [a| |]; intros E; [now exists a|discriminate E|discriminate E]. Qed.
Lemma elt_inv {T} (l : list T) i v : elt l i = Ret v -> 0 <= i < Z.of_nat (length l).
Proof. unfold elt. destruct (Z.ltb_spec i 0) as [|P]; [discriminate|]. destruct (nth_error l (Z.to_nat i)) eqn:E; [|discriminate]. intros _. assert (Z.to_nat i < length l)%nat by (apply nth_error_Some; congruence). lia. Qed.
(** With fewer values than 24 for every type the program leaves the table. *)
Lemma short_dictionary powf boost harte names values l : chord_dictionary powf boost harte names values = Ret l -> 24 * Z.of_nat (length names) <= Z.of_nat (length values).
Proof.
  intros E. destruct names as [|name names]; [cbn [length]; lia|]. set (ns := name :: names) in *. apply bind_inv in E. destruct E as (l0 & E & _).
  assert (P : 1 <= Z.of_nat (length ns)) by (unfold ns; cbn [length]; lia). destruct (loop_inv _ _ _ _ _ (Z.of_nat (length ns) - 1) E) as (s1 & s2 & E1); [lia|]. destruct (loop_inv _ _ _ _ _ 0 E1) as (s3 & s4 & E2); [lia|].
  apply bind_inv in E2. destruct E2 as (c & E2 & _). unfold one_chord in E2. apply bind_inv in E2. destruct E2 as (x & _ & E2). apply bind_inv in E2. destruct E2 as ((v1 & n1) & _ & E2). apply bind_inv in E2. destruct E2 as ((v2 & n2) & E2 & _).
  destruct (loop_inv _ _ _ _ _ 11 E2) as ((a & b) & s5 & E3); [lia|]. apply bind_inv in E3. destruct E3 as (v & E3 & _). apply elt_inv in E3. change ((11 - 0 + 12) mod 12) with 11 in E3. lia.
Qed.
(** Only the notes from 45 to 56 and from 63 to 74 occur. *)
Lemma notes_range values t s x notes : 0 <= s < 12 -> notes_are values t s x notes -> Forall (fun m => 45 <= m <= 56 \/ 63 <= m <= 74) notes.
Proof.
  intros S ->. apply Forall_app. split; [destruct (String.eqb x ""); repeat constructor; lia|]. apply Forall_app. split; apply Forall_map, Forall_forall; intros k K; apply filter_In in K; destruct K as (K & _); rewrite semitones_range in K; apply zrange_In in K; [lia|]. pose proof (Z.mod_pos_bound (k + 6) 12). lia.
Qed.
