(** Proofs about tools/shorten_names.sh. *)
From Coq Require Import Ascii String Lia.
From Verif Require Import Base BaseFacts Text TextSpec TextFacts Creator CreatorFacts DictFacts Rename RenameSpec.
Open Scope string_scope.
Open Scope Z_scope.

(** ** Numbers *)
Lemma digit_char d : 0 <= d <= 9 -> Z.of_N (N_of_ascii (chr (48 + d))) - 48 = d.
Proof. intros H. unfold chr. rewrite N_ascii_embedding by lia. lia. Qed.
Lemma digits_value_app s : forall acc t, digits_value acc (s ++ t) = match digits_value acc s with Some v => digits_value v t | None => None end.
Proof. induction s as [|c s IH]; intros acc t; cbn [append digits_value]; [reflexivity|]. destruct ((0 <=? _) && _); [apply IH|reflexivity]. Qed.
Lemma last_digits_app k : forall n acc, last_digits k n acc = (last_digits k n "" ++ acc)%string.
Proof.
  induction k as [|k IH]; intros n acc; cbn [last_digits]; [reflexivity|]. rewrite (IH _ (String _ acc)), (IH _ (String _ "")). now rewrite app_string_assoc.
Qed.
Lemma last_digits_length k : forall n acc, String.length (last_digits k n acc) = (k + String.length acc)%nat.
Proof. induction k as [|k IH]; intros n acc; cbn [last_digits]; [reflexivity|]. rewrite IH. cbn [String.length]. lia. Qed.
Lemma last_digits_value k : forall n, 0 <= n < 10 ^ Z.of_nat k -> digits_value 0 (last_digits k n "") = Some n.
Proof.
  induction k as [|k IH]; intros n H; cbn [last_digits]; [cbn in *; f_equal; lia|]. rewrite last_digits_app, digits_value_app.
  rewrite Nat2Z.inj_succ, Z.pow_succ_r in H by lia. rewrite IH by (split; [apply Z.div_pos; lia|apply Z.div_lt_upper_bound; lia]). cbn [digits_value].
  assert (M : 0 <= n mod 10 < 10) by (apply Z.mod_pos_bound; lia). rewrite digit_char by lia. destruct (Z.leb_spec 0 (n mod 10)); [|lia]. destruct (Z.leb_spec (n mod 10) 9); [|lia]. cbn [andb]. f_equal. pose proof (Z.div_mod n 10 ltac:(lia)). lia.
Qed.
Lemma how_many_bound fuel : forall n, 0 <= n <= Z.of_nat fuel -> n < 10 ^ Z.of_nat (how_many fuel n) /\ (10 <= n -> 10 ^ (Z.of_nat (how_many fuel n) - 1) <= n) /\ (1 <= how_many fuel n)%nat.
Proof.
  induction fuel as [|fuel IH]; intros n H; cbn [how_many]; [cbn; lia|]. destruct (Z.ltb_spec n 10); [cbn; lia|].
  assert (B : 0 <= n / 10 <= Z.of_nat fuel) by (split; [apply Z.div_pos; lia|]; assert (n / 10 < n) by (apply Z.div_lt; lia); lia). destruct (IH _ B) as (U & L & P).
  rewrite Nat2Z.inj_succ. replace (Z.succ (Z.of_nat (how_many fuel (n / 10))) - 1) with (Z.of_nat (how_many fuel (n / 10))) by lia.
  assert (D := Z.div_mod n 10 ltac:(lia)). assert (M := Z.mod_pos_bound n 10 ltac:(lia)). split; [rewrite Z.pow_succ_r by lia; lia|]. split; [|lia]. intros _.
  destruct (Z.le_gt_cases 10 (n / 10)) as [G|G].
  - specialize (L G). replace (Z.of_nat (how_many fuel (n / 10))) with (Z.succ (Z.of_nat (how_many fuel (n / 10)) - 1)) by lia. rewrite Z.pow_succ_r by lia. lia.
  - assert (E : how_many fuel (n / 10) = 1%nat) by (destruct fuel; cbn [how_many]; [reflexivity|]; destruct (Z.ltb_spec (n / 10) 10); [reflexivity|lia]). rewrite E. cbn. lia.
Qed.
(** A text of digits is determined by its value and its length. *)
Lemma digits_value_bounds s : forall acc v, 0 <= acc -> digits_value acc s = Some v -> acc * 10 ^ Z.of_nat (String.length s) <= v < (acc + 1) * 10 ^ Z.of_nat (String.length s).
Proof.
  induction s as [|c s IH]; intros acc v A H; cbn [digits_value String.length] in *; [injection H as <-; cbn; lia|].
  set (d := Z.of_N (N_of_ascii c) - 48) in *. destruct ((0 <=? d) && (d <=? 9)) eqn:Q; [|discriminate H]. apply andb_prop in Q as (Q1 & Q2). apply Z.leb_le in Q1, Q2.
  apply IH in H; [|lia]. rewrite Nat2Z.inj_succ, Z.pow_succ_r by lia. assert (0 < 10 ^ Z.of_nat (String.length s)) by (apply Z.pow_pos_nonneg; lia). nia.
Qed.
Lemma digits_value_inj s : forall t acc acc' v, 0 <= acc -> 0 <= acc' -> String.length s = String.length t -> digits_value acc s = Some v -> digits_value acc' t = Some v -> acc = acc' /\ s = t.
Proof.
  induction s as [|c s IH]; intros [|c' t] acc acc' v A A' L S T; cbn [String.length] in L; try discriminate L; cbn [digits_value] in S, T; [split; [congruence|reflexivity]|]. injection L as L.
  remember (Z.of_N (N_of_ascii c) - 48) as d eqn:D. remember (Z.of_N (N_of_ascii c') - 48) as d' eqn:D'.
  destruct ((0 <=? d) && (d <=? 9)) eqn:Q; [|discriminate S]. destruct ((0 <=? d') && (d' <=? 9)) eqn:Q'; [|discriminate T].
  apply andb_prop in Q as (Q1 & Q2). apply Z.leb_le in Q1, Q2. apply andb_prop in Q' as (Q3 & Q4). apply Z.leb_le in Q3, Q4.
  destruct (IH t (10 * acc + d) (10 * acc' + d') v ltac:(lia) ltac:(lia) L S T) as (E & ->). assert (d = d' /\ acc = acc') as (E1 & E2) by lia. split; [exact E2|]. f_equal.
  rewrite <- (ascii_N_embedding c), <- (ascii_N_embedding c'). f_equal. lia.
Qed.
Lemma id_numbers i : 0 <= i -> numbers i (id_text i).
Proof.
  intros H. destruct (how_many_bound (Z.to_nat i) i ltac:(lia)) as (U & L & P). unfold id_text. set (w := how_many (Z.to_nat i) i) in *.
  assert (E : digits_value 0 (last_digits (Nat.max 4 w) i "") = Some i).
  { apply last_digits_value. split; [lia|]. eapply Z.lt_le_trans; [exact U|]. apply Z.pow_le_mono_r; lia. }
  split; [exact E|]. rewrite last_digits_length. cbn [String.length]. destruct (Nat.le_gt_cases w 4) as [C|C]; [left; lia|right].
  assert (B : 10000 <= i). { destruct (Z.le_gt_cases 10 i) as [G|G]; [apply L in G|]. - eapply Z.le_trans; [|exact G]. change 10000 with (10 ^ 4). apply Z.pow_le_mono_r; lia. - exfalso. unfold w in C. destruct (Z.to_nat i); cbn [how_many] in C; [lia|]. destruct (Z.ltb_spec i 10); lia. }
  split; [exact B|]. split; [lia|]. specialize (L ltac:(lia)). assert (K := last_digits_length (Nat.max 4 w) i ""). destruct (last_digits (Nat.max 4 w) i "") as [|c s] eqn:Q; [cbn [String.length] in K; lia|]. cbn [get]. intros X. injection X as ->.
  cbn [digits_value] in E. cbn in E. apply digits_value_bounds in E; [|lia]. cbn [String.length] in K. replace (Z.of_nat (String.length s)) with (Z.of_nat w - 1) in E by lia. lia.
Qed.
Lemma numbers_only i s : numbers i s -> 0 <= i /\ s = id_text i.
Proof.
  intros (V & C). assert (P : 0 <= i) by (apply digits_value_bounds in V; [|lia]; lia). split; [exact P|]. destruct (id_numbers i P) as (V' & C').
  enough (L : String.length s = String.length (id_text i)) by exact (proj2 (digits_value_inj s _ 0 0 i ltac:(lia) ltac:(lia) L V V')).
  assert (R : forall t, digits_value 0 t = Some i -> String.length t = 4%nat \/ 10000 <= i /\ (4 < String.length t)%nat /\ get 0 t <> Some "0"%char -> String.length t = 4%nat /\ i < 10000 \/ 10000 <= i /\ (4 < String.length t)%nat /\ 10 ^ (Z.of_nat (String.length t) - 1) <= i < 10 ^ Z.of_nat (String.length t)).
  { clear. intros t V [L|(B & L & N)]; [left; split; [exact L|]|right; split; [exact B|split; [exact L|]]]; pose proof (digits_value_bounds t 0 i ltac:(lia) V) as D; [rewrite L in D; cbn in D; lia|]. split; [|lia].
    destruct t as [|c t]; [cbn in L; lia|]. cbn [digits_value] in V. remember (Z.of_N (N_of_ascii c) - 48) as d eqn:E. destruct ((0 <=? d) && (d <=? 9)) eqn:Q; [|discriminate V]. apply andb_prop in Q as (Q1 & Q2). apply Z.leb_le in Q1, Q2.
    assert (d <> 0). { intros ->. apply N. cbn [get]. f_equal. rewrite <- (ascii_N_embedding c), <- (ascii_N_embedding "0"). f_equal. change (N_of_ascii "0") with 48%N. lia. }
    apply digits_value_bounds in V; [|lia]. cbn [String.length]. replace (Z.of_nat (S (String.length t)) - 1) with (Z.of_nat (String.length t)) by lia. assert (0 < 10 ^ Z.of_nat (String.length t)) by (apply Z.pow_pos_nonneg; lia). nia. }
  destruct (R _ V C) as [(A & ?)|(A & B & D)]; destruct (R _ V' C') as [(A' & ?)|(A' & B' & D')]; try lia.
  assert (X : forall a b : nat, (0 < a)%nat -> 10 ^ (Z.of_nat a - 1) <= i < 10 ^ Z.of_nat a -> 10 ^ (Z.of_nat b - 1) <= i < 10 ^ Z.of_nat b -> (b <= a)%nat).
  { clear. intros a b P A B. destruct (Nat.le_gt_cases b a) as [|G]; [assumption|exfalso]. assert (10 ^ Z.of_nat a <= 10 ^ (Z.of_nat b - 1)) by (apply Z.pow_le_mono_r; lia). lia. }
  apply Nat.le_antisymm; eapply X; eauto; lia.
Qed.
Lemma id_inj i j : 0 <= i -> 0 <= j -> id_text i = id_text j -> i = j.
Proof. intros I J E. destruct (id_numbers i I) as (V & _). destruct (id_numbers j J) as (V' & _). rewrite E in V. congruence. Qed.

(** ** Names *)
Definition dotted (f : file) : Prop := lacks "." (extension f).
Lemma full_split f : dotted f -> rsplit_dot (full f) = (stem f, Some (extension f)).
Proof. intros D. apply rsplit_dot_some. exact D. Qed.
Lemma full_inj f g : dotted f -> dotted g -> full f = full g -> stem f = stem g /\ extension f = extension g.
Proof. intros F G E. assert (X := full_split f F). rewrite E, (full_split g G) in X. injection X. auto. Qed.
Lemma key_inj s t : key_file s = key_file t -> s = t.
Proof.
  assert (L : lacks "." "key") by (intros I; cbn in I; intuition discriminate). intros E. assert (X := rsplit_dot_some s "key" L). change (s ++ "." ++ "key")%string with (key_file s) in X. rewrite E in X.
  change (key_file t) with (t ++ "." ++ "key")%string in X. rewrite (rsplit_dot_some t "key" L) in X. injection X. auto.
Qed.

(** ** A list of moves within a folder *)
Section Moves.
  Context {T : Type}.
  Notation dir := (dir T).
  Definition move (d : dir) (m : string * string) : dir := rm (cp d (fst m) (snd m)) (fst m).
  Definition moves (d : dir) (l : list (string * string)) : dir := fold_left move l d.
  Lemma move_old d o n : move d (o, n) o = None.
  Proof. unfold move, rm, put. cbn [fst snd]. now rewrite String.eqb_refl. Qed.
  Lemma move_new d o n : o <> n -> move d (o, n) n = match d o with Some v => Some v | None => d n end.
  Proof.
    intros N. unfold move, rm, put, cp. cbn [fst snd]. destruct (String.eqb_spec n o); [congruence|]. destruct (d o); [|reflexivity]. destruct (String.eqb_spec o n); [contradiction|]. unfold put. now rewrite String.eqb_refl.
  Qed.
  Lemma move_other d o n m : m <> o -> m <> n -> move d (o, n) m = d m.
  Proof.
    intros A B. unfold move, rm, put, cp. cbn [fst snd]. destruct (String.eqb_spec m o); [contradiction|]. destruct (d o); [|reflexivity]. destruct (String.eqb_spec o n); [reflexivity|]. unfold put. destruct (String.eqb_spec m n); [contradiction|reflexivity].
  Qed.
  Lemma moves_frame l : forall d m, ~ In m (map snd l) -> moves d l m = if existsb (String.eqb m) (map fst l) then None else d m.
  Proof.
    induction l as [|(o, n) l IH]; intros d m M; [reflexivity|]. cbn [map snd] in M. unfold moves. cbn [fold_left map fst existsb]. fold (moves (move d (o, n)) l). rewrite IH by (intros I; apply M; now right).
    assert (B : m <> n) by (intros ->; apply M; now left). destruct (String.eqb_spec m o) as [->|A]; cbn [orb]; [|now rewrite move_other]. rewrite move_old. now destruct (existsb _ _).
  Qed.
  (** No new name is in use from its own move on. *)
  Fixpoint clear (l : list (string * string)) : Prop := match l with [] => True | (o, n) :: l => ~ In n (o :: map fst l) /\ clear l end.
  Lemma moves_kept l : forall d, NoDup (map fst l) -> NoDup (map snd l) -> clear l -> (forall m, In m l -> d (snd m) = None \/ In (snd m) (map fst l)) -> forall m, In m l -> moves d l (snd m) = d (fst m).
  Proof.
    induction l as [|(o, n) l IH]; intros d NO NN C H m I; [destruct I|]. cbn [map fst snd] in NO, NN. inversion NO as [|x y NO1 NO2]; subst x y. inversion NN as [|x y NN1 NN2]; subst x y. destruct C as (C1 & C2).
    assert (ON : o <> n) by (intros ->; apply C1; now left). assert (NL : ~ In n (map fst l)) by (intros X; apply C1; now right).
    assert (D : d n = None) by (destruct (H (o, n) (or_introl eq_refl)) as [E|[E|E]]; [exact E|now destruct (ON E)|now destruct (NL E)]).
    unfold moves. cbn [fold_left]. fold (moves (move d (o, n)) l). destruct I as [<-|I]; cbn [fst snd].
    - rewrite moves_frame by exact NN1. assert (E : existsb (String.eqb n) (map fst l) = false). { destruct (existsb _ _) eqn:E; [|reflexivity]. apply existsb_exists in E as (x & X & Y). apply String.eqb_eq in Y as <-. now destruct NL. }
      rewrite E, move_new by exact ON. rewrite D. now destruct (d o).
    - rewrite IH; [| exact NO2 | exact NN2 | exact C2 | | exact I].
      + apply move_other; intros E; [apply NO1|apply NL]; rewrite <- E; now apply in_map.
      + intros k K. assert (KN : snd k <> n) by (intros E; apply NN1; rewrite <- E; now apply in_map). destruct (String.eqb_spec (snd k) o) as [->|KO]; [left; apply move_old|]. rewrite move_other by assumption.
        destruct (H k (or_intror K)) as [E|[E|E]]; [now left|now destruct (KO (eq_sym E))|now right].
  Qed.
  Lemma moves_app a b d : moves d (a ++ b) = moves (moves d a) b.
  Proof. apply fold_left_app. Qed.
  (** A content that is in one place only is lost if its place is overwritten, or moved onto itself. *)
  Lemma move_gone d o n v : (forall m, d m <> Some v) -> forall m, move d (o, n) m <> Some v.
  Proof.
    intros H m. destruct (String.eqb_spec m o) as [->|A]; [rewrite move_old; discriminate|]. destruct (String.eqb_spec m n) as [->|B]; [|rewrite move_other by assumption; apply H].
    rewrite move_new by congruence. destruct (d o) eqn:E; [rewrite <- E|]; apply H.
  Qed.
  Lemma moves_gone l : forall d v, (forall m, d m <> Some v) -> forall m, moves d l m <> Some v.
  Proof. induction l as [|(o, n) l IH]; intros d v H; [exact H|]. unfold moves. cbn [fold_left]. apply IH. now apply move_gone. Qed.
  Lemma move_stays d o n v p : o <> p -> (forall m, d m = Some v -> m = p) -> forall m, move d (o, n) m = Some v -> m = p.
  Proof.
    intros O H m. destruct (String.eqb_spec m o) as [->|A]; [rewrite move_old; discriminate|]. destruct (String.eqb_spec m n) as [->|B]; [|rewrite move_other by assumption; apply H].
    rewrite move_new by congruence. destruct (d o) eqn:E; [|apply H]. intros X. injection X as ->. now apply H in E.
  Qed.
  Lemma moves_stays l : forall d v p, ~ In p (map fst l) -> (forall m, d m = Some v -> m = p) -> forall m, moves d l m = Some v -> m = p.
  Proof.
    induction l as [|(o, n) l IH]; intros d v p N H; [exact H|]. unfold moves. cbn [fold_left]. apply IH; [intros I; apply N; now right|]. apply move_stays; [intros ->; apply N; now left|exact H].
  Qed.
  Lemma moves_some l : forall d p, ~ In p (map fst l) -> d p <> None -> moves d l p <> None.
  Proof.
    induction l as [|(o, n) l IH]; intros d p N H; [exact H|]. unfold moves. cbn [fold_left]. apply IH; [intros I; apply N; now right|]. assert (A : p <> o) by (intros ->; apply N; now left).
    destruct (String.eqb_spec p n) as [->|B]; [rewrite move_new by congruence; destruct (d o); [discriminate|exact H]|now rewrite move_other].
  Qed.
  Lemma moves_lost a b o d v p : NoDup (map fst (a ++ (o, p) :: b)) -> In p (o :: map fst b) -> (forall m, d m = Some v -> m = p) -> d o <> None -> forall m, moves d (a ++ (o, p) :: b) m <> Some v.
  Proof.
    intros ND I H HO. rewrite moves_app. change (moves (moves d a) ((o, p) :: b)) with (moves (move (moves d a) (o, p)) b). apply moves_gone.
    assert (N : forall q, In q (o :: map fst b) -> ~ In q (map fst a)).
    { rewrite map_app in ND. cbn [map fst] in ND. intros q Q X. apply in_split in X as (x & y & E). rewrite E, <- app_assoc in ND. apply NoDup_remove_2 in ND. apply ND. apply in_or_app; right. apply in_or_app; right. exact Q. }
    assert (S := moves_stays a d v p (N p I) H). assert (Y := moves_some a d o (N o (or_introl eq_refl)) HO). intros m M. destruct (String.eqb_spec m o) as [->|A]; [rewrite move_old in M; discriminate|]. destruct (String.eqb_spec m p) as [->|B].
    - rewrite move_new in M by congruence. destruct (moves d a o) as [x|] eqn:E; [|congruence]. injection M as ->. apply S in E. congruence.
    - rewrite move_other in M by assumption. apply S in M. contradiction.
  Qed.
End Moves.

(** ** The script *)
Definition renamed (i : Z) (f : file) : file := mkFile (id_text i) (extension f).
Fixpoint renamed_from (i : Z) (fs : list file) : list file := match fs with [] => [] | f :: fs => renamed i f :: renamed_from (i + 1) fs end.
Definition feature_moves (fs gs : list file) : list (string * string) := combine (map full fs) (map full gs).
Definition key_moves (fs gs : list file) : list (string * string) := combine (map (fun f => key_file (stem f)) fs) (map (fun f => key_file (stem f)) gs).
Lemma shorten_one_moves {T} i f (F A : string -> option T) : dotted f -> shorten_one i (full f) (F, A) = (move F (full f, full (renamed i f)), move A (key_file (stem f), key_file (stem (renamed i f)))).
Proof. intros D. unfold shorten_one, name_ext, name_noext. rewrite (full_split f D). reflexivity. Qed.
Lemma shorten_moves {T} fs : forall i (F A : string -> option T), Forall dotted fs -> shorten_from i (map full fs) (F, A) = (moves F (feature_moves fs (renamed_from i fs)), moves A (key_moves fs (renamed_from i fs))).
Proof.
  induction fs as [|f fs IH]; intros i F A D; [reflexivity|]. inversion D as [|x y D1 D2]; subst x y. cbn [map shorten_from]. rewrite (shorten_one_moves i f F A D1). exact (IH _ _ _ D2).
Qed.
Lemma renamed_length fs : forall i, length (renamed_from i fs) = length fs.
Proof. induction fs as [|f fs IH]; intros i; cbn; [reflexivity|now rewrite IH]. Qed.
Lemma renamed_nth fs : forall i k f, nth_error fs k = Some f -> nth_error (renamed_from i fs) k = Some (renamed (i + Z.of_nat k) f).
Proof.
  induction fs as [|g fs IH]; intros i [|k] f H; try discriminate H; cbn [nth_error renamed_from] in *.
  - injection H as ->. do 2 f_equal. lia.
  - rewrite (IH _ _ _ H). do 2 f_equal. lia.
Qed.
Lemma renamed_in fs i g : In g (renamed_from i fs) -> exists k f, nth_error fs k = Some f /\ g = renamed (i + Z.of_nat k) f.
Proof.
  revert i. induction fs as [|f fs IH]; intros i H; cbn [renamed_from] in H; [destruct H|]. destruct H as [<-|H]; [exists 0%nat, f; split; [reflexivity|f_equal; lia]|].
  destruct (IH _ H) as (k & e & E & ->). exists (S k), e. split; [exact E|]. f_equal. lia.
Qed.
Lemma renamed_dotted fs i : Forall dotted fs -> Forall dotted (renamed_from i fs).
Proof. intros D. revert i. induction D; intros i; cbn [renamed_from]; constructor; [assumption|apply IHD]. Qed.
Lemma renamed_renumbers fs : renumbered fs (renamed_from 0 fs).
Proof.
  split; [generalize 0; induction fs as [|f fs IH]; intros i; cbn; [reflexivity|now rewrite IH]|]. intros k g H. assert (L := renamed_length fs 0). assert (K : (k < length fs)%nat) by (rewrite <- L; apply nth_error_Some; congruence).
  destruct (nth_error fs k) as [f|] eqn:E; [|apply nth_error_None in E; lia]. rewrite (renamed_nth fs 0 k f E) in H. injection H as <-. cbn [stem renamed]. apply id_numbers. lia.
Qed.
Lemma renumbered_renamed fs : forall gs i, 0 <= i -> map extension gs = map extension fs -> (forall k g, nth_error gs k = Some g -> numbers (i + Z.of_nat k) (stem g)) -> gs = renamed_from i fs.
Proof.
  induction fs as [|f fs IH]; intros [|g gs] i P E N; cbn in E; try discriminate E; [reflexivity|]. injection E as E1 E2. cbn [renamed_from]. f_equal.
  - specialize (N 0%nat g eq_refl). replace (i + Z.of_nat 0) with i in N by lia. apply numbers_only in N as (_ & N). destruct g as [s e]. cbn in *. unfold renamed. now rewrite N, E1.
  - apply IH; [lia|exact E2|]. intros k h H. replace (i + 1 + Z.of_nat k) with (i + Z.of_nat (S k)) by lia. now apply N.
Qed.
Lemma nodup_map {A B} (f : A -> B) l : (forall x y, In x l -> In y l -> f x = f y -> x = y) -> NoDup l -> NoDup (map f l).
Proof.
  intros I N. induction N as [|x l X N IH]; cbn; constructor; [|apply IH; intros; apply I; auto; now right]. intros H. apply in_map_iff in H as (y & E & Y). apply I in E; [|now right|now left]. now subst y.
Qed.
Lemma renamed_full_nodup fs : forall i, 0 <= i -> Forall dotted fs -> NoDup (map full (renamed_from i fs)) /\ NoDup (map (fun f => key_file (stem f)) (renamed_from i fs)).
Proof.
  induction fs as [|f fs IH]; intros i P D; [split; constructor|]. inversion D as [|x y D1 D2]; subst x y. destruct (IH (i + 1) ltac:(lia) D2) as (A & B). cbn [renamed_from map].
  assert (X : forall g, In g (renamed_from (i + 1) fs) -> stem g <> id_text i) by (intros g G E; destruct (renamed_in _ _ _ G) as (k & e & _ & ->); cbn [stem renamed] in E; apply id_inj in E; lia).
  assert (Y := renamed_dotted fs (i + 1) D2). rewrite Forall_forall in Y. split; constructor; try assumption; intros H; apply in_map_iff in H as (g & E & G); apply (X g G).
  - apply full_inj in E as (E & _); [exact E|now apply Y|exact D1].
  - apply key_inj in E. exact E.
Qed.
Definition apart (i : Z) (fs : list file) : Prop := forall a b f, (a <= b)%nat -> nth_error fs b = Some f -> stem f <> id_text (i + Z.of_nat a).
Lemma apart_tail i f fs : apart i (f :: fs) -> apart (i + 1) fs.
Proof. intros H a b g L N. replace (i + 1 + Z.of_nat a) with (i + Z.of_nat (S a)) by lia. apply (H (S a) (S b)); [lia|exact N]. Qed.
Lemma apart_head i fs f : apart i fs -> In f fs -> stem f <> id_text i.
Proof. intros H I. apply In_nth_error in I as (k & K). specialize (H 0%nat k f ltac:(lia) K). now rewrite Z.add_0_r in H. Qed.
Lemma map_fst_combine {A B} (l : list A) (l' : list B) : length l = length l' -> map fst (combine l l') = l.
Proof. revert l'. induction l as [|x l IH]; intros [|y l'] H; try discriminate H; [reflexivity|]. cbn. f_equal. apply IH. now injection H. Qed.
Lemma map_snd_combine {A B} (l : list A) (l' : list B) : length l = length l' -> map snd (combine l l') = l'.
Proof. revert l'. induction l as [|x l IH]; intros [|y l'] H; try discriminate H; [reflexivity|]. cbn. f_equal. apply IH. now injection H. Qed.
Lemma moves_sides (g : file -> string) fs i : map fst (combine (map g fs) (map g (renamed_from i fs))) = map g fs /\ map snd (combine (map g fs) (map g (renamed_from i fs))) = map g (renamed_from i fs).
Proof. assert (L : length (map g fs) = length (map g (renamed_from i fs))) by now rewrite !map_length, renamed_length. split; [now apply map_fst_combine|now apply map_snd_combine]. Qed.
Lemma clear_moves (g : file -> string) fs : (forall f f', In f fs -> dotted f' -> g f = g f' -> stem f = stem f') -> forall i, apart i fs -> Forall dotted fs -> clear (combine (map g fs) (map g (renamed_from i fs))).
Proof.
  intros G. induction fs as [|f fs IH]; intros i A D; [exact I|]. inversion D as [|x y D1 D2]; subst x y. cbn [map renamed_from combine clear]. split.
  - rewrite (proj1 (moves_sides g fs (i + 1))). change (g f :: map g fs) with (map g (f :: fs)). intros H. apply in_map_iff in H as (h & E & H). apply (apart_head _ _ h A H). exact (G h (renamed i f) H D1 E).
  - apply IH; [|exact (apart_tail _ _ _ A)|exact D2]. intros h h' H. apply G. now right.
Qed.
Lemma combine_nth {A B} (l : list A) (l' : list B) k a b : nth_error l k = Some a -> nth_error l' k = Some b -> In (a, b) (combine l l').
Proof. revert l' k. induction l as [|x l IH]; intros [|y l'] [|k] H H'; try discriminate H; try discriminate H'; cbn in *; [left; congruence|right; eauto]. Qed.
Lemma combine_in {A B} (l : list A) (l' : list B) m : In m (combine l l') -> exists k, nth_error l k = Some (fst m) /\ nth_error l' k = Some (snd m).
Proof. revert l'. induction l as [|x l IH]; intros [|y l'] H; try destruct H; [subst m; now exists 0%nat|]. destruct (IH l' H) as (k & K). now exists (S k). Qed.
(** Nothing is lost. *)
Lemma shorten_kept {T} (F A : string -> option T) fs : holds F fs -> Forall dotted fs -> NoDup (map stem fs) -> apart 0 fs ->
  (forall i, (i < length fs)%nat -> A (key_file (id_text (Z.of_nat i))) <> None -> In (id_text (Z.of_nat i)) (map stem fs)) ->
  let '(F', A') := shorten_names (map full fs) (F, A) in
  holds F' (renamed_from 0 fs) /\ forall i f, nth_error fs i = Some f -> F' (full (renamed (Z.of_nat i) f)) = F (full f) /\ A' (key_file (id_text (Z.of_nat i))) = A (key_file (stem f)).
Proof.
  intros (ND & H) D NS AP NK. unfold shorten_names. rewrite (shorten_moves fs 0 F A D). destruct (renamed_full_nodup fs 0 ltac:(lia) D) as (N1 & N2).
  assert (DD := D). rewrite Forall_forall in DD. assert (S1 := moves_sides full fs 0). assert (S2 := moves_sides (fun f => key_file (stem f)) fs 0).
  assert (K1 : forall m, In m (feature_moves fs (renamed_from 0 fs)) -> moves F (feature_moves fs (renamed_from 0 fs)) (snd m) = F (fst m)).
  { apply moves_kept; unfold feature_moves; rewrite ?(proj1 S1), ?(proj2 S1); auto.
    - apply clear_moves; auto. intros f f' I I' E. now apply full_inj in E; [|apply DD|].
    - intros m _. destruct (F (snd m)) eqn:E; [right|now left]. apply H. congruence. }
  assert (K2 : forall m, In m (key_moves fs (renamed_from 0 fs)) -> moves A (key_moves fs (renamed_from 0 fs)) (snd m) = A (fst m)).
  { apply moves_kept; unfold key_moves; rewrite ?(proj1 S2), ?(proj2 S2); auto.
    - rewrite <- (map_map stem key_file). apply nodup_map; [|exact NS]. intros x y _ _. apply key_inj.
    - apply clear_moves; auto. intros f f' _ _ E. now apply key_inj in E.
    - intros m M. destruct (combine_in _ _ _ M) as (k & _ & K). apply nth_error_In in K as K'. apply in_map_iff in K' as (g & E & G). destruct (renamed_in _ _ _ G) as (j & f & J & ->). rewrite <- E. cbn [stem renamed].
      rewrite Z.add_0_l. destruct (A (key_file (id_text (Z.of_nat j)))) eqn:Q; [right|now left]. assert (L : (j < length fs)%nat) by (apply nth_error_Some; congruence). assert (X := NK j L ltac:(congruence)). rewrite <- (map_map stem key_file). now apply in_map. }
  split.
  - split; [exact N1|]. intros n. destruct (in_dec string_dec n (map full (renamed_from 0 fs))) as [I|I].
    + split; [now intros _|intros _]. apply in_map_iff in I as (g & <- & G). destruct (renamed_in _ _ _ G) as (k & f & K & ->). rewrite Z.add_0_l.
      specialize (K1 (full f, full (renamed (Z.of_nat k) f))). cbn [fst snd] in K1. rewrite K1; [apply H; apply in_map; now apply nth_error_In in K|]. apply (combine_nth _ _ k); apply map_nth_error; [exact K|]. apply (renamed_nth fs 0 k f K).
    + split; [|now intros X]. intros X. exfalso. apply X. rewrite moves_frame by (unfold feature_moves; now rewrite (proj2 S1)). unfold feature_moves. rewrite (proj1 S1). destruct (existsb _ _) eqn:E; [reflexivity|]. destruct (F n) eqn:Q; [|reflexivity]. exfalso.
      assert (Y : In n (map full fs)) by (apply H; congruence). rewrite <- not_true_iff_false in E. apply E. apply existsb_exists. exists n. split; [exact Y|apply String.eqb_refl].
  - intros i f N. split.
    + apply (K1 (full f, full (renamed (Z.of_nat i) f))). apply (combine_nth _ _ i); apply map_nth_error; [exact N|]. apply (renamed_nth fs 0 i f N).
    + apply (K2 (key_file (stem f), key_file (id_text (Z.of_nat i)))). apply (combine_nth _ _ i); [exact (map_nth_error (fun f => key_file (stem f)) i fs N)|]. exact (map_nth_error (fun f => key_file (stem f)) i _ (renamed_nth fs 0 i f N)).
Qed.
(** A file whose name is the new one of a file that is not after it is lost. *)
Lemma shorten_lost {T} (F A : string -> option T) fs i j e f v : holds F fs -> Forall dotted fs -> (i <= j)%nat -> nth_error fs i = Some e -> nth_error fs j = Some f -> full f = full (renamed (Z.of_nat i) e) ->
  F (full f) = Some v -> (forall n, F n = Some v -> n = full f) -> forall n, fst (shorten_names (map full fs) (F, A)) n <> Some v.
Proof.
  intros (ND & H) D L I J E V U. unfold shorten_names. rewrite (shorten_moves fs 0 F A D). cbn [fst]. assert (S1 := moves_sides full fs 0).
  assert (M : nth_error (feature_moves fs (renamed_from 0 fs)) i = Some (full e, full f)).
  { unfold feature_moves. rewrite E. assert (X := map_nth_error full i fs I). assert (Y := map_nth_error full i _ (renamed_nth fs 0 i e I)). rewrite Z.add_0_l in Y. clear - X Y.
    revert X Y. generalize (map full fs) (map full (renamed_from 0 fs)) (full e) (full (renamed (Z.of_nat i) e)). clear. intros l l' a b. revert l l'. induction i as [|i IH]; intros [|x l] [|y l'] X Y; try discriminate X; try discriminate Y; cbn in *; [congruence|now apply IH]. }
  apply nth_error_split in M as (a & b & M & LA). rewrite M. assert (ND' : NoDup (map fst (a ++ (full e, full f) :: b))) by (rewrite <- M; unfold feature_moves; now rewrite (proj1 S1)).
  apply moves_lost; auto; [|apply H; apply in_map; now apply nth_error_In in I].
  assert (X := map_nth_error full j fs J). assert (Q : map full fs = (map fst a ++ full e :: map fst b)%list) by (rewrite <- (proj1 S1); change (combine (map full fs) (map full (renamed_from 0 fs))) with (feature_moves fs (renamed_from 0 fs)); rewrite M, map_app; reflexivity).
  rewrite Q, nth_error_app2 in X by (rewrite map_length; lia). now apply nth_error_In in X.
Qed.
(** Files that have their numbers already are deleted. *)
Lemma shorten_again {T} (F A : string -> option T) fs : holds F (renamed_from 0 fs) -> Forall dotted fs ->
  let '(F', A') := shorten_names (map full (renamed_from 0 fs)) (F, A) in (forall n, F' n = None) /\ forall g, In g (renamed_from 0 fs) -> A' (key_file (stem g)) = None.
Proof.
  intros (ND & H) D. set (gs := renamed_from 0 fs) in *. assert (DG : Forall dotted gs) by now apply renamed_dotted. unfold shorten_names. rewrite (shorten_moves gs 0 F A DG).
  assert (E : renamed_from 0 gs = gs). { symmetry. apply renumbered_renamed; [lia|reflexivity|]. intros k g. rewrite Z.add_0_l. apply (proj2 (renamed_renumbers fs)). } rewrite E.
  assert (Q : forall l (d : dir T) n, moves d (combine l l) n = if existsb (String.eqb n) l then None else d n).
  { clear. induction l as [|x l IH]; intros d n; [reflexivity|]. cbn [combine existsb]. change (moves d ((x, x) :: combine l l)) with (moves (move d (x, x)) (combine l l)). rewrite IH. destruct (String.eqb_spec n x) as [->|N]; cbn [orb]; [rewrite move_old; now destruct (existsb _ _)|now rewrite move_other]. }
  split; [intros n|intros g G]; unfold feature_moves, key_moves; rewrite Q.
  - destruct (existsb _ _) eqn:X; [reflexivity|]. destruct (F n) eqn:Y; [|reflexivity]. exfalso. rewrite <- not_true_iff_false in X. apply X. apply existsb_exists. exists n. split; [apply H; congruence|apply String.eqb_refl].
  - assert (X : existsb (String.eqb (key_file (stem g))) (map (fun f => key_file (stem f)) gs) = true); [|now rewrite X]. apply existsb_exists. exists (key_file (stem g)). split; [exact (in_map (fun f => key_file (stem f)) gs g G)|apply String.eqb_refl].
Qed.
