(** Reading a chord dictionary that was written; initialising a chord plug-in again. *)
From Coq Require Import Ascii String Lia.
From Flocq Require Import Core.Core IEEE754.BinarySingleNaN.
From Verif Require Import Base BaseFacts Fp PitchClass Options Chromagram Text Nnls NnlsArith NnlsFacts Plug PlugFacts Chords ChordsSpec ChordsFacts ChordsCases Dict DictSpec.
Open Scope string_scope.

Lemma app_nil_string s : s ++ "" = s. Proof. induction s as [|c s IH]; cbn; [reflexivity|now rewrite IH]. Qed.
Lemma app_string_assoc a b c : (a ++ b) ++ c = a ++ b ++ c. Proof. induction a as [|x a IH]; cbn; [reflexivity|now rewrite IH]. Qed.
Lemma dropped_is c : dropped c = true <-> separator c.
Proof. unfold dropped, separator. rewrite !Bool.orb_true_iff, !Ascii.eqb_eq. tauto. Qed.
Lemma every_app P a b : every P (a ++ b) <-> every P a /\ every P b. Proof. induction a as [|c a IH]; cbn; tauto. Qed.
Lemma every_impl (P Q : ascii -> Prop) s : (forall c, P c -> Q c) -> every P s -> every Q s. Proof. intros H. induction s as [|c s IH]; cbn; [tauto|]. intros (A & B). split; [now apply H|now apply IH]. Qed.

(** ** Tokens *)
Lemma tokens_letters w acc s : every letter w -> tokens acc (w ++ s) = tokens (acc ++ w) s.
Proof.
  revert acc. induction w as [|c w IH]; intros acc H; cbn [append]; [now rewrite app_nil_string|]. destruct H as ((A & B & _) & H). cbn [tokens].
  destruct (dropped c) eqn:D; [apply dropped_is in D; contradiction|]. destruct (Ascii.eqb_spec c "="); [contradiction|]. rewrite IH by exact H. now rewrite app_string_assoc.
Qed.
Lemma flush_ne w : w <> "" -> flush w = [w]. Proof. destruct w; [contradiction|reflexivity]. Qed.
Lemma tokens_separators p acc s : every separator p -> p <> "" -> tokens acc (p ++ s) = (flush acc ++ tokens "" s)%list.
Proof.
  revert acc. induction p as [|c p IH]; intros acc H N; [contradiction|]. destruct H as (A & H). cbn [append tokens]. rewrite (proj2 (dropped_is c) A). f_equal. destruct p as [|d p]; [reflexivity|]. rewrite IH; [reflexivity|exact H|discriminate].
Qed.
Lemma tokens_pad p s : every separator p -> tokens "" (p ++ s) = tokens "" s.
Proof. destruct p as [|c p]; [reflexivity|]. intros H. rewrite tokens_separators; [reflexivity|exact H|discriminate]. Qed.
Lemma tokens_equals acc s : tokens acc (String "=" s) = (flush acc ++ "=" :: tokens "" s)%list. Proof. reflexivity. Qed.
Lemma tokens_end acc p : every separator p -> tokens acc p = flush acc.
Proof. intros H. destruct p as [|c p]; [reflexivity|]. rewrite <- (app_nil_string (String c p)). rewrite tokens_separators; [apply app_nil_r|exact H|discriminate]. Qed.

(** ** Lines *)
Section Reading.
  Context (cast : string -> outcome b32).
  Lemma tokens_numbers nums tail acc : Forall (good_number cast) nums -> Forall (fun x => x_before x <> "") nums -> every separator tail -> tokens acc (put_numbers nums ++ tail) = (flush acc ++ map x_text nums)%list.
  Proof.
    revert acc. induction nums as [|x nums IH]; intros acc G N T; cbn [put_numbers fold_right append map]; [rewrite app_nil_r; now apply tokens_end|]. apply Forall_cons_iff in G as ((A & B & C & D) & G). apply Forall_cons_iff in N as (E & N).
    fold (put_numbers nums). rewrite !app_string_assoc, tokens_separators by assumption. f_equal. rewrite tokens_letters by exact B. cbn [append]. rewrite IH by assumption. now rewrite flush_ne.
  Qed.
  Lemma tokens_first_numbers nums tail : Forall (good_number cast) nums -> Forall (fun x => x_before x <> "") (tl nums) -> every separator tail -> tokens "" (put_numbers nums ++ tail) = map x_text nums.
  Proof.
    destruct nums as [|x nums]; intros G N T; [now apply (tokens_end "")|]. cbn [tl put_numbers fold_right map] in *. fold (put_numbers nums). apply Forall_cons_iff in G as ((A & B & C & D) & G). rewrite !app_string_assoc, tokens_pad by exact A. rewrite tokens_letters by exact B. cbn [append]. rewrite tokens_numbers by assumption. now rewrite flush_ne.
  Qed.
  Lemma numbers_read nums : Forall (good_number cast) nums -> numbers cast (map x_text nums) = Ret (map x_value nums).
  Proof. induction nums as [|x nums IH]; intros G; [reflexivity|]. apply Forall_cons_iff in G as ((A & B & C & D) & G). cbn [map numbers]. rewrite D. cbn [bind]. rewrite IH by exact G. reflexivity. Qed.
  Lemma name_equals name : every letter name -> (name =? "=") = false.
  Proof. intros H. destruct (String.eqb_spec name "=") as [-> | N]; [|reflexivity]. destruct H as ((_ & H & _) & _). contradiction. Qed.
  Lemma line_read name pad nums tail : good cast (Type_ name pad nums tail) -> dict_line cast (put_line (Type_ name pad nums tail)) = Ret (name, map x_value nums).
  Proof.
    intros (A & _ & P & T & G & N). unfold dict_line, put_line. rewrite tokens_letters by exact A. cbn [append].
    assert (E : tokens name (pad ++ "=" ++ put_numbers nums ++ tail) = (flush name ++ "=" :: map x_text nums)%list).
    { destruct pad as [|c pad]; [cbn [append]; rewrite tokens_equals; now rewrite tokens_first_numbers|]. rewrite tokens_separators by (exact P || discriminate). cbn [append]. rewrite tokens_equals. cbn [flush app]. now rewrite tokens_first_numbers. }
    cbn [append] in E. rewrite E. destruct name as [|c name]; [cbn [flush app]; rewrite String.eqb_refl, numbers_read by exact G; reflexivity|]. rewrite flush_ne by discriminate. cbn [app]. rewrite name_equals by exact A. rewrite numbers_read by exact G. reflexivity.
  Qed.
  Lemma letters_not_lf s : every letter s -> every not_lf s. Proof. apply every_impl. now intros c (_ & _ & H). Qed.
  Lemma separators_not_lf s : every separator s -> every not_lf s. Proof. apply every_impl. intros c [-> | [-> | ->]]; discriminate. Qed.
  Lemma numbers_not_lf nums : Forall (good_number cast) nums -> every not_lf (put_numbers nums).
  Proof. induction 1 as [|x nums (A & B & _) _ IH]; cbn [put_numbers fold_right]; [exact I|]. apply every_app. split; [now apply separators_not_lf|]. apply every_app. split; [now apply letters_not_lf|exact IH]. Qed.
  Lemma line_not_lf e : good cast e -> every not_lf (put_line e).
  Proof.
    destruct e as [t|name pad nums tail]; [now intros (H & _)|]. intros (A & _ & P & T & G & _). cbn [put_line]. apply every_app. split; [now apply letters_not_lf|]. apply every_app. split; [now apply separators_not_lf|]. cbn [append every]. split; [discriminate|].
    apply every_app. split; [now apply numbers_not_lf|now apply separators_not_lf].
  Qed.
  Lemma pieces_line a r : every not_lf a -> pieces LF10 (a ++ String LF10 r) = a :: pieces LF10 r.
  Proof.
    induction a as [|c a IH]; cbn [append every pieces]; [intros _; now rewrite Ascii.eqb_refl|]. intros (N & H). destruct (Ascii.eqb_spec c LF10); [contradiction|]. now rewrite IH.
  Qed.
  Lemma pieces_file l rest : Forall (good cast) l -> pieces LF10 (put_file l ++ rest) = (map put_line l ++ pieces LF10 rest)%list.
  Proof. induction 1 as [|e l H _ IH]; cbn [put_file fold_right append map app]; [reflexivity|]. fold (put_file l). rewrite app_string_assoc. cbn [append]. rewrite pieces_line by now apply line_not_lf. now rewrite IH. Qed.
  Lemma commented_line e : good cast e -> commented (put_line e) = match e with Remark _ => true | _ => false end.
  Proof.
    destruct e as [t|name pad nums tail]; [intros (_ & [-> | (t' & ->)]); reflexivity|]. intros (A & H & P & _). cbn [put_line]. destruct name as [|c name]; cbn [append commented].
    - destruct pad as [|c pad]; [reflexivity|]. cbn [append commented]. destruct P as ([-> | [-> | ->]] & _); reflexivity.
    - destruct (Ascii.eqb_spec c "#") as [-> | N]; [now elim (H name)|reflexivity].
  Qed.
  Definition reading : list string * list b32 -> string -> outcome (list string * list b32) := fun '(names, values) line => if commented line then Ret (names, values) else do (n, v) <- dict_line cast line; Ret (names ++ [n], values ++ v)%list.
  Lemma reading_eq names values line : reading (names, values) line = if commented line then Ret (names, values) else do (n, v) <- dict_line cast line; Ret (names ++ [n], values ++ v)%list. Proof. reflexivity. Qed.
  Lemma over_lines l rest names values : Forall (good cast) l -> over reading (map put_line l ++ rest) (names, values) = over reading rest (names ++ map fst (types_of l), values ++ flat_map snd (types_of l))%list.
  Proof.
    revert names values. induction l as [|e l IH]; intros names values H; cbn [map app types_of flat_map]; [now rewrite !app_nil_r|]. apply Forall_cons_iff in H as (G & H). cbn [over]. rewrite reading_eq. rewrite commented_line by exact G. destruct e as [t|name pad nums tail].
    - cbn [bind type_of app]. now apply IH.
    - rewrite line_read by exact G. cbn [bind type_of app map fst snd flat_map]. rewrite IH by exact H. fold (types_of l). rewrite <- !app_assoc. reflexivity.
  Qed.
  Lemma read_more l rest : Forall (good cast) l -> read_dict cast (put_file l ++ rest) = over reading (pieces LF10 rest) (map fst (types_of l), flat_map snd (types_of l)).
  Proof. intros H. unfold read_dict. fold reading. rewrite pieces_file by exact H. now rewrite over_lines. Qed.
  Lemma read_written l : Forall (good cast) l -> read_dict cast (put_file l) = Ret (map fst (types_of l), flat_map snd (types_of l)).
  Proof. intros H. rewrite <- (app_nil_string (put_file l)). rewrite read_more by exact H. reflexivity. Qed.
  (** A last line without an end of line. *)
  Lemma pieces_last s : every not_lf s -> s <> "" -> pieces LF10 s = [s].
  Proof. induction s as [|c s IH]; [contradiction|]. intros (N & H) _. cbn [pieces]. destruct (Ascii.eqb_spec c LF10); [contradiction|]. destruct s as [|d s]; [reflexivity|]. rewrite IH; [reflexivity|exact H|discriminate]. Qed.
  Lemma read_unended l e : Forall (good cast) (l ++ [e])%list -> read_dict cast (put_file l ++ put_line e) = Ret (map fst (types_of (l ++ [e])), flat_map snd (types_of (l ++ [e]))).
  Proof.
    intros H. apply Forall_app in H as (H & G). apply Forall_inv in G. rewrite read_more by exact H. unfold types_of at 3 4. rewrite flat_map_app. fold (types_of l). cbn [flat_map]. rewrite app_nil_r, map_app, flat_map_app.
    assert (C := commented_line e G). destruct (put_line e) as [|c s] eqn:Q.
    - destruct e as [t|name pad nums tail]; [cbn [type_of map flat_map over pieces]; now rewrite !app_nil_r|]. discriminate C.
    - rewrite <- Q in *. rewrite pieces_last; [|now apply line_not_lf|now rewrite Q]. cbn [over]. rewrite reading_eq. rewrite C. destruct e as [t|name pad nums tail]; [cbn [type_of map flat_map bind]; now rewrite !app_nil_r|].
      rewrite line_read by exact G. cbn [bind type_of map flat_map fst snd]. now rewrite app_nil_r.
  Qed.
  (** ** Bad lines *)
  Lemma name_alone l before name after rest : Forall (good cast) l -> every separator before -> every letter name -> name <> "" -> every separator after -> commented (before ++ name ++ after) = false ->
    read_dict cast (put_file l ++ (before ++ name ++ after) ++ String LF10 rest) = Undef OutOfBounds.
  Proof.
    intros H B N NE A C. rewrite read_more by exact H. rewrite pieces_line by (apply every_app; split; [now apply separators_not_lf|]; apply every_app; split; [now apply letters_not_lf|now apply separators_not_lf]). cbn [over]. rewrite reading_eq. rewrite C. unfold dict_line. rewrite tokens_pad by exact B. rewrite tokens_letters by exact N. cbn [append]. rewrite tokens_end by exact A. rewrite flush_ne by exact NE. rewrite name_equals by exact N. reflexivity.
  Qed.
  Lemma blank_line l p rest r : Forall (good cast) l -> every separator p -> p <> "" -> Forall (good cast) r -> rest = put_file r ->
    read_dict cast (put_file l ++ p ++ String LF10 rest) = Ret (map fst (types_of l) ++ "" :: map fst (types_of r), flat_map snd (types_of l) ++ flat_map snd (types_of r))%list.
  Proof.
    intros H P N R ->. rewrite read_more by exact H. rewrite pieces_line by now apply separators_not_lf. cbn [over]. rewrite reading_eq. assert (C : commented p = false) by (destruct p as [|c p]; [contradiction|]; destruct P as ([-> | [-> | ->]] & _); reflexivity). rewrite C.
    unfold dict_line. rewrite tokens_end by exact P. cbn [flush bind]. rewrite app_nil_r. rewrite <- (app_nil_string (put_file r)). rewrite pieces_file by exact R. rewrite over_lines by exact R. cbn [pieces over]. now rewrite <- app_assoc.
  Qed.
End Reading.

(** ** Tables and chords *)
Lemma chunk {A B} (f : A -> list B) n l t x : Forall (fun a => length (f a) = n) l -> nth_error l t = Some x -> firstn n (skipn (n * t) (flat_map f l)) = f x.
Proof.
  revert t. induction l as [|a l IH]; intros t H E; [destruct t; discriminate E|]. apply Forall_cons_iff in H as (La & H). destruct t as [|t]; cbn [nth_error flat_map] in *.
  - apply Some_inj in E. subst x. rewrite Nat.mul_0_r. cbn [skipn]. rewrite firstn_app, La, Nat.sub_diag, <- La, firstn_all. apply app_nil_r.
  - replace (n * S t)%nat with (n + n * t)%nat by lia. rewrite skipn_app. rewrite skipn_all2 by lia. cbn [app]. replace (n + n * t - length (f a))%nat with (n * t)%nat by lia. now apply IH.
Qed.
Lemma flat_map_lengths {A B} (f : A -> list B) n l : Forall (fun a => length (f a) = n) l -> length (flat_map f l) = (n * length l)%nat.
Proof. induction 1 as [|a l H _ IH]; cbn [flat_map length]; [lia|]. rewrite app_length, H, IH. lia. Qed.
Lemma nth_chunk {A} (l : list A) n t k d : (k < n)%nat -> nth k (firstn n (skipn (n * t) l)) d = nth (n * t + k) l d.
Proof.
  intros K. transitivity (nth k (skipn (n * t) l) d).
  - generalize (skipn (n * t) l) as u. revert k K. induction n as [|n IH]; intros k K u; [lia|]. destruct u as [|a u]; [reflexivity|]. destruct k as [|k]; [reflexivity|]. cbn [firstn nth]. apply IH. lia.
  - revert l. generalize (n * t)%nat as m. induction m as [|m IH]; intros l; [reflexivity|]. destruct l as [|a l]; [cbn [skipn]; destruct (S m + k)%nat; now destruct k|]. cbn [skipn Nat.add nth]. apply IH.
Qed.
Section Whole.
  Context (cast : string -> outcome b32) (powf : b32 -> b32 -> b32).
  Lemma file_dictionary l boost harte : Forall (good cast) l -> Forall (fun t => length (snd t) = 24%nat) (types_of l) ->
    exists names values chords, tables_of cast harte (Some (put_file l)) = Ret (names, values) /\ names = map fst (types_of l) /\ chord_dictionary powf boost harte names values = Ret chords /\ (Z.of_nat (length chords) = 12 * Z.of_nat (length (types_of l)) + 1)%Z /\
      forall t n v k, nth_error (types_of l) t = Some (n, v) -> (k < 24)%nat -> nth (24 * t + k) values z32 = nth k v z32.
  Proof.
    intros G H. exists (map fst (types_of l)), (flat_map snd (types_of l)). assert (LV := flat_map_lengths snd 24 (types_of l) H).
    assert (F : (24 * Z.of_nat (length (map fst (types_of l))) <= Z.of_nat (length (flat_map snd (types_of l))))%Z) by (rewrite map_length; lia).
    destruct (dictionary_ok harte (map fst (types_of l)) (flat_map snd (types_of l)) F powf boost) as (chords & E & L & _). exists chords. split; [unfold tables_of; now apply read_written|]. split; [reflexivity|]. split; [exact E|]. split; [rewrite L, map_length; reflexivity|].
    intros t n v k T K. rewrite <- nth_chunk by exact K. now rewrite (chunk snd 24 _ t (n, v) H T).
  Qed.
  Lemma blank_line_spoils l p r boost harte names values chords : Forall (good cast) l -> every separator p -> p <> "" -> Forall (good cast) r -> Forall (fun t => length (snd t) = 24%nat) (types_of (l ++ r)) ->
    tables_of cast harte (Some (put_file l ++ p ++ String LF10 (put_file r))) = Ret (names, values) -> chord_dictionary powf boost harte names values <> Ret chords.
  Proof.
    intros G P N R H E C. unfold tables_of in E. rewrite (blank_line cast l p _ r G P N R eq_refl) in E. apply Ret_inj in E. assert (E1 := f_equal fst E). assert (E2 := f_equal snd E). cbn [fst snd] in E1, E2. subst names values. apply short_dictionary in C.
    rewrite app_length in C. cbn [length] in C. rewrite !map_length, app_length in C. unfold types_of in H. rewrite flat_map_app in H. apply Forall_app in H as (H1 & H2). fold (types_of l) in H1. fold (types_of r) in H2. rewrite (flat_map_lengths snd 24 _ H1), (flat_map_lengths snd 24 _ H2) in C. lia.
  Qed.
  (** ** Initialising again *)
  Definition call : Type := b32 * b32 * list string * list b32.
  Definition dict_of (c : call) : outcome (list chord) := let '(boost, harte, names, values) := c in chord_dictionary powf boost harte names values.
  Definition set_by (s : chordset) (c : call) : outcome chordset := let '(boost, harte, names, values) := c in set_chords powf boost harte names values s.
  Lemma set_by_eq s c l : dict_of c = Ret l -> set_by s c = Ret (mkChordset (map c_name l) (d_dict s ++ flat_map c_values l) (d_notes s ++ map c_notes l)).
  Proof. destruct c as (((b, h), n), v). cbn [dict_of set_by]. unfold set_chords. now intros ->. Qed.
  Lemma dict_values c l : dict_of c = Ret l -> Forall (fun d => length (c_values d) = 24%nat) l.
  Proof. destruct c as (((b, h), n), v). cbn [dict_of]. intros E. now destruct (dictionary_fits _ _ _ _ _ _ E) as (a & b' & _ & F & _). Qed.
  Lemma set_again s calls s' : over set_by calls s = Ret s' -> exists u w, d_dict s' = (d_dict s ++ u)%list /\ d_notes s' = (d_notes s ++ w)%list.
  Proof.
    revert s. induction calls as [|c calls IH]; intros s E; cbn [over] in E; [apply Ret_inj in E; subst s'; exists [], []; now rewrite !app_nil_r|].
    destruct (dict_of c) as [l| |] eqn:D; [rewrite (set_by_eq s c l D) in E; cbn [bind] in E|exfalso; destruct c as (((b, h), n), v); cbn [dict_of set_by] in *; unfold set_chords in E; rewrite D in E; discriminate E|exfalso; destruct c as (((b, h), n), v); cbn [dict_of set_by] in *; unfold set_chords in E; rewrite D in E; discriminate E].
    destruct (IH _ E) as (u & w & U & W). cbn [d_dict d_notes] in *. exists (flat_map c_values l ++ u)%list, (map c_notes l ++ w)%list. now rewrite !app_assoc.
  Qed.
  (** The names are those of the last call, values and notes those of the first. *)
  Lemma first_call_stays c0 calls c1 l0 l1 : dict_of c0 = Ret l0 -> dict_of c1 = Ret l1 -> forall s, over set_by (c0 :: calls ++ [c1]) no_chords = Ret s -> d_names s = map c_name l1 /\
    forall i, (i < length l0)%nat -> chord_at s i = mkChord (nth i (map c_name l1) "") (c_values (nth i l0 no_chord)) (c_notes (nth i l0 no_chord)).
  Proof.
    intros D0 D1 s E. cbn [over] in E. rewrite (set_by_eq _ _ _ D0) in E. cbn [bind] in E. set (s0 := mkChordset _ _ _) in E.
    assert (S : exists s1, over set_by calls s0 = Ret s1 /\ set_by s1 c1 = Ret s).
    { revert E. generalize s0. clear. induction calls as [|c calls IH]; intros s0 E; cbn [over app] in *; [exists s0; split; [reflexivity|]; now destruct (set_by s0 c1)|]. destruct (set_by s0 c) as [s1| |]; cbn [bind] in *; try discriminate E. now apply IH. }
    destruct S as (s1 & S1 & S2). rewrite (set_by_eq _ _ _ D1) in S2. apply Ret_inj in S2. subst s. destruct (set_again _ _ _ S1) as (u & w & U & W). cbn [d_names d_dict d_notes]. split; [reflexivity|]. intros i I. unfold chord_at. cbn [d_names d_dict d_notes]. rewrite U, W. unfold s0. cbn [d_dict d_notes no_chords app].
    assert (V := dict_values _ _ D0). assert (LV := flat_map_lengths c_values 24 l0 V). assert (X : nth_error l0 i = Some (nth i l0 no_chord)) by now apply nth_error_nth'. f_equal.
    - rewrite <- app_assoc. rewrite skipn_app. assert (Q := chunk c_values 24 l0 i _ V X). replace (24 * i - length (flat_map c_values l0))%nat with 0%nat by lia. cbn [skipn]. rewrite firstn_app. replace (24 - length (skipn (24 * i) (flat_map c_values l0)))%nat with 0%nat by (rewrite skipn_length; lia). cbn [firstn]. rewrite app_nil_r. exact Q.
    - rewrite <- app_assoc. rewrite app_nth1 by (rewrite map_length; exact I). now rewrite (nth_indep _ [] (c_notes no_chord)), map_nth by (rewrite map_length; exact I).
  Qed.
  Lemma first_call c0 l0 s : dict_of c0 = Ret l0 -> set_by no_chords c0 = Ret s -> chords_of s = l0.
  Proof.
    intros D E. rewrite (set_by_eq _ _ _ D) in E. apply Ret_inj in E. subst s. unfold chords_of. cbn [d_names]. rewrite map_length. assert (V := dict_values _ _ D). apply (nth_ext _ _ no_chord no_chord); [now rewrite map_length, seq_length|]. intros i I. rewrite map_length, seq_length in I.
    rewrite (nth_indep _ no_chord (chord_at (mkChordset (map c_name l0) ([] ++ flat_map c_values l0) ([] ++ map c_notes l0)) 0)) by (rewrite map_length, seq_length; exact I). rewrite map_nth, seq_nth by exact I. cbn [Nat.add]. unfold chord_at. cbn [d_names d_dict d_notes app no_chords].
    assert (X : nth_error l0 i = Some (nth i l0 no_chord)) by now apply nth_error_nth'. rewrite (chunk c_values 24 l0 i _ V X). rewrite (nth_indep _ "" (c_name no_chord)), (map_nth c_name) by (rewrite map_length; exact I). rewrite (nth_indep _ [] (c_notes no_chord)), (map_nth c_notes) by (rewrite map_length; exact I). now destruct (nth i l0 no_chord).
  Qed.
End Whole.

(** ** The file that comes with the plug-ins *)
Definition bit_number (first : bool) (b : Z) : number := mkNumber (if first then "" else ",") (if (b =? 1)%Z then "1" else "0") (rat32 (if (b =? 1)%Z then 1 else 0) 1).
Definition bits_line (name : string) (bits : list Z) (tail : string) : entry := Type_ name "" (match bits with [] => [] | b :: bits => bit_number true b :: map (bit_number false) bits end) tail.
Definition shipped_entries : list entry :=
  [Remark "### Comma-Separated Chord Dictionaries";
   Remark "# ";
   Remark "# field 1 is chord type name,";
   Remark "# fields 2-25 indicate whether a pitch class is present (1) or not (0) :";
   Remark "#   - fields 2-13 correspond to bass pitch classes A through Ab";
   Remark "#   - fields 14-25 correspond to chord pitch classes A through Ab";
   Remark "";
   Remark "### Advanced Learners Chord Dictionary";
   bits_line "" [1; 0; 0; 0; 0; 0; 0; 0; 0; 0; 0; 0; 1; 0; 0; 0; 1; 0; 0; 1; 0; 0; 0; 0] "";
   bits_line "" [0; 0; 0; 0; 0; 0; 0; 0; 0; 0; 0; 0; 1; 0; 0; 0; 1; 0; 0; 1; 0; 0; 0; 0] "";
   bits_line "m" [1; 0; 0; 0; 0; 0; 0; 0; 0; 0; 0; 0; 1; 0; 0; 1; 0; 0; 0; 1; 0; 0; 0; 0] "";
   bits_line "m" [0; 0; 0; 0; 0; 0; 0; 0; 0; 0; 0; 0; 1; 0; 0; 1; 0; 0; 0; 1; 0; 0; 0; 0] "";
   bits_line "dim7" [0; 0; 0; 0; 0; 0; 0; 0; 0; 0; 1; 0; 1; 0; 0; 1; 0; 0; 1; 0; 0; 0; 1; 0] "";
   bits_line "dim7" [1; 0; 0; 0; 0; 0; 0; 0; 0; 0; 0; 0; 1; 0; 0; 1; 0; 0; 1; 0; 0; 0; 1; 0] "";
   bits_line "6" [1; 0; 0; 0; 0; 0; 0; 0; 0; 0; 0; 0; 1; 0; 0; 0; 1; 0; 0; 1; 0; 1; 0; 0] "";
   bits_line "7" [1; 0; 0; 0; 0; 0; 0; 0; 0; 0; 0; 0; 1; 0; 0; 0; 1; 0; 0; 1; 0; 0; 1; 0] "";
   bits_line "maj7" [1; 0; 0; 0; 0; 0; 0; 0; 0; 0; 0; 0; 1; 0; 0; 0; 1; 0; 0; 1; 0; 0; 0; 1] "";
   bits_line "m7" [1; 0; 0; 0; 0; 0; 0; 0; 0; 0; 0; 0; 1; 0; 0; 1; 0; 0; 0; 1; 0; 0; 1; 0] "";
   bits_line "m6" [1; 0; 0; 0; 0; 0; 0; 0; 0; 0; 0; 0; 1; 0; 0; 1; 0; 0; 0; 1; 0; 1; 0; 0] "";
   bits_line "" [0; 0; 0; 0; 1; 0; 0; 0; 0; 0; 0; 0; 1; 0; 0; 0; 1; 0; 0; 1; 0; 0; 0; 0] "";
   bits_line "" [0; 0; 0; 0; 0; 0; 0; 1; 0; 0; 0; 0; 1; 0; 0; 0; 1; 0; 0; 1; 0; 0; 0; 0] "";
   bits_line "dim" [1; 0; 0; 0; 0; 0; 0; 0; 0; 0; 0; 0; 1; 0; 0; 1; 0; 0; 1; 0; 0; 0; 0; 0] "";
   bits_line "aug" [1; 0; 0; 0; 0; 0; 0; 0; 0; 0; 0; 0; 1; 0; 0; 0; 1; 0; 0; 0; 1; 0; 0; 0] "";
   bits_line "" [0; 0; 1; 0; 0; 0; 0; 0; 0; 0; 0; 0; 1; 0; 0; 0; 1; 0; 0; 1; 0; 0; 0; 0] "";
   bits_line "" [0; 0; 0; 0; 0; 0; 0; 0; 0; 0; 1; 0; 1; 0; 0; 0; 1; 0; 0; 1; 0; 0; 0; 0] " ";
   bits_line "7" [0; 0; 0; 0; 1; 0; 0; 0; 0; 0; 0; 0; 1; 0; 0; 0; 1; 0; 0; 1; 0; 0; 1; 0] "";
   Remark "# sus4=1,0,0,0,0,0,0,0,0,0,0,0,1,0,0,0,1,1,0,1,0,0,0,0";
   Remark "";
   Remark "### Rock'n'Roll";
   Remark "# :1,0,0,0,0,0,0,0,0,0,0,0,1,0,0,0,1,0,0,1,0,0,0,0";
   Remark "# m:1,0,0,0,0,0,0,0,0,0,0,0,1,0,0,1,0,0,0,1,0,0,0,0"].
Lemma shipped_text : put_file shipped_entries = shipped_dict. Proof. vm_compute. reflexivity. Qed.
Definition reads_bits (cast : string -> outcome b32) : Prop := cast "0" = Ret (rat32 0 1) /\ cast "1" = Ret (rat32 1 1).
Lemma bit_good cast first b : reads_bits cast -> good_number cast (bit_number first b).
Proof.
  intros (Z0 & Z1). unfold good_number, bit_number. cbn [x_before x_text x_value]. split; [destruct first; cbn [every]; [exact I|split; [now left|exact I]]|].
  destruct (b =? 1)%Z; (split; [cbn [every]; split; [split; [intros [H|[H|H]]; discriminate|split; discriminate]|exact I]|split; [discriminate|assumption]]).
Qed.
Lemma bits_good cast name bits tail : reads_bits cast -> every letter name -> (forall n, name <> String "#" n) -> every separator tail -> good cast (bits_line name bits tail).
Proof.
  intros C N H T. unfold bits_line. cbn [good]. split; [exact N|]. split; [exact H|]. split; [exact I|]. split; [exact T|]. destruct bits as [|b bits]; [split; constructor|]. cbn [tl]. split.
  - constructor; [now apply bit_good|]. apply Forall_map. apply Forall_forall. intros x _. now apply bit_good.
  - apply Forall_map. apply Forall_forall. intros x _. discriminate.
Qed.
Lemma shipped_good cast : reads_bits cast -> Forall (good cast) shipped_entries.
Proof.
  intros C. unfold shipped_entries.
  repeat (constructor; [first [apply bits_good; [exact C|cbn [every]; repeat split; try discriminate; intros [H|[H|H]]; discriminate|intros n; discriminate|cbn [every]; repeat split; right; now right]
    |cbn [good]; split; [cbn [every]; repeat split; discriminate|first [now left|right; eexists; reflexivity]]]|]). constructor.
Qed.
Lemma bits_types name bits tail : types_of [bits_line name bits tail] = [(name, map (fun b => rat32 (if (b =? 1)%Z then 1 else 0) 1) bits)].
Proof. unfold types_of, bits_line. cbn [flat_map type_of app]. f_equal. f_equal. destruct bits as [|b bits]; [reflexivity|]. cbn [map]. f_equal. rewrite map_map. reflexivity. Qed.
Lemma shipped_values : flat_map snd (types_of shipped_entries) = static_values.
Proof. cbv [shipped_entries types_of bits_line bit_number flat_map type_of map app snd x_value Z.eqb Pos.eqb static_values]. reflexivity. Qed.
(** "m7b5" is called "dim7" in the file. *)
Definition renamed (s : string) : string := if (s =? "m7b5")%string then "dim7" else s.
Lemma shipped_names : map fst (types_of shipped_entries) = map renamed (default_names z32).
Proof. vm_compute. reflexivity. Qed.
Lemma shipped_read cast harte : reads_bits cast -> tables_of cast harte (Some shipped_dict) = Ret (map renamed (default_names z32), static_values).
Proof. intros C. unfold tables_of. rewrite <- shipped_text, read_written by now apply shipped_good. now rewrite shipped_names, shipped_values. Qed.

(** ** Small files *)
Definition bit_cast (s : string) : outcome b32 := if (s =? "0")%string then Ret (rat32 0 1) else if (s =? "1")%string then Ret (rat32 1 1) else Throws StdInvalidArgument.
Lemma bit_cast_reads : reads_bits bit_cast. Proof. split; reflexivity. Qed.
Definition show_tables (o : outcome (list string * list b32)) : option (list string * list SpecFloat.spec_float) := match o with Ret (n, v) => Some (n, map B2SF v) | _ => None end.
