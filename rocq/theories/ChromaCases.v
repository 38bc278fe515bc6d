(** Concrete chromagram files used as cases of the properties. *)
From Coq Require Import Lia Lra Ascii Reals Sorted Permutation.
From Flocq Require Import Core.Core IEEE754.BinarySingleNaN.
From Verif Require Import Base BaseFacts Fp Key PitchClass Text Options Output Chromagram MusicSpec TextSpec TextFacts NumberFacts ReadFacts ChromaSpec ChromaFacts SequenceFacts.
From Coq Require Import ZifyBool ZifyNat.
Open Scope Z_scope.

Lemma ends_nil d : ends_here d "".
Proof.
  split; [intros []|]. split; [intros _ _ []|]. split.
  - intros _ (u & m & ds & r & _ & _ & E). destruct u; discriminate.
  - intros _ _ _ (x & t & E & _). discriminate.
Qed.
Definition float_value (d : decimal) : b64 := f32_to_64 (nearest prec32 emax32 (numeral_of d)).
Lemma plain_token d : well_formed d -> erange32 (numeral_of d) = false -> token_value (show_decimal d) (float_value d).
Proof.
  intros K R. assert (E : ends_here d "") by apply ends_nil.
  assert (N : ~ (overflows 24 128 d \/ underflows32 d)) by (intros X; apply erange_spec in X; [congruence|apply K]).
  destruct (stof_decimal d "" "" (Forall_nil _) K E ltac:(tauto) ltac:(tauto)) as (x & Ex & Fx & Vx & Sx).
  assert (Q : x = nearest prec32 emax32 (numeral_of d)).
  { unfold stof in Ex. rewrite (stof_scan d "" "" (Forall_nil _) K E), R in Ex. now apply Ret_inj in Ex. }
  subst x. destruct (f32_to_64_value _ Fx) as (A & B & C).
  pose proof (token_decimal "" d "" (float_value d) (Forall_nil _) K E ltac:(tauto) ltac:(tauto) A (eq_trans B Vx) (eq_trans C Sx)) as T.
  rewrite (app_string_nil (show_decimal d)) in T. exact T.
Qed.
(** Numerals as they are usually written. *)
Definition dec (n : list Z) : decimal := mkDecimal NoSign n None None.
Definition dec_point (n f : list Z) : decimal := mkDecimal NoSign n (Some f) None.
Definition negative (n : list Z) : decimal := mkDecimal Minus n None None.
Definition token_check (d : decimal) : bool :=
  forallb (fun x => (0 <=? x) && (x <? 10)) (mantissa d) && negb (Nat.eqb (length (mantissa d)) 0) &&
  match d_exp d with Some (_, _, ds) => forallb (fun x => (0 <=? x) && (x <? 10)) ds && negb (Nat.eqb (length ds) 0) | None => true end && negb (erange32 (numeral_of d)).
Lemma digs_check ds : forallb (fun x => (0 <=? x) && (x <? 10)) ds = true -> Forall is_dig ds.
Proof. intros H. apply Forall_forall. intros x I. rewrite forallb_forall in H. specialize (H x I). unfold is_dig. lia. Qed.
Lemma token_checked d : token_check d = true -> token_value (show_decimal d) (float_value d).
Proof.
  unfold token_check. rewrite !andb_true_iff, !negb_true_iff. intros (((A & B) & C) & D). apply plain_token; [|exact D]. split; [now apply digs_check|].
  split; [intros Q; rewrite Q in B; discriminate|]. destruct (d_exp d) as [[[u m] ds]|]; [|exact I]. rewrite andb_true_iff, negb_true_iff in C. destruct C as [C1 C2].
  split; [now apply digs_check|]. intros ->. discriminate.
Qed.
Definition row_shown (ds : list decimal) : string := join "," (map show_decimal ds).
Definition csv_shown (rows : list (list decimal)) : string := (join "010" (map row_shown rows) ++ String "010" "")%string.
Lemma row_checked ds : pieces "," (row_shown ds) = map show_decimal ds -> forallb token_check ds = true -> row_text (row_shown ds) (map float_value ds).
Proof.
  intros F H. exists (map show_decimal ds). split; [now apply fields_iff|]. clear F. induction ds as [|d ds IH]; constructor; cbn in H; apply andb_prop in H; destruct H as [H1 H2]; [now apply token_checked|now apply IH].
Qed.
Lemma csv_checked rows : pieces "010" (csv_shown rows) = map row_shown rows -> Forall (fun ds => pieces "," (row_shown ds) = map show_decimal ds) rows ->
  forallb (forallb token_check) rows = true -> csv_text (csv_shown rows) (map (map float_value) rows).
Proof.
  intros F G H. exists (map row_shown rows). split; [now apply fields_iff|]. clear F. induction rows as [|r rows IH]; cbn [map]; constructor; cbn in H; apply andb_prop in H; destruct H as [H1 H2]; apply Forall_cons_iff in G; destruct G as [G1 G2].
  - now apply row_checked.
  - now apply IH.
Qed.
(** 0.5 with thirteen values (the last overwrites A), an empty line, a time alone, and an earlier frame with one value. *)
Definition demo_rows : list (list decimal) :=
  [ [dec_point [0] [5]; dec [1]; dec [2]; dec [3]; dec [4]; dec [5]; dec [6]; dec [7]; dec [8]; dec [9]; dec [1; 0]; dec [1; 1]; dec_point [1; 2] [7; 5]; dec_point [0] [2; 5]];
    []; [dec [7]]; [dec [0]; dec [3]; dec_point [2] [9]] ].
Definition demo_csv : string := csv_shown demo_rows.
Example demo_csv_text : demo_csv = ("0.5,1,2,3,4,5,6,7,8,9,10,11,12.75,0.25" ++ String "010" (String "010" ("7" ++ String "010" ("0,3,2.9" ++ String "010" ""))))%string.
Proof. reflexivity. Qed.
Lemma demo_text : csv_text demo_csv (map (map float_value) demo_rows).
Proof. apply csv_checked; [reflexivity|repeat constructor|vm_compute; reflexivity]. Qed.
Lemma demo_proper : Forall proper_row (map (map float_value) demo_rows).
Proof. repeat constructor; vm_compute; reflexivity. Qed.
(** A chromagram as plain numbers. *)
Definition plain_map (m : chroma_map) : list (SpecFloat.spec_float * list SpecFloat.spec_float) := map (fun f => (B2SF (fst f), map B2SF (snd f))) m.
