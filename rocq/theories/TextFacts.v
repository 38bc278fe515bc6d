(** Facts about the text functions: searching, cutting, splitting. *)
From Coq Require Import Lia Ascii.
From Verif Require Import Base BaseFacts Fp PitchClass Text TextSpec.
From Coq Require Import ZifyBool ZifyNat.
Open Scope Z_scope.

Lemma app_string_assoc a b c : ((a ++ b) ++ c = a ++ (b ++ c))%string.
Proof. induction a as [|x a IH]; cbn; [reflexivity|]. now rewrite IH. Qed.
Lemma app_string_nil a : (a ++ "" = a)%string.
Proof. induction a as [|x a IH]; cbn; [reflexivity|]. now rewrite IH. Qed.
Lemma chars_app a b : chars (a ++ b)%string = chars a ++ chars b.
Proof. unfold chars. induction a as [|x a IH]; cbn; [reflexivity|]. now rewrite IH. Qed.
Lemma length_app a b : String.length (a ++ b)%string = (String.length a + String.length b)%nat.
Proof. induction a as [|x a IH]; cbn; [reflexivity|]. now rewrite IH. Qed.
Lemma size_app a b : size (a ++ b)%string = size a + size b.
Proof. unfold size. rewrite length_app. lia. Qed.
Lemma size_nonneg s : 0 <= size s. Proof. unfold size. lia. Qed.
Lemma lacks_cons c d s : lacks c (String d s) <-> d <> c /\ lacks c s.
Proof. unfold lacks, chars. cbn. intuition congruence. Qed.

Lemma last_index_none c s i : lacks c s -> last_index c s i = None.
Proof.
  revert i. induction s as [|d s IH]; intros i H; cbn; [reflexivity|]. apply lacks_cons in H. destruct H as [Hd Hs].
  rewrite IH by exact Hs. apply Ascii.eqb_neq in Hd. now rewrite Hd.
Qed.
Lemma last_index_some c a b i : lacks c b -> last_index c (a ++ String c b) i = Some (i + size a).
Proof.
  intros Hb. revert i. induction a as [|d a IH]; intros i; cbn.
  - rewrite last_index_none by exact Hb. rewrite Ascii.eqb_refl. unfold size. cbn. f_equal. lia.
  - rewrite IH. f_equal. unfold size. cbn. lia.
Qed.
Lemma find_last_none c s : lacks c s -> find_last_of c s = npos.
Proof. intros H. unfold find_last_of. now rewrite last_index_none. Qed.
Lemma find_last_some c a b : lacks c b -> find_last_of c (a ++ String c b) = size a.
Proof. intros H. unfold find_last_of. rewrite last_index_some by exact H. reflexivity. Qed.
(** Every text either lacks the character or splits at its last occurrence. *)
Lemma last_split c s : lacks c s \/ exists a b, s = (a ++ String c b)%string /\ lacks c b.
Proof.
  induction s as [|d s [IH|(a & b & E & H)]].
  - left. now intros [].
  - destruct (Ascii.eqb_spec d c) as [->|N].
    + right. exists ""%string, s. split; [reflexivity|exact IH].
    + left. apply lacks_cons. split; assumption.
  - right. exists (String d a), b. split; [|exact H]. cbn. now rewrite E.
Qed.

Lemma substring_0_all s n : (String.length s <= n)%nat -> substring 0 n s = s.
Proof.
  revert n. induction s as [|c s IH]; intros n H; [now destruct n|]. destruct n; cbn in H; [lia|]. cbn. rewrite IH by lia. reflexivity.
Qed.
Lemma substring_0_app a b : substring 0 (String.length a) (a ++ b) = a.
Proof. induction a as [|c a IH]; cbn; [now destruct b|]. now rewrite IH. Qed.
Lemma substring_skip a b n m : substring (String.length a + n) m (a ++ b) = substring n m b.
Proof. induction a as [|c a IH]; cbn; [reflexivity|]. exact IH. Qed.
Lemma substr_mid a b c n : Z.min n (size b + size c) = size b -> substr (a ++ b ++ c) (size a) n = Ret b.
Proof.
  intros H. unfold substr. rewrite !size_app. pose proof (size_nonneg b). pose proof (size_nonneg c).
  replace (size a + (size b + size c) <? size a) with false by lia. f_equal.
  replace (size a + (size b + size c) - size a) with (size b + size c) by lia. rewrite H.
  unfold size. rewrite !Nat2Z.id. rewrite <- (Nat.add_0_r (String.length a)), substring_skip. apply substring_0_app.
Qed.
Lemma substr_tail a b n : size b <= n -> substr (a ++ b) (size a) n = Ret b.
Proof.
  intros H. rewrite <- (app_string_nil b) at 1. apply substr_mid. cbn. pose proof (size_nonneg b). change (size "") with 0. lia.
Qed.
Lemma substr_past s pos n : size s < pos -> substr s pos n = Throws StdOutOfRange.
Proof. intros H. unfold substr. now replace (size s <? pos) with true by lia. Qed.

(** ** Splitting *)
Lemma pieces_lacks c s : lacks c s -> pieces c s = match s with EmptyString => [] | _ => [s] end.
Proof.
  induction s as [|d s IH]; intros H; cbn; [reflexivity|]. apply lacks_cons in H. destruct H as [Hd Hs].
  apply Ascii.eqb_neq in Hd. rewrite Hd, IH by exact Hs. now destruct s.
Qed.
Lemma pieces_app c a b : lacks c a -> pieces c (a ++ String c b) = a :: pieces c b.
Proof.
  induction a as [|d a IH]; intros H; cbn.
  - now rewrite Ascii.eqb_refl.
  - apply lacks_cons in H. destruct H as [Hd Ha]. apply Ascii.eqb_neq in Hd. rewrite Hd, IH by exact Ha. reflexivity.
Qed.
Lemma pieces_join c l : Forall (lacks c) l -> last l "x"%string <> ""%string -> pieces c (join c l) = l.
Proof.
  induction l as [|s l IH]; intros F N; [reflexivity|]. apply Forall_cons_iff in F. destruct F as [Fs Fl].
  destruct l as [|s' l].
  - cbn [join]. rewrite pieces_lacks by exact Fs. destruct s; [now elim N|reflexivity].
  - change (join c (s :: s' :: l)) with (s ++ String c (join c (s' :: l)))%string. rewrite pieces_app by exact Fs. f_equal.
    apply IH; [exact Fl|exact N].
Qed.
