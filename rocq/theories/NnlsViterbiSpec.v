(** Independent vocabulary for the properties of ViterbiPath: how much weight a sequence of states has. *)
From Coq Require Import List Reals.
Import ListNotations.

(** A sequence of [n] states out of [k]. *)
Definition state_sequence (k n : nat) (p : list nat) : Prop := length p = n /\ Forall (fun s => s < k) p.
(** Exact weight: init * obs of the first frame, times transition * observation of every further frame. *)
Fixpoint exact_from (trans : list (list R)) (w : R) (i : nat) (obs : list (list R)) (p : list nat) : R :=
  match obs, p with
  | ob :: obs', j :: p' => exact_from trans (w * nth j (nth i trans []) 0 * nth j ob 0)%R j obs' p'
  | _, _ => w
  end.
Definition exact_weight (init : list R) (trans : list (list R)) (obs : list (list R)) (p : list nat) : R :=
  match obs, p with ob :: obs', i :: p' => exact_from trans (nth i init 0 * nth i ob 0)%R i obs' p' | _, _ => 0%R end.
(** The same product in another arithmetic, divided in every frame by a given number. *)
Section Scaled.
  Context {D : Type} (zero : D) (mul div : D -> D -> D).
  Fixpoint scaled_from (trans : list (list D)) (w : D) (i : nat) (obs : list (list D)) (sums : list D) (p : list nat) : D :=
    match obs, sums, p with
    | ob :: obs', s :: sums', j :: p' => scaled_from trans (div (mul (mul w (nth j (nth i trans []) zero)) (nth j ob zero)) s) j obs' sums' p'
    | _, _, _ => w
    end.
  Definition scaled_weight (init : list D) (trans : list (list D)) (obs : list (list D)) (sums : list D) (p : list nat) : D :=
    match obs, sums, p with ob :: obs', s :: sums', i :: p' => scaled_from trans (div (mul (nth i init zero) (nth i ob zero)) s) i obs' sums' p' | _, _, _ => zero end.
End Scaled.
