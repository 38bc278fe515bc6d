(** The states a call of nnls() (nnls-chroma-1.1/nnls.c:201-562) goes through, for statements about every state of an execution. *)
From Coq Require Import ZArith List.
From Verif Require Import Base Nnls.
Open Scope Z_scope.

Inductive visited {A : arith} (mda m n : Z) (a b x w zz : array (num A)) (index : array Z) : label -> st A -> Prop :=
| first_state x' idx : initial n x index = Ret (x', idx) -> visited mda m n a b x w zz index L30 (mkSt a b x' w zz idx 0 0 1 1 None 1)
| next_state l s l' s' : visited mda m n a b x w zz index l s -> step mda m n l s = Ret (l', s') -> visited mda m n a b x w zz index l' s'.
