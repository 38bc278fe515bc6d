(** Independent vocabulary for the keys in kern files. *)
From Coq Require Import String Ascii List.
From Verif Require Import TextSpec.
Import ListNotations.

(** A token with a key: the text between the first asterisk and the colon at the end. *)
Definition key_token (s k : string) : Prop := exists p, lacks "*" p /\ s = (p ++ "*" ++ k ++ ":")%string.
(** The keys of the first fields, from top to bottom. *)
Inductive keys_in : list (list string) -> list string -> Prop :=
| keys_none : keys_in [] []
| keys_here s r rows k ks : key_token s k -> keys_in rows ks -> keys_in ((s :: r) :: rows) (k :: ks)
| keys_later s r rows ks : (forall k, ~ key_token s k) -> keys_in rows ks -> keys_in ((s :: r) :: rows) ks.
(** A name and its name with another ending, when the ending has four characters. *)
Definition with_key (f g : string) : Prop := exists stem ending, f = (stem ++ ending)%string /\ String.length ending = 4 /\ g = (stem ++ ".key")%string.
