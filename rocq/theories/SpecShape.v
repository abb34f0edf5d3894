(** Specification for C92: what an observer of the hash calls sees who learns which function
    is called, at which address or on which public counter, and how long the inputs are, but
    no secret bytes. *)
From Coq Require Import List NArith.
From Verif Require Import SpecApi SpecTweak.
Import ListNotations.

Definition shape (e : hcall) : nat * list N * nat * nat :=
  match e with
  | EvF a x => (0, a, length x, 0)
  | EvH a x => (1, a, length x, 0)
  | EvPrf k a => (2, a, length k, length a)
  | EvMsg k m => (3, [], length k, length m)
  end.

(** The same kind of call: a signature of a message of the same length, or setIndex with the
    same index. *)
Definition op_like (a a' : op) : Prop :=
  match a, a' with OpSign m, OpSign m' => length m = length m' | OpSetIndex j, OpSetIndex j' => j = j' | _, _ => False end.
