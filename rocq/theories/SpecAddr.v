(** Specification for C105: RFC 8391 section 2.5, the layout of a hash address, and what a
    sequence of field assignments leaves in it. *)
From Coq Require Import List NArith Arith Bool.
Import ListNotations.
Open Scope N_scope.

(** Assignments to the fields.  The tree address has 64 bits, all others 32. *)
Inductive setter : Set :=
| SetLayer (v : N) | SetTree (v : N) | SetType (v : N) | SetKeyAndMask (v : N)
| SetOTS (v : N) | SetChain (v : N) | SetHash (v : N)
| SetLtree (v : N) | SetTreeHeight (v : N) | SetTreeIndex (v : N).
Definition setter_ok (s : setter) : Prop :=
  match s with
  | SetTree v => v < 2 ^ 64
  | SetLayer v | SetType v | SetKeyAndMask v | SetOTS v | SetChain v | SetHash v | SetLtree v | SetTreeHeight v | SetTreeIndex v => v < 2 ^ 32
  end.

(** What an assignment writes to word [k] of the eight words of the address, if anything.
    Words: 0 layer; 1 and 2 tree; 3 type; 4 OTS or L-tree address; 5 chain address or tree
    height; 6 hash address or tree index; 7 keyAndMask.  "Whenever the type word of an address
    is changed, all following words should be initialized with 0." *)
Definition written (s : setter) (k : nat) : option N :=
  match s, k with
  | SetLayer v, 0%nat => Some v
  | SetTree v, 1%nat => Some (v / 2 ^ 32)
  | SetTree v, 2%nat => Some (v mod 2 ^ 32)
  | SetType v, 3%nat => Some v
  | SetType _, (4 | 5 | 6 | 7)%nat => Some 0
  | (SetOTS v | SetLtree v), 4%nat => Some v
  | (SetChain v | SetTreeHeight v), 5%nat => Some v
  | (SetHash v | SetTreeIndex v), 6%nat => Some v
  | SetKeyAndMask v, 7%nat => Some v
  | _, _ => None
  end.
(** Word [k] after the assignments [l], in order: the last value written, else [init]. *)
Fixpoint word_after (k : nat) (init : N) (l : list setter) : N :=
  match l with
  | [] => init
  | s :: r => word_after k (match written s k with Some v => v | None => init end) r
  end.
Definition is_set_tree (s : setter) : bool := match s with SetTree _ => true | _ => false end.
