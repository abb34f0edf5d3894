(** Specification of XmssBasic histories: an index that can be set at will. *)
From Coq Require Import List NArith Arith Bool.
From Verif Require Import Base Bytes SpecApi.
Import ListNotations.
Open Scope nat_scope.

(** Reference: the state is the index; every 32-bit index can be set; signing is
    defined for the indices of the tree and heights up to 24, [None] otherwise. *)
Definition basic_ref_step (h : nat) (sig : nat -> list N -> list N) (i : N) (c : op) : option (N * obs) :=
  match c with
  | OpSign m =>
      if ((i <? 2 ^ N.of_nat h)%N && (h <=? 24)) then Some ((i + 1)%N, ObsSig (sig (N.to_nat i) m)) else None
  | OpSetIndex j => Some (j, ObsIdx j)
  end.
Fixpoint basic_ref_run (h : nat) (sig : nat -> list N -> list N) (i : N) (cs : list op) : option (N * list obs) :=
  match cs with
  | [] => Some (i, [])
  | c :: rest =>
      match basic_ref_step h sig i c with
      | None => None
      | Some (i1, x) =>
          match basic_ref_run h sig i1 rest with None => None | Some (i2, xs) => Some (i2, x :: xs) end
      end
  end.
Definition u32_op (c : op) : Prop := match c with OpSetIndex j => (j < 2 ^ 32)%N | OpSign _ => True end.

(** An observation that is not an exception. *)
Definition no_exn (x : obs) : Prop := match x with ObsExn _ => False | _ => True end.
