(** Specification for C80: calls in which a memory allocation may fail. *)
From Coq Require Import List NArith Arith Bool.
From Verif Require Import Base Bytes SpecXmss SpecApi.
Import ListNotations.
Open Scope nat_scope.

(** A call together with the number of its allocation that throws std::bad_alloc
    ([None], or a number the call does not reach: none does). *)
Inductive acall : Type :=
  | MSign (m : list N) (fail : option nat)
  | MSetIndex (i : N)
  | MInit (junk : list N) (fail : option nat).
Inductive aobs : Type := AObs (o : obs) | ABadAlloc | ADone.

(** The object is a signer at an index, or an interrupted initialize_tree has wiped its
    secret key. *)
Inductive astate : Type := Signer (i : N) | Wiped.

Definition fails_at (fail : option nat) (k : nat) : bool := match fail with Some j => j =? k | None => false end.
Definition fails_below (fail : option nat) (k : nat) : bool := match fail with Some j => j <? k | None => false end.

Definition spec_step (h : nat) (sg : nat -> list N -> list N) (s : astate) (c : acall) : option (astate * aobs) :=
  match c, s with
  | MSign m fail, Signer i =>
      if fails_at fail 0 then Some (s, ABadAlloc)
      else if (2 ^ N.of_nat h <=? i)%N then Some (s, AObs (ObsExn InvalidArgument))
      else if fails_at fail 1 && negb (length m =? 0) then Some (s, ABadAlloc)
      else Some (Signer (i + 1), AObs (ObsSig (sg (N.to_nat i) m)))
  | MSetIndex j, Signer i => let '(i', o) := ref_step h sg i (OpSetIndex j) in Some (Signer i', AObs o)
  | MInit _ fail, _ =>
      if fails_at fail 0 then Some (s, ABadAlloc)
      else if fails_below fail 9 then Some (Wiped, ABadAlloc)
      else Some (Signer 0, ADone)
  | _, Wiped => None
  end.
Fixpoint spec_run (h : nat) (sg : nat -> list N -> list N) (s : astate) (l : list acall) : option (astate * list aobs) :=
  match l with
  | [] => Some (s, [])
  | c :: r =>
      match spec_step h sg s c with
      | None => None
      | Some (s, o) => match spec_run h sg s r with None => None | Some (s, os) => Some (s, o :: os) end
      end
  end.
