(** Specification for C101: one key used in turn by the C++ library and by the Rust
    port, as if by a single signer. *)
From Coq Require Import List NArith Arith Bool.
From Verif Require Import Base SpecApi.
Import ListNotations.
Open Scope nat_scope.

Inductive side : Type := Cpp | Rust.
(** What the owner observes of one call, on either side. *)
Inductive mobs : Type := MSig (sig : list N) | MIdx (i : N) | MRefused.
Definition of_obs (o : obs) : mobs := match o with ObsSig s => MSig s | ObsIdx i => MIdx i | ObsExn _ => MRefused end.

(** Every call goes to the one machine of SpecApi.v; only what is signed depends on the
    side. *)
Fixpoint one_signer (h : nat) (sig : side -> nat -> list N -> list N) (i : N) (cs : list (side * op)) : N * list mobs :=
  match cs with
  | [] => (i, [])
  | (s, c) :: rest =>
      let '(i1, x) := ref_step h (sig s) i c in
      let '(i2, xs) := one_signer h sig i1 rest in (i2, of_obs x :: xs)
  end.
