(** Vocabulary for C34: the four kinds of keyed hash call, the places at which
    tree hashing happens, and the addresses the construction assigns to them. *)
From Coq Require Import List NArith Arith Bool.
From Verif Require Import Bytes SpecXmss.
Import ListNotations.
Open Scope nat_scope.

(** A hash call with its key and input. *)
Inductive call : Set :=
| CallF (key x : list N)       (* chaining step: 32-byte key, 32-byte input *)
| CallH (key x : list N)       (* tree hash: 32-byte key, 64-byte input *)
| CallMsg (key x : list N)     (* message hash: 96-byte key, any input *)
| CallPRF (key x : list N).    (* pseudorandom function: 32-byte key, 32-byte input *)
Definition call_ok (c : call) : Prop :=
  match c with
  | CallF k x => length k = 32 /\ length x = 32
  | CallH k x => length k = 32 /\ length x = 64
  | CallMsg k x => length k = 96
  | CallPRF k x => length k = 32 /\ length x = 32
  end.

(** Where a keyed, masked hash happens: step [i] of chain [c] of one-time key
    [o]; node [i] at height [j] of the L-tree of one-time key [o]; node [i] of
    the hash tree computed from height [j]. *)
Inductive place : Set := Step (o c i : nat) | LNode (o j i : nat) | TNode (j i : nat).
Definition place_ok (p : place) : Prop :=
  match p with
  | Step a b c | LNode a b c => (N.of_nat a < 2 ^ 32 /\ N.of_nat b < 2 ^ 32 /\ N.of_nat c < 2 ^ 32)%N
  | TNode a b => (N.of_nat a < 2 ^ 32 /\ N.of_nat b < 2 ^ 32)%N
  end.

(** The 32 bytes fed to the PRF at a place; [m] = 0 the key, 1 and 2 the masks. *)
Definition place_adr (p : place) (m : N) : list N :=
  match p with
  | Step o c i => adr 0 (N.of_nat o) (N.of_nat c) (N.of_nat i) m
  | LNode o j i => adr 1 (N.of_nat o) (N.of_nat j) (N.of_nat i) m
  | TNode j i => adr 2 0 (N.of_nat j) (N.of_nat i) m
  end.

(** All places visited when the root of a tree of height [h] is computed, with
    chains of length [w] and [len] chains per one-time key: [len] chains of w - 1
    steps, the inner nodes of the L-tree (rows of len/2, then half of the rounded
    up rest, ...) and the inner nodes of the tree. *)
Fixpoint lplaces (fuel o j n : nat) {struct fuel} : list place :=
  if n <=? 1 then [] else
  match fuel with
  | O => []
  | S f => map (LNode o j) (seq 0 (n / 2)) ++ lplaces f o (S j) ((n + 1) / 2)
  end.
Definition leaf_places (w len o : nat) : list place :=
  flat_map (fun c => map (Step o c) (seq 0 (w - 1))) (seq 0 len) ++ lplaces len o 0 len.
Definition tree_places (w len h : nat) : list place :=
  flat_map (leaf_places w len) (seq 0 (2 ^ h)) ++
  flat_map (fun j => map (TNode j) (seq 0 (2 ^ (h - 1 - j)))) (seq 0 h).
