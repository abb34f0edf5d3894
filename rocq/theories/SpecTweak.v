(** Specification for C89: what is hashed at each place of a key's tree.  The places and
    their addresses are those of SpecDomain.v. *)
From Coq Require Import List NArith Arith Bool.
From Verif Require Import Bytes HashAddress SpecXmss SpecApi SpecDomain.
Import ListNotations.
Open Scope nat_scope.

(** A call made: hash_f or hash_h (hash.c:113-160) with the 32 bytes of the address
    (keyAndMask word 0) and the data hashed, or a plain call of prf or h_msg (hash.c:90-108)
    with its key and input. *)
Inductive hcall : Set :=
| EvF (ad inp : list N) | EvH (ad inp : list N) | EvPrf (key inp : list N) | EvMsg (key inp : list N).

Section Content.
  Variables (hf : hashfn) (w len : nat) (sk_seed pub_seed : list N).

  (** Row [j] of the L-tree of one-time key [o]; row 0 is the one-time public key. *)
  Fixpoint l_row (o j : nat) : list (list N) :=
    match j with
    | O => ots_pk hf w len sk_seed pub_seed o
    | S j' => l_level hf pub_seed o j' 0 (l_row o j')
    end.

  (** The value hashed at a place: the chain value reached so far, or the two children. *)
  Definition content (p : place) : list N :=
    match p with
    | Step o c i => chain hf pub_seed o c 0 i (chain_start hf sk_seed o c)
    | LNode o j i => nth (2 * i) (l_row o j) [] ++ nth (2 * i + 1) (l_row o j) []
    | TNode j i => node hf w len sk_seed pub_seed j (2 * i) ++ node hf w len sk_seed pub_seed j (2 * i + 1)
    end.
End Content.

(** The tweakable calls of a log, and the address of one. *)
Definition tweaks (log : list hcall) : list hcall :=
  filter (fun e => match e with EvF _ _ | EvH _ _ => true | _ => false end) log.
Definition call_adr (e : hcall) : list N :=
  match e with EvF a _ | EvH a _ | EvPrf _ a | EvMsg _ a => a end.

(** The places of the tree of a key with Winternitz parameters [wp] and height [h], and the
    call that belongs to a place: the one-block hash F for a chain step, the two-block
    hash H for a node. *)
Definition key_places (wp : nat * nat * nat) (h : nat) : list place :=
  tree_places (2 ^ fst (fst wp)) (snd (fst wp) + snd wp) h.
Definition key_call (hf : hashfn) (wp : nat * nat * nat) (seed : list N) (p : place) : hcall :=
  let inp := content hf (2 ^ fst (fst wp)) (snd (fst wp) + snd wp) (key_seed seed) (key_pub seed) p in
  match p with
  | Step _ _ _ => EvF (place_adr p 0) inp
  | _ => EvH (place_adr p 0) inp
  end.
