(** Specification of the signature objects at API level: what a user of XmssBasic
    and XmssFast should observe, in terms of SpecXmss.v only. *)
From Coq Require Import List NArith Arith Bool.
From Verif Require Import Base Bytes Keccak HashAddress SpecXmss.
Import ListNotations.
Open Scope nat_scope.

(** Winternitz parameters (log2 w, message digits, checksum digits), RFC 8391
    section 3.1.1 for n = 32. *)
Definition winternitz (w : N) : option (nat * nat * nat) :=
  if (w =? 2)%N then Some (1, 256, 9)
  else if (w =? 4)%N then Some (2, 128, 5)
  else if (w =? 16)%N then Some (4, 64, 3)
  else if (w =? 256)%N then Some (8, 32, 2)
  else None.

(** Secret seed, PRF key and public seed derived from the 48-byte seed. *)
Definition key_stream (seed : list N) : list N := shake256 96 seed.
Definition key_seed (seed : list N) : list N := firstn 32 (key_stream seed).
Definition key_prf (seed : list N) : list N := firstn 32 (skipn 32 (key_stream seed)).
Definition key_pub (seed : list N) : list N := firstn 32 (skipn 64 (key_stream seed)).

Section Key.
  Variables (hf : hashfn) (wp : nat * nat * nat) (h : nat) (seed : list N).
  Local Notation lw := (fst (fst wp)).
  Local Notation l1 := (snd (fst wp)).
  Local Notation l2 := (snd wp).

  Definition ref_root : list N := node hf (2 ^ lw) (l1 + l2) (key_seed seed) (key_pub seed) h 0.

  (** The signature of [msg] with one-time key [idx]: a pure function of the key
      and these two. *)
  Definition ref_sig (idx : nat) (msg : list N) : list N :=
    signature hf (2 ^ lw) (l1 + l2) h (msg_digits lw l1 l2)
      (key_seed seed) (key_prf seed) (key_pub seed) ref_root idx msg.

  (** Secret key with index [i]. *)
  Definition ref_sk (i : N) : list N :=
    to_byte 4 i ++ key_seed seed ++ key_prf seed ++ key_pub seed ++ ref_root.
End Key.

(** ** Histories of sign / setIndex calls *)
Inductive op : Type := OpSign (msg : list N) | OpSetIndex (i : N).

(** What the caller observes of one call. *)
Inductive obs : Type := ObsSig (sig : list N) | ObsIdx (i : N) | ObsExn (e : exn).

(** Reference behaviour: the state is the index of the next one-time key. *)
Definition ref_step (h : nat) (sig : nat -> list N -> list N) (i : N) (c : op) : N * obs :=
  match c with
  | OpSign m =>
      if (i <? 2 ^ N.of_nat h)%N then ((i + 1)%N, ObsSig (sig (N.to_nat i) m)) else (i, ObsExn InvalidArgument)
  | OpSetIndex j =>
      if ((j <? 2 ^ N.of_nat h) && (i <=? j))%N then (j, ObsIdx j) else (i, ObsExn InvalidArgument)
  end.
Fixpoint ref_run (h : nat) (sig : nat -> list N -> list N) (i : N) (cs : list op) : N * list obs :=
  match cs with
  | [] => (i, [])
  | c :: rest =>
      let '(i1, x) := ref_step h sig i c in
      let '(i2, xs) := ref_run h sig i1 rest in (i2, x :: xs)
  end.

(** ** Verification *)

(** Cells of a byte string: [k] consecutive pieces of 32 bytes. *)
Fixpoint cells (k : nat) (l : list N) : list (list N) :=
  match k with O => [] | S k' => firstn 32 l :: cells k' (skipn 32 l) end.

(** Reference verifier.  [pk] = descriptor (3 bytes) || root || pub_seed. *)
Definition ref_verify (hf : hashfn) (wp : nat * nat * nat) (msg sig pk : list N) : bool :=
  let '(lw, l1, l2) := wp in
  let h := (2 * N.to_nat (nth 1 pk 0 mod 16)%N)%nat in
  let root := firstn 32 (skipn 3 pk) in
  let ps := firstn 32 (skipn 35 pk) in
  let idx := N.to_nat (from_be (firstn 4 sig)) in
  (length pk =? 67) && (4 <=? h) && (length sig =? 36 + 32 * (l1 + l2) + 32 * h) &&
  (if list_eq_dec N.eq_dec
        (recovered_root hf (2 ^ lw) (msg_digits lw l1 l2) ps root idx (firstn 32 (skipn 4 sig)) msg
           (cells (l1 + l2) (skipn 36 sig)) (cells h (skipn (36 + 32 * (l1 + l2)) sig))) root
   then true else false).

(** Supported key parameters: hash id 0..2, w in {2,4,16,256}, even height 4..30,
    48-byte seed. *)
Definition supported (hash : N) (hf : hashfn) (w : N) (wp : nat * nat * nat) (height : nat) (seed : list N) : Prop :=
  hash_of_id hash = Some hf /\ winternitz w = Some wp /\
  4 <= height <= 30 /\ Nat.even height = true /\ length seed = 48.

(** Index a signature claims to use: its first four bytes, big endian. *)
Definition sig_index (sig : list N) : N := from_be (firstn 4 sig).

Definition is_sig (x : obs) : bool := match x with ObsSig _ => true | _ => false end.

(** ** The hash tree, level by level *)

(** Hash neighbours [(0,1), (2,3), ...] of the nodes at height [j]. *)
Fixpoint tree_level (hf : hashfn) (ps : list N) (j i : nat) (l : list (list N)) {struct l} : list (list N) :=
  match l with
  | a :: b :: t => rand_hash hf ps 2 0 j i a b :: tree_level hf ps j (S i) t
  | _ => []
  end.
(** The single node left after [h] levels, starting at height [j]. *)
Fixpoint tree_levels (hf : hashfn) (ps : list N) (h j : nat) (l : list (list N)) {struct h} : list (list N) :=
  match h with O => l | S h' => tree_levels hf ps h' (S j) (tree_level hf ps j 0 l) end.
(** All leaves, in order: L-tree roots of the 2^h one-time public keys. *)
Definition all_leaves (hf : hashfn) (wp : nat * nat * nat) (h : nat) (seed : list N) : list (list N) :=
  map (leaf hf (2 ^ fst (fst wp)) (snd (fst wp) + snd wp) (key_seed seed) (key_pub seed)) (seq 0 (2 ^ h)).
