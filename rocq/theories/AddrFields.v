(** Model of the two address setters the single-tree library declares but never calls, in C
    and in the port, and of sequences of setter calls. *)
From Coq Require Import List NArith Arith Bool.
From Verif Require Import Base Bytes HashAddress RsBase RsHash SpecAddr.
Import ListNotations.
Open Scope N_scope.

(** hash_address.c:15-17: [adrs[0] = layer], a uint32_t. *)
Definition setLayerADRS (a : adrs) (v : N) : adrs :=
  mkAdrs (u32 v) (a1 a) (a2 a) (a3 a) (a4 a) (a5 a) (a6 a) (a7 a).
(** hash_address.c:19-22: [tree] is a uint64_t, written as two words, high one first. *)
Definition setTreeADRS (a : adrs) (v : N) : adrs :=
  mkAdrs (a0 a) (u32 (N.shiftr v 32)) (u32 v) (a3 a) (a4 a) (a5 a) (a6 a) (a7 a).
(** hash_address.rs:1-3 *)
Definition rs_set_layer_adrs (a : adrs) (v : N) : adrs :=
  mkAdrs (u32 v) (a1 a) (a2 a) (a3 a) (a4 a) (a5 a) (a6 a) (a7 a).
(** hash_address.rs:5-8 *)
Definition rs_set_tree_adrs (a : adrs) (v : N) : adrs :=
  mkAdrs (a0 a) (u32 (N.shiftr v 32)) (u32 v) (a3 a) (a4 a) (a5 a) (a6 a) (a7 a).

(** One setter call: hash_address.c:15-64. *)
Definition set_field (a : adrs) (s : setter) : adrs :=
  match s with
  | SetLayer v => setLayerADRS a v
  | SetTree v => setTreeADRS a v
  | SetType v => setType a v
  | SetKeyAndMask v => setKeyAndMask a v
  | SetOTS v => setOTSADRS a v
  | SetChain v => setChainADRS a v
  | SetHash v => setHashADRS a v
  | SetLtree v => setLtreeADRS a v
  | SetTreeHeight v => setTreeHeight a v
  | SetTreeIndex v => setTreeIndex a v
  end.
(** The same in the port: hash_address.rs:1-49. *)
Definition rs_set_field (a : adrs) (s : setter) : adrs :=
  match s with
  | SetLayer v => rs_set_layer_adrs a v
  | SetTree v => rs_set_tree_adrs a v
  | SetType v => rs_set_type a v
  | SetKeyAndMask v => rs_set_key_and_mask a v
  | SetOTS v => rs_set_ots_adrs a v
  | SetChain v => rs_set_chain_adrs a v
  | SetHash v => rs_set_hash_adrs a v
  | SetLtree v => rs_set_ltree_adrs a v
  | SetTreeHeight v => rs_set_tree_height a v
  | SetTreeIndex v => rs_set_tree_index a v
  end.
