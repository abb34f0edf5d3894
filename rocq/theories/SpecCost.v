(** Specification for C82: how many hash evaluations the operations take. *)
From Coq Require Import List NArith Arith Bool.
Import ListNotations.
Open Scope N_scope.

Definition digit_sum (ds : list N) : N := fold_right N.add 0 ds.

(** A leaf of the tree: one evaluation for the seed of the one-time key, one for each of
    the [len] chain starts, three for each of the [w - 1] steps of each chain, and four
    for each of the [len - 1] nodes of the compression tree. *)
Definition leaf_calls (w len : N) : N := 1 + len + 3 * len * (w - 1) + 4 * (len - 1).

(** The one-time signature with the given chain positions: randomizer, message digest,
    seed of the one-time key, chain starts, and three per chain step. *)
Definition ots_sign_calls (len : N) (ds : list N) : N := 3 + len + 3 * digit_sum ds.

(** What one signature may spend on preparing the next authentication path: one leaf, and
    (h - 2) / 2 leaves with at most [h + 1] nodes above each. *)
Definition traversal_calls (w len h : N) : N := leaf_calls w len + (h - 2) / 2 * (leaf_calls w len + 4 * (h + 1)).

(** Verification: the message digest, three per remaining chain step, the compression
    tree, and four per level of the tree. *)
Definition verify_calls (w len h : N) (ds : list N) : N := 1 + 3 * (len * (w - 1) - digit_sum ds) + 4 * (len - 1) + 4 * h.

(** All nodes of a tree of height [h]. *)
Definition tree_calls (w len h : N) : N := 2 ^ h * leaf_calls w len + 4 * (2 ^ h - 1).
