(** Model of the Rust port's src/rust_wrapper/xmss_alt/algsxmss.rs (n = 32). *)
From Coq Require Import List NArith Arith Lia Bool.
From Verif Require Import Bytes HashAddress Wots XmssCommon RsBase RsKeccak RsHash RsWots.
Import ListNotations.
Open Scope nat_scope.

(** algsxmss.rs:17-33 (the same text in algsxmss_fast.rs:38-57) *)
Definition rs_get_seed (hf : hashfn) (seed sk_seed : list N) (addr : adrs) : rs (list N * adrs) :=
  let addr := rs_set_chain_adrs addr 0 in
  let addr := rs_set_hash_adrs addr 0 in
  let addr := rs_set_key_and_mask addr 0 in
  bytes <~ rs_addr_to_byte (repeat 0%N 32) addr ;;
  seed <~ rs_prf hf seed bytes sk_seed ;;
  ROk (seed, addr).

(** algsxmss.rs:39-69 (the same text in algsxmss_fast.rs:62-92): leaf buffer and the
    two addresses. *)
Definition rs_gen_leaf_wots (hf : hashfn) (leaf sk_seed : list N) (p : xmss_params) (pub_seed : list N)
    (ltree_addr ots_addr : adrs) : rs (list N * adrs * adrs) :=
  '(seed, ots_addr) <~ rs_get_seed hf (repeat 0%N 32) sk_seed ots_addr ;;
  '(pk, ots_addr) <~ rs_wots_pkgen hf (repeat 0%N (w_keysize (x_wots p))) seed (x_wots p) pub_seed ots_addr ;;
  '(leaf, ltree_addr) <~ rs_l_tree hf (x_wots p) leaf pk pub_seed ltree_addr ;;
  ROk (leaf, ltree_addr, ots_addr).

(** [gen_leaf_wots(.., &mut buf[a..], ..)];  algsxmss.rs:76-153, 160-238. *)
Definition rs_leaf_at (hf : hashfn) (a : nat) (buf sk_seed : list N) (p : xmss_params) (pub_seed : list N)
    (ltree_addr ots_addr : adrs) : rs (list N * adrs * adrs) :=
  s <~ rslice a (length buf) buf ;;
  '(s, ltree_addr, ots_addr) <~ rs_gen_leaf_wots hf s sk_seed p pub_seed ltree_addr ots_addr ;;
  ROk (firstn a buf ++ s, ltree_addr, ots_addr).

(** algsxmss.rs:88-96 etc.: [dst[0..3].copy_from_slice(&addr[0..3]); set_type(dst, t)]
    on a zeroed [dst]. *)
Definition rs_sub_addr (addr : adrs) (t : N) : adrs :=
  rs_set_type (mkAdrs (a0 addr) (a1 addr) (a2 addr) 0 0 0 0 0) t.

(** algsxmss.rs:122-148: the inner while loop of treehash; [stackoffset] falls in
    every iteration. *)
Fixpoint rs_treehash_while (hf : hashfn) (fuel : nat) (idx : nat) (pub_seed : list N)
    (stack : list N) (levels : list nat) (off : nat) (node_addr : adrs) {struct fuel}
  : rs (list N * list nat * nat * adrs) :=
  if off <=? 1 then ROk (stack, levels, off, node_addr) else
  l1 <~ rget levels (off - 1) ;;
  l2 <~ rget levels (off - 2) ;;
  if negb (l1 =? l2) then ROk (stack, levels, off, node_addr) else
  match fuel with
  | O => RPanic
  | S f =>
      let node_addr := rs_set_tree_height node_addr (N.of_nat l1) in
      let node_addr := rs_set_tree_index node_addr (N.of_nat (idx / 2 ^ (l1 + 1))) in
      input <~ rslice ((off - 2) * 32) (length stack) stack ;;
      '(stack, node_addr) <~ rwith_adr ((off - 2) * 32) stack (fun o => rs_hash_h hf o input pub_seed node_addr) ;;
      levels <~ rset levels (off - 2) (l2 + 1) ;;
      rs_treehash_while hf f idx pub_seed stack levels (off - 1) node_addr
  end.

(** algsxmss.rs:76-153 treehash at its only call (index 0, height = h): [1 << height]
    panics from 32 on.  Writes the first 32 bytes of [node]. *)
Definition rs_treehash (hf : hashfn) (node : list N) (h : nat) (sk_seed : list N) (p : xmss_params)
    (pub_seed : list N) (addr : adrs) : rs (list N) :=
  let ots_addr := rs_sub_addr addr 0 in
  let ltree_addr := rs_sub_addr addr 1 in
  let node_addr := rs_sub_addr addr 2 in
  let stack := repeat 0%N ((h + 1) * 32) in
  let levels := repeat 0 (h + 1) in
  if 32 <=? h then RPanic else
  '(stack, _, _, _, _, _) <~
    rfor (2 ^ h) (fun idx '(stack, levels, off, ots_addr, ltree_addr, node_addr) =>
      let ltree_addr := rs_set_ltree_adrs ltree_addr (N.of_nat idx) in
      let ots_addr := rs_set_ots_adrs ots_addr (N.of_nat idx) in
      '(stack, ltree_addr, ots_addr) <~ rs_leaf_at hf (off * 32) stack sk_seed p pub_seed ltree_addr ots_addr ;;
      levels <~ rset levels off 0 ;;
      let off := S off in
      '(stack, levels, off, node_addr) <~ rs_treehash_while hf off idx pub_seed stack levels off node_addr ;;
      ROk (stack, levels, off, ots_addr, ltree_addr, node_addr))
      (stack, levels, 0, ots_addr, ltree_addr, node_addr) ;;
  rcopy_loop 32 stack 0 node 0.

(** algsxmss.rs:160-238 compute_authpath_wots: root and authpath buffers.
    [2 * (1 << h) * n] is u32 arithmetic and overflows from h = 26 on; the same
    goes for the index of the copied node. *)
Definition rs_compute_authpath (hf : hashfn) (root authpath : list N) (leaf_idx : N) (sk_seed : list N)
    (p : xmss_params) (pub_seed : list N) (addr : adrs) : rs (list N * list N) :=
  let h := x_h p in
  if 26 <=? h then RPanic else
  let tree := repeat 0%N (2 * 2 ^ h * 32) in
  let ots_addr := rs_sub_addr addr 0 in
  let ltree_addr := rs_sub_addr addr 1 in
  let node_addr := rs_sub_addr addr 2 in
  (* lines 190-200 *)
  '(tree, _, _) <~
    rfor (2 ^ h) (fun i '(tree, ots_addr, ltree_addr) =>
      let ltree_addr := rs_set_ltree_adrs ltree_addr (N.of_nat i) in
      let ots_addr := rs_set_ots_adrs ots_addr (N.of_nat i) in
      '(tree, ltree_addr, ots_addr) <~ rs_leaf_at hf (2 ^ h * 32 + i * 32) tree sk_seed p pub_seed ltree_addr ots_addr ;;
      ROk (tree, ots_addr, ltree_addr)) (tree, ots_addr, ltree_addr) ;;
  (* lines 202-221: i = 2^(h - level), j = 2 * j2 *)
  '(tree, _) <~
    rfor h (fun level '(tree, node_addr) =>
      let i := 2 ^ (h - level) in
      let node_addr := rs_set_tree_height node_addr (N.of_nat level) in
      rfor (i / 2) (fun j2 '(tree, node_addr) =>
        let j := 2 * j2 in
        let node_addr := rs_set_tree_index node_addr (N.of_nat (j / 2)) in
        input <~ rslice (i * 32 + j * 32) (length tree) tree ;;
        rwith_adr (i / 2 * 32 + j / 2 * 32) tree (fun o => rs_hash_h hf o input pub_seed node_addr))
        (tree, node_addr)) (tree, node_addr) ;;
  (* lines 223-232 *)
  authpath <~
    rfor h (fun i authpath =>
      let c := u32 (N.lxor (N.shiftr leaf_idx (N.of_nat i)) 1) in
      let src_start := (N.of_nat (2 ^ h / 2 ^ i) * 32 + c * 32)%N in
      if (2 ^ 32 <=? src_start)%N then RPanic else
      src <~ rslice (N.to_nat src_start) (N.to_nat src_start + 32) tree ;;
      rwith (i * 32) (i * 32 + 32) authpath (fun d => rcopy src d)) authpath ;;
  (* lines 234-235 *)
  src <~ rslice 32 64 tree ;;
  root <~ rcopy src root ;;
  ROk (root, authpath).

(** algsxmss.rs:240-290 xmss_gen_keypair: (pk, sk).  shake256 is told to read 48
    bytes of the seed. *)
Definition rs_gen_keypair (hf : hashfn) (p : xmss_params) (pk sk seed : list N) : rs (list N * list N) :=
  sk <~ rset sk 0 0%N ;; sk <~ rset sk 1 0%N ;; sk <~ rset sk 2 0%N ;; sk <~ rset sk 3 0%N ;;
  randombits <~ rs_fips_shake256 (repeat 0%N 96) 96 seed 48 ;;
  src <~ rslice 0 96 randombits ;;
  sk <~ rwith 4 100 sk (fun d => rcopy src d) ;;
  src <~ rslice 68 100 sk ;;
  pk <~ rwith 32 64 pk (fun d => rcopy src d) ;;
  sk_seed <~ rslice 4 (length sk) sk ;;
  pub_seed <~ rslice 68 (length sk) sk ;;
  pk <~ rs_treehash hf pk (x_h p) sk_seed p pub_seed zero_adrs ;;
  src <~ rslice 0 32 pk ;;
  sk <~ rwith 100 132 sk (fun d => rcopy src d) ;;
  ROk (pk, sk).

(** Stores [v] in the first four bytes, most significant first ([as u8 & 255]).  algsxmss.rs:295-298, 337-340, 384-387. *)
Definition rs_store_be32 (l : list N) (v : N) : rs (list N) :=
  l <~ rset l 0 (u8 (N.shiftr v 24)) ;; l <~ rset l 1 (u8 (N.shiftr v 16)) ;;
  l <~ rset l 2 (u8 (N.shiftr v 8)) ;; rset l 3 (u8 v).

(** algsxmss.rs:292-310 xmss_update_sk (no caller in the port): status and key. *)
Definition rs_update_sk (sk : list N) (k : N) : rs (bool * list N) :=
  idxkey <~ rs_be32 sk ;;
  if (k <=? idxkey)%N then ROk (false, sk) else sk <~ rs_store_be32 sk k ;; ROk (true, sk).

(** The common front part of algsxmss.rs:320-394 and algsxmss_fast.rs:822-893: reads
    the key, advances its index, hashes the message and starts the signature.
    Result: (idx, sk_seed, pub_seed, sk', msg_h, sig_msg up to R). *)
Definition rs_sign_front (hf : hashfn) (sk sig_msg msg : list N)
  : rs (N * list N * list N * list N * list N * list N) :=
  idx <~ rs_be32 sk ;;
  src <~ rslice 4 36 sk ;; sk_seed <~ rcopy src (repeat 0%N 32) ;;
  src <~ rslice 36 68 sk ;; sk_prf <~ rcopy src (repeat 0%N 32) ;;
  src <~ rslice 68 100 sk ;; pub_seed <~ rcopy src (repeat 0%N 32) ;;
  idx_bytes_32 <~ rs_to_byte (repeat 0%N 32) idx 32 ;;
  let hash_key := repeat 0%N 96 in
  if (2 ^ 32 <=? idx + 1)%N then RPanic else
  sk <~ rs_store_be32 sk (idx + 1) ;;
  R <~ rs_prf hf (repeat 0%N 32) idx_bytes_32 sk_prf ;;
  hash_key <~ rwith 0 32 hash_key (fun d => rcopy R d) ;;
  src <~ rslice 100 132 sk ;;
  hash_key <~ rwith 32 64 hash_key (fun d => rcopy src d) ;;
  hash_key <~ rwith 64 (length hash_key) hash_key (fun d => rs_to_byte d idx 32) ;;
  msg_h <~ rs_h_msg hf (repeat 0%N 32) msg (length msg) hash_key ;;
  sig_msg <~ rs_store_be32 sig_msg idx ;;
  sig_msg <~ rwith 4 (length sig_msg) sig_msg (fun s => rcopy_loop 32 R 0 s 0) ;;
  ROk (idx, sk_seed, pub_seed, sk, msg_h, sig_msg).

(** algsxmss.rs:312-451 xmss_sign_msg: (sk, signature buffer). *)
Definition rs_sign_msg (hf : hashfn) (p : xmss_params) (sk sig_msg msg : list N) : rs (list N * list N) :=
  '(idx, sk_seed, pub_seed, sk, msg_h, sig_msg) <~ rs_sign_front hf sk sig_msg msg ;;
  let ots_addr := rs_set_type zero_adrs 0 in
  let ots_addr := rs_set_ots_adrs ots_addr idx in
  '(ots_seed, ots_addr) <~ rs_get_seed hf (repeat 0%N 32) sk_seed ots_addr ;;
  '(sig_msg, ots_addr) <~ rwith_adr 36 sig_msg (fun s => rs_wots_sign hf s msg_h ots_seed (x_wots p) pub_seed ots_addr) ;;
  sig_msg <~ rwith (36 + w_keysize (x_wots p)) (length sig_msg) sig_msg (fun s =>
    '(_, s) <~ rs_compute_authpath hf (repeat 0%N 32) s idx sk_seed p pub_seed ots_addr ;; ROk s) ;;
  ROk (sk, sig_msg).
