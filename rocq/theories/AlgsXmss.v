(** Model of src/xmss-alt/algsxmss.c (n = 32).

    [junk] stands for the indeterminate contents of local arrays; every theorem
    quantifies over it. *)
From Coq Require Import List NArith Arith Lia Bool.
From Verif Require Import Base Bytes Keccak HashAddress Wots XmssCommon.
Import ListNotations.
Open Scope N_scope.

(** algsxmss.c:19-31 (and the identical static copy algsxmss_fast.c:26-42). *)
Definition get_seed (hf : hashfn) (sk_seed : list N) (addr : adrs) : list N * adrs :=
  let addr := setChainADRS addr 0 in
  let addr := setHashADRS addr 0 in
  let addr := setKeyAndMask addr 0 in
  (prf hf (addr_to_byte addr) sk_seed, addr).

(** algsxmss.c:37-51 (and algsxmss_fast.c:71-86): leaf, and the two addresses as
    they are left behind. *)
Definition gen_leaf_wots (hf : hashfn) (sk_seed : list N) (p : xmss_params) (pub_seed : list N)
         (ltree_addr ots_addr : adrs) : res (list N * adrs * adrs) :=
  let '(seed, ots_addr) := get_seed hf sk_seed ots_addr in
  let '(pk, ots_addr) := wots_pkgen hf seed (x_wots p) pub_seed ots_addr in
  '(leaf, ltree_addr) <- l_tree hf (x_wots p) pk pub_seed ltree_addr ;;
  Ok (leaf, ltree_addr, ots_addr).

(** algsxmss.c:97-104: the while loop of treehash.  State: stack cells, levels,
    stackoffset, node address.  [fuel] is the current stackoffset, which every
    iteration decreases. *)
Fixpoint treehash_while (hf : hashfn) (fuel : nat) (idx : nat) (pub_seed : list N)
         (stack : list (list N)) (levels : list nat) (off : nat) (node_addr : adrs)
  : res (list (list N) * list nat * nat * adrs) :=
  if (off <=? 1)%nat then Ok (stack, levels, off, node_addr) else
  l1 <- get levels (off - 1)%nat ;;
  l2 <- get levels (off - 2)%nat ;;
  if negb (l1 =? l2)%nat then Ok (stack, levels, off, node_addr) else
  match fuel with
  | O => UB
  | S f =>
      let node_addr := setTreeHeight node_addr (N.of_nat l1) in
      let node_addr := setTreeIndex node_addr (N.of_nat (idx / 2 ^ (l1 + 1))) in
      a <- get stack (off - 2)%nat ;;
      b <- get stack (off - 1)%nat ;;
      let '(out, node_addr) := hash_h hf (a ++ b) pub_seed node_addr in
      stack <- set stack (off - 2)%nat out ;;
      levels <- set levels (off - 2)%nat (l2 + 1)%nat ;;
      treehash_while hf f idx pub_seed stack levels (off - 1) node_addr
  end.

(** algsxmss.c:59-108 treehash, with its arguments [index] = 0 and [height] = h as
    at its only call (line 192). *)
Definition treehash (hf : hashfn) (junk : list N) (h : nat) (sk_seed : list N) (p : xmss_params)
         (pub_seed : list N) (addr : adrs) : res (list N) :=
  let ots_addr := copy_layer_tree addr 0 in
  let ltree_addr := copy_layer_tree addr 1 in
  let node_addr := copy_layer_tree addr 2 in
  let stack := repeat junk (h + 1) in
  let levels := repeat 0%nat (h + 1) in
  '(stack, _, _, _, _, _) <-
    for_up (2 ^ h) (fun idx '(stack, levels, off, ots_addr, ltree_addr, node_addr) =>
      let ltree_addr := setLtreeADRS ltree_addr (N.of_nat idx) in
      let ots_addr := setOTSADRS ots_addr (N.of_nat idx) in
      '(leaf, ltree_addr, ots_addr) <- gen_leaf_wots hf sk_seed p pub_seed ltree_addr ots_addr ;;
      stack <- set stack off leaf ;;
      levels <- set levels off 0%nat ;;
      let off := S off in
      '(stack, levels, off, node_addr) <-
        treehash_while hf off idx pub_seed stack levels off node_addr ;;
      Ok (stack, levels, off, ots_addr, ltree_addr, node_addr))
      (stack, levels, 0%nat, ots_addr, ltree_addr, node_addr) ;;
  get stack 0.

(** algsxmss.c:115-167 compute_authpath_wots: (root, authpath).  The VLA
    [tree[2 * (1 << h) * n]] has a size computed modulo 2^32, which is 0 for
    h = 26 (and overflows int later): undefined behaviour from h = 26 on. *)
Definition compute_authpath_wots (hf : hashfn) (junk : list N) (leaf_idx : nat) (sk_seed : list N)
         (p : xmss_params) (pub_seed : list N) (addr : adrs) : res (list N * list (list N)) :=
  let h := x_h p in
  if (26 <=? h)%nat then UB else
  let tree := repeat junk (2 * 2 ^ h) in
  let ots_addr := copy_layer_tree addr 0 in
  let ltree_addr := copy_layer_tree addr 1 in
  let node_addr := copy_layer_tree addr 2 in
  (* lines 140-145 *)
  '(tree, _, _) <-
    for_up (2 ^ h) (fun i '(tree, ots_addr, ltree_addr) =>
      let ltree_addr := setLtreeADRS ltree_addr (N.of_nat i) in
      let ots_addr := setOTSADRS ots_addr (N.of_nat i) in
      '(leaf, ltree_addr, ots_addr) <- gen_leaf_wots hf sk_seed p pub_seed ltree_addr ots_addr ;;
      tree <- set tree (2 ^ h + i) leaf ;;
      Ok (tree, ots_addr, ltree_addr)) (tree, ots_addr, ltree_addr) ;;
  (* lines 148-159: i = 2^(h-level) *)
  '(tree, _) <-
    for_up h (fun level '(tree, node_addr) =>
      let i := (2 ^ (h - level))%nat in
      let node_addr := setTreeHeight node_addr (N.of_nat level) in
      for_up (i / 2) (fun j2 '(tree, node_addr) =>
        let node_addr := setTreeIndex node_addr (N.of_nat j2) in
        a <- get tree (i + 2 * j2)%nat ;;
        b <- get tree (i + 2 * j2 + 1)%nat ;;
        let '(out, node_addr) := hash_h hf (a ++ b) pub_seed node_addr in
        tree <- set tree (i / 2 + j2)%nat out ;;
        Ok (tree, node_addr)) (tree, node_addr)) (tree, node_addr) ;;
  (* lines 161-163 *)
  authpath <-
    for_up h (fun i acc =>
      c <- get tree (2 ^ h / 2 ^ i + Nat.lxor (leaf_idx / 2 ^ i) 1)%nat ;;
      Ok (acc ++ [c])) [] ;;
  (* line 166 *)
  root <- get tree 1 ;;
  Ok (root, authpath).

(** algsxmss.c:170-197 xmss_Genkeypair: the 132-byte secret key (the 64-byte
    public key root || pub_seed is its last 64 bytes permuted and is discarded by
    the caller). *)
Definition xmss_Genkeypair (hf : hashfn) (junk : list N) (p : xmss_params) (seed : list N)
  : res (list N) :=
  let randombits := shake256 96 (firstn 48 seed) in
  let sk_seed := slice 0 32 randombits in
  let pub_seed := slice 64 32 randombits in
  root <- treehash hf junk (x_h p) sk_seed p pub_seed zero_adrs ;;
  Ok ([0; 0; 0; 0] ++ randombits ++ root).

(** algsxmss.c:199-216; [k] is unsigned long (64 bit) and is truncated to
    uint32_t when stored.  Returns the status and the new key. *)
Definition xmss_updateSK (sk : list N) (k : N) : bool * list N :=
  let idxkey := from_be (slice 0 4 sk) in
  if k <=? idxkey then (false, sk)
  else (true, to_byte 4 (u32 k) ++ skipn 4 sk).

(** algsxmss.c:218-318: new secret key and signature. *)
Definition xmss_Signmsg (hf : hashfn) (junk : list N) (p : xmss_params) (sk msg : list N)
  : res (list N * list N) :=
  let idx := from_be (slice 0 4 sk) in
  let sk_seed := slice 4 32 sk in
  let sk_prf := slice 36 32 sk in
  let pub_seed := slice 68 32 sk in
  let idx_bytes_32 := to_byte 32 idx in
  let sk' := to_byte 4 (u32 (idx + 1)) ++ skipn 4 sk in
  let R := prf hf idx_bytes_32 sk_prf in
  let hash_key := R ++ slice 100 32 sk ++ to_byte 32 idx in
  let msg_h := h_msg hf msg hash_key in
  let ots_addr := setType zero_adrs 0 in
  let ots_addr := setOTSADRS ots_addr idx in
  let '(ots_seed, ots_addr) := get_seed hf sk_seed ots_addr in
  '(wsig, ots_addr) <- wots_sign hf msg_h ots_seed (x_wots p) pub_seed ots_addr ;;
  '(_, authpath) <- compute_authpath_wots hf junk (N.to_nat idx) sk_seed p pub_seed ots_addr ;;
  Ok (sk', to_byte 4 idx ++ R ++ concat wsig ++ concat authpath).
