(** Key generation once more, counting calls of the hash function (core_hash,
    hash.c:26-85) as Cost.v does for signing and verifying.  Each definition is the one of
    the same name without [_c] in AlgsXmss.v, AlgsXmssFast.v and XmssObj.v with the count
    threaded through; C84_erasure proves that forgetting the count gives that definition
    back.  Not counted: the one SHAKE256 call that expands the seed (algsxmss.c:184,
    algsxmss_fast.c:516), which does not go through core_hash. *)
From Coq Require Import List NArith Arith Lia Bool.
From Verif Require Import Base Bytes Keccak HashAddress Wots XmssCommon AlgsXmss AlgsXmssFast Descriptor XmssObj Cost.
Import ListNotations.
Open Scope N_scope.

(** algsxmss.c:97-104 *)
Fixpoint treehash_while_c (hf : hashfn) (fuel : nat) (idx : nat) (pub_seed : list N)
         (stack : list (list N)) (levels : list nat) (off : nat) (node_addr : adrs) {struct fuel}
  : cres (list (list N) * list nat * nat * adrs) :=
  if (off <=? 1)%nat then cret (stack, levels, off, node_addr) else
  l1 <~ clift (get levels (off - 1)%nat) ;;
  l2 <~ clift (get levels (off - 2)%nat) ;;
  if negb (l1 =? l2)%nat then cret (stack, levels, off, node_addr) else
  match fuel with
  | O => UB
  | S f =>
      let node_addr := setTreeHeight node_addr (N.of_nat l1) in
      let node_addr := setTreeIndex node_addr (N.of_nat (idx / 2 ^ (l1 + 1))) in
      a <~ clift (get stack (off - 2)%nat) ;;
      b <~ clift (get stack (off - 1)%nat) ;;
      '(out, node_addr) <~ hash_h_c hf (a ++ b) pub_seed node_addr ;;
      stack <~ clift (set stack (off - 2)%nat out) ;;
      levels <~ clift (set levels (off - 2)%nat (l2 + 1)%nat) ;;
      treehash_while_c hf f idx pub_seed stack levels (off - 1) node_addr
  end.
(** algsxmss.c:59-108 *)
Definition treehash_c (hf : hashfn) (junk : list N) (h : nat) (sk_seed : list N) (p : xmss_params)
         (pub_seed : list N) (addr : adrs) : cres (list N) :=
  let ots_addr := copy_layer_tree addr 0 in
  let ltree_addr := copy_layer_tree addr 1 in
  let node_addr := copy_layer_tree addr 2 in
  let stack := repeat junk (h + 1) in
  let levels := repeat 0%nat (h + 1) in
  '(stack, _, _, _, _, _) <~
    cfor_up (2 ^ h) (fun idx '(stack, levels, off, ots_addr, ltree_addr, node_addr) =>
      let ltree_addr := setLtreeADRS ltree_addr (N.of_nat idx) in
      let ots_addr := setOTSADRS ots_addr (N.of_nat idx) in
      '(leaf, ltree_addr, ots_addr) <~ gen_leaf_wots_c hf sk_seed p pub_seed ltree_addr ots_addr ;;
      stack <~ clift (set stack off leaf) ;;
      levels <~ clift (set levels off 0%nat) ;;
      let off := S off in
      '(stack, levels, off, node_addr) <~
        treehash_while_c hf off idx pub_seed stack levels off node_addr ;;
      cret (stack, levels, off, ots_addr, ltree_addr, node_addr))
      (stack, levels, 0%nat, ots_addr, ltree_addr, node_addr) ;;
  clift (get stack 0).
(** algsxmss.c:170-197 *)
Definition xmss_Genkeypair_c (hf : hashfn) (junk : list N) (p : xmss_params) (seed : list N)
  : cres (list N) :=
  let randombits := shake256 96 (firstn 48 seed) in
  let sk_seed := slice 0 32 randombits in
  let pub_seed := slice 64 32 randombits in
  root <~ treehash_c hf junk (x_h p) sk_seed p pub_seed zero_adrs ;;
  cret ([0; 0; 0; 0] ++ randombits ++ root).
(** xmssBasic.cpp:9-49 *)
Definition XmssBasic_new_c (junk seed : list N) (height hash fmt w : N) : cres xbase :=
  _ <~ clift (check_seed seed height) ;;
  if bad_height height then Exn InvalidArgument else
  p <~ clift (xmss_set_params (N.to_nat height) w 2) ;;
  if 31 <=? height then UB else
  with_hash hash (fun hf =>
    sk <~ xmss_Genkeypair_c hf junk p seed ;;
    cret (mkXB p hash fmt height sk seed)).

(** algsxmss_fast.c:156-176 *)
Fixpoint setup_while_c (hf : hashfn) (fuel : nat) (h k : nat) (i : nat) (pub_seed : list N)
         (stack : list (list N)) (levels : list nat) (off : nat) (node_addr : adrs)
         (auth : list (list N)) (ths : list treehash_inst) (retain : list (list N)) {struct fuel}
  : cres (list (list N) * list nat * nat * adrs * list (list N) * list treehash_inst * list (list N)) :=
  if (off <=? 1)%nat then cret (stack, levels, off, node_addr, auth, ths, retain) else
  l1 <~ clift (get levels (off - 1)%nat) ;;
  l2 <~ clift (get levels (off - 2)%nat) ;;
  if negb (l1 =? l2)%nat then cret (stack, levels, off, node_addr, auth, ths, retain) else
  match fuel with
  | O => UB
  | S f =>
      let nodeh := l1 in
      top <~ clift (get stack (off - 1)%nat) ;;
      '(auth, ths, retain) <~ clift
        (if (i / 2 ^ nodeh =? 1)%nat then
           auth <- set auth nodeh top ;; Ok (auth, ths, retain)
         else if ((nodeh <? h - k) && (i / 2 ^ nodeh =? 3))%nat then
           ths <- set_th_node ths nodeh top ;; Ok (auth, ths, retain)
         else if (h - k <=? nodeh)%nat then
           if ((h <? 1 + nodeh) || (2 ^ (h - 1 - nodeh) + nodeh <? h) || (i / 2 ^ nodeh <? 3))%nat then UB else
           retain <- set retain (2 ^ (h - 1 - nodeh) + nodeh - h + (i / 2 ^ nodeh - 3) / 2)%nat top ;;
           Ok (auth, ths, retain)
         else Ok (auth, ths, retain)) ;;
      let node_addr := setTreeHeight node_addr (N.of_nat l1) in
      let node_addr := setTreeIndex node_addr (N.of_nat (i / 2 ^ (l1 + 1))) in
      a <~ clift (get stack (off - 2)%nat) ;;
      '(out, node_addr) <~ hash_h_c hf (a ++ top) pub_seed node_addr ;;
      stack <~ clift (set stack (off - 2)%nat out) ;;
      levels <~ clift (set levels (off - 2)%nat (l2 + 1)%nat) ;;
      setup_while_c hf f h k i pub_seed stack levels (off - 1) node_addr auth ths retain
  end.
(** algsxmss_fast.c:104-182 *)
Definition treehash_setup_c (hf : hashfn) (junk : list N) (st : bds_state) (sk_seed : list N)
         (p : xmss_params) (pub_seed : list N) (addr : adrs) : cres (list N * bds_state) :=
  let h := x_h p in
  let k := x_k p in
  let ots_addr := copy_layer_tree addr 0 in
  let ltree_addr := copy_layer_tree addr 1 in
  let node_addr := copy_layer_tree addr 2 in
  let stack := repeat junk (h + 1) in
  let levels := repeat 0%nat (h + 1) in
  ths <~ clift (for_up (h - k) (fun i ths =>
           t <- get ths i ;;
           set ths i (mkTH i (th_next_idx t) 0 true (th_node t))) (b_treehash st)) ;;
  '(stack, _, _, _, _, _, auth, ths, retain) <~
    cfor_up (2 ^ h) (fun i '(stack, levels, off, ots_addr, ltree_addr, node_addr, auth, ths, retain) =>
      let ltree_addr := setLtreeADRS ltree_addr (N.of_nat i) in
      let ots_addr := setOTSADRS ots_addr (N.of_nat i) in
      '(leaf, ltree_addr, ots_addr) <~ gen_leaf_wots_c hf sk_seed p pub_seed ltree_addr ots_addr ;;
      stack <~ clift (set stack off leaf) ;;
      levels <~ clift (set levels off 0%nat) ;;
      let off := S off in
      ths <~ clift (if ((0 <? h - k) && (i =? 3))%nat
              then c <- get stack off ;; set_th_node ths 0 c
              else Ok ths) ;;
      '(stack, levels, off, node_addr, auth, ths, retain) <~
        setup_while_c hf off h k i pub_seed stack levels off node_addr auth ths retain ;;
      cret (stack, levels, off, ots_addr, ltree_addr, node_addr, auth, ths, retain))
      (stack, levels, 0%nat, ots_addr, ltree_addr, node_addr, b_auth st, ths, b_retain st) ;;
  root <~ clift (get stack 0) ;;
  cret (root, mkBDS (b_stack st) (b_stackoffset st) (b_stacklevels st) auth (b_keep st) ths retain).
(** algsxmss_fast.c:496-531 *)
Definition xmssfast_Genkeypair_c (hf : hashfn) (junk : list N) (p : xmss_params) (st : bds_state)
         (seed : list N) : cres (list N * bds_state) :=
  let randombits := shake256 96 (firstn 48 seed) in
  let sk_seed := slice 0 32 randombits in
  let pub_seed := slice 64 32 randombits in
  '(root, st) <~ treehash_setup_c hf junk st sk_seed p pub_seed zero_adrs ;;
  cret ([0; 0; 0; 0] ++ randombits ++ root, st).
(** xmssFast.cpp:22-66 *)
Definition initialize_tree_c (junk seed : list N) (height hash fmt w : N) : cres xfast :=
  if bad_height height then Exn InvalidArgument else
  p <~ clift (xmss_set_params (N.to_nat height) w 2) ;;
  if 31 <=? height then UB else
  with_hash hash (fun hf =>
    '(sk, st) <~ xmssfast_Genkeypair_c hf junk p (fresh_bds (x_h p) (x_k p)) seed ;;
    cret (mkXF (mkXB p hash fmt height sk seed) st)).
(** xmssFast.cpp:7-14 *)
Definition XmssFast_new_c (junk seed : list N) (height hash fmt : N) : cres xfast :=
  _ <~ clift (check_seed seed height) ;;
  initialize_tree_c junk seed height hash fmt 16.
(** xmssFast.cpp:16-20 *)
Definition XmssFast_from_extended_seed_c (junk es : list N) : cres xfast :=
  '(seed, height, hash, fmt) <~ clift (parse_extended_seed es) ;;
  initialize_tree_c junk seed height hash fmt 16.
(** xmssFast.cpp:22-66, a second call *)
Definition xfast_initialize_tree_c (junk : list N) (o : xfast) (w : N) : cres xfast :=
  let b := xf_base o in
  initialize_tree_c junk (xb_seed b) (xb_height b) (xb_hash b) (xb_fmt b) w.
