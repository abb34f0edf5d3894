(** Model of src/xmss-alt/algsxmss_fast.c (n = 32): BDS tree traversal. *)
From Coq Require Import List NArith Arith Lia Bool.
From Verif Require Import Base Bytes Keccak HashAddress Wots XmssCommon AlgsXmss.
Import ListNotations.
Open Scope N_scope.

(** algsxmss_fast.h:19-25 treehash_inst.  [node] points to a private 32-byte cell
    of _th_nodes (xmssFast.cpp:46-48), so it is a cell here. *)
Record treehash_inst : Type := mkTH {
  th_h : nat; th_next_idx : nat; th_stackusage : nat; th_completed : bool; th_node : list N }.

(** algsxmss_fast.h:27-36 bds_state; [next_leaf] is never read by reachable code. *)
Record bds_state : Type := mkBDS {
  b_stack : list (list N);
  b_stackoffset : nat;
  b_stacklevels : list nat;
  b_auth : list (list N);
  b_keep : list (list N);
  b_treehash : list treehash_inst;
  b_retain : list (list N) }.

(** algsxmss_fast.c:88-97 *)
Definition treehash_minheight_on_stack (st : bds_state) (p : xmss_params) (th : treehash_inst)
  : res nat :=
  for_up (th_stackusage th) (fun i r =>
    if (b_stackoffset st <? i + 1)%nat then UB else
    l <- get (b_stacklevels st) (b_stackoffset st - i - 1)%nat ;;
    Ok (if (l <? r)%nat then l else r)) (x_h p).

(** Assignment to [state->treehash[i].node].  algsxmss_fast.h:24. *)
Definition set_th_node (ths : list treehash_inst) (i : nat) (c : list N) : res (list treehash_inst) :=
  t <- get ths i ;;
  set ths i (mkTH (th_h t) (th_next_idx t) (th_stackusage t) (th_completed t) c).

(** algsxmss_fast.c:156-176: inner while loop of treehash_setup.  The local stack
    is (stack, levels, off); auth/treehash/retain are fields of the BDS state. *)
Fixpoint setup_while (hf : hashfn) (fuel : nat) (h k : nat) (i : nat) (pub_seed : list N)
         (stack : list (list N)) (levels : list nat) (off : nat) (node_addr : adrs)
         (auth : list (list N)) (ths : list treehash_inst) (retain : list (list N))
  : res (list (list N) * list nat * nat * adrs * list (list N) * list treehash_inst * list (list N)) :=
  if (off <=? 1)%nat then Ok (stack, levels, off, node_addr, auth, ths, retain) else
  l1 <- get levels (off - 1)%nat ;;
  l2 <- get levels (off - 2)%nat ;;
  if negb (l1 =? l2)%nat then Ok (stack, levels, off, node_addr, auth, ths, retain) else
  match fuel with
  | O => UB
  | S f =>
      let nodeh := l1 in
      top <- get stack (off - 1)%nat ;;
      '(auth, ths, retain) <-
        (if (i / 2 ^ nodeh =? 1)%nat then
           auth <- set auth nodeh top ;; Ok (auth, ths, retain)
         else if ((nodeh <? h - k) && (i / 2 ^ nodeh =? 3))%nat then
           ths <- set_th_node ths nodeh top ;; Ok (auth, ths, retain)
         else if (h - k <=? nodeh)%nat then
           (* negative shift count or negative offset *)
           if ((h <? 1 + nodeh) || (2 ^ (h - 1 - nodeh) + nodeh <? h) || (i / 2 ^ nodeh <? 3))%nat then UB else
           retain <- set retain (2 ^ (h - 1 - nodeh) + nodeh - h + (i / 2 ^ nodeh - 3) / 2)%nat top ;;
           Ok (auth, ths, retain)
         else Ok (auth, ths, retain)) ;;
      let node_addr := setTreeHeight node_addr (N.of_nat l1) in
      let node_addr := setTreeIndex node_addr (N.of_nat (i / 2 ^ (l1 + 1))) in
      a <- get stack (off - 2)%nat ;;
      let '(out, node_addr) := hash_h hf (a ++ top) pub_seed node_addr in
      stack <- set stack (off - 2)%nat out ;;
      levels <- set levels (off - 2)%nat (l2 + 1)%nat ;;
      setup_while hf f h k i pub_seed stack levels (off - 1) node_addr auth ths retain
  end.

(** algsxmss_fast.c:104-182 treehash_setup with [index] = 0 and [height] = h as at
    its only call (527); [idx] = [i] then.  Returns root and BDS state.  The copy
    at line 153-155 reads the uninitialised cell [stack[stackoffset]]. *)
Definition treehash_setup (hf : hashfn) (junk : list N) (st : bds_state) (sk_seed : list N)
         (p : xmss_params) (pub_seed : list N) (addr : adrs) : res (list N * bds_state) :=
  let h := x_h p in
  let k := x_k p in
  let ots_addr := copy_layer_tree addr 0 in
  let ltree_addr := copy_layer_tree addr 1 in
  let node_addr := copy_layer_tree addr 2 in
  let stack := repeat junk (h + 1) in
  let levels := repeat 0%nat (h + 1) in
  (* lines 139-144 *)
  ths <- for_up (h - k) (fun i ths =>
           t <- get ths i ;;
           set ths i (mkTH i (th_next_idx t) 0 true (th_node t))) (b_treehash st) ;;
  (* lines 146-178 *)
  '(stack, _, _, _, _, _, auth, ths, retain) <-
    for_up (2 ^ h) (fun i '(stack, levels, off, ots_addr, ltree_addr, node_addr, auth, ths, retain) =>
      let ltree_addr := setLtreeADRS ltree_addr (N.of_nat i) in
      let ots_addr := setOTSADRS ots_addr (N.of_nat i) in
      '(leaf, ltree_addr, ots_addr) <- gen_leaf_wots hf sk_seed p pub_seed ltree_addr ots_addr ;;
      stack <- set stack off leaf ;;
      levels <- set levels off 0%nat ;;
      let off := S off in
      ths <- (if ((0 <? h - k) && (i =? 3))%nat
              then c <- get stack off ;; set_th_node ths 0 c
              else Ok ths) ;;
      '(stack, levels, off, node_addr, auth, ths, retain) <-
        setup_while hf off h k i pub_seed stack levels off node_addr auth ths retain ;;
      Ok (stack, levels, off, ots_addr, ltree_addr, node_addr, auth, ths, retain))
      (stack, levels, 0%nat, ots_addr, ltree_addr, node_addr, b_auth st, ths, b_retain st) ;;
  root <- get stack 0 ;;
  Ok (root, mkBDS (b_stack st) (b_stackoffset st) (b_stacklevels st) auth (b_keep st) ths retain).

(** algsxmss_fast.c:209-218: the while loop of treehash_update on the shared
    stack.  Returns (node, nodeheight, stackusage, stackoffset). *)
Fixpoint update_while (hf : hashfn) (usage : nat) (next_idx : nat) (pub_seed : list N)
         (stack : list (list N)) (levels : list nat) (off : nat)
         (node : list N) (nodeheight : nat) (node_addr : adrs)
  : res (list N * nat * nat * nat) :=
  match usage with
  | O => Ok (node, nodeheight, O, off)
  | S u =>
      if (off =? 0)%nat then UB else
      l <- get levels (off - 1)%nat ;;
      if negb (l =? nodeheight)%nat then Ok (node, nodeheight, usage, off) else
      left <- get stack (off - 1)%nat ;;
      let node_addr := setTreeHeight node_addr (N.of_nat nodeheight) in
      let node_addr := setTreeIndex node_addr (N.of_nat (next_idx / 2 ^ (nodeheight + 1))) in
      let '(out, node_addr) := hash_h hf (left ++ node) pub_seed node_addr in
      update_while hf u next_idx pub_seed stack levels (off - 1) out (nodeheight + 1) node_addr
  end.

(** algsxmss_fast.c:184-230; [lvl] selects [&state->treehash[lvl]]. *)
Definition treehash_update (hf : hashfn) (lvl : nat) (st : bds_state) (sk_seed : list N)
         (p : xmss_params) (pub_seed : list N) (addr : adrs) : res bds_state :=
  th <- get (b_treehash st) lvl ;;
  let ots_addr := copy_layer_tree addr 0 in
  let ltree_addr := copy_layer_tree addr 1 in
  let node_addr := copy_layer_tree addr 2 in
  let ltree_addr := setLtreeADRS ltree_addr (N.of_nat (th_next_idx th)) in
  let ots_addr := setOTSADRS ots_addr (N.of_nat (th_next_idx th)) in
  '(leaf, _, _) <- gen_leaf_wots hf sk_seed p pub_seed ltree_addr ots_addr ;;
  '(node, nodeheight, usage, off) <-
    update_while hf (th_stackusage th) (th_next_idx th) pub_seed
      (b_stack st) (b_stacklevels st) (b_stackoffset st) leaf 0 node_addr ;;
  if (nodeheight =? th_h th)%nat then
    ths <- set (b_treehash st) lvl (mkTH (th_h th) (th_next_idx th) usage true node) ;;
    Ok (mkBDS (b_stack st) off (b_stacklevels st) (b_auth st) (b_keep st) ths (b_retain st))
  else
    stack <- set (b_stack st) off node ;;
    levels <- set (b_stacklevels st) off nodeheight ;;
    ths <- set (b_treehash st) lvl
             (mkTH (th_h th) (th_next_idx th + 1) (usage + 1) (th_completed th) (th_node th)) ;;
    Ok (mkBDS stack (off + 1) levels (b_auth st) (b_keep st) ths (b_retain st)).

(** algsxmss_fast.c:299-315: choice of the instance to update: (level, l_min). *)
Definition bds_choose (st : bds_state) (p : xmss_params) : res (nat * nat) :=
  let h := x_h p in
  let k := x_k p in
  for_up (h - k) (fun i '(level, l_min) =>
    th <- get (b_treehash st) i ;;
    low <- (if th_completed th then Ok h
            else if (th_stackusage th =? 0)%nat then Ok i
            else treehash_minheight_on_stack st p th) ;;
    Ok (if (low <? l_min)%nat then (i, low) else (level, l_min))) ((h - k)%nat, h).

(** algsxmss_fast.c:287-323 (the returned count is not used by the callers). *)
Fixpoint bds_treehash_update (hf : hashfn) (updates : nat) (st : bds_state) (sk_seed : list N)
         (p : xmss_params) (pub_seed : list N) (addr : adrs) : res bds_state :=
  match updates with
  | O => Ok st
  | S u =>
      '(level, _) <- bds_choose st p ;;
      if (level =? x_h p - x_k p)%nat then Ok st
      else
        st <- treehash_update hf level st sk_seed p pub_seed addr ;;
        bds_treehash_update hf u st sk_seed p pub_seed addr
  end.

(** algsxmss_fast.c:444-449: index of the lowest zero bit of leaf_idx below h,
    or h. *)
Fixpoint find_tau (n : nat) (i : nat) (h : nat) (leaf_idx : nat) : nat :=
  match n with
  | O => h
  | S n' => if negb (Nat.testbit leaf_idx i) then i else find_tau n' (S i) h leaf_idx
  end.

(** algsxmss_fast.c:413-489 bds_round *)
Definition bds_round (hf : hashfn) (st : bds_state) (leaf_idx : nat) (sk_seed : list N)
         (p : xmss_params) (pub_seed : list N) (addr : adrs) : res bds_state :=
  let h := x_h p in
  let k := x_k p in
  let ots_addr := copy_layer_tree addr 0 in
  let ltree_addr := copy_layer_tree addr 1 in
  let node_addr := copy_layer_tree addr 2 in
  let tau := find_tau h 0 h leaf_idx in
  (* 451-455 *)
  buf <- (if (0 <? tau)%nat then
            a <- get (b_auth st) (tau - 1)%nat ;;
            c <- get (b_keep st) ((tau - 1) / 2)%nat ;;
            Ok (a ++ c)
          else Ok []) ;;
  (* 456-458 *)
  keep <- (if (negb (Nat.testbit leaf_idx (tau + 1)) && (tau <? h - 1))%nat then
             a <- get (b_auth st) tau ;;
             set (b_keep st) (tau / 2)%nat a
           else Ok (b_keep st)) ;;
  if (tau =? 0)%nat then
    (* 459-463 *)
    let ltree_addr := setLtreeADRS ltree_addr (N.of_nat leaf_idx) in
    let ots_addr := setOTSADRS ots_addr (N.of_nat leaf_idx) in
    '(leaf, _, _) <- gen_leaf_wots hf sk_seed p pub_seed ltree_addr ots_addr ;;
    auth <- set (b_auth st) 0 leaf ;;
    Ok (mkBDS (b_stack st) (b_stackoffset st) (b_stacklevels st) auth keep (b_treehash st) (b_retain st))
  else
    (* 465-467 *)
    let node_addr := setTreeHeight node_addr (N.of_nat (tau - 1)) in
    let node_addr := setTreeIndex node_addr (N.of_nat (leaf_idx / 2 ^ tau)) in
    let '(out, _) := hash_h hf buf pub_seed node_addr in
    auth <- set (b_auth st) tau out ;;
    (* 468-477 *)
    auth <- for_up tau (fun i auth =>
              if (i <? h - k)%nat then
                t <- get (b_treehash st) i ;;
                set auth i (th_node t)
              else
                if ((h <? 1 + i) || (2 ^ (h - 1 - i) + i <? h) || (leaf_idx / 2 ^ i <? 1))%nat then UB else
                let offset := (2 ^ (h - 1 - i) + i - h)%nat in
                let rowidx := ((leaf_idx / 2 ^ i - 1) / 2)%nat in
                c <- get (b_retain st) (offset + rowidx)%nat ;;
                set auth i c) auth ;;
    (* 479-487 *)
    ths <- for_up (if (tau <? h - k)%nat then tau else (h - k)%nat) (fun i ths =>
             let startidx := (leaf_idx + 1 + 3 * 2 ^ i)%nat in
             if (startidx <? 2 ^ h)%nat then
               t <- get ths i ;;
               set ths i (mkTH i startidx 0 false (th_node t))
             else Ok ths) (b_treehash st) ;;
    Ok (mkBDS (b_stack st) (b_stackoffset st) (b_stacklevels st) auth keep ths (b_retain st)).

(** algsxmss_fast.c:496-531: (secret key, BDS state).  The only caller rejects odd
    h first (xmssFast.cpp:31-33), so the early return at 503-506 is not modelled. *)
Definition xmssfast_Genkeypair (hf : hashfn) (junk : list N) (p : xmss_params) (st : bds_state)
         (seed : list N) : res (list N * bds_state) :=
  let randombits := shake256 96 (firstn 48 seed) in
  let sk_seed := slice 0 32 randombits in
  let pub_seed := slice 64 32 randombits in
  '(root, st) <- treehash_setup hf junk st sk_seed p pub_seed zero_adrs ;;
  Ok ([0; 0; 0; 0] ++ randombits ++ root, st).

(** algsxmss_fast.c:567-581: one step of the catch-up loop. *)
Definition bds_step (hf : hashfn) (p : xmss_params) (sk_seed pub_seed : list N) (addr : adrs)
  (j : nat) (st : bds_state) : res bds_state :=
  st <- bds_round hf st j sk_seed p pub_seed addr ;;
  bds_treehash_update hf ((x_h p - x_k p) / 2) st sk_seed p pub_seed addr.

(** algsxmss_fast.c:533-590 xmssfast_update.  The result carries the memory (secret
    key and traversal state) after the call also when it throws ([inl e]).  The test
    [j >= num_elems] at 568-571 is dead: j < new_idx < num_elems. *)
Definition xmssfast_update (hf : hashfn) (p : xmss_params) (sk : list N) (st : bds_state)
         (new_idx : N) : res (list N * bds_state * (exn + unit)) :=
  let num_elems := 2 ^ N.of_nat (x_h p) in
  let current_idx := from_be (slice 0 4 sk) in
  if num_elems <=? new_idx then Ok (sk, st, inl InvalidArgument) else
  if new_idx <? current_idx then Ok (sk, st, inl InvalidArgument) else
  let sk_seed := slice 4 32 sk in
  let pub_seed := slice 68 32 sk in
  st <- for_from (N.to_nat new_idx - N.to_nat current_idx) (N.to_nat current_idx)
          (fun j st => bds_step hf p sk_seed pub_seed zero_adrs j st) st ;;
  Ok (to_byte 4 new_idx ++ skipn 4 sk, st, inr tt).

(** algsxmss_fast.c:592-700: (secret key, BDS state, signature). *)
Definition xmssfast_Signmsg (hf : hashfn) (p : xmss_params) (sk : list N) (st : bds_state)
         (msg : list N) : res (list N * bds_state * list N) :=
  let idx := from_be (slice 0 4 sk) in
  let sk_seed := slice 4 32 sk in
  let sk_prf := slice 36 32 sk in
  let pub_seed := slice 68 32 sk in
  let idx_bytes_32 := to_byte 32 idx in
  let sk' := to_byte 4 (idx + 1) ++ skipn 4 sk in
  let R := prf hf idx_bytes_32 sk_prf in
  let hash_key := R ++ slice 100 32 sk ++ to_byte 32 idx in
  let msg_h := h_msg hf msg hash_key in
  let ots_addr := setType zero_adrs 0 in
  let ots_addr := setOTSADRS ots_addr idx in
  let '(ots_seed, ots_addr) := get_seed hf sk_seed ots_addr in
  '(wsig, ots_addr) <- wots_sign hf msg_h ots_seed (x_wots p) pub_seed ots_addr ;;
  let sig := to_byte 4 idx ++ R ++ concat wsig ++ concat (firstn (x_h p) (b_auth st)) in
  st <- (if idx <? 2 ^ N.of_nat (x_h p) - 1
         then bds_step hf p sk_seed pub_seed ots_addr (N.to_nat idx) st
         else Ok st) ;;
  Ok (sk', st, sig).
