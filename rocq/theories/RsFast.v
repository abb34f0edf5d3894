(** Model of the Rust port's src/rust_wrapper/xmss_alt/algsxmss_fast.rs (n = 32): BDS
    traversal on flat byte vectors.  The private functions bds_state_update and
    validate_authpath of that file have no caller and are not modelled.

    u32 counters are natural numbers: every one of them is bounded by 2^h with
    h < 32 (larger heights panic in treehash_setup). *)
From Coq Require Import List NArith Arith Lia Bool.
From Verif Require Import Bytes HashAddress Wots XmssCommon AlgsXmssFast RsBase RsKeccak RsHash RsWots RsAlgs.
Import ListNotations.
Open Scope nat_scope.

(** algsxmss_fast.rs:22-32 BDSState (without next_leaf, which only dead code
    reads).  TreeHashInst (12-19) has the fields of the C struct; [completed] is
    0 or 1. *)
Record rs_bds : Type := mkRB {
  rb_stack : list N; rb_stackoffset : nat; rb_stacklevels : list nat;
  rb_auth : list N; rb_keep : list N; rb_treehash : list treehash_inst; rb_retain : list N }.

(** algsxmss_fast.rs:94-106 *)
Definition rs_minheight (st : rs_bds) (p : xmss_params) (th : treehash_inst) : rs nat :=
  rfor (th_stackusage th) (fun i r =>
    if rb_stackoffset st <? i + 1 then RPanic else
    l <~ rget (rb_stacklevels st) (rb_stackoffset st - i - 1) ;;
    ROk (if l <? r then l else r)) (x_h p).

(** The idiom [if let Some(dest) = v.get_mut(a..a+n) { dest.copy_from_slice(src) }
    else { v = src.to_vec() }] of algsxmss_fast.rs:167-178, 184-196, 199-212, 214-228. *)
Definition rs_put (v : list N) (a : nat) (src : list N) : rs (list N) :=
  if a + 32 <=? length v then rwith a (a + 32) v (fun d => rcopy src d) else ROk src.
(** algsxmss_fast.rs:166-178, 194-212. *)
Definition rs_put_node (ths : list treehash_inst) (i : nat) (src : list N) : rs (list treehash_inst) :=
  t <~ rget ths i ;;
  n <~ rs_put (th_node t) 0 src ;;
  rset ths i (mkTH (th_h t) (th_next_idx t) (th_stackusage t) (th_completed t) n).

(** algsxmss_fast.rs:179-243: inner while loop of treehash_setup. *)
Fixpoint rs_setup_while (hf : hashfn) (fuel : nat) (h k : nat) (i : nat) (pub_seed : list N)
    (stack : list N) (levels : list nat) (off : nat) (node_addr : adrs)
    (auth : list N) (ths : list treehash_inst) (retain : list N) {struct fuel}
  : rs (list N * list nat * nat * adrs * list N * list treehash_inst * list N) :=
  if off <=? 1 then ROk (stack, levels, off, node_addr, auth, ths, retain) else
  l1 <~ rget levels (off - 1) ;;
  l2 <~ rget levels (off - 2) ;;
  if negb (l1 =? l2) then ROk (stack, levels, off, node_addr, auth, ths, retain) else
  match fuel with
  | O => RPanic
  | S f =>
      let nodeh := l1 in
      src <~ rslice ((off - 1) * 32) ((off - 1) * 32 + 32) stack ;;
      '(auth, ths, retain) <~
        (if i / 2 ^ nodeh =? 1 then
           auth <~ rs_put auth (nodeh * 32) src ;; ROk (auth, ths, retain)
         else if (nodeh <? h - k) && (i / 2 ^ nodeh =? 3) then
           ths <~ rs_put_node ths nodeh src ;; ROk (auth, ths, retain)
         else if h - k <=? nodeh then
           if (h <? 1 + nodeh) || (2 ^ (h - 1 - nodeh) + nodeh <? h) || (i / 2 ^ nodeh <? 3) then RPanic else
           retain <~ rs_put retain ((2 ^ (h - 1 - nodeh) + nodeh - h + (i / 2 ^ nodeh - 3) / 2) * 32) src ;;
           ROk (auth, ths, retain)
         else ROk (auth, ths, retain)) ;;
      let node_addr := rs_set_tree_height node_addr (N.of_nat l1) in
      let node_addr := rs_set_tree_index node_addr (N.of_nat (i / 2 ^ (l1 + 1))) in
      input <~ rslice ((off - 2) * 32) (length stack) stack ;;
      '(stack, node_addr) <~ rwith_adr ((off - 2) * 32) stack (fun o => rs_hash_h hf o input pub_seed node_addr) ;;
      levels <~ rset levels (off - 2) (l2 + 1) ;;
      rs_setup_while hf f h k i pub_seed stack levels (off - 1) node_addr auth ths retain
  end.

(** algsxmss_fast.rs:113-250 treehash_setup at its only call (index 0, height h, so
    [idx] = [i]): the buffer [node] and the state. *)
Definition rs_treehash_setup (hf : hashfn) (node : list N) (st : rs_bds) (sk_seed : list N) (p : xmss_params)
    (pub_seed : list N) (addr : adrs) : rs (list N * rs_bds) :=
  let h := x_h p in
  let k := x_k p in
  let ots_addr := rs_sub_addr addr 0 in
  let ltree_addr := rs_sub_addr addr 1 in
  let node_addr := rs_set_type addr 2 in
  let stack := repeat 0%N ((h + 1) * 32) in
  let levels := repeat 0 (h + 1) in
  if 32 <=? h then RPanic else
  ths <~ rfor (h - k) (fun i ths =>
           t <~ rget ths i ;;
           rset ths i (mkTH i (th_next_idx t) 0 true (th_node t))) (rb_treehash st) ;;
  '(stack, _, _, _, _, _, auth, ths, retain) <~
    rfor (2 ^ h) (fun i '(stack, levels, off, ots_addr, ltree_addr, node_addr, auth, ths, retain) =>
      let ltree_addr := rs_set_ltree_adrs ltree_addr (N.of_nat i) in
      let ots_addr := rs_set_ots_adrs ots_addr (N.of_nat i) in
      '(stack, ltree_addr, ots_addr) <~ rs_leaf_at hf (off * 32) stack sk_seed p pub_seed ltree_addr ots_addr ;;
      levels <~ rset levels off 0 ;;
      let off := S off in
      ths <~ (if (0 <? h - k) && (i =? 3)
              then c <~ rslice (off * 32) (off * 32 + 32) stack ;; rs_put_node ths 0 c
              else ROk ths) ;;
      '(stack, levels, off, node_addr, auth, ths, retain) <~
        rs_setup_while hf off h k i pub_seed stack levels off node_addr auth ths retain ;;
      ROk (stack, levels, off, ots_addr, ltree_addr, node_addr, auth, ths, retain))
      (stack, levels, 0, ots_addr, ltree_addr, node_addr, rb_auth st, ths, rb_retain st) ;;
  node <~ rcopy_loop 32 stack 0 node 0 ;;
  ROk (node, mkRB (rb_stack st) (rb_stackoffset st) (rb_stacklevels st) auth (rb_keep st) ths retain).

(** algsxmss_fast.rs:288-303: the while loop of treehash_update. Result: (nodebuffer,
    nodeheight, stackusage, stackoffset). *)
Fixpoint rs_update_while (hf : hashfn) (usage : nat) (next_idx : nat) (pub_seed : list N)
    (stack : list N) (levels : list nat) (off : nat) (nodebuffer : list N) (nodeheight : nat) (node_addr : adrs)
    {struct usage} : rs (list N * nat * nat * nat) :=
  match usage with
  | O => ROk (nodebuffer, nodeheight, O, off)
  | S u =>
      if off =? 0 then RPanic else
      l <~ rget levels (off - 1) ;;
      if negb (l =? nodeheight) then ROk (nodebuffer, nodeheight, usage, off) else
      nodebuffer <~ rcopy_within 0 32 32 nodebuffer ;;
      src <~ rslice ((off - 1) * 32) ((off - 1) * 32 + 32) stack ;;
      nodebuffer <~ rwith 0 32 nodebuffer (fun d => rcopy src d) ;;
      let node_addr := rs_set_tree_height node_addr (N.of_nat nodeheight) in
      let node_addr := rs_set_tree_index node_addr (N.of_nat (next_idx / 2 ^ (nodeheight + 1))) in
      '(nodebuffer, node_addr) <~ rs_hash_h hf nodebuffer nodebuffer pub_seed node_addr ;;
      rs_update_while hf u next_idx pub_seed stack levels (off - 1) nodebuffer (nodeheight + 1) node_addr
  end.

(** algsxmss_fast.rs:252-327 *)
Definition rs_treehash_update (hf : hashfn) (lvl : nat) (st : rs_bds) (sk_seed : list N) (p : xmss_params)
    (pub_seed : list N) (addr : adrs) : rs rs_bds :=
  th <~ rget (rb_treehash st) lvl ;;
  let ots_addr := rs_sub_addr addr 0 in
  let ltree_addr := rs_sub_addr addr 1 in
  let node_addr := rs_sub_addr addr 2 in
  let ltree_addr := rs_set_ltree_adrs ltree_addr (N.of_nat (th_next_idx th)) in
  let ots_addr := rs_set_ots_adrs ots_addr (N.of_nat (th_next_idx th)) in
  '(nodebuffer, _, _) <~ rs_gen_leaf_wots hf (repeat 0%N 64) sk_seed p pub_seed ltree_addr ots_addr ;;
  '(nodebuffer, nodeheight, usage, off) <~
    rs_update_while hf (th_stackusage th) (th_next_idx th) pub_seed
      (rb_stack st) (rb_stacklevels st) (rb_stackoffset st) nodebuffer 0 node_addr ;;
  src <~ rslice 0 32 nodebuffer ;;
  if nodeheight =? th_h th then
    node <~ rwith 0 32 (th_node th) (fun d => rcopy src d) ;;
    ths <~ rset (rb_treehash st) lvl (mkTH (th_h th) (th_next_idx th) usage true node) ;;
    ROk (mkRB (rb_stack st) off (rb_stacklevels st) (rb_auth st) (rb_keep st) ths (rb_retain st))
  else
    stack <~ rwith (off * 32) (off * 32 + 32) (rb_stack st) (fun d => rcopy src d) ;;
    levels <~ rset (rb_stacklevels st) off (nodeheight mod 256) ;;
    ths <~ rset (rb_treehash st) lvl
             (mkTH (th_h th) (th_next_idx th + 1) (usage + 1) (th_completed th) (th_node th)) ;;
    ROk (mkRB stack (off + 1) levels (rb_auth st) (rb_keep st) ths (rb_retain st)).

(** algsxmss_fast.rs:399-418: the choice of the instance. *)
Definition rs_bds_choose (st : rs_bds) (p : xmss_params) : rs (nat * nat) :=
  let h := x_h p in
  let k := x_k p in
  rfor (h - k) (fun i '(level, l_min) =>
    th <~ rget (rb_treehash st) i ;;
    low <~ (if th_completed th then ROk h
            else if th_stackusage th =? 0 then ROk i
            else rs_minheight st p th) ;;
    ROk (if low <? l_min then (i, low) else (level, l_min))) (h - k, h).

(** algsxmss_fast.rs:381-434 (the returned count is not used by the callers). *)
Fixpoint rs_bds_treehash_update (hf : hashfn) (updates : nat) (st : rs_bds) (sk_seed : list N)
    (p : xmss_params) (pub_seed : list N) (addr : adrs) {struct updates} : rs rs_bds :=
  match updates with
  | O => ROk st
  | S u =>
      '(level, _) <~ rs_bds_choose st p ;;
      if level =? x_h p - x_k p then ROk st
      else
        st <~ rs_treehash_update hf level st sk_seed p pub_seed addr ;;
        rs_bds_treehash_update hf u st sk_seed p pub_seed addr
  end.

(** algsxmss_fast.rs:586-591 *)
Fixpoint rs_find_tau (n : nat) (i : nat) (h : nat) (leaf_idx : nat) : nat :=
  match n with
  | O => h
  | S n' => if negb (Nat.testbit leaf_idx i) then i else rs_find_tau n' (S i) h leaf_idx
  end.

(** algsxmss_fast.rs:556-684 bds_round *)
Definition rs_bds_round (hf : hashfn) (st : rs_bds) (leaf_idx : nat) (sk_seed : list N) (p : xmss_params)
    (pub_seed : list N) (addr : adrs) : rs rs_bds :=
  let h := x_h p in
  let k := x_k p in
  let buf := repeat 0%N 64 in
  let ots_addr := rs_sub_addr addr 0 in
  let ltree_addr := rs_sub_addr addr 1 in
  let node_addr := rs_sub_addr addr 2 in
  let tau := rs_find_tau h 0 h leaf_idx in
  (* 592-604 *)
  buf <~ (if 0 <? tau then
            src <~ rslice ((tau - 1) * 32) ((tau - 1) * 32 + 32) (rb_auth st) ;;
            buf <~ rwith 0 32 buf (fun d => rcopy src d) ;;
            src <~ rslice ((tau - 1) / 2 * 32) ((tau - 1) / 2 * 32 + 32) (rb_keep st) ;;
            rwith 32 64 buf (fun d => rcopy src d)
          else ROk buf) ;;
  (* 605-614 *)
  keep <~ (if negb (Nat.testbit leaf_idx (tau + 1)) && (tau <? h - 1) then
             src <~ rslice (tau * 32) (tau * 32 + 32) (rb_auth st) ;;
             rwith (tau / 2 * 32) (tau / 2 * 32 + 32) (rb_keep st) (fun d => rcopy src d)
           else ROk (rb_keep st)) ;;
  if tau =? 0 then
    let ltree_addr := rs_set_ltree_adrs ltree_addr (u32 (N.of_nat leaf_idx)) in
    let ots_addr := rs_set_ots_adrs ots_addr (u32 (N.of_nat leaf_idx)) in
    '(auth, _, _) <~ rs_gen_leaf_wots hf (rb_auth st) sk_seed p pub_seed ltree_addr ots_addr ;;
    ROk (mkRB (rb_stack st) (rb_stackoffset st) (rb_stacklevels st) auth keep (rb_treehash st) (rb_retain st))
  else
    let node_addr := rs_set_tree_height node_addr (N.of_nat (tau - 1)) in
    let node_addr := rs_set_tree_index node_addr (u32 (N.of_nat (leaf_idx / 2 ^ tau))) in
    '(auth, _) <~ rwith_adr (tau * 32) (rb_auth st) (fun o => rs_hash_h hf o buf pub_seed node_addr) ;;
    (* 638-662 *)
    auth <~ rfor tau (fun i auth =>
              if i <? h - k then
                t <~ rget (rb_treehash st) i ;;
                src <~ rslice 0 32 (th_node t) ;;
                rwith (i * 32) (i * 32 + 32) auth (fun d => rcopy src d)
              else
                if (h <? 1 + i) || (2 ^ (h - 1 - i) + i <? h) || (leaf_idx / 2 ^ i <? 1) then RPanic else
                let offset := 2 ^ (h - 1 - i) + i - h in
                let rowidx := (leaf_idx / 2 ^ i - 1) / 2 in
                src <~ rslice ((offset + rowidx) * 32) ((offset + rowidx) * 32 + 32) (rb_retain st) ;;
                rwith (i * 32) (i * 32 + 32) auth (fun d => rcopy src d)) auth ;;
    (* 663-673 *)
    ths <~ rfor (if tau <? h - k then tau else h - k) (fun i ths =>
             let startidx := leaf_idx + 1 + 3 * 2 ^ i in
             if startidx <? 2 ^ h then
               t <~ rget ths i ;;
               rset ths i (mkTH i startidx 0 false (th_node t))
             else ROk ths) (rb_treehash st) ;;
    ROk (mkRB (rb_stack st) (rb_stackoffset st) (rb_stacklevels st) auth keep ths (rb_retain st)).

(** algsxmss_fast.rs:690-750 xmss_fast_gen_keypair: (sk, state); [pk] is a local
    buffer of the caller. *)
Definition rs_fast_gen_keypair (hf : hashfn) (p : xmss_params) (pk sk : list N) (st : rs_bds) (seed : list N)
  : rs (list N * rs_bds) :=
  if Nat.odd (x_h p) then RErr RInvalidArgument else
  sk <~ rset sk 0 0%N ;; sk <~ rset sk 1 0%N ;; sk <~ rset sk 2 0%N ;; sk <~ rset sk 3 0%N ;;
  randombits <~ rs_fips_shake256 (repeat 0%N 96) 96 seed 48 ;;
  src <~ rslice 0 96 randombits ;;
  sk <~ rwith 4 100 sk (fun d => rcopy src d) ;;
  src <~ rslice 68 100 sk ;;
  pk <~ rwith 32 64 pk (fun d => rcopy src d) ;;
  sk_seed <~ rslice 4 (length sk) sk ;;
  pub_seed <~ rslice 68 (length sk) sk ;;
  '(pk, st) <~ rs_treehash_setup hf pk st sk_seed p pub_seed zero_adrs ;;
  src <~ rslice 0 32 pk ;;
  sk <~ rwith 100 132 sk (fun d => rcopy src d) ;;
  ROk (sk, st).

(** bds_round followed by bds_treehash_update, algsxmss_fast.rs:790-804 and 930-943. *)
Definition rs_bds_step (hf : hashfn) (p : xmss_params) (sk_seed pub_seed : list N) (addr : adrs) (j : nat) (st : rs_bds)
  : rs rs_bds :=
  st <~ rs_bds_round hf st j sk_seed p pub_seed addr ;;
  rs_bds_treehash_update hf ((x_h p - x_k p) / 2) st sk_seed p pub_seed addr.

(** algsxmss_fast.rs:752-814 xmss_fast_update.  The outcome carries the key and the
    state also when the function returns [Err] ([inl]); the test [j >= num_elems] is
    dead because j < new_idx < num_elems. *)
Definition rs_fast_update (hf : hashfn) (p : xmss_params) (sk : list N) (st : rs_bds) (new_idx : N)
  : rs (list N * rs_bds * (rerr + unit)) :=
  if 32 <=? x_h p then RPanic else
  let num_elems := (2 ^ N.of_nat (x_h p))%N in
  current_idx <~ rs_be32 sk ;;
  if (num_elems <=? new_idx)%N then ROk (sk, st, inl RInvalidArgument) else
  if (new_idx <? current_idx)%N then ROk (sk, st, inl RInvalidArgument) else
  src <~ rslice 4 36 sk ;; sk_seed <~ rcopy src (repeat 0%N 32) ;;
  src <~ rslice 68 100 sk ;; pub_seed <~ rcopy src (repeat 0%N 32) ;;
  st <~ rfor_from (N.to_nat new_idx - N.to_nat current_idx) (N.to_nat current_idx)
          (fun j st => rs_bds_step hf p sk_seed pub_seed zero_adrs j st) st ;;
  sk <~ rs_store_be32 sk new_idx ;;
  ROk (sk, st, inr tt).

(** algsxmss_fast.rs:816-959 xmss_fast_sign_msg: (sk, state, signature buffer). *)
Definition rs_fast_sign_msg (hf : hashfn) (p : xmss_params) (sk : list N) (st : rs_bds) (sig_msg msg : list N)
  : rs (list N * rs_bds * list N) :=
  '(idx, sk_seed, pub_seed, sk, msg_h, sig_msg) <~ rs_sign_front hf sk sig_msg msg ;;
  let ots_addr := rs_set_type zero_adrs 0 in
  let ots_addr := rs_set_ots_adrs ots_addr idx in
  '(ots_seed, ots_addr) <~ rs_get_seed hf (repeat 0%N 32) sk_seed ots_addr ;;
  '(sig_msg, ots_addr) <~ rwith_adr 36 sig_msg (fun s => rs_wots_sign hf s msg_h ots_seed (x_wots p) pub_seed ots_addr) ;;
  src <~ rslice 0 (x_h p * 32) (rb_auth st) ;;
  sig_msg <~ rwith (36 + w_keysize (x_wots p)) (length sig_msg) sig_msg (fun s =>
    rwith 0 (x_h p * 32) s (fun d => rcopy src d)) ;;
  if 32 <=? x_h p then RPanic else
  st <~ (if (idx <? 2 ^ N.of_nat (x_h p) - 1)%N
         then rs_bds_step hf p sk_seed pub_seed ots_addr (N.to_nat idx) st
         else ROk st) ;;
  ROk (sk, st, sig_msg).
