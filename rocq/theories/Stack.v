(** The model once more with a stack of bounded size.  Local arrays, including the
    variable-length ones, live on the stack: every function first takes the space of its
    arrays from the [B] bytes that are left and the run is undefined when they do not
    suffice.  Each definition is the one of the same name without [_s] in HashAddress.v,
    Wots.v, XmssCommon.v, AlgsXmss.v, AlgsXmssFast.v and XmssObj.v with [B] passed down;
    the theorems of C87 prove that they agree when the stack is large enough.
    Simplification: only arrays are counted (n = 32), not scalars, saved registers or the
    arrays of constant size in fips202.c, so a real machine needs somewhat more. *)
From Coq Require Import List NArith Arith Lia Bool.
From Verif Require Import Base Bytes Keccak HashAddress Wots XmssCommon AlgsXmss AlgsXmssFast Descriptor XmssObj.
Import ListNotations.
Open Scope N_scope.

(** Entering a function whose local arrays take [n] bytes. *)
Definition frame {A} (B n : N) (k : N -> res A) : res A := if B <? n then UB else k (B - n).
Fixpoint mapM {A B} (f : A -> res B) (l : list A) : res (list B) :=
  match l with
  | [] => Ok []
  | a :: t => b <- f a ;; bs <- mapM f t ;; Ok (b :: bs)
  end.
(** wots.c:127,141,144 and 174,176,177: basew, csum_bytes, csum_basew (an int is 4 bytes). *)
Definition digits_frame (p : wots_params) : N :=
  4 * N.of_nat (w_len p) + N.of_nat ((w_len_2 p * w_log_w p + 7) / 8) + 4 * N.of_nat (w_len_2 p).

(** hash.c:26-85: the variable-length array of hash.c:35. *)
Definition core_hash_s (B : N) (hf : hashfn) (type : N) (key : list N) (keylen : N) (inp : list N) (inlen : N)
  : res (list N) :=
  frame B (inlen + 32 + keylen) (fun _ => Ok (core_hash hf type key inp)).
(** hash.c:90-95 *)
Definition prf_s (B : N) (hf : hashfn) (inp key : list N) : res (list N) := core_hash_s B hf 3 key 32 inp 32.
(** hash.c:100-108 *)
Definition h_msg_s (B : N) (hf : hashfn) (inp key : list N) : res (list N) :=
  core_hash_s B hf 2 key 96 inp (N.of_nat (length inp)).
(** hash.c:113-137; frame: hash.c:117-120 *)
Definition hash_h_s (B : N) (hf : hashfn) (inp pub_seed : list N) (addr : adrs) : res (list N * adrs) :=
  frame B (2 * 32 + 32 + 2 * 32 + 32) (fun B =>
  let addr := setKeyAndMask addr 0 in
  key <- prf_s B hf (addr_to_byte addr) pub_seed ;;
  let addr := setKeyAndMask addr 1 in
  mask0 <- prf_s B hf (addr_to_byte addr) pub_seed ;;
  let addr := setKeyAndMask addr 2 in
  mask1 <- prf_s B hf (addr_to_byte addr) pub_seed ;;
  let buf := xor_bytes inp (mask0 ++ mask1) in
  out <- core_hash_s B hf 1 key 32 buf 64 ;;
  Ok (out, addr)).
(** hash.c:139-160; frame: hash.c:142-145 *)
Definition hash_f_s (B : N) (hf : hashfn) (inp pub_seed : list N) (addr : adrs) : res (list N * adrs) :=
  frame B (32 + 32 + 32 + 32) (fun B =>
  let addr := setKeyAndMask addr 0 in
  key <- prf_s B hf (addr_to_byte addr) pub_seed ;;
  let addr := setKeyAndMask addr 1 in
  mask <- prf_s B hf (addr_to_byte addr) pub_seed ;;
  let buf := xor_bytes inp mask in
  out <- core_hash_s B hf 0 key 32 buf 32 ;;
  Ok (out, addr)).
(** algsxmss.c:19-31, algsxmss_fast.c:26-42; frame: algsxmss.c:23 *)
Definition get_seed_s (B : N) (hf : hashfn) (sk_seed : list N) (addr : adrs) : res (list N * adrs) :=
  frame B 32 (fun B =>
  let addr := setChainADRS addr 0 in
  let addr := setHashADRS addr 0 in
  let addr := setKeyAndMask addr 0 in
  out <- prf_s B hf (addr_to_byte addr) sk_seed ;;
  Ok (out, addr)).
(** wots.c:34-44; frame: wots.c:39 *)
Definition expand_seed_s (B : N) (hf : hashfn) (inseed : list N) (len : nat) : res (list (list N)) :=
  frame B 32 (fun B =>
  mapM (fun i => prf_s B hf (to_byte 32 (N.of_nat i)) inseed) (seq 0 len)).
(** wots.c:65-68 *)
Fixpoint gen_chain_loop_s (B : N) (hf : hashfn) (steps : nat) (i : N) (out : list N)
         (p : wots_params) (pub_seed : list N) (addr : adrs) : res (list N * adrs) :=
  match steps with
  | O => Ok (out, addr)
  | S k =>
      if i <? w_w p then
        let addr := setHashADRS addr i in
        '(out, addr) <- hash_f_s B hf out pub_seed addr ;;
        gen_chain_loop_s B hf k (i + 1) out p pub_seed addr
      else Ok (out, addr)
  end.
(** wots.c:53-69 *)
Definition gen_chain_s (B : N) (hf : hashfn) (inp : list N) (start steps : N)
         (p : wots_params) (pub_seed : list N) (addr : adrs) : res (list N * adrs) :=
  gen_chain_loop_s B hf (N.to_nat steps) start inp p pub_seed addr.
(** wots.c:106-116, 154-157, 194-199 *)
Fixpoint gen_chains_s (B : N) (hf : hashfn) (i : N) (jobs : list (list N * N * N))
         (p : wots_params) (pub_seed : list N) (addr : adrs) : res (list (list N) * adrs) :=
  match jobs with
  | [] => Ok ([], addr)
  | (c, start, steps) :: rest =>
      let addr := setChainADRS addr i in
      '(out, addr) <- gen_chain_s B hf c start steps p pub_seed addr ;;
      '(outs, addr) <- gen_chains_s B hf (i + 1) rest p pub_seed addr ;;
      Ok (out :: outs, addr)
  end.
(** wots.c:98-117 *)
Definition wots_pkgen_s (B : N) (hf : hashfn) (sk : list N) (p : wots_params) (pub_seed : list N)
         (addr : adrs) : res (list (list N) * adrs) :=
  cs <- expand_seed_s B hf sk (w_len p) ;;
  gen_chains_s B hf 0 (map (fun c => (c, 0, w_w p - 1)) cs) p pub_seed addr.
(** wots.c:120-158; frame: wots.c:127-144 *)
Definition wots_sign_s (B : N) (hf : hashfn) (msg sk : list N) (p : wots_params) (pub_seed : list N)
         (addr : adrs) : res (list (list N) * adrs) :=
  frame B (digits_frame p) (fun B =>
  basew <- (wots_digits msg p) ;;
  cs <- expand_seed_s B hf sk (w_len p) ;;
  gen_chains_s B hf 0 (map (fun cd => (fst cd, 0, snd cd)) (combine cs basew)) p pub_seed addr).
(** wots.c:160-200; frame: wots.c:174-177 *)
Definition wots_pkFromSig_s (B : N) (hf : hashfn) (sig : list (list N)) (msg : list N) (p : wots_params)
         (pub_seed : list N) (addr : adrs) : res (list (list N) * adrs) :=
  frame B (digits_frame p) (fun B =>
  basew <- (wots_digits msg p) ;;
  gen_chains_s B hf 0 (map (fun cd => (fst cd, snd cd, w_w p - 1 - snd cd)) (combine sig basew)) p pub_seed addr).
(** xmss_common.c:61-64 *)
Definition l_tree_pass_s (B : N) (hf : hashfn) (bound : nat) (pub_seed : list N)
  (s : list (list N) * adrs) : res (list (list N) * adrs) :=
  for_up bound (fun i '(pk, addr) =>
    let addr := setTreeIndex addr (N.of_nat i) in
    a <- (get pk (2 * i)%nat) ;;
    b <- (get pk (2 * i + 1)%nat) ;;
    '(out, addr) <- hash_h_s B hf (a ++ b) pub_seed addr ;;
    pk <- (set pk i out) ;;
    Ok (pk, addr)) s.
(** xmss_common.c:59-73 *)
Fixpoint l_tree_loop_s (B : N) (hf : hashfn) (fuel : nat) (l : nat) (height : N)
         (pub_seed : list N) (s : list (list N) * adrs) : res (list (list N) * adrs) :=
  if (l <=? 1)%nat then Ok s else
  match fuel with
  | O => UB
  | S f =>
      '(pk, addr) <- l_tree_pass_s B hf (l / 2) pub_seed s ;;
      '(pk, l') <- (if Nat.odd l then
           x <- get pk (l - 1)%nat ;;
           pk <- set pk (l / 2)%nat x ;;
           Ok (pk, (l / 2 + 1)%nat)
         else Ok (pk, (l / 2)%nat)) ;;
      let height := height + 1 in
      l_tree_loop_s B hf f l' height pub_seed (pk, setTreeHeight addr height)
  end.
(** xmss_common.c:45-75 *)
Definition l_tree_s (B : N) (hf : hashfn) (p : wots_params) (wots_pk : list (list N))
         (pub_seed : list N) (addr : adrs) : res (list N * adrs) :=
  '(pk, addr) <- l_tree_loop_s B hf (w_len p) (w_len p) 0 pub_seed (wots_pk, setTreeHeight addr 0) ;;
  leaf <- (get pk 0) ;;
  Ok (leaf, addr).
(** algsxmss.c:37-51, algsxmss_fast.c:71-86; frame: algsxmss.c:44-45 *)
Definition gen_leaf_wots_s (B : N) (hf : hashfn) (sk_seed : list N) (p : xmss_params) (pub_seed : list N)
         (ltree_addr ots_addr : adrs) : res (list N * adrs * adrs) :=
  frame B (32 + N.of_nat (w_keysize (x_wots p))) (fun B =>
  '(seed, ots_addr) <- get_seed_s B hf sk_seed ots_addr ;;
  '(pk, ots_addr) <- wots_pkgen_s B hf seed (x_wots p) pub_seed ots_addr ;;
  '(leaf, ltree_addr) <- l_tree_s B hf (x_wots p) pk pub_seed ltree_addr ;;
  Ok (leaf, ltree_addr, ots_addr)).
(** xmss_common.c:108-122 *)
Fixpoint validate_loop_s (B : N) (hf : hashfn) (n : nat) (i : N) (leafidx : N) (bl br : list N)
         (authpath : list (list N)) (pos : nat) (pub_seed : list N) (addr : adrs)
  : res (N * list N * list N * adrs) :=
  match n with
  | O => Ok (leafidx, bl, br, addr)
  | S n' =>
      let addr := setTreeHeight addr i in
      let leafidx := N.shiftr leafidx 1 in
      let addr := setTreeIndex addr leafidx in
      '(out, addr) <- hash_h_s B hf (bl ++ br) pub_seed addr ;;
      a <- (get authpath pos) ;;
      if N.odd leafidx
      then validate_loop_s B hf n' (i + 1) leafidx a out authpath (S pos) pub_seed addr
      else validate_loop_s B hf n' (i + 1) leafidx out a authpath (S pos) pub_seed addr
  end.
(** xmss_common.c:80-127; frame: xmss_common.c:91 *)
Definition validate_authpath_s (B : N) (hf : hashfn) (leaf : list N) (leafidx : N)
         (authpath : list (list N)) (h : nat) (pub_seed : list N) (addr : adrs) : res (list N) :=
  frame B (2 * 32) (fun B =>
  a <- (get authpath 0) ;;
  '(leafidx, bl, br, addr) <-
    (if N.odd leafidx
     then validate_loop_s B hf (h - 1) 0 leafidx a leaf authpath 1 pub_seed addr
     else validate_loop_s B hf (h - 1) 0 leafidx leaf a authpath 1 pub_seed addr) ;;
  let addr := setTreeHeight addr (N.of_nat (h - 1)) in
  let leafidx := N.shiftr leafidx 1 in
  let addr := setTreeIndex addr leafidx in
  '(out, _) <- hash_h_s B hf (bl ++ br) pub_seed addr ;;
  Ok out).
(** xmss_common.c:133-221; frame: xmss_common.c:147-159 *)
Definition xmss_Verifysig_s (B : N) (hf : hashfn) (wp : wots_params) (msg sig pk : list N) (h : nat) : res bool :=
  frame B (N.of_nat (w_keysize wp) + 3 * 32 + 3 * 32 + 32 + 3 * 32) (fun B =>
  let pub_seed := slice 32 32 pk in
  let ots_addr := setType zero_adrs 0 in
  let ltree_addr := setType zero_adrs 1 in
  let node_addr := setType zero_adrs 2 in
  let idx := from_be (slice 0 4 sig) in
  let hash_key := slice 4 32 sig ++ slice 0 32 pk ++ to_byte 32 idx in
  msg_h <- h_msg_s B hf msg hash_key ;;
  let ots_addr := setOTSADRS ots_addr idx in
  let wots_sig := chunks (w_len wp) 32 (skipn 36 sig) in
  '(wots_pk, _) <- wots_pkFromSig_s B hf wots_sig msg_h wp pub_seed ots_addr ;;
  let ltree_addr := setLtreeADRS ltree_addr idx in
  '(pkhash, _) <- l_tree_s B hf wp wots_pk pub_seed ltree_addr ;;
  let authpath := chunks h 32 (skipn (36 + w_keysize wp) sig) in
  root <- validate_authpath_s B hf pkhash idx authpath h pub_seed node_addr ;;
  Ok (bytes_eqb root (slice 0 32 pk))).
(** xmssBase.cpp:209-254 *)
Definition verify_body_s (B : N) (msg sig extended_pk : list N) (w : N) : res bool :=
  if negb (length extended_pk =? 67)%nat then Exn InvalidArgument else
  base <- (calculateSignatureBaseSize w) ;;
  if base + 254 * 32 <? N.of_nat (length sig) then Exn InvalidArgument else
  desc <- (descr_fromExtendedPK extended_pk) ;;
  if negb (d_sig desc =? 0) then Ok false else
  height <- (getHeightFromSigSize (N.of_nat (length sig)) w) ;;
  if (height =? 0) || negb (d_height desc =? height) then Ok false else
  if bad_height height then Exn InvalidArgument else
  p <- (xmss_set_params (N.to_nat height) w 2) ;;
  with_hash (d_hash desc) (fun hf =>
    xmss_Verifysig_s B hf (x_wots p) msg sig (skipn descr_getSize extended_pk) (N.to_nat height)).
(** xmssBase.cpp:203-259 *)
Definition verify_s (B : N) (msg sig extended_pk : list N) (w : N) : res bool :=
  match verify_body_s B msg sig extended_pk w with
  | Exn InvalidArgument => Ok false
  | r => r
  end.

(** algsxmss_fast.c:209-218 *)
Fixpoint update_while_s (B : N) (hf : hashfn) (usage : nat) (next_idx : nat) (pub_seed : list N)
         (stack : list (list N)) (levels : list nat) (off : nat)
         (node : list N) (nodeheight : nat) (node_addr : adrs)
  : res (list N * nat * nat * nat) :=
  match usage with
  | O => Ok (node, nodeheight, O, off)
  | S u =>
      if (off =? 0)%nat then UB else
      l <- (get levels (off - 1)%nat) ;;
      if negb (l =? nodeheight)%nat then Ok (node, nodeheight, usage, off) else
      left <- (get stack (off - 1)%nat) ;;
      let node_addr := setTreeHeight node_addr (N.of_nat nodeheight) in
      let node_addr := setTreeIndex node_addr (N.of_nat (next_idx / 2 ^ (nodeheight + 1))) in
      '(out, node_addr) <- hash_h_s B hf (left ++ node) pub_seed node_addr ;;
      update_while_s B hf u next_idx pub_seed stack levels (off - 1) out (nodeheight + 1) node_addr
  end.
(** algsxmss_fast.c:184-230; frame: algsxmss_fast.c:191-206 *)
Definition treehash_update_s (B : N) (hf : hashfn) (lvl : nat) (st : bds_state) (sk_seed : list N)
         (p : xmss_params) (pub_seed : list N) (addr : adrs) : res bds_state :=
  frame B (3 * 32 + 2 * 32) (fun B =>
  th <- (get (b_treehash st) lvl) ;;
  let ots_addr := copy_layer_tree addr 0 in
  let ltree_addr := copy_layer_tree addr 1 in
  let node_addr := copy_layer_tree addr 2 in
  let ltree_addr := setLtreeADRS ltree_addr (N.of_nat (th_next_idx th)) in
  let ots_addr := setOTSADRS ots_addr (N.of_nat (th_next_idx th)) in
  '(leaf, _, _) <- gen_leaf_wots_s B hf sk_seed p pub_seed ltree_addr ots_addr ;;
  '(node, nodeheight, usage, off) <-
    update_while_s B hf (th_stackusage th) (th_next_idx th) pub_seed
      (b_stack st) (b_stacklevels st) (b_stackoffset st) leaf 0 node_addr ;;
  if (nodeheight =? th_h th)%nat then
    ths <- (set (b_treehash st) lvl (mkTH (th_h th) (th_next_idx th) usage true node)) ;;
    Ok (mkBDS (b_stack st) off (b_stacklevels st) (b_auth st) (b_keep st) ths (b_retain st))
  else
    stack <- (set (b_stack st) off node) ;;
    levels <- (set (b_stacklevels st) off nodeheight) ;;
    ths <- (set (b_treehash st) lvl
             (mkTH (th_h th) (th_next_idx th + 1) (usage + 1) (th_completed th) (th_node th))) ;;
    Ok (mkBDS stack (off + 1) levels (b_auth st) (b_keep st) ths (b_retain st))).
(** algsxmss_fast.c:287-323 *)
Fixpoint bds_treehash_update_s (B : N) (hf : hashfn) (updates : nat) (st : bds_state) (sk_seed : list N)
         (p : xmss_params) (pub_seed : list N) (addr : adrs) : res bds_state :=
  match updates with
  | O => Ok st
  | S u =>
      '(level, _) <- (bds_choose st p) ;;
      if (level =? x_h p - x_k p)%nat then Ok st
      else
        st <- treehash_update_s B hf level st sk_seed p pub_seed addr ;;
        bds_treehash_update_s B hf u st sk_seed p pub_seed addr
  end.
(** algsxmss_fast.c:413-489; frame: algsxmss_fast.c:430-434 *)
Definition bds_round_s (B : N) (hf : hashfn) (st : bds_state) (leaf_idx : nat) (sk_seed : list N)
         (p : xmss_params) (pub_seed : list N) (addr : adrs) : res bds_state :=
  frame B (2 * 32 + 3 * 32) (fun B =>
  let h := x_h p in
  let k := x_k p in
  let ots_addr := copy_layer_tree addr 0 in
  let ltree_addr := copy_layer_tree addr 1 in
  let node_addr := copy_layer_tree addr 2 in
  let tau := find_tau h 0 h leaf_idx in
  buf <- (if (0 <? tau)%nat then
            a <- get (b_auth st) (tau - 1)%nat ;;
            c <- get (b_keep st) ((tau - 1) / 2)%nat ;;
            Ok (a ++ c)
          else Ok []) ;;
  keep <- (if (negb (Nat.testbit leaf_idx (tau + 1)) && (tau <? h - 1))%nat then
             a <- get (b_auth st) tau ;;
             set (b_keep st) (tau / 2)%nat a
           else Ok (b_keep st)) ;;
  if (tau =? 0)%nat then
    let ltree_addr := setLtreeADRS ltree_addr (N.of_nat leaf_idx) in
    let ots_addr := setOTSADRS ots_addr (N.of_nat leaf_idx) in
    '(leaf, _, _) <- gen_leaf_wots_s B hf sk_seed p pub_seed ltree_addr ots_addr ;;
    auth <- (set (b_auth st) 0 leaf) ;;
    Ok (mkBDS (b_stack st) (b_stackoffset st) (b_stacklevels st) auth keep (b_treehash st) (b_retain st))
  else
    let node_addr := setTreeHeight node_addr (N.of_nat (tau - 1)) in
    let node_addr := setTreeIndex node_addr (N.of_nat (leaf_idx / 2 ^ tau)) in
    '(out, _) <- hash_h_s B hf buf pub_seed node_addr ;;
    auth <- (set (b_auth st) tau out) ;;
    auth <- (for_up tau (fun i auth =>
              if (i <? h - k)%nat then
                t <- get (b_treehash st) i ;;
                set auth i (th_node t)
              else
                if ((h <? 1 + i) || (2 ^ (h - 1 - i) + i <? h) || (leaf_idx / 2 ^ i <? 1))%nat then UB else
                let offset := (2 ^ (h - 1 - i) + i - h)%nat in
                let rowidx := ((leaf_idx / 2 ^ i - 1) / 2)%nat in
                c <- get (b_retain st) (offset + rowidx)%nat ;;
                set auth i c) auth) ;;
    ths <- (for_up (if (tau <? h - k)%nat then tau else (h - k)%nat) (fun i ths =>
             let startidx := (leaf_idx + 1 + 3 * 2 ^ i)%nat in
             if (startidx <? 2 ^ h)%nat then
               t <- get ths i ;;
               set ths i (mkTH i startidx 0 false (th_node t))
             else Ok ths) (b_treehash st)) ;;
    Ok (mkBDS (b_stack st) (b_stackoffset st) (b_stacklevels st) auth keep ths (b_retain st))).
(** algsxmss_fast.c:567-581 *)
Definition bds_step_s (B : N) (hf : hashfn) (p : xmss_params) (sk_seed pub_seed : list N) (addr : adrs)
  (j : nat) (st : bds_state) : res bds_state :=
  st <- bds_round_s B hf st j sk_seed p pub_seed addr ;;
  bds_treehash_update_s B hf ((x_h p - x_k p) / 2) st sk_seed p pub_seed addr.
(** algsxmss_fast.c:533-590; frame: algsxmss_fast.c:559-565 *)
Definition xmssfast_update_s (B : N) (hf : hashfn) (p : xmss_params) (sk : list N) (st : bds_state)
         (new_idx : N) : res (list N * bds_state * (exn + unit)) :=
  frame B (32 + 32 + 32) (fun B =>
  let num_elems := 2 ^ N.of_nat (x_h p) in
  let current_idx := from_be (slice 0 4 sk) in
  if num_elems <=? new_idx then Ok (sk, st, inl InvalidArgument) else
  if new_idx <? current_idx then Ok (sk, st, inl InvalidArgument) else
  let sk_seed := slice 4 32 sk in
  let pub_seed := slice 68 32 sk in
  st <- for_from (N.to_nat new_idx - N.to_nat current_idx) (N.to_nat current_idx)
          (fun j st => bds_step_s B hf p sk_seed pub_seed zero_adrs j st) st ;;
  Ok (to_byte 4 new_idx ++ skipn 4 sk, st, inr tt)).
(** algsxmss_fast.c:592-700; frame: algsxmss_fast.c:606-631 *)
Definition xmssfast_Signmsg_s (B : N) (hf : hashfn) (p : xmss_params) (sk : list N) (st : bds_state)
         (msg : list N) : res (list N * bds_state * list N) :=
  frame B (3 * 32 + 32 + 3 * 32 + 3 * 32 + 32) (fun B =>
  let idx := from_be (slice 0 4 sk) in
  let sk_seed := slice 4 32 sk in
  let sk_prf := slice 36 32 sk in
  let pub_seed := slice 68 32 sk in
  let idx_bytes_32 := to_byte 32 idx in
  let sk' := to_byte 4 (idx + 1) ++ skipn 4 sk in
  R <- prf_s B hf idx_bytes_32 sk_prf ;;
  let hash_key := R ++ slice 100 32 sk ++ to_byte 32 idx in
  msg_h <- h_msg_s B hf msg hash_key ;;
  let ots_addr := setType zero_adrs 0 in
  let ots_addr := setOTSADRS ots_addr idx in
  '(ots_seed, ots_addr) <- get_seed_s B hf sk_seed ots_addr ;;
  '(wsig, ots_addr) <- wots_sign_s B hf msg_h ots_seed (x_wots p) pub_seed ots_addr ;;
  let sig := to_byte 4 idx ++ R ++ concat wsig ++ concat (firstn (x_h p) (b_auth st)) in
  st <- (if idx <? 2 ^ N.of_nat (x_h p) - 1
         then bds_step_s B hf p sk_seed pub_seed ots_addr (N.to_nat idx) st
         else Ok st) ;;
  Ok (sk', st, sig)).
(** xmssFast.cpp:68-77 *)
Definition xfast_setIndex_s (B : N) (o : xfast) (new_index : N) : res (xfast * (exn + N)) :=
  let b := xf_base o in
  with_hash (xb_hash b) (fun hf =>
    '(sk, st, r) <- xmssfast_update_s B hf (xb_params b) (xb_sk b) (xf_state o) new_index ;;
    let o := mkXF (with_sk b sk) st in
    match r with
    | inl e => Ok (o, inl e)
    | inr _ => Ok (o, inr new_index)
    end).
(** xmssFast.cpp:79-95 *)
Definition xfast_sign_s (B : N) (o : xfast) (msg : list N) : res (xfast * (exn + list N)) :=
  let index := getIndex (xf_base o) in
  '(o, r) <- xfast_setIndex_s B o index ;;
  match r with
  | inl e => Ok (o, inl e)
  | inr _ =>
      let b := xf_base o in
      with_hash (xb_hash b) (fun hf =>
        '(sk, st, sig) <- xmssfast_Signmsg_s B hf (xb_params b) (xb_sk b) (xf_state o) msg ;;
        Ok (mkXF (with_sk b sk) st, inr sig))
  end.

(** algsxmss.c:115-167; frame: algsxmss.c:127-131 *)
Definition compute_authpath_wots_s (B : N) (hf : hashfn) (junk : list N) (leaf_idx : nat) (sk_seed : list N)
         (p : xmss_params) (pub_seed : list N) (addr : adrs) : res (list N * list (list N)) :=
  frame B (2 * 2 ^ N.of_nat (x_h p) * 32 + 3 * 32) (fun B =>
  let h := x_h p in
  if (26 <=? h)%nat then UB else
  let tree := repeat junk (2 * 2 ^ h) in
  let ots_addr := copy_layer_tree addr 0 in
  let ltree_addr := copy_layer_tree addr 1 in
  let node_addr := copy_layer_tree addr 2 in
  '(tree, _, _) <-
    for_up (2 ^ h) (fun i '(tree, ots_addr, ltree_addr) =>
      let ltree_addr := setLtreeADRS ltree_addr (N.of_nat i) in
      let ots_addr := setOTSADRS ots_addr (N.of_nat i) in
      '(leaf, ltree_addr, ots_addr) <- gen_leaf_wots_s B hf sk_seed p pub_seed ltree_addr ots_addr ;;
      tree <- (set tree (2 ^ h + i) leaf) ;;
      Ok (tree, ots_addr, ltree_addr)) (tree, ots_addr, ltree_addr) ;;
  '(tree, _) <-
    for_up h (fun level '(tree, node_addr) =>
      let i := (2 ^ (h - level))%nat in
      let node_addr := setTreeHeight node_addr (N.of_nat level) in
      for_up (i / 2) (fun j2 '(tree, node_addr) =>
        let node_addr := setTreeIndex node_addr (N.of_nat j2) in
        a <- (get tree (i + 2 * j2)%nat) ;;
        b <- (get tree (i + 2 * j2 + 1)%nat) ;;
        '(out, node_addr) <- hash_h_s B hf (a ++ b) pub_seed node_addr ;;
        tree <- (set tree (i / 2 + j2)%nat out) ;;
        Ok (tree, node_addr)) (tree, node_addr)) (tree, node_addr) ;;
  authpath <- (for_up h (fun i acc =>
      c <- get tree (2 ^ h / 2 ^ i + Nat.lxor (leaf_idx / 2 ^ i) 1)%nat ;;
      Ok (acc ++ [c])) []) ;;
  root <- (get tree 1) ;;
  Ok (root, authpath)).
(** algsxmss.c:218-318; frame: algsxmss.c:230-257 *)
Definition xmss_Signmsg_s (B : N) (hf : hashfn) (junk : list N) (p : xmss_params) (sk msg : list N)
  : res (list N * list N) :=
  frame B (3 * 32 + 32 + 3 * 32 + 4 * 32 + 32) (fun B =>
  let idx := from_be (slice 0 4 sk) in
  let sk_seed := slice 4 32 sk in
  let sk_prf := slice 36 32 sk in
  let pub_seed := slice 68 32 sk in
  let idx_bytes_32 := to_byte 32 idx in
  let sk' := to_byte 4 (u32 (idx + 1)) ++ skipn 4 sk in
  R <- prf_s B hf idx_bytes_32 sk_prf ;;
  let hash_key := R ++ slice 100 32 sk ++ to_byte 32 idx in
  msg_h <- h_msg_s B hf msg hash_key ;;
  let ots_addr := setType zero_adrs 0 in
  let ots_addr := setOTSADRS ots_addr idx in
  '(ots_seed, ots_addr) <- get_seed_s B hf sk_seed ots_addr ;;
  '(wsig, ots_addr) <- wots_sign_s B hf msg_h ots_seed (x_wots p) pub_seed ots_addr ;;
  '(_, authpath) <- compute_authpath_wots_s B hf junk (N.to_nat idx) sk_seed p pub_seed ots_addr ;;
  Ok (sk', to_byte 4 idx ++ R ++ concat wsig ++ concat authpath)).
(** xmssBasic.cpp:52-63 *)
Definition XmssBasic_sign_s (B : N) (junk : list N) (o : xbase) (msg : list N) : res (xbase * list N) :=
  with_hash (xb_hash o) (fun hf =>
    '(sk, sig) <- xmss_Signmsg_s B hf junk (xb_params o) (xb_sk o) msg ;;
    Ok (with_sk o sk, sig)).

(** algsxmss.c:97-104 *)
Fixpoint treehash_while_s (B : N) (hf : hashfn) (fuel : nat) (idx : nat) (pub_seed : list N)
         (stack : list (list N)) (levels : list nat) (off : nat) (node_addr : adrs) {struct fuel}
  : res (list (list N) * list nat * nat * adrs) :=
  if (off <=? 1)%nat then Ok (stack, levels, off, node_addr) else
  l1 <- (get levels (off - 1)%nat) ;;
  l2 <- (get levels (off - 2)%nat) ;;
  if negb (l1 =? l2)%nat then Ok (stack, levels, off, node_addr) else
  match fuel with
  | O => UB
  | S f =>
      let node_addr := setTreeHeight node_addr (N.of_nat l1) in
      let node_addr := setTreeIndex node_addr (N.of_nat (idx / 2 ^ (l1 + 1))) in
      a <- (get stack (off - 2)%nat) ;;
      b <- (get stack (off - 1)%nat) ;;
      '(out, node_addr) <- hash_h_s B hf (a ++ b) pub_seed node_addr ;;
      stack <- (set stack (off - 2)%nat out) ;;
      levels <- (set levels (off - 2)%nat (l2 + 1)%nat) ;;
      treehash_while_s B hf f idx pub_seed stack levels (off - 1) node_addr
  end.
(** algsxmss.c:59-108; frame: algsxmss.c:72-86 *)
Definition treehash_s (B : N) (hf : hashfn) (junk : list N) (h : nat) (sk_seed : list N) (p : xmss_params)
         (pub_seed : list N) (addr : adrs) : res (list N) :=
  frame B (3 * 32 + N.of_nat (h + 1) * 32 + N.of_nat (h + 1) * 2) (fun B =>
  let ots_addr := copy_layer_tree addr 0 in
  let ltree_addr := copy_layer_tree addr 1 in
  let node_addr := copy_layer_tree addr 2 in
  let stack := repeat junk (h + 1) in
  let levels := repeat 0%nat (h + 1) in
  '(stack, _, _, _, _, _) <-
    for_up (2 ^ h) (fun idx '(stack, levels, off, ots_addr, ltree_addr, node_addr) =>
      let ltree_addr := setLtreeADRS ltree_addr (N.of_nat idx) in
      let ots_addr := setOTSADRS ots_addr (N.of_nat idx) in
      '(leaf, ltree_addr, ots_addr) <- gen_leaf_wots_s B hf sk_seed p pub_seed ltree_addr ots_addr ;;
      stack <- (set stack off leaf) ;;
      levels <- (set levels off 0%nat) ;;
      let off := S off in
      '(stack, levels, off, node_addr) <-
        treehash_while_s B hf off idx pub_seed stack levels off node_addr ;;
      Ok (stack, levels, off, ots_addr, ltree_addr, node_addr))
      (stack, levels, 0%nat, ots_addr, ltree_addr, node_addr) ;;
  (get stack 0)).
(** algsxmss.c:170-197; frame: algsxmss.c:183-190 *)
Definition xmss_Genkeypair_s (B : N) (hf : hashfn) (junk : list N) (p : xmss_params) (seed : list N)
  : res (list N) :=
  frame B (3 * 32 + 32) (fun B =>
  let randombits := shake256 96 (firstn 48 seed) in
  let sk_seed := slice 0 32 randombits in
  let pub_seed := slice 64 32 randombits in
  root <- treehash_s B hf junk (x_h p) sk_seed p pub_seed zero_adrs ;;
  Ok ([0; 0; 0; 0] ++ randombits ++ root)).
(** xmssBasic.cpp:9-49 *)
Definition XmssBasic_new_s (B : N) (junk seed : list N) (height hash fmt w : N) : res xbase :=
  _ <- (check_seed seed height) ;;
  if bad_height height then Exn InvalidArgument else
  p <- (xmss_set_params (N.to_nat height) w 2) ;;
  if 31 <=? height then UB else
  with_hash hash (fun hf =>
    sk <- xmss_Genkeypair_s B hf junk p seed ;;
    Ok (mkXB p hash fmt height sk seed)).

(** algsxmss_fast.c:156-176 *)
Fixpoint setup_while_s (B : N) (hf : hashfn) (fuel : nat) (h k : nat) (i : nat) (pub_seed : list N)
         (stack : list (list N)) (levels : list nat) (off : nat) (node_addr : adrs)
         (auth : list (list N)) (ths : list treehash_inst) (retain : list (list N)) {struct fuel}
  : res (list (list N) * list nat * nat * adrs * list (list N) * list treehash_inst * list (list N)) :=
  if (off <=? 1)%nat then Ok (stack, levels, off, node_addr, auth, ths, retain) else
  l1 <- (get levels (off - 1)%nat) ;;
  l2 <- (get levels (off - 2)%nat) ;;
  if negb (l1 =? l2)%nat then Ok (stack, levels, off, node_addr, auth, ths, retain) else
  match fuel with
  | O => UB
  | S f =>
      let nodeh := l1 in
      top <- (get stack (off - 1)%nat) ;;
      '(auth, ths, retain) <- (if (i / 2 ^ nodeh =? 1)%nat then
           auth <- set auth nodeh top ;; Ok (auth, ths, retain)
         else if ((nodeh <? h - k) && (i / 2 ^ nodeh =? 3))%nat then
           ths <- set_th_node ths nodeh top ;; Ok (auth, ths, retain)
         else if (h - k <=? nodeh)%nat then
           if ((h <? 1 + nodeh) || (2 ^ (h - 1 - nodeh) + nodeh <? h) || (i / 2 ^ nodeh <? 3))%nat then UB else
           retain <- set retain (2 ^ (h - 1 - nodeh) + nodeh - h + (i / 2 ^ nodeh - 3) / 2)%nat top ;;
           Ok (auth, ths, retain)
         else Ok (auth, ths, retain)) ;;
      let node_addr := setTreeHeight node_addr (N.of_nat l1) in
      let node_addr := setTreeIndex node_addr (N.of_nat (i / 2 ^ (l1 + 1))) in
      a <- (get stack (off - 2)%nat) ;;
      '(out, node_addr) <- hash_h_s B hf (a ++ top) pub_seed node_addr ;;
      stack <- (set stack (off - 2)%nat out) ;;
      levels <- (set levels (off - 2)%nat (l2 + 1)%nat) ;;
      setup_while_s B hf f h k i pub_seed stack levels (off - 1) node_addr auth ths retain
  end.
(** algsxmss_fast.c:104-182; frame: algsxmss_fast.c:119-133 *)
Definition treehash_setup_s (B : N) (hf : hashfn) (junk : list N) (st : bds_state) (sk_seed : list N)
         (p : xmss_params) (pub_seed : list N) (addr : adrs) : res (list N * bds_state) :=
  frame B (3 * 32 + N.of_nat (x_h p + 1) * 32 + N.of_nat (x_h p + 1) * 4) (fun B =>
  let h := x_h p in
  let k := x_k p in
  let ots_addr := copy_layer_tree addr 0 in
  let ltree_addr := copy_layer_tree addr 1 in
  let node_addr := copy_layer_tree addr 2 in
  let stack := repeat junk (h + 1) in
  let levels := repeat 0%nat (h + 1) in
  ths <- (for_up (h - k) (fun i ths =>
           t <- get ths i ;;
           set ths i (mkTH i (th_next_idx t) 0 true (th_node t))) (b_treehash st)) ;;
  '(stack, _, _, _, _, _, auth, ths, retain) <-
    for_up (2 ^ h) (fun i '(stack, levels, off, ots_addr, ltree_addr, node_addr, auth, ths, retain) =>
      let ltree_addr := setLtreeADRS ltree_addr (N.of_nat i) in
      let ots_addr := setOTSADRS ots_addr (N.of_nat i) in
      '(leaf, ltree_addr, ots_addr) <- gen_leaf_wots_s B hf sk_seed p pub_seed ltree_addr ots_addr ;;
      stack <- (set stack off leaf) ;;
      levels <- (set levels off 0%nat) ;;
      let off := S off in
      ths <- (if ((0 <? h - k) && (i =? 3))%nat
              then c <- get stack off ;; set_th_node ths 0 c
              else Ok ths) ;;
      '(stack, levels, off, node_addr, auth, ths, retain) <-
        setup_while_s B hf off h k i pub_seed stack levels off node_addr auth ths retain ;;
      Ok (stack, levels, off, ots_addr, ltree_addr, node_addr, auth, ths, retain))
      (stack, levels, 0%nat, ots_addr, ltree_addr, node_addr, b_auth st, ths, b_retain st) ;;
  root <- (get stack 0) ;;
  Ok (root, mkBDS (b_stack st) (b_stackoffset st) (b_stacklevels st) auth (b_keep st) ths retain)).
(** algsxmss_fast.c:496-531; frame: algsxmss_fast.c:517-524 *)
Definition xmssfast_Genkeypair_s (B : N) (hf : hashfn) (junk : list N) (p : xmss_params) (st : bds_state)
         (seed : list N) : res (list N * bds_state) :=
  frame B (3 * 32 + 32) (fun B =>
  let randombits := shake256 96 (firstn 48 seed) in
  let sk_seed := slice 0 32 randombits in
  let pub_seed := slice 64 32 randombits in
  '(root, st) <- treehash_setup_s B hf junk st sk_seed p pub_seed zero_adrs ;;
  Ok ([0; 0; 0; 0] ++ randombits ++ root, st)).
(** xmssFast.cpp:22-66 *)
Definition initialize_tree_s (B : N) (junk seed : list N) (height hash fmt w : N) : res xfast :=
  if bad_height height then Exn InvalidArgument else
  p <- (xmss_set_params (N.to_nat height) w 2) ;;
  if 31 <=? height then UB else
  with_hash hash (fun hf =>
    '(sk, st) <- xmssfast_Genkeypair_s B hf junk p (fresh_bds (x_h p) (x_k p)) seed ;;
    Ok (mkXF (mkXB p hash fmt height sk seed) st)).
(** xmssFast.cpp:7-14 *)
Definition XmssFast_new_s (B : N) (junk seed : list N) (height hash fmt : N) : res xfast :=
  _ <- (check_seed seed height) ;;
  initialize_tree_s B junk seed height hash fmt 16.
(** xmssFast.cpp:16-20 *)
Definition XmssFast_from_extended_seed_s (B : N) (junk es : list N) : res xfast :=
  '(seed, height, hash, fmt) <- (parse_extended_seed es) ;;
  initialize_tree_s B junk seed height hash fmt 16.
(** xmssFast.cpp:22-66, a second call *)
Definition xfast_initialize_tree_s (B : N) (junk : list N) (o : xfast) (w : N) : res xfast :=
  let b := xf_base o in
  initialize_tree_s B junk (xb_seed b) (xb_height b) (xb_hash b) (xb_fmt b) w.
