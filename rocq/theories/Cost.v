(** The model of signing and verifying once more, counting calls of the hash function
    (core_hash, hash.c:26-85) and nothing else.  Each definition is the one of the same
    name without [_c] in HashAddress.v, Wots.v, XmssCommon.v, AlgsXmss.v,
    AlgsXmssFast.v and XmssObj.v with the count threaded through; C82_erasure proves
    that forgetting the count gives that definition back. *)
From Coq Require Import List NArith Arith Lia Bool.
From Verif Require Import Base Bytes Keccak HashAddress Wots XmssCommon AlgsXmss AlgsXmssFast Descriptor XmssObj.
Import ListNotations.
Open Scope N_scope.

(** A result and the number of hash calls made.  No call of the library throws after it
    has hashed, so exceptions carry no count. *)
Definition cres (A : Type) : Type := res (A * N).
Definition cret {A} (a : A) : cres A := Ok (a, 0).
Definition clift {A} (m : res A) : cres A := a <- m ;; Ok (a, 0).
Definition cbind {A B} (m : cres A) (k : A -> cres B) : cres B :=
  '(a, n) <- m ;; '(b, n') <- k a ;; Ok (b, n + n').
Definition erase {A} (m : cres A) : res A := '(a, _) <- m ;; Ok a.
Declare Scope cres_scope.
Open Scope cres_scope.
Notation "x <~ m ;; k" := (cbind m (fun x => k)) (at level 61, m at next level, right associativity) : cres_scope.
Notation "' p <~ m ;; k" := (cbind m (fun p => k)) (at level 61, p pattern, m at next level, right associativity) : cres_scope.
Fixpoint cfor_from {S} (n : nat) (a : nat) (f : nat -> S -> cres S) (s : S) : cres S :=
  match n with
  | O => cret s
  | Datatypes.S n' => s' <~ f a s ;; cfor_from n' (Datatypes.S a) f s'
  end.
Definition cfor_up {S} (n : nat) (f : nat -> S -> cres S) (s : S) : cres S := cfor_from n 0 f s.
Fixpoint cmap {A B} (f : A -> cres B) (l : list A) : cres (list B) :=
  match l with
  | [] => cret []
  | a :: t => b <~ f a ;; bs <~ cmap f t ;; cret (b :: bs)
  end.

(** hash.c:26-85: the one place that counts. *)
Definition core_hash_c (hf : hashfn) (type : N) (key inp : list N) : cres (list N) := Ok (core_hash hf type key inp, 1).
(** hash.c:90-95 *)
Definition prf_c (hf : hashfn) (inp key : list N) : cres (list N) := core_hash_c hf 3 key inp.
(** hash.c:100-108 *)
Definition h_msg_c (hf : hashfn) (inp key : list N) : cres (list N) := core_hash_c hf 2 key inp.
(** hash.c:113-137 *)
Definition hash_h_c (hf : hashfn) (inp pub_seed : list N) (addr : adrs) : cres (list N * adrs) :=
  let addr := setKeyAndMask addr 0 in
  key <~ prf_c hf (addr_to_byte addr) pub_seed ;;
  let addr := setKeyAndMask addr 1 in
  mask0 <~ prf_c hf (addr_to_byte addr) pub_seed ;;
  let addr := setKeyAndMask addr 2 in
  mask1 <~ prf_c hf (addr_to_byte addr) pub_seed ;;
  let buf := xor_bytes inp (mask0 ++ mask1) in
  out <~ core_hash_c hf 1 key buf ;;
  cret (out, addr).
(** hash.c:139-160 *)
Definition hash_f_c (hf : hashfn) (inp pub_seed : list N) (addr : adrs) : cres (list N * adrs) :=
  let addr := setKeyAndMask addr 0 in
  key <~ prf_c hf (addr_to_byte addr) pub_seed ;;
  let addr := setKeyAndMask addr 1 in
  mask <~ prf_c hf (addr_to_byte addr) pub_seed ;;
  let buf := xor_bytes inp mask in
  out <~ core_hash_c hf 0 key buf ;;
  cret (out, addr).
(** algsxmss.c:19-31, algsxmss_fast.c:26-42 *)
Definition get_seed_c (hf : hashfn) (sk_seed : list N) (addr : adrs) : cres (list N * adrs) :=
  let addr := setChainADRS addr 0 in
  let addr := setHashADRS addr 0 in
  let addr := setKeyAndMask addr 0 in
  out <~ prf_c hf (addr_to_byte addr) sk_seed ;;
  cret (out, addr).

(** wots.c:34-44 *)
Definition expand_seed_c (hf : hashfn) (inseed : list N) (len : nat) : cres (list (list N)) :=
  cmap (fun i => prf_c hf (to_byte 32 (N.of_nat i)) inseed) (seq 0 len).
(** wots.c:65-68 *)
Fixpoint gen_chain_loop_c (hf : hashfn) (steps : nat) (i : N) (out : list N)
         (p : wots_params) (pub_seed : list N) (addr : adrs) : cres (list N * adrs) :=
  match steps with
  | O => cret (out, addr)
  | S k =>
      if i <? w_w p then
        let addr := setHashADRS addr i in
        '(out, addr) <~ hash_f_c hf out pub_seed addr ;;
        gen_chain_loop_c hf k (i + 1) out p pub_seed addr
      else cret (out, addr)
  end.
(** wots.c:53-69 *)
Definition gen_chain_c (hf : hashfn) (inp : list N) (start steps : N)
         (p : wots_params) (pub_seed : list N) (addr : adrs) : cres (list N * adrs) :=
  gen_chain_loop_c hf (N.to_nat steps) start inp p pub_seed addr.
(** wots.c:106-116, 154-157, 194-199 *)
Fixpoint gen_chains_c (hf : hashfn) (i : N) (jobs : list (list N * N * N))
         (p : wots_params) (pub_seed : list N) (addr : adrs) : cres (list (list N) * adrs) :=
  match jobs with
  | [] => cret ([], addr)
  | (c, start, steps) :: rest =>
      let addr := setChainADRS addr i in
      '(out, addr) <~ gen_chain_c hf c start steps p pub_seed addr ;;
      '(outs, addr) <~ gen_chains_c hf (i + 1) rest p pub_seed addr ;;
      cret (out :: outs, addr)
  end.
(** wots.c:98-117 *)
Definition wots_pkgen_c (hf : hashfn) (sk : list N) (p : wots_params) (pub_seed : list N)
         (addr : adrs) : cres (list (list N) * adrs) :=
  cs <~ expand_seed_c hf sk (w_len p) ;;
  gen_chains_c hf 0 (map (fun c => (c, 0, w_w p - 1)) cs) p pub_seed addr.
(** wots.c:120-158 *)
Definition wots_sign_c (hf : hashfn) (msg sk : list N) (p : wots_params) (pub_seed : list N)
         (addr : adrs) : cres (list (list N) * adrs) :=
  basew <~ clift (wots_digits msg p) ;;
  cs <~ expand_seed_c hf sk (w_len p) ;;
  gen_chains_c hf 0 (map (fun cd => (fst cd, 0, snd cd)) (combine cs basew)) p pub_seed addr.
(** wots.c:160-200 *)
Definition wots_pkFromSig_c (hf : hashfn) (sig : list (list N)) (msg : list N) (p : wots_params)
         (pub_seed : list N) (addr : adrs) : cres (list (list N) * adrs) :=
  basew <~ clift (wots_digits msg p) ;;
  gen_chains_c hf 0 (map (fun cd => (fst cd, snd cd, w_w p - 1 - snd cd)) (combine sig basew)) p pub_seed addr.

(** xmss_common.c:61-64 *)
Definition l_tree_pass_c (hf : hashfn) (bound : nat) (pub_seed : list N)
  (s : list (list N) * adrs) : cres (list (list N) * adrs) :=
  cfor_up bound (fun i '(pk, addr) =>
    let addr := setTreeIndex addr (N.of_nat i) in
    a <~ clift (get pk (2 * i)%nat) ;;
    b <~ clift (get pk (2 * i + 1)%nat) ;;
    '(out, addr) <~ hash_h_c hf (a ++ b) pub_seed addr ;;
    pk <~ clift (set pk i out) ;;
    cret (pk, addr)) s.
(** xmss_common.c:59-73 *)
Fixpoint l_tree_loop_c (hf : hashfn) (fuel : nat) (l : nat) (height : N)
         (pub_seed : list N) (s : list (list N) * adrs) : cres (list (list N) * adrs) :=
  if (l <=? 1)%nat then cret s else
  match fuel with
  | O => UB
  | S f =>
      '(pk, addr) <~ l_tree_pass_c hf (l / 2) pub_seed s ;;
      '(pk, l') <~ clift
        (if Nat.odd l then
           x <- get pk (l - 1)%nat ;;
           pk <- set pk (l / 2)%nat x ;;
           Ok (pk, (l / 2 + 1)%nat)
         else Ok (pk, (l / 2)%nat)) ;;
      let height := height + 1 in
      l_tree_loop_c hf f l' height pub_seed (pk, setTreeHeight addr height)
  end.
(** xmss_common.c:45-75 *)
Definition l_tree_c (hf : hashfn) (p : wots_params) (wots_pk : list (list N))
         (pub_seed : list N) (addr : adrs) : cres (list N * adrs) :=
  '(pk, addr) <~ l_tree_loop_c hf (w_len p) (w_len p) 0 pub_seed (wots_pk, setTreeHeight addr 0) ;;
  leaf <~ clift (get pk 0) ;;
  cret (leaf, addr).
(** algsxmss.c:37-51, algsxmss_fast.c:71-86 *)
Definition gen_leaf_wots_c (hf : hashfn) (sk_seed : list N) (p : xmss_params) (pub_seed : list N)
         (ltree_addr ots_addr : adrs) : cres (list N * adrs * adrs) :=
  '(seed, ots_addr) <~ get_seed_c hf sk_seed ots_addr ;;
  '(pk, ots_addr) <~ wots_pkgen_c hf seed (x_wots p) pub_seed ots_addr ;;
  '(leaf, ltree_addr) <~ l_tree_c hf (x_wots p) pk pub_seed ltree_addr ;;
  cret (leaf, ltree_addr, ots_addr).

(** xmss_common.c:108-122 *)
Fixpoint validate_loop_c (hf : hashfn) (n : nat) (i : N) (leafidx : N) (bl br : list N)
         (authpath : list (list N)) (pos : nat) (pub_seed : list N) (addr : adrs)
  : cres (N * list N * list N * adrs) :=
  match n with
  | O => cret (leafidx, bl, br, addr)
  | S n' =>
      let addr := setTreeHeight addr i in
      let leafidx := N.shiftr leafidx 1 in
      let addr := setTreeIndex addr leafidx in
      '(out, addr) <~ hash_h_c hf (bl ++ br) pub_seed addr ;;
      a <~ clift (get authpath pos) ;;
      if N.odd leafidx
      then validate_loop_c hf n' (i + 1) leafidx a out authpath (S pos) pub_seed addr
      else validate_loop_c hf n' (i + 1) leafidx out a authpath (S pos) pub_seed addr
  end.
(** xmss_common.c:80-127 *)
Definition validate_authpath_c (hf : hashfn) (leaf : list N) (leafidx : N)
         (authpath : list (list N)) (h : nat) (pub_seed : list N) (addr : adrs) : cres (list N) :=
  a <~ clift (get authpath 0) ;;
  '(leafidx, bl, br, addr) <~
    (if N.odd leafidx
     then validate_loop_c hf (h - 1) 0 leafidx a leaf authpath 1 pub_seed addr
     else validate_loop_c hf (h - 1) 0 leafidx leaf a authpath 1 pub_seed addr) ;;
  let addr := setTreeHeight addr (N.of_nat (h - 1)) in
  let leafidx := N.shiftr leafidx 1 in
  let addr := setTreeIndex addr leafidx in
  '(out, _) <~ hash_h_c hf (bl ++ br) pub_seed addr ;;
  cret out.
(** xmss_common.c:133-221 *)
Definition xmss_Verifysig_c (hf : hashfn) (wp : wots_params) (msg sig pk : list N) (h : nat) : cres bool :=
  let pub_seed := slice 32 32 pk in
  let ots_addr := setType zero_adrs 0 in
  let ltree_addr := setType zero_adrs 1 in
  let node_addr := setType zero_adrs 2 in
  let idx := from_be (slice 0 4 sig) in
  let hash_key := slice 4 32 sig ++ slice 0 32 pk ++ to_byte 32 idx in
  msg_h <~ h_msg_c hf msg hash_key ;;
  let ots_addr := setOTSADRS ots_addr idx in
  let wots_sig := chunks (w_len wp) 32 (skipn 36 sig) in
  '(wots_pk, _) <~ wots_pkFromSig_c hf wots_sig msg_h wp pub_seed ots_addr ;;
  let ltree_addr := setLtreeADRS ltree_addr idx in
  '(pkhash, _) <~ l_tree_c hf wp wots_pk pub_seed ltree_addr ;;
  let authpath := chunks h 32 (skipn (36 + w_keysize wp) sig) in
  root <~ validate_authpath_c hf pkhash idx authpath h pub_seed node_addr ;;
  cret (bytes_eqb root (slice 0 32 pk)).
(** xmssBase.cpp:209-254 *)
Definition verify_body_c (msg sig extended_pk : list N) (w : N) : cres bool :=
  if negb (length extended_pk =? 67)%nat then Exn InvalidArgument else
  base <~ clift (calculateSignatureBaseSize w) ;;
  if base + 254 * 32 <? N.of_nat (length sig) then Exn InvalidArgument else
  desc <~ clift (descr_fromExtendedPK extended_pk) ;;
  if negb (d_sig desc =? 0) then cret false else
  height <~ clift (getHeightFromSigSize (N.of_nat (length sig)) w) ;;
  if (height =? 0) || negb (d_height desc =? height) then cret false else
  if bad_height height then Exn InvalidArgument else
  p <~ clift (xmss_set_params (N.to_nat height) w 2) ;;
  with_hash (d_hash desc) (fun hf =>
    xmss_Verifysig_c hf (x_wots p) msg sig (skipn descr_getSize extended_pk) (N.to_nat height)).
(** xmssBase.cpp:203-259 *)
Definition verify_c (msg sig extended_pk : list N) (w : N) : cres bool :=
  match verify_body_c msg sig extended_pk w with
  | Exn InvalidArgument => cret false
  | r => r
  end.

(** algsxmss_fast.c:209-218 *)
Fixpoint update_while_c (hf : hashfn) (usage : nat) (next_idx : nat) (pub_seed : list N)
         (stack : list (list N)) (levels : list nat) (off : nat)
         (node : list N) (nodeheight : nat) (node_addr : adrs)
  : cres (list N * nat * nat * nat) :=
  match usage with
  | O => cret (node, nodeheight, O, off)
  | S u =>
      if (off =? 0)%nat then UB else
      l <~ clift (get levels (off - 1)%nat) ;;
      if negb (l =? nodeheight)%nat then cret (node, nodeheight, usage, off) else
      left <~ clift (get stack (off - 1)%nat) ;;
      let node_addr := setTreeHeight node_addr (N.of_nat nodeheight) in
      let node_addr := setTreeIndex node_addr (N.of_nat (next_idx / 2 ^ (nodeheight + 1))) in
      '(out, node_addr) <~ hash_h_c hf (left ++ node) pub_seed node_addr ;;
      update_while_c hf u next_idx pub_seed stack levels (off - 1) out (nodeheight + 1) node_addr
  end.
(** algsxmss_fast.c:184-230 *)
Definition treehash_update_c (hf : hashfn) (lvl : nat) (st : bds_state) (sk_seed : list N)
         (p : xmss_params) (pub_seed : list N) (addr : adrs) : cres bds_state :=
  th <~ clift (get (b_treehash st) lvl) ;;
  let ots_addr := copy_layer_tree addr 0 in
  let ltree_addr := copy_layer_tree addr 1 in
  let node_addr := copy_layer_tree addr 2 in
  let ltree_addr := setLtreeADRS ltree_addr (N.of_nat (th_next_idx th)) in
  let ots_addr := setOTSADRS ots_addr (N.of_nat (th_next_idx th)) in
  '(leaf, _, _) <~ gen_leaf_wots_c hf sk_seed p pub_seed ltree_addr ots_addr ;;
  '(node, nodeheight, usage, off) <~
    update_while_c hf (th_stackusage th) (th_next_idx th) pub_seed
      (b_stack st) (b_stacklevels st) (b_stackoffset st) leaf 0 node_addr ;;
  if (nodeheight =? th_h th)%nat then
    ths <~ clift (set (b_treehash st) lvl (mkTH (th_h th) (th_next_idx th) usage true node)) ;;
    cret (mkBDS (b_stack st) off (b_stacklevels st) (b_auth st) (b_keep st) ths (b_retain st))
  else
    stack <~ clift (set (b_stack st) off node) ;;
    levels <~ clift (set (b_stacklevels st) off nodeheight) ;;
    ths <~ clift (set (b_treehash st) lvl
             (mkTH (th_h th) (th_next_idx th + 1) (usage + 1) (th_completed th) (th_node th))) ;;
    cret (mkBDS stack (off + 1) levels (b_auth st) (b_keep st) ths (b_retain st)).
(** algsxmss_fast.c:287-323 *)
Fixpoint bds_treehash_update_c (hf : hashfn) (updates : nat) (st : bds_state) (sk_seed : list N)
         (p : xmss_params) (pub_seed : list N) (addr : adrs) : cres bds_state :=
  match updates with
  | O => cret st
  | S u =>
      '(level, _) <~ clift (bds_choose st p) ;;
      if (level =? x_h p - x_k p)%nat then cret st
      else
        st <~ treehash_update_c hf level st sk_seed p pub_seed addr ;;
        bds_treehash_update_c hf u st sk_seed p pub_seed addr
  end.
(** algsxmss_fast.c:413-489 *)
Definition bds_round_c (hf : hashfn) (st : bds_state) (leaf_idx : nat) (sk_seed : list N)
         (p : xmss_params) (pub_seed : list N) (addr : adrs) : cres bds_state :=
  let h := x_h p in
  let k := x_k p in
  let ots_addr := copy_layer_tree addr 0 in
  let ltree_addr := copy_layer_tree addr 1 in
  let node_addr := copy_layer_tree addr 2 in
  let tau := find_tau h 0 h leaf_idx in
  buf <~ clift (if (0 <? tau)%nat then
            a <- get (b_auth st) (tau - 1)%nat ;;
            c <- get (b_keep st) ((tau - 1) / 2)%nat ;;
            Ok (a ++ c)
          else Ok []) ;;
  keep <~ clift (if (negb (Nat.testbit leaf_idx (tau + 1)) && (tau <? h - 1))%nat then
             a <- get (b_auth st) tau ;;
             set (b_keep st) (tau / 2)%nat a
           else Ok (b_keep st)) ;;
  if (tau =? 0)%nat then
    let ltree_addr := setLtreeADRS ltree_addr (N.of_nat leaf_idx) in
    let ots_addr := setOTSADRS ots_addr (N.of_nat leaf_idx) in
    '(leaf, _, _) <~ gen_leaf_wots_c hf sk_seed p pub_seed ltree_addr ots_addr ;;
    auth <~ clift (set (b_auth st) 0 leaf) ;;
    cret (mkBDS (b_stack st) (b_stackoffset st) (b_stacklevels st) auth keep (b_treehash st) (b_retain st))
  else
    let node_addr := setTreeHeight node_addr (N.of_nat (tau - 1)) in
    let node_addr := setTreeIndex node_addr (N.of_nat (leaf_idx / 2 ^ tau)) in
    '(out, _) <~ hash_h_c hf buf pub_seed node_addr ;;
    auth <~ clift (set (b_auth st) tau out) ;;
    auth <~ clift (for_up tau (fun i auth =>
              if (i <? h - k)%nat then
                t <- get (b_treehash st) i ;;
                set auth i (th_node t)
              else
                if ((h <? 1 + i) || (2 ^ (h - 1 - i) + i <? h) || (leaf_idx / 2 ^ i <? 1))%nat then UB else
                let offset := (2 ^ (h - 1 - i) + i - h)%nat in
                let rowidx := ((leaf_idx / 2 ^ i - 1) / 2)%nat in
                c <- get (b_retain st) (offset + rowidx)%nat ;;
                set auth i c) auth) ;;
    ths <~ clift (for_up (if (tau <? h - k)%nat then tau else (h - k)%nat) (fun i ths =>
             let startidx := (leaf_idx + 1 + 3 * 2 ^ i)%nat in
             if (startidx <? 2 ^ h)%nat then
               t <- get ths i ;;
               set ths i (mkTH i startidx 0 false (th_node t))
             else Ok ths) (b_treehash st)) ;;
    cret (mkBDS (b_stack st) (b_stackoffset st) (b_stacklevels st) auth keep ths (b_retain st)).
(** algsxmss_fast.c:567-581 *)
Definition bds_step_c (hf : hashfn) (p : xmss_params) (sk_seed pub_seed : list N) (addr : adrs)
  (j : nat) (st : bds_state) : cres bds_state :=
  st <~ bds_round_c hf st j sk_seed p pub_seed addr ;;
  bds_treehash_update_c hf ((x_h p - x_k p) / 2) st sk_seed p pub_seed addr.
(** algsxmss_fast.c:533-590 *)
Definition xmssfast_update_c (hf : hashfn) (p : xmss_params) (sk : list N) (st : bds_state)
         (new_idx : N) : cres (list N * bds_state * (exn + unit)) :=
  let num_elems := 2 ^ N.of_nat (x_h p) in
  let current_idx := from_be (slice 0 4 sk) in
  if num_elems <=? new_idx then cret (sk, st, inl InvalidArgument) else
  if new_idx <? current_idx then cret (sk, st, inl InvalidArgument) else
  let sk_seed := slice 4 32 sk in
  let pub_seed := slice 68 32 sk in
  st <~ cfor_from (N.to_nat new_idx - N.to_nat current_idx) (N.to_nat current_idx)
          (fun j st => bds_step_c hf p sk_seed pub_seed zero_adrs j st) st ;;
  cret (to_byte 4 new_idx ++ skipn 4 sk, st, inr tt).
(** algsxmss_fast.c:592-700 *)
Definition xmssfast_Signmsg_c (hf : hashfn) (p : xmss_params) (sk : list N) (st : bds_state)
         (msg : list N) : cres (list N * bds_state * list N) :=
  let idx := from_be (slice 0 4 sk) in
  let sk_seed := slice 4 32 sk in
  let sk_prf := slice 36 32 sk in
  let pub_seed := slice 68 32 sk in
  let idx_bytes_32 := to_byte 32 idx in
  let sk' := to_byte 4 (idx + 1) ++ skipn 4 sk in
  R <~ prf_c hf idx_bytes_32 sk_prf ;;
  let hash_key := R ++ slice 100 32 sk ++ to_byte 32 idx in
  msg_h <~ h_msg_c hf msg hash_key ;;
  let ots_addr := setType zero_adrs 0 in
  let ots_addr := setOTSADRS ots_addr idx in
  '(ots_seed, ots_addr) <~ get_seed_c hf sk_seed ots_addr ;;
  '(wsig, ots_addr) <~ wots_sign_c hf msg_h ots_seed (x_wots p) pub_seed ots_addr ;;
  let sig := to_byte 4 idx ++ R ++ concat wsig ++ concat (firstn (x_h p) (b_auth st)) in
  st <~ (if idx <? 2 ^ N.of_nat (x_h p) - 1
         then bds_step_c hf p sk_seed pub_seed ots_addr (N.to_nat idx) st
         else cret st) ;;
  cret (sk', st, sig).
(** xmssFast.cpp:68-77 *)
Definition xfast_setIndex_c (o : xfast) (new_index : N) : cres (xfast * (exn + N)) :=
  let b := xf_base o in
  with_hash (xb_hash b) (fun hf =>
    '(sk, st, r) <~ xmssfast_update_c hf (xb_params b) (xb_sk b) (xf_state o) new_index ;;
    let o := mkXF (with_sk b sk) st in
    match r with
    | inl e => cret (o, inl e)
    | inr _ => cret (o, inr new_index)
    end).
(** xmssFast.cpp:79-95 *)
Definition xfast_sign_c (o : xfast) (msg : list N) : cres (xfast * (exn + list N)) :=
  let index := getIndex (xf_base o) in
  '(o, r) <~ xfast_setIndex_c o index ;;
  match r with
  | inl e => cret (o, inl e)
  | inr _ =>
      let b := xf_base o in
      with_hash (xb_hash b) (fun hf =>
        '(sk, st, sig) <~ xmssfast_Signmsg_c hf (xb_params b) (xb_sk b) (xf_state o) msg ;;
        cret (mkXF (with_sk b sk) st, inr sig))
  end.

(** algsxmss.c:115-167 *)
Definition compute_authpath_wots_c (hf : hashfn) (junk : list N) (leaf_idx : nat) (sk_seed : list N)
         (p : xmss_params) (pub_seed : list N) (addr : adrs) : cres (list N * list (list N)) :=
  let h := x_h p in
  if (26 <=? h)%nat then UB else
  let tree := repeat junk (2 * 2 ^ h) in
  let ots_addr := copy_layer_tree addr 0 in
  let ltree_addr := copy_layer_tree addr 1 in
  let node_addr := copy_layer_tree addr 2 in
  '(tree, _, _) <~
    cfor_up (2 ^ h) (fun i '(tree, ots_addr, ltree_addr) =>
      let ltree_addr := setLtreeADRS ltree_addr (N.of_nat i) in
      let ots_addr := setOTSADRS ots_addr (N.of_nat i) in
      '(leaf, ltree_addr, ots_addr) <~ gen_leaf_wots_c hf sk_seed p pub_seed ltree_addr ots_addr ;;
      tree <~ clift (set tree (2 ^ h + i) leaf) ;;
      cret (tree, ots_addr, ltree_addr)) (tree, ots_addr, ltree_addr) ;;
  '(tree, _) <~
    cfor_up h (fun level '(tree, node_addr) =>
      let i := (2 ^ (h - level))%nat in
      let node_addr := setTreeHeight node_addr (N.of_nat level) in
      cfor_up (i / 2) (fun j2 '(tree, node_addr) =>
        let node_addr := setTreeIndex node_addr (N.of_nat j2) in
        a <~ clift (get tree (i + 2 * j2)%nat) ;;
        b <~ clift (get tree (i + 2 * j2 + 1)%nat) ;;
        '(out, node_addr) <~ hash_h_c hf (a ++ b) pub_seed node_addr ;;
        tree <~ clift (set tree (i / 2 + j2)%nat out) ;;
        cret (tree, node_addr)) (tree, node_addr)) (tree, node_addr) ;;
  authpath <~ clift
    (for_up h (fun i acc =>
      c <- get tree (2 ^ h / 2 ^ i + Nat.lxor (leaf_idx / 2 ^ i) 1)%nat ;;
      Ok (acc ++ [c])) []) ;;
  root <~ clift (get tree 1) ;;
  cret (root, authpath).
(** algsxmss.c:218-318 *)
Definition xmss_Signmsg_c (hf : hashfn) (junk : list N) (p : xmss_params) (sk msg : list N)
  : cres (list N * list N) :=
  let idx := from_be (slice 0 4 sk) in
  let sk_seed := slice 4 32 sk in
  let sk_prf := slice 36 32 sk in
  let pub_seed := slice 68 32 sk in
  let idx_bytes_32 := to_byte 32 idx in
  let sk' := to_byte 4 (u32 (idx + 1)) ++ skipn 4 sk in
  R <~ prf_c hf idx_bytes_32 sk_prf ;;
  let hash_key := R ++ slice 100 32 sk ++ to_byte 32 idx in
  msg_h <~ h_msg_c hf msg hash_key ;;
  let ots_addr := setType zero_adrs 0 in
  let ots_addr := setOTSADRS ots_addr idx in
  '(ots_seed, ots_addr) <~ get_seed_c hf sk_seed ots_addr ;;
  '(wsig, ots_addr) <~ wots_sign_c hf msg_h ots_seed (x_wots p) pub_seed ots_addr ;;
  '(_, authpath) <~ compute_authpath_wots_c hf junk (N.to_nat idx) sk_seed p pub_seed ots_addr ;;
  cret (sk', to_byte 4 idx ++ R ++ concat wsig ++ concat authpath).
(** xmssBasic.cpp:52-63 *)
Definition XmssBasic_sign_c (junk : list N) (o : xbase) (msg : list N) : cres (xbase * list N) :=
  with_hash (xb_hash o) (fun hf =>
    '(sk, sig) <~ xmss_Signmsg_c hf junk (xb_params o) (xb_sk o) msg ;;
    cret (with_sk o sk, sig)).
