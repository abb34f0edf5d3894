(** Key generation and signing once more, recording every tweakable hash call instead of
    counting calls: which address was hashed with which input ([hcall], SpecTweak.v).  Each definition is the one of
    the same name without [_t] in Wots.v, XmssCommon.v, AlgsXmss.v, AlgsXmssFast.v and
    XmssObj.v with the log threaded through; C89_erasure proves that forgetting the log gives
    that definition back.  Not recorded: the SHAKE256 call that expands the seed
    (algsxmss.c:184, algsxmss_fast.c:516), which takes no address. *)
From Coq Require Import List NArith Arith Lia Bool.
From Verif Require Import Base Bytes Keccak HashAddress Wots XmssCommon AlgsXmss AlgsXmssFast Descriptor SpecApi XmssObj SpecTweak.
Import ListNotations.
Open Scope N_scope.

(** A result and the calls made, first call first. *)
Definition tres (A : Type) : Type := res (A * list hcall).
Definition tret {A} (a : A) : tres A := Ok (a, []).
Definition tlift {A} (m : res A) : tres A := a <- m ;; Ok (a, []).
Definition tbind {A B} (m : tres A) (k : A -> tres B) : tres B :=
  '(a, l) <- m ;; '(b, l') <- k a ;; Ok (b, l ++ l').
Definition forget {A} (m : tres A) : res A := '(a, _) <- m ;; Ok a.
Declare Scope tres_scope.
Open Scope tres_scope.
Notation "x <~ m ;; k" := (tbind m (fun x => k)) (at level 61, m at next level, right associativity) : tres_scope.
Notation "' p <~ m ;; k" := (tbind m (fun p => k)) (at level 61, p pattern, m at next level, right associativity) : tres_scope.
Fixpoint tfor_from {S} (n : nat) (a : nat) (f : nat -> S -> tres S) (s : S) : tres S :=
  match n with
  | O => tret s
  | Datatypes.S n' => s' <~ f a s ;; tfor_from n' (Datatypes.S a) f s'
  end.
Definition tfor_up {S} (n : nat) (f : nat -> S -> tres S) (s : S) : tres S := tfor_from n 0 f s.
Fixpoint tmap {A B} (f : A -> tres B) (l : list A) : tres (list B) :=
  match l with
  | [] => tret []
  | a :: t => b <~ f a ;; bs <~ tmap f t ;; tret (b :: bs)
  end.

(** hash.c:90-95 *)
Definition prf_t (hf : hashfn) (inp key : list N) : tres (list N) := Ok (prf hf inp key, [EvPrf key inp]).
(** hash.c:100-108 *)
Definition h_msg_t (hf : hashfn) (inp key : list N) : tres (list N) := Ok (h_msg hf inp key, [EvMsg key inp]).
(** hash.c:113-137 *)
Definition hash_h_t (hf : hashfn) (inp pub_seed : list N) (addr : adrs) : tres (list N * adrs) :=
  Ok (hash_h hf inp pub_seed addr, [EvH (addr_to_byte (setKeyAndMask addr 0)) inp]).
(** hash.c:139-160 *)
Definition hash_f_t (hf : hashfn) (inp pub_seed : list N) (addr : adrs) : tres (list N * adrs) :=
  Ok (hash_f hf inp pub_seed addr, [EvF (addr_to_byte (setKeyAndMask addr 0)) inp]).
(** algsxmss.c:19-31, algsxmss_fast.c:26-42 *)
Definition get_seed_t (hf : hashfn) (sk_seed : list N) (addr : adrs) : tres (list N * adrs) :=
  let addr := setChainADRS addr 0 in
  let addr := setHashADRS addr 0 in
  let addr := setKeyAndMask addr 0 in
  out <~ prf_t hf (addr_to_byte addr) sk_seed ;;
  tret (out, addr).

(** wots.c:34-44 *)
Definition expand_seed_t (hf : hashfn) (inseed : list N) (len : nat) : tres (list (list N)) :=
  tmap (fun i => prf_t hf (to_byte 32 (N.of_nat i)) inseed) (seq 0 len).
(** wots.c:65-68 *)
Fixpoint gen_chain_loop_t (hf : hashfn) (steps : nat) (i : N) (out : list N)
         (p : wots_params) (pub_seed : list N) (addr : adrs) : tres (list N * adrs) :=
  match steps with
  | O => tret (out, addr)
  | S k =>
      if i <? w_w p then
        let addr := setHashADRS addr i in
        '(out, addr) <~ hash_f_t hf out pub_seed addr ;;
        gen_chain_loop_t hf k (i + 1) out p pub_seed addr
      else tret (out, addr)
  end.
(** wots.c:53-69 *)
Definition gen_chain_t (hf : hashfn) (inp : list N) (start steps : N)
         (p : wots_params) (pub_seed : list N) (addr : adrs) : tres (list N * adrs) :=
  gen_chain_loop_t hf (N.to_nat steps) start inp p pub_seed addr.
(** wots.c:106-116, 154-157, 194-199 *)
Fixpoint gen_chains_t (hf : hashfn) (i : N) (jobs : list (list N * N * N))
         (p : wots_params) (pub_seed : list N) (addr : adrs) : tres (list (list N) * adrs) :=
  match jobs with
  | [] => tret ([], addr)
  | (c, start, steps) :: rest =>
      let addr := setChainADRS addr i in
      '(out, addr) <~ gen_chain_t hf c start steps p pub_seed addr ;;
      '(outs, addr) <~ gen_chains_t hf (i + 1) rest p pub_seed addr ;;
      tret (out :: outs, addr)
  end.
(** wots.c:98-117 *)
Definition wots_pkgen_t (hf : hashfn) (sk : list N) (p : wots_params) (pub_seed : list N)
         (addr : adrs) : tres (list (list N) * adrs) :=
  cs <~ expand_seed_t hf sk (w_len p) ;;
  gen_chains_t hf 0 (map (fun c => (c, 0, w_w p - 1)) cs) p pub_seed addr.
(** wots.c:120-158 *)
Definition wots_sign_t (hf : hashfn) (msg sk : list N) (p : wots_params) (pub_seed : list N)
         (addr : adrs) : tres (list (list N) * adrs) :=
  basew <~ tlift (wots_digits msg p) ;;
  cs <~ expand_seed_t hf sk (w_len p) ;;
  gen_chains_t hf 0 (map (fun cd => (fst cd, 0, snd cd)) (combine cs basew)) p pub_seed addr.
(** wots.c:160-200 *)
Definition wots_pkFromSig_t (hf : hashfn) (sig : list (list N)) (msg : list N) (p : wots_params)
         (pub_seed : list N) (addr : adrs) : tres (list (list N) * adrs) :=
  basew <~ tlift (wots_digits msg p) ;;
  gen_chains_t hf 0 (map (fun cd => (fst cd, snd cd, w_w p - 1 - snd cd)) (combine sig basew)) p pub_seed addr.

(** xmss_common.c:61-64 *)
Definition l_tree_pass_t (hf : hashfn) (bound : nat) (pub_seed : list N)
  (s : list (list N) * adrs) : tres (list (list N) * adrs) :=
  tfor_up bound (fun i '(pk, addr) =>
    let addr := setTreeIndex addr (N.of_nat i) in
    a <~ tlift (get pk (2 * i)%nat) ;;
    b <~ tlift (get pk (2 * i + 1)%nat) ;;
    '(out, addr) <~ hash_h_t hf (a ++ b) pub_seed addr ;;
    pk <~ tlift (set pk i out) ;;
    tret (pk, addr)) s.
(** xmss_common.c:59-73 *)
Fixpoint l_tree_loop_t (hf : hashfn) (fuel : nat) (l : nat) (height : N)
         (pub_seed : list N) (s : list (list N) * adrs) : tres (list (list N) * adrs) :=
  if (l <=? 1)%nat then tret s else
  match fuel with
  | O => UB
  | S f =>
      '(pk, addr) <~ l_tree_pass_t hf (l / 2) pub_seed s ;;
      '(pk, l') <~ tlift
        (if Nat.odd l then
           x <- get pk (l - 1)%nat ;;
           pk <- set pk (l / 2)%nat x ;;
           Ok (pk, (l / 2 + 1)%nat)
         else Ok (pk, (l / 2)%nat)) ;;
      let height := height + 1 in
      l_tree_loop_t hf f l' height pub_seed (pk, setTreeHeight addr height)
  end.
(** xmss_common.c:45-75 *)
Definition l_tree_t (hf : hashfn) (p : wots_params) (wots_pk : list (list N))
         (pub_seed : list N) (addr : adrs) : tres (list N * adrs) :=
  '(pk, addr) <~ l_tree_loop_t hf (w_len p) (w_len p) 0 pub_seed (wots_pk, setTreeHeight addr 0) ;;
  leaf <~ tlift (get pk 0) ;;
  tret (leaf, addr).
(** algsxmss.c:37-51, algsxmss_fast.c:71-86 *)
Definition gen_leaf_wots_t (hf : hashfn) (sk_seed : list N) (p : xmss_params) (pub_seed : list N)
         (ltree_addr ots_addr : adrs) : tres (list N * adrs * adrs) :=
  '(seed, ots_addr) <~ get_seed_t hf sk_seed ots_addr ;;
  '(pk, ots_addr) <~ wots_pkgen_t hf seed (x_wots p) pub_seed ots_addr ;;
  '(leaf, ltree_addr) <~ l_tree_t hf (x_wots p) pk pub_seed ltree_addr ;;
  tret (leaf, ltree_addr, ots_addr).

(** algsxmss_fast.c:209-218 *)
Fixpoint update_while_t (hf : hashfn) (usage : nat) (next_idx : nat) (pub_seed : list N)
         (stack : list (list N)) (levels : list nat) (off : nat)
         (node : list N) (nodeheight : nat) (node_addr : adrs)
  : tres (list N * nat * nat * nat) :=
  match usage with
  | O => tret (node, nodeheight, O, off)
  | S u =>
      if (off =? 0)%nat then UB else
      l <~ tlift (get levels (off - 1)%nat) ;;
      if negb (l =? nodeheight)%nat then tret (node, nodeheight, usage, off) else
      left <~ tlift (get stack (off - 1)%nat) ;;
      let node_addr := setTreeHeight node_addr (N.of_nat nodeheight) in
      let node_addr := setTreeIndex node_addr (N.of_nat (next_idx / 2 ^ (nodeheight + 1))) in
      '(out, node_addr) <~ hash_h_t hf (left ++ node) pub_seed node_addr ;;
      update_while_t hf u next_idx pub_seed stack levels (off - 1) out (nodeheight + 1) node_addr
  end.
(** algsxmss_fast.c:184-230 *)
Definition treehash_update_t (hf : hashfn) (lvl : nat) (st : bds_state) (sk_seed : list N)
         (p : xmss_params) (pub_seed : list N) (addr : adrs) : tres bds_state :=
  th <~ tlift (get (b_treehash st) lvl) ;;
  let ots_addr := copy_layer_tree addr 0 in
  let ltree_addr := copy_layer_tree addr 1 in
  let node_addr := copy_layer_tree addr 2 in
  let ltree_addr := setLtreeADRS ltree_addr (N.of_nat (th_next_idx th)) in
  let ots_addr := setOTSADRS ots_addr (N.of_nat (th_next_idx th)) in
  '(leaf, _, _) <~ gen_leaf_wots_t hf sk_seed p pub_seed ltree_addr ots_addr ;;
  '(node, nodeheight, usage, off) <~
    update_while_t hf (th_stackusage th) (th_next_idx th) pub_seed
      (b_stack st) (b_stacklevels st) (b_stackoffset st) leaf 0 node_addr ;;
  if (nodeheight =? th_h th)%nat then
    ths <~ tlift (set (b_treehash st) lvl (mkTH (th_h th) (th_next_idx th) usage true node)) ;;
    tret (mkBDS (b_stack st) off (b_stacklevels st) (b_auth st) (b_keep st) ths (b_retain st))
  else
    stack <~ tlift (set (b_stack st) off node) ;;
    levels <~ tlift (set (b_stacklevels st) off nodeheight) ;;
    ths <~ tlift (set (b_treehash st) lvl
             (mkTH (th_h th) (th_next_idx th + 1) (usage + 1) (th_completed th) (th_node th))) ;;
    tret (mkBDS stack (off + 1) levels (b_auth st) (b_keep st) ths (b_retain st)).
(** algsxmss_fast.c:287-323 *)
Fixpoint bds_treehash_update_t (hf : hashfn) (updates : nat) (st : bds_state) (sk_seed : list N)
         (p : xmss_params) (pub_seed : list N) (addr : adrs) : tres bds_state :=
  match updates with
  | O => tret st
  | S u =>
      '(level, _) <~ tlift (bds_choose st p) ;;
      if (level =? x_h p - x_k p)%nat then tret st
      else
        st <~ treehash_update_t hf level st sk_seed p pub_seed addr ;;
        bds_treehash_update_t hf u st sk_seed p pub_seed addr
  end.
(** algsxmss_fast.c:413-489 *)
Definition bds_round_t (hf : hashfn) (st : bds_state) (leaf_idx : nat) (sk_seed : list N)
         (p : xmss_params) (pub_seed : list N) (addr : adrs) : tres bds_state :=
  let h := x_h p in
  let k := x_k p in
  let ots_addr := copy_layer_tree addr 0 in
  let ltree_addr := copy_layer_tree addr 1 in
  let node_addr := copy_layer_tree addr 2 in
  let tau := find_tau h 0 h leaf_idx in
  buf <~ tlift (if (0 <? tau)%nat then
            a <- get (b_auth st) (tau - 1)%nat ;;
            c <- get (b_keep st) ((tau - 1) / 2)%nat ;;
            Ok (a ++ c)
          else Ok []) ;;
  keep <~ tlift (if (negb (Nat.testbit leaf_idx (tau + 1)) && (tau <? h - 1))%nat then
             a <- get (b_auth st) tau ;;
             set (b_keep st) (tau / 2)%nat a
           else Ok (b_keep st)) ;;
  if (tau =? 0)%nat then
    let ltree_addr := setLtreeADRS ltree_addr (N.of_nat leaf_idx) in
    let ots_addr := setOTSADRS ots_addr (N.of_nat leaf_idx) in
    '(leaf, _, _) <~ gen_leaf_wots_t hf sk_seed p pub_seed ltree_addr ots_addr ;;
    auth <~ tlift (set (b_auth st) 0 leaf) ;;
    tret (mkBDS (b_stack st) (b_stackoffset st) (b_stacklevels st) auth keep (b_treehash st) (b_retain st))
  else
    let node_addr := setTreeHeight node_addr (N.of_nat (tau - 1)) in
    let node_addr := setTreeIndex node_addr (N.of_nat (leaf_idx / 2 ^ tau)) in
    '(out, _) <~ hash_h_t hf buf pub_seed node_addr ;;
    auth <~ tlift (set (b_auth st) tau out) ;;
    auth <~ tlift (for_up tau (fun i auth =>
              if (i <? h - k)%nat then
                t <- get (b_treehash st) i ;;
                set auth i (th_node t)
              else
                if ((h <? 1 + i) || (2 ^ (h - 1 - i) + i <? h) || (leaf_idx / 2 ^ i <? 1))%nat then UB else
                let offset := (2 ^ (h - 1 - i) + i - h)%nat in
                let rowidx := ((leaf_idx / 2 ^ i - 1) / 2)%nat in
                c <- get (b_retain st) (offset + rowidx)%nat ;;
                set auth i c) auth) ;;
    ths <~ tlift (for_up (if (tau <? h - k)%nat then tau else (h - k)%nat) (fun i ths =>
             let startidx := (leaf_idx + 1 + 3 * 2 ^ i)%nat in
             if (startidx <? 2 ^ h)%nat then
               t <- get ths i ;;
               set ths i (mkTH i startidx 0 false (th_node t))
             else Ok ths) (b_treehash st)) ;;
    tret (mkBDS (b_stack st) (b_stackoffset st) (b_stacklevels st) auth keep ths (b_retain st)).
(** algsxmss_fast.c:567-581 *)
Definition bds_step_t (hf : hashfn) (p : xmss_params) (sk_seed pub_seed : list N) (addr : adrs)
  (j : nat) (st : bds_state) : tres bds_state :=
  st <~ bds_round_t hf st j sk_seed p pub_seed addr ;;
  bds_treehash_update_t hf ((x_h p - x_k p) / 2) st sk_seed p pub_seed addr.
(** algsxmss_fast.c:533-590 *)
Definition xmssfast_update_t (hf : hashfn) (p : xmss_params) (sk : list N) (st : bds_state)
         (new_idx : N) : tres (list N * bds_state * (exn + unit)) :=
  let num_elems := 2 ^ N.of_nat (x_h p) in
  let current_idx := from_be (slice 0 4 sk) in
  if num_elems <=? new_idx then tret (sk, st, inl InvalidArgument) else
  if new_idx <? current_idx then tret (sk, st, inl InvalidArgument) else
  let sk_seed := slice 4 32 sk in
  let pub_seed := slice 68 32 sk in
  st <~ tfor_from (N.to_nat new_idx - N.to_nat current_idx) (N.to_nat current_idx)
          (fun j st => bds_step_t hf p sk_seed pub_seed zero_adrs j st) st ;;
  tret (to_byte 4 new_idx ++ skipn 4 sk, st, inr tt).
(** algsxmss_fast.c:592-700 *)
Definition xmssfast_Signmsg_t (hf : hashfn) (p : xmss_params) (sk : list N) (st : bds_state)
         (msg : list N) : tres (list N * bds_state * list N) :=
  let idx := from_be (slice 0 4 sk) in
  let sk_seed := slice 4 32 sk in
  let sk_prf := slice 36 32 sk in
  let pub_seed := slice 68 32 sk in
  let idx_bytes_32 := to_byte 32 idx in
  let sk' := to_byte 4 (idx + 1) ++ skipn 4 sk in
  R <~ prf_t hf idx_bytes_32 sk_prf ;;
  let hash_key := R ++ slice 100 32 sk ++ to_byte 32 idx in
  msg_h <~ h_msg_t hf msg hash_key ;;
  let ots_addr := setType zero_adrs 0 in
  let ots_addr := setOTSADRS ots_addr idx in
  '(ots_seed, ots_addr) <~ get_seed_t hf sk_seed ots_addr ;;
  '(wsig, ots_addr) <~ wots_sign_t hf msg_h ots_seed (x_wots p) pub_seed ots_addr ;;
  let sig := to_byte 4 idx ++ R ++ concat wsig ++ concat (firstn (x_h p) (b_auth st)) in
  st <~ (if idx <? 2 ^ N.of_nat (x_h p) - 1
         then bds_step_t hf p sk_seed pub_seed ots_addr (N.to_nat idx) st
         else tret st) ;;
  tret (sk', st, sig).
(** xmssFast.cpp:68-77 *)
Definition xfast_setIndex_t (o : xfast) (new_index : N) : tres (xfast * (exn + N)) :=
  let b := xf_base o in
  with_hash (xb_hash b) (fun hf =>
    '(sk, st, r) <~ xmssfast_update_t hf (xb_params b) (xb_sk b) (xf_state o) new_index ;;
    let o := mkXF (with_sk b sk) st in
    match r with
    | inl e => tret (o, inl e)
    | inr _ => tret (o, inr new_index)
    end).
(** xmssFast.cpp:79-95 *)
Definition xfast_sign_t (o : xfast) (msg : list N) : tres (xfast * (exn + list N)) :=
  let index := getIndex (xf_base o) in
  '(o, r) <~ xfast_setIndex_t o index ;;
  match r with
  | inl e => tret (o, inl e)
  | inr _ =>
      let b := xf_base o in
      with_hash (xb_hash b) (fun hf =>
        '(sk, st, sig) <~ xmssfast_Signmsg_t hf (xb_params b) (xb_sk b) (xf_state o) msg ;;
        tret (mkXF (with_sk b sk) st, inr sig))
  end.

(** algsxmss.c:115-167 *)
Definition compute_authpath_wots_t (hf : hashfn) (junk : list N) (leaf_idx : nat) (sk_seed : list N)
         (p : xmss_params) (pub_seed : list N) (addr : adrs) : tres (list N * list (list N)) :=
  let h := x_h p in
  if (26 <=? h)%nat then UB else
  let tree := repeat junk (2 * 2 ^ h) in
  let ots_addr := copy_layer_tree addr 0 in
  let ltree_addr := copy_layer_tree addr 1 in
  let node_addr := copy_layer_tree addr 2 in
  '(tree, _, _) <~
    tfor_up (2 ^ h) (fun i '(tree, ots_addr, ltree_addr) =>
      let ltree_addr := setLtreeADRS ltree_addr (N.of_nat i) in
      let ots_addr := setOTSADRS ots_addr (N.of_nat i) in
      '(leaf, ltree_addr, ots_addr) <~ gen_leaf_wots_t hf sk_seed p pub_seed ltree_addr ots_addr ;;
      tree <~ tlift (set tree (2 ^ h + i) leaf) ;;
      tret (tree, ots_addr, ltree_addr)) (tree, ots_addr, ltree_addr) ;;
  '(tree, _) <~
    tfor_up h (fun level '(tree, node_addr) =>
      let i := (2 ^ (h - level))%nat in
      let node_addr := setTreeHeight node_addr (N.of_nat level) in
      tfor_up (i / 2) (fun j2 '(tree, node_addr) =>
        let node_addr := setTreeIndex node_addr (N.of_nat j2) in
        a <~ tlift (get tree (i + 2 * j2)%nat) ;;
        b <~ tlift (get tree (i + 2 * j2 + 1)%nat) ;;
        '(out, node_addr) <~ hash_h_t hf (a ++ b) pub_seed node_addr ;;
        tree <~ tlift (set tree (i / 2 + j2)%nat out) ;;
        tret (tree, node_addr)) (tree, node_addr)) (tree, node_addr) ;;
  authpath <~ tlift
    (for_up h (fun i acc =>
      c <- get tree (2 ^ h / 2 ^ i + Nat.lxor (leaf_idx / 2 ^ i) 1)%nat ;;
      Ok (acc ++ [c])) []) ;;
  root <~ tlift (get tree 1) ;;
  tret (root, authpath).
(** algsxmss.c:218-318 *)
Definition xmss_Signmsg_t (hf : hashfn) (junk : list N) (p : xmss_params) (sk msg : list N)
  : tres (list N * list N) :=
  let idx := from_be (slice 0 4 sk) in
  let sk_seed := slice 4 32 sk in
  let sk_prf := slice 36 32 sk in
  let pub_seed := slice 68 32 sk in
  let idx_bytes_32 := to_byte 32 idx in
  let sk' := to_byte 4 (u32 (idx + 1)) ++ skipn 4 sk in
  R <~ prf_t hf idx_bytes_32 sk_prf ;;
  let hash_key := R ++ slice 100 32 sk ++ to_byte 32 idx in
  msg_h <~ h_msg_t hf msg hash_key ;;
  let ots_addr := setType zero_adrs 0 in
  let ots_addr := setOTSADRS ots_addr idx in
  '(ots_seed, ots_addr) <~ get_seed_t hf sk_seed ots_addr ;;
  '(wsig, ots_addr) <~ wots_sign_t hf msg_h ots_seed (x_wots p) pub_seed ots_addr ;;
  '(_, authpath) <~ compute_authpath_wots_t hf junk (N.to_nat idx) sk_seed p pub_seed ots_addr ;;
  tret (sk', to_byte 4 idx ++ R ++ concat wsig ++ concat authpath).
(** xmssBasic.cpp:52-63 *)
Definition XmssBasic_sign_t (junk : list N) (o : xbase) (msg : list N) : tres (xbase * list N) :=
  with_hash (xb_hash o) (fun hf =>
    '(sk, sig) <~ xmss_Signmsg_t hf junk (xb_params o) (xb_sk o) msg ;;
    tret (with_sk o sk, sig)).

(** algsxmss.c:97-104 *)
Fixpoint treehash_while_t (hf : hashfn) (fuel : nat) (idx : nat) (pub_seed : list N)
         (stack : list (list N)) (levels : list nat) (off : nat) (node_addr : adrs) {struct fuel}
  : tres (list (list N) * list nat * nat * adrs) :=
  if (off <=? 1)%nat then tret (stack, levels, off, node_addr) else
  l1 <~ tlift (get levels (off - 1)%nat) ;;
  l2 <~ tlift (get levels (off - 2)%nat) ;;
  if negb (l1 =? l2)%nat then tret (stack, levels, off, node_addr) else
  match fuel with
  | O => UB
  | S f =>
      let node_addr := setTreeHeight node_addr (N.of_nat l1) in
      let node_addr := setTreeIndex node_addr (N.of_nat (idx / 2 ^ (l1 + 1))) in
      a <~ tlift (get stack (off - 2)%nat) ;;
      b <~ tlift (get stack (off - 1)%nat) ;;
      '(out, node_addr) <~ hash_h_t hf (a ++ b) pub_seed node_addr ;;
      stack <~ tlift (set stack (off - 2)%nat out) ;;
      levels <~ tlift (set levels (off - 2)%nat (l2 + 1)%nat) ;;
      treehash_while_t hf f idx pub_seed stack levels (off - 1) node_addr
  end.
(** algsxmss.c:59-108 *)
Definition treehash_t (hf : hashfn) (junk : list N) (h : nat) (sk_seed : list N) (p : xmss_params)
         (pub_seed : list N) (addr : adrs) : tres (list N) :=
  let ots_addr := copy_layer_tree addr 0 in
  let ltree_addr := copy_layer_tree addr 1 in
  let node_addr := copy_layer_tree addr 2 in
  let stack := repeat junk (h + 1) in
  let levels := repeat 0%nat (h + 1) in
  '(stack, _, _, _, _, _) <~
    tfor_up (2 ^ h) (fun idx '(stack, levels, off, ots_addr, ltree_addr, node_addr) =>
      let ltree_addr := setLtreeADRS ltree_addr (N.of_nat idx) in
      let ots_addr := setOTSADRS ots_addr (N.of_nat idx) in
      '(leaf, ltree_addr, ots_addr) <~ gen_leaf_wots_t hf sk_seed p pub_seed ltree_addr ots_addr ;;
      stack <~ tlift (set stack off leaf) ;;
      levels <~ tlift (set levels off 0%nat) ;;
      let off := S off in
      '(stack, levels, off, node_addr) <~
        treehash_while_t hf off idx pub_seed stack levels off node_addr ;;
      tret (stack, levels, off, ots_addr, ltree_addr, node_addr))
      (stack, levels, 0%nat, ots_addr, ltree_addr, node_addr) ;;
  tlift (get stack 0).
(** algsxmss.c:170-197 *)
Definition xmss_Genkeypair_t (hf : hashfn) (junk : list N) (p : xmss_params) (seed : list N)
  : tres (list N) :=
  let randombits := shake256 96 (firstn 48 seed) in
  let sk_seed := slice 0 32 randombits in
  let pub_seed := slice 64 32 randombits in
  root <~ treehash_t hf junk (x_h p) sk_seed p pub_seed zero_adrs ;;
  tret ([0; 0; 0; 0] ++ randombits ++ root).
(** xmssBasic.cpp:9-49 *)
Definition XmssBasic_new_t (junk seed : list N) (height hash fmt w : N) : tres xbase :=
  _ <~ tlift (check_seed seed height) ;;
  if bad_height height then Exn InvalidArgument else
  p <~ tlift (xmss_set_params (N.to_nat height) w 2) ;;
  if 31 <=? height then UB else
  with_hash hash (fun hf =>
    sk <~ xmss_Genkeypair_t hf junk p seed ;;
    tret (mkXB p hash fmt height sk seed)).

(** algsxmss_fast.c:156-176 *)
Fixpoint setup_while_t (hf : hashfn) (fuel : nat) (h k : nat) (i : nat) (pub_seed : list N)
         (stack : list (list N)) (levels : list nat) (off : nat) (node_addr : adrs)
         (auth : list (list N)) (ths : list treehash_inst) (retain : list (list N)) {struct fuel}
  : tres (list (list N) * list nat * nat * adrs * list (list N) * list treehash_inst * list (list N)) :=
  if (off <=? 1)%nat then tret (stack, levels, off, node_addr, auth, ths, retain) else
  l1 <~ tlift (get levels (off - 1)%nat) ;;
  l2 <~ tlift (get levels (off - 2)%nat) ;;
  if negb (l1 =? l2)%nat then tret (stack, levels, off, node_addr, auth, ths, retain) else
  match fuel with
  | O => UB
  | S f =>
      let nodeh := l1 in
      top <~ tlift (get stack (off - 1)%nat) ;;
      '(auth, ths, retain) <~ tlift
        (if (i / 2 ^ nodeh =? 1)%nat then
           auth <- set auth nodeh top ;; Ok (auth, ths, retain)
         else if ((nodeh <? h - k) && (i / 2 ^ nodeh =? 3))%nat then
           ths <- set_th_node ths nodeh top ;; Ok (auth, ths, retain)
         else if (h - k <=? nodeh)%nat then
           if ((h <? 1 + nodeh) || (2 ^ (h - 1 - nodeh) + nodeh <? h) || (i / 2 ^ nodeh <? 3))%nat then UB else
           retain <- set retain (2 ^ (h - 1 - nodeh) + nodeh - h + (i / 2 ^ nodeh - 3) / 2)%nat top ;;
           Ok (auth, ths, retain)
         else Ok (auth, ths, retain)) ;;
      let node_addr := setTreeHeight node_addr (N.of_nat l1) in
      let node_addr := setTreeIndex node_addr (N.of_nat (i / 2 ^ (l1 + 1))) in
      a <~ tlift (get stack (off - 2)%nat) ;;
      '(out, node_addr) <~ hash_h_t hf (a ++ top) pub_seed node_addr ;;
      stack <~ tlift (set stack (off - 2)%nat out) ;;
      levels <~ tlift (set levels (off - 2)%nat (l2 + 1)%nat) ;;
      setup_while_t hf f h k i pub_seed stack levels (off - 1) node_addr auth ths retain
  end.
(** algsxmss_fast.c:104-182 *)
Definition treehash_setup_t (hf : hashfn) (junk : list N) (st : bds_state) (sk_seed : list N)
         (p : xmss_params) (pub_seed : list N) (addr : adrs) : tres (list N * bds_state) :=
  let h := x_h p in
  let k := x_k p in
  let ots_addr := copy_layer_tree addr 0 in
  let ltree_addr := copy_layer_tree addr 1 in
  let node_addr := copy_layer_tree addr 2 in
  let stack := repeat junk (h + 1) in
  let levels := repeat 0%nat (h + 1) in
  ths <~ tlift (for_up (h - k) (fun i ths =>
           t <- get ths i ;;
           set ths i (mkTH i (th_next_idx t) 0 true (th_node t))) (b_treehash st)) ;;
  '(stack, _, _, _, _, _, auth, ths, retain) <~
    tfor_up (2 ^ h) (fun i '(stack, levels, off, ots_addr, ltree_addr, node_addr, auth, ths, retain) =>
      let ltree_addr := setLtreeADRS ltree_addr (N.of_nat i) in
      let ots_addr := setOTSADRS ots_addr (N.of_nat i) in
      '(leaf, ltree_addr, ots_addr) <~ gen_leaf_wots_t hf sk_seed p pub_seed ltree_addr ots_addr ;;
      stack <~ tlift (set stack off leaf) ;;
      levels <~ tlift (set levels off 0%nat) ;;
      let off := S off in
      ths <~ tlift (if ((0 <? h - k) && (i =? 3))%nat
              then c <- get stack off ;; set_th_node ths 0 c
              else Ok ths) ;;
      '(stack, levels, off, node_addr, auth, ths, retain) <~
        setup_while_t hf off h k i pub_seed stack levels off node_addr auth ths retain ;;
      tret (stack, levels, off, ots_addr, ltree_addr, node_addr, auth, ths, retain))
      (stack, levels, 0%nat, ots_addr, ltree_addr, node_addr, b_auth st, ths, b_retain st) ;;
  root <~ tlift (get stack 0) ;;
  tret (root, mkBDS (b_stack st) (b_stackoffset st) (b_stacklevels st) auth (b_keep st) ths retain).
(** algsxmss_fast.c:496-531 *)
Definition xmssfast_Genkeypair_t (hf : hashfn) (junk : list N) (p : xmss_params) (st : bds_state)
         (seed : list N) : tres (list N * bds_state) :=
  let randombits := shake256 96 (firstn 48 seed) in
  let sk_seed := slice 0 32 randombits in
  let pub_seed := slice 64 32 randombits in
  '(root, st) <~ treehash_setup_t hf junk st sk_seed p pub_seed zero_adrs ;;
  tret ([0; 0; 0; 0] ++ randombits ++ root, st).
(** xmssFast.cpp:22-66 *)
Definition initialize_tree_t (junk seed : list N) (height hash fmt w : N) : tres xfast :=
  if bad_height height then Exn InvalidArgument else
  p <~ tlift (xmss_set_params (N.to_nat height) w 2) ;;
  if 31 <=? height then UB else
  with_hash hash (fun hf =>
    '(sk, st) <~ xmssfast_Genkeypair_t hf junk p (fresh_bds (x_h p) (x_k p)) seed ;;
    tret (mkXF (mkXB p hash fmt height sk seed) st)).
(** xmssFast.cpp:7-14 *)
Definition XmssFast_new_t (junk seed : list N) (height hash fmt : N) : tres xfast :=
  _ <~ tlift (check_seed seed height) ;;
  initialize_tree_t junk seed height hash fmt 16.
(** xmssFast.cpp:16-20 *)
Definition XmssFast_from_extended_seed_t (junk es : list N) : tres xfast :=
  '(seed, height, hash, fmt) <~ tlift (parse_extended_seed es) ;;
  initialize_tree_t junk seed height hash fmt 16.
(** xmssFast.cpp:22-66, a second call *)
Definition xfast_initialize_tree_t (junk : list N) (o : xfast) (w : N) : tres xfast :=
  let b := xf_base o in
  initialize_tree_t junk (xb_seed b) (xb_height b) (xb_hash b) (xb_fmt b) w.

(** xmssFast.cpp:68-95: one call of a history, as [step]. *)
Definition step_t (o : xfast) (c : op) : tres (xfast * obs) :=
  match c with
  | OpSign m =>
      '(o, r) <~ xfast_sign_t o m ;;
      tret (o, match r with inl e => ObsExn e | inr s => ObsSig s end)
  | OpSetIndex i =>
      '(o, r) <~ xfast_setIndex_t o i ;;
      tret (o, match r with inl e => ObsExn e | inr j => ObsIdx j end)
  end.
(** xmssFast.cpp:68-95: a history of calls, as [run]. *)
Fixpoint run_t (o : xfast) (cs : list op) : tres (xfast * list obs) :=
  match cs with
  | [] => tret (o, [])
  | c :: rest =>
      '(o, x) <~ step_t o c ;;
      '(o, xs) <~ run_t o rest ;;
      tret (o, x :: xs)
  end.
