(** Model of src/xmss-alt/xmss_common.c (to_byte is in Bytes.v). *)
From Coq Require Import List NArith Arith Lia Bool.
From Verif Require Import Base Bytes HashAddress Wots.
Import ListNotations.
Open Scope N_scope.

(** xmss_params.h:14-19 (n = 32). *)
Record xmss_params : Type := mkXP { x_wots : wots_params; x_h : nat; x_k : nat }.

(** xmss_common.c:30-43.  The early return with a message on stderr leaves the
    struct unset; every API caller checks the same condition before (and throws),
    so it is reported as [UB] (use of an unset struct) here. *)
Definition xmss_set_params (h : nat) (w : N) (k : nat) : res xmss_params :=
  if ((h <=? k) || (k <? 2) || negb ((h - k) mod 2 =? 0))%nat then UB else
  wp <- wots_set_params w ;;
  Ok (mkXP wp h k).

(** xmss_common.c:61-64: one pass of the inner loop, in place. *)
Definition l_tree_pass (hf : hashfn) (bound : nat) (pub_seed : list N)
  (s : list (list N) * adrs) : res (list (list N) * adrs) :=
  for_up bound (fun i '(pk, addr) =>
    let addr := setTreeIndex addr (N.of_nat i) in
    a <- get pk (2 * i)%nat ;;
    b <- get pk (2 * i + 1)%nat ;;
    let '(out, addr) := hash_h hf (a ++ b) pub_seed addr in
    pk <- set pk i out ;;
    Ok (pk, addr)) s.

(** xmss_common.c:59-73: the while loop; each pass at least halves [l], so [fuel] = len
    suffices. *)
Fixpoint l_tree_loop (hf : hashfn) (fuel : nat) (l : nat) (height : N)
         (pub_seed : list N) (s : list (list N) * adrs) : res (list (list N) * adrs) :=
  if (l <=? 1)%nat then Ok s else
  match fuel with
  | O => UB
  | S f =>
      '(pk, addr) <- l_tree_pass hf (l / 2) pub_seed s ;;
      '(pk, l') <-
        (if Nat.odd l then
           x <- get pk (l - 1)%nat ;;
           pk <- set pk (l / 2)%nat x ;;
           Ok (pk, (l / 2 + 1)%nat)
         else Ok (pk, (l / 2)%nat)) ;;
      let height := height + 1 in
      l_tree_loop hf f l' height pub_seed (pk, setTreeHeight addr height)
  end.

(** xmss_common.c:45-75 *)
Definition l_tree (hf : hashfn) (p : wots_params) (wots_pk : list (list N))
         (pub_seed : list N) (addr : adrs) : res (list N * adrs) :=
  '(pk, addr) <- l_tree_loop hf (w_len p) (w_len p) 0 pub_seed (wots_pk, setTreeHeight addr 0) ;;
  leaf <- get pk 0 ;;
  Ok (leaf, addr).

(** xmss_common.c:108-122: the loop of validate_authpath.  [bl]/[br] are the two
    halves of [buffer]; [i] is the loop variable, [n] iterations are left. *)
Fixpoint validate_loop (hf : hashfn) (n : nat) (i : N) (leafidx : N) (bl br : list N)
         (authpath : list (list N)) (pos : nat) (pub_seed : list N) (addr : adrs)
  : res (N * list N * list N * adrs) :=
  match n with
  | O => Ok (leafidx, bl, br, addr)
  | S n' =>
      let addr := setTreeHeight addr i in
      let leafidx := N.shiftr leafidx 1 in
      let addr := setTreeIndex addr leafidx in
      let '(out, addr) := hash_h hf (bl ++ br) pub_seed addr in
      a <- get authpath pos ;;
      if N.odd leafidx
      then validate_loop hf n' (i + 1) leafidx a out authpath (S pos) pub_seed addr
      else validate_loop hf n' (i + 1) leafidx out a authpath (S pos) pub_seed addr
  end.

(** xmss_common.c:80-127; called with h >= 1. *)
Definition validate_authpath (hf : hashfn) (leaf : list N) (leafidx : N)
         (authpath : list (list N)) (h : nat) (pub_seed : list N) (addr : adrs)
  : res (list N) :=
  a <- get authpath 0 ;;
  '(leafidx, bl, br, addr) <-
    (if N.odd leafidx
     then validate_loop hf (h - 1) 0 leafidx a leaf authpath 1 pub_seed addr
     else validate_loop hf (h - 1) 0 leafidx leaf a authpath 1 pub_seed addr) ;;
  let addr := setTreeHeight addr (N.of_nat (h - 1)) in
  let leafidx := N.shiftr leafidx 1 in
  let addr := setTreeIndex addr leafidx in
  Ok (fst (hash_h hf (bl ++ br) pub_seed addr)).

(** Equality of two byte strings, xmss_common.c:208-210. *)
Definition bytes_eqb (a b : list N) : bool := if list_eq_dec N.eq_dec a b then true else false.

(** xmss_common.c:133-221 xmss_Verifysig.  [sig] has 4 + 32 + keysize + 32*h bytes
    (the caller checks it), [pk] is root || pub_seed.  After the three advances
    sig_msg_len is 0, so the loops that write back to [msg] do nothing. *)
Definition xmss_Verifysig (hf : hashfn) (wp : wots_params) (msg sig pk : list N) (h : nat)
  : res bool :=
  let pub_seed := slice 32 32 pk in
  let ots_addr := setType zero_adrs 0 in
  let ltree_addr := setType zero_adrs 1 in
  let node_addr := setType zero_adrs 2 in
  let idx := from_be (slice 0 4 sig) in
  let hash_key := slice 4 32 sig ++ slice 0 32 pk ++ to_byte 32 idx in
  let msg_h := h_msg hf msg hash_key in
  let ots_addr := setOTSADRS ots_addr idx in
  let wots_sig := chunks (w_len wp) 32 (skipn 36 sig) in
  '(wots_pk, _) <- wots_pkFromSig hf wots_sig msg_h wp pub_seed ots_addr ;;
  let ltree_addr := setLtreeADRS ltree_addr idx in
  '(pkhash, _) <- l_tree hf wp wots_pk pub_seed ltree_addr ;;
  let authpath := chunks h 32 (skipn (36 + w_keysize wp) sig) in
  root <- validate_authpath hf pkhash idx authpath h pub_seed node_addr ;;
  Ok (bytes_eqb root (slice 0 32 pk)).
