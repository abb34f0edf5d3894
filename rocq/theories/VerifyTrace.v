(** Verification with the log of its hash calls, as Trace.v for key generation and signing.
    Each definition is the one of the same name without [_t] in XmssCommon.v and XmssObj.v;
    C90_erasure proves that forgetting the log gives that definition back. *)
From Coq Require Import List NArith Arith Lia Bool.
From Verif Require Import Base Bytes Keccak HashAddress Wots XmssCommon Descriptor SpecApi XmssObj SpecTweak Trace.
Import ListNotations.
Open Scope N_scope.

(** xmss_common.c:108-122 *)
Fixpoint validate_loop_t (hf : hashfn) (n : nat) (i : N) (leafidx : N) (bl br : list N)
         (authpath : list (list N)) (pos : nat) (pub_seed : list N) (addr : adrs)
  : tres (N * list N * list N * adrs) :=
  match n with
  | O => tret (leafidx, bl, br, addr)
  | S n' =>
      let addr := setTreeHeight addr i in
      let leafidx := N.shiftr leafidx 1 in
      let addr := setTreeIndex addr leafidx in
      '(out, addr) <~ hash_h_t hf (bl ++ br) pub_seed addr ;;
      a <~ tlift (get authpath pos) ;;
      if N.odd leafidx
      then validate_loop_t hf n' (i + 1) leafidx a out authpath (S pos) pub_seed addr
      else validate_loop_t hf n' (i + 1) leafidx out a authpath (S pos) pub_seed addr
  end.
(** xmss_common.c:80-127 *)
Definition validate_authpath_t (hf : hashfn) (leaf : list N) (leafidx : N)
         (authpath : list (list N)) (h : nat) (pub_seed : list N) (addr : adrs) : tres (list N) :=
  a <~ tlift (get authpath 0) ;;
  '(leafidx, bl, br, addr) <~
    (if N.odd leafidx
     then validate_loop_t hf (h - 1) 0 leafidx a leaf authpath 1 pub_seed addr
     else validate_loop_t hf (h - 1) 0 leafidx leaf a authpath 1 pub_seed addr) ;;
  let addr := setTreeHeight addr (N.of_nat (h - 1)) in
  let leafidx := N.shiftr leafidx 1 in
  let addr := setTreeIndex addr leafidx in
  '(out, _) <~ hash_h_t hf (bl ++ br) pub_seed addr ;;
  tret out.
(** xmss_common.c:133-221 *)
Definition xmss_Verifysig_t (hf : hashfn) (wp : wots_params) (msg sig pk : list N) (h : nat) : tres bool :=
  let pub_seed := slice 32 32 pk in
  let ots_addr := setType zero_adrs 0 in
  let ltree_addr := setType zero_adrs 1 in
  let node_addr := setType zero_adrs 2 in
  let idx := from_be (slice 0 4 sig) in
  let hash_key := slice 4 32 sig ++ slice 0 32 pk ++ to_byte 32 idx in
  msg_h <~ h_msg_t hf msg hash_key ;;
  let ots_addr := setOTSADRS ots_addr idx in
  let wots_sig := chunks (w_len wp) 32 (skipn 36 sig) in
  '(wots_pk, _) <~ wots_pkFromSig_t hf wots_sig msg_h wp pub_seed ots_addr ;;
  let ltree_addr := setLtreeADRS ltree_addr idx in
  '(pkhash, _) <~ l_tree_t hf wp wots_pk pub_seed ltree_addr ;;
  let authpath := chunks h 32 (skipn (36 + w_keysize wp) sig) in
  root <~ validate_authpath_t hf pkhash idx authpath h pub_seed node_addr ;;
  tret (bytes_eqb root (slice 0 32 pk)).
(** xmssBase.cpp:209-254; nothing is hashed before the last line *)
Definition verify_body_t (msg sig extended_pk : list N) (w : N) : tres bool :=
  if negb (length extended_pk =? 67)%nat then Exn InvalidArgument else
  base <~ tlift (calculateSignatureBaseSize w) ;;
  if base + 254 * 32 <? N.of_nat (length sig) then Exn InvalidArgument else
  desc <~ tlift (descr_fromExtendedPK extended_pk) ;;
  if negb (d_sig desc =? 0) then tret false else
  height <~ tlift (getHeightFromSigSize (N.of_nat (length sig)) w) ;;
  if (height =? 0) || negb (d_height desc =? height) then tret false else
  if bad_height height then Exn InvalidArgument else
  p <~ tlift (xmss_set_params (N.to_nat height) w 2) ;;
  with_hash (d_hash desc) (fun hf =>
    xmss_Verifysig_t hf (x_wots p) msg sig (skipn descr_getSize extended_pk) (N.to_nat height)).
(** xmssBase.cpp:203-259; an exception comes before the first hash, so the log is empty *)
Definition verify_t (msg sig extended_pk : list N) (w : N) : tres bool :=
  match verify_body_t msg sig extended_pk w with
  | Exn InvalidArgument => tret false
  | r => r
  end.
