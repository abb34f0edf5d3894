(** Model of the Rust port's src/rust_wrapper/xmss_alt/wots.rs and xmss_common.rs
    (n = 32). *)
From Coq Require Import List NArith Arith Lia Bool.
From Verif Require Import Bytes HashAddress Wots XmssCommon RsBase RsHash.
Import ListNotations.
Open Scope nat_scope.

(** The four Winternitz parameters whose f32 logarithms are modelled.  wots.rs:37-53. *)
Inductive rs_w : Set := W2 | W4 | W16 | W256.
(** wots.rs:37-53. *)
Definition w_of (w : rs_w) : N := match w with W2 => 2 | W4 => 4 | W16 => 16 | W256 => 256 end.

(** wots.rs:37-53 WOTSParams::new(32, w): log_w is exact for powers of two, len_1 =
    256/log_w, and floor(log2(len_1 (w-1))/log_w) + 1 is computed on values far
    from an integer boundary: log2 256, 384, 960, 8160. *)
Definition rs_wots_new (w : rs_w) : wots_params :=
  match w with
  | W2 => mkWP 2 1 256 9
  | W4 => mkWP 4 2 128 5
  | W16 => mkWP 16 4 64 3
  | W256 => mkWP 256 8 32 2
  end.

(** wots.rs:61-74; [outseeds.get_mut(i*n..len).unwrap()]. *)
Definition rs_expand_seed (hf : hashfn) (outseeds inseed : list N) (len : nat) : rs (list N) :=
  '(outseeds, _) <~ rfor len (fun i '(outseeds, ctr) =>
      ctr <~ rs_to_byte ctr (N.of_nat i) 32 ;;
      outseeds <~ rwith (i * 32) (length outseeds) outseeds (fun o => rs_prf hf o ctr inseed) ;;
      ROk (outseeds, ctr)) (outseeds, repeat 0%N 32) ;;
  ROk outseeds.

(** wots.rs:83-103 *)
Definition rs_gen_chain (hf : hashfn) (out input : list N) (start steps : N) (p : wots_params)
    (pub_seed : list N) (addr : adrs) : rs (list N * adrs) :=
  out <~ rcopy_loop 32 input 0 out 0 ;;
  rfor_from (N.to_nat (N.min (start + steps) (w_w p)) - N.to_nat start) (N.to_nat start)
    (fun i '(out, addr) =>
       let addr := rs_set_hash_adrs addr (N.of_nat i) in
       let input := out in
       rs_hash_f hf out input pub_seed addr) (out, addr).

(** wots.rs:108-125: state (output, in_, total, bits); [bits -= log_w] underflows
    when fewer bits are left, [total >> bits] never shifts by 8 or more then. *)
Definition rs_base_w (output : list N) (out_len : nat) (input : list N) (p : wots_params) : rs (list N) :=
  '(output, _, _, _) <~ rfor out_len (fun out '(output, in_, total, bits) =>
      '(total, in_, bits) <~
        (if bits =? 0 then t <~ rget input in_ ;; ROk (t, in_ + 1, bits + 8) else ROk (total, in_, bits)) ;;
      if bits <? w_log_w p then RPanic else
      let bits := bits - w_log_w p in
      output <~ rset output out (N.land (N.shiftr total (N.of_nat bits)) (w_w p - 1)) ;;
      ROk (output, in_, total, bits)) (output, 0, 0%N, 0) ;;
  ROk output.

(** wots.rs:176-200 and 225-255: the digits.  [csum] is i32 in wots_sign and u32 in
    wots_pk_from_sig; with len_1 (w - 1) < 2^14 neither overflows. *)
Definition rs_digits (msg : list N) (p : wots_params) : rs (list N) :=
  basew <~ rs_base_w (repeat 0%N (w_len p)) (w_len_1 p) msg p ;;
  csum <~ rfor (w_len_1 p) (fun i csum => b <~ rget basew i ;; ROk (csum + (w_w p - 1 - b))%N) 0%N ;;
  let csum := N.shiftl csum (8 - N.of_nat ((w_len_2 p * w_log_w p) mod 8)) in
  let len_2_bytes := (w_len_2 p * w_log_w p + 7) / 8 in
  csum_bytes <~ rs_to_byte (repeat 0%N len_2_bytes) csum len_2_bytes ;;
  csum_basew <~ rs_base_w (repeat 0%N (w_len_2 p)) (w_len_2 p) csum_bytes p ;;
  rfor (w_len_2 p) (fun i basew => x <~ rget csum_basew i ;; rset basew (w_len_1 p + i) x) basew.

(** [f(&mut out[i..])] where [f] also updates the address.  wots.rs:135-164, 83-103. *)
Definition rwith_adr (a : nat) (l : list N) (f : list N -> rs (list N * adrs)) : rs (list N * adrs) :=
  s <~ rslice a (length l) l ;;
  '(s', addr) <~ f s ;;
  ROk (firstn a l ++ s', addr).

(** wots.rs:135-164 *)
Definition rs_wots_pkgen (hf : hashfn) (pk sk : list N) (p : wots_params) (pub_seed : list N) (addr : adrs)
  : rs (list N * adrs) :=
  pk <~ rs_expand_seed hf pk sk (w_len p) ;;
  let pk_input := pk in
  rfor (w_len p) (fun i '(pk, addr) =>
    let addr := rs_set_chain_adrs addr (N.of_nat i) in
    inp <~ rslice (i * 32) (length pk) pk_input ;;
    rwith_adr (i * 32) pk (fun o => rs_gen_chain hf o inp 0 (w_w p - 1) p pub_seed addr)) (pk, addr).

(** wots.rs:166-222 *)
Definition rs_wots_sign (hf : hashfn) (sig msg sk : list N) (p : wots_params) (pub_seed : list N) (addr : adrs)
  : rs (list N * adrs) :=
  basew <~ rs_digits msg p ;;
  sig <~ rs_expand_seed hf sig sk (w_len p) ;;
  rfor (w_len p) (fun i '(sig, addr) =>
    let addr := rs_set_chain_adrs addr (N.of_nat i) in
    inp <~ rslice (i * 32) (length sig) sig ;;
    b <~ rget basew i ;;
    rwith_adr (i * 32) sig (fun o => rs_gen_chain hf o inp 0 b p pub_seed addr)) (sig, addr).

(** wots.rs:224-272 *)
Definition rs_wots_pk_from_sig (hf : hashfn) (pk sig msg : list N) (p : wots_params) (pub_seed : list N) (addr : adrs)
  : rs (list N * adrs) :=
  basew <~ rs_digits msg p ;;
  rfor (w_len p) (fun i '(pk, addr) =>
    let addr := rs_set_chain_adrs addr (N.of_nat i) in
    inp <~ rslice (i * 32) (length sig) sig ;;
    b <~ rget basew i ;;
    rwith_adr (i * 32) pk (fun o => rs_gen_chain hf o inp b (w_w p - 1 - b) p pub_seed addr)) (pk, addr).

(** ** xmss_common.rs *)

(** xmss_common.rs:21-33 XMSSParams::new *)
Definition rs_xmss_params (h : nat) (w : rs_w) (k : nat) : rs xmss_params :=
  if (h <=? k) || (k <? 2) || negb ((h - k) mod 2 =? 0) then RErr RInvalidArgument
  else ROk (mkXP (rs_wots_new w) h k).

(** [copy_within(src..src+n, dest)];  xmss_common.rs:69. *)
Definition rcopy_within (src n dest : nat) (l : list N) : rs (list N) :=
  x <~ rslice src (src + n) l ;;
  if dest + n <=? length l then ROk (firstn dest l ++ x ++ skipn (dest + n) l) else RPanic.

(** xmss_common.rs:57-64: one pass; [input] is a copy of the tail. *)
Definition rs_l_tree_pass (hf : hashfn) (bound : nat) (pub_seed : list N) (s : list N * adrs) : rs (list N * adrs) :=
  rfor bound (fun i '(pk, addr) =>
    let addr := rs_set_tree_index addr (N.of_nat i) in
    input <~ rslice (i * 2 * 32) (length pk) pk ;;
    rwith_adr (i * 32) pk (fun out => rs_hash_h hf out input pub_seed addr)) s.

(** xmss_common.rs:55-75: the while loop; every pass at least halves [l]. *)
Fixpoint rs_l_tree_loop (hf : hashfn) (fuel : nat) (l : nat) (height : N) (pub_seed : list N)
    (s : list N * adrs) {struct fuel} : rs (list N * adrs) :=
  if l <=? 1 then ROk s else
  match fuel with
  | O => RPanic
  | S f =>
      '(pk, addr) <~ rs_l_tree_pass hf (l / 2) pub_seed s ;;
      '(pk, l') <~
        (if Nat.odd l then
           pk <~ rcopy_within ((l - 1) * 32) 32 (l / 2 * 32) pk ;; ROk (pk, l / 2 + 1)
         else ROk (pk, l / 2)) ;;
      let height := (height + 1)%N in
      rs_l_tree_loop hf f l' height pub_seed (pk, rs_set_tree_height addr height)
  end.

(** xmss_common.rs:42-79: [leaf], [wots_pk] is dropped by the callers. *)
Definition rs_l_tree (hf : hashfn) (p : wots_params) (leaf wots_pk pub_seed : list N) (addr : adrs)
  : rs (list N * adrs) :=
  '(pk, addr) <~ rs_l_tree_loop hf (w_len p) (w_len p) 0 pub_seed (wots_pk, rs_set_tree_height addr 0) ;;
  src <~ rslice 0 32 pk ;;
  leaf <~ rwith 0 32 leaf (fun d => rcopy src d) ;;
  ROk (leaf, addr).

(** xmss_common.rs:84-150 validate_authpath.  [buffer] starts as 64 zero bytes;
    [h - 1] underflows for 0. *)
Definition rs_validate_authpath (hf : hashfn) (root leaf : list N) (leafidx : N) (authpath : list N) (h : nat)
    (pub_seed : list N) (addr : adrs) : rs (list N * adrs) :=
  let buffer := repeat 0%N 64 in
  buffer <~
    (if N.odd leafidx then
       b <~ rcopy_loop 32 leaf 0 buffer 32 ;; rcopy_loop 32 authpath 0 b 0
     else
       b <~ rcopy_loop 32 leaf 0 buffer 0 ;; rcopy_loop 32 authpath 0 b 32) ;;
  authpath <~ rslice 32 (length authpath) authpath ;;
  if h =? 0 then RPanic else
  '(buffer, leafidx, authpath, addr) <~
    rfor (h - 1) (fun i '(buffer, leafidx, authpath, addr) =>
      let addr := rs_set_tree_height addr (N.of_nat i) in
      let leafidx := N.shiftr leafidx 1 in
      let addr := rs_set_tree_index addr (u32 leafidx) in
      '(buffer, addr) <~
        (if N.odd leafidx then
           '(b, addr) <~ rwith_adr 32 buffer (fun o => rs_hash_h hf o buffer pub_seed addr) ;;
           b <~ rcopy_loop 32 authpath 0 b 0 ;; ROk (b, addr)
         else
           '(b, addr) <~ rs_hash_h hf buffer buffer pub_seed addr ;;
           b <~ rcopy_loop 32 authpath 0 b 32 ;; ROk (b, addr)) ;;
      authpath <~ rslice 32 (length authpath) authpath ;;
      ROk (buffer, leafidx, authpath, addr)) (buffer, leafidx, authpath, addr) ;;
  let addr := rs_set_tree_height addr (N.of_nat (h - 1)) in
  let leafidx := N.shiftr leafidx 1 in
  let addr := rs_set_tree_index addr (u32 leafidx) in
  rs_hash_h hf root buffer pub_seed addr.

(** Four bytes, most significant first, read with checked indices.  xmss_common.rs:155-276. *)
Definition rs_be32 (l : list N) : rs N :=
  b0 <~ rget l 0 ;; b1 <~ rget l 1 ;; b2 <~ rget l 2 ;; b3 <~ rget l 3 ;;
  ROk (N.lor (N.lor (N.lor (N.shiftl b0 24) (N.shiftl b1 16)) (N.shiftl b2 8)) b3).

(** xmss_common.rs:155-276 xmss_verify_sig: [true] for the status 0.  The
    parameters fix sig_msg_len to 0 at the end, so the two loops that overwrite
    [msg] do nothing. *)
Definition rs_xmss_verify_sig (hf : hashfn) (p : wots_params) (msg sig_msg pk : list N) (h : nat) : rs bool :=
  src <~ rslice 32 64 pk ;;
  pub_seed <~ rcopy src (repeat 0%N 32) ;;
  let ots_addr := rs_set_type zero_adrs 0 in
  let ltree_addr := rs_set_type zero_adrs 1 in
  let node_addr := rs_set_type zero_adrs 2 in
  idx <~ rs_be32 sig_msg ;;
  let hash_key := repeat 0%N 96 in
  r <~ rslice 4 36 sig_msg ;;
  hash_key <~ rwith 0 32 hash_key (fun d => rcopy r d) ;;
  rt <~ rslice 0 32 pk ;;
  hash_key <~ rwith 32 64 hash_key (fun d => rcopy rt d) ;;
  hash_key <~ rwith 64 (length hash_key) hash_key (fun d => rs_to_byte d idx 32) ;;
  sig_msg <~ rslice 36 (length sig_msg) sig_msg ;;
  msg_h <~ rs_h_msg hf (repeat 0%N 32) msg (length msg) hash_key ;;
  let ots_addr := rs_set_ots_adrs ots_addr idx in
  '(wots_pk, _) <~ rs_wots_pk_from_sig hf (repeat 0%N (w_keysize p)) sig_msg msg_h p pub_seed ots_addr ;;
  sig_msg <~ rslice (w_keysize p) (length sig_msg) sig_msg ;;
  let ltree_addr := rs_set_ltree_adrs ltree_addr idx in
  '(pkhash, _) <~ rs_l_tree hf p (repeat 0%N 32) wots_pk pub_seed ltree_addr ;;
  '(root, _) <~ rs_validate_authpath hf (repeat 0%N 32) pkhash idx sig_msg h pub_seed node_addr ;;
  _ <~ rslice (h * 32) (length sig_msg) sig_msg ;;
  (* for i in 0..n { if root[i] != pk[i] ... return -1 } *)
  rfor 32 (fun i same => a <~ rget root i ;; b <~ rget pk i ;; ROk (same && (a =? b)%N)) true.
