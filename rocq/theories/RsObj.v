(** Model of the Rust port's src/rust_wrapper/qrl: qrl_descriptor.rs, qrl_helper.rs,
    xmss_base.rs, xmss_basic.rs and xmss_fast.rs.  The enums SignatureType and
    AddrFormatType have one value each (XMSS = 0, SHA256_2X = 0), so fields of
    these types carry no information and are left out; comparisons with the one
    value are always true and are left out as well. *)
From Coq Require Import List NArith Arith Lia Bool.
From Verif Require Import Bytes HashAddress Sha256 Wots XmssCommon AlgsXmssFast RsBase RsHash RsWots RsAlgs RsFast SpecApi SpecRust.
Import ListNotations.
Open Scope nat_scope.

(** ** qrl_descriptor.rs *)

(** hash_functions.rs:1-7: the discriminants. *)
Definition rs_hash_u8 (hf : hashfn) : N := match hf with SHA2_256 => 0 | SHAKE_128 => 1 | SHAKE_256 => 2 end.

(** qrl_descriptor.rs:10-15 *)
Record rs_descr : Type := mkRD { rd_hash : hashfn; rd_height : N }.

(** qrl_descriptor.rs:48-92 *)
Definition rs_from_bytes (bytes : list N) : rs rs_descr :=
  if negb (length bytes =? 3) then RErr RInvalidArgument else
  b0 <~ rget bytes 0 ;; b1 <~ rget bytes 1 ;;
  hf <~ match N.land b0 0x0F with
        | 0%N => ROk SHA2_256 | 1%N => ROk SHAKE_128 | 2%N => ROk SHAKE_256
        | _ => RErr RFailedConversion
        end ;;
  if negb (N.land (N.shiftr b0 4) 0xF0 =? 0)%N then RErr RFailedConversion else
  let height := u8 (N.shiftl (N.land b1 0x0F) 1) in
  if negb (N.shiftr (N.land b1 0xF0) 4 =? 0)%N then RErr RFailedConversion else
  ROk (mkRD hf height).

(** qrl_descriptor.rs:98-107 *)
Definition rs_from_extended_seed (es : list N) : rs rs_descr :=
  if negb (length es =? 51) then RErr RInvalidArgument else
  b <~ rslice 0 3 es ;; rs_from_bytes b.
(** qrl_descriptor.rs:109-118 *)
Definition rs_from_extended_pk (pk : list N) : rs rs_descr :=
  if negb (length pk =? 67) then RErr RInvalidArgument else
  b <~ rslice 0 3 pk ;; rs_from_bytes b.
(** qrl_descriptor.rs:120-134 *)
Definition rs_descr_bytes (d : rs_descr) : list N :=
  [ N.lor (u8 (N.shiftl 0 4)) (N.land (rs_hash_u8 (rd_hash d)) 0x0F);
    N.lor (u8 (N.shiftl 0 4)) (N.land (N.shiftr (rd_height d) 1) 0x0F);
    0%N ].

(** ** qrl_helper.rs *)

(** qrl_helper.rs:6-35; shasha.rs:5-14 sha2_256 is the crate's SHA-256. *)
Definition rs_get_address (pk : list N) : rs (list N) :=
  descr <~ rs_from_extended_pk pk ;;
  let address := rs_descr_bytes descr ++ sha256 pk in
  let hashed_key2 := sha256 address in
  seg <~ rslice (length hashed_key2 - 4) (length hashed_key2) hashed_key2 ;;
  ROk (address ++ seg).

(** qrl_helper.rs:37-61 *)
Definition rs_address_is_valid (address : list N) : rs bool :=
  if negb (length address =? 3 + 32 + 4) then ROk false else
  b <~ rslice 0 3 address ;;
  match rs_from_bytes b with
  | RPanic => RPanic
  | RErr _ => ROk false
  | ROk _ =>
      seg <~ rslice 0 (3 + 32) address ;;
      let hashed_key2 := sha256 seg in
      x35 <~ rget address 35 ;; y28 <~ rget hashed_key2 28 ;;
      x36 <~ rget address 36 ;; y29 <~ rget hashed_key2 29 ;;
      x37 <~ rget address 37 ;; y30 <~ rget hashed_key2 30 ;;
      x38 <~ rget address 38 ;; y31 <~ rget hashed_key2 31 ;;
      ROk ((x35 =? y28) && (x36 =? y29) && (x37 =? y30) && (x38 =? y31))%N%bool
  end.

(** ** xmss_base.rs *)

(** xmss_base.rs:48-54 *)
Record rs_base : Type := mkRBase { ro_hash : hashfn; ro_height : N; ro_sk : list N; ro_seed : list N }.

(** xmss_base.rs:57-81 XMSSBase::new *)
Definition rs_base_new (hf : hashfn) (height : N) (sk seed : list N) : rs rs_base :=
  if negb (length seed =? 48) then RErr RInvalidArgument else
  if (254 <? height)%N then RErr RInvalidArgument else
  ROk (mkRBase hf height sk seed).

(** xmss_base.rs:83-105 XMSSBase::from_extended_seed *)
Definition rs_base_from_extended_seed (es sk : list N) : rs rs_base :=
  if negb (length es =? 51) then RErr RInvalidArgument else
  desc <~ rs_from_extended_seed es ;;
  seed <~ rslice 3 (length es) es ;;
  ROk (mkRBase (rd_hash desc) (rd_height desc) sk seed).

(** xmss_base.rs:128-138 XMSSBase::set_index (also XMSSBasic's): the object and the
    index read back. *)
Definition rs_be32_sum (l : list N) : rs N :=
  b0 <~ rget l 0 ;; b1 <~ rget l 1 ;; b2 <~ rget l 2 ;; b3 <~ rget l 3 ;;
  ROk (N.shiftl b0 24 + N.shiftl b1 16 + N.shiftl b2 8 + b3)%N.
(** xmss_base.rs:207-210 get_index *)
Definition rs_get_index (o : rs_base) : rs N := rs_be32_sum (ro_sk o).
(** assignment to sk, xmss_base.rs:48-54. *)
Definition rs_with_sk (o : rs_base) (sk : list N) : rs_base := mkRBase (ro_hash o) (ro_height o) sk (ro_seed o).
(** xmss_base.rs:128-138. *)
Definition rs_base_set_index (o : rs_base) (new_index : N) : rs (rs_base * N) :=
  let sk := ro_sk o in
  sk <~ rset sk 3 (N.land new_index 0xFF) ;;
  let new_index := N.shiftr new_index 8 in
  sk <~ rset sk 2 (N.land new_index 0xFF) ;;
  let new_index := N.shiftr new_index 8 in
  sk <~ rset sk 1 (N.land new_index 0xFF) ;;
  let new_index := N.shiftr new_index 8 in
  sk <~ rset sk 0 (N.land new_index 0xFF) ;;
  let o := rs_with_sk o sk in
  i <~ rs_get_index o ;;
  ROk (o, i).

(** xmss_base.rs:145-149 calculate_signature_base_size (the default of an absent w
    is 16) *)
Definition rs_sig_base_size (w : option rs_w) : nat :=
  4 + 32 + w_keysize (rs_wots_new (match w with Some w => w | None => W16 end)).
(** xmss_base.rs:151-155 *)
Definition rs_sig_size (o : rs_base) (w : option rs_w) : nat := rs_sig_base_size w + N.to_nat (ro_height o) * 32.
(** xmss_base.rs:157-177; [height as u8] truncates. *)
Definition rs_height_from_sig_size (sig_size : nat) (w : option rs_w) : rs N :=
  let base := rs_sig_base_size w in
  if sig_size <? base then RErr RInvalidArgument else
  if negb ((sig_size - 4) mod 32 =? 0) then RErr RInvalidArgument else
  ROk (u8 (N.of_nat ((sig_size - base) / 32))).

(** xmss_base.rs:187-205 *)
Definition rs_get_sk_seed (o : rs_base) : rs (list N) := rslice 4 36 (ro_sk o).
(** xmss_base.rs:187-205. *)
Definition rs_get_sk_prf (o : rs_base) : rs (list N) := rslice 36 68 (ro_sk o).
(** xmss_base.rs:187-205. *)
Definition rs_get_pk_seed (o : rs_base) : rs (list N) := rslice 68 100 (ro_sk o).
(** xmss_base.rs:187-205. *)
Definition rs_get_root (o : rs_base) : rs (list N) := rslice 100 132 (ro_sk o).
(** xmss_base.rs:216-227 *)
Definition rs_obj_descr_bytes (o : rs_base) : list N := rs_descr_bytes (mkRD (ro_hash o) (ro_height o)).
(** xmss_base.rs:229-243 *)
Definition rs_get_pk (o : rs_base) : rs (list N) :=
  root <~ rs_get_root o ;; pubseed <~ rs_get_pk_seed o ;;
  ROk (rs_obj_descr_bytes o ++ root ++ pubseed).
(** xmss_base.rs:245-249 *)
Definition rs_get_extended_seed (o : rs_base) : list N := rs_obj_descr_bytes o ++ ro_seed o.
(** xmss_base.rs:251-253 *)
Definition rs_obj_address (o : rs_base) : rs (list N) := pk <~ rs_get_pk o ;; rs_get_address pk.
(** xmss_base.rs:321-327: [1 << height] is a u32 shift, the subtraction is checked. *)
Definition rs_number_signatures (o : rs_base) : rs N :=
  if (32 <=? ro_height o)%N then RPanic else ROk (2 ^ ro_height o)%N.
(** xmss_base.rs:328-330. *)
Definition rs_remaining_signatures (o : rs_base) : rs N :=
  n <~ rs_number_signatures o ;; i <~ rs_get_index o ;;
  if (n <? i)%N then RPanic else ROk (n - i)%N.

(** Height check of xmss_base.rs:293, xmss_basic.rs:50 and xmss_fast.rs:26. *)
Definition rs_bad_height (height : N) : bool := (height <=? 2)%N || negb ((height - 2) mod 2 =? 0)%N.

(** xmss_base.rs:255-315 verify: [Ok(())] is [ROk tt]. *)
Definition rs_verify (msg sig pk : list N) (w : option rs_w) : rs unit :=
  if negb (length pk =? 67) then RErr RInvalidArgument else
  let base := rs_sig_base_size w in
  if base + 254 * 32 <? length sig then RErr RInvalidArgument else
  desc <~ rs_from_extended_pk pk ;;
  height <~ rs_height_from_sig_size (length sig) w ;;
  if (height =? 0)%N || negb (rd_height desc =? height)%N then RErr RInvalidArgument else
  if rs_bad_height height then RErr RInvalidArgument else
  params <~ rs_xmss_params (N.to_nat height) (match w with Some w => w | None => W16 end) 2 ;;
  verify_pk <~ rslice 3 (length pk) pk ;;
  ok <~ rs_xmss_verify_sig (rd_hash desc) (x_wots params) msg sig verify_pk (N.to_nat height) ;;
  if (ok : bool) then ROk tt else RErr RInvalidArgument.

(** ** xmss_basic.rs *)

(** xmss_basic.rs:12-15; [rbas_w] is params.wots_par.w. *)
Record rs_basic : Type := mkRBasic { rbas_base : rs_base; rbas_params : xmss_params; rbas_w : rs_w }.

(** xmss_basic.rs:18-62 *)
Definition rs_basic_new (seed : list N) (height : N) (hf : hashfn) (w : option rs_w) : rs rs_basic :=
  let sk := repeat 0%N 132 in
  let tmp := repeat 0%N 64 in
  if negb (length seed =? 48) then RErr RInvalidArgument else
  let w := match w with Some w => w | None => W16 end in
  if rs_bad_height height then RErr RInvalidArgument else
  params <~ rs_xmss_params (N.to_nat height) w 2 ;;
  '(_, sk) <~ rs_gen_keypair hf params tmp sk seed ;;
  base <~ rs_base_new hf height sk seed ;;
  ROk (mkRBasic base params w).

(** xmss_basic.rs:86-88 *)
Definition rs_basic_set_index (o : rs_basic) (i : N) : rs (rs_basic * N) :=
  '(b, r) <~ rs_base_set_index (rbas_base o) i ;;
  ROk (mkRBasic b (rbas_params o) (rbas_w o), r).
(** xmss_basic.rs:91-107 *)
Definition rs_basic_sign (o : rs_basic) (msg : list N) : rs (rs_basic * list N) :=
  let b := rbas_base o in
  let signature := repeat 0%N (rs_sig_size b (Some (rbas_w o))) in
  '(sk, signature) <~ rs_sign_msg (ro_hash b) (rbas_params o) (ro_sk b) signature msg ;;
  ROk (mkRBasic (rs_with_sk b sk) (rbas_params o) (rbas_w o), signature).

(** ** xmss_fast.rs *)

(** xmss_fast.rs:10-14 *)
Record rs_fast : Type := mkRFast { rfa_base : rs_base; rfa_params : xmss_params; rfa_w : rs_w; rfa_state : rs_bds }.

(** xmss_fast.rs:34-55: the zeroed traversal state for height h and k = 2. *)
Definition rs_fresh_bds (h k : nat) : rs_bds :=
  mkRB (repeat 0%N ((h + 1) * 32)) 0 (repeat 0 (h + 1)) (repeat 0%N (h * 32)) (repeat 0%N (h / 2 * 32))
    (repeat (mkTH 0 0 0 false (repeat 0%N 32)) (h - k)) (repeat 0%N ((2 ^ k - k - 1) * 32)).

(** xmss_fast.rs:17-65 initialize_tree: the object after a successful call. *)
Definition rs_initialize_tree (base : rs_base) (w : option rs_w) : rs rs_fast :=
  let w := match w with Some w => w | None => W16 end in
  let tmp := repeat 0%N 64 in
  let height := ro_height base in
  if rs_bad_height height then RErr RInvalidArgument else
  params <~ rs_xmss_params (N.to_nat height) w 2 ;;
  '(sk, st) <~ rs_fast_gen_keypair (ro_hash base) params tmp (ro_sk base) (rs_fresh_bds (N.to_nat height) 2) (ro_seed base) ;;
  ROk (mkRFast (rs_with_sk base sk) params w st).

(** xmss_fast.rs:67-96; the default hash function is Shake128. *)
Definition rs_fast_new (seed : list N) (height : N) (hf : option hashfn) (w : option rs_w) : rs rs_fast :=
  if negb (length seed =? 48) then RErr RInvalidArgument else
  let hf := match hf with Some hf => hf | None => SHAKE_128 end in
  base <~ rs_base_new hf height (repeat 0%N 132) seed ;;
  rs_initialize_tree base w.

(** xmss_fast.rs:98-110 *)
Definition rs_fast_from_extended_seed (es : list N) : rs rs_fast :=
  base <~ rs_base_from_extended_seed es (repeat 0%N 132) ;;
  rs_initialize_tree base None.

(** xmss_fast.rs:134-143: the object after the call, and [Err] ([inl]) or the
    index ([inr]). *)
Definition rs_fast_set_index (o : rs_fast) (i : N) : rs (rs_fast * (rerr + N)) :=
  let b := rfa_base o in
  '(sk, st, r) <~ rs_fast_update (ro_hash b) (rfa_params o) (ro_sk b) (rfa_state o) i ;;
  let o := mkRFast (rs_with_sk b sk) (rfa_params o) (rfa_w o) st in
  ROk (o, match r with inl e => inl e | inr _ => inr i end).

(** xmss_fast.rs:146-164 *)
Definition rs_fast_sign (o : rs_fast) (msg : list N) : rs (rs_fast * (rerr + list N)) :=
  let signature := repeat 0%N (rs_sig_size (rfa_base o) (Some (rfa_w o))) in
  index <~ rs_get_index (rfa_base o) ;;
  '(o, r) <~ rs_fast_set_index o index ;;
  match r with
  | inl e => ROk (o, inl e)
  | inr _ =>
      let b := rfa_base o in
      '(sk, st, signature) <~ rs_fast_sign_msg (ro_hash b) (rfa_params o) (ro_sk b) (rfa_state o) signature msg ;;
      ROk (mkRFast (rs_with_sk b sk) (rfa_params o) (rfa_w o) st, inr signature)
  end.

(** Histories: a caller who keeps using the object after an [Err]; a panic ends the
    history.  xmss_fast.rs:134-164. *)
Definition rs_step (o : rs_fast) (c : op) : rs (rs_fast * robs) :=
  match c with
  | OpSign m =>
      '(o, r) <~ rs_fast_sign o m ;;
      ROk (o, match r with inl e => RObsErr e | inr s => RObsSig s end)
  | OpSetIndex i =>
      '(o, r) <~ rs_fast_set_index o i ;;
      ROk (o, match r with inl e => RObsErr e | inr j => RObsIdx j end)
  end.
(** xmss_fast.rs:134-164. *)
Fixpoint rs_run (o : rs_fast) (cs : list op) : rs (rs_fast * list robs) :=
  match cs with
  | [] => ROk (o, [])
  | c :: rest =>
      '(o, x) <~ rs_step o c ;;
      '(o, xs) <~ rs_run o rest ;;
      ROk (o, x :: xs)
  end.

(** The same for XMSSBasic, whose calls never return [Err].  xmss_basic.rs:86-107. *)
Definition rs_basic_step (o : rs_basic) (c : op) : rs (rs_basic * robs) :=
  match c with
  | OpSign m => '(o, s) <~ rs_basic_sign o m ;; ROk (o, RObsSig s)
  | OpSetIndex i => '(o, j) <~ rs_basic_set_index o i ;; ROk (o, RObsIdx j)
  end.
(** xmss_basic.rs:86-107. *)
Fixpoint rs_basic_run (o : rs_basic) (cs : list op) : rs (rs_basic * list robs) :=
  match cs with
  | [] => ROk (o, [])
  | c :: rest =>
      '(o, x) <~ rs_basic_step o c ;;
      '(o, xs) <~ rs_basic_run o rest ;;
      ROk (o, x :: xs)
  end.
