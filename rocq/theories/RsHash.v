(** Model of the Rust port's src/rust_wrapper/xmss_alt/hash_address.rs, hash.rs and
    xmss_common.rs:to_byte.  The security parameter n is 32 at every call from the
    API, so [n] is 32 and the 64-byte branches of core_hash are not modelled.

    [&mut [u8]] arguments become an argument and a result: the contents before and
    after the call.  The target is little endian (hash.rs:18). *)
From Coq Require Import List NArith Arith Lia Bool.
From Verif Require Import Bytes Sha256 HashAddress RsBase RsKeccak.
Import ListNotations.
Open Scope nat_scope.

(** ** hash_address.rs; [&mut [u32; 8]] is the record [adrs] of its eight words.
    The arguments are u32: [u32] is the conversion at the call. *)

(** hash_address.rs:10-15 *)
Definition rs_set_type (a : adrs) (t : N) : adrs := mkAdrs (a0 a) (a1 a) (a2 a) (u32 t) 0 0 0 0.
(** hash_address.rs:17-19 *)
Definition rs_set_key_and_mask (a : adrs) (v : N) : adrs :=
  mkAdrs (a0 a) (a1 a) (a2 a) (a3 a) (a4 a) (a5 a) (a6 a) (u32 v).
(** hash_address.rs:23-25 and 37-39 *)
Definition rs_set_ots_adrs (a : adrs) (v : N) : adrs :=
  mkAdrs (a0 a) (a1 a) (a2 a) (a3 a) (u32 v) (a5 a) (a6 a) (a7 a).
(** hash_address.rs:37-39. *)
Definition rs_set_ltree_adrs (a : adrs) (v : N) : adrs :=
  mkAdrs (a0 a) (a1 a) (a2 a) (a3 a) (u32 v) (a5 a) (a6 a) (a7 a).
(** hash_address.rs:27-29 and 43-45 *)
Definition rs_set_chain_adrs (a : adrs) (v : N) : adrs :=
  mkAdrs (a0 a) (a1 a) (a2 a) (a3 a) (a4 a) (u32 v) (a6 a) (a7 a).
(** hash_address.rs:43-45. *)
Definition rs_set_tree_height (a : adrs) (v : N) : adrs :=
  mkAdrs (a0 a) (a1 a) (a2 a) (a3 a) (a4 a) (u32 v) (a6 a) (a7 a).
(** hash_address.rs:31-33 and 47-49 *)
Definition rs_set_hash_adrs (a : adrs) (v : N) : adrs :=
  mkAdrs (a0 a) (a1 a) (a2 a) (a3 a) (a4 a) (a5 a) (u32 v) (a7 a).
(** hash_address.rs:47-49. *)
Definition rs_set_tree_index (a : adrs) (v : N) : adrs :=
  mkAdrs (a0 a) (a1 a) (a2 a) (a3 a) (a4 a) (a5 a) (u32 v) (a7 a).
(** hash.rs:17-28: the eight words of an address. *)
Definition words_of (a : adrs) : list N := [a0 a; a1 a; a2 a; a3 a; a4 a; a5 a; a6 a; a7 a].

(** ** xmss_common.rs:35-40 to_byte: from the last byte to the first; [bytes - 1]
    underflows for 0. *)
Definition rs_to_byte (out : list N) (input : N) (bytes : nat) : rs (list N) :=
  if bytes =? 0 then RPanic else
  '(out, _) <~ rfor bytes (fun k '(out, input) =>
      out <~ rset out (bytes - 1 - k) (N.land input 0xff) ;;
      ROk (out, N.shiftr input 8)) (out, input) ;;
  ROk out.

(** ** hash.rs *)

(** hash.rs:17-28 *)
Definition rs_addr_to_byte (bytes : list N) (a : adrs) : rs (list N) :=
  rfor 8 (fun i bytes =>
    w <~ rget (words_of a) i ;;
    rwith (i * 4) (length bytes) bytes (fun b => rs_to_byte b w 4)) bytes.

(** hash.rs:30-80; [inlen + n + keylen] is u32 arithmetic. *)
Definition rs_core_hash (hf : hashfn) (out : list N) (type_t : N) (key : list N) (keylen : nat)
    (input : list N) (inlen : nat) : rs (list N) :=
  if (2 ^ 32 <=? N.of_nat (inlen + 32 + keylen))%N then RPanic else
  let buf := repeat 0%N (inlen + 32 + keylen) in
  buf <~ rs_to_byte buf type_t 32 ;;
  buf <~ rcopy_loop keylen key 0 buf 32 ;;
  buf <~ rcopy_loop inlen input 0 buf (keylen + 32) ;;
  match hf with
  | SHAKE_128 => rs_fips_shake128 out 32 buf (inlen + keylen + 32)
  | SHAKE_256 => rs_fips_shake256 out 32 buf (inlen + keylen + 32)
  | SHA2_256 =>
      let d := sha256 buf in
      rwith 0 (length d) out (fun o => rcopy d o)
  end.

(** hash.rs:85-87 *)
Definition rs_prf (hf : hashfn) (out input key : list N) : rs (list N) :=
  rs_core_hash hf out 3 key 32 input 32.

(** hash.rs:92-119 with [keylen = 3 n]; [inlen.try_into().unwrap()] to u32. *)
Definition rs_h_msg (hf : hashfn) (out input : list N) (inlen : nat) (key : list N) : rs (list N) :=
  if (2 ^ 32 <=? N.of_nat inlen)%N then RPanic else
  rs_core_hash hf out 2 key 96 input inlen.

(** [for i in 0..n { buf[i] = input[i] ^ bitmask[i]; }];  hash.rs:124-153, 176-178. *)
Definition rs_xor_loop (n : nat) (input mask buf : list N) : rs (list N) :=
  rfor n (fun i buf => x <~ rget input i ;; y <~ rget mask i ;; rset buf i (N.lxor x y)) buf.

(** hash.rs:124-153: output buffer and address. *)
Definition rs_hash_h (hf : hashfn) (out input pub_seed : list N) (addr : adrs) : rs (list N * adrs) :=
  let addr := rs_set_key_and_mask addr 0 in
  byte_addr <~ rs_addr_to_byte (repeat 0%N 32) addr ;;
  key <~ rs_prf hf (repeat 0%N 32) byte_addr pub_seed ;;
  let addr := rs_set_key_and_mask addr 1 in
  byte_addr <~ rs_addr_to_byte byte_addr addr ;;
  bitmask <~ rs_prf hf (repeat 0%N 64) byte_addr pub_seed ;;
  let addr := rs_set_key_and_mask addr 2 in
  byte_addr <~ rs_addr_to_byte byte_addr addr ;;
  bitmask <~ rwith 32 (length bitmask) bitmask (fun o => rs_prf hf o byte_addr pub_seed) ;;
  buf <~ rs_xor_loop 64 input bitmask (repeat 0%N 64) ;;
  out <~ rs_core_hash hf out 1 key 32 buf 64 ;;
  ROk (out, addr).

(** hash.rs:155-181 *)
Definition rs_hash_f (hf : hashfn) (out input pub_seed : list N) (addr : adrs) : rs (list N * adrs) :=
  let addr := rs_set_key_and_mask addr 0 in
  byte_addr <~ rs_addr_to_byte (repeat 0%N 32) addr ;;
  key <~ rs_prf hf (repeat 0%N 32) byte_addr pub_seed ;;
  let addr := rs_set_key_and_mask addr 1 in
  byte_addr <~ rs_addr_to_byte byte_addr addr ;;
  bitmask <~ rs_prf hf (repeat 0%N 32) byte_addr pub_seed ;;
  buf <~ rs_xor_loop 32 input bitmask (repeat 0%N 32) ;;
  out <~ rs_core_hash hf out 0 key 32 buf 32 ;;
  ROk (out, addr).
