(** Model of src/xmss-alt/hash_address.c and src/xmss-alt/hash.c.

    The security parameter n is 32 everywhere in the library (xmssBase.cpp:237,
    xmssBasic.cpp:36, xmssFast.cpp:29), so it is fixed to 32 here; the n = 64
    branches of core_hash are unreachable from the API and not modelled. *)
From Coq Require Import List NArith Arith Lia Bool.
From Verif Require Import Base Bytes Keccak Sha256.
Import ListNotations.
Open Scope N_scope.

(** [uint32_t adrs[8]];  e.g. hash_address.c:15, algsxmss.c:229 ff. *)
Record adrs : Type := mkAdrs {
  a0 : N; a1 : N; a2 : N; a3 : N; a4 : N; a5 : N; a6 : N; a7 : N }.

(** algsxmss.c:190, 257, algsxmss_fast.c:524, 565, 631, xmss_common.c:157-159. *)
Definition zero_adrs : adrs := mkAdrs 0 0 0 0 0 0 0 0.

(** hash_address.c:24-30: sets the type and clears words 4..7. *)
Definition setType (a : adrs) (t : N) : adrs :=
  mkAdrs (a0 a) (a1 a) (a2 a) (u32 t) 0 0 0 0.
(** hash_address.c:32-34 *)
Definition setKeyAndMask (a : adrs) (v : N) : adrs :=
  mkAdrs (a0 a) (a1 a) (a2 a) (a3 a) (a4 a) (a5 a) (a6 a) (u32 v).
(** hash_address.c:38-40 and (same body) setLtreeADRS 52-54.  The parameter is
    uint32_t, so wider arguments are truncated. *)
Definition setOTSADRS (a : adrs) (v : N) : adrs :=
  mkAdrs (a0 a) (a1 a) (a2 a) (a3 a) (u32 v) (a5 a) (a6 a) (a7 a).
(** hash_address.c:52-54. *)
Definition setLtreeADRS (a : adrs) (v : N) : adrs :=
  mkAdrs (a0 a) (a1 a) (a2 a) (a3 a) (u32 v) (a5 a) (a6 a) (a7 a).
(** hash_address.c:42-44 and (same body) setTreeHeight 58-60 *)
Definition setChainADRS (a : adrs) (v : N) : adrs :=
  mkAdrs (a0 a) (a1 a) (a2 a) (a3 a) (a4 a) (u32 v) (a6 a) (a7 a).
(** hash_address.c:58-60. *)
Definition setTreeHeight (a : adrs) (v : N) : adrs :=
  mkAdrs (a0 a) (a1 a) (a2 a) (a3 a) (a4 a) (u32 v) (a6 a) (a7 a).
(** hash_address.c:46-48 and (same body) setTreeIndex 62-64 *)
Definition setHashADRS (a : adrs) (v : N) : adrs :=
  mkAdrs (a0 a) (a1 a) (a2 a) (a3 a) (a4 a) (a5 a) (u32 v) (a7 a).
(** hash_address.c:62-64. *)
Definition setTreeIndex (a : adrs) (v : N) : adrs :=
  mkAdrs (a0 a) (a1 a) (a2 a) (a3 a) (a4 a) (a5 a) (u32 v) (a7 a).

(** [memcpy(dst, addr, 12); setType(dst, t)] with [dst] uninitialised, e.g.
    algsxmss.c:76-82: words 0..2 are copied, setType writes the other five. *)
Definition copy_layer_tree (addr : adrs) (t : N) : adrs := setType addr t.

(** hash.c:14-24, little-endian host branch: each word big-endian. *)
Definition addr_to_byte (a : adrs) : list N :=
  to_byte 4 (a0 a) ++ to_byte 4 (a1 a) ++ to_byte 4 (a2 a) ++ to_byte 4 (a3 a) ++
  to_byte 4 (a4 a) ++ to_byte 4 (a5 a) ++ to_byte 4 (a6 a) ++ to_byte 4 (a7 a).

(** eHashFunctions.h:3-7: the enumerators. *)
Inductive hashfn : Set := SHA2_256 | SHAKE_128 | SHAKE_256.

(** The enum value with numeric value [id]; the descriptor decoder can produce
    ids up to 15 (qrlDescriptor.h:67), for which core_hash (hash.c:50-84) matches
    no branch and leaves its output buffer unwritten.  Callers of the model treat
    [None] as undefined behaviour at the first use of the hash. *)
Definition hash_of_id (id : N) : option hashfn :=
  match id with 0 => Some SHA2_256 | 1 => Some SHAKE_128 | 2 => Some SHAKE_256 | _ => None end.

(** hash.c:26-85 core_hash, input [toByte(type,32) || key || in]. *)
Definition core_hash (hf : hashfn) (type : N) (key inp : list N) : list N :=
  let buf := to_byte 32 type ++ key ++ inp in
  match hf with
  | SHAKE_128 => shake128 32 buf
  | SHAKE_256 => shake256 32 buf
  | SHA2_256 => sha256 buf
  end.

(** hash.c:90-95 *)
Definition prf (hf : hashfn) (inp key : list N) : list N := core_hash hf 3 key inp.
(** hash.c:100-108; keylen = 3n at both call sites. *)
Definition h_msg (hf : hashfn) (inp key : list N) : list N := core_hash hf 2 key inp.

(** hash.c:113-137.  Returns the output and the address with the keyAndMask word
    left at 2, as the C code mutates it. *)
Definition hash_h (hf : hashfn) (inp : list N) (pub_seed : list N) (addr : adrs) : list N * adrs :=
  let addr := setKeyAndMask addr 0 in
  let key := prf hf (addr_to_byte addr) pub_seed in
  let addr := setKeyAndMask addr 1 in
  let mask0 := prf hf (addr_to_byte addr) pub_seed in
  let addr := setKeyAndMask addr 2 in
  let mask1 := prf hf (addr_to_byte addr) pub_seed in
  let buf := xor_bytes inp (mask0 ++ mask1) in
  (core_hash hf 1 key buf, addr).

(** hash.c:139-160 *)
Definition hash_f (hf : hashfn) (inp : list N) (pub_seed : list N) (addr : adrs) : list N * adrs :=
  let addr := setKeyAndMask addr 0 in
  let key := prf hf (addr_to_byte addr) pub_seed in
  let addr := setKeyAndMask addr 1 in
  let mask := prf hf (addr_to_byte addr) pub_seed in
  let buf := xor_bytes inp mask in
  (core_hash hf 0 key buf, addr).
