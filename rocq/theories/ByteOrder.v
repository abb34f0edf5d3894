(** The code that depends on the byte order of the machine: addr_to_byte (hash.c:14-24,
    hash.rs:17-28) and the functions that call it.  Everything else computes bytes with
    shifts and remainders (xmss_common.c to_byte, fips202.c load64/store64, misc.cpp,
    xmssPool.cpp), so it is the same on every machine; the other models follow the
    little-endian branch. *)
From Coq Require Import List NArith Arith Bool.
From Verif Require Import Base Bytes Keccak HashAddress AlgsXmss RsBase RsHash RsAlgs.
Import ListNotations.
Open Scope N_scope.

Inductive byte_order : Set := LittleEndian | BigEndian.

(** The four bytes of a uint32_t as they lie in memory (hash.c:21). *)
Definition word_in_memory (o : byte_order) (w : N) : list N :=
  match o with LittleEndian => to_le 4 w | BigEndian => rev (to_le 4 w) end.
(** hash.c:21: memcpy(bytes, addr, 32). *)
Definition copy_address (o : byte_order) (a : adrs) : list N := concat (map (word_in_memory o) (words_of a)).

(** hash.c:14-24: the branch is chosen when the code is compiled. *)
Definition addr_to_byte_on (o : byte_order) (a : adrs) : list N :=
  match o with
  | LittleEndian => concat (map (to_byte 4) (words_of a))
  | BigEndian => copy_address o a
  end.

(** hash.c:113-137 *)
Definition hash_h_on (o : byte_order) (hf : hashfn) (inp : list N) (pub_seed : list N) (addr : adrs) : list N * adrs :=
  let addr := setKeyAndMask addr 0 in
  let key := prf hf (addr_to_byte_on o addr) pub_seed in
  let addr := setKeyAndMask addr 1 in
  let mask0 := prf hf (addr_to_byte_on o addr) pub_seed in
  let addr := setKeyAndMask addr 2 in
  let mask1 := prf hf (addr_to_byte_on o addr) pub_seed in
  let buf := xor_bytes inp (mask0 ++ mask1) in
  (core_hash hf 1 key buf, addr).
(** hash.c:139-160 *)
Definition hash_f_on (o : byte_order) (hf : hashfn) (inp : list N) (pub_seed : list N) (addr : adrs) : list N * adrs :=
  let addr := setKeyAndMask addr 0 in
  let key := prf hf (addr_to_byte_on o addr) pub_seed in
  let addr := setKeyAndMask addr 1 in
  let mask := prf hf (addr_to_byte_on o addr) pub_seed in
  let buf := xor_bytes inp mask in
  (core_hash hf 0 key buf, addr).
(** algsxmss.c:19-31 and algsxmss_fast.c:26-42 *)
Definition get_seed_on (o : byte_order) (hf : hashfn) (sk_seed : list N) (addr : adrs) : list N * adrs :=
  let addr := setChainADRS addr 0 in
  let addr := setHashADRS addr 0 in
  let addr := setKeyAndMask addr 0 in
  (prf hf (addr_to_byte_on o addr) sk_seed, addr).

(** hash.rs:7-15: to_be_bytes of every word, then the first [num_bytes]. *)
Definition rs_u32_slice_to_bytes (ws : list N) (num_bytes : nat) : rs (list N) :=
  rslice 0 num_bytes (concat (map (fun w => rev (to_le 4 w)) ws)).
(** hash.rs:17-28: copy_from_slice panics when the lengths differ. *)
Definition rs_addr_to_byte_on (o : byte_order) (bytes : list N) (a : adrs) : rs (list N) :=
  match o with
  | LittleEndian => rs_addr_to_byte bytes a
  | BigEndian => b <~ rs_u32_slice_to_bytes (words_of a) 32 ;; rcopy b bytes
  end.
