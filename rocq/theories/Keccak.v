(** Model of src/xmss-alt/fips202.c (Keccak-f[1600], absorb, squeeze, SHAKE128
    and SHAKE256) and of the SHAKE wrappers of src/qrl/hashing.cpp:12-22.

    The text of the two unrolled rounds is transcribed assignment by assignment
    (fips202.c:106-294); a C reassignment becomes a shadowing [let]. *)
From Coq Require Import List NArith Arith Lia Bool.
From Verif Require Import Base Bytes.
Import ListNotations.
Open Scope N_scope.

(** fips202.c:107-294: the operators ^ and & on uint64_t. *)
Definition xor := N.lxor.
(** fips202.c:107-294: the operators ^ and & on uint64_t. *)
Definition land := N.land.
(** 2^64 - 1, for ~ and the width of uint64_t, fips202.c:107-294. *)
Definition ones64 : N := 0xffffffffffffffff.
(** C [~a] on uint64_t.  fips202.c:126-294. *)
Definition not64 (a : N) : N := N.lxor a ones64.
(** fips202.c:14 ROL: [((a) << (offset)) ^ ((a) >> (64-(offset)))] on uint64_t;
    the left shift drops the bits above 63. *)
Definition rol (a k : N) : N :=
  N.lxor (N.land (N.shiftl a k) ones64) (N.shiftr a (64 - k)).

(** fips202.c:34-60 *)
Definition KeccakF_RoundConstants : list N :=
  [0x0000000000000001; 0x0000000000008082; 0x800000000000808a; 0x8000000080008000; 0x000000000000808b; 0x0000000080000001; 0x8000000080008081; 0x8000000000008009; 0x000000000000008a; 0x0000000000000088; 0x0000000080008009; 0x000000008000000a; 0x000000008000808b; 0x800000000000008b; 0x8000000000008089; 0x8000000000008003; 0x8000000000008002; 0x8000000000000080; 0x000000000000800a; 0x800000008000000a; 0x8000000080008081; 0x8000000000008080; 0x0000000080000001; 0x8000000080008008].

(** One iteration of the loop of KeccakF1600_StatePermute, fips202.c:105-295:
    two rounds, with round constants [rc0] = RC[round] and [rc1] = RC[round+1].
    Copying the state in and out of local variables (78-103, 297-322) is the
    pattern match and the final list. *)
Definition keccak_two_rounds (rc0 rc1 : N) (state : list N) : list N :=
  match state with
  | [Aba; Abe; Abi; Abo; Abu; Aga; Age; Agi; Ago; Agu; Aka; Ake; Aki; Ako; Aku; Ama; Ame; Ami; Amo; Amu; Asa; Ase; Asi; Aso; Asu] =>
    let BCa := xor (xor (xor (xor Aba Aga) Aka) Ama) Asa in
    let BCe := xor (xor (xor (xor Abe Age) Ake) Ame) Ase in
    let BCi := xor (xor (xor (xor Abi Agi) Aki) Ami) Asi in
    let BCo := xor (xor (xor (xor Abo Ago) Ako) Amo) Aso in
    let BCu := xor (xor (xor (xor Abu Agu) Aku) Amu) Asu in
    let Da := xor BCu (rol BCe 1) in
    let De := xor BCa (rol BCi 1) in
    let Di := xor BCe (rol BCo 1) in
    let Do := xor BCi (rol BCu 1) in
    let Du := xor BCo (rol BCa 1) in
    let Aba := xor Aba Da in
    let BCa := Aba in
    let Age := xor Age De in
    let BCe := rol Age 44 in
    let Aki := xor Aki Di in
    let BCi := rol Aki 43 in
    let Amo := xor Amo Do in
    let BCo := rol Amo 21 in
    let Asu := xor Asu Du in
    let BCu := rol Asu 14 in
    let Eba := xor BCa (land (not64 BCe) BCi) in
    let Eba := xor Eba rc0 in
    let Ebe := xor BCe (land (not64 BCi) BCo) in
    let Ebi := xor BCi (land (not64 BCo) BCu) in
    let Ebo := xor BCo (land (not64 BCu) BCa) in
    let Ebu := xor BCu (land (not64 BCa) BCe) in
    let Abo := xor Abo Do in
    let BCa := rol Abo 28 in
    let Agu := xor Agu Du in
    let BCe := rol Agu 20 in
    let Aka := xor Aka Da in
    let BCi := rol Aka 3 in
    let Ame := xor Ame De in
    let BCo := rol Ame 45 in
    let Asi := xor Asi Di in
    let BCu := rol Asi 61 in
    let Ega := xor BCa (land (not64 BCe) BCi) in
    let Ege := xor BCe (land (not64 BCi) BCo) in
    let Egi := xor BCi (land (not64 BCo) BCu) in
    let Ego := xor BCo (land (not64 BCu) BCa) in
    let Egu := xor BCu (land (not64 BCa) BCe) in
    let Abe := xor Abe De in
    let BCa := rol Abe 1 in
    let Agi := xor Agi Di in
    let BCe := rol Agi 6 in
    let Ako := xor Ako Do in
    let BCi := rol Ako 25 in
    let Amu := xor Amu Du in
    let BCo := rol Amu 8 in
    let Asa := xor Asa Da in
    let BCu := rol Asa 18 in
    let Eka := xor BCa (land (not64 BCe) BCi) in
    let Eke := xor BCe (land (not64 BCi) BCo) in
    let Eki := xor BCi (land (not64 BCo) BCu) in
    let Eko := xor BCo (land (not64 BCu) BCa) in
    let Eku := xor BCu (land (not64 BCa) BCe) in
    let Abu := xor Abu Du in
    let BCa := rol Abu 27 in
    let Aga := xor Aga Da in
    let BCe := rol Aga 36 in
    let Ake := xor Ake De in
    let BCi := rol Ake 10 in
    let Ami := xor Ami Di in
    let BCo := rol Ami 15 in
    let Aso := xor Aso Do in
    let BCu := rol Aso 56 in
    let Ema := xor BCa (land (not64 BCe) BCi) in
    let Eme := xor BCe (land (not64 BCi) BCo) in
    let Emi := xor BCi (land (not64 BCo) BCu) in
    let Emo := xor BCo (land (not64 BCu) BCa) in
    let Emu := xor BCu (land (not64 BCa) BCe) in
    let Abi := xor Abi Di in
    let BCa := rol Abi 62 in
    let Ago := xor Ago Do in
    let BCe := rol Ago 55 in
    let Aku := xor Aku Du in
    let BCi := rol Aku 39 in
    let Ama := xor Ama Da in
    let BCo := rol Ama 41 in
    let Ase := xor Ase De in
    let BCu := rol Ase 2 in
    let Esa := xor BCa (land (not64 BCe) BCi) in
    let Ese := xor BCe (land (not64 BCi) BCo) in
    let Esi := xor BCi (land (not64 BCo) BCu) in
    let Eso := xor BCo (land (not64 BCu) BCa) in
    let Esu := xor BCu (land (not64 BCa) BCe) in
    let BCa := xor (xor (xor (xor Eba Ega) Eka) Ema) Esa in
    let BCe := xor (xor (xor (xor Ebe Ege) Eke) Eme) Ese in
    let BCi := xor (xor (xor (xor Ebi Egi) Eki) Emi) Esi in
    let BCo := xor (xor (xor (xor Ebo Ego) Eko) Emo) Eso in
    let BCu := xor (xor (xor (xor Ebu Egu) Eku) Emu) Esu in
    let Da := xor BCu (rol BCe 1) in
    let De := xor BCa (rol BCi 1) in
    let Di := xor BCe (rol BCo 1) in
    let Do := xor BCi (rol BCu 1) in
    let Du := xor BCo (rol BCa 1) in
    let Eba := xor Eba Da in
    let BCa := Eba in
    let Ege := xor Ege De in
    let BCe := rol Ege 44 in
    let Eki := xor Eki Di in
    let BCi := rol Eki 43 in
    let Emo := xor Emo Do in
    let BCo := rol Emo 21 in
    let Esu := xor Esu Du in
    let BCu := rol Esu 14 in
    let Aba := xor BCa (land (not64 BCe) BCi) in
    let Aba := xor Aba rc1 in
    let Abe := xor BCe (land (not64 BCi) BCo) in
    let Abi := xor BCi (land (not64 BCo) BCu) in
    let Abo := xor BCo (land (not64 BCu) BCa) in
    let Abu := xor BCu (land (not64 BCa) BCe) in
    let Ebo := xor Ebo Do in
    let BCa := rol Ebo 28 in
    let Egu := xor Egu Du in
    let BCe := rol Egu 20 in
    let Eka := xor Eka Da in
    let BCi := rol Eka 3 in
    let Eme := xor Eme De in
    let BCo := rol Eme 45 in
    let Esi := xor Esi Di in
    let BCu := rol Esi 61 in
    let Aga := xor BCa (land (not64 BCe) BCi) in
    let Age := xor BCe (land (not64 BCi) BCo) in
    let Agi := xor BCi (land (not64 BCo) BCu) in
    let Ago := xor BCo (land (not64 BCu) BCa) in
    let Agu := xor BCu (land (not64 BCa) BCe) in
    let Ebe := xor Ebe De in
    let BCa := rol Ebe 1 in
    let Egi := xor Egi Di in
    let BCe := rol Egi 6 in
    let Eko := xor Eko Do in
    let BCi := rol Eko 25 in
    let Emu := xor Emu Du in
    let BCo := rol Emu 8 in
    let Esa := xor Esa Da in
    let BCu := rol Esa 18 in
    let Aka := xor BCa (land (not64 BCe) BCi) in
    let Ake := xor BCe (land (not64 BCi) BCo) in
    let Aki := xor BCi (land (not64 BCo) BCu) in
    let Ako := xor BCo (land (not64 BCu) BCa) in
    let Aku := xor BCu (land (not64 BCa) BCe) in
    let Ebu := xor Ebu Du in
    let BCa := rol Ebu 27 in
    let Ega := xor Ega Da in
    let BCe := rol Ega 36 in
    let Eke := xor Eke De in
    let BCi := rol Eke 10 in
    let Emi := xor Emi Di in
    let BCo := rol Emi 15 in
    let Eso := xor Eso Do in
    let BCu := rol Eso 56 in
    let Ama := xor BCa (land (not64 BCe) BCi) in
    let Ame := xor BCe (land (not64 BCi) BCo) in
    let Ami := xor BCi (land (not64 BCo) BCu) in
    let Amo := xor BCo (land (not64 BCu) BCa) in
    let Amu := xor BCu (land (not64 BCa) BCe) in
    let Ebi := xor Ebi Di in
    let BCa := rol Ebi 62 in
    let Ego := xor Ego Do in
    let BCe := rol Ego 55 in
    let Eku := xor Eku Du in
    let BCi := rol Eku 39 in
    let Ema := xor Ema Da in
    let BCo := rol Ema 41 in
    let Ese := xor Ese De in
    let BCu := rol Ese 2 in
    let Asa := xor BCa (land (not64 BCe) BCi) in
    let Ase := xor BCe (land (not64 BCi) BCo) in
    let Asi := xor BCi (land (not64 BCo) BCu) in
    let Aso := xor BCo (land (not64 BCu) BCa) in
    let Asu := xor BCu (land (not64 BCa) BCe) in
    [Aba; Abe; Abi; Abo; Abu; Aga; Age; Agi; Ago; Agu; Aka; Ake; Aki; Ako; Aku; Ama; Ame; Ami; Amo; Amu; Asa; Ase; Asi; Aso; Asu]
  | _ => state
  end.

(** fips202.c:62-323: the loop [for (round = 0; round < NROUNDS; round += 2)]. *)
Fixpoint keccak_rounds (rcs : list N) (state : list N) : list N :=
  match rcs with
  | rc0 :: rc1 :: rest => keccak_rounds rest (keccak_two_rounds rc0 rc1 state)
  | _ => state
  end.
(** fips202.c:62-324: round = 0, 2, .., 22. *)
Definition KeccakF1600_StatePermute (state : list N) : list N :=
  keccak_rounds KeccakF_RoundConstants state.

(** fips202.c:16-23 and 25-32 *)
Definition load64 (x : list N) : N := from_le (firstn 8 x).
(** fips202.c:25-32. *)
Definition store64 (u : N) : list N := to_le 8 u.

(** fips202.c:332-334, 348-350: [for i < r/8: s[i] ^= load64(m + 8*i)]. *)
Fixpoint xor_lanes (k : nat) (s : list N) (m : list N) : list N :=
  match k, s with
  | S k', w :: s' => N.lxor w (load64 m) :: xor_lanes k' s' (skipn 8 m)
  | _, _ => s
  end.

(** fips202.c:340-347: the padded last block.  [mlen < r] here, so position
    [mlen] is inside the r-byte prefix of [t] that is read afterwards; the bytes
    of [t] beyond [r] are never read. *)
Definition last_block (r : nat) (m : list N) (p : N) : list N :=
  let t := m ++ p :: repeat 0 (r - 1 - length m) in
  upd t (r - 1) (N.lor (nth (r - 1) t 0) 128).

(** fips202.c:325-351 keccak_absorb.  [fuel] bounds the number of full blocks;
    callers pass [length m], which is enough because r > 0. *)
Fixpoint keccak_absorb (fuel : nat) (s : list N) (r : nat) (m : list N) (p : N) : list N :=
  match fuel with
  | S f =>
      if (r <=? length m)%nat then
        keccak_absorb f (KeccakF1600_StatePermute (xor_lanes (r / 8) s m)) r (skipn r m) p
      else xor_lanes (r / 8) s (last_block r m p)
  | O => xor_lanes (r / 8) s (last_block r m p)
  end.

(** fips202.c:359-361: store the first r/8 lanes. *)
Definition store_lanes (r : nat) (s : list N) : list N :=
  concat (map store64 (firstn (r / 8) s)).

(** fips202.c:353-365 keccak_squeezeblocks: output bytes and final state. *)
Fixpoint keccak_squeezeblocks (nblocks : nat) (s : list N) (r : nat) : list N * list N :=
  match nblocks with
  | O => ([], s)
  | S k =>
      let s1 := KeccakF1600_StatePermute s in
      let '(h, s2) := keccak_squeezeblocks k s1 r in
      (store_lanes r s1 ++ h, s2)
  end.

(** fips202.c:367-387 (shake128) and 389-409 (shake256) are the same text with
    the rate macro SHAKE128_RATE = 168 or SHAKE256_RATE = 136 (fips202.h). *)
Definition shake (r : nat) (outlen : nat) (input : list N) : list N :=
  let s := repeat 0 25 in
  let s := keccak_absorb (length input) s r input 0x1F in
  let '(out, s) := keccak_squeezeblocks (outlen / r) s r in
  if (outlen mod r =? 0)%nat then out
  else
    let '(d, _) := keccak_squeezeblocks 1 s r in
    out ++ firstn (outlen mod r) d.

(** fips202.c:367-387; hashing.cpp:12-16. *)
Definition shake128 (outlen : nat) (input : list N) : list N := shake 168 outlen input.
(** fips202.c:389-409; hashing.cpp:18-22. *)
Definition shake256 (outlen : nat) (input : list N) : list N := shake 136 outlen input.
Global Opaque shake128 shake256.
