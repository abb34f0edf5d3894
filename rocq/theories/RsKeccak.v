(** Model of src/rust_wrapper/xmss_alt/fips202.rs (Keccak-f[1600], absorb, squeeze,
    SHAKE128 and SHAKE256 of the Rust port) and of the wrappers
    src/rust_wrapper/qrl/hashing.rs:4-14. *)
From Coq Require Import List NArith Arith Lia Bool.
From Verif Require Import Bytes Keccak RsBase.
Import ListNotations.
Open Scope N_scope.

(** The u64 operators [^], [&], [!] and fips202.rs:20-22 rol are those of Keccak.v:
    [xor], [land], [not64] and [rol] (same text as the C macro on uint64_t). *)

(** fips202.rs:39-64 *)
Definition RS_ROUND_CONSTANTS : list N :=
  [0x0000000000000001; 0x0000000000008082; 0x800000000000808a; 0x8000000080008000; 0x000000000000808b; 0x0000000080000001; 0x8000000080008081; 0x8000000000008009; 0x000000000000008a; 0x0000000000000088; 0x0000000080008009; 0x000000008000000a; 0x000000008000808b; 0x800000000000008b; 0x8000000000008089; 0x8000000000008003; 0x8000000000008002; 0x8000000000000080; 0x000000000000800a; 0x800000008000000a; 0x8000000080008081; 0x8000000000008080; 0x0000000080000001; 0x8000000080008008].

(** fips202.rs:107-297: one iteration of [for round in (0..NROUNDS).step_by(2)], with
    round constants [rc0] = RC[round] and [rc1] = RC[round + 1]; an assignment is a
    shadowing [let].  Copying the state in and out of the locals (81-105, 299-324)
    is the pattern match and the final list. *)
Definition rs_two_rounds (rc0 rc1 : N) (state : list N) : list N :=
  match state with
  | [Aba; Abe; Abi; Abo; Abu; Aga; Age; Agi; Ago; Agu; Aka; Ake; Aki; Ako; Aku; Ama; Ame; Ami; Amo; Amu; Asa; Ase; Asi; Aso; Asu] =>
    let BCa := xor (xor (xor (xor Aba Aga) Aka) Ama) Asa in
    let BCe := xor (xor (xor (xor Abe Age) Ake) Ame) Ase in
    let BCi := xor (xor (xor (xor Abi Agi) Aki) Ami) Asi in
    let BCo := xor (xor (xor (xor Abo Ago) Ako) Amo) Aso in
    let BCu := xor (xor (xor (xor Abu Agu) Aku) Amu) Asu in
    let Da := xor BCu (rol BCe 1) in
    let De := xor BCa (rol BCi 1) in
    let Di := xor BCe (rol BCo 1) in
    let Do := xor BCi (rol BCu 1) in
    let Du := xor BCo (rol BCa 1) in
    let Aba := xor Aba Da in
    let BCa := Aba in
    let Age := xor Age De in
    let BCe := rol Age 44 in
    let Aki := xor Aki Di in
    let BCi := rol Aki 43 in
    let Amo := xor Amo Do in
    let BCo := rol Amo 21 in
    let Asu := xor Asu Du in
    let BCu := rol Asu 14 in
    let Eba := xor BCa (land (not64 BCe) BCi) in
    let Eba := xor Eba rc0 in
    let Ebe := xor BCe (land (not64 BCi) BCo) in
    let Ebi := xor BCi (land (not64 BCo) BCu) in
    let Ebo := xor BCo (land (not64 BCu) BCa) in
    let Ebu := xor BCu (land (not64 BCa) BCe) in
    let Abo := xor Abo Do in
    let BCa := rol Abo 28 in
    let Agu := xor Agu Du in
    let BCe := rol Agu 20 in
    let Aka := xor Aka Da in
    let BCi := rol Aka 3 in
    let Ame := xor Ame De in
    let BCo := rol Ame 45 in
    let Asi := xor Asi Di in
    let BCu := rol Asi 61 in
    let Ega := xor BCa (land (not64 BCe) BCi) in
    let Ege := xor BCe (land (not64 BCi) BCo) in
    let Egi := xor BCi (land (not64 BCo) BCu) in
    let Ego := xor BCo (land (not64 BCu) BCa) in
    let Egu := xor BCu (land (not64 BCa) BCe) in
    let Abe := xor Abe De in
    let BCa := rol Abe 1 in
    let Agi := xor Agi Di in
    let BCe := rol Agi 6 in
    let Ako := xor Ako Do in
    let BCi := rol Ako 25 in
    let Amu := xor Amu Du in
    let BCo := rol Amu 8 in
    let Asa := xor Asa Da in
    let BCu := rol Asa 18 in
    let Eka := xor BCa (land (not64 BCe) BCi) in
    let Eke := xor BCe (land (not64 BCi) BCo) in
    let Eki := xor BCi (land (not64 BCo) BCu) in
    let Eko := xor BCo (land (not64 BCu) BCa) in
    let Eku := xor BCu (land (not64 BCa) BCe) in
    let Abu := xor Abu Du in
    let BCa := rol Abu 27 in
    let Aga := xor Aga Da in
    let BCe := rol Aga 36 in
    let Ake := xor Ake De in
    let BCi := rol Ake 10 in
    let Ami := xor Ami Di in
    let BCo := rol Ami 15 in
    let Aso := xor Aso Do in
    let BCu := rol Aso 56 in
    let Ema := xor BCa (land (not64 BCe) BCi) in
    let Eme := xor BCe (land (not64 BCi) BCo) in
    let Emi := xor BCi (land (not64 BCo) BCu) in
    let Emo := xor BCo (land (not64 BCu) BCa) in
    let Emu := xor BCu (land (not64 BCa) BCe) in
    let Abi := xor Abi Di in
    let BCa := rol Abi 62 in
    let Ago := xor Ago Do in
    let BCe := rol Ago 55 in
    let Aku := xor Aku Du in
    let BCi := rol Aku 39 in
    let Ama := xor Ama Da in
    let BCo := rol Ama 41 in
    let Ase := xor Ase De in
    let BCu := rol Ase 2 in
    let Esa := xor BCa (land (not64 BCe) BCi) in
    let Ese := xor BCe (land (not64 BCi) BCo) in
    let Esi := xor BCi (land (not64 BCo) BCu) in
    let Eso := xor BCo (land (not64 BCu) BCa) in
    let Esu := xor BCu (land (not64 BCa) BCe) in
    let BCa := xor (xor (xor (xor Eba Ega) Eka) Ema) Esa in
    let BCe := xor (xor (xor (xor Ebe Ege) Eke) Eme) Ese in
    let BCi := xor (xor (xor (xor Ebi Egi) Eki) Emi) Esi in
    let BCo := xor (xor (xor (xor Ebo Ego) Eko) Emo) Eso in
    let BCu := xor (xor (xor (xor Ebu Egu) Eku) Emu) Esu in
    let Da := xor BCu (rol BCe 1) in
    let De := xor BCa (rol BCi 1) in
    let Di := xor BCe (rol BCo 1) in
    let Do := xor BCi (rol BCu 1) in
    let Du := xor BCo (rol BCa 1) in
    let Eba := xor Eba Da in
    let BCa := Eba in
    let Ege := xor Ege De in
    let BCe := rol Ege 44 in
    let Eki := xor Eki Di in
    let BCi := rol Eki 43 in
    let Emo := xor Emo Do in
    let BCo := rol Emo 21 in
    let Esu := xor Esu Du in
    let BCu := rol Esu 14 in
    let Aba := xor BCa (land (not64 BCe) BCi) in
    let Aba := xor Aba rc1 in
    let Abe := xor BCe (land (not64 BCi) BCo) in
    let Abi := xor BCi (land (not64 BCo) BCu) in
    let Abo := xor BCo (land (not64 BCu) BCa) in
    let Abu := xor BCu (land (not64 BCa) BCe) in
    let Ebo := xor Ebo Do in
    let BCa := rol Ebo 28 in
    let Egu := xor Egu Du in
    let BCe := rol Egu 20 in
    let Eka := xor Eka Da in
    let BCi := rol Eka 3 in
    let Eme := xor Eme De in
    let BCo := rol Eme 45 in
    let Esi := xor Esi Di in
    let BCu := rol Esi 61 in
    let Aga := xor BCa (land (not64 BCe) BCi) in
    let Age := xor BCe (land (not64 BCi) BCo) in
    let Agi := xor BCi (land (not64 BCo) BCu) in
    let Ago := xor BCo (land (not64 BCu) BCa) in
    let Agu := xor BCu (land (not64 BCa) BCe) in
    let Ebe := xor Ebe De in
    let BCa := rol Ebe 1 in
    let Egi := xor Egi Di in
    let BCe := rol Egi 6 in
    let Eko := xor Eko Do in
    let BCi := rol Eko 25 in
    let Emu := xor Emu Du in
    let BCo := rol Emu 8 in
    let Esa := xor Esa Da in
    let BCu := rol Esa 18 in
    let Aka := xor BCa (land (not64 BCe) BCi) in
    let Ake := xor BCe (land (not64 BCi) BCo) in
    let Aki := xor BCi (land (not64 BCo) BCu) in
    let Ako := xor BCo (land (not64 BCu) BCa) in
    let Aku := xor BCu (land (not64 BCa) BCe) in
    let Ebu := xor Ebu Du in
    let BCa := rol Ebu 27 in
    let Ega := xor Ega Da in
    let BCe := rol Ega 36 in
    let Eke := xor Eke De in
    let BCi := rol Eke 10 in
    let Emi := xor Emi Di in
    let BCo := rol Emi 15 in
    let Eso := xor Eso Do in
    let BCu := rol Eso 56 in
    let Ama := xor BCa (land (not64 BCe) BCi) in
    let Ame := xor BCe (land (not64 BCi) BCo) in
    let Ami := xor BCi (land (not64 BCo) BCu) in
    let Amo := xor BCo (land (not64 BCu) BCa) in
    let Amu := xor BCu (land (not64 BCa) BCe) in
    let Ebi := xor Ebi Di in
    let BCa := rol Ebi 62 in
    let Ego := xor Ego Do in
    let BCe := rol Ego 55 in
    let Eku := xor Eku Du in
    let BCi := rol Eku 39 in
    let Ema := xor Ema Da in
    let BCo := rol Ema 41 in
    let Ese := xor Ese De in
    let BCu := rol Ese 2 in
    let Asa := xor BCa (land (not64 BCe) BCi) in
    let Ase := xor BCe (land (not64 BCi) BCo) in
    let Asi := xor BCi (land (not64 BCo) BCu) in
    let Aso := xor BCo (land (not64 BCu) BCa) in
    let Asu := xor BCu (land (not64 BCa) BCe) in
    [Aba; Abe; Abi; Abo; Abu; Aga; Age; Agi; Ago; Agu; Aka; Ake; Aki; Ako; Aku; Ama; Ame; Ami; Amo; Amu; Asa; Ase; Asi; Aso; Asu]
  | _ => state
  end.

(** fips202.rs:66-325 keccak_f1600_state_permute: the twelve iterations. *)
Fixpoint rs_rounds (rcs : list N) (state : list N) : list N :=
  match rcs with
  | rc0 :: rc1 :: rest => rs_rounds rest (rs_two_rounds rc0 rc1 state)
  | _ => state
  end.
(** fips202.rs:66-325. *)
Definition rs_permute (state : list N) : list N := rs_rounds RS_ROUND_CONSTANTS state.

Open Scope nat_scope.

(** fips202.rs:23-30 load64: or of the disjoint shifted bytes (usize is 64 bits wide). *)
Definition rs_load64 (x : list N) : rs N :=
  if 8 <=? length x then ROk (from_le (firstn 8 x)) else RPanic.
(** fips202.rs:32-37 store64 *)
Definition rs_store64 (x : list N) (u : N) : rs (list N) :=
  if 8 <=? length x then ROk (to_le 8 u ++ skipn 8 x) else RPanic.

(** fips202.rs:332-334 and 350-352: [for i in 0..(r / 8) { s[i] ^= load64(&m[8*i..m.len()]) }]. *)
Definition rs_xor_lanes (k : nat) (s : list N) (m : list N) : rs (list N) :=
  rfor k (fun i s =>
    x <~ rslice (8 * i) (length m) m ;;
    w <~ rs_load64 x ;;
    a <~ rget s i ;;
    rset s i (N.lxor a w)) s.

(** fips202.rs:331-338: the while loop of keccak_absorb: [mc] is [m_clone]; the new
    [m_clone] is [&m_clone[r..m.len()]], with the length of the whole message [m].
    [fuel] bounds the iterations (never exhausted: callers pass S mlen). *)
Fixpoint rs_absorb_while (fuel : nat) (s : list N) (r : nat) (m mc : list N) (mlen : nat)
  : rs (list N * nat) :=
  if mlen <? r then ROk (s, mlen) else
  match fuel with
  | O => RPanic
  | S f =>
      s <~ rs_xor_lanes (r / 8) s mc ;;
      let s := rs_permute s in
      mc <~ rslice r (length m) mc ;;
      rs_absorb_while f s r m mc (mlen - r)
  end.

(** fips202.rs:327-353 keccak_absorb.  The tail loop (344-346) copies from [m], the
    start of the message, not from [m_clone]. *)
Definition rs_absorb (s : list N) (r : nat) (m : list N) (mlen : nat) (p : N) : rs (list N) :=
  '(s, mlen) <~ rs_absorb_while (S mlen) s r m m mlen ;;
  let t := repeat 0%N 200 in
  t <~ rcopy_loop mlen m 0 t 0 ;;
  t <~ rset t mlen p ;;
  b <~ rget t (r - 1) ;;
  t <~ rset t (r - 1) (N.lor b 128) ;;
  rs_xor_lanes (r / 8) s t.

(** fips202.rs:355-365 keccak_squeezeblocks: the contents of [h] and the state. *)
Fixpoint rs_squeezeblocks (h : list N) (nblocks : nat) (s : list N) (r : nat)
  : rs (list N * list N) :=
  match nblocks with
  | O => ROk (h, s)
  | S k =>
      let s := rs_permute s in
      h <~ rfor (r / 8) (fun i h =>
             a <~ rget s i ;;
             rwith (8 * i) (length h) h (fun x => rs_store64 x a)) h ;;
      rest <~ rslice r (length h) h ;;
      '(rest, s) <~ rs_squeezeblocks rest k s r ;;
      ROk (firstn r h ++ rest, s)
  end.

(** fips202.rs:367-388 (shake128) and 390-409 (shake256), the same text with the rate
    constant 168 or 136.  [output] is the caller's buffer. *)
Definition rs_shake (r : nat) (output : list N) (outlen : nat) (input : list N) (inlen : nat)
  : rs (list N) :=
  s <~ rs_absorb (repeat 0%N 25) r input inlen 0x1F ;;
  '(output, s) <~ rs_squeezeblocks output (outlen / r) s r ;;
  rwith (outlen / r * r) (length output) output (fun output =>
    if 0 <? outlen mod r then
      '(d, _) <~ rs_squeezeblocks (repeat 0%N r) 1 s r ;;
      rcopy_loop (outlen mod r) d 0 output 0
    else ROk output).
(** fips202.rs:367-388. *)
Definition rs_fips_shake128 := rs_shake 168.
(** fips202.rs:390-409. *)
Definition rs_fips_shake256 := rs_shake 136.

(** hashing.rs:4-8 and 10-14 *)
Definition rs_shake128 (hash_size : nat) (input : list N) : rs (list N) :=
  rs_fips_shake128 (repeat 0%N hash_size) hash_size input (length input).
(** hashing.rs:10-14. *)
Definition rs_shake256 (hash_size : nat) (input : list N) : rs (list N) :=
  rs_fips_shake256 (repeat 0%N hash_size) hash_size input (length input).
