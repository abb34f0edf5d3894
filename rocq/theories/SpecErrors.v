(** C88, specification: the arguments each call documents as invalid, the
    environment failure that is not the caller's fault, and the arguments the
    claim ranges over. *)
From Coq Require Import List NArith Arith Bool.
From Verif Require Import Base Bytes Keccak HashAddress Wordlist Descriptor SpecApi SpecMisc XmssObj Misc PqWrapper PyErrors.
Import ListNotations.
Open Scope nat_scope.

(** Trees have an even height of at least 4 and at most 254. *)
Definition wrong_height (h : N) : Prop := (h < 4 \/ N.odd h = true \/ 254 < h)%N.

(** The caller passed something invalid. *)
Definition bad_argument (c : call) : Prop :=
  match c with
  | NewFast _ seed h _ _ | NewBasic _ seed h _ _ _ => length seed <> 48 \/ wrong_height h
  | NewFastExtended _ es => length es <> 51 \/ (nth 1 es 0 mod 16 < 2)%N
  | FastCall x (OpSign _) => (2 ^ xb_height (xf_base x) <= getIndex (xf_base x))%N
  | FastCall x (OpSetIndex j) => (j < getIndex (xf_base x) \/ 2 ^ xb_height (xf_base x) <= j)%N
  | ObjAddress o => (xb_fmt o mod 16 <> 0)%N
  | PoolTree _ h _ _ => wrong_height h
  | HeightOfSize n w =>
      exists l l1 l2, winternitz w = Some (l, l1, l2) /\ (n < 36 + 32 * N.of_nat (l1 + l2) \/ n mod 32 <> 4)%N
  | AddressOf pk => length pk <> 67 \/ (nth 1 pk 0 / 16 <> 0)%N
  | DescrBytes b => length b <> 3
  | DescrSeed es => length es <> 51
  | DescrPK pk => length pk <> 67
  | FromHex s => Nat.even (length s) = false \/ ~ Forall is_hex s
  | ToMnemonic v => length v mod 3 <> 0
  | FromMnemonic s => Nat.even (blanks s) = true \/ ~ Forall (fun w => In w wordlist) (words s)
  | Sha2N _ n => n = 0%N
  | KybFromKeys A pk sk => length pk <> ka_pkb A \/ length sk <> ka_skb A
  | _ => False
  end.

(** The random device cannot be opened or delivers too little. *)
Definition device_fails (c : call) : Prop :=
  match c with
  | RandomSeed None _ _ => True
  | RandomSeed (Some got) n _ => (N.of_nat (length got) < n)%N
  | _ => False
  end.

(** An XmssFast object as users have them: constructed and then used. *)
Definition used_object (x : xfast) : Prop :=
  exists junk seed height hash fmt x0 cs os,
    XmssFast_new junk seed height hash fmt = Ok x0 /\ run x0 cs = Ok (x, os).

(** What the types of the API allow, and the documented domains: bytes, ASCII
    text of less than 2^31 characters, w in 2, 4, 16, 256 where w is passed. *)
Definition in_domain (c : call) : Prop :=
  match c with
  | NewBasic _ _ _ _ _ w | HeightOfSize _ w => exists wp, winternitz w = Some wp
  | NewFastExtended _ es => all_bytes es
  | AddressOf pk => all_bytes pk
  | FastCall x _ => used_object x
  | ObjAddress o => length (xb_sk o) = 132
  | FromHex s => ascii s /\ (N.of_nat (length s) < 2 ^ 31)%N
  | _ => True
  end.
