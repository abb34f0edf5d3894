(** Specification of the XMSS construction the library implements, written
    recursively after RFC 8391 (with the library's key derivation), independent of
    the array code in Wots.v, XmssCommon.v, AlgsXmss.v and AlgsXmssFast.v.

    Only the byte codec [to_byte], [xor_bytes], the three hash primitives and the
    type [hashfn] are shared with the model. *)
From Coq Require Import List NArith Arith Bool.
From Verif Require Import Bytes Keccak Sha256 HashAddress.
Import ListNotations.

Section Spec.
  Variable hf : hashfn.

  (** Keyed hash [hf(toByte(type,32) || key || m)], 32 bytes. *)
  Definition keyed (type : N) (key m : list N) : list N :=
    let x := to_byte 32 type ++ key ++ m in
    match hf with
    | SHA2_256 => sha256 x
    | SHAKE_128 => shake128 32 x
    | SHAKE_256 => shake256 32 x
    end.

  Definition PRF (key m : list N) : list N := keyed 3 key m.

  (** 32-byte address: layer 0, tree 0, then type and the four type-specific
      words. *)
  Definition adr (type w4 w5 w6 w7 : N) : list N :=
    concat (map (to_byte 4) [0; 0; 0; type; w4; w5; w6; w7]%N).

  (** Chaining function F at (one-time key [ots], chain [c], step [i]). *)
  Definition F_at (seed : list N) (ots c i : nat) (x : list N) : list N :=
    let a := adr 0 (N.of_nat ots) (N.of_nat c) (N.of_nat i) in
    keyed 0 (PRF seed (a 0%N)) (xor_bytes x (PRF seed (a 1%N))).

  (** Randomised tree hash of two nodes; [type] 1 = L-tree (with one-time key
      [k]), 2 = hash tree ([k] = 0). *)
  Definition rand_hash (seed : list N) (type : N) (k height index : nat) (l r : list N) : list N :=
    let a := adr type (N.of_nat k) (N.of_nat height) (N.of_nat index) in
    keyed 1 (PRF seed (a 0%N)) (xor_bytes (l ++ r) (PRF seed (a 1%N) ++ PRF seed (a 2%N))).

  (** [steps] applications of F starting at position [start] of a chain. *)
  Fixpoint chain (seed : list N) (ots c : nat) (start steps : nat) (x : list N) : list N :=
    match steps with
    | O => x
    | S k => F_at seed ots c (start + k) (chain seed ots c start k x)
    end.

  (** Secret start value of chain [c] of one-time key [ots]. *)
  Definition ots_seed (sk_seed : list N) (ots : nat) : list N :=
    PRF sk_seed (adr 0 (N.of_nat ots) 0 0 0).
  Definition chain_start (sk_seed : list N) (ots c : nat) : list N :=
    PRF (ots_seed sk_seed ots) (to_byte 32 (N.of_nat c)).

  Section Key.
    Variables (w len : nat) (sk_seed pub_seed : list N).

    (** One-time public key: the ends of the [len] chains. *)
    Definition ots_pk (ots : nat) : list (list N) :=
      map (fun c => chain pub_seed ots c 0 (w - 1) (chain_start sk_seed ots c)) (seq 0 len).

    (** One level of the unbalanced L-tree: hash neighbours, lift a lone last. *)
    Fixpoint l_level (ots height index : nat) (l : list (list N)) : list (list N) :=
      match l with
      | a :: b :: t => rand_hash pub_seed 1 ots height index a b :: l_level ots height (S index) t
      | _ => l
      end.
    Fixpoint l_root (fuel : nat) (ots height : nat) (l : list (list N)) : list N :=
      match l with
      | [] => []
      | [x] => x
      | _ => match fuel with
             | O => []
             | S f => l_root f ots (S height) (l_level ots height 0 l)
             end
      end.
    (** L-tree root of a one-time public key. *)
    Definition compress (ots : nat) (pk : list (list N)) : list N := l_root (length pk) ots 0 pk.

    Definition leaf (ots : nat) : list N := compress ots (ots_pk ots).

    (** Node [i] at height [j] of the hash tree. *)
    Fixpoint node (j i : nat) : list N :=
      match j with
      | O => leaf i
      | S j' => rand_hash pub_seed 2 0 j' i (node j' (2 * i)) (node j' (2 * i + 1))
      end.

    (** Sibling path of leaf [s] in a tree of height [h], lowest first. *)
    Definition auth_path (h s : nat) : list (list N) :=
      map (fun i => node i (Nat.lxor (s / 2 ^ i) 1)) (seq 0 h).
  End Key.
End Spec.

(** Root recomputed from a node [cur] = (height [j], index [i]) and the sibling
    path above it, lowest sibling first. *)
Fixpoint climb (hf : hashfn) (pub_seed : list N) (j i : nat) (cur : list N) (path : list (list N)) {struct path} : list N :=
  match path with
  | [] => cur
  | a :: t =>
      climb hf pub_seed (S j) (i / 2)
        (if Nat.odd i then rand_hash hf pub_seed 2 0 j (i / 2) a cur
         else rand_hash hf pub_seed 2 0 j (i / 2) cur a) t
  end.

(** ** One-time signatures *)

(** Base-2^lw digits of a byte string, most significant first. *)
Definition base_digits (lw : nat) (bytes : list N) : list N :=
  flat_map (fun b => map (fun i => (b / 2 ^ N.of_nat (lw * (8 / lw - 1 - i))) mod 2 ^ N.of_nat lw)%N
                         (seq 0 (8 / lw))) bytes.

(** Message digits and checksum digits for w = 2^lw: the checksum is
    sum (w - 1 - d), shifted as in RFC 8391. *)
Definition checksum (w : N) (ds : list N) : N := fold_right (fun d c => (w - 1 - d + c)%N) 0%N ds.
Definition msg_digits (lw len_1 len_2 : nat) (digest : list N) : list N :=
  let ds := firstn len_1 (base_digits lw digest) in
  let c := (checksum (2 ^ N.of_nat lw) ds * 2 ^ (8 - N.of_nat ((len_2 * lw) mod 8)))%N in
  ds ++ firstn len_2 (base_digits lw (to_byte ((len_2 * lw + 7) / 8) c)).

(** One-time signature: chain [c] advanced to digit [c]. *)
Definition ots_sig (hf : hashfn) (len : nat) (sk_seed pub_seed : list N) (o : nat) (digits : list N) : list (list N) :=
  map (fun c => chain hf pub_seed o c 0 (N.to_nat (nth c digits 0%N)) (chain_start hf sk_seed o c)) (seq 0 len).

(** Public key recomputed from any list of chain values. *)
Definition pk_of_sig (hf : hashfn) (w : nat) (pub_seed : list N) (o : nat) (digits : list N) (sig : list (list N)) : list (list N) :=
  map (fun c => let d := N.to_nat (nth c digits 0%N) in
                chain hf pub_seed o c d (w - 1 - d) (nth c sig [])) (seq 0 (length sig)).

(** ** Signatures *)
Definition randomizer (hf : hashfn) (sk_prf : list N) (idx : nat) : list N :=
  PRF hf sk_prf (to_byte 32 (N.of_nat idx)).
Definition digest (hf : hashfn) (R root : list N) (idx : nat) (msg : list N) : list N :=
  keyed hf 2 (R ++ root ++ to_byte 32 (N.of_nat idx)) msg.

(** The signature bytes of message [msg] with one-time key [idx]; [digits] maps
    a message digest to chain positions. *)
Definition signature (hf : hashfn) (w len h : nat) (digits : list N -> list N)
  (sk_seed sk_prf pub_seed root : list N) (idx : nat) (msg : list N) : list N :=
  let R := randomizer hf sk_prf idx in
  to_byte 4 (N.of_nat idx) ++ R ++
  concat (ots_sig hf len sk_seed pub_seed idx (digits (digest hf R root idx msg))) ++
  concat (auth_path hf w len sk_seed pub_seed h idx).

(** The root a verifier recomputes. *)
Definition recovered_root (hf : hashfn) (w : nat) (digits : list N -> list N) (pub_seed root : list N)
  (idx : nat) (R msg : list N) (otssig path : list (list N)) : list N :=
  climb hf pub_seed 0 idx
    (compress hf pub_seed idx (pk_of_sig hf w pub_seed idx (digits (digest hf R root idx msg)) otssig)) path.
