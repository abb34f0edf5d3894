(** Specification of signatures for every Winternitz parameter w the API takes
    (XmssBasic's constructor, initialize_tree and verify have a uint32_t w), where
    RFC 8391 and SpecApi.v know only powers of two.  In terms of SpecXmss.v. *)
From Coq Require Import List NArith Arith Bool.
From Verif Require Import Bytes HashAddress SpecXmss SpecApi.
Import ListNotations.
Open Scope nat_scope.

(** Parameters with which messages can be signed: floor(log2 w) divides 8, i.e.
    2..7, 16..31 and 256..511. *)
Definition usable_w (w : N) : Prop := (2 <= w < 8 \/ 16 <= w < 32 \/ 256 <= w < 512)%N.

(** Parameters for which the sizes are defined at all: w is a positive int above 1,
    and the 32-bit product whose logarithm gives the checksum length is not 0. *)
Definition log_of (w : N) : nat := N.to_nat (N.log2 w).
Definition sized_w (w : N) : Prop :=
  (2 <= w < 2 ^ 31)%N /\ ((N.of_nat (256 / log_of w) * (w - 1)) mod 2 ^ 32 <> 0)%N.
(** (bits per digit, message digits, checksum digits) *)
Definition w_sizes (w : N) : nat * nat * nat :=
  let lw := log_of w in
  let l1 := 256 / lw in
  (lw, l1, N.to_nat (N.log2 ((N.of_nat l1 * (w - 1)) mod 2 ^ 32)) / lw + 1).
Definition w_cells (w : N) : nat := snd (fst (w_sizes w)) + snd (w_sizes w).

(** Digits: the bytes cut into pieces of lw bits from the left, each piece *together
    with the bits left of it* masked with w - 1. *)
Definition cut_digits (w : N) (lw : nat) (bytes : list N) : list N :=
  flat_map (fun b => map (fun i => N.land (b / 2 ^ N.of_nat (lw * (8 / lw - 1 - i))) (w - 1))
                         (seq 0 (8 / lw))) bytes.
Definition w_digits (w : N) (digest : list N) : list N :=
  let '(lw, l1, l2) := w_sizes w in
  let ds := firstn l1 (cut_digits w lw digest) in
  let c := (checksum w ds * 2 ^ (8 - N.of_nat ((l2 * lw) mod 8)))%N in
  ds ++ firstn l2 (cut_digits w lw (to_byte ((l2 * lw + 7) / 8) c)).

Definition w_root (hf : hashfn) (w : N) (h : nat) (seed : list N) : list N :=
  node hf (N.to_nat w) (w_cells w) (key_seed seed) (key_pub seed) h 0.
Definition w_sig (hf : hashfn) (w : N) (h : nat) (seed : list N) (idx : nat) (msg : list N) : list N :=
  signature hf (N.to_nat w) (w_cells w) h (w_digits w)
    (key_seed seed) (key_prf seed) (key_pub seed) (w_root hf w h seed) idx msg.
Definition w_sk (hf : hashfn) (w : N) (h : nat) (seed : list N) (i : N) : list N :=
  to_byte 4 i ++ key_seed seed ++ key_prf seed ++ key_pub seed ++ w_root hf w h seed.

(** The sizes a verifier looks at. *)
Definition pk_height (pk : list N) : nat := 2 * N.to_nat (nth 1 pk 0 mod 16)%N.
Definition w_sizes_match (w : N) (sig pk : list N) : Prop :=
  length pk = 67 /\ 4 <= pk_height pk /\ length sig = 36 + 32 * w_cells w + 32 * pk_height pk.

(** The digest of a message as this signature and public key hash it. *)
Definition pk_root (pk : list N) : list N := firstn 32 (skipn 3 pk).
Definition sig_digest (hf : hashfn) (sig pk msg : list N) : list N :=
  digest hf (firstn 32 (skipn 4 sig)) (pk_root pk) (N.to_nat (from_be (firstn 4 sig))) msg.
(** The root recomputed from a signature. *)
Definition w_recovered (hf : hashfn) (w : N) (sig pk msg : list N) : list N :=
  recovered_root hf (N.to_nat w) (w_digits w) (firstn 32 (skipn 35 pk)) (pk_root pk)
    (N.to_nat (from_be (firstn 4 sig))) (firstn 32 (skipn 4 sig)) msg
    (cells (w_cells w) (skipn 36 sig)) (cells (pk_height pk) (skipn (36 + 32 * w_cells w) sig)).
