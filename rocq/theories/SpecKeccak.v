(** FIPS 202 (SHA-3 Standard, August 2015), transcribed at the level of bits: the
    step mappings of section 3.2, Keccak-f[1600] of section 3.3-3.4, the sponge of
    section 4, pad10*1 of section 5.1, SHAKE of section 6.2 and the byte/bit
    conversion of appendix B.1.  Nothing here refers to the code of /repo. *)
From Coq Require Import List ZArith NArith Arith Bool.
Import ListNotations.
Open Scope Z_scope.

(** A state array A[x, y, z], 0 <= x, y < 5, 0 <= z < w = 64. *)
Definition array := Z -> Z -> Z -> bool.

(** 3.2.1 *)
Definition theta (A : array) : array :=
  let C x z := xorb (xorb (xorb (xorb (A x 0 z) (A x 1 z)) (A x 2 z)) (A x 3 z)) (A x 4 z) in
  let D x z := xorb (C ((x - 1) mod 5) z) (C ((x + 1) mod 5) ((z - 1) mod 64)) in
  fun x y z => xorb (A x y z) (D x z).

(** 3.2.2: lane (0,0) is kept; then for t = 0 .. 23, starting at (1, 0). *)
Fixpoint rho_loop (n : nat) (t x y : Z) (A A' : array) {struct n} : array :=
  match n with
  | O => A'
  | S n' =>
      rho_loop n' (t + 1) y ((2 * x + 3 * y) mod 5) A
        (fun x' y' z => if (x' =? x) && (y' =? y) then A x y ((z - (t + 1) * (t + 2) / 2) mod 64) else A' x' y' z)
  end.
Definition rho (A : array) : array := rho_loop 24 0 1 0 A (fun x y z => A 0 0 z).

(** 3.2.3 *)
Definition pi (A : array) : array := fun x y z => A ((x + 3 * y) mod 5) x z.

(** 3.2.4 *)
Definition chi (A : array) : array :=
  fun x y z => xorb (A x y z) (xorb (A ((x + 1) mod 5) y z) true && A ((x + 2) mod 5) y z).

(** 3.2.5, algorithm 5: rc(t). *)
Definition lfsr (R : list bool) : list bool :=
  let R := false :: R in
  let b i := nth i R false in
  firstn 8 [xorb (b 0%nat) (b 8%nat); b 1%nat; b 2%nat; b 3%nat; xorb (b 4%nat) (b 8%nat);
            xorb (b 5%nat) (b 8%nat); xorb (b 6%nat) (b 8%nat); b 7%nat; b 8%nat].
Definition rc (t : nat) : bool :=
  if (t mod 255 =? 0)%nat then true
  else nth 0 (Nat.iter (t mod 255) lfsr [true; false; false; false; false; false; false; false]) false.
(** Algorithm 6 for w = 64, l = 6: RC[2^j - 1] = rc(j + 7 ir). *)
Definition RC (ir : nat) (z : Z) : bool :=
  fold_left (fun b j => if z =? 2 ^ Z.of_nat j - 1 then rc (j + 7 * ir) else b) (seq 0 7) false.
Definition iota (ir : nat) (A : array) : array :=
  fun x y z => if (x =? 0) && (y =? 0) then xorb (A x y z) (RC ir z) else A x y z.

(** 3.3 *)
Definition Rnd (A : array) (ir : nat) : array := iota ir (chi (pi (rho (theta A)))).

(** 3.1.2 and 3.1.3: a string S of 1600 bits as an array and back. *)
Definition array_of (S : list bool) : array := fun x y z => nth (Z.to_nat (64 * (5 * y + x) + z)) S false.
Definition string_of (A : array) : list bool :=
  flat_map (fun y => flat_map (fun x => map (fun z => A (Z.of_nat x) (Z.of_nat y) (Z.of_nat z)) (seq 0 64)) (seq 0 5)) (seq 0 5).
(** 3.3, 3.4: Keccak-f[1600] = Keccak-p[1600, 24]. *)
Definition keccak_f (S : list bool) : list bool := string_of (fold_left Rnd (seq 0 24) (array_of S)).

(** 5.1: the padding appended to a message of [m] bits. *)
Definition pad10s1 (x m : nat) : list bool :=
  let j := Z.to_nat ((- Z.of_nat m - 2) mod Z.of_nat x) in
  true :: repeat false j ++ [true].

(** 4: the sponge with rate [r], for b = 1600. *)
Definition xor_bits (a b : list bool) : list bool := map (fun p => xorb (fst p) (snd p)) (combine a b).
Definition absorb_block (r : nat) (S P : list bool) : list bool :=
  keccak_f (xor_bits S (P ++ repeat false (1600 - r))).
Fixpoint squeeze (fuel r d : nat) (S Z : list bool) {struct fuel} : list bool :=
  match fuel with
  | O => Z
  | Datatypes.S f =>
      let Z := Z ++ firstn r S in
      if (d <=? length Z)%nat then firstn d Z else squeeze f r d (keccak_f S) Z
  end.
Definition sponge (r : nat) (M : list bool) (d : nat) : list bool :=
  let P := M ++ pad10s1 r (length M) in
  let n := (length P / r)%nat in
  let blocks := map (fun i => firstn r (skipn (i * r) P)) (seq 0 n) in
  squeeze (Datatypes.S d) r d (fold_left (absorb_block r) blocks (repeat false 1600)) [].

(** 6.2 *)
Definition SHAKE128 (M : list bool) (d : nat) : list bool := sponge (1600 - 256) (M ++ [true; true; true; true]) d.
Definition SHAKE256 (M : list bool) (d : nat) : list bool := sponge (1600 - 512) (M ++ [true; true; true; true]) d.

(** B.1: bytes as bits, least significant first. *)
Definition byte_bits (b : N) : list bool := map (fun i => N.testbit b (N.of_nat i)) (seq 0 8).
Definition bits (l : list N) : list bool := flat_map byte_bits l.
