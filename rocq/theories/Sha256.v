(** SHA-256 after FIPS 180-4, standing for [picosha2::hash256] (PicoSHA2 is an
    external dependency whose source is not in /repo; it is called from
    src/qrl/hashing.cpp, src/qrl/qrlHelper.h and src/shasha/shasha.cpp).
    The theorems of this development use only two facts about it: the output has
    32 elements and they are bytes. *)
From Coq Require Import List NArith Arith Lia Bool.
From Verif Require Import Base Bytes.
Import ListNotations.
Open Scope N_scope.

(** FIPS 180-4, for picosha2::hash256 (hashing.cpp:26, 37-40, qrlHelper.h:29, 33, 56, shasha.cpp:10). *)
Definition rotr32 (x k : N) : N := N.lor (N.shiftr x k) (u32 (N.shiftl x (32 - k))).
(** FIPS 180-4, for picosha2::hash256 (hashing.cpp:26, 37-40, qrlHelper.h:29, 33, 56, shasha.cpp:10). *)
Definition add32 (x y : N) : N := u32 (x + y).
(** FIPS 180-4, for picosha2::hash256 (hashing.cpp:26, 37-40, qrlHelper.h:29, 33, 56, shasha.cpp:10). *)
Definition Ch x y z := N.lxor (N.land x y) (N.land (N.lxor x 0xffffffff) z).
(** FIPS 180-4, for picosha2::hash256 (hashing.cpp:26, 37-40, qrlHelper.h:29, 33, 56, shasha.cpp:10). *)
Definition Maj x y z := N.lxor (N.lxor (N.land x y) (N.land x z)) (N.land y z).
(** FIPS 180-4, for picosha2::hash256 (hashing.cpp:26, 37-40, qrlHelper.h:29, 33, 56, shasha.cpp:10). *)
Definition Sig0 x := N.lxor (N.lxor (rotr32 x 2) (rotr32 x 13)) (rotr32 x 22).
(** FIPS 180-4, for picosha2::hash256 (hashing.cpp:26, 37-40, qrlHelper.h:29, 33, 56, shasha.cpp:10). *)
Definition Sig1 x := N.lxor (N.lxor (rotr32 x 6) (rotr32 x 11)) (rotr32 x 25).
(** FIPS 180-4, for picosha2::hash256 (hashing.cpp:26, 37-40, qrlHelper.h:29, 33, 56, shasha.cpp:10). *)
Definition sig0 x := N.lxor (N.lxor (rotr32 x 7) (rotr32 x 18)) (N.shiftr x 3).
(** FIPS 180-4, for picosha2::hash256 (hashing.cpp:26, 37-40, qrlHelper.h:29, 33, 56, shasha.cpp:10). *)
Definition sig1 x := N.lxor (N.lxor (rotr32 x 17) (rotr32 x 19)) (N.shiftr x 10).

(** FIPS 180-4, for picosha2::hash256 (hashing.cpp:26, 37-40, qrlHelper.h:29, 33, 56, shasha.cpp:10). *)
Definition sha_K : list N :=
  [0x428a2f98; 0x71374491; 0xb5c0fbcf; 0xe9b5dba5; 0x3956c25b; 0x59f111f1; 0x923f82a4; 0xab1c5ed5; 0xd807aa98; 0x12835b01; 0x243185be; 0x550c7dc3; 0x72be5d74; 0x80deb1fe; 0x9bdc06a7; 0xc19bf174; 0xe49b69c1; 0xefbe4786; 0x0fc19dc6; 0x240ca1cc; 0x2de92c6f; 0x4a7484aa; 0x5cb0a9dc; 0x76f988da; 0x983e5152; 0xa831c66d; 0xb00327c8; 0xbf597fc7; 0xc6e00bf3; 0xd5a79147; 0x06ca6351; 0x14292967; 0x27b70a85; 0x2e1b2138; 0x4d2c6dfc; 0x53380d13; 0x650a7354; 0x766a0abb; 0x81c2c92e; 0x92722c85; 0xa2bfe8a1; 0xa81a664b; 0xc24b8b70; 0xc76c51a3; 0xd192e819; 0xd6990624; 0xf40e3585; 0x106aa070; 0x19a4c116; 0x1e376c08; 0x2748774c; 0x34b0bcb5; 0x391c0cb3; 0x4ed8aa4a; 0x5b9cca4f; 0x682e6ff3; 0x748f82ee; 0x78a5636f; 0x84c87814; 0x8cc70208; 0x90befffa; 0xa4506ceb; 0xbef9a3f7; 0xc67178f2].
(** FIPS 180-4, for picosha2::hash256 (hashing.cpp:26, 37-40, qrlHelper.h:29, 33, 56, shasha.cpp:10). *)
Definition sha_H0 : list N :=
  [0x6a09e667; 0xbb67ae85; 0x3c6ef372; 0xa54ff53a; 0x510e527f; 0x9b05688c; 0x1f83d9ab; 0x5be0cd19].

(** Message schedule; [rev_w] holds W_{t-1}, W_{t-2}, ...  FIPS 180-4, for picosha2::hash256 (hashing.cpp:26, 37-40, qrlHelper.h:29, 33, 56, shasha.cpp:10). *)
Fixpoint sha_schedule (k : nat) (rev_w : list N) : list N :=
  match k with
  | O => rev rev_w
  | S k' =>
      let w := add32 (add32 (sig1 (nth 1 rev_w 0)) (nth 6 rev_w 0))
                     (add32 (sig0 (nth 14 rev_w 0)) (nth 15 rev_w 0)) in
      sha_schedule k' (w :: rev_w)
  end.

(** FIPS 180-4, for picosha2::hash256 (hashing.cpp:26, 37-40, qrlHelper.h:29, 33, 56, shasha.cpp:10). *)
Fixpoint sha_rounds (kw : list (N * N)) (a b c d e f g h : N) : list N :=
  match kw with
  | [] => [a; b; c; d; e; f; g; h]
  | (k, w) :: rest =>
      let t1 := add32 (add32 (add32 h (Sig1 e)) (add32 (Ch e f g) k)) w in
      let t2 := add32 (Sig0 a) (Maj a b c) in
      sha_rounds rest (add32 t1 t2) a b c (add32 d t1) e f g
  end.

(** FIPS 180-4, for picosha2::hash256 (hashing.cpp:26, 37-40, qrlHelper.h:29, 33, 56, shasha.cpp:10). *)
Definition sha_compress (H : list N) (block : list N) : list N :=
  let w := map from_be (chunks 16 4 block) in
  let sched := sha_schedule 48 (rev w) in
  match H with
  | [a; b; c; d; e; f; g; h] =>
      map (fun p => add32 (fst p) (snd p))
          (combine H (sha_rounds (combine sha_K sched) a b c d e f g h))
  | _ => H
  end.

(** Padding: 0x80, zeros, 64-bit big-endian bit length.  FIPS 180-4, for picosha2::hash256 (hashing.cpp:26, 37-40, qrlHelper.h:29, 33, 56, shasha.cpp:10). *)
Definition sha_pad (m : list N) : list N :=
  let zeros := ((119 - length m mod 64) mod 64)%nat in
  m ++ 0x80 :: repeat 0 zeros ++ to_byte 8 (8 * N.of_nat (length m)).

(** hashing.cpp:24-28 sha2_256; picosha2::hash256 after FIPS 180-4. *)
Definition sha256 (m : list N) : list N :=
  let p := sha_pad m in
  concat (map (to_byte 4) (fold_left sha_compress (chunks (length p / 64) 64 p) sha_H0)).

Lemma sha_rounds_length : forall kw a b c d e f g h, length (sha_rounds kw a b c d e f g h) = 8%nat.
Proof. induction kw as [|[k w] kw IH]; intros; cbn [sha_rounds]; auto. Qed.

Lemma sha_compress_length : forall H b, length H = 8%nat -> length (sha_compress H b) = 8%nat.
Proof.
  intros H b HL. unfold sha_compress.
  destruct H as [|h0 [|h1 [|h2 [|h3 [|h4 [|h5 [|h6 [|h7 [|]]]]]]]]]; try discriminate.
  rewrite map_length, combine_length, sha_rounds_length. reflexivity.
Qed.

Lemma sha_fold_length : forall bs H, length H = 8%nat -> length (fold_left sha_compress bs H) = 8%nat.
Proof.
  induction bs; cbn [fold_left]; intros; auto. apply IHbs. now apply sha_compress_length.
Qed.

Lemma concat_to_byte4_length : forall l, length (concat (map (to_byte 4) l)) = (4 * length l)%nat.
Proof.
  induction l; cbn [map concat]; auto. rewrite app_length, to_byte_length, IHl. simpl length. lia.
Qed.

Lemma sha256_length : forall m, length (sha256 m) = 32%nat.
Proof.
  intros. unfold sha256. cbv zeta. rewrite concat_to_byte4_length, sha_fold_length; reflexivity.
Qed.

Lemma concat_to_byte_bytes : forall k l, all_bytes (concat (map (to_byte k) l)).
Proof.
  induction l; cbn [map concat]; [constructor|]. apply all_bytes_app. split; auto. apply to_byte_bytes.
Qed.

Lemma sha256_bytes : forall m, all_bytes (sha256 m).
Proof. intros. apply concat_to_byte_bytes. Qed.
Global Opaque sha256.
