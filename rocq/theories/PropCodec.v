(** C54: the fixed-width integer encodings and bytewise operations the whole
    library (keys, signatures, hash inputs) is built from, digit by digit, and
    published test vectors for the SHA-256 that stands for PicoSHA2. *)
From Coq Require Import List NArith Arith Lia Bool.
From Verif Require Import Base Bytes Sha256.
From Verif Require Export SpecTerms.
Import ListNotations.
Open Scope N_scope.




Lemma digit256_S : forall v i, digit256 (v / 256) i = digit256 v (S i).
Proof.
  intros. unfold digit256. rewrite Nat2N.inj_succ, N.pow_succ_r'.
  rewrite N.div_div; [reflexivity | lia | apply N.pow_nonzero; lia].
Qed.

Theorem C54_big_endian_digits : forall len v,
  to_byte len v = map (fun j => digit256 v (len - 1 - j)) (seq 0 len).
Proof.
  induction len; intros; [reflexivity|].
  rewrite seq_S, map_app. cbn [to_byte map]. f_equal.
  - rewrite IHlen. apply map_ext_in. intros j Hj. apply in_seq in Hj.
    rewrite digit256_S. f_equal. lia.
  - f_equal. replace (S len - 1 - (0 + len))%nat with O by lia. unfold digit256.
    now rewrite N.pow_0_r, N.div_1_r.
Qed.

Theorem C54_little_endian_digits : forall len v,
  to_le len v = map (digit256 v) (seq 0 len).
Proof.
  induction len; intros; [reflexivity|].
  cbn [to_le seq map]. f_equal.
  - unfold digit256. now rewrite N.pow_0_r, N.div_1_r.
  - rewrite IHlen, <- seq_shift, map_map. apply map_ext. intros. apply digit256_S.
Qed.

Lemma weighted_be : forall l, from_be l = weighted (fun i => length l - 1 - i)%nat l.
Proof.
  induction l as [|x l IH]; [reflexivity|].
  rewrite from_be_cons, IH. unfold weighted. cbn [length seq map fold_right].
  f_equal.
  - cbn [nth]. do 3 f_equal. lia.
  - rewrite <- seq_shift, map_map. f_equal. apply map_ext. intros a. cbn [nth].
    do 3 f_equal. lia.
Qed.

Lemma weighted_le : forall l, from_le l = weighted (fun i => i) l.
Proof.
  induction l as [|x l IH]; [reflexivity|].
  cbn [from_le]. rewrite IH. unfold weighted. cbn [length seq map fold_right].
  cbn [nth]. rewrite N.pow_0_r, N.mul_1_r. f_equal.
  rewrite <- seq_shift, map_map.
  generalize (seq 0 (length l)). induction l0 as [|i l0 IH0]; [reflexivity|].
  cbn [map fold_right nth]. rewrite N.mul_add_distr_l, IH0. f_equal.
  rewrite Nat2N.inj_succ, N.pow_succ_r'. lia.
Qed.

Theorem C54_decode : forall l,
  from_be l = weighted (fun i => length l - 1 - i)%nat l /\ from_le l = weighted (fun i => i) l.
Proof. intros. split; [apply weighted_be | apply weighted_le]. Qed.

Theorem C54_round_trip : forall len v l,
  from_be (to_byte len v) = v mod 256 ^ N.of_nat len /\
  from_le (to_le len v) = v mod 256 ^ N.of_nat len /\
  (all_bytes l -> to_byte (length l) (from_be l) = l /\ to_le (length l) (from_le l) = l).
Proof.
  intros. split; [apply from_be_to_byte|]. split; [apply from_le_to_le|].
  intros H. split; [now apply to_byte_from_be | now apply to_le_from_le].
Qed.

(** [xor_bytes] works byte by byte and [slice] copies a range. *)
Theorem C54_xor : forall a b i, length a = length b -> (i < length a)%nat ->
  length (xor_bytes a b) = length a /\ nth i (xor_bytes a b) 0 = N.lxor (nth i a 0) (nth i b 0).
Proof.
  intros a b i E H. split; [rewrite xor_bytes_length, E; apply Nat.min_id|].
  revert b i E H. induction a as [|x a IH]; intros [|y b] i E H; cbn [length] in *; try lia.
  destruct i; cbn [xor_bytes nth]; [reflexivity | apply IH; lia].
Qed.

Theorem C54_slice : forall off n l i, (off + n <= length l)%nat -> (i < n)%nat ->
  length (slice off n l) = n /\ nth i (slice off n l) 0 = nth (off + i) l 0.
Proof.
  intros. split; [now apply slice_length|]. unfold slice.
  rewrite <- (firstn_skipn off l) at 2.
  rewrite app_nth2; rewrite firstn_length_le by lia; try lia.
  replace (off + i - off)%nat with i by lia.
  rewrite <- (firstn_skipn n (skipn off l)) at 2.
  rewrite app_nth1; auto. rewrite firstn_length_le; auto. rewrite skipn_length. lia.
Qed.

Example C54_case : to_byte 4 0x01020304 = [1; 2; 3; 4] /\ to_le 4 0x01020304 = [4; 3; 2; 1] /\
  from_be [1; 2; 3; 4] = 0x01020304 /\ from_le [4; 3; 2; 1] = 0x01020304 /\ to_byte 2 0x10003 = [0; 3].
Proof. repeat split. Qed.

(** Test vectors (FIPS 180-4 examples, and tests/js/tests/qrllib.spec.js:90). *)
Example sha256_abc : from_be (sha256 [97; 98; 99]) =
  0xba7816bf8f01cfea414140de5dae2223b00361a396177a9cb410ff61f20015ad.
Proof. vm_compute. reflexivity. Qed.
Example sha256_empty : from_be (sha256 []) =
  0xe3b0c44298fc1c149afbf4c8996fb92427ae41e4649b934ca495991b7852b855.
Proof. vm_compute. reflexivity. Qed.
Example sha256_12345 : from_be (sha256 [1; 2; 3; 4; 5]) =
  0x74f81fe167d99b4cb41d6d0ccda82278caee9f3e2f25d5e5a3936ff3dcec60d0.
Proof. vm_compute. reflexivity. Qed.
(** Two blocks: "abcdbcdecdefdefgefghfghighijhijkijkljklmklmnlmnomnopnopq". *)
Example sha256_two_blocks :
  from_be (sha256 (flat_map (fun k => [97 + k; 98 + k; 99 + k; 100 + k]) [0; 1; 2; 3; 4; 5; 6; 7; 8; 9; 10; 11; 12; 13])) =
  0x248d6a61d20638b8e5c026930c3e6039a33ce45964ff2167f6ecedd419db06c1.
Proof. vm_compute. reflexivity. Qed.
