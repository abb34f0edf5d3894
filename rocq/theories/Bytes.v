(** Bytes, byte strings and the integer codecs used by the C code. *)
From Coq Require Import List NArith Arith Lia Bool.
From Verif Require Import Base.
Import ListNotations.
Open Scope N_scope.

(** unsigned char and buffers of it, e.g. misc.cpp:14, algsxmss_fast.h:27-36. *)
Notation byte := N (only parsing).
(** unsigned char and buffers of it, e.g. misc.cpp:14, algsxmss_fast.h:27-36. *)
Notation bytes := (list N) (only parsing).

(** the values of unsigned char / uint8_t, e.g. xmssBase.cpp:143-149, misc.cpp:46. *)
Definition is_byte (b : N) : Prop := b < 256.
(** the values of unsigned char / uint8_t, e.g. xmssBase.cpp:143-149, misc.cpp:46. *)
Definition all_bytes (l : list N) : Prop := Forall is_byte l.

(** conversion to unsigned char, e.g. xmssBase.cpp:96, 143-149, xmss_common.c:18-24. *)
Definition u8 (x : N) : N := x mod 256.
(** conversion to uint32_t, e.g. the parameters of hash_address.c:15-64, xmssBase.cpp:133-139. *)
Definition u32 (x : N) : N := x mod 2 ^ 32.
(** conversion to uint64_t or size_t, e.g. fips202.c:25-32, xmssPool.cpp:20-21, 40, 84. *)
Definition u64 (x : N) : N := x mod 2 ^ 64.

(** xmss_common.c:18-24 [to_byte]: [len] bytes, most significant first. *)
Fixpoint to_byte (len : nat) (v : N) : list N :=
  match len with
  | O => []
  | S len' => to_byte len' (v / 256) ++ [v mod 256]
  end.

(** Value of a big-endian byte string (the shift-or idiom of
    xmss_common.c:166-169, algsxmss.c:202-203,229, algsxmss_fast.c:541-545,604-605,
    and the shift-add idiom of xmssBase.cpp:135-138). *)
Definition from_be (l : list N) : N := fold_left (fun a b => a * 256 + b) l 0.

(** Little-endian codecs: fips202.c:25-32 [store64] and 16-23 [load64] are the
    instances of length 8; misc.cpp:166,173 are instances of length 4. *)
Fixpoint to_le (len : nat) (v : N) : list N :=
  match len with
  | O => []
  | S len' => v mod 256 :: to_le len' (v / 256)
  end.
(** fips202.c:16-23. *)
Fixpoint from_le (l : list N) : N :=
  match l with
  | [] => 0
  | b :: t => b + 256 * from_le t
  end.

(** [out[j] = a[j] ^ b[j]] for buffers of the same length.  hash.c:133-135, 156-158. *)
Fixpoint xor_bytes (a b : list N) : list N :=
  match a, b with
  | x :: a', y :: b' => N.lxor x y :: xor_bytes a' b'
  | _, _ => []
  end.

(** Cutting a byte buffer into consecutive cells of [n] bytes ([k] of them).  the cells of e.g. wots.c and xmss_common.c buffers, offsets i * n; xmssFast.cpp:38-44. *)
Fixpoint chunks (k : nat) (n : nat) (l : list N) : list (list N) :=
  match k with
  | O => []
  | S k' => firstn n l :: chunks k' n (skipn n l)
  end.

(** [memcpy] source slice [l + off .. l + off + n).  e.g. algsxmss_fast.c:541-545, 604-620, xmssBase.cpp:109-131. *)
Definition slice (off n : nat) (l : list N) : list N := firstn n (skipn off l).

(** ** Lemmas *)
Lemma to_byte_length : forall n v, length (to_byte n v) = n.
Proof.
  induction n; simpl; intros; auto. rewrite app_length, IHn; simpl; lia.
Qed.

Lemma to_le_length : forall n v, length (to_le n v) = n.
Proof. induction n; simpl; intros; auto. Qed.

Lemma u8_byte : forall x, is_byte (x mod 256).
Proof. intros; unfold is_byte; apply N.mod_lt; lia. Qed.

Lemma to_byte_bytes : forall n v, all_bytes (to_byte n v).
Proof.
  induction n; simpl; intros; [constructor|].
  apply Forall_app; split; [apply IHn|]. repeat constructor. apply u8_byte.
Qed.

Lemma to_le_bytes : forall n v, all_bytes (to_le n v).
Proof.
  induction n; simpl; intros; constructor; [apply u8_byte | apply IHn].
Qed.

Lemma fold_be_shift : forall l a,
  fold_left (fun a b => a * 256 + b) l a = a * 256 ^ N.of_nat (length l) + from_be l.
Proof.
  unfold from_be. induction l; simpl length; intros.
  - simpl. lia.
  - cbn [fold_left]. rewrite IHl. rewrite (IHl (0 * 256 + a)).
    rewrite Nat2N.inj_succ, N.pow_succ_r'. ring.
Qed.

Lemma from_be_app : forall a b, from_be (a ++ b) = from_be a * 256 ^ N.of_nat (length b) + from_be b.
Proof.
  intros. unfold from_be at 1. rewrite fold_left_app. apply fold_be_shift.
Qed.

Lemma from_be_cons : forall x l, from_be (x :: l) = x * 256 ^ N.of_nat (length l) + from_be l.
Proof.
  intros. change (x :: l) with ([x] ++ l). rewrite from_be_app. reflexivity.
Qed.

Lemma from_be_to_byte : forall n v, from_be (to_byte n v) = v mod 256 ^ N.of_nat n.
Proof.
  induction n; intros; simpl to_byte.
  - simpl. now rewrite N.mod_1_r.
  - rewrite from_be_app, IHn. cbn [length]. change (from_be [v mod 256]) with (0 * 256 + v mod 256).
    change (256 ^ N.of_nat 1) with 256.
    rewrite Nat2N.inj_succ, N.pow_succ_r'.
    rewrite N.mod_mul_r by (try lia; apply N.pow_nonzero; lia).
    lia.
Qed.

Lemma to_byte_from_be : forall l, all_bytes l -> to_byte (length l) (from_be l) = l.
Proof.
  induction l as [|x l IH] using rev_ind; intros H; auto.
  apply Forall_app in H. destruct H as [Hl Hx]. inversion Hx as [|? ? Hb _]; subst.
  rewrite app_length, Nat.add_comm. cbn [length plus to_byte].
  rewrite from_be_app. cbn [length]. change (256 ^ N.of_nat 1) with 256.
  change (from_be [x]) with (0 * 256 + x). unfold is_byte in Hb.
  rewrite N.mul_0_l, N.add_0_l.
  rewrite N.div_add_l, (N.div_small x), N.add_0_r by lia.
  rewrite N.add_comm, N.mod_add, (N.mod_small x) by lia.
  now rewrite IH.
Qed.

Lemma to_byte_inj : forall n a b,
  a < 256 ^ N.of_nat n -> b < 256 ^ N.of_nat n -> to_byte n a = to_byte n b -> a = b.
Proof.
  intros n a b Ha Hb E.
  rewrite <- (N.mod_small a _ Ha), <- (N.mod_small b _ Hb), <- !from_be_to_byte. now rewrite E.
Qed.

Lemma from_le_to_le : forall n v, from_le (to_le n v) = v mod 256 ^ N.of_nat n.
Proof.
  induction n; intros; cbn [to_le from_le].
  - now rewrite N.mod_1_r.
  - rewrite IHn, Nat2N.inj_succ, N.pow_succ_r'.
    rewrite N.mod_mul_r by (try lia; apply N.pow_nonzero; lia). lia.
Qed.

Lemma to_le_from_le : forall l, all_bytes l -> to_le (length l) (from_le l) = l.
Proof.
  induction l; intros H; auto. inversion H as [|? ? Hb Hl]; subst. unfold is_byte in Hb.
  cbn [length to_le from_le].
  replace ((a + 256 * from_le l) mod 256) with a
    by (rewrite (N.mul_comm 256), N.mod_add, N.mod_small; lia).
  replace ((a + 256 * from_le l) / 256) with (from_le l)
    by (rewrite (N.mul_comm 256), N.div_add, N.div_small; lia).
  now rewrite IHl.
Qed.

Lemma to_le_inj : forall n a b,
  a < 256 ^ N.of_nat n -> b < 256 ^ N.of_nat n -> to_le n a = to_le n b -> a = b.
Proof.
  intros n a b Ha Hb E.
  rewrite <- (N.mod_small a _ Ha), <- (N.mod_small b _ Hb), <- !from_le_to_le. now rewrite E.
Qed.

Lemma from_be_bound : forall l, all_bytes l -> from_be l < 256 ^ N.of_nat (length l).
Proof.
  intros l H. rewrite <- (to_byte_from_be l H) at 1. rewrite from_be_to_byte.
  apply N.mod_lt. apply N.pow_nonzero. lia.
Qed.

Lemma from_le_bound : forall l, all_bytes l -> from_le l < 256 ^ N.of_nat (length l).
Proof.
  intros l H. rewrite <- (to_le_from_le l H) at 1. rewrite from_le_to_le.
  apply N.mod_lt. apply N.pow_nonzero. lia.
Qed.

Lemma xor_bytes_length : forall a b, length (xor_bytes a b) = Nat.min (length a) (length b).
Proof. induction a; destruct b; simpl; auto. Qed.

Lemma slice_length : forall off n l, (off + n <= length l)%nat -> length (slice off n l) = n.
Proof.
  intros. unfold slice. rewrite firstn_length_le; auto. rewrite skipn_length. lia.
Qed.

Lemma chunks_length : forall k n l, length (chunks k n l) = k.
Proof. induction k; simpl; intros; auto. Qed.

Lemma all_bytes_app : forall a b, all_bytes (a ++ b) <-> all_bytes a /\ all_bytes b.
Proof. intros. apply Forall_app. Qed.

Lemma all_bytes_firstn : forall n l, all_bytes l -> all_bytes (firstn n l).
Proof.
  induction n; destruct l; simpl; intros H; try constructor; inversion H; auto. now apply IHn.
Qed.

Lemma all_bytes_skipn : forall n l, all_bytes l -> all_bytes (skipn n l).
Proof.
  induction n; destruct l; simpl; intros H; auto. inversion H. now apply IHn.
Qed.

Lemma all_bytes_slice : forall o n l, all_bytes l -> all_bytes (slice o n l).
Proof. intros. now apply all_bytes_firstn, all_bytes_skipn. Qed.

Lemma chunks_concat : forall cs n,
  (forall c, In c cs -> length c = n) -> chunks (length cs) n (concat cs) = cs.
Proof.
  induction cs; simpl; intros; auto.
  assert (Ha : length a = n) by auto.
  rewrite firstn_app, skipn_app, Ha, Nat.sub_diag, firstn_O, app_nil_r, skipn_O.
  rewrite firstn_all2 by lia. rewrite skipn_all2 by lia. simpl. now rewrite IHcs by auto.
Qed.

Lemma concat_chunks : forall k n l, length l = (k * n)%nat -> concat (chunks k n l) = l.
Proof.
  induction k; simpl; intros.
  - now destruct l.
  - rewrite IHk. apply firstn_skipn. rewrite skipn_length. lia.
Qed.

Lemma chunks_app : forall k n cs l,
  length cs = (k * n)%nat -> chunks k n (cs ++ l) = chunks k n cs.
Proof.
  induction k; simpl; intros; auto. f_equal.
  - rewrite firstn_app. replace (n - length cs)%nat with O by lia. now rewrite app_nil_r.
  - rewrite skipn_app. replace (n - length cs)%nat with O by lia. simpl.
    apply IHk. rewrite skipn_length. lia.
Qed.
