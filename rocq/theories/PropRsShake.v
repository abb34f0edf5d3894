(** C61: what SHAKE128 and SHAKE256 of the Rust port compute, against FIPS 202. *)
From Coq Require Import List NArith Arith Lia Bool.
From Verif Require Import Base Bytes Keccak KeccakLemmas SpecKeccak PropShake RsBase RsKeccak RsShake.
Import ListNotations.
Open Scope nat_scope.

Lemma rs_wrap_short : forall r m, length m < r -> rs_wrap r m = m.
Proof. intros. unfold rs_wrap. now rewrite (proj2 (Nat.ltb_lt _ _) H). Qed.
Lemma rs_wrap_long : forall r m, r <= length m -> rs_wrap r m = firstn r m ++ firstn (length m - r) m.
Proof. intros. unfold rs_wrap. now rewrite (proj2 (Nat.ltb_ge _ _) H). Qed.
Lemma rs_wrap_bytes : forall r m, all_bytes m -> all_bytes (rs_wrap r m).
Proof.
  intros r m H. unfold rs_wrap. destruct (length m <? r); auto.
  apply Forall_app. split; now apply all_bytes_firstn.
Qed.
Lemma rs_shake128_eq : forall n m, length m < 336 -> rs_shake128 n m = ROk (shake128 n (rs_wrap 168 m)).
Proof.
  intros. unfold rs_shake128, rs_fips_shake128. rewrite rs_shake_eq by (rewrite ?repeat_length; auto; lia).
  rewrite skipn_all2 by (rewrite repeat_length; lia). now rewrite app_nil_r.
Qed.
Lemma rs_shake256_eq : forall n m, length m < 272 -> rs_shake256 n m = ROk (shake256 n (rs_wrap 136 m)).
Proof.
  intros. unfold rs_shake256, rs_fips_shake256. rewrite rs_shake_eq by (rewrite ?repeat_length; auto; lia).
  rewrite skipn_all2 by (rewrite repeat_length; lia). now rewrite app_nil_r.
Qed.

(** Inputs shorter than the rate: the function is the standard's. *)
Theorem C61_short_inputs_fips202 : forall n m, all_bytes m ->
  (length m < 168 -> exists out, rs_shake128 n m = ROk out /\ length out = n /\ bits out = SHAKE128 (bits m) (8 * n)) /\
  (length m < 136 -> exists out, rs_shake256 n m = ROk out /\ length out = n /\ bits out = SHAKE256 (bits m) (8 * n)).
Proof.
  intros n m Hb. split; intros H.
  - exists (shake128 n m). rewrite rs_shake128_eq, rs_wrap_short by lia. repeat split; [apply shake128_length|now apply C32_shake128_is_fips202].
  - exists (shake256 n m). rewrite rs_shake256_eq, rs_wrap_short by lia. repeat split; [apply shake256_length|now apply C32_shake256_is_fips202].
Qed.

(** Inputs of [rate <= length < 2 * rate]: the standard's function of a different
    string: the first [rate] bytes followed by the first bytes again. *)
Theorem C61_longer_inputs : forall n m, all_bytes m ->
  (168 <= length m < 336 -> exists out, rs_shake128 n m = ROk out /\ length out = n /\
     bits out = SHAKE128 (bits (firstn 168 m ++ firstn (length m - 168) m)) (8 * n)) /\
  (136 <= length m < 272 -> exists out, rs_shake256 n m = ROk out /\ length out = n /\
     bits out = SHAKE256 (bits (firstn 136 m ++ firstn (length m - 136) m)) (8 * n)).
Proof.
  intros n m Hb. split; intros H.
  - exists (shake128 n (rs_wrap 168 m)). rewrite rs_shake128_eq by lia. repeat split; [apply shake128_length|].
    rewrite C32_shake128_is_fips202 by now apply rs_wrap_bytes. now rewrite rs_wrap_long by lia.
  - exists (shake256 n (rs_wrap 136 m)). rewrite rs_shake256_eq by lia. repeat split; [apply shake256_length|].
    rewrite C32_shake256_is_fips202 by now apply rs_wrap_bytes. now rewrite rs_wrap_long by lia.
Qed.

(** Longer inputs panic, whatever they are. *)
Theorem C61_long_inputs_panic : forall n m,
  (336 <= length m -> rs_shake128 n m = RPanic) /\ (272 <= length m -> rs_shake256 n m = RPanic).
Proof.
  intros n m. split; intros H; [apply (rs_shake_panic 168)|apply (rs_shake_panic 136)]; auto; lia.
Qed.

(** So bytes behind the rate do not influence the digest: collisions by inspection. *)
Theorem C61_collisions : forall n m m', length m = length m' ->
  (168 <= length m -> firstn 168 m = firstn 168 m' -> rs_shake128 n m = rs_shake128 n m') /\
  (136 <= length m -> firstn 136 m = firstn 136 m' -> rs_shake256 n m = rs_shake256 n m').
Proof.
  assert (W : forall r (m m' : list N), length m = length m' -> r <= length m -> length m < 2 * r -> firstn r m = firstn r m' ->
    rs_wrap r m = rs_wrap r m').
  { intros r m m' L H1 H2 E. rewrite !rs_wrap_long by lia. rewrite E. f_equal. rewrite L.
    replace (length m' - r) with (min (length m' - r) r) by lia.
    rewrite <- !firstn_firstn. now rewrite E. }
  intros n m m' L. split; intros H E.
  - destruct (Nat.lt_ge_cases (length m) 336).
    + rewrite !rs_shake128_eq by lia. do 2 f_equal. apply W; auto.
    + rewrite !(proj1 (C61_long_inputs_panic _ _)) by lia. reflexivity.
  - destruct (Nat.lt_ge_cases (length m) 272).
    + rewrite !rs_shake256_eq by lia. do 2 f_equal. apply W; auto.
    + rewrite !(proj2 (C61_long_inputs_panic _ _)) by lia. reflexivity.
Qed.

(** The three length classes are inhabited, and a colliding pair of different inputs. *)
Example C61_sat :
  all_bytes (repeat 7%N 200) /\ 168 <= length (repeat 7%N 200) < 336 /\
  rs_shake128 32 (repeat 7%N 199 ++ [1%N]) = rs_shake128 32 (repeat 7%N 199 ++ [2%N]) /\
  repeat 7%N 199 ++ [1%N] <> repeat 7%N 199 ++ [2%N].
Proof.
  split; [apply Forall_forall; intros x H; apply repeat_spec in H; now subst|].
  split; [rewrite repeat_length; lia|]. split; [|discriminate].
  apply (C61_collisions 32); [reflexivity| |reflexivity].
  rewrite app_length, repeat_length. cbn. lia.
Qed.
