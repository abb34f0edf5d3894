(** C70: seeds made by the Rust port (get_random_seed, get_hash_chain_seed,
    sha2_256_n), against the C++ library. *)
From Coq Require Import List NArith Arith Lia Bool.
From Verif Require Import Base Bytes Keccak KeccakLemmas Sha256 Misc SpecMisc PropMisc RsBase RsKeccak RsShake RsMisc PropRsShake.
Import ListNotations.
Open Scope nat_scope.

Lemma rs_wrap_le : forall r m, length m <= r -> rs_wrap r m = m.
Proof.
  intros r m H. destruct (Nat.eq_dec (length m) r) as [E|E]; [|apply rs_wrap_short; lia].
  rewrite rs_wrap_long by lia. rewrite E, Nat.sub_diag, firstn_O, app_nil_r, <- E. apply firstn_all.
Qed.
Lemma rs_shake256_le : forall n m, length m <= 136 -> rs_shake256 n m = ROk (shake256 n m).
Proof. intros. rewrite rs_shake256_eq by lia. now rewrite rs_wrap_le. Qed.

(** ** Random seeds *)

(** [os]: the bytes the operating system's generator delivers. *)
Theorem C70_rust_random_seed : forall (os : list N) n entropy, N.of_nat (length os) = n ->
  let input := os ++ rs_str2bin entropy in
  (length input <= 136 -> exists seed, rs_get_random_seed os n entropy = ROk seed /\
      getRandomSeed (Some os) n (rs_str2bin entropy) = Ok seed /\ seed = shake256 (N.to_nat n) input) /\
  (136 < length input < 272 -> rs_get_random_seed os n entropy =
      ROk (shake256 (N.to_nat n) (firstn 136 input ++ firstn (length input - 136) input))) /\
  (272 <= length input -> rs_get_random_seed os n entropy = RPanic).
Proof.
  intros os n entropy Hn. cbv zeta. unfold rs_get_random_seed. split; [|split].
  - intros H. exists (shake256 (N.to_nat n) (os ++ rs_str2bin entropy)). split; [now apply rs_shake256_le|]. split; auto.
    destruct (C43_random_seed (Some os) n (rs_str2bin entropy)) as (_ & _ & A). destruct (A os []) as [B _]; auto. now rewrite app_nil_r.
  - intros H. rewrite rs_shake256_eq by lia. now rewrite rs_wrap_long by lia.
  - intros H. now apply (proj2 (C61_long_inputs_panic _ _)).
Qed.

(** From 136 bytes on, what the caller passes as entropy has no influence on the seed
    beyond its length. *)
Theorem C70_rust_random_seed_drops_entropy : forall (os : list N) n e1 e2, N.of_nat (length os) = n ->
  length (rs_str2bin e1) = length (rs_str2bin e2) -> (136 <= n)%N ->
  rs_get_random_seed os n e1 = rs_get_random_seed os n e2.
Proof.
  intros os n e1 e2 Hn HL Hb. unfold rs_get_random_seed. assert (L : length (os ++ rs_str2bin e1) = length (os ++ rs_str2bin e2)) by (rewrite !app_length, HL; reflexivity).
  apply (proj2 (C61_collisions (N.to_nat n) (os ++ rs_str2bin e1) (os ++ rs_str2bin e2) L)).
  - rewrite app_length. lia.
  - rewrite !firstn_app. replace (136 - length os) with 0 by lia. reflexivity.
Qed.

(** ** Hash-chain seeds *)

Lemma rs_store_le32_ok : forall pre post b0 b1 b2 b3 v,
  rs_store_le32 (length pre) v (pre ++ [b0; b1; b2; b3] ++ post) = ROk (pre ++ to_le 4 v ++ post).
Proof.
  intros. unfold rs_store_le32, rfor, rfor_from. change 255%N with (N.ones 8).
  assert (S : forall k (x y : list N) a b, length x = k -> rset (pre ++ x ++ a :: y) (length pre + k) b = ROk (pre ++ x ++ b :: y)).
  { intros k x y a b E. unfold rset. rewrite (proj2 (Nat.ltb_lt _ _)) by (rewrite !app_length; cbn [length]; lia).
    rewrite !app_assoc. assert (L : length (pre ++ x) = length pre + k) by (rewrite app_length; lia). rewrite <- L.
    rewrite firstn_app, Nat.sub_diag, firstn_O, app_nil_r, firstn_all. rewrite skipn_app, skipn_all2 by lia.
    replace (Datatypes.S (length (pre ++ x)) - length (pre ++ x)) with 1 by lia. reflexivity. }
  assert (S0 := fun v => S 0 [] (b1 :: b2 :: b3 :: post) b0 v eq_refl).
  assert (S1 := fun x v => S 1 [x] (b2 :: b3 :: post) b1 v eq_refl).
  assert (S2 := fun x y v => S 2 [x; y] (b3 :: post) b2 v eq_refl).
  assert (S3 := fun x y z v => S 3 [x; y; z] post b3 v eq_refl).
  cbn [app] in S0, S1, S2, S3 |- *. rewrite S0. cbn [rbind]. rewrite S1. cbn [rbind]. rewrite S2. cbn [rbind]. rewrite S3. cbn [rbind]. clear S S0 S1 S2 S3.
  rewrite !N.shiftr_div_pow2, !N.land_ones. unfold u8. change (2 ^ 8)%N with 256%N. rewrite !N.mod_mod by lia.
  cbn [to_le app]. do 2 f_equal. change (8 * N.of_nat 0)%N with 0%N. change (2 ^ 0)%N with 1%N. rewrite N.div_1_r.
  change (2 ^ (8 * N.of_nat 1))%N with 256%N. change (2 ^ (8 * N.of_nat 2))%N with (256 * 256)%N. change (2 ^ (8 * N.of_nat 3))%N with (256 * 256 * 256)%N.
  rewrite <- !N.div_div by lia. reflexivity.
Qed.

Lemma rs_hash_chain_ok : forall n i seed shift tail4, length tail4 = 4 -> length seed < 264 ->
  rs_hash_chain_loop n i (length seed + 4) (seed ++ to_le 4 shift ++ tail4) =
  ROk (map (fun k => shake256 32 (rs_wrap 136 (chain_seed_input seed shift (i + N.of_nat k)))) (seq 0 n)).
Proof.
  induction n as [|n IH]; intros i seed shift tail4 HL HS; [reflexivity|]. cbn [rs_hash_chain_loop].
  destruct tail4 as [|b0 [|b1 [|b2 [|b3 [|]]]]]; try discriminate.
  replace (length seed + 4) with (length (seed ++ to_le 4 shift)) at 1 by (rewrite app_length, to_le_length; reflexivity).
  rewrite app_assoc. pose proof (rs_store_le32_ok (seed ++ to_le 4 shift) [] b0 b1 b2 b3 i) as E. cbn [app] in E. rewrite E. clear E. cbn [rbind].
  rewrite app_nil_r, <- app_assoc. rewrite rs_shake256_eq by (rewrite !app_length, !to_le_length; lia). cbn [rbind].
  rewrite IH by (auto; apply to_le_length). cbn [rbind]. f_equal. cbn [seq map]. rewrite N.add_0_r. unfold chain_seed_input at 2.
  f_equal. rewrite <- seq_shift, map_map. apply map_ext. intros k. do 3 f_equal. lia.
Qed.
Lemma rs_chain_eq : forall seed shift count, length seed < 264 ->
  rs_get_hash_chain_seed seed shift count =
  ROk (map (fun k => shake256 32 (rs_wrap 136 (chain_seed_input seed shift (N.of_nat k)))) (seq 0 (N.to_nat count))).
Proof.
  intros. unfold rs_get_hash_chain_seed. change (repeat 0%N 8) with ([0; 0; 0; 0] ++ [0; 0; 0; 0])%N.
  rewrite rs_store_le32_ok. cbn [rbind]. rewrite rs_hash_chain_ok by auto. reflexivity.
Qed.

Lemma nth_error_ext : forall A (l l' : list A), (forall k, nth_error l k = nth_error l' k) -> l = l'.
Proof.
  induction l as [|a l IH]; intros [|b l'] H; auto; try (specialize (H 0); discriminate).
  f_equal; [specialize (H 0); cbn in H; congruence|]. apply IH. intros k. apply (H (S k)).
Qed.

(** Seeds of up to 128 bytes: the C++ library's chain seeds. *)
Theorem C70_rust_hash_chain_is_cpp : forall seed shift count, (shift < 2 ^ 32)%N -> (count < 2 ^ 32)%N -> length seed <= 128 ->
  exists l, rs_get_hash_chain_seed seed shift count = ROk l /\ getHashChainSeed seed shift count = Ok l /\
    length l = N.to_nat count /\
    forall i, (i < count)%N -> nth_error l (N.to_nat i) = Some (shake256 32 (seed ++ to_le 4 shift ++ to_le 4 i)).
Proof.
  intros seed shift count Hs Hc HL. destruct (C41_hash_chain_seeds seed shift count Hs Hc) as (l & E & L & A & _).
  exists l. split; [|auto]. rewrite rs_chain_eq by lia. f_equal. apply nth_error_ext. intros k.
  destruct (Nat.lt_ge_cases k (N.to_nat count)) as [Hk|Hk].
  - rewrite nth_error_map, (nth_error_nth' (seq 0 (N.to_nat count)) 0) by (rewrite seq_length; lia).
    rewrite seq_nth by lia. cbn [option_map plus]. specialize (A (N.of_nat k) ltac:(lia)). rewrite Nat2N.id in A. rewrite A.
    rewrite rs_wrap_le; [reflexivity|]. unfold chain_seed_input. rewrite !app_length, !to_le_length. lia.
  - rewrite !(proj2 (nth_error_None _ _)); auto; rewrite ?map_length, ?seq_length; lia.
Qed.

Lemma firstn_to_le : forall k n x, firstn k (to_le n x) = to_le (Nat.min k n) x.
Proof.
  induction k as [|k IH]; intros n x; [reflexivity|]. destruct n as [|n]; [reflexivity|]. cbn [to_le firstn Nat.min]. now rewrite IH.
Qed.
Lemma to_le_mod : forall n x, to_le n (x mod 256 ^ N.of_nat n) = to_le n x.
Proof.
  induction n as [|n IH]; intros x; [reflexivity|]. cbn [to_le].
  rewrite Nat2N.inj_succ, N.pow_succ_r'. pose proof (N.pow_nonzero 256 (N.of_nat n) ltac:(lia)) as NZ.
  rewrite N.mod_mul_r by lia. f_equal.
  - rewrite (N.mul_comm 256), N.mod_add by lia. now apply N.mod_mod.
  - rewrite <- (IH (x / 256)%N). f_equal. rewrite (N.mul_comm 256), N.div_add by lia.
    rewrite (N.div_small (x mod 256)) by (apply N.mod_lt; lia). lia.
Qed.

(** Longer seeds: the chain seeds repeat.  With [128 <= length seed < 264] the seeds
    at positions congruent modulo 256^(132 - length) are the same value: for 132
    bytes and more all of them are. *)
Theorem C70_rust_hash_chain_repeats : forall seed shift count, 128 <= length seed < 264 ->
  exists l, rs_get_hash_chain_seed seed shift count = ROk l /\ length l = N.to_nat count /\
    forall i j, (i < count)%N -> (j < count)%N ->
      (i mod 256 ^ N.of_nat (132 - length seed) = j mod 256 ^ N.of_nat (132 - length seed))%N ->
      nth_error l (N.to_nat i) = nth_error l (N.to_nat j).
Proof.
  intros seed shift count HL. eexists. split; [apply rs_chain_eq; lia|]. split; [now rewrite map_length, seq_length|].
  intros i j Hi Hj E. rewrite !nth_error_map. rewrite !(nth_error_nth' (seq 0 (N.to_nat count)) 0) by (rewrite seq_length; lia).
  rewrite !seq_nth by lia. cbn [option_map plus]. rewrite !N2Nat.id. do 2 f_equal.
  assert (Lc : forall x, length (chain_seed_input seed shift x) = length seed + 8) by (intros; unfold chain_seed_input; rewrite !app_length, !to_le_length; lia).
  assert (F : firstn 136 (chain_seed_input seed shift i) = firstn 136 (chain_seed_input seed shift j)).
  { unfold chain_seed_input. rewrite !app_assoc. rewrite !(firstn_app 136 (seed ++ _)). f_equal.
    rewrite !app_length, !to_le_length, !firstn_to_le. set (k := Nat.min _ _). replace (132 - length seed) with k in E by (unfold k; lia).
    rewrite <- (to_le_mod k i), <- (to_le_mod k j). now rewrite E. }
  rewrite !rs_wrap_long by (rewrite Lc; lia). rewrite !Lc, F. f_equal.
  replace (length seed + 8 - 136) with (Nat.min (length seed + 8 - 136) 136) by lia. rewrite <- !firstn_firstn. now rewrite F.
Qed.

Theorem C70_rust_hash_chain_panics : forall seed shift count, 264 <= length seed ->
  (count = 0%N -> rs_get_hash_chain_seed seed shift count = ROk []) /\
  ((0 < count)%N -> rs_get_hash_chain_seed seed shift count = RPanic).
Proof.
  intros seed shift count HL. unfold rs_get_hash_chain_seed. change (repeat 0%N 8) with ([0; 0; 0; 0] ++ [0; 0; 0; 0])%N.
  rewrite rs_store_le32_ok. cbn [rbind]. split; intros H; [now subst|].
  destruct (N.to_nat count) eqn:E; [lia|]. cbn [rs_hash_chain_loop].
  replace (length seed + 4) with (length (seed ++ to_le 4 shift)) at 1 by (rewrite app_length, to_le_length; reflexivity).
  rewrite app_assoc. pose proof (rs_store_le32_ok (seed ++ to_le 4 shift) [] 0%N 0%N 0%N 0%N 0%N) as S. cbn [app] in S. rewrite S. cbn [rbind].
  rewrite (proj2 (C61_long_inputs_panic _ _)); [reflexivity|]. rewrite !app_length, !to_le_length. lia.
Qed.

(** ** Iterated SHA-256: the same as C++ *)
Theorem C70_rust_sha2_256_n : forall x n,
  (n = 0%N -> rs_sha2_256_n x n = RErr RInvalidArgument /\ sha2_256_n x n = Exn InvalidArgument) /\
  ((0 < n)%N -> rs_sha2_256_n x n = ROk (iterate (N.to_nat n) sha256 x) /\ sha2_256_n x n = Ok (iterate (N.to_nat n) sha256 x)).
Proof.
  intros x n. destruct (C42_sha2_256_n x n) as [A B]. split; intros H.
  - split; [now subst|auto].
  - split; [|now apply B]. unfold rs_sha2_256_n. rewrite (proj2 (N.eqb_neq n 0)) by lia. f_equal.
    assert (L : forall k h, rs_sha2_loop k h = sha2_loop k h) by (induction k as [|k IH]; intros h; [reflexivity|apply IH]).
    rewrite L, sha2_loop_iter. replace (N.to_nat n) with (S (N.to_nat (n - 1))) by lia. cbn [iterate]. now rewrite <- iterate_S.
Qed.

(** ** Instances *)
Example C70_sat :
  length (repeat 7%N 132) <= 264 /\
  (exists l, rs_get_hash_chain_seed (repeat 7%N 132) 3 5 = ROk l /\ nth_error l 0 = nth_error l 4 /\ nth_error l 0 <> None) /\
  (exists s, rs_get_random_seed (repeat 1%N 48) 48 [0x41; 0xE9]%N = ROk s /\ length s = 48).
Proof.
  split; [cbn; lia|]. split.
  - destruct (C70_rust_hash_chain_repeats (repeat 7%N 132) 3 5) as (l & E & L & A); [rewrite repeat_length; lia|].
    exists l. split; auto. split; [apply (A 0%N 4%N); try lia; rewrite repeat_length; reflexivity|].
    intros X. apply nth_error_None in X. rewrite L in X. lia.
  - eexists. split; [apply rs_shake256_le; cbn; lia|]. apply shake256_length.
Qed.
