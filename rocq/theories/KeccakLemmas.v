(** Lengths and byte ranges of the SHAKE outputs (fips202.c model in Keccak.v). *)
From Coq Require Import List NArith Arith Lia Bool.
From Verif Require Import Base Bytes Keccak.
Import ListNotations.
Open Scope nat_scope.
Transparent shake128 shake256.


Lemma keccak_two_rounds_length : forall r0 r1 s, length s = 25 -> length (keccak_two_rounds r0 r1 s) = 25.
Proof.
  intros r0 r1 s H.
  do 25 (destruct s as [|? s]; [discriminate H|]). destruct s; [|discriminate H].
  reflexivity.
Qed.

Lemma keccak_rounds_length : forall rcs s, length s = 25 -> length (keccak_rounds rcs s) = 25.
Proof.
  fix IH 1. intros [|a [|b rcs]] s H; try exact H. cbn [keccak_rounds]. apply IH.
  now apply keccak_two_rounds_length.
Qed.

Lemma permute_length : forall s, length s = 25 -> length (KeccakF1600_StatePermute s) = 25.
Proof. intros. now apply keccak_rounds_length. Qed.

Lemma xor_lanes_length : forall k s m, length (xor_lanes k s m) = length s.
Proof. induction k; destruct s; intros; cbn; auto. Qed.

Lemma absorb_length : forall f s r m p, length s = 25 -> length (keccak_absorb f s r m p) = 25.
Proof.
  induction f; intros; cbn [keccak_absorb].
  - now rewrite xor_lanes_length.
  - destruct (r <=? length m).
    + apply IHf. apply permute_length. now rewrite xor_lanes_length.
    + now rewrite xor_lanes_length.
Qed.

Lemma store_lanes_length : forall r s, length s = 25 -> r / 8 <= 25 -> length (store_lanes r s) = 8 * (r / 8).
Proof.
  intros r s H Hr. unfold store_lanes.
  assert (G : forall l, length (concat (map store64 l)) = 8 * length l).
  { induction l; auto. cbn [map concat]. rewrite app_length, IHl. unfold store64. rewrite to_le_length. cbn [length]. lia. }
  rewrite G, firstn_length_le; lia.
Qed.

Lemma squeeze_length : forall n s r, length s = 25 -> r / 8 <= 25 ->
  length (fst (keccak_squeezeblocks n s r)) = n * (8 * (r / 8)) /\
  length (snd (keccak_squeezeblocks n s r)) = 25.
Proof.
  induction n; intros s r H Hr; cbn [keccak_squeezeblocks]; auto.
  pose proof (permute_length s H) as Hp.
  destruct (IHn (KeccakF1600_StatePermute s) r Hp Hr) as [H1 H2].
  destruct (keccak_squeezeblocks n (KeccakF1600_StatePermute s) r) as [o s2]. cbn [fst snd] in *.
  rewrite app_length, H1, store_lanes_length by auto. split; auto; lia.
Qed.

Lemma shake_length : forall r n m, (r = 168 \/ r = 136) -> length (shake r n m) = n.
Proof.
  intros r n m Hr. unfold shake.
  assert (Hs : length (keccak_absorb (length m) (repeat 0%N 25) r m 31) = 25).
  { apply absorb_length. apply repeat_length. }
  assert (Hr8 : r / 8 <= 25 /\ 8 * (r / 8) = r) by (destruct Hr; subst; split; cbn; lia).
  destruct (squeeze_length (n / r) _ r Hs (proj1 Hr8)) as [H1 H2].
  destruct (keccak_squeezeblocks (n / r) _ r) as [o s2]. cbn [fst snd] in *.
  destruct (squeeze_length 1 s2 r H2 (proj1 Hr8)) as [H3 _].
  destruct (keccak_squeezeblocks 1 s2 r) as [d s3]. cbn [fst snd] in *.
  assert (Hr0 : r <> 0) by lia.
  pose proof (Nat.div_mod n r Hr0). pose proof (Nat.mod_upper_bound n r Hr0).
  rewrite (proj2 Hr8) in *.
  destruct (n mod r =? 0) eqn:E.
  - apply Nat.eqb_eq in E. lia.
  - rewrite app_length, firstn_length_le by lia. lia.
Qed.

Lemma shake128_length : forall n m, length (shake128 n m) = n.
Proof. intros. apply shake_length. auto. Qed.
Lemma shake256_length : forall n m, length (shake256 n m) = n.
Proof. intros. apply shake_length. auto. Qed.

Lemma store_lanes_bytes : forall r s, all_bytes (store_lanes r s).
Proof.
  intros. unfold store_lanes. induction (firstn (r / 8) s); cbn [map concat].
  - constructor.
  - apply all_bytes_app. split; [apply to_le_bytes | auto].
Qed.
Lemma squeeze_bytes : forall n s r, all_bytes (fst (keccak_squeezeblocks n s r)).
Proof.
  induction n; intros; cbn [keccak_squeezeblocks]; [constructor|].
  specialize (IHn (KeccakF1600_StatePermute s) r).
  destruct (keccak_squeezeblocks n (KeccakF1600_StatePermute s) r). cbn [fst] in *.
  apply all_bytes_app. split; [apply store_lanes_bytes | auto].
Qed.
Lemma shake_bytes : forall r n m, all_bytes (shake r n m).
Proof.
  intros. unfold shake.
  pose proof (squeeze_bytes (n / r) (keccak_absorb (length m) (repeat 0%N 25) r m 31) r) as H.
  destruct (keccak_squeezeblocks (n / r) _ r) as [o s2]. cbn [fst] in H.
  pose proof (squeeze_bytes 1 s2 r) as H1. destruct (keccak_squeezeblocks 1 s2 r) as [d s3]. cbn [fst] in H1.
  destruct (n mod r =? 0); auto. apply all_bytes_app. split; auto. now apply all_bytes_firstn.
Qed.
Lemma shake128_bytes : forall n m, all_bytes (shake128 n m).
Proof. intros. apply shake_bytes. Qed.
Lemma shake256_bytes : forall n m, all_bytes (shake256 n m).
Proof. intros. apply shake_bytes. Qed.
Global Opaque shake128 shake256.
