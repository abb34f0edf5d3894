(** Descriptor arithmetic (qrlDescriptor.h) in terms of div and mod. *)
From Coq Require Import List NArith Arith Lia Bool.
From Verif Require Import Base Bytes Descriptor.
Import ListNotations.
Open Scope N_scope.

Lemma land_15 : forall x, N.land x 15 = x mod 16.
Proof. intros. change 15 with (N.ones 4). now rewrite N.land_ones. Qed.
Lemma shiftr_4 : forall x, N.shiftr x 4 = x / 16.
Proof. intros. now rewrite N.shiftr_div_pow2. Qed.
Lemma lor_shift : forall n a b, b < 2 ^ n -> N.lor (N.shiftl a n) b = a * 2 ^ n + b.
Proof.
  intros n a b Hb. rewrite <- (N.shiftl_mul_pow2 a n).
  assert (D : N.land (N.shiftl a n) b = 0).
  { apply N.bits_inj. intros k. rewrite N.land_spec, N.bits_0.
    destruct (N.lt_ge_cases k n) as [Hk|Hk].
    - rewrite N.shiftl_spec_low by auto. reflexivity.
    - destruct (N.eq_dec b 0) as [->|Hb0]; [rewrite N.bits_0; apply andb_false_r|].
      rewrite (N.bits_above_log2 b k). apply andb_false_r.
      apply N.lt_le_trans with n; auto. apply N.log2_lt_pow2; lia. }
  rewrite N.lor_comm. symmetry. rewrite N.add_comm. rewrite N.add_nocarry_lxor by (now rewrite N.land_comm).
  rewrite N.lxor_lor by (now rewrite N.land_comm). reflexivity.
Qed.
Lemma land_240 : forall x, x < 256 -> N.shiftr (N.land x 240) 4 = x / 16.
Proof.
  intros x Hx. change 240 with (N.shiftl 15 4). rewrite N.shiftr_land, N.shiftr_shiftl_l by lia. change (4 - 4) with 0. cbn [N.shiftl].
  rewrite shiftr_4, land_15. apply N.mod_small. apply N.div_lt_upper_bound; lia.
Qed.
Lemma land_nibble_high : forall x, x < 16 -> N.land x 240 = 0.
Proof.
  intros x Hx. change 240 with (N.shiftl 15 4).
  replace x with (N.land x 15) by (rewrite land_15; apply N.mod_small; auto).
  apply N.bits_inj. intros k. rewrite N.bits_0, !N.land_spec.
  destruct (N.lt_ge_cases k 4).
  - rewrite N.shiftl_spec_low by auto. apply andb_false_r.
  - change 15 with (N.ones 4) at 1. rewrite N.ones_spec_high by auto. rewrite andb_false_r. reflexivity.
Qed.

(** Decoding, arithmetically. *)
Lemma fromBytes_arith : forall b0 b1 b2, b0 < 256 -> b1 < 256 ->
  descr_fromBytes [b0; b1; b2] = Ok (mkDescr (b0 mod 16) 0 (2 * (b1 mod 16)) (b1 / 16)).
Proof.
  intros b0 b1 b2 H0 H1. unfold descr_fromBytes. rewrite !land_15, shiftr_4, land_240 by auto.
  rewrite land_nibble_high by (apply N.div_lt_upper_bound; lia).
  rewrite N.shiftl_mul_pow2. change (2 ^ 1) with 2. unfold u8.
  pose proof (N.mod_upper_bound b1 16). rewrite (N.mod_small (b1 mod 16 * 2)) by lia.
  rewrite (N.mul_comm _ 2). reflexivity.
Qed.

(** Encoding, arithmetically. *)
Lemma getBytes_arith : forall d,
  descr_getBytes d = [ 16 * (d_sig d mod 16) + d_hash d mod 16;
                       16 * (d_fmt d mod 16) + (d_height d / 2) mod 16; 0 ].
Proof.
  intros d. unfold descr_getBytes, u8. rewrite !land_15. rewrite (N.shiftr_div_pow2 (d_height d)). change (2 ^ 1) with 2.
  assert (G : forall a b, N.lor (N.shiftl a 4) (b mod 16) mod 256 = 16 * (a mod 16) + b mod 16).
  { intros a b. pose proof (N.mod_upper_bound b 16). rewrite lor_shift by (change (2 ^ 4) with 16; lia).
    change (2 ^ 4) with 16. pose proof (N.div_mod a 16). pose proof (N.mod_upper_bound a 16).
    symmetry. apply (N.mod_unique _ _ (a / 16)); lia. }
  now rewrite !G.
Qed.

Lemma getBytes_bytes : forall d, all_bytes (descr_getBytes d).
Proof.
  intros. rewrite getBytes_arith. 
  pose proof (N.mod_upper_bound (d_sig d) 16). pose proof (N.mod_upper_bound (d_hash d) 16).
  pose proof (N.mod_upper_bound (d_fmt d) 16). pose proof (N.mod_upper_bound (d_height d / 2) 16).
  repeat constructor; unfold is_byte; lia.
Qed.

Lemma decode_encode : forall d, descr_fromBytes (descr_getBytes d) =
  Ok (mkDescr (d_hash d mod 16) 0 (2 * ((d_height d / 2) mod 16)) (d_fmt d mod 16)).
Proof.
  intros d. rewrite getBytes_arith.
  pose proof (N.mod_upper_bound (d_sig d) 16). pose proof (N.mod_upper_bound (d_hash d) 16).
  pose proof (N.mod_upper_bound (d_fmt d) 16). pose proof (N.mod_upper_bound (d_height d / 2) 16).
  assert (M : forall a b, b < 16 -> (16 * a + b) mod 16 = b /\ (16 * a + b) / 16 = a).
  { intros a b Hb. split; symmetry.
    - apply (N.mod_unique _ _ a); lia.
    - apply (N.div_unique _ _ _ b); lia. }
  rewrite fromBytes_arith by lia.
  destruct (M (d_sig d mod 16) (d_hash d mod 16)) as [-> _]; [lia|].
  destruct (M (d_fmt d mod 16) ((d_height d / 2) mod 16)) as [-> ->]; [lia|]. reflexivity.
Qed.
