(** Rust port: C47 (xmss_update_sk). *)
From Coq Require Import List NArith Arith Lia Bool.
From Verif Require Import Base Bytes HashAddress Wots XmssCommon AlgsXmss XmssRefine BasicProofs
  RsBase RsHash RsWots RsAlgs RsSim RsSimTree RsSimAlgs PropDescr.
Import ListNotations.
Open Scope nat_scope.

(** The Rust function answers and stores exactly what the C++ one does, for every
    key and every 64-bit k, and does not panic. *)
Theorem C47_rust_update_sk : forall sk k, length sk = 132 -> all_bytes sk ->
  rs_update_sk sk k = ROk (xmss_updateSK sk k).
Proof.
  intros sk k HL HB. unfold rs_update_sk, xmss_updateSK. rewrite rs_be32_eq by (auto; lia). cbn [rbind].
  destruct (k <=? from_be (slice 0 4 sk))%N; [reflexivity|].
  rewrite rs_store_be32_eq by lia. cbn [rbind]. do 2 f_equal. f_equal.
  unfold u32. change (2 ^ 32)%N with (256 ^ N.of_nat 4)%N. rewrite <- from_be_to_byte.
  rewrite <- (to_byte_length 4 k) at 2. symmetry. apply to_byte_from_be. apply to_byte_bytes.
Qed.

Example C47_rust_case : rs_update_sk (to_byte 4 7 ++ repeat 0%N 128) 9 = ROk (true, to_byte 4 9 ++ repeat 0%N 128) /\
  rs_update_sk (to_byte 4 7 ++ repeat 0%N 128) 7 = ROk (false, to_byte 4 7 ++ repeat 0%N 128).
Proof. split; vm_compute; reflexivity. Qed.
