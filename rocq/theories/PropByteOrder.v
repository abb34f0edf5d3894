(** C85: keys and signatures do not depend on the byte order of the machine. *)
From Coq Require Import List NArith Arith Lia Bool.
From Verif Require Import Base Bytes Keccak HashAddress AlgsXmss RsBase RsHash RsAlgs RsSim ByteOrder.
Import ListNotations.
Open Scope N_scope.

Lemma rev_to_le : forall n v, rev (to_le n v) = to_byte n v.
Proof. induction n; intros; cbn [to_le to_byte rev]; [reflexivity|]. now rewrite IHn. Qed.

(** The three functions that turn an address into bytes give the same result on both
    kinds of machine, for every hash function, address and input; all other functions of
    the library reach the machine's byte order only through them. *)
Theorem C85_same_on_both_machines : forall o hf inp seed a,
  addr_to_byte_on o a = addr_to_byte a /\
  hash_h_on o hf inp seed a = hash_h hf inp seed a /\
  hash_f_on o hf inp seed a = hash_f hf inp seed a /\
  get_seed_on o hf seed a = get_seed hf seed a.
Proof.
  assert (E : forall o a, addr_to_byte_on o a = addr_to_byte a).
  { intros [|] a; unfold addr_to_byte_on, copy_address, word_in_memory, words_of, addr_to_byte; cbn [map concat]; rewrite ?rev_to_le, app_nil_r; reflexivity. }
  intros o hf inp seed a. unfold hash_h_on, hash_f_on, get_seed_on. rewrite !E. repeat split.
Qed.

(** The Rust port, for every 32-byte buffer (the only ones it is called with). *)
Theorem C85_rust_same_on_both_machines : forall o bytes a, length bytes = 32%nat ->
  rs_addr_to_byte_on o bytes a = rs_addr_to_byte bytes a.
Proof.
  intros [|] bytes a HL; [reflexivity|]. rewrite rs_addr_to_byte_eq by exact HL. unfold rs_addr_to_byte_on, rs_u32_slice_to_bytes, rslice.
  assert (E : concat (map (fun w => rev (to_le 4 w)) (words_of a)) = addr_to_byte a).
  { unfold words_of, addr_to_byte. cbn [map concat]. rewrite !rev_to_le, app_nil_r. reflexivity. }
  rewrite E. assert (L : length (addr_to_byte a) = 32%nat) by (unfold addr_to_byte; rewrite !app_length, !to_byte_length; reflexivity).
  rewrite L. cbn [Nat.leb andb rbind]. rewrite Nat.sub_0_r. change (skipn 0 (addr_to_byte a)) with (addr_to_byte a). rewrite firstn_all2 by lia.
  unfold rcopy. rewrite L, HL. reflexivity.
Qed.

(** The branch is needed: on a little-endian machine a plain copy would give other bytes,
    except for addresses all of whose words read the same in both directions. *)
Lemma app_inv4 : forall (x y : N -> list N) l, (forall w, length (x w) = length (y w)) -> concat (map x l) = concat (map y l) -> Forall (fun w => x w = y w) l.
Proof.
  intros x y l HL. induction l as [|w l IH]; intros E; [constructor|]. cbn [map concat] in E.
  assert (E1 : x w = y w /\ concat (map x l) = concat (map y l)).
  { pose proof (f_equal (firstn (length (x w))) E) as F. pose proof (f_equal (skipn (length (x w))) E) as G.
    rewrite !firstn_app, !firstn_all2, HL, Nat.sub_diag, !firstn_O, !app_nil_r in F by (rewrite ?HL; lia).
    rewrite !skipn_app, !skipn_all2, HL, Nat.sub_diag, !skipn_O in G by (rewrite ?HL; lia). rewrite firstn_all in F. rewrite skipn_all in G. split; [exact F|exact G]. }
  constructor; [apply E1|apply IH, E1].
Qed.
Theorem C85_plain_copy_differs : forall a,
  copy_address LittleEndian a = addr_to_byte a <-> Forall (fun w => to_byte 4 w = rev (to_byte 4 w)) (words_of a).
Proof.
  intros a. destruct (C85_same_on_both_machines LittleEndian SHA2_256 [] [] a) as (E & _). rewrite <- E. unfold copy_address, addr_to_byte_on.
  assert (R : forall w, rev (to_byte 4 w) = to_le 4 w) by (intros w; rewrite <- rev_to_le; apply rev_involutive). split.
  - intros H. apply app_inv4 in H; [|intros w; cbn [word_in_memory]; now rewrite to_le_length, to_byte_length].
    eapply Forall_impl; [|exact H]. intros w Hw. cbn [word_in_memory] in Hw. rewrite R. congruence.
  - intros H. f_equal. apply map_ext_Forall. eapply Forall_impl; [|exact H]. intros w Hw. cbn [word_in_memory]. rewrite <- R. congruence.
Qed.
Example C85_machines : let a := mkAdrs 0 0 0 1 2 3 4 0x01020304 in
  addr_to_byte_on BigEndian a = addr_to_byte_on LittleEndian a /\ copy_address LittleEndian a <> addr_to_byte a.
Proof. split; [reflexivity|discriminate]. Qed.
Example C85_rust_buffer : length (repeat 0 32) = 32%nat.
Proof. reflexivity. Qed.
