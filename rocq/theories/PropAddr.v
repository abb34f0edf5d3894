(** C105: the fields of a hash address. *)
From Coq Require Import List NArith Arith Lia Bool.
From Verif Require Import Base Bytes HashAddress RsBase RsHash SpecAddr AddrFields SpecTerms SpecXmss SpecDomain XmssRefine PropDomain RsSim.
Import ListNotations.
Open Scope N_scope.

Lemma u32_lt : forall v, v < 2 ^ 32 -> u32 v = v.
Proof. intros v H. unfold u32. now apply N.mod_small. Qed.
Lemma tree_hi : forall v, v < 2 ^ 64 -> u32 (N.shiftr v 32) = v / 2 ^ 32.
Proof. intros v H. rewrite N.shiftr_div_pow2. apply u32_lt. apply N.div_lt_upper_bound; [discriminate|]. change (2 ^ 32 * 2 ^ 32) with (2 ^ 64). exact H. Qed.

Lemma set_field_words : forall s a k, setter_ok s -> (k < 8)%nat ->
  nth k (words_of (set_field a s)) 0 = match written s k with Some v => v | None => nth k (words_of a) 0 end.
Proof.
  intros s a k H Hk. do 8 (destruct k as [|k]; [destruct s; cbn [setter_ok] in H; cbn [set_field written]; unfold words_of, setLayerADRS, setTreeADRS, setType, setKeyAndMask, setOTSADRS, setChainADRS, setHashADRS, setLtreeADRS, setTreeHeight, setTreeIndex; cbn [nth a0 a1 a2 a3 a4 a5 a6 a7]; rewrite ?tree_hi by exact H; rewrite ?(u32_lt _ H); try reflexivity|]). lia.
Qed.
Lemma run_words : forall l a k, Forall setter_ok l -> (k < 8)%nat ->
  nth k (words_of (fold_left set_field l a)) 0 = word_after k (nth k (words_of a) 0) l.
Proof.
  induction l as [|s r IH]; intros a k H Hk; [reflexivity|]. inversion H; subst. cbn [fold_left word_after].
  rewrite IH by assumption. now rewrite set_field_words.
Qed.
Lemma bytes_words : forall a, addr_to_byte a = flat_map (fun k => to_byte 4 (nth k (words_of a) 0)) (seq 0 8).
Proof. intros []. unfold addr_to_byte, words_of. cbn [seq flat_map nth HashAddress.a0 HashAddress.a1 HashAddress.a2 HashAddress.a3 HashAddress.a4 HashAddress.a5 HashAddress.a6 HashAddress.a7]. now rewrite app_nil_r. Qed.

Lemma flat_map_ext_in : forall (A B : Type) (f g : A -> list B) l, (forall x, In x l -> f x = g x) -> flat_map f l = flat_map g l.
Proof. induction l; intros H; cbn [flat_map]; [reflexivity|]. f_equal; auto with datatypes. Qed.

(** After any sequence of setter calls on any address, the 32 bytes hashed are the eight words
    of RFC 8391, each the last value assigned; the port computes the same bytes. *)
Theorem C105_address_bytes : forall l a buf, Forall setter_ok l -> length buf = 32%nat ->
  let bytes := flat_map (fun k => to_byte 4 (word_after k (nth k (words_of a) 0) l)) (seq 0 8) in
  addr_to_byte (fold_left set_field l a) = bytes /\
  rs_addr_to_byte buf (fold_left rs_set_field l a) = ROk bytes.
Proof.
  intros l a buf H HB bytes.
  assert (E : addr_to_byte (fold_left set_field l a) = bytes).
  { rewrite bytes_words. apply flat_map_ext_in. intros k Hk. apply in_seq in Hk. f_equal. apply run_words; [exact H|lia]. }
  split; [exact E|]. assert (Es : forall l a, fold_left rs_set_field l a = fold_left set_field l a).
  { clear. induction l as [|s r IH]; intros a; [reflexivity|]. cbn [fold_left]. rewrite IH. f_equal; now destruct s. }
  rewrite Es, rs_addr_to_byte_eq by exact HB. now rewrite E.
Qed.

(** The tree address fills bytes 4 to 11, big endian, whatever else is set later. *)
Lemma to_byte_8 : forall t, t < 2 ^ 64 -> to_byte 4 (t / 2 ^ 32) ++ to_byte 4 (t mod 2 ^ 32) = to_byte 8 t.
Proof.
  intros t H. cbn [to_byte app].
  assert (D : forall a b c, b <> 0 -> c <> 0 -> a / b / c = a / (b * c)) by (intros; now rewrite N.div_div).
  assert (M : forall j, j < 4 -> t mod 2 ^ 32 / 256 ^ j mod 256 = t / 256 ^ j mod 256).
  { intros j Hj. assert (Ej : 2 ^ 32 = 256 ^ j * (256 * 256 ^ (3 - j))).
    { change (2 ^ 32) with (256 ^ 4). rewrite <- N.pow_succ_r', <- N.pow_add_r. f_equal. lia. }
    assert (P : forall q, 256 ^ q <> 0) by (intros; apply N.pow_nonzero; discriminate).
    rewrite Ej. rewrite N.mod_mul_r by (auto; apply N.neq_mul_0; split; auto; discriminate).
    rewrite (N.mul_comm (256 ^ j)), N.div_add by auto. rewrite (N.div_small (t mod 256 ^ j)) by (apply N.mod_upper_bound; auto). rewrite N.add_0_l.
    rewrite N.mod_mul_r by (auto; discriminate). rewrite (N.mul_comm 256), N.mod_add by discriminate. rewrite N.mod_mod by discriminate. reflexivity. }
  pose proof (M 0 ltac:(lia)) as M0. pose proof (M 1 ltac:(lia)) as M1. pose proof (M 2 ltac:(lia)) as M2. pose proof (M 3 ltac:(lia)) as M3.
  change (256 ^ 0) with 1 in M0. rewrite !N.div_1_r in M0. change (256 ^ 1) with 256 in M1.
  rewrite !D by discriminate. cbn [N.mul Pos.mul Pos.add] in *. change (256 ^ 2) with 65536 in M2. change (256 ^ 3) with 16777216 in M3.
  rewrite M0, M1, M2, M3. change (2 ^ 32) with 4294967296. reflexivity.
Qed.
Lemma word_after_app : forall k l1 l2 w, word_after k w (l1 ++ l2) = word_after k (word_after k w l1) l2.
Proof. induction l1 as [|s r IH]; intros l2 w; cbn [app word_after]; auto. Qed.
Lemma word_after_no_tree : forall k l w, (k = 1 \/ k = 2)%nat -> forallb (fun s => negb (is_set_tree s)) l = true -> word_after k w l = w.
Proof.
  induction l as [|s r IH]; intros w Hk H; [reflexivity|]. cbn [forallb] in H. apply andb_true_iff in H. destruct H as (H1 & H2).
  cbn [word_after]. rewrite IH by assumption. destruct Hk as [-> | ->]; destruct s; try discriminate H1; reflexivity.
Qed.
Theorem C105_tree_address : forall l1 l2 t a, Forall setter_ok (l1 ++ SetTree t :: l2) -> forallb (fun s => negb (is_set_tree s)) l2 = true ->
  firstn 8 (skipn 4 (addr_to_byte (fold_left set_field (l1 ++ SetTree t :: l2) a))) = to_byte 8 t.
Proof.
  intros l1 l2 t a H HT. assert (Ht : t < 2 ^ 64). { apply Forall_app in H. destruct H as (_ & H). inversion H; subst. assumption. }
  destruct (C105_address_bytes (l1 ++ SetTree t :: l2) a (repeat 0 32) H eq_refl) as (E & _). rewrite E. clear E.
  cbn [seq flat_map].
  rewrite (word_after_app 1), (word_after_app 2). cbn [word_after written]. rewrite !(word_after_no_tree _ l2) by auto. rewrite <- to_byte_8 by exact Ht.
  set (w0 := word_after 0 _ _). reflexivity.
Qed.

(** Addresses with different fields are different byte strings: in particular different
    layers or trees never share one. *)
Theorem C105_fields_separated : forall l l' a a', Forall setter_ok l -> Forall setter_ok l' -> words32 a -> words32 a' ->
  addr_to_byte (fold_left set_field l a) = addr_to_byte (fold_left set_field l' a') ->
  forall k, (k < 8)%nat -> word_after k (nth k (words_of a) 0) l = word_after k (nth k (words_of a') 0) l'.
Proof.
  intros l l' a a' H H' Ha Ha' E k Hk. rewrite <- !run_words by assumption. f_equal. f_equal.
  assert (G : forall l a, Forall setter_ok l -> words32 a -> words32 (fold_left set_field l a)).
  { clear. induction l as [|s r IH]; intros a H Ha; [exact Ha|]. inversion H; subst. cbn [fold_left]. apply IH; [assumption|].
    assert (U : forall v, u32 v < 2 ^ 32) by (intros; apply N.mod_upper_bound; discriminate).
    destruct Ha as (A0 & A1 & A2 & A3 & A4 & A5 & A6 & A7). destruct s; cbn [set_field]; repeat split; cbn; auto; reflexivity. }
  apply C34_addresses_injective; auto.
Qed.
Example C105_case : Forall setter_ok [SetLayer 3; SetTree 0x123456789ABCDEF0; SetType 1; SetLtree 7; SetTreeHeight 2; SetTreeIndex 5; SetKeyAndMask 2] /\
  addr_to_byte (fold_left set_field [SetLayer 3; SetTree 0x123456789ABCDEF0; SetType 1; SetLtree 7; SetTreeHeight 2; SetTreeIndex 5; SetKeyAndMask 2] zero_adrs) =
    [0;0;0;3; 0x12;0x34;0x56;0x78;0x9A;0xBC;0xDE;0xF0; 0;0;0;1; 0;0;0;7; 0;0;0;2; 0;0;0;5; 0;0;0;2].
Proof. split; [repeat constructor|vm_compute; reflexivity]. Qed.
