(** Descriptors, addresses, sizes: C08-C12, C16, C31, C47. *)
From Coq Require Import List NArith Arith Lia Bool.
From Verif Require Import Base Bytes Sha256 HashAddress Wots XmssCommon AlgsXmss Descriptor SpecApi XmssObj XmssRefine BasicProofs FastProofs
  DescrProofs VerifyProofs PropKeys.
From Verif Require Export SpecTerms.
Import ListNotations.
Open Scope N_scope.

(** ** C08 *)
Theorem C08_descriptor_roundtrip : forall hash height fmt,
  hash < 16 -> fmt < 16 -> N.even height = true -> height <= 30 ->
  let d := mkDescr hash 0 height fmt in
  length (descr_getBytes d) = 3%nat /\ all_bytes (descr_getBytes d) /\
  descr_fromBytes (descr_getBytes d) = Ok d.
Proof.
  intros hash height fmt Hh Hf He Hle d. split; [reflexivity|]. split; [apply getBytes_bytes|].
  rewrite decode_encode. cbn [d d_hash d_height d_fmt]. apply N.even_spec in He. destruct He as [y Ey].
  rewrite Ey, (N.mul_comm 2 y), N.div_mul by lia. rewrite !N.mod_small by lia. unfold d. rewrite Ey, (N.mul_comm 2 y). reflexivity.
Qed.

Theorem C08_descriptor_reencode : forall b0 b1 b2, b0 < 256 -> b1 < 256 -> b2 < 256 ->
  exists d, descr_fromBytes [b0; b1; b2] = Ok d /\ descr_getBytes d = [b0 mod 16; b1; 0].
Proof.
  intros b0 b1 b2 H0 H1 H2. rewrite fromBytes_arith by auto. eexists. split; [reflexivity|].
  rewrite getBytes_arith. cbn [d_sig d_hash d_fmt d_height].
  rewrite (N.mul_comm 2 (b1 mod 16)), N.div_mul by lia. rewrite !N.mod_mod by lia.
  rewrite (N.mod_small (b1 / 16)) by (apply N.div_lt_upper_bound; lia).
  rewrite <- (N.div_mod' b1 16). change (0 mod 16) with 0. reflexivity.
Qed.

Theorem C08_descriptor_length : forall b, length b <> 3%nat -> descr_fromBytes b = Exn InvalidArgument.
Proof. intros [|b0 [|b1 [|b2 [|b3 b]]]] H; auto. now destruct H. Qed.

(** ** C09 *)
Theorem C09_descriptor_height_loss : forall hash sg height fmt,
  exists d, descr_fromBytes (descr_getBytes (mkDescr hash sg height fmt)) = Ok d /\
    d_height d = 2 * ((height / 2) mod 16) /\
    (d_height d <> height <-> (N.odd height = true \/ 30 < height)).
Proof.
  intros hash sg height fmt. rewrite decode_encode. eexists. split; [reflexivity|]. cbn [d_height]. split; [reflexivity|].
  pose proof (N.div_mod' height 2) as E. pose proof (N.mod_upper_bound height 2).
  pose proof (N.div_mod' (height / 2) 16) as E2. pose proof (N.mod_upper_bound (height / 2) 16).
  rewrite <- N.bit0_odd, N.bit0_eqb, N.eqb_eq.
  set (q := height / 2) in *. set (r := height mod 2) in *. set (q2 := q / 16) in *. set (r2 := q mod 16) in *. lia.
Qed.

(** ** C10 *)
Theorem C10_sigtype_always_xmss : forall b d, all_bytes b -> descr_fromBytes b = Ok d -> d_sig d = 0.
Proof.
  intros b d Hb E. destruct b as [|b0 [|b1 [|b2 [|b3 b]]]]; try discriminate.
  inversion Hb as [|? ? H0 Hb1]; subst. inversion Hb1 as [|? ? H1 _]; subst.
  rewrite fromBytes_arith in E by auto. apply Ok_inj in E. now subst d.
Qed.

(** ** C11, C12: addresses *)

Lemma skipn_28 : forall (l : list N), length l = 32%nat -> skipn 28 l = [nth 28 l 0; nth 29 l 0; nth 30 l 0; nth 31 l 0].
Proof. intros l HL. do 33 (destruct l as [|? l]; [try discriminate|]); try discriminate. reflexivity. Qed.
Lemma skipn_35 : forall (l : list N), length l = 39%nat -> skipn 35 l = [nth 35 l 0; nth 36 l 0; nth 37 l 0; nth 38 l 0].
Proof. intros l HL. do 40 (destruct l as [|? l]; [try discriminate|]); try discriminate. reflexivity. Qed.

Theorem C12_addressIsValid_exact : forall a, all_bytes a ->
  exists b, addressIsValid a = Ok b /\ (b = true <-> checksummed a).
Proof.
  intros a Ha. unfold addressIsValid, addressIsValid_body, checksummed.
  destruct (length a =? 39)%nat eqn:EL; cbn [negb].
  2:{ apply Nat.eqb_neq in EL. exists false. split; [reflexivity|]. split; [discriminate|tauto]. }
  apply Nat.eqb_eq in EL. unfold descr_getSize. rewrite firstn_3 by lia.
  rewrite fromBytes_arith by (apply all_bytes_nth; auto). cbn [bind d_fmt]. unfold SHA256_2X.
  destruct (nth 1 a 0 / 16 =? 0) eqn:Ef; cbn [negb].
  2:{ apply N.eqb_neq in Ef. exists false. split; [reflexivity|]. split; [discriminate|tauto]. }
  apply N.eqb_eq in Ef. pose proof (sha256_length (firstn 35 a)) as HL.
  rewrite !(get_nth _ a _ 0), !(get_nth _ (sha256 (firstn 35 a)) _ 0) by lia. cbn [bind].
  eexists. split; [reflexivity|]. rewrite skipn_35, skipn_28 by auto.
  rewrite !andb_true_iff, !N.eqb_eq. split.
  - intros (((E1 & E2) & E3) & E4). repeat split; auto. now rewrite E1, E2, E3, E4.
  - intros (_ & _ & E). injection E as E1 E2 E3 E4. auto.
Qed.

(** Two valid addresses that agree on the first 35 bytes are equal: no checksum
    byte can be changed. *)
Corollary C12_checksum_determined : forall a a', all_bytes a -> all_bytes a' ->
  addressIsValid a = Ok true -> addressIsValid a' = Ok true -> firstn 35 a = firstn 35 a' -> a = a'.
Proof.
  intros a a' Ha Ha' V V' E. destruct (C12_addressIsValid_exact a Ha) as (b & Eb & Hb).
  destruct (C12_addressIsValid_exact a' Ha') as (b' & Eb' & Hb').
  rewrite V in Eb. apply Ok_inj in Eb. rewrite V' in Eb'. apply Ok_inj in Eb'. subst.
  destruct (proj1 Hb eq_refl) as (_ & _ & S1). destruct (proj1 Hb' eq_refl) as (_ & _ & S2).
  rewrite <- (firstn_skipn 35 a), <- (firstn_skipn 35 a'), S1, S2, E. reflexivity.
Qed.

Theorem C11_generated_addresses_valid : forall pk, all_bytes pk ->
  (getAddress pk = Exn InvalidArgument <-> (length pk <> 67%nat \/ nth 1 pk 0 / 16 <> 0)) /\
  getAddress pk <> UB /\
  forall a, getAddress pk = Ok a ->
    length a = 39%nat /\ all_bytes a /\
    firstn 3 a = [nth 0 pk 0 mod 16; nth 1 pk 0; 0] /\
    firstn 32 (skipn 3 a) = sha256 pk /\
    addressIsValid a = Ok true.
Proof.
  intros pk Hp. unfold getAddress, descr_fromExtendedPK.
  destruct (length pk =? 67)%nat eqn:EL; cbn [negb].
  2:{ apply Nat.eqb_neq in EL. cbn [bind]. repeat split; try discriminate; auto. }
  apply Nat.eqb_eq in EL. unfold descr_getSize. rewrite firstn_3 by lia.
  pose proof (all_bytes_nth pk 0 Hp) as B0. pose proof (all_bytes_nth pk 1 Hp) as B1. pose proof (all_bytes_nth pk 2 Hp) as B2.
  destruct (C08_descriptor_reencode _ _ _ B0 B1 B2) as (d & Ed & Eb). rewrite Ed. cbn [bind].
  assert (Hfm : d_fmt d = nth 1 pk 0 / 16). { rewrite fromBytes_arith in Ed by auto. apply Ok_inj in Ed. now subst d. }
  rewrite Hfm. unfold SHA256_2X.
  destruct (nth 1 pk 0 / 16 =? 0) eqn:Ef; cbn [negb].
  2:{ apply N.eqb_neq in Ef. repeat split; try discriminate; auto. }
  apply N.eqb_eq in Ef. split. { split; [discriminate|tauto]. } split; [discriminate|].
  intros a Ea. apply Ok_inj in Ea. rewrite Eb in Ea.
  set (pre := [nth 0 pk 0 mod 16; nth 1 pk 0; 0] ++ sha256 pk) in *.
  assert (L35 : length pre = 35%nat) by (unfold pre; rewrite app_length, sha256_length; reflexivity).
  assert (Ba : all_bytes a).
  { subst a. apply Forall_app. split; [apply Forall_app; split|].
    - repeat constructor; unfold is_byte; try lia. pose proof (N.mod_upper_bound (nth 0 pk 0) 16). lia.
    - apply sha256_bytes.
    - apply all_bytes_skipn, sha256_bytes. }
  assert (La : length a = 39%nat) by (subst a; rewrite app_length, L35, skipn_length, sha256_length; reflexivity).
  split; [exact La|]. split; [exact Ba|].
  split. { subst a. reflexivity. }
  split. { subst a. unfold pre. rewrite <- app_assoc. rewrite (skipn_app_exact _ 3) by reflexivity. apply firstn_app_exact, sha256_length. }
  destruct (C12_addressIsValid_exact a Ba) as (b & Eb2 & Hb). rewrite Eb2. f_equal. apply Hb. split; [exact La|]. split.
  { subst a. exact Ef. }
  subst a. rewrite (skipn_app_exact _ 35), (firstn_app_exact _ 35) by exact L35. reflexivity.
Qed.

(** Every other key has an address: the only exception is the one above. *)
Theorem C11_address_exists : forall pk, all_bytes pk -> length pk = 67%nat -> nth 1 pk 0 / 16 = 0 ->
  exists a, getAddress pk = Ok a.
Proof.
  intros pk Hp HL Hf. unfold getAddress, descr_fromExtendedPK. rewrite HL. cbn [Nat.eqb negb].
  unfold descr_getSize. rewrite firstn_3 by lia. rewrite fromBytes_arith by (apply all_bytes_nth; auto).
  cbn [bind d_fmt]. rewrite Hf. unfold SHA256_2X. cbn [N.eqb negb]. eexists. reflexivity.
Qed.

(** Non-vacuity: an all-zero key has an address; format nibble 1 has none. *)
Example address_exists : exists a, getAddress (repeat 0 67) = Ok a.
Proof. eexists. reflexivity. Qed.
Example address_bad_format : getAddress (0 :: 16 :: repeat 0 65) = Exn InvalidArgument.
Proof. reflexivity. Qed.

(** ** C16: sizes *)
Theorem C16_size_height_inverse : forall w wp h, winternitz w = Some wp -> h < 256 ->
  exists n, getSignatureSize h w = Ok n /\ n = 36 + 32 * N.of_nat (snd (fst wp) + snd wp) + 32 * h /\
    getHeightFromSigSize n w = Ok h.
Proof.
  intros w wp h Hw Hh. pose proof (base_size_bound w wp Hw) as HB.
  unfold getSignatureSize. rewrite (sig_base_size w wp Hw). cbn [bind].
  exists (N.of_nat (base_size wp + 32 * N.to_nat h)). split.
  { f_equal. unfold u32. rewrite N.mod_small; [lia|]. change (2 ^ 32) with 4294967296. lia. }
  split. { unfold base_size. lia. }
  rewrite (height_from_size w wp _ Hw).
  replace (base_size wp + 32 * N.to_nat h - base_size wp)%nat with (N.to_nat h * 32)%nat by lia.
  rewrite Nat.mod_mul, Nat.div_mul by lia. rewrite (proj2 (Nat.ltb_ge _ _)) by lia. cbn [orb negb Nat.eqb].
  rewrite N2Nat.id. unfold u8. now rewrite N.mod_small.
Qed.

Theorem C16_height_from_size : forall w wp n, winternitz w = Some wp ->
  let base := (36 + 32 * (snd (fst wp) + snd wp))%nat in
  (((n < base)%nat \/ (n mod 32 <> 4)%nat) -> getHeightFromSigSize (N.of_nat n) w = Exn InvalidArgument) /\
  ((base <= n)%nat -> (n mod 32 = 4)%nat -> getHeightFromSigSize (N.of_nat n) w = Ok (N.of_nat ((n - base) / 32) mod 256)).
Proof.
  intros w wp n Hw base. rewrite (height_from_size w wp n Hw). fold (base_size wp) in base. 
  assert (Hm : (base <= n)%nat -> ((n - base) mod 32 = 0)%nat <-> (n mod 32 = 4)%nat).
  { intros Hle. set (k := (n - base)%nat). assert (En : n = (k + 4 + (1 + (snd (fst wp) + snd wp)) * 32)%nat) by (unfold k, base, base_size in *; lia).
    rewrite En, Nat.mod_add by lia. clear. pose proof (Nat.mod_upper_bound k 32). rewrite Nat.add_mod by lia.
    change (4 mod 32)%nat with 4%nat. split; intros E.
    - rewrite E. reflexivity.
    - destruct (Nat.lt_ge_cases (k mod 32 + 4) 32) as [Hl|Hg]. + rewrite Nat.mod_small in E by lia. lia.
      + exfalso. rewrite (Nat.mod_eq (k mod 32 + 4) 32) in E by lia. assert ((k mod 32 + 4) / 32 = 1)%nat.
        { symmetry. apply (Nat.div_unique _ _ 1 (k mod 32 + 4 - 32)%nat); lia. } lia. }
  split.
  - intros Hc. destruct (n <? base_size wp)%nat eqn:E1; [reflexivity|]. apply Nat.ltb_ge in E1. cbn [orb].
    destruct Hc as [Hc|Hc]; [unfold base in Hc; lia|].
    rewrite (proj2 (Nat.eqb_neq _ _)); [reflexivity|]. intros E. apply Hc, Hm; auto.
  - intros Hle Hn. rewrite (proj2 (Nat.ltb_ge _ _)) by exact Hle. cbn [orb].
    rewrite (proj2 (Nat.eqb_eq _ _)) by (apply Hm; auto). reflexivity.
Qed.

(** ** C31: Winternitz parameters *)
Theorem C31_wots_parameters : forall w lw l1 l2, winternitz w = Some (lw, l1, l2) ->
  wots_set_params w = Ok (mkWP w lw l1 l2) /\
  w = 2 ^ N.of_nat lw /\ (l1 * lw = 256)%nat /\
  (* len_2 digits hold every checksum value, and no fewer do *)
  N.of_nat l1 * (w - 1) < w ^ N.of_nat l2 /\ w ^ (N.of_nat l2 - 1) <= N.of_nat l1 * (w - 1) /\
  calculateSignatureBaseSize w = Ok (36 + 32 * N.of_nat (l1 + l2)) /\
  (w = 2 -> (l1 + l2 = 265)%nat) /\ (w = 4 -> (l1 + l2 = 133)%nat) /\ (w = 16 -> (l1 + l2 = 67)%nat) /\ (w = 256 -> (l1 + l2 = 34)%nat).
Proof.
  intros w lw l1 l2 Hw. pose proof Hw as Hw'. apply winternitz_cases in Hw'.
  destruct Hw' as [(-> & E)|[(-> & E)|[(-> & E)|(-> & E)]]]; injection E as -> -> ->;
    (split; [vm_compute; reflexivity|]; split; [reflexivity|]; split; [reflexivity|];
     split; [vm_compute; reflexivity|]; split; [vm_compute; discriminate|]; split; [vm_compute; reflexivity|];
     repeat split; intros; try discriminate; reflexivity).
Qed.

(** ** C47: xmss_updateSK only moves forward. *)
Theorem C47_updateSK_forward : forall sk k ok sk', length sk = 132%nat -> all_bytes sk -> k < 2 ^ 32 ->
  xmss_updateSK sk k = (ok, sk') ->
  let idx s := from_be (firstn 4 s) in
  length sk' = 132%nat /\ skipn 4 sk' = skipn 4 sk /\
  (ok = true <-> idx sk < k) /\ (ok = true -> idx sk' = k) /\ (ok = false -> sk' = sk) /\ idx sk <= idx sk'.
Proof.
  intros sk k ok sk' HL HB Hk E idx. unfold xmss_updateSK in E. unfold slice in E. rewrite skipn_O in E. fold (idx sk) in E.
  destruct (k <=? idx sk) eqn:El.
  - apply N.leb_le in El. injection E as <- <-. repeat split; auto; try discriminate; lia.
  - apply N.leb_gt in El.
    assert (Eu : u32 k = k) by (unfold u32; now apply N.mod_small). rewrite Eu in E.
    assert (E1 : ok = true) by congruence. assert (E2 : sk' = to_byte 4 k ++ skipn 4 sk) by congruence.
    clear E. subst ok. rewrite E2.
    assert (Ei : idx (to_byte 4 k ++ skipn 4 sk) = k).
    { unfold idx. rewrite (firstn_app_exact _ 4) by apply to_byte_length. now apply from_be_to_byte4. }
    rewrite Ei. split; [rewrite app_length, to_byte_length, skipn_length; lia|].
    split; [apply skipn_app_exact, to_byte_length|]. split; [tauto|]. split; [auto|]. split; [discriminate|lia].
Qed.

(** Larger arguments (the parameter is a 64-bit unsigned long) are truncated when
    stored: the index can then move backwards although the call reports success. *)
Example C47_truncation : exists sk', xmss_updateSK (to_byte 4 7 ++ repeat 0 128) (2 ^ 32) = (true, sk') /\ from_be (firstn 4 sk') = 0.
Proof. eexists. split; vm_compute; reflexivity. Qed.
