(** Descriptor, address and signature verification of the Rust port against the
    reference. *)
From Coq Require Import List NArith Arith Lia Bool.
From Verif Require Import Base Bytes Keccak KeccakLemmas Sha256 HashAddress Wots XmssCommon AlgsXmss AlgsXmssFast Descriptor
  SpecXmss SpecApi XmssObj XmssRefine WotsProofs TreeProofs BasicProofs FastProofs DescrProofs VerifyProofs
  RsBase RsKeccak RsShake RsHash RsSim RsWots RsSimWots RsAlgs RsFast SpecRust RsObj RsSimTree RsSimAlgs RsSimFast RsObjProofs.
Import ListNotations.
Open Scope nat_scope.

(** The descriptor decoder, in arithmetic. *)
Lemma rs_from_bytes_arith : forall b0 b1 b2, (b0 < 256)%N -> (b1 < 256)%N ->
  rs_from_bytes [b0; b1; b2] =
  match hash_of_id (b0 mod 16)%N with
  | None => RErr RFailedConversion
  | Some hf => if (b1 / 16 =? 0)%N then ROk (mkRD hf (2 * (b1 mod 16))%N) else RErr RFailedConversion
  end.
Proof.
  intros b0 b1 b2 H0 H1. unfold rs_from_bytes. cbn [length Nat.eqb negb rget nth_error rbind].
  change 15%N with (N.ones 4). rewrite !N.land_ones. change (2 ^ 4)%N with 16%N.
  assert (E2 : N.land (N.shiftr b0 4) 240 = 0%N).
  { rewrite N.shiftr_div_pow2. change (2 ^ 4)%N with 16%N.
    assert (X : (b0 / 16 < 16)%N) by (apply N.div_lt_upper_bound; lia).
    apply N.bits_inj. intros n. rewrite N.land_spec, N.bits_0. destruct (N.lt_ge_cases n 4) as [L|L].
    - replace (N.testbit 240 n) with false; [apply andb_false_r|]. change 240%N with (15 * 2 ^ 4)%N. symmetry. now apply N.mul_pow2_bits_low.
    - replace (N.testbit (b0 / 16) n) with false; [reflexivity|]. symmetry. rewrite <- (N.mod_small _ _ X). change 16%N with (2 ^ 4)%N at 2.
      now apply N.mod_pow2_bits_high. }
  assert (E3 : N.shiftr (N.land b1 240) 4 = (b1 / 16)%N).
  { rewrite N.shiftr_land. change (N.shiftr 240 4) with (N.ones 4). rewrite N.land_ones, N.shiftr_div_pow2. change (2 ^ 4)%N with 16%N.
    apply N.mod_small. apply N.div_lt_upper_bound; lia. }
  assert (E4 : u8 (N.shiftl (b1 mod 16) 1) = (2 * (b1 mod 16))%N).
  { rewrite N.shiftl_mul_pow2. change (2 ^ 1)%N with 2%N. unfold u8. pose proof (N.mod_upper_bound b1 16).
    rewrite N.mod_small by lia. lia. }
  rewrite E2, E3, E4. change (negb (0 =? 0)%N) with false. cbv zeta.
  pose proof (N.mod_upper_bound b0 16 ltac:(lia)) as X. set (x := (b0 mod 16)%N) in *. clearbody x.
  destruct x as [|[[|[]|]|[]|]]; cbn [hash_of_id rbind]; try reflexivity;
    destruct (b1 / 16 =? 0)%N; reflexivity.
Qed.

Lemma rs_base_size : forall w wp, winternitz (w_of w) = Some wp -> rs_sig_base_size (Some w) = base_size wp.
Proof. intros [] wp H; vm_compute in H; injection H as <-; vm_compute; reflexivity. Qed.

Lemma rs_height_from_size : forall w wp n, winternitz (w_of w) = Some wp ->
  rs_height_from_sig_size n (Some w) =
  if (n <? base_size wp) || negb ((n - base_size wp) mod 32 =? 0) then RErr RInvalidArgument
  else ROk (u8 (N.of_nat ((n - base_size wp) / 32))).
Proof.
  intros w wp n Hw. unfold rs_height_from_sig_size. rewrite (rs_base_size w wp Hw).
  pose proof (base_size_bound _ wp Hw) as HB.
  destruct (n <? base_size wp) eqn:E1; [reflexivity|]. apply Nat.ltb_ge in E1. cbn [orb].
  set (k := n - base_size wp). unfold base_size in *.
  replace (n - 4) with (k + (1 + snd (fst wp) + snd wp) * 32) by lia. rewrite Nat.mod_add by lia. reflexivity.
Qed.

Lemma rs_params_even : forall w wp k, winternitz (w_of w) = Some wp -> 2 <= k ->
  exists p, rs_xmss_params (2 * k) w 2 = ROk p /\ x_wots p = wparams (w_of w).
Proof.
  intros w wp k Hw Hk. unfold rs_xmss_params.
  assert (EG : ((2 * k <=? 2) || (2 <? 2) || negb ((2 * k - 2) mod 2 =? 0))%bool = false).
  { rewrite (proj2 (Nat.leb_gt (2 * k) 2)) by lia. change (2 <? 2) with false. cbn [orb].
    apply negb_false_iff, Nat.eqb_eq. replace (2 * k - 2) with ((k - 1) * 2) by lia. apply Nat.mod_mul. lia. }
  rewrite EG. eexists. split; [reflexivity|]. cbn [x_wots]. now apply (rs_wots_new_eq w wp).
Qed.

Theorem rs_verify_spec : forall w wp msg sig pk, winternitz (w_of w) = Some wp -> all_bytes pk -> all_bytes sig ->
  rs_verify msg sig pk (Some w) = rust_ref_verify wp msg sig pk.
Proof.
  intros w wp msg sig pk Hw Hpk Hsb.
  pose proof (base_size_bound _ wp Hw) as HB.
  unfold rs_verify, rust_ref_verify. cbv zeta.
  destruct (length pk =? 67) eqn:EL; cbn [negb]; [|reflexivity]. apply Nat.eqb_eq in EL.
  rewrite (rs_base_size w wp Hw). change (36 + 32 * (snd (fst wp) + snd wp)) with (base_size wp).
  replace (32 * 254) with (254 * 32) by lia. set (B := base_size wp) in *.
  destruct (B + 254 * 32 <? length sig) eqn:ES; [reflexivity|]. apply Nat.ltb_ge in ES.
  unfold rs_from_extended_pk. rewrite EL. cbn [Nat.eqb negb]. rewrite rslice_ok by lia. cbn [rbind].
  change (firstn (3 - 0) (skipn 0 pk)) with (firstn 3 pk). rewrite firstn_3 by lia.
  rewrite rs_from_bytes_arith by (now apply all_bytes_nth).
  destruct (hash_of_id (nth 0 pk 0 mod 16)%N) as [hf|] eqn:Eh; [|reflexivity].
  destruct (nth 1 pk 0 / 16 =? 0)%N; cbn [negb rbind rd_height rd_hash]; [|reflexivity].
  set (hh := (nth 1 pk 0 mod 16)%N). assert (Hhh : (hh < 16)%N) by (apply N.mod_upper_bound; lia).
  rewrite (rs_height_from_size w wp _ Hw). fold B.
  destruct ((length sig <? B) || negb ((length sig - B) mod 32 =? 0)) eqn:E0.
  { cbn [rbind]. assert (F : (length sig =? B + 32 * (2 * N.to_nat hh)) = false).
    { apply Nat.eqb_neq. intros F. apply orb_true_iff in E0. destruct E0 as [E0|E0].
      - apply Nat.ltb_lt in E0. lia.
      - apply negb_true_iff, Nat.eqb_neq in E0. apply E0. rewrite F.
        replace (B + 32 * (2 * N.to_nat hh) - B) with (2 * N.to_nat hh * 32) by lia. apply Nat.mod_mul. lia. }
    rewrite F, andb_false_r. reflexivity. }
  cbn [rbind]. apply orb_false_iff in E0. destruct E0 as [E0 E0']. apply Nat.ltb_ge in E0.
  apply negb_false_iff, Nat.eqb_eq in E0'.
  set (k := (length sig - B) / 32).
  assert (Ek : length sig = B + 32 * k). { pose proof (Nat.div_mod (length sig - B) 32). unfold k. lia. }
  assert (Hk : k <= 254) by lia.
  unfold u8. rewrite N.mod_small by lia.
  destruct ((N.of_nat k =? 0)%N || negb (2 * hh =? N.of_nat k)%N) eqn:E8.
  { destruct ((4 <=? 2 * N.to_nat hh) && (length sig =? B + 32 * (2 * N.to_nat hh))) eqn:E9; [|reflexivity].
    exfalso. apply andb_true_iff in E9. destruct E9 as [E9 E10]. apply Nat.leb_le in E9. apply Nat.eqb_eq in E10.
    apply orb_true_iff in E8. destruct E8 as [E8|E8].
    - apply N.eqb_eq in E8. lia.
    - apply negb_true_iff, N.eqb_neq in E8. lia. }
  apply orb_false_iff in E8. destruct E8 as [E8 E9]. apply N.eqb_neq in E8. apply negb_false_iff, N.eqb_eq in E9.
  rewrite <- E9. change (rs_bad_height (2 * hh)) with (bad_height (2 * hh)). rewrite bad_height_even.
  destruct (hh <=? 1)%N eqn:E10.
  { apply N.leb_le in E10. rewrite (proj2 (Nat.leb_gt 4 (2 * N.to_nat hh))) by lia. reflexivity. }
  apply N.leb_gt in E10. rewrite (proj2 (Nat.leb_le 4 (2 * N.to_nat hh))) by lia.
  rewrite (proj2 (Nat.eqb_eq (length sig) _)) by lia. cbn [andb negb].
  assert (EH : N.to_nat (2 * hh) = 2 * N.to_nat hh) by lia. rewrite EH.
  destruct (rs_params_even w wp (N.to_nat hh) Hw ltac:(lia)) as (p & Ep & Epw). rewrite Ep. cbn [rbind].
  rewrite <- EL at 1. rewrite rslice_tail by lia. cbn [rbind]. rewrite Epw.
  assert (LP : length (skipn 3 pk) = 64) by (rewrite skipn_length; lia).
  destruct (wparams_ok _ wp Hw) as (Ewp & HP & E1 & E2 & E3 & E4 & E5 & E6 & E7).
  set (H := 2 * N.to_nat hh) in *.
  assert (LK : w_keysize (wparams (w_of w)) = 32 * (snd (fst wp) + snd wp)) by (unfold w_keysize; rewrite E7; lia).
  assert (LS : length sig = 36 + w_keysize (wparams (w_of w)) + H * 32) by (rewrite LK; unfold B, base_size in Ek; lia).
  destruct (signable_dec hf msg) as [S|S].
  - set (seen := seen_message hf _ _ _ msg).
    pose proof (verify_spec (w_of w) wp hf seen sig pk Hw Hpk Eh) as V.
    (* the C++ verifier on the seen message, reduced to the core call *)
    assert (VC : xmss_Verifysig hf (wparams (w_of w)) seen sig (skipn 3 pk) H = Ok (ref_verify hf wp seen sig pk)).
    { rewrite <- V. symmetry. unfold verify, verify_body. rewrite EL. cbn [Nat.eqb negb]. rewrite (sig_base_size _ _ Hw). cbn [bind].
      fold B. rewrite (proj2 (N.ltb_ge _ _)) by lia.
      unfold descr_fromExtendedPK. rewrite EL. cbn [Nat.eqb negb]. unfold descr_getSize.
      rewrite firstn_3 by lia. rewrite fromBytes_arith by (now apply all_bytes_nth). cbn [bind d_sig d_hash d_height].
      change (negb (0 =? 0)%N) with false. cbn iota.
      rewrite (height_from_size _ _ _ Hw). fold B. fold hh.
      assert (Ed : length sig - B = k * 32) by lia. rewrite Ed, Nat.mod_mul, Nat.div_mul by lia.
      rewrite (proj2 (Nat.ltb_ge _ _)) by lia. cbn [orb negb Nat.eqb bind].
      unfold u8. rewrite N.mod_small by lia.
      rewrite (proj2 (N.eqb_neq (N.of_nat k) 0)) by lia. rewrite E9, N.eqb_refl. cbn [orb negb].
      rewrite <- E9. rewrite bad_height_even. rewrite (proj2 (N.leb_gt _ _)) by lia. rewrite EH.
      assert (EG : ((H <=? 2) || (2 <? 2) || negb ((H - 2) mod 2 =? 0))%bool = false).
      { rewrite (proj2 (Nat.leb_gt H 2)) by (unfold H; lia). change (2 <? 2) with false. cbn [orb].
        apply negb_false_iff, Nat.eqb_eq. replace (H - 2) with ((N.to_nat hh - 1) * 2) by (unfold H; lia). apply Nat.mod_mul. lia. }
      unfold xmss_set_params. rewrite EG, Ewp. cbn [bind x_wots]. unfold with_hash. rewrite Eh. rewrite Verifysig_spec by (auto; unfold H; lia). reflexivity. }
    rewrite (rs_xmss_verify_sig_eq hf (wparams (w_of w)) msg sig (skipn 3 pk) H (ref_verify hf wp seen sig pk)); auto.
    unfold H. lia.
  - rewrite rs_xmss_verify_sig_panic; auto. lia.
Qed.
