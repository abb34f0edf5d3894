(** XmssBase::verify against the reference verifier of SpecApi.v. *)
From Coq Require Import List NArith Arith Lia Bool.
From Verif Require Import Base Bytes Keccak KeccakLemmas HashAddress Wots XmssCommon AlgsXmss AlgsXmssFast Descriptor
  SpecXmss SpecApi XmssObj XmssRefine WotsProofs TreeProofs BasicProofs FastProofs DescrProofs.
Import ListNotations.
Open Scope nat_scope.

Lemma Ok_inj : forall A (a b : A), Ok a = Ok b -> a = b.
Proof. congruence. Qed.

Lemma cells_chunks : forall k l, cells k l = chunks k 32 l.
Proof. induction k; intros; cbn [cells chunks]; auto. now rewrite IHk. Qed.

Definition base_size (wp : nat * nat * nat) : nat := 36 + 32 * (snd (fst wp) + snd wp).

Lemma sig_base_size : forall w wp, winternitz w = Some wp ->
  calculateSignatureBaseSize w = Ok (N.of_nat (base_size wp)).
Proof.
  intros w wp Hw. unfold calculateSignatureBaseSize. destruct (wparams_ok w wp Hw) as (E & _). rewrite E. cbn [bind].
  unfold wparams. rewrite Hw. apply winternitz_cases in Hw.
  destruct Hw as [(-> & ->)|[(-> & ->)|[(-> & ->)|(-> & ->)]]]; vm_compute; reflexivity.
Qed.
Lemma base_size_bound : forall w wp, winternitz w = Some wp -> 36 <= base_size wp <= 36 + 32 * 265.
Proof.
  intros w wp Hw. apply winternitz_cases in Hw.
  destruct Hw as [(-> & ->)|[(-> & ->)|[(-> & ->)|(-> & ->)]]]; vm_compute; lia.
Qed.

Lemma height_from_size : forall w wp n, winternitz w = Some wp ->
  getHeightFromSigSize (N.of_nat n) w =
  if (n <? base_size wp) || negb ((n - base_size wp) mod 32 =? 0) then Exn InvalidArgument
  else Ok (u8 (N.of_nat ((n - base_size wp) / 32))).
Proof.
  intros w wp n Hw. unfold getHeightFromSigSize. rewrite (sig_base_size w wp Hw). cbn [bind].
  pose proof (base_size_bound w wp Hw) as HB.
  destruct (n <? base_size wp) eqn:E1.
  - apply Nat.ltb_lt in E1. rewrite (proj2 (N.ltb_lt _ _)) by lia. reflexivity.
  - apply Nat.ltb_ge in E1. rewrite (proj2 (N.ltb_ge _ _)) by lia. cbn [orb].
    set (k := n - base_size wp). unfold base_size in *.
    assert (En : n = k + (36 + 32 * (snd (fst wp) + snd wp))) by lia.
    assert (Em : ((N.of_nat n - 4) mod 32)%N = N.of_nat (k mod 32)).
    { replace (N.of_nat n - 4)%N with (N.of_nat k + N.of_nat (1 + snd (fst wp) + snd wp) * 32)%N by lia.
      rewrite N.mod_add by lia. symmetry. apply (Nat2N.inj_mod k 32). }
    rewrite Em. replace (N.of_nat n - N.of_nat (36 + 32 * (snd (fst wp) + snd wp)))%N with (N.of_nat k) by lia.
    replace (N.of_nat k / 32)%N with (N.of_nat (k / 32)) by (now rewrite Nat2N.inj_div).
    destruct (k mod 32 =? 0) eqn:E2.
    + apply Nat.eqb_eq in E2. rewrite E2. reflexivity.
    + apply Nat.eqb_neq in E2. rewrite (proj2 (N.eqb_neq _ _)) by lia. reflexivity.
Qed.

Lemma firstn_3 : forall (l : list N), 3 <= length l -> firstn 3 l = [nth 0 l 0%N; nth 1 l 0%N; nth 2 l 0%N].
Proof. intros [|a [|b [|c l]]] H; cbn in H; try lia. reflexivity. Qed.

Lemma all_bytes_nth : forall l i, all_bytes l -> (nth i l 0 < 256)%N.
Proof.
  intros l i H. destruct (nth_in_or_default i l 0%N) as [Hin|E]; [|rewrite E; lia].
  unfold all_bytes in H. rewrite Forall_forall in H. apply (H _ Hin).
Qed.

Lemma bad_height_even : forall k, bad_height (2 * k) = (k <=? 1)%N.
Proof.
  intros k. unfold bad_height. destruct (k <=? 1)%N eqn:E.
  - apply N.leb_le in E. apply orb_true_iff. left. apply N.leb_le. lia.
  - apply N.leb_gt in E. apply orb_false_iff. split; [apply N.leb_gt; lia|].
    apply negb_false_iff, N.eqb_eq. replace (2 * k - 2)%N with ((k - 1) * 2)%N by lia. apply N.mod_mul. lia.
Qed.

(** verify, for every input whose hash nibble names a hash function. *)
Theorem verify_spec : forall w wp hf msg sig pk, winternitz w = Some wp -> all_bytes pk ->
  hash_of_id (nth 0 pk 0 mod 16)%N = Some hf ->
  verify msg sig pk w = Ok (ref_verify hf wp msg sig pk).
Proof.
  intros w wp hf msg sig pk Hw Hpk Hhf.
  destruct (wparams_ok w wp Hw) as (Ewp & HP & E1 & E2 & E3 & E4 & E5 & E6 & E7).
  pose proof (base_size_bound w wp Hw) as HB.
  assert (Ewp2 : exists lw l1 l2, wp = (lw, l1, l2)) by (destruct wp as [[? ?] ?]; eauto).
  destruct Ewp2 as (lw & l1 & l2 & Ewp2). subst wp. cbn [fst snd] in *.
  unfold verify, verify_body, ref_verify.
  destruct (length pk =? 67) eqn:EL; cbn [negb andb]; [|reflexivity].
  apply Nat.eqb_eq in EL. rewrite (sig_base_size w _ Hw). cbn [bind].
  set (hh := (nth 1 pk 0 mod 16)%N).
  assert (Hhh : (hh < 16)%N) by (apply N.mod_upper_bound; lia).
  destruct (N.of_nat (base_size (lw, l1, l2)) + 254 * 32 <? N.of_nat (length sig))%N eqn:ES.
  { apply N.ltb_lt in ES. unfold base_size in *. cbn [fst snd] in *.
    assert (F : (length sig =? 36 + 32 * (l1 + l2) + 32 * (2 * N.to_nat hh)) = false) by (apply Nat.eqb_neq; lia).
    rewrite F, andb_false_r. reflexivity. }
  apply N.ltb_ge in ES.
  unfold descr_fromExtendedPK. rewrite EL. cbn [Nat.eqb negb]. unfold descr_getSize.
  rewrite firstn_3 by lia. rewrite fromBytes_arith by (now apply all_bytes_nth). cbn [bind d_sig d_hash d_height].
  change (negb (0 =? 0)%N) with false. cbn iota.
  rewrite (height_from_size w _ _ Hw). set (B := base_size (lw, l1, l2)) in *.
  assert (EB : B = 36 + 32 * (l1 + l2)) by reflexivity. rewrite <- EB. fold hh.
  destruct ((length sig <? B) || negb ((length sig - B) mod 32 =? 0)) eqn:E0.
  { cbn [bind]. assert (F : (length sig =? B + 32 * (2 * N.to_nat hh)) = false).
    { apply Nat.eqb_neq. intros F. apply orb_true_iff in E0. destruct E0 as [E0|E0].
      - apply Nat.ltb_lt in E0. lia.
      - apply negb_true_iff, Nat.eqb_neq in E0. apply E0. rewrite F.
        replace (B + 32 * (2 * N.to_nat hh) - B) with (2 * N.to_nat hh * 32) by lia. apply Nat.mod_mul. lia. }
    rewrite F, andb_false_r. reflexivity. }
  cbn [bind]. apply orb_false_iff in E0. destruct E0 as [E0 E0']. apply Nat.ltb_ge in E0.
  apply negb_false_iff, Nat.eqb_eq in E0'.
  set (k := (length sig - B) / 32).
  assert (Ek : length sig = B + 32 * k). { pose proof (Nat.div_mod (length sig - B) 32). unfold k. lia. }
  assert (Hk : k <= 254). { lia. }
  unfold u8. rewrite N.mod_small by lia.
  destruct ((N.of_nat k =? 0)%N || negb (2 * hh =? N.of_nat k)%N) eqn:E8.
  { destruct ((4 <=? 2 * N.to_nat hh) && (length sig =? B + 32 * (2 * N.to_nat hh))) eqn:E9; auto.
    exfalso. apply andb_true_iff in E9. destruct E9 as [E9 E10]. apply Nat.leb_le in E9. apply Nat.eqb_eq in E10.
    apply orb_true_iff in E8. destruct E8 as [E8|E8].
    - apply N.eqb_eq in E8. lia.
    - apply negb_true_iff, N.eqb_neq in E8. lia. }
  apply orb_false_iff in E8. destruct E8 as [E8 E9]. apply N.eqb_neq in E8. apply negb_false_iff, N.eqb_eq in E9.
  rewrite <- E9. rewrite bad_height_even.
  destruct (hh <=? 1)%N eqn:E10.
  { apply N.leb_le in E10. rewrite (proj2 (Nat.leb_gt 4 (2 * N.to_nat hh))) by lia. reflexivity. }
  apply N.leb_gt in E10. rewrite (proj2 (Nat.leb_le 4 (2 * N.to_nat hh))) by lia.
  rewrite (proj2 (Nat.eqb_eq (length sig) _)) by lia. cbn [andb].
  assert (EH : N.to_nat (2 * hh) = 2 * N.to_nat hh) by lia. rewrite EH. set (H := 2 * N.to_nat hh) in *.
  unfold xmss_set_params.
  assert (EG : ((H <=? 2) || (2 <? 2) || negb ((H - 2) mod 2 =? 0))%bool = false).
  { rewrite (proj2 (Nat.leb_gt H 2)) by lia. change (2 <? 2) with false. cbn [orb].
    apply negb_false_iff, Nat.eqb_eq. replace (H - 2) with ((N.to_nat hh - 1) * 2) by (unfold H; lia). apply Nat.mod_mul. lia. }
  rewrite EG, Ewp. cbn [bind x_wots]. unfold with_hash. rewrite Hhf.
  rewrite Verifysig_spec by (auto; unfold H; lia). cbv zeta.
  rewrite E1, E2, E7. unfold w_keysize. rewrite E7.
  unfold slice. rewrite skipn_add. change (3 + 32) with 35. change (skipn 0 sig) with sig. rewrite skipn_add. change (3 + 0) with 3.
  rewrite !cells_chunks. replace ((l1 + l2) * 32) with (32 * (l1 + l2)) by lia. rewrite <- EB.
  unfold recovered_root. rewrite (digits_of_msg w _ _ Hw) by apply keyed_length. cbn [fst snd].
  reflexivity.
Qed.

(** Undefined behaviour for the other hash ids. *)
Theorem verify_bad_hash : forall w wp msg sig pk, winternitz w = Some wp -> all_bytes pk -> length pk = 67 ->
  hash_of_id (nth 0 pk 0 mod 16)%N = None ->
  let h := (2 * N.to_nat (nth 1 pk 0 mod 16)%N) in
  4 <= h -> length sig = base_size wp + 32 * h ->
  verify msg sig pk w = UB.
Proof.
  intros w wp msg sig pk Hw Hpk EL Hhf h Hh Hs.
  destruct (wparams_ok w wp Hw) as (Ewp & HP & E1 & E2 & E3 & E4 & E5 & E6 & E7).
  pose proof (base_size_bound w wp Hw) as HB. unfold h in *. clear h. set (hh := (nth 1 pk 0 mod 16)%N) in *.
  assert (Hhh : (hh < 16)%N) by (apply N.mod_upper_bound; lia).
  unfold verify, verify_body. rewrite EL. cbn [Nat.eqb negb]. rewrite (sig_base_size w _ Hw). cbn [bind].
  rewrite (proj2 (N.ltb_ge _ _)) by lia.
  unfold descr_fromExtendedPK. rewrite EL. cbn [Nat.eqb negb]. unfold descr_getSize.
  rewrite firstn_3 by lia. rewrite fromBytes_arith by (now apply all_bytes_nth). cbn [bind d_sig d_hash d_height].
  change (negb (0 =? 0)%N) with false. cbn iota.
  rewrite (height_from_size w _ _ Hw). fold hh.
  assert (Ed : length sig - base_size wp = 2 * N.to_nat hh * 32) by lia. rewrite Ed, Nat.mod_mul, Nat.div_mul by lia.
  rewrite (proj2 (Nat.ltb_ge _ _)) by lia. cbn [orb negb Nat.eqb bind].
  unfold u8. rewrite N.mod_small by lia.
  rewrite (proj2 (N.eqb_neq (N.of_nat (2 * N.to_nat hh)) 0)) by lia.
  rewrite (proj2 (N.eqb_eq (2 * hh) (N.of_nat (2 * N.to_nat hh)))) by lia. cbn [orb negb].
  replace (N.of_nat (2 * N.to_nat hh)) with (2 * hh)%N by lia. rewrite bad_height_even.
  rewrite (proj2 (N.leb_gt _ _)) by lia.
  assert (EG : ((N.to_nat (2 * hh) <=? 2) || (2 <? 2) || negb ((N.to_nat (2 * hh) - 2) mod 2 =? 0))%bool = false).
  { rewrite (proj2 (Nat.leb_gt (N.to_nat (2 * hh)) 2)) by lia. change (2 <? 2) with false. cbn [orb].
    apply negb_false_iff, Nat.eqb_eq. replace (N.to_nat (2 * hh) - 2) with ((N.to_nat hh - 1) * 2) by lia. apply Nat.mod_mul. lia. }
  unfold xmss_set_params. rewrite EG, Ewp. cbn [bind]. unfold with_hash. now rewrite Hhf.
Qed.

(** ** Signatures of keys verify *)
Section Obj.
  Variables (c : key_cfg) (wp : nat * nat * nat).
  Hypothesis HC : cfg_ok c wp.

  Lemma hash_id_small : forall id hf, hash_of_id id = Some hf -> (id < 3)%N.
  Proof.
    intros id hf E. destruct (N.lt_ge_cases id 3) as [|Hg]; auto. exfalso.
    unfold hash_of_id in E. destruct id as [|[[|[]|]|[]|]]; try discriminate; lia.
  Qed.

  Lemma c_sig_length : forall i msg, length (c_sig c wp i msg) = base_size wp + 32 * c_height c.
  Proof.
    intros. rewrite <- cfg_sig by auto. destruct (key_lengths (c_seed c)) as (L1 & L2 & L3).
    destruct (wparams_ok _ _ (co_w _ _ HC)) as (_ & _ & _ & _ & _ & _ & _ & _ & E7).
    rewrite (signature_length (c_hf c) _ _ _ _ (c_params c)) by (first [exact (cfg_wots c wp HC) | auto using cfg_root_len]).
    unfold w_keysize, base_size. change (x_wots (c_params c)) with (wparams (c_w c)). rewrite E7. lia.
  Qed.

  Lemma c_pk_length : forall i, length (c_pk c wp i) = 67.
  Proof.
    intros. rewrite getPK_shape by auto. rewrite !app_length. rewrite (cfg_root_len c wp HC).
    destruct (key_lengths (c_seed c)) as (_ & _ & ->). rewrite getBytes_arith. reflexivity.
  Qed.

  Lemma key_pub_bytes : all_bytes (key_pub (c_seed c)).
  Proof.
    unfold key_pub, key_stream. pose proof (shake256_bytes 96 (c_seed c)) as B. unfold all_bytes in *.
    apply Forall_forall. intros x Hx. rewrite Forall_forall in B. apply B.
    assert (In x (skipn 64 (shake256 96 (c_seed c)))).
    { rewrite <- (firstn_skipn 32). apply in_or_app. now left. }
    rewrite <- (firstn_skipn 64). apply in_or_app. now right.
  Qed.
  Lemma root_bytes : all_bytes (ref_root (c_hf c) wp (c_height c) (c_seed c)).
  Proof.
    unfold ref_root. pose proof (co_h _ _ HC). destruct (c_height c); [lia|]. cbn [node]. apply keyed_bytes.
  Qed.
  Lemma c_pk_bytes : forall i, all_bytes (c_pk c wp i).
  Proof.
    intros. rewrite getPK_shape by auto. apply Forall_app. split; [apply getBytes_bytes|].
    apply Forall_app. split; [apply root_bytes|apply key_pub_bytes].
  Qed.

  Theorem c_sig_verifies : forall i j msg, i < 2 ^ c_height c ->
    verify msg (c_sig c wp i msg) (c_pk c wp j) (c_w c) = Ok true.
  Proof.
    intros i j msg Hi. pose proof (co_h _ _ HC) as Hb. pose proof (hash_id_small _ _ (co_hash _ _ HC)) as Hs.
    pose proof (co_even _ _ HC) as He. apply Nat.even_spec in He. destruct He as [y Ey].
    assert (D0 : nth 0 (c_pk c wp j) 0%N = c_hash c).
    { rewrite getPK_shape, getBytes_arith by auto. cbn [app nth d_sig d_hash]. rewrite N.mod_small with (a := c_hash c); [reflexivity|lia]. }
    assert (D1 : (nth 1 (c_pk c wp j) 0 mod 16)%N = N.of_nat y).
    { rewrite getPK_shape, getBytes_arith by auto. cbn [app nth d_fmt d_height].
      rewrite Ey. replace (N.of_nat (2 * y)) with (N.of_nat y * 2)%N by lia. rewrite N.div_mul by lia.
      symmetry. apply (N.mod_unique _ _ (c_fmt c mod 16)); [lia|].
      rewrite (N.mod_small (N.of_nat y)) by lia. reflexivity. }
    assert (Hy : 2 * N.to_nat (N.of_nat y) = c_height c) by lia.
    destruct (wparams_ok _ _ (co_w _ _ HC)) as (Ewp & HP & E1 & E2 & E3 & E4 & E5 & E6 & E7).
    destruct (key_lengths (c_seed c)) as (L1 & L2 & L3).
    pose proof (cfg_root_len c wp HC) as LR.
    rewrite (verify_spec (c_w c) wp (c_hf c)).
    2: apply (co_w _ _ HC). 2: apply c_pk_bytes.
    2:{ rewrite D0. rewrite N.mod_small by lia. apply (co_hash _ _ HC). }
    f_equal. unfold ref_verify. destruct wp as [[lw l1] l2] eqn:Ew2. rewrite <- Ew2 in *.
    rewrite D1, Hy, c_pk_length, c_sig_length. cbn [Nat.eqb andb].
    rewrite (proj2 (Nat.leb_le 4 _)) by lia. unfold base_size. rewrite Ew2. cbn [fst snd]. rewrite Nat.eqb_refl. cbn [andb].
    (* reuse Verifysig_signature through Verifysig_spec *)
    pose proof (Verifysig_signature (c_hf c) _ _ _ _ (c_params c) L1 L2 L3 LR (cfg_wots c wp HC) (c_height c) i msg ltac:(lia) Hi
       (cfg_root c wp HC)) as V.
    rewrite (cfg_sig c wp HC) in V. rewrite Verifysig_spec in V by (auto; lia). cbv zeta in V.
    change (x_wots (c_params c)) with (wparams (c_w c)) in V.
    rewrite E1, E2, E7 in V. unfold w_keysize in V. rewrite E7 in V.
    rewrite slice_app_l in V by auto. rewrite slice_app_r in V by lia. rewrite LR, Nat.sub_diag, slice_all in V by auto.
    unfold recovered_root in *. rewrite (digits_of_msg _ _ _ (co_w _ _ HC)) in V by apply keyed_length.
    rewrite <- !cells_chunks in V. rewrite Ew2 in *. cbn [fst snd] in V.
    replace ((l1 + l2) * 32) with (32 * (l1 + l2)) in V by lia. unfold slice in V.
    change (skipn 0 (c_sig c (lw, l1, l2) i msg)) with (c_sig c (lw, l1, l2) i msg) in V.
    assert (R1 : firstn 32 (skipn 3 (c_pk c (lw, l1, l2) j)) = ref_root (c_hf c) (lw, l1, l2) (c_height c) (c_seed c)).
    { rewrite getPK_shape by auto. rewrite (skipn_app_exact _ (descr_getBytes _)) by reflexivity.
      rewrite <- LR at 1. rewrite firstn_app, Nat.sub_diag, firstn_O, app_nil_r. apply firstn_all. }
    assert (R2 : firstn 32 (skipn 35 (c_pk c (lw, l1, l2) j)) = key_pub (c_seed c)).
    { rewrite getPK_shape by auto. rewrite app_assoc. rewrite skipn_app_exact.
      - rewrite <- L3. apply firstn_all.
      - rewrite app_length, LR, getBytes_arith. reflexivity. }
    rewrite R1, R2. apply Ok_inj in V. apply bytes_eqb_eq in V. rewrite V.
    destruct (list_eq_dec N.eq_dec _ _); congruence.
  Qed.
End Obj.
