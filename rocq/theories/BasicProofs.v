(** xmss_Verifysig, xmss_Signmsg and xmss_Genkeypair against SpecXmss.v. *)
From Coq Require Import List NArith Arith Lia Bool.
From Verif Require Import Base Bytes Keccak KeccakLemmas Sha256 HashAddress Wots XmssCommon AlgsXmss SpecXmss XmssRefine WotsProofs TreeProofs.
Import ListNotations.
Open Scope nat_scope.

Lemma keyed_length : forall hf t k m, length (keyed hf t k m) = 32.
Proof. intros. unfold keyed. destruct hf; [apply sha256_length | apply shake128_length | apply shake256_length]. Qed.
Lemma keyed_bytes : forall hf t k m, all_bytes (keyed hf t k m).
Proof. intros. unfold keyed. destruct hf; [apply sha256_bytes | apply shake128_bytes | apply shake256_bytes]. Qed.

Lemma chain_length : forall hf ps o c st n x, length x = 32 -> length (chain hf ps o c st n x) = 32.
Proof. destruct n; intros; cbn [chain]; auto. apply keyed_length. Qed.

Lemma rand_hash_length : forall hf ps t k h i l r, length (rand_hash hf ps t k h i l r) = 32.
Proof. intros. apply keyed_length. Qed.

Lemma l_level_cells : forall hf ps o h l i, Forall (fun c => length c = 32) l ->
  Forall (fun c => length c = 32) (l_level hf ps o h i l).
Proof.
  intros hf ps o h. fix IH 1. intros [|x [|y t]] i H; cbn [l_level]; auto.
  constructor. { apply rand_hash_length. } apply IH. inversion H; subst. inversion H3; auto.
Qed.

Lemma l_root_length : forall hf ps fuel o h l, l <> [] -> length l <= fuel ->
  Forall (fun c => length c = 32) l -> length (l_root hf ps fuel o h l) = 32.
Proof.
  induction fuel; intros o h l Hne Hle HF.
  - destruct l; [congruence | cbn in Hle; lia].
  - destruct l as [|x [|y t]]; [congruence| |].
    + cbn. now inversion HF.
    + cbn [l_root]. apply IHfuel.
      * cbn [l_level]. discriminate.
      * rewrite l_level_length. cbn [length] in *.
        pose proof (Nat.div_mod (S (S (length t)) + 1) 2). lia.
      * now apply l_level_cells.
Qed.

Lemma compress_length : forall hf ps o pk, pk <> [] -> Forall (fun c => length c = 32) pk ->
  length (compress hf ps o pk) = 32.
Proof. intros. apply l_root_length; auto. Qed.

Lemma ots_pk_cells : forall hf w len ss ps o, Forall (fun c => length c = 32) (ots_pk hf w len ss ps o).
Proof.
  intros. unfold ots_pk. apply Forall_forall. intros c Hc. apply in_map_iff in Hc.
  destruct Hc as (k & <- & _). apply chain_length. apply keyed_length.
Qed.

Lemma node_length : forall hf w len ss ps j i, 1 <= len -> length (node hf w len ss ps j i) = 32.
Proof.
  intros hf w len ss ps j i Hl. destruct j; cbn [node].
  - unfold leaf. apply compress_length; [|apply ots_pk_cells].
    unfold ots_pk. destruct len; [lia|]. discriminate.
  - apply rand_hash_length.
Qed.

Lemma ots_sig_cells : forall hf len ss ps o ds c, In c (ots_sig hf len ss ps o ds) -> length c = 32.
Proof.
  intros hf len ss ps o ds c Hc. unfold ots_sig in Hc. apply in_map_iff in Hc.
  destruct Hc as (k & <- & _). apply chain_length. apply keyed_length.
Qed.
Lemma auth_path_cells : forall hf w len ss ps h s c, 1 <= len -> In c (auth_path hf w len ss ps h s) -> length c = 32.
Proof.
  intros hf w len ss ps h s c Hl Hc. unfold auth_path in Hc. apply in_map_iff in Hc.
  destruct Hc as (k & <- & _). now apply node_length.
Qed.
Lemma auth_path_length : forall hf w len ss ps h s, length (auth_path hf w len ss ps h s) = h.
Proof. intros. unfold auth_path. now rewrite map_length, seq_length. Qed.
Lemma concat_cells_length : forall (l : list (list N)) n, (forall c, In c l -> length c = n) -> length (concat l) = length l * n.
Proof.
  induction l; intros n H; auto. cbn [concat length]. rewrite app_length, (IHl n), (H a).
  - lia. - now left. - intros; apply H; now right.
Qed.

(* slices *)
Lemma skipn_add : forall A m n (l : list A), skipn m (skipn n l) = skipn (n + m) l.
Proof. induction n; intros l; [reflexivity|]. destruct l; [now rewrite !skipn_nil|]. cbn [skipn plus]. apply IHn. Qed.
Lemma slice_app_l : forall a b n, n = length a -> slice 0 n (a ++ b) = a.
Proof. intros a b n ->. unfold slice. cbn [skipn]. rewrite firstn_app, Nat.sub_diag, firstn_O, app_nil_r. apply firstn_all. Qed.
Lemma slice_app_r : forall (a b : list N) off n, length a <= off -> slice off n (a ++ b) = slice (off - length a) n b.
Proof. intros. unfold slice. rewrite skipn_app, skipn_all2 by lia. reflexivity. Qed.
Lemma skipn_app_exact : forall A (a b : list A) n, n = length a -> skipn n (a ++ b) = b.
Proof. intros A a b n ->. rewrite skipn_app, skipn_all, Nat.sub_diag. reflexivity. Qed.
Lemma slice_all : forall a n, n = length a -> slice 0 n a = a.
Proof. intros a n ->. unfold slice. cbn [skipn]. apply firstn_all. Qed.

Lemma u32_of_nat_to_nat : forall n, N.of_nat (N.to_nat n) = n.
Proof. apply N2Nat.id. Qed.

Lemma ots_adrs_init : forall o, ots_adrs (setOTSADRS (setType zero_adrs 0) (N.of_nat o)) o.
Proof. intros. repeat split; try reflexivity. cbn. apply u32_u32. Qed.
Lemma lt_adrs_init : forall o, lt_adrs (setLtreeADRS (setType zero_adrs 1) (N.of_nat o)) o.
Proof. intros. repeat split; try reflexivity. cbn. apply u32_u32. Qed.
Lemma nd_adrs_init : nd_adrs (setType zero_adrs 2).
Proof. repeat split. Qed.

(** What xmss_Verifysig computes on any signature of the right size. *)
Theorem Verifysig_spec : forall hf wp msg sig pk h,
  wots_ok wp -> 1 <= h -> 
  xmss_Verifysig hf wp msg sig pk h =
  let root := slice 0 32 pk in
  let ps := slice 32 32 pk in
  Ok (bytes_eqb (recovered_root hf (N.to_nat (w_w wp)) (digits_of wp) ps root
        (N.to_nat (from_be (slice 0 4 sig))) (slice 4 32 sig) msg
        (chunks (w_len wp) 32 (skipn 36 sig)) (chunks h 32 (skipn (36 + w_keysize wp) sig))) root).
Proof.
  intros hf wp msg sig pk h HP Hh. cbv zeta. unfold xmss_Verifysig.
  destruct (wots_ok_facts wp HP) as (Hw & _ & _ & Hlen & _).
  set (ps := slice 32 32 pk). set (root := slice 0 32 pk). set (R := slice 4 32 sig).
  rewrite <- (N2Nat.id (from_be (slice 0 4 sig))). set (idx := N.to_nat (from_be (slice 0 4 sig))).
  assert (Ed : h_msg hf msg (R ++ root ++ to_byte 32 (N.of_nat idx)) = digest hf R root idx msg).
  { unfold h_msg, digest. now rewrite core_hash_keyed. }
  rewrite Ed. set (dg := digest hf R root idx msg).
  destruct (digits_of_ok wp dg HP) as (E1 & L1 & F1). { apply keyed_length. }
  destruct (wots_pkFromSig_spec hf wp dg (chunks (w_len wp) 32 (skipn 36 sig)) ps
     (setOTSADRS (setType zero_adrs 0) (N.of_nat idx)) idx (digits_of wp dg)) as (a1 & E2 & _); auto.
  { apply ots_adrs_init. } { apply chunks_length. }
  rewrite E2. cbn [bind].
  destruct (l_tree_spec hf wp ps (pk_of_sig hf (N.to_nat (w_w wp)) ps idx (digits_of wp dg) (chunks (w_len wp) 32 (skipn 36 sig)))
     (setLtreeADRS (setType zero_adrs 1) (N.of_nat idx)) idx) as (a2 & E3 & _); auto.
  { apply lt_adrs_init. } { rewrite pk_of_sig_length. apply chunks_length. }
  rewrite E3. cbn [bind].
  rewrite validate_authpath_spec.
  - cbn [bind]. now rewrite Nat2N.id.
  - apply nd_adrs_init.
  - apply chunks_length.
  - exact Hh.
Qed.

Lemma bytes_eqb_refl : forall a, bytes_eqb a a = true.
Proof. intros. unfold bytes_eqb. now destruct (list_eq_dec N.eq_dec a a). Qed.
Lemma bytes_eqb_eq : forall a b, bytes_eqb a b = true <-> a = b.
Proof. intros. unfold bytes_eqb. destruct (list_eq_dec N.eq_dec a b); split; congruence. Qed.

(** Secret key with index [i]. *)
Definition sk_at (i : N) (ssd prf ps root : list N) : list N := to_byte 4 i ++ ssd ++ prf ++ ps ++ root.

Section Sign.
  Variables (hf : hashfn) (ssd prf ps root : list N) (p : xmss_params).
  Hypothesis (Ls : length ssd = 32) (Lp : length prf = 32) (Lq : length ps = 32) (Lr : length root = 32).
  Hypothesis HP : wots_ok (x_wots p).
  Let w := N.to_nat (w_w (x_wots p)).
  Let len := w_len (x_wots p).

  Lemma sk_at_length : forall i, length (sk_at i ssd prf ps root) = 132.
  Proof. intros. unfold sk_at. rewrite !app_length, to_byte_length. lia. Qed.
  Lemma sk_at_slices : forall i,
    slice 0 4 (sk_at i ssd prf ps root) = to_byte 4 i /\
    slice 4 32 (sk_at i ssd prf ps root) = ssd /\
    slice 36 32 (sk_at i ssd prf ps root) = prf /\
    slice 68 32 (sk_at i ssd prf ps root) = ps /\
    slice 100 32 (sk_at i ssd prf ps root) = root /\
    skipn 4 (sk_at i ssd prf ps root) = ssd ++ prf ++ ps ++ root.
  Proof.
    intros i. unfold sk_at.
    assert (L4 : length (to_byte 4 i) = 4) by apply to_byte_length.
    split; [now apply slice_app_l|].
    split. { rewrite slice_app_r by lia. rewrite L4. now apply slice_app_l. }
    split. { rewrite slice_app_r by lia. rewrite L4. rewrite slice_app_r by lia. rewrite Ls. now apply slice_app_l. }
    split. { rewrite slice_app_r by lia. rewrite L4. rewrite slice_app_r by lia. rewrite Ls.
             rewrite slice_app_r by lia. rewrite Lp. now apply slice_app_l. }
    split. { rewrite slice_app_r by lia. rewrite L4. rewrite slice_app_r by lia. rewrite Ls.
             rewrite slice_app_r by lia. rewrite Lp. rewrite slice_app_r by lia. rewrite Lq. now apply slice_all. }
    now apply skipn_app_exact.
  Qed.

  Lemma from_be_to_byte4 : forall i, (i < 2 ^ 32)%N -> from_be (to_byte 4 i) = i.
  Proof. intros. rewrite from_be_to_byte. apply N.mod_small. exact H. Qed.

  Theorem Signmsg_spec : forall junk idx msg, 1 <= x_h p < 26 -> idx < 2 ^ x_h p ->
    xmss_Signmsg hf junk p (sk_at (N.of_nat idx) ssd prf ps root) msg =
    Ok (sk_at (N.of_nat idx + 1) ssd prf ps root,
        signature hf w len (x_h p) (digits_of (x_wots p)) ssd prf ps root idx msg).
  Proof.
    intros junk idx msg Hh Hi. unfold xmss_Signmsg.
    destruct (wots_ok_facts _ HP) as (Hw & _ & _ & Hlen & _).
    destruct (sk_at_slices (N.of_nat idx)) as (E0 & E1 & E2 & E3 & E4 & E5).
    rewrite E0, E1, E2, E3, E4, E5.
    assert (B : 2 ^ x_h p <= 2 ^ 26) by (apply Nat.pow_le_mono_r; lia).
    assert (Bi : (N.of_nat idx < 2 ^ 26)%N).
    { apply N.lt_le_trans with (N.of_nat (2 ^ x_h p)); [lia|].
      replace (2 ^ 26)%N with (N.of_nat (2 ^ 26)); [lia|]. now rewrite Nat2N.inj_pow. }
    rewrite from_be_to_byte4 by (change (2 ^ 32)%N with 4294967296%N; change (2 ^ 26)%N with 67108864%N in Bi; lia).
    assert (ER : HashAddress.prf hf (to_byte 32 (N.of_nat idx)) prf = randomizer hf prf idx) by apply prf_PRF.
    rewrite ER. set (R := randomizer hf prf idx).
    assert (Ed : h_msg hf msg (R ++ root ++ to_byte 32 (N.of_nat idx)) = digest hf R root idx msg).
    { unfold h_msg, digest. now rewrite core_hash_keyed. }
    rewrite Ed. set (dg := digest hf R root idx msg).
    destruct (digits_of_ok (x_wots p) dg HP) as (D1 & D2 & D3). { apply keyed_length. }
    destruct (get_seed_spec hf ssd _ idx (ots_adrs_init idx)) as (a1 & G1 & A1). rewrite G1.
    destruct (wots_sign_spec hf (x_wots p) dg (ots_seed hf ssd idx) ps a1 idx ssd (digits_of (x_wots p) dg) A1 eq_refl D1 D2 D3)
      as (a2 & G2 & A2).
    rewrite G2. cbn [bind].
    rewrite (compute_authpath_spec hf ssd ps p Hw Hlen junk).
    - cbn [bind]. f_equal. f_equal.
      { unfold sk_at. now rewrite to_byte_4_u32. }
      now rewrite Nat2N.id.
    - apply A2.
    - exact Hh.
    - now rewrite Nat2N.id.
  Qed.

  Lemma signature_length : forall h ds idx msg,
    length (signature hf w len h ds ssd prf ps root idx msg) = 36 + w_keysize (x_wots p) + 32 * h.
  Proof.
    intros. unfold signature.
    destruct (wots_ok_facts _ HP) as (Hw & _ & _ & Hlen & _).
    rewrite !app_length, to_byte_length. unfold randomizer, PRF. rewrite keyed_length.
    rewrite (concat_cells_length _ 32) by (intros; eapply ots_sig_cells; eauto).
    rewrite (concat_cells_length _ 32) by (intros; eapply auth_path_cells; eauto).
    rewrite ots_sig_length, auth_path_length. unfold w_keysize. fold len. lia.
  Qed.

  (** Verification of the signature of the specification succeeds when the root
      is the root of the tree. *)
  Theorem Verifysig_signature : forall h idx msg, 1 <= h <= 32 -> idx < 2 ^ h ->
    root = tnode hf ssd ps p h 0 ->
    xmss_Verifysig hf (x_wots p) msg
      (signature hf w len h (digits_of (x_wots p)) ssd prf ps root idx msg) (root ++ ps) h = Ok true.
  Proof.
    intros h idx msg Hh Hi Hroot.
    destruct (wots_ok_facts _ HP) as (Hw & _ & _ & Hlen & _).
    rewrite Verifysig_spec by (auto; lia). cbv zeta.
    rewrite slice_app_l by auto. rewrite slice_app_r by lia. rewrite Lr, slice_all by auto.
    unfold signature. set (R := randomizer hf prf idx). set (dg := digest hf R root idx msg).
    set (OS := ots_sig hf len ssd ps idx (digits_of (x_wots p) dg)).
    set (AP := auth_path hf w len ssd ps h idx).
    assert (L4 : length (to_byte 4 (N.of_nat idx)) = 4) by apply to_byte_length.
    assert (LR : length R = 32) by apply keyed_length.
    assert (LO : length (concat OS) = len * 32).
    { unfold OS. rewrite (concat_cells_length _ 32) by (intros; eapply ots_sig_cells; eauto). now rewrite ots_sig_length. }
    assert (B : 2 ^ h <= 2 ^ 32) by (apply Nat.pow_le_mono_r; lia).
    assert (Bi : (N.of_nat idx < 2 ^ 32)%N).
    { apply N.lt_le_trans with (N.of_nat (2 ^ h)); [lia|].
      replace (2 ^ 32)%N with (N.of_nat (2 ^ 32)); [lia|]. now rewrite Nat2N.inj_pow. }
    rewrite slice_app_l by auto. rewrite from_be_to_byte4, Nat2N.id by auto.
    rewrite slice_app_r by lia. rewrite L4. cbn [Nat.sub]. rewrite slice_app_l by auto.
    assert (S36 : skipn 36 (to_byte 4 (N.of_nat idx) ++ R ++ concat OS ++ concat AP) = concat OS ++ concat AP).
    { rewrite app_assoc. apply skipn_app_exact. rewrite app_length. lia. }
    rewrite S36.
    assert (SK : skipn (36 + w_keysize (x_wots p)) (to_byte 4 (N.of_nat idx) ++ R ++ concat OS ++ concat AP) = concat AP).
    { rewrite !app_assoc. apply skipn_app_exact. rewrite !app_length. unfold w_keysize. fold len. lia. }
    rewrite SK.
    fold len. rewrite chunks_app by exact LO.
    assert (EO : chunks len 32 (concat OS) = OS).
    { replace len with (length OS) by apply ots_sig_length. apply chunks_concat. intros. eapply ots_sig_cells; eauto. }
    assert (EA : chunks h 32 (concat AP) = AP).
    { replace h with (length AP) at 1 by apply auth_path_length. apply chunks_concat. intros. eapply auth_path_cells; eauto. }
    rewrite EO, EA. f_equal. apply bytes_eqb_eq.
    unfold recovered_root. fold dg.
    destruct (digits_of_ok (x_wots p) dg HP) as (D1 & D2 & D3). { apply keyed_length. }
    unfold OS, w, len. rewrite pk_of_ots_sig by auto.
    unfold AP, w, len. rewrite Hroot. fold (leaf hf (N.to_nat (w_w (x_wots p))) (w_len (x_wots p)) ssd ps idx).
    apply (climb_auth_path hf ssd ps p h idx Hi).
  Qed.
End Sign.

(** xmss_Genkeypair *)
Theorem Genkeypair_spec : forall hf junk p seed, wots_ok (x_wots p) ->
  let rb := shake256 96 (firstn 48 seed) in
  let ssd := slice 0 32 rb in let prf := slice 32 32 rb in let ps := slice 64 32 rb in
  xmss_Genkeypair hf junk p seed = Ok (sk_at 0 ssd prf ps (tnode hf ssd ps p (x_h p) 0)).
Proof.
  intros hf junk p seed HP rb ssd prf ps. unfold xmss_Genkeypair. fold rb. fold ssd. fold ps.
  destruct (wots_ok_facts _ HP) as (Hw & _ & _ & Hlen & _).
  rewrite treehash_spec by (auto; repeat split). cbn [bind]. f_equal. unfold sk_at.
  change (to_byte 4 0) with [0;0;0;0]%N.
  assert (Erb : rb = ssd ++ prf ++ ps).
  { unfold ssd, prf, ps, slice. cbn [skipn].
    assert (LL : length rb = 96) by apply shake256_length.
    rewrite <- (firstn_skipn 32 rb) at 1. f_equal.
    rewrite <- (firstn_skipn 32 (skipn 32 rb)) at 1. f_equal.
    rewrite skipn_add. cbn [plus]. symmetry. apply firstn_all2. rewrite skipn_length. lia. }
  rewrite Erb, <- !app_assoc. reflexivity.
Qed.
