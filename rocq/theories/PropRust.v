(** The Rust port's XMSSFast and verify: C62-C65. *)
(** Concrete cases for the hypotheses below: CasesXmss.v and CasesMisc.v. *)
From Coq Require Import List NArith Arith Lia Bool.
From Verif Require Import Base Bytes Keccak KeccakLemmas Sha256 HashAddress Wots XmssCommon AlgsXmss AlgsXmssFast Descriptor
  SpecXmss SpecApi XmssObj XmssRefine WotsProofs TreeProofs BasicProofs BdsProofs FastProofs DescrProofs VerifyProofs
  RsBase RsShake RsHash RsWots RsAlgs RsFast SpecRust RsObj RsSimTree RsSimAlgs RsSimFast RsObjProofs RsVerifyProofs PropObj PropKeys PropCtor.
From Verif Require Export SpecTerms3.
Import ListNotations.
Open Scope nat_scope.


Inductive rs_ends {A} : rs A -> Prop -> Prop -> Prop -> Prop -> Prop :=
| rends_ok : forall a (P Q C R : Prop), P -> ~ Q -> ~ C -> ~ R -> rs_ends (ROk a) P Q C R
| rends_arg : forall (P Q C R : Prop), ~ P -> Q -> ~ C -> ~ R -> rs_ends (RErr RInvalidArgument) P Q C R
| rends_conv : forall (P Q C R : Prop), ~ P -> ~ Q -> C -> ~ R -> rs_ends (RErr RFailedConversion) P Q C R
| rends_panic : forall (P Q C R : Prop), ~ P -> ~ Q -> ~ C -> R -> rs_ends RPanic P Q C R.
Lemma rs_ends_outcome : forall A (r : rs A) P Q C R, rs_ends r P Q C R -> rs_outcome r P Q C R.
Proof.
  intros A r P Q C R H. destruct H; unfold rs_outcome; repeat split; intros; try tauto; try discriminate; eauto.
  all: try (match goal with H : exists _, _ |- _ => destruct H end; discriminate).
Qed.
Lemma rs_ends_iff : forall A (r : rs A) (P Q C R P' Q' C' R' : Prop), rs_ends r P Q C R ->
  (P <-> P') -> (Q <-> Q') -> (C <-> C') -> (R <-> R') -> rs_ends r P' Q' C' R'.
Proof. intros A r P Q C R P' Q' C' R' H E1 E2 E3 E4. destruct H; constructor; tauto. Qed.

Definition rw_of (w : option rs_w) : rs_w := match w with Some w => w | None => W16 end.
Definition rhash_of (hf : option hashfn) : hashfn := match hf with Some hf => hf | None => SHAKE_128 end.

Lemma rcfg_ok : forall hf w wp height seed, supported (rs_hash_u8 hf) hf (w_of w) wp height seed ->
  cfg_ok (rust_cfg hf w height seed) wp.
Proof. intros hf w wp height seed (H1 & H2 & H3 & H4 & H5). constructor; auto. Qed.
Lemma rw_winternitz : forall w, exists wp, winternitz (w_of w) = Some wp.
Proof. intros []; eexists; reflexivity. Qed.

Lemma ROk_inj : forall A (a b : A), ROk a = ROk b -> a = b.
Proof. congruence. Qed.

Lemma rs_init_ends : forall hf height seed sk w, length sk = 132 -> length seed = 48 ->
  rs_ends (rs_initialize_tree (mkRBase hf height sk seed) w)
    (tree_height height /\ (height <= 30)%N) (~ tree_height height) False (tree_height height /\ (30 < height)%N).
Proof.
  intros hf height seed sk w Lk Ls.
  destruct (bad_height height) eqn:Eb.
  { unfold rs_initialize_tree. cbn [ro_height]. change (rs_bad_height height) with (bad_height height). rewrite Eb.
    assert (~ tree_height height) by (rewrite <- bad_height_iff, Eb; discriminate). constructor; tauto. }
  pose proof (proj1 (bad_height_iff _) Eb) as HT. destruct (rw_winternitz (rw_of w)) as (wp & Hw).
  assert (Ew : rs_initialize_tree (mkRBase hf height sk seed) w = rs_initialize_tree (mkRBase hf height sk seed) (Some (rw_of w)))
    by (destruct w; reflexivity). rewrite Ew. clear Ew. set (w0 := rw_of w) in *. clearbody w0. clear w.
  destruct (N.lt_ge_cases 30 height) as [Hg|Hle].
  - unfold rs_initialize_tree. cbn [ro_height ro_hash ro_sk ro_seed]. change (rs_bad_height height) with (bad_height height). rewrite Eb.
    destruct HT as [H4 He]. apply N.even_spec in He. destruct He as [y Ey].
    destruct (rs_params_even w0 wp (N.to_nat y) Hw ltac:(lia)) as (p & Ep & Epw).
    assert (Ehp : x_h p = 2 * N.to_nat y).
    { unfold rs_xmss_params in Ep. destruct ((2 * N.to_nat y <=? 2) || (2 <? 2) || negb ((2 * N.to_nat y - 2) mod 2 =? 0)); [discriminate|].
      injection Ep as <-. reflexivity. }
    replace (N.to_nat height) with (2 * N.to_nat y) by lia. rewrite Ep. cbn [rbind].
    assert (R : rs_fast_gen_keypair hf p (repeat 0%N 64) sk (rs_fresh_bds (2 * N.to_nat y) 2) seed = RPanic).
    { remember (shake256 96 (firstn 48 seed)) as rb eqn:Erb.
      rewrite (rs_fast_gen_keypair_split hf p (repeat 0%N 64) sk (rs_fresh_bds (2 * N.to_nat y) 2) seed rb Erb (repeat_length _ _) Lk Ls).
      2:{ rewrite Ehp, <- Nat.negb_even, Nat.even_mul. reflexivity. }
      unfold rs_fast_keygen_back, rs_treehash_setup. rewrite (proj2 (Nat.leb_le 32 (x_h p))) by lia. reflexivity. }
    rewrite R. cbn [rbind]. assert (tree_height height) by (split; [auto|apply N.even_spec; exists y; exact Ey]). constructor; tauto || lia.
  - destruct HT as [H4 He]. pose proof He as He'. apply N.even_spec in He. destruct He as [y Ey].
    assert (HC : cfg_ok (rust_cfg hf w0 (N.to_nat height) seed) wp).
    { constructor; cbn [rust_cfg c_hash c_hf c_w c_height c_seed]; auto using hash_id_u8; try lia.
      apply Nat.even_spec. exists (N.to_nat y). lia. }
    destruct (rust_init hf w0 wp _ seed HC sk Lk) as (o & E & _). rewrite N2Nat.id in E. rewrite E.
    assert (tree_height height) by (split; auto). constructor; try tauto; try lia.
Qed.

(** ** C62: constructors *)

(** XMSSFast::new(seed, height, hash_function, addr_format, wots_param). *)
Theorem C62_rust_fast_constructor : forall seed height hf w,
  rs_outcome (rs_fast_new seed height hf w)
    (length seed = 48 /\ tree_height height /\ (height <= 30)%N)
    (length seed <> 48 \/ (254 < height)%N \/ ~ tree_height height)
    False
    (length seed = 48 /\ tree_height height /\ (30 < height <= 254)%N).
Proof.
  intros seed height hf w. apply rs_ends_outcome. unfold rs_fast_new.
  destruct (length seed =? 48) eqn:El; cbn [negb].
  2:{ apply Nat.eqb_neq in El. constructor; tauto. }
  pose proof El as El'. apply Nat.eqb_eq in El. unfold rs_base_new. rewrite El'. cbn [negb].
  destruct (254 <? height)%N eqn:Eg; cbn [rbind].
  { apply N.ltb_lt in Eg. constructor; tauto || lia. }
  apply N.ltb_ge in Eg. fold (rhash_of hf).
  apply (rs_ends_iff _ _ _ _ _ _ _ _ _ _ (rs_init_ends (rhash_of hf) height seed (repeat 0%N 132) w (repeat_length _ _) El)); try tauto; try lia.
  - split; [tauto|]. intros [X|[X|X]]; [congruence|lia|auto].
Qed.

(** XMSSFast::from_extended_seed: descriptor (3 bytes) || seed (48 bytes). *)
Theorem C62_rust_from_extended_seed : forall es, all_bytes es ->
  let hash := (nth 0 es 0 mod 16)%N in let fmt := (nth 1 es 0 / 16)%N in let height := (2 * (nth 1 es 0 mod 16))%N in
  rs_outcome (rs_fast_from_extended_seed es)
    (length es = 51 /\ (hash < 3)%N /\ fmt = 0%N /\ (4 <= height)%N)
    (length es <> 51 \/ ((hash < 3)%N /\ fmt = 0%N /\ (height < 4)%N))
    (length es = 51 /\ ((3 <= hash)%N \/ fmt <> 0%N))
    False.
Proof.
  intros es Hb. cbv zeta. apply rs_ends_outcome. unfold rs_fast_from_extended_seed, rs_base_from_extended_seed.
  destruct (length es =? 51) eqn:El; cbn [negb rbind].
  2:{ apply Nat.eqb_neq in El. constructor; tauto. }
  pose proof El as El'. apply Nat.eqb_eq in El. unfold rs_from_extended_seed. rewrite El'. cbn [negb].
  rewrite rslice_ok by lia. cbn [rbind].
  change (firstn (3 - 0) (skipn 0 es)) with (firstn 3 es). rewrite firstn_3 by lia.
  rewrite rs_from_bytes_arith by (now apply all_bytes_nth).
  pose proof (N.mod_upper_bound (nth 1 es 0%N) 16 ltac:(lia)) as HU.
  set (b0 := (nth 0 es 0 mod 16)%N) in *. set (b1 := (nth 1 es 0 / 16)%N) in *. set (hh := (nth 1 es 0 mod 16)%N) in *.
  assert (HH : (exists hf, hash_of_id b0 = Some hf) /\ (b0 < 3)%N \/ hash_of_id b0 = None /\ (3 <= b0)%N).
  { clearbody b0. destruct b0 as [|[[|[]|]|[]|]]; cbn [hash_of_id]; first [left; split; [eauto|lia]|right; split; [reflexivity|lia]]. }
  destruct HH as [[(hf & Eh) Hs]|[Eh Hs]]; rewrite Eh; cbn [rbind].
  2:{ constructor; intuition lia. }
  destruct (b1 =? 0)%N eqn:E1; cbn [rbind].
  2:{ apply N.eqb_neq in E1. constructor; intuition lia. }
  apply N.eqb_eq in E1. rewrite rslice_tail by lia. cbn [rbind rd_hash rd_height].
  assert (TH : tree_height (2 * hh) <-> (4 <= 2 * hh)%N).
  { unfold tree_height. split; [tauto|]. intros X. split; auto. apply N.even_spec. now exists hh. }
  apply (rs_ends_iff _ _ _ _ _ _ _ _ _ _ (rs_init_ends hf (2 * hh) (skipn 3 es) (repeat 0%N 132) None (repeat_length _ _)
    ltac:(rewrite skipn_length; lia))); try rewrite TH; intuition lia.
Qed.

(** The descriptor of a supported key. *)
Lemma rs_descr_bytes_arith : forall hf h, rs_descr_bytes (mkRD hf h) = [rs_hash_u8 hf; (h / 2 mod 16)%N; 0%N].
Proof.
  intros hf h. unfold rs_descr_bytes. cbn [rd_hash rd_height]. change 15%N with (N.ones 4). rewrite !N.land_ones, N.shiftr_div_pow2.
  change (2 ^ 1)%N with 2%N. change (2 ^ 4)%N with 16%N. change (u8 (N.shiftl 0 4)) with 0%N. rewrite !N.lor_0_l.
  f_equal. destruct hf; reflexivity.
Qed.
Lemma rs_descr_bytes_cpp : forall hf h, rs_descr_bytes (mkRD hf h) = descr_getBytes (mkDescr (rs_hash_u8 hf) 0 h 0).
Proof.
  intros hf h. rewrite rs_descr_bytes_arith, getBytes_arith. cbn [d_hash d_sig d_height d_fmt].
  f_equal. destruct hf; reflexivity.
Qed.



Section Key.
  Variables (hf : hashfn) (w : rs_w) (wp : nat * nat * nat) (height : nat) (seed : list N).
  Hypothesis HS : supported (rs_hash_u8 hf) hf (w_of w) wp height seed.
  Lemma rkey_cfg : cfg_ok (rust_cfg hf w height seed) wp.
  Proof. exact (rcfg_ok _ _ _ _ _ HS). Qed.
  Local Notation c := (rust_cfg hf w height seed).

  Lemma descr_half : (N.of_nat height / 2 mod 16)%N = N.of_nat (height / 2).
  Proof.
    destruct HS as (_ & _ & Hh & _ & _). pose proof (Nat2N.inj_div height 2) as E. change (N.of_nat 2) with 2%N in E. rewrite <- E.
    apply N.mod_small. assert (height / 2 <= 15) by (apply Nat.div_le_upper_bound; lia). lia.
  Qed.

  Lemma base_key : forall i, (i <= 2 ^ N.of_nat height)%N ->
    rust_key_at hf wp height seed i (mkRBase hf (N.of_nat height) (c_sk (rust_cfg hf w height seed) wp i) seed).
  Proof.
    intros i Hi. pose proof (rc_sk_len hf w wp height seed rkey_cfg i) as L.
    destruct (sk_parts c wp rkey_cfg i) as (P1 & P2 & P3 & P4 & _).
    assert (G1 : rs_get_root (mkRBase hf (N.of_nat height) (c_sk c wp i) seed) = ROk (ref_root hf wp height seed)).
    { unfold rs_get_root. cbn [ro_sk]. rewrite rslice_ok by lia. change (firstn (132 - 100) (skipn 100 (c_sk c wp i))) with (slice 100 32 (c_sk c wp i)). now rewrite P4. }
    assert (G2 : rs_get_pk_seed (mkRBase hf (N.of_nat height) (c_sk c wp i) seed) = ROk (key_pub seed)).
    { unfold rs_get_pk_seed. cbn [ro_sk]. rewrite rslice_ok by lia. change (firstn (100 - 68) (skipn 68 (c_sk c wp i))) with (slice 68 32 (c_sk c wp i)). now rewrite P3. }
    assert (GI : rs_get_index (mkRBase hf (N.of_nat height) (c_sk c wp i) seed) = ROk i).
    { unfold rs_get_index. cbn [ro_sk]. rewrite rs_be32_sum_eq; [|apply (rc_sk_bytes hf w wp height seed rkey_cfg)|lia].
      now rewrite (sk_index c wp rkey_cfg i Hi). }
    assert (GN : rs_number_signatures (mkRBase hf (N.of_nat height) (c_sk c wp i) seed) = ROk (2 ^ N.of_nat height)%N).
    { unfold rs_number_signatures. cbn [ro_height]. destruct HS as (_ & _ & Hh & _ & _). rewrite (proj2 (N.leb_gt _ _)) by lia. reflexivity. }
    assert (GD : rs_obj_descr_bytes (mkRBase hf (N.of_nat height) (c_sk c wp i) seed) = [rs_hash_u8 hf; N.of_nat (height / 2); 0%N]).
    { unfold rs_obj_descr_bytes. cbn [ro_hash ro_height]. rewrite rs_descr_bytes_arith, descr_half. reflexivity. }
    unfold rust_key_at. cbv zeta. repeat split; auto.
    - unfold rs_get_pk. rewrite G1, G2, GD. reflexivity.
    - unfold rs_get_extended_seed. rewrite GD. reflexivity.
    - unfold rs_get_sk_seed. cbn [ro_sk]. rewrite rslice_ok by lia. change (firstn (36 - 4) (skipn 4 (c_sk c wp i))) with (slice 4 32 (c_sk c wp i)). now rewrite P1.
    - unfold rs_get_sk_prf. cbn [ro_sk]. rewrite rslice_ok by lia. change (firstn (68 - 36) (skipn 36 (c_sk c wp i))) with (slice 36 32 (c_sk c wp i)). now rewrite P2.
    - unfold rs_remaining_signatures. rewrite GN, GI. cbn [rbind]. rewrite (proj2 (N.ltb_ge _ _)) by lia. reflexivity.
  Qed.
  Lemma inv_key : forall i o, rust_inv hf w wp height seed i o -> rust_key_at hf wp height seed i (rfa_base o).
  Proof. intros i o (oc & (_ & Hi & _) & _ & ->). cbn [rust_obj rfa_base]. now apply base_key. Qed.

  Lemma rs_new_spec : exists o, rs_fast_new seed (N.of_nat height) (Some hf) (Some w) = ROk o /\ rust_inv hf w wp height seed 0 o.
  Proof.
    destruct (rust_init hf w wp height seed rkey_cfg (repeat 0%N 132) (repeat_length _ _)) as (o & E & HI). exists o. split; auto.
    unfold rs_fast_new, rs_base_new. destruct HS as (_ & _ & Hh & _ & Hl). rewrite Hl. cbn [Nat.eqb negb].
    rewrite (proj2 (N.ltb_ge _ _)) by lia. exact E.
  Qed.
End Key.

Theorem C62_rust_fast_key : forall hf w wp height seed, supported (rs_hash_u8 hf) hf (w_of w) wp height seed ->
  exists o, rs_fast_new seed (N.of_nat height) (Some hf) (Some w) = ROk o /\ rust_key_at hf wp height seed 0 (rfa_base o).
Proof.
  intros hf w wp height seed HS. destruct (rs_new_spec hf w wp height seed HS) as (o & E & HI).
  exists o. split; auto. eapply inv_key; eauto.
Qed.
(** Omitted arguments: SHAKE128 and w = 16. *)
Theorem C62_rust_defaults : forall seed height hf w,
  rs_fast_new seed height hf w =
    rs_fast_new seed height (Some match hf with Some f => f | None => SHAKE_128 end) (Some match w with Some x => x | None => W16 end).
Proof. intros seed height [hf|] [w|]; reflexivity. Qed.
(** The address of a key. *)
Lemma rs_get_address_cpp : forall pk a, all_bytes pk -> rs_get_address pk = ROk a -> getAddress pk = Ok a.
Proof.
  intros pk a Hb H. unfold rs_get_address, rs_from_extended_pk in H. unfold getAddress, descr_fromExtendedPK.
  destruct (length pk =? 67) eqn:E; cbn [negb rbind] in *; [|discriminate]. apply Nat.eqb_eq in E.
  rewrite rslice_ok in H by lia. cbn [rbind] in H. change (firstn (3 - 0) (skipn 0 pk)) with (firstn 3 pk) in H.
  unfold descr_getSize. rewrite firstn_3 in * by lia. rewrite rs_from_bytes_arith in H by (now apply all_bytes_nth).
  rewrite fromBytes_arith by (now apply all_bytes_nth). cbn [bind].
  destruct (hash_of_id (nth 0 pk 0 mod 16)%N) as [hf|] eqn:Eh; [|discriminate].
  destruct (nth 1 pk 0 / 16 =? 0)%N eqn:Ef; [|discriminate]. cbn [rbind] in H.
  cbn [d_fmt]. 
  assert (Eb : descr_getBytes (mkDescr (nth 0 pk 0 mod 16) 0 (2 * (nth 1 pk 0 mod 16)) (nth 1 pk 0 / 16))%N = rs_descr_bytes (mkRD hf (2 * (nth 1 pk 0 mod 16))%N)).
  { rewrite rs_descr_bytes_cpp. apply N.eqb_eq in Ef. rewrite Ef. f_equal. f_equal.
    destruct (nth 0 pk 0 mod 16)%N as [|[[|[]|]|[]|]]; cbn in Eh; try discriminate; injection Eh as <-; reflexivity. }
  unfold SHA256_2X. rewrite Ef. cbn [negb]. rewrite Eb. cbv zeta in *.
  rewrite sha256_length in H. change (32 - 4) with 28 in H. rewrite rslice_ok in H by (rewrite ?sha256_length; lia). cbn [rbind] in H.
  rewrite firstn_all2 in H by (rewrite skipn_length, sha256_length; lia). injection H as <-. reflexivity.
Qed.

Lemma supported_w16 : forall hf height seed, supported (rs_hash_u8 hf) hf 16 w16 height seed ->
  supported (rs_hash_u8 hf) hf (w_of W16) w16 height seed.
Proof. auto. Qed.

Lemma rs_get_address_total : forall hf x rest, length rest = 64 -> (x < 16)%N ->
  exists a, rs_get_address (rs_hash_u8 hf :: x :: 0%N :: rest) = ROk a.
Proof.
  intros hf x rest L Hx. unfold rs_get_address, rs_from_extended_pk. cbn [length]. rewrite L. cbn [Nat.eqb negb].
  rewrite rslice_ok by (cbn [length]; lia). cbn [rbind].
  change (firstn (3 - 0) (skipn 0 (rs_hash_u8 hf :: x :: 0%N :: rest))) with [rs_hash_u8 hf; x; 0%N].
  rewrite rs_from_bytes_arith by (destruct hf; cbn; lia).
  replace (hash_of_id (rs_hash_u8 hf mod 16)%N) with (Some hf) by (destruct hf; reflexivity).
  rewrite (N.div_small x 16) by lia. cbn [N.eqb rbind]. cbv zeta. rewrite sha256_length.
  rewrite rslice_ok by (rewrite ?sha256_length; lia). cbn [rbind]. eauto.
Qed.

(** Same seed, same parameters, w = 16 (the C++ XmssFast has no other): both
    implementations hold the same key and publish the same things. *)
Theorem C62_rust_key_is_cpp_key : forall junk hf height seed, supported (rs_hash_u8 hf) hf 16 w16 height seed ->
  exists o x, rs_fast_new seed (N.of_nat height) (Some hf) (Some W16) = ROk o /\
    XmssFast_new junk seed (N.of_nat height) (rs_hash_u8 hf) 0 = Ok x /\
    ro_sk (rfa_base o) = getSK (xf_base x) /\
    rs_get_pk (rfa_base o) = ROk (getPK (xf_base x)) /\
    rs_get_extended_seed (rfa_base o) = getExtendedSeed (xf_base x) /\
    exists a, rs_obj_address (rfa_base o) = ROk a /\ obj_getAddress (xf_base x) = Ok a.
Proof.
  intros junk hf height seed HS. destruct (rs_new_spec hf W16 w16 height seed HS) as (o & E & HI).
  destruct (XmssFast_new_spec junk seed height (rs_hash_u8 hf) hf 0 HS) as (x & Ex & Hx).
  exists o, x. split; [exact E|]. split; [exact Ex|].
  pose proof (cfg_of _ _ _ _ _ _ 0%N HS) as HC.
  destruct (inv_key hf W16 w16 height seed HS 0 o HI) as (K1 & _ & K3 & K4 & _).
  assert (Epk : getPK (xf_base x) = [rs_hash_u8 hf; N.of_nat (height / 2); 0%N] ++ ref_root hf w16 height seed ++ key_pub seed).
  { destruct Hx as (-> & _). pose proof (getPK_shape _ _ HC 0%N) as G. unfold c_pk in G. rewrite G. cbn [c_hash c_fmt c_height c_hf c_seed].
    rewrite <- (rs_descr_bytes_cpp hf), rs_descr_bytes_arith, (descr_half hf W16 w16 height seed HS). reflexivity. }
  split; [rewrite K1; destruct Hx as (-> & _); reflexivity|].
  split; [rewrite K3, Epk; reflexivity|].
  split.
  { rewrite K4. destruct Hx as (-> & _). unfold getExtendedSeed, getDescriptorBytes, getDescriptor. cbn [c_obj xb_hash xb_height xb_fmt xb_seed c_hash c_fmt c_height c_seed].
    rewrite <- (rs_descr_bytes_cpp hf), rs_descr_bytes_arith, (descr_half hf W16 w16 height seed HS). reflexivity. }
  unfold rs_obj_address, obj_getAddress. rewrite K3. cbn [rbind]. rewrite Epk.
  destruct (key_lengths seed) as (_ & _ & L3). pose proof (cfg_root_len _ _ HC) as LR. cbn [c_hf c_height c_seed] in LR.
  assert (Hh2 : (N.of_nat (height / 2) < 16)%N).
  { destruct HS as (_ & _ & Hh & _ & _). assert (height / 2 <= 15) by (apply Nat.div_le_upper_bound; lia). lia. }
  destruct (rs_get_address_total hf (N.of_nat (height / 2)) (ref_root hf w16 height seed ++ key_pub seed)) as (a & Ea);
    [rewrite app_length; lia|exact Hh2|].
  exists a. split; [exact Ea|]. apply rs_get_address_cpp; [|exact Ea].
  pose proof (c_pk_bytes _ _ HC 0%N) as B. unfold c_pk in B. destruct Hx as (Eb & _). rewrite <- Eb, Epk in B. exact B.
Qed.

(** ** C63: every history of calls *)
Theorem C63_rust_history : forall hf w wp height seed, supported (rs_hash_u8 hf) hf (w_of w) wp height seed ->
  exists o, rs_fast_new seed (N.of_nat height) (Some hf) (Some w) = ROk o /\
    forall cs, match rust_ref_run hf height (rust_sig hf wp height seed) 0 cs with
               | Some (i, obs) => exists o', rs_run o cs = ROk (o', obs) /\ rust_key_at hf wp height seed i (rfa_base o')
               | None => rs_run o cs = RPanic
               end.
Proof.
  intros hf w wp height seed HS. destruct (rs_new_spec hf w wp height seed HS) as (o & E & HI).
  exists o. split; auto. intros cs.
  pose proof (rust_run hf w wp height seed (rcfg_ok _ _ _ _ _ HS) cs o 0 HI) as R.
  destruct (rust_ref_run hf height (rust_sig hf wp height seed) 0 cs) as [[i obs]|]; [|exact R].
  destruct R as (o' & R & HI'). exists o'. split; auto. eapply inv_key; eauto.
Qed.

(** When a history panics: it asks for a signature of an unsignable message while keys
    are left. *)
Lemma rust_ref_panic : forall hf h sig cs i,
  rust_ref_run hf h sig i cs = None <->
  exists pre m post i' obs, cs = pre ++ OpSign m :: post /\ rust_ref_run hf h sig i pre = Some (i', obs) /\
    (i' < 2 ^ N.of_nat h)%N /\ ~ signable hf m.
Proof.
  intros hf h sig. induction cs as [|c cs IH]; intros i; cbn [rust_ref_run].
  - split; [discriminate|]. intros (pre & m & post & i' & obs & E & _). destruct pre; discriminate.
  - destruct (rust_ref_step hf h sig i c) as [[i1 x]|] eqn:ES.
    + specialize (IH i1). destruct (rust_ref_run hf h sig i1 cs) as [[i2 xs]|] eqn:ER.
      * split; [discriminate|]. intros (pre & m & post & i' & obs & E & E1 & Hi & Hm). exfalso.
        destruct pre as [|c0 pre]; cbn [app] in E; injection E as -> E.
        -- cbn [rust_ref_run] in E1. injection E1 as -> _. unfold rust_ref_step in ES. rewrite (proj2 (N.ltb_lt _ _) Hi) in ES.
           destruct (signable_dec hf m); [contradiction|discriminate].
        -- cbn [rust_ref_run] in E1. rewrite ES in E1. destruct (rust_ref_run hf h sig i1 pre) as [[i3 ys]|] eqn:EP; [|discriminate].
           injection E1 as -> _. assert (X : (None : option (N * list robs)) = None) by reflexivity.
           destruct IH as [_ IH]. assert (Y : Some (i2, xs) = None); [|discriminate]. apply IH. exists pre, m, post, i', ys. auto.
      * split; [|reflexivity]. intros _. destruct (proj1 IH eq_refl) as (pre & m & post & i' & obs & E & E1 & Hi & Hm).
        exists (c :: pre), m, post, i', (x :: obs). split; [now rewrite E|]. split; [|auto]. cbn [rust_ref_run]. now rewrite ES, E1.
    + split; [|reflexivity]. intros _. destruct c as [m|j]; unfold rust_ref_step in ES.
      * destruct (i <? 2 ^ N.of_nat h)%N eqn:L; [|discriminate]. destruct (signable_dec hf m) as [S|S]; [discriminate|].
        apply N.ltb_lt in L. exists [], m, cs, i, []. auto.
      * destruct ((j <? 2 ^ N.of_nat h)%N && (i <=? j)%N); discriminate.
Qed.

Theorem C63_rust_panics : forall hf w wp height seed, supported (rs_hash_u8 hf) hf (w_of w) wp height seed ->
  exists o, rs_fast_new seed (N.of_nat height) (Some hf) (Some w) = ROk o /\
    forall cs, rs_run o cs = RPanic <->
      exists pre m post o1 obs i, cs = pre ++ OpSign m :: post /\ rs_run o pre = ROk (o1, obs) /\
        rs_get_index (rfa_base o1) = ROk i /\ (i < 2 ^ N.of_nat height)%N /\ ~ signable hf m.
Proof.
  intros hf w wp height seed HS. destruct (C63_rust_history hf w wp height seed HS) as (o & E & HR).
  exists o. split; auto. intros cs. split.
  - intros P. pose proof (HR cs) as R. destruct (rust_ref_run hf height (rust_sig hf wp height seed) 0 cs) as [[i obs]|] eqn:ER.
    { destruct R as (o' & R & _). congruence. }
    apply rust_ref_panic in ER. destruct ER as (pre & m & post & i' & obs & -> & E1 & Hi & Hm).
    pose proof (HR pre) as R1. rewrite E1 in R1. destruct R1 as (o1 & R1 & K). exists pre, m, post, o1, obs, i'.
    repeat split; auto. apply K.
  - intros (pre & m & post & o1 & obs & i & -> & R1 & K & Hi & Hm).
    pose proof (HR pre) as R0. destruct (rust_ref_run hf height (rust_sig hf wp height seed) 0 pre) as [[i0 obs0]|] eqn:E0; [|congruence].
    destruct R0 as (o0 & R0 & K0). rewrite R1 in R0. apply ROk_inj in R0. apply pair_equal_spec in R0. destruct R0 as [<- <-].
    assert (i0 = i). { destruct K0 as (_ & K0 & _). rewrite K in K0. now apply ROk_inj in K0. } subst i0.
    pose proof (HR (pre ++ OpSign m :: post)) as R.
    assert (N : rust_ref_run hf height (rust_sig hf wp height seed) 0 (pre ++ OpSign m :: post) = None).
    { apply rust_ref_panic. exists pre, m, post, i, obs. auto. }
    rewrite N in R. exact R.
Qed.
