(** Objects of the Rust port against the reference of SpecApi.v and SpecRust.v. *)
From Coq Require Import List NArith Arith Lia Bool.
From Verif Require Import Base Bytes Keccak KeccakLemmas Sha256 HashAddress Wots XmssCommon AlgsXmss AlgsXmssFast Descriptor
  SpecXmss SpecApi XmssObj XmssRefine WotsProofs TreeProofs BasicProofs BdsSched BdsProofs BdsSetup FastProofs DescrProofs VerifyProofs
  RsBase RsKeccak RsShake RsHash RsSim RsWots RsSimWots RsAlgs RsFast SpecRust RsObj RsSimTree RsSimAlgs RsSimFast.
Import ListNotations.
Open Scope nat_scope.

Lemma rs_wots_new_eq : forall w wp, winternitz (w_of w) = Some wp -> rs_wots_new w = wparams (w_of w).
Proof. intros [] wp H; vm_compute; reflexivity. Qed.
Lemma hash_id_u8 : forall hf, hash_of_id (rs_hash_u8 hf) = Some hf.
Proof. intros []; reflexivity. Qed.

(** Supported parameters of the Rust constructors. *)
Definition rust_cfg (hf : hashfn) (w : rs_w) (H : nat) (seed : list N) : key_cfg := mkCfg hf (rs_hash_u8 hf) (w_of w) 0 H seed.

Lemma fresh_flat : forall h, rs_fresh_bds h 2 = flat_bds (fresh_bds h 2).
Proof.
  intros h. unfold rs_fresh_bds, fresh_bds, flat_bds. cbn [b_stack b_stackoffset b_stacklevels b_auth b_keep b_treehash b_retain].
  rewrite !flat_zero. reflexivity.
Qed.
Lemma fresh_cells : forall h, h <= 254 -> bds_cells (fresh_bds h 2).
Proof.
  intros h Hh. unfold bds_cells, fresh_bds. cbn [b_stack b_stackoffset b_stacklevels b_auth b_keep b_treehash b_retain].
  repeat split; try (apply cellsok_zero).
  - unfold thok. apply Forall_forall. intros x Hx. apply repeat_spec in Hx. subst x. reflexivity.
  - rewrite repeat_length. lia.
Qed.
Lemma rs_be32_sum_eq : forall l, all_bytes l -> 4 <= length l -> rs_be32_sum l = ROk (from_be (slice 0 4 l)).
Proof.
  intros l Hb Hl. destruct l as [|x0 [|x1 [|x2 [|x3 l]]]]; cbn [length] in Hl; try lia.
  unfold rs_be32_sum. cbn [rget nth_error rbind]. f_equal. unfold slice. cbn [skipn firstn]. unfold from_be. cbn [fold_left].
  rewrite !N.shiftl_mul_pow2. change (2 ^ 24)%N with (256 * 256 * 256)%N. change (2 ^ 16)%N with (256 * 256)%N. change (2 ^ 8)%N with 256%N. lia.
Qed.

Section RObj.
  Variables (hf : hashfn) (w : rs_w) (wp : nat * nat * nat) (H : nat) (seed : list N).
  Local Notation c := (rust_cfg hf w H seed).
  Hypothesis HC : cfg_ok c wp.

  Lemma rc_wots : rs_wots_new w = wparams (w_of w).
  Proof. apply (rs_wots_new_eq w wp). apply HC. Qed.
  Lemma rc_params : rs_xmss_params H w 2 = ROk (c_params c).
  Proof.
    pose proof (cfg_set_params c wp HC) as E. unfold xmss_set_params in E. cbn [rust_cfg c_height c_w] in E. unfold rs_xmss_params.
    destruct ((H <=? 2) || (2 <? 2) || negb ((H - 2) mod 2 =? 0)); [discriminate|]. rewrite rc_wots. reflexivity.
  Qed.
  Lemma rc_bad_height : rs_bad_height (N.of_nat H) = false.
  Proof. exact (cfg_height_ok c wp HC). Qed.
  Lemma rc_sk_len : forall i, length (c_sk c wp i) = 132.
  Proof.
    intros i. unfold c_sk, ref_sk. destruct (key_lengths (c_seed c)) as (L1 & L2 & L3).
    rewrite !app_length, to_byte_length, L1, L2, L3. pose proof (cfg_root_len c wp HC) as L4. rewrite L4. reflexivity.
  Qed.
  Lemma rc_sk_bytes : forall i, all_bytes (c_sk c wp i).
  Proof.
    intros i. unfold c_sk, ref_sk, key_seed, key_prf, key_pub, key_stream. rewrite !all_bytes_app.
    pose proof (shake256_bytes 96 (c_seed c)). pose proof (root_bytes c wp HC).
    repeat split; auto using to_byte_bytes, all_bytes_firstn, all_bytes_skipn.
  Qed.
  Lemma rc_small : forall i, (i <= 2 ^ N.of_nat H)%N -> (i + 1 < 2 ^ 32)%N.
  Proof.
    intros i Hi. pose proof (pow_H_bound c wp HC) as B. cbn [rust_cfg c_height] in B. change (2 ^ 32)%N with (4 * 2 ^ 30)%N.
    assert (2 <= 2 ^ 30)%N by (change 2%N with (2 ^ 1)%N at 1; apply N.pow_le_mono_r; lia). lia.
  Qed.

  (** The Rust object for a C++ object. *)
  Definition rust_obj (i : N) (oc : xfast) : rs_fast :=
    mkRFast (mkRBase hf (N.of_nat H) (c_sk c wp i) seed) (c_params c) w (flat_bds (xf_state oc)).
  Definition rust_inv (i : N) (o : rs_fast) : Prop :=
    exists oc, fast_inv c wp i oc /\ bds_cells (xf_state oc) /\ o = rust_obj i oc.

  Lemma rust_init : forall sk0, length sk0 = 132 ->
    exists o, rs_initialize_tree (mkRBase hf (N.of_nat H) sk0 seed) (Some w) = ROk o /\ rust_inv 0 o.
  Proof.
    intros sk0 L0. pose proof (co_h _ _ HC) as Hb. cbn [rust_cfg c_height] in Hb.
    destruct (initialize_tree_spec c wp HC (repeat 0%N 32)) as (oc & E & HI).
    unfold initialize_tree in E. cbn [rust_cfg c_seed c_height c_hash c_fmt c_w] in E.
    rewrite (cfg_height_ok c wp HC : bad_height (N.of_nat H) = false) in E.
    rewrite Nat2N.id in E. rewrite (cfg_set_params c wp HC : xmss_set_params H (w_of w) 2 = Ok (c_params c)) in E. cbn [bind] in E.
    rewrite (proj2 (N.leb_gt 31 (N.of_nat H))) in E by lia. unfold with_hash in E. rewrite hash_id_u8 in E.
    apply bind_ok in E. destruct E as ([sk st] & E & E1). apply Ok_inj' in E1.
    unfold rs_initialize_tree. cbn [ro_height ro_hash ro_sk ro_seed]. rewrite rc_bad_height, Nat2N.id, rc_params. cbn [rbind].
    rewrite fresh_flat.
    destruct (rs_fast_gen_keypair_eq hf (c_params c) (repeat 0%N 64) sk0 (fresh_bds H 2) seed sk st) as [R C]; auto.
    - apply (co_seed _ _ HC).
    - cbn [c_params x_h rust_cfg c_height]. lia.
    - pose proof (co_even _ _ HC) as He. cbn [c_params x_h rust_cfg c_height] in *. rewrite <- Nat.negb_even, He. reflexivity.
    - apply fresh_cells. lia.
    - rewrite R. cbn [rbind]. eexists. split; [reflexivity|]. exists oc. split; [exact HI|].
      destruct HI as (Eb & _). rewrite <- E1 in Eb |- *. cbn [xf_base xf_state c_obj] in *. split; [exact C|].
      unfold rust_obj, rs_with_sk. cbn [xf_state ro_hash ro_height ro_seed]. do 2 f_equal. injection Eb as Eb. exact Eb.
  Qed.

  Lemma rust_set_index : forall o i j, rust_inv i o ->
    exists o', rs_fast_set_index o j = ROk (o', if ((j <? 2 ^ N.of_nat H) && (i <=? j))%N then inr j else inl RInvalidArgument) /\
      rust_inv (if ((j <? 2 ^ N.of_nat H) && (i <=? j))%N then j else i) o' /\
      (((j <? 2 ^ N.of_nat H) && (i <=? j))%N = false -> o' = o).
  Proof.
    intros o i j (oc & HI & CB & ->). pose proof (co_h _ _ HC) as Hb. cbn [rust_cfg c_height] in Hb.
    destruct (setIndex_spec c wp HC oc i j HI) as (oc' & E & HI'). cbn [rust_cfg c_height] in E, HI'.
    pose proof HI as (Eb & _). unfold xfast_setIndex in E. rewrite Eb in E. cbn [c_obj xb_hash xb_params xb_sk rust_cfg c_hash] in E.
    unfold with_hash in E. rewrite hash_id_u8 in E. apply bind_ok in E. destruct E as ([[sk st] r] & E & E1).
    destruct (rs_fast_update_eq hf (c_params c) (c_sk c wp i) (xf_state oc) j sk st r) as [R C']; auto using rc_sk_len, rc_sk_bytes.
    { cbn [c_params x_h rust_cfg c_height]. lia. }
    unfold rs_fast_set_index, rust_obj. cbn [rfa_base rfa_params rfa_w rfa_state ro_hash ro_sk]. rewrite R. cbn [rbind].
    destruct ((j <? 2 ^ N.of_nat H)%N && (i <=? j)%N).
    - destruct r as [e|u]; apply Ok_inj' in E1; [discriminate|]. apply pair_equal_spec in E1. destruct E1 as [E1 _].
      eexists. split; [reflexivity|]. split; [|discriminate]. exists oc'. split; [exact HI'|]. rewrite <- E1. cbn [xf_state]. split; [exact C'|].
      unfold rust_obj, rs_with_sk. cbn [xf_state ro_hash ro_height ro_seed]. do 2 f_equal.
      destruct HI' as (Eb' & _). rewrite <- E1 in Eb'. cbn [xf_base with_sk c_obj] in Eb'. injection Eb' as Eb'. exact Eb'.
    - destruct r as [e|u]; apply Ok_inj' in E1; [|discriminate]. apply pair_equal_spec in E1. destruct E1 as [E1 E2].
      subst oc'. eexists. split; [reflexivity|].
      assert (X : mkRFast (rs_with_sk (mkRBase hf (N.of_nat H) (c_sk c wp i) seed) sk) (c_params c) w (flat_bds st) = rust_obj i oc).
      { rewrite <- HI' in Eb. cbn [xf_base with_sk c_obj] in Eb. injection Eb as Eb.
        unfold rust_obj, rs_with_sk. cbn [ro_hash ro_height ro_seed]. rewrite <- HI'. cbn [xf_state]. now rewrite Eb. }
      rewrite X. split; [|reflexivity]. exists oc. auto.
  Qed.

  Lemma rc_seen : forall i msg, (i <= 2 ^ N.of_nat H)%N ->
    sk_seen hf (c_sk c wp i) msg =
      seen_message hf (randomizer hf (key_prf seed) (N.to_nat i)) (ref_root hf wp H seed) (N.of_nat (N.to_nat i)) msg.
  Proof.
    intros i msg Hi. unfold sk_seen. destruct (sk_parts c wp HC i) as (_ & P2 & _ & P4 & _).
    rewrite (sk_index c wp HC i Hi), P2, P4, N2Nat.id. f_equal. unfold randomizer. rewrite N2Nat.id. apply prf_PRF.
  Qed.
  Lemma rc_sig_size : forall sk, rs_sig_size (mkRBase hf (N.of_nat H) sk seed) (Some w) = 36 + w_keysize (wparams (w_of w)) + H * 32.
  Proof. intros sk. unfold rs_sig_size, rs_sig_base_size. cbn [ro_height]. rewrite Nat2N.id, rc_wots. reflexivity. Qed.

  Lemma rust_sign : forall o i msg, rust_inv i o -> (i < 2 ^ N.of_nat H)%N ->
    (signable hf msg -> exists o', rs_fast_sign o msg = ROk (o', inr (rust_sig hf wp H seed (N.to_nat i) msg)) /\ rust_inv (i + 1) o') /\
    (~ signable hf msg -> rs_fast_sign o msg = RPanic).
  Proof.
    intros o i msg HI Hi. pose proof (co_h _ _ HC) as Hb. cbn [rust_cfg c_height] in Hb.
    destruct (rust_set_index o i i HI) as (o1 & R & HI1 & _).
    replace ((i <? 2 ^ N.of_nat H) && (i <=? i))%N with true in *
      by (symmetry; apply andb_true_iff; split; [now apply N.ltb_lt|apply N.leb_refl]).
    pose proof HI as (oc0 & _ & _ & E0). subst o.
    unfold rs_fast_sign, rs_get_index. cbn [rust_obj rfa_base ro_sk rfa_w] in R |- *.
    rewrite rs_be32_sum_eq by (auto using rc_sk_bytes; rewrite rc_sk_len; lia).
    rewrite (sk_index c wp HC i) by (cbn [rust_cfg c_height]; lia). cbn [rbind].
    change (mkRFast (mkRBase hf (N.of_nat H) (c_sk c wp i) seed) (c_params c) w (flat_bds (xf_state oc0))) with (rust_obj i oc0).
    rewrite R. cbn [rbind]. destruct HI1 as (oc & HF & CB & ->).
    cbn [rust_obj rfa_base ro_sk ro_hash rfa_w rfa_params rfa_state].
    assert (Hs : (from_be (slice 0 4 (c_sk c wp i)) + 1 < 2 ^ 32)%N).
    { rewrite (sk_index c wp HC i) by (cbn [rust_cfg c_height]; lia). apply rc_small. lia. }
    split; intros HS.
    - destruct (fast_Signmsg_spec c wp HC oc i (sk_seen hf (c_sk c wp i) msg) HF) as (st' & E & HF'); [cbn [rust_cfg c_height]; lia|].
      cbn [rust_cfg c_hf] in E.
      destruct (rs_fast_sign_msg_eq hf (c_params c) (c_sk c wp i) (xf_state oc)
        (repeat 0%N (rs_sig_size (mkRBase hf (N.of_nat H) (c_sk c wp i) seed) (Some w))) msg (c_sk c wp (i + 1)) st'
        (c_sig c wp (N.to_nat i) (sk_seen hf (c_sk c wp i) msg))) as [R1 C1].
      + apply (cfg_wots c wp HC).
      + apply rc_sk_len.
      + apply rc_sk_bytes.
      + cbn [c_params x_h rust_cfg c_height]. lia.
      + exact CB.
      + destruct HF as (_ & _ & HB). cbn [rust_cfg c_height] in HB. specialize (HB Hi). rewrite (bo_auth_len _ _ _ _ _ _ _ _ HB).
        cbn [c_params x_h rust_cfg c_height]. lia.
      + rewrite repeat_length, rc_sig_size. reflexivity.
      + exact Hs.
      + exact HS.
      + exact E.
      + rewrite R1. cbn [rbind]. rewrite rc_seen by lia. eexists. split; [reflexivity|].
        exists (mkXF (c_obj c wp (i + 1)) st'). split; [exact HF'|]. split; [exact C1|]. reflexivity.
    - rewrite rs_fast_sign_msg_panic; auto using rc_sk_len, rc_sk_bytes.
      rewrite repeat_length, rc_sig_size. lia.
  Qed.

  Lemma rust_sign_end : forall o i msg, rust_inv i o -> ~ (i < 2 ^ N.of_nat H)%N ->
    rs_fast_sign o msg = ROk (o, inl RInvalidArgument).
  Proof.
    intros o i msg HI Hi. destruct (rust_set_index o i i HI) as (o1 & R & HI1 & Eo).
    replace (i <? 2 ^ N.of_nat H)%N with false in * by (symmetry; now apply N.ltb_nlt). cbn [andb] in *.
    rewrite Eo in R by reflexivity. pose proof HI as (oc0 & (_ & Hle & _) & _ & E0). subst o.
    unfold rs_fast_sign, rs_get_index. cbn [rust_obj rfa_base ro_sk rfa_w] in R |- *.
    rewrite rs_be32_sum_eq by (auto using rc_sk_bytes; rewrite rc_sk_len; lia).
    rewrite (sk_index c wp HC i) by exact Hle. cbn [rbind].
    change (mkRFast (mkRBase hf (N.of_nat H) (c_sk c wp i) seed) (c_params c) w (flat_bds (xf_state oc0))) with (rust_obj i oc0).
    rewrite R. reflexivity.
  Qed.

  Lemma rust_step : forall o i x, rust_inv i o ->
    match rust_ref_step hf H (rust_sig hf wp H seed) i x with
    | Some (i', ob) => exists o', rs_step o x = ROk (o', ob) /\ rust_inv i' o' /\ (forall e, ob = RObsErr e -> o' = o)
    | None => rs_step o x = RPanic
    end.
  Proof.
    intros o i [m|j] HI; unfold rust_ref_step, rs_step.
    - destruct (i <? 2 ^ N.of_nat H)%N eqn:L.
      + apply N.ltb_lt in L. destruct (rust_sign o i m HI L) as [A B]. destruct (signable_dec hf m) as [S|S].
        * destruct (A S) as (o' & R & HI'). rewrite R. cbn [rbind]. exists o'. repeat split; auto. discriminate.
        * rewrite (B S). reflexivity.
      + apply N.ltb_nlt in L. rewrite (rust_sign_end o i m HI L). cbn [rbind]. exists o. auto.
    - destruct (rust_set_index o i j HI) as (o' & R & HI' & Eo). rewrite R. cbn [rbind].
      destruct ((j <? 2 ^ N.of_nat H)%N && (i <=? j)%N).
      + exists o'. repeat split; auto. discriminate.
      + exists o'. repeat split; auto.
  Qed.

  Lemma rust_run : forall cs o i, rust_inv i o ->
    match rust_ref_run hf H (rust_sig hf wp H seed) i cs with
    | Some (i', obs) => exists o', rs_run o cs = ROk (o', obs) /\ rust_inv i' o'
    | None => rs_run o cs = RPanic
    end.
  Proof.
    induction cs as [|x cs IH]; intros o i HI; cbn [rust_ref_run rs_run]; [exists o; auto|].
    pose proof (rust_step o i x HI) as S. destruct (rust_ref_step hf H (rust_sig hf wp H seed) i x) as [[i1 ob]|].
    - destruct S as (o1 & R & HI1 & _). rewrite R. cbn [rbind]. specialize (IH o1 i1 HI1).
      destruct (rust_ref_run hf H (rust_sig hf wp H seed) i1 cs) as [[i2 obs]|].
      + destruct IH as (o2 & R2 & HI2). rewrite R2. cbn [rbind]. exists o2. auto.
      + now rewrite IH.
    - now rewrite S.
  Qed.
End RObj.
