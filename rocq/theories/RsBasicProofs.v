(** XMSSBasic of the Rust port: signing, and where it panics. *)
From Coq Require Import List NArith Arith Lia Bool.
From Verif Require Import Base Bytes Keccak KeccakLemmas Sha256 HashAddress Wots XmssCommon AlgsXmss AlgsXmssFast Descriptor
  SpecXmss SpecApi XmssObj XmssRefine WotsProofs TreeProofs BasicProofs FastProofs DescrProofs VerifyProofs
  RsBase RsKeccak RsShake RsHash RsSim RsWots RsSimWots RsAlgs RsFast SpecRust RsObj RsSimTree RsSimAlgs RsObjProofs.
Import ListNotations.
Open Scope nat_scope.

(** The last part of compute_authpath_wots, behind the tree. *)
Definition rs_path_part (h : nat) (root authpath : list N) (leaf_idx : N) (tree : list N) : rs (list N * list N) :=
  authpath <~
    rfor h (fun i authpath =>
      let c := u32 (N.lxor (N.shiftr leaf_idx (N.of_nat i)) 1) in
      let src_start := (N.of_nat (2 ^ h / 2 ^ i) * 32 + c * 32)%N in
      if (2 ^ 32 <=? src_start)%N then RPanic else
      src <~ rslice (N.to_nat src_start) (N.to_nat src_start + 32) tree ;;
      rwith (i * 32) (i * 32 + 32) authpath (fun d => rcopy src d)) authpath ;;
  src <~ rslice 32 64 tree ;;
  root <~ rcopy src root ;;
  ROk (root, authpath).

(** Whatever the leaf, the same tree is built. *)
Lemma rs_authpath_tree : forall hf idx0 sks p ps a r path, 32 <= length sks -> 32 <= length ps ->
  compute_authpath_wots hf (repeat 0%N 32) idx0 (firstn 32 sks) p (firstn 32 ps) a = Ok (r, path) ->
  exists tree, length tree = 2 * 2 ^ x_h p * 32 /\
    forall root ap idx, rs_compute_authpath hf root ap idx sks p ps a = rs_path_part (x_h p) root ap idx tree.
Proof.
  intros hf idx0 sks p ps a r path Ls Lp H. unfold compute_authpath_wots in H.
  destruct (26 <=? x_h p) eqn:EH; [discriminate|].
  apply bind_ok in H. destruct H as ([[tree1 oa] la] & H1 & H). apply bind_ok in H. destruct H as ([tree2 na] & H2 & _).
  exists (concat tree2).
  assert (X : exists (C2 : cellsok tree2) (LT2 : length tree2 = 2 * 2 ^ x_h p), forall root ap idx,
    rs_compute_authpath hf root ap idx sks p ps a = rs_path_part (x_h p) root ap idx (concat tree2)).
  2:{ destruct X as (C2 & LT2 & X). split; [|exact X]. rewrite (flat_length tree2 C2). lia. }
  unfold rs_compute_authpath. rewrite EH. apply Nat.leb_gt in EH. set (h := x_h p) in *. clearbody h. rewrite flat_zero. cpp_adrs2.
  (* leaves *)
  match type of H1 with for_up ?n ?f ?s0 = _ => match goal with |- context [rfor ?n' ?g ?t0] =>
    destruct (rfor_sim _ _ (fun s t => exists st x y, s = (st, x, y) /\ t = (concat st, x, y) /\ cellsok st /\ length st = 2 * 2 ^ h) f g n s0 t0 _ H1) as (t' & E & st & x & y & E1 & E2 & C & LT) end end.
  { do 3 eexists. split; [reflexivity|]. split; [reflexivity|]. split; [apply cellsok_zero|apply repeat_length]. }
  { clear - Ls Lp. intros i s t s1 Hi (st & x & y & -> & -> & C & LT) F. cbv zeta in F.
    apply bind_ok in F. destruct F as ([[leaf la1] oa1] & E1 & F). apply bind_ok in F. destruct F as (st1 & S1 & F). apply Ok_inj' in F. subst s1.
    cbv beta iota zeta.
    destruct (rs_leaf_at_eq hf (2 ^ h + i) (2 ^ h * 32 + i * 32) st st1 sks p ps _ _ _ _ _ Ls Lp C E1 S1 ltac:(lia)) as (R1 & C1 & L1). rewrite R1. cbn [rbind].
    eexists. split; [reflexivity|]. do 3 eexists. split; [reflexivity|]. split; [reflexivity|]. split; [exact C1|lia]. }
  rewrite E. clear E H1. subst t'. injection E1 as <- <- <-. cbn [rbind].
  (* inner nodes *)
  match type of H2 with for_up ?n ?f ?s0 = _ => match goal with |- context [rfor n ?g (concat tree1, ?t1)] =>
    destruct (rfor_sim _ _ (fun s t => exists st x, s = (st, x) /\ t = (concat st, x) /\ cellsok st /\ length st = 2 * 2 ^ h) f g n s0 (concat tree1, t1) _ H2) as (t' & E & st & z & E1 & E2 & C2 & LT2) end end.
  { do 2 eexists. split; [reflexivity|]. split; [reflexivity|]. auto. }
  { clear - Lp. intros lv s t s1 Hi (st & x & -> & -> & C & LT) F. cbv zeta in F. cbv beta iota zeta.
    match type of F with for_up ?n ?f ?s0 = _ => match goal with |- context [rfor n ?g ?t0] =>
      destruct (rfor_sim _ _ (fun s t => exists st x, s = (st, x) /\ t = (concat st, x) /\ cellsok st /\ length st = 2 * 2 ^ h) f g n s0 t0 _ F) as (t' & E & st2 & z & E1 & E2 & C2 & LT2) end end.
    { do 2 eexists. split; [reflexivity|]. split; [reflexivity|]. auto. }
    { clear - Lp. set (i := 2 ^ (h - lv)). clearbody i. intros j s t s1 Hi (st & x & -> & -> & C & LT) F. cbv zeta in F. cbv beta iota zeta.
      replace (2 * j / 2) with j by (rewrite Nat.mul_comm; symmetry; apply Nat.div_mul; lia).
      apply bind_ok in F. destruct F as (u & Gu & F). apply bind_ok in F. destruct F as (v & Gv & F).
      set (na1 := setTreeIndex _ _) in *. destruct (hash_h hf (u ++ v) (firstn 32 ps) na1) as [out na2] eqn:Eh.
      apply bind_ok in F. destruct F as (st1 & S1 & F). apply Ok_inj' in F. subst s1.
      replace (i + 2 * j + 1) with (S (i + 2 * j)) in Gv by lia.
      destruct (tail_two _ _ _ _ C Gu Gv) as [T1 T2]. pose proof (get_lt _ _ _ _ Gu).
      replace (i * 32 + 2 * j * 32) with ((i + 2 * j) * 32) by lia. rewrite rslice_cells by (auto; lia). cbn [rbind].
      assert (EJ : i / 2 * 32 + j * 32 = (i / 2 + j) * 32) by (generalize (i / 2); intros; lia).
      destruct (rs_hash_cell hf st st1 (i / 2 + j) _ u v ps na1 out na2 _ C Lp T1 T2 Eh S1 EJ) as (W & C1 & L1).
      rewrite W. eexists. split; [reflexivity|]. do 2 eexists. split; [reflexivity|]. split; [reflexivity|]. split; [exact C1|lia]. }
    rewrite E. subst t'. subst s1. eexists. split; [reflexivity|]. do 2 eexists. split; [reflexivity|]. split; [reflexivity|]. auto. }
  rewrite E. clear E H2. subst t'. injection E1 as <- <-. cbn [rbind].
  exists C2, LT2. intros. reflexivity.
Qed.

(** A leaf outside the tree: the copy of its sibling is out of bounds. *)
Lemma rs_path_panic : forall h root ap idx tree, 1 <= h -> length tree = 2 * 2 ^ h * 32 -> (2 ^ N.of_nat h <= idx < 2 ^ 32)%N ->
  rs_path_part h root ap idx tree = RPanic.
Proof.
  intros h root ap idx tree Hh LT Hi. unfold rs_path_part. destruct h as [|h']; [lia|]. unfold rfor. cbn [rfor_from].
  change (N.of_nat 0) with 0%N. rewrite N.shiftr_0_r. change (2 ^ 0) with 1. rewrite Nat.div_1_r.
  set (c := u32 (N.lxor idx 1)).
  assert (P1 : N.to_nat (2 ^ N.of_nat (S h')) = 2 ^ S h') by (apply pow_N_nat).
  assert (Hc : (N.of_nat (2 ^ S h') <= c)%N).
  { rewrite <- P1, N2Nat.id. unfold c.
    assert (HL : N.lxor idx 1 = (if N.odd idx then idx - 1 else idx + 1)%N).
    { destruct idx as [|[q|q|]]; reflexivity. }
    rewrite HL. assert (Pe : (2 ^ N.of_nat (S h') = 2 * 2 ^ N.of_nat h')%N).
    { rewrite Nat2N.inj_succ, N.pow_succ_r'. reflexivity. }
    destruct (N.odd idx) eqn:Eo.
    - assert (idx <> 2 ^ N.of_nat (S h'))%N.
      { intros ->. rewrite Pe, N.odd_mul in Eo. discriminate. }
      unfold u32. rewrite N.mod_small; lia.
    - assert (idx <> 2 ^ 32 - 1)%N by (intros ->; discriminate). unfold u32. rewrite N.mod_small; lia. }
  clearbody c. destruct (2 ^ 32 <=? N.of_nat (2 ^ S h') * 32 + c * 32)%N; [reflexivity|].
  rewrite rslice_panic; [reflexivity|]. rewrite LT. lia.
Qed.

(** Signing up to the authentication path. *)
Lemma rs_sign_msg_path_panic : forall hf p sk sig msg, wots_ok (x_wots p) -> length sk = 132 -> all_bytes sk ->
  length sig = 36 + w_keysize (x_wots p) + x_h p * 32 -> (from_be (slice 0 4 sk) + 1 < 2 ^ 32)%N ->
  (forall oa T, root_adrs oa -> rs_compute_authpath hf (repeat 0%N 32) T (from_be (slice 0 4 sk)) (slice 4 32 sk) p (slice 68 32 sk) oa = RPanic) ->
  rs_sign_msg hf p sk sig msg = RPanic.
Proof.
  intros hf p sk sig msg HP Lk Hb Ls Hi HPan.
  destruct (signable_dec hf msg) as [HS|HS]; [|apply rs_sign_msg_panic; auto; unfold w_keysize in Ls; lia].
  unfold w_keysize in *. unfold rs_sign_msg.
  rewrite rs_sign_front_ok by (auto; lia). cbn [rbind]. cpp_adrs.
  set (idx := from_be (slice 0 4 sk)) in *. set (R := prf hf (to_byte 32 idx) (slice 36 32 sk)) in *.
  set (mh := h_msg hf _ _) in *. assert (Lm : length mh = 32) by apply core_hash_length. clearbody mh.
  assert (L4 : length (slice 4 32 sk) = 32) by (apply slice_length; lia).
  assert (L68 : length (slice 68 32 sk) = 32) by (apply slice_length; lia).
  destruct (rs_get_seed_eq hf (repeat 0%N 32) (slice 4 32 sk) (setOTSADRS (setType zero_adrs 0) idx) (repeat_length _ _) ltac:(lia)) as [E L].
  rewrite (firstn_all2 (slice 4 32 sk)) in E, L by lia. rewrite E. clear E.
  destruct (get_seed_spec hf (slice 4 32 sk) _ (N.to_nat idx) (ots_adrs_init (N.to_nat idx))) as (a1 & G1 & A1).
  rewrite N2Nat.id in G1. rewrite G1 in L |- *. cbn [fst] in L. cbn [rbind].
  destruct (digits_of_ok (x_wots p) mh HP Lm) as (D1 & D2 & D3).
  destruct (wots_sign_spec hf (x_wots p) mh (ots_seed hf (slice 4 32 sk) (N.to_nat idx)) (slice 68 32 sk) a1 (N.to_nat idx)
     (slice 4 32 sk) (digits_of (x_wots p) mh) A1 eq_refl D1 D2 D3) as (oa' & E1 & A2).
  set (os := ots_seed hf (slice 4 32 sk) (N.to_nat idx)) in *. set (ws := ots_sig hf _ _ _ _ _) in *. clearbody ws os.
  set (head := to_byte 4 idx ++ R).
  assert (LH : length head = 36) by (unfold head, R; rewrite app_length, to_byte_length, prf_length; reflexivity).
  assert (L36 : length (skipn 36 sig) = w_len (x_wots p) * 32 + x_h p * 32) by (rewrite skipn_length; lia).
  rewrite (app_assoc _ R). fold head.
  destruct (rs_wots_sign_eq hf (skipn 36 sig) mh os (x_wots p) (slice 68 32 sk) a1 ws oa' HP Lm ltac:(lia) ltac:(lia) ltac:(lia)
    ltac:(rewrite (firstn_all2 os), (firstn_all2 (slice 68 32 sk)) by lia; exact E1)) as (W & CW & LW).
  rewrite (rwith_adr_ok 36 (head ++ skipn 36 sig) _ (concat ws ++ skipn (w_len (x_wots p) * 32) (skipn 36 sig)) oa').
  2: rewrite app_length; lia.
  2: rewrite skipn_app_at by auto; exact W.
  cbn [rbind]. rewrite firstn_app_at by auto.
  pose proof (flat_length ws CW) as LF. rewrite LW in LF. unfold w_keysize.
  unfold rwith at 1. rewrite rslice_tail by (rewrite !app_length; lia). cbn [rbind].
  rewrite HPan by apply A2. reflexivity.
Qed.

Section RBasic.
  Variables (hf : hashfn) (w : rs_w) (wp : nat * nat * nat) (H : nat) (seed : list N).
  Local Notation c := (rust_cfg hf w H seed).
  Hypothesis HC : cfg_ok c wp.

  (** The object at index [i]; any 32-bit index can be set. *)
  Definition rbasic_obj (i : N) : rs_basic := mkRBasic (mkRBase hf (N.of_nat H) (c_sk c wp i) seed) (c_params c) w.

  Lemma rbasic_new : rs_basic_new seed (N.of_nat H) hf (Some w) = ROk (rbasic_obj 0).
  Proof.
    pose proof (co_h _ _ HC) as Hb. cbn [rust_cfg c_height] in Hb. pose proof (co_seed _ _ HC) as Ls. cbn [rust_cfg c_seed] in Ls.
    pose proof (XmssBasic_new_spec c wp HC (repeat 0%N 32)) as E. unfold XmssBasic_new, check_seed in E.
    cbn [rust_cfg c_seed c_height c_hash c_fmt c_w] in E. rewrite Ls in E. cbn [Nat.eqb negb] in E.
    rewrite (proj2 (N.ltb_ge _ _)) in E by lia. cbn [bind] in E.
    rewrite (cfg_height_ok c wp HC : bad_height (N.of_nat H) = false) in E. rewrite Nat2N.id in E.
    rewrite (cfg_set_params c wp HC : xmss_set_params H (w_of w) 2 = Ok (c_params c)) in E. cbn [bind] in E.
    rewrite (proj2 (N.leb_gt 31 (N.of_nat H))) in E by lia. unfold with_hash in E. rewrite hash_id_u8 in E.
    apply bind_ok in E. destruct E as (sk & E & E1). apply Ok_inj' in E1.
    unfold rs_basic_new. rewrite Ls. cbn [Nat.eqb negb]. rewrite (rc_bad_height hf w wp H seed HC). rewrite Nat2N.id.
    rewrite (rc_params hf w wp H seed HC). cbn [rbind].
    destruct (rs_gen_keypair_eq hf (c_params c) (repeat 0%N 64) (repeat 0%N 132) seed sk) as (pk' & R); auto using repeat_length.
    { change (H < 32). lia. }
    rewrite R. cbn [rbind]. unfold rs_base_new. rewrite Ls. cbn [Nat.eqb negb].
    rewrite (proj2 (N.ltb_ge _ _)) by lia. cbn [rbind]. unfold rbasic_obj. do 3 f_equal. injection E1 as E1. exact E1.
  Qed.

  Lemma rbasic_sk_len : forall i, length (c_sk c wp i) = 132.
  Proof. exact (rc_sk_len hf w wp H seed HC). Qed.
  Lemma rbasic_sk_tail : forall i j, skipn 4 (c_sk c wp i) = skipn 4 (c_sk c wp j).
  Proof. intros. destruct (sk_parts c wp HC i) as (_ & _ & _ & _ & E1). destruct (sk_parts c wp HC j) as (_ & _ & _ & _ & E2). congruence. Qed.
  Lemma rbasic_sk_eq : forall i, c_sk c wp i = to_byte 4 i ++ skipn 4 (c_sk c wp 0).
  Proof.
    intros i. rewrite <- (firstn_skipn 4 (c_sk c wp i)) at 1. rewrite (rbasic_sk_tail i 0). f_equal.
  Qed.
  Lemma rbasic_sk_index : forall i, (i < 2 ^ 32)%N -> from_be (slice 0 4 (c_sk c wp i)) = i.
  Proof.
    intros i Hi. unfold slice. change (skipn 0 ?x) with x. rewrite rbasic_sk_eq, firstn_app_at by apply to_byte_length. now apply from_be_to_byte4.
  Qed.

  Lemma rbasic_set_index : forall i j, (j < 2 ^ 32)%N -> rs_basic_set_index (rbasic_obj i) j = ROk (rbasic_obj j, j).
  Proof.
    intros i j Hj. unfold rs_basic_set_index, rs_base_set_index, rbasic_obj. cbn [rbas_base ro_sk rbas_params rbas_w].
    assert (E : forall l : list N, 4 <= length l -> exists T, skipn 4 l = T /\
       (sk <~ rset l 3 (N.land j 255) ;; sk <~ rset sk 2 (N.land (N.shiftr j 8) 255) ;;
        sk <~ rset sk 1 (N.land (N.shiftr (N.shiftr j 8) 8) 255) ;;
        rset sk 0 (N.land (N.shiftr (N.shiftr (N.shiftr j 8) 8) 8) 255)) = ROk (to_byte 4 j ++ T)).
    { intros [|x0 [|x1 [|x2 [|x3 l]]]] Hl; cbn [length] in Hl; try lia. exists l. split; [reflexivity|].
      change 255%N with (N.ones 8). rewrite !N.land_ones, !N.shiftr_div_pow2. reflexivity. }
    destruct (E (c_sk c wp i)) as (T & ET & E1); [rewrite rbasic_sk_len; lia|]. clear E. cbv zeta. revert E1.
    destruct (rset (c_sk c wp i) 3 (N.land j 255)) as [l1|e|]; cbn [rbind]; try discriminate.
    destruct (rset l1 2 (N.land (N.shiftr j 8) 255)) as [l2|e|]; cbn [rbind]; try discriminate.
    destruct (rset l2 1 (N.land (N.shiftr (N.shiftr j 8) 8) 255)) as [l3|e|]; cbn [rbind]; try discriminate.
    intros ->. cbn [rbind]. unfold rs_with_sk, rs_get_index. cbn [ro_hash ro_height ro_seed ro_sk].
    assert (Esk : to_byte 4 j ++ T = c_sk c wp j) by (rewrite (rbasic_sk_eq j), <- ET; f_equal; apply rbasic_sk_tail).
    rewrite Esk. rewrite rs_be32_sum_eq; [|apply (rc_sk_bytes hf w wp H seed HC)|rewrite rbasic_sk_len; lia].
    rewrite rbasic_sk_index by auto. reflexivity.
  Qed.

  Lemma rbasic_sign : forall i msg, H <= 24 -> (i < 2 ^ N.of_nat H)%N -> signable hf msg ->
    rs_basic_sign (rbasic_obj i) msg = ROk (rbasic_obj (i + 1), rust_sig hf wp H seed (N.to_nat i) msg).
  Proof.
    intros i msg Hh Hi HS. unfold rs_basic_sign, rbasic_obj. cbn [rbas_base ro_sk ro_hash rbas_params rbas_w].
    pose proof (XmssBasic_sign_spec c wp HC (repeat 0%N 32) i (sk_seen hf (c_sk c wp i) msg) ltac:(cbn [rust_cfg c_height]; lia) Hi) as E.
    unfold XmssBasic_sign in E. cbn [c_obj xb_hash xb_params xb_sk rust_cfg c_hash] in E. unfold with_hash in E. rewrite hash_id_u8 in E.
    apply bind_ok in E. destruct E as ([sk s] & E & E1). apply Ok_inj' in E1. apply pair_equal_spec in E1. destruct E1 as [E1 E2].
    assert (Hs : (i + 1 < 2 ^ 32)%N) by (apply (rc_small hf w wp H seed HC); lia).
    rewrite (rs_sign_msg_eq hf (c_params c) (c_sk c wp i) _ msg sk s).
    - cbn [rbind]. unfold with_sk in E1. cbn [c_obj xb_params xb_hash xb_fmt xb_height xb_sk xb_seed] in E1. injection E1 as E1.
      unfold rs_with_sk. cbn [ro_hash ro_height ro_seed]. rewrite E1, E2.
      rewrite (rc_seen hf w wp H seed HC) by lia. reflexivity.
    - apply (cfg_wots c wp HC).
    - apply rbasic_sk_len.
    - apply (rc_sk_bytes hf w wp H seed HC).
    - rewrite repeat_length, (rc_sig_size hf w wp H seed HC). reflexivity.
    - rewrite rbasic_sk_index by lia. exact Hs.
    - exact HS.
    - exact E.
  Qed.

  Lemma rbasic_panic_last : forall i msg buf, (i < 2 ^ 32)%N -> (2 ^ 32 <= i + 1)%N ->
    rs_sign_msg hf (c_params c) (c_sk c wp i) buf msg = RPanic.
  Proof.
    intros i msg buf Hi Hs. unfold rs_sign_msg, rs_sign_front. rewrite rs_be32_eq by (first [apply (rc_sk_bytes hf w wp H seed HC)|rewrite rbasic_sk_len; lia]). cbn [rbind].
    rewrite rbasic_sk_index by auto. pose proof (rbasic_sk_len i) as L. generalize dependent (c_sk c wp i). intros sk L.
    rewrite (rslice_ok _ 4 36), (rslice_ok _ 36 68), (rslice_ok _ 68 100) by lia. cbn [rbind].
    rewrite !rcopy_ok by (rewrite repeat_length, firstn_length, skipn_length; lia). cbn [rbind].
    rewrite rs_to_byte_eq by (rewrite repeat_length; lia). cbn [rbind].
    rewrite (proj2 (N.leb_le _ _)) by lia. reflexivity.
  Qed.
  Lemma rbasic_panic_path : forall i oa T root, (i < 2 ^ 32)%N -> root_adrs oa -> 26 <= H \/ (2 ^ N.of_nat H <= i)%N ->
    rs_compute_authpath hf root T i (slice 4 32 (c_sk c wp i)) (c_params c) (slice 68 32 (c_sk c wp i)) oa = RPanic.
  Proof.
    intros i oa T root Hi Ro HP.
    destruct (le_lt_dec 26 H) as [Hh|Hh].
    { unfold rs_compute_authpath. change (x_h (c_params c)) with H. rewrite (proj2 (Nat.leb_le _ _) Hh). reflexivity. }
    assert (Hge : (2 ^ N.of_nat H <= i)%N) by (destruct HP; [lia|auto]).
    pose proof (co_h _ _ HC) as Hb. cbn [rust_cfg c_height] in Hb.
    destruct (wots_ok_facts _ (cfg_wots c wp HC)) as (Hw & _ & _ & Hlen & _).
    pose proof (rbasic_sk_len i) as L. 
    assert (Ex : x_h (c_params c) = H) by reflexivity.
    generalize dependent (c_sk c wp i). intros sk L. generalize dependent (c_params c). intros p Hw Hlen Ex.
    pose proof (compute_authpath_spec hf (firstn 32 (slice 4 32 sk)) (firstn 32 (slice 68 32 sk)) p Hw Hlen (repeat 0%N 32) 0 oa Ro) as E.
    specialize (E ltac:(lia) ltac:(pose proof (Nat.pow_nonzero 2 (x_h p)); lia)).
    destruct (rs_authpath_tree hf 0 (slice 4 32 sk) p (slice 68 32 sk) oa _ _
      ltac:(rewrite slice_length; lia) ltac:(rewrite slice_length; lia) E) as (tree & LT & ET).
    rewrite ET. apply rs_path_panic; auto; rewrite Ex; [lia|split; auto].
  Qed.
  Lemma rbasic_sign_panic : forall i msg, (i < 2 ^ 32)%N ->
    26 <= H \/ (2 ^ N.of_nat H <= i)%N \/ ~ signable hf msg -> rs_basic_sign (rbasic_obj i) msg = RPanic.
  Proof.
    intros i msg Hi HP. unfold rs_basic_sign, rbasic_obj. cbn [rbas_base ro_sk ro_hash rbas_params rbas_w].
    assert (Ls : length (repeat 0%N (rs_sig_size (mkRBase hf (N.of_nat H) (c_sk c wp i) seed) (Some w))) = 36 + w_keysize (x_wots (c_params c)) + x_h (c_params c) * 32)
      by (rewrite repeat_length, (rc_sig_size hf w wp H seed HC); reflexivity).
    generalize dependent (repeat 0%N (rs_sig_size (mkRBase hf (N.of_nat H) (c_sk c wp i) seed) (Some w))). intros buf Ls.
    destruct (N.lt_ge_cases (i + 1) (2 ^ 32)) as [Hs|Hs].
    2:{ rewrite rbasic_panic_last by auto. reflexivity. }
    destruct (signable_dec hf msg) as [HS|HS].
    2:{ rewrite rs_sign_msg_panic; auto using rbasic_sk_len; try lia.
        - apply (rc_sk_bytes hf w wp H seed HC).
        - rewrite rbasic_sk_index by auto. exact Hs. }
    rewrite rs_sign_msg_path_panic; auto using rbasic_sk_len.
    - apply (cfg_wots c wp HC).
    - apply (rc_sk_bytes hf w wp H seed HC).
    - rewrite rbasic_sk_index by auto. exact Hs.
    - intros oa T Ro. rewrite rbasic_sk_index by auto. apply rbasic_panic_path; auto. tauto.
  Qed.
End RBasic.
