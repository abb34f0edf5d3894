(** C73, XmssFast: initialize_tree(w) on an object, for every Winternitz parameter. *)
From Coq Require Import List NArith Arith Lia Bool.
From Verif Require Import Base Bytes Keccak KeccakLemmas HashAddress Wots XmssCommon AlgsXmss AlgsXmssFast Descriptor
  SpecXmss SpecApi SpecWinternitz XmssObj XmssRefine WotsProofs TreeProofs BasicProofs BdsSched BdsProofs BdsSetup
  FastProofs DescrProofs VerifyProofs PropObj PropWinternitz.
Import ListNotations.
Open Scope nat_scope.

Section FastW.
  Variables (hf : hashfn) (hash fmt w : N) (H : nat) (seed : list N).
  Hypothesis HS : sized_w w.
  Hypothesis Hh : hash_of_id hash = Some hf.
  Hypothesis H4 : 4 <= H <= 30.
  Hypothesis He : Nat.even H = true.
  Hypothesis HL : length seed = 48.
  Local Notation p := (mkXP (wpar w) H 2).
  Local Notation ssd := (key_seed seed).
  Local Notation prf := (key_prf seed).
  Local Notation ps := (key_pub seed).
  Local Notation root := (w_root hf w H seed).
  Local Notation mm := (H - 2).
  Local Notation qq := ((H - 2) / 2).
  Local Notation obj := (w_obj hf w hash fmt H seed).
  Local Notation sk := (w_sk hf w H seed).

  Lemma fw_mq : mm = 2 * qq /\ 1 <= qq /\ x_h p = mm + 2 /\ mm + 2 = H.
  Proof.
    pose proof He as He'. apply Nat.even_spec in He'. destruct He' as [y Ey].
    assert (E : qq = y - 1). { replace mm with ((y - 1) * 2) by lia. now apply Nat.div_mul. }
    rewrite E. cbn [x_h]. lia.
  Qed.
  Lemma fw_w1 : (1 <= w_w (x_wots p))%N.
  Proof. cbn [x_wots]. rewrite wpar_w. destruct HS as ((? & _) & _). lia. Qed.
  Lemma fw_len1 : 1 <= w_len (x_wots p).
  Proof. cbn [x_wots]. rewrite wpar_len. pose proof (cells_bounds w HS). lia. Qed.
  Lemma fw_root : root = tnode hf ssd ps p H 0.
  Proof. unfold w_root, tnode. cbn [x_wots]. now rewrite wpar_w, wpar_len. Qed.
  Lemma fw_root_len : length root = 32.
  Proof. now apply w_root_length. Qed.

  Definition fw_inv (i : N) (o : xfast) : Prop :=
    xf_base o = obj i /\ (i <= 2 ^ N.of_nat H)%N /\
    ((i < 2 ^ N.of_nat H)%N -> bds_ok hf ssd ps p mm qq (N.to_nat i) (xf_state o)).

  Lemma fw_init : forall junk,
    exists o, initialize_tree junk seed (N.of_nat H) hash fmt w = Ok o /\ fw_inv 0 o.
  Proof.
    intros junk. destruct fw_mq as (M1 & M2 & M3 & M4). unfold initialize_tree.
    assert (E : bad_height (N.of_nat H) = false).
    { pose proof He as He'. apply Nat.even_spec in He'. destruct He' as [y Ey]. replace (N.of_nat H) with (2 * N.of_nat y)%N by lia.
      rewrite bad_height_even. apply N.leb_gt. lia. }
    rewrite E, Nat2N.id, (xmss_params_sized H w HS) by (auto; lia). cbn [bind].
    rewrite (proj2 (N.leb_gt _ _)) by lia. unfold with_hash. rewrite Hh.
    unfold xmssfast_Genkeypair. rewrite (firstn_all2 (n := 48)) by (rewrite HL; lia).
    change (shake256 96 seed) with (key_stream seed).
    change (slice 0 32 (key_stream seed)) with ssd. change (slice 64 32 (key_stream seed)) with ps.
    destruct (treehash_setup_spec hf ssd ps p mm qq M1 M2 M3 eq_refl fw_w1 fw_len1 junk (fresh_bds (x_h p) (x_k p)) zero_adrs)
      as (st & Es & HB); cbn [fresh_bds b_stackoffset b_stack b_stacklevels b_auth b_keep b_treehash b_retain];
      rewrite ?repeat_length; cbn [x_h x_k]; try (rewrite M4; reflexivity); try reflexivity.
    { repeat split. }
    change (x_h p) with H. change (x_k p) with 2. cbn [x_h x_k] in Es. rewrite Es. cbn [bind].
    eexists. split; [reflexivity|]. split; [|split; [lia|]].
    - cbn [xf_base]. unfold w_obj. f_equal. unfold w_sk. rewrite key_stream_split, <- !app_assoc.
      change (to_byte 4 0) with [0;0;0;0]%N. rewrite fw_root, M4. reflexivity.
    - intros _. exact HB.
  Qed.

  Lemma fw_pow : (2 ^ N.of_nat H <= 2 ^ 30)%N.
  Proof. apply N.pow_le_mono_r; [lia|]. lia. Qed.
  Lemma fw_slices : forall i, slice 0 4 (sk i) = to_byte 4 i /\ slice 4 32 (sk i) = ssd /\ slice 36 32 (sk i) = prf /\
    slice 68 32 (sk i) = ps /\ slice 100 32 (sk i) = root /\ skipn 4 (sk i) = ssd ++ prf ++ ps ++ root.
  Proof.
    intros i. destruct (key_lengths seed) as (L1 & L2 & L3). rewrite w_sk_sk_at.
    apply (sk_at_slices ssd prf ps root p L1 L2 L3 fw_root_len i).
  Qed.
  Lemma fw_index : forall i, (i <= 2 ^ N.of_nat H)%N -> from_be (slice 0 4 (sk i)) = i.
  Proof.
    intros i Hi. destruct (fw_slices i) as (E & _). rewrite E. apply from_be_to_byte4. pose proof fw_pow.
    change (2 ^ 32)%N with 4294967296%N. change (2 ^ 30)%N with 1073741824%N in *. lia.
  Qed.

  Lemma fw_advance : forall n s st, bds_ok hf ssd ps p mm qq s st -> s + n < 2 ^ H ->
    exists st', for_from n s (fun j st => bds_step hf p ssd ps zero_adrs j st) st = Ok st' /\
      bds_ok hf ssd ps p mm qq (s + n) st'.
  Proof.
    destruct fw_mq as (M1 & M2 & M3 & M4).
    induction n; intros s st HB Hs; cbn [for_from].
    - exists st. now rewrite Nat.add_0_r.
    - destruct (bds_step_spec hf ssd ps p mm qq M1 M2 M3 eq_refl fw_w1 fw_len1 s st zero_adrs) as (st1 & E1 & HB1); auto.
      { repeat split. } { rewrite M4. lia. }
      rewrite E1. cbn [bind]. rewrite Nat.add_1_r in HB1.
      destruct (IHn (S s) st1 HB1) as (st2 & E2 & HB2); [lia|].
      exists st2. split; auto. now replace (s + S n) with (S s + n) by lia.
  Qed.

  Lemma fw_setIndex : forall o i j, fw_inv i o ->
    exists o', xfast_setIndex o j = Ok (o', if ((j <? 2 ^ N.of_nat H) && (i <=? j))%N then inr j else inl InvalidArgument) /\
      (if ((j <? 2 ^ N.of_nat H) && (i <=? j))%N then fw_inv j o' else o' = o).
  Proof.
    intros [b st] i j (Eb & Hi & HB). cbn [xf_base xf_state] in *. subst b.
    unfold xfast_setIndex. cbn [xf_base xf_state w_obj xb_hash xb_params xb_sk].
    unfold with_hash. rewrite Hh. unfold xmssfast_update.
    rewrite fw_index by exact Hi. change (x_h p) with H.
    destruct (2 ^ N.of_nat H <=? j)%N eqn:E1.
    { apply N.leb_le in E1. rewrite (proj2 (N.ltb_ge _ _) E1). cbn [andb bind].
      eexists. split; [reflexivity|]. reflexivity. }
    apply N.leb_gt in E1. rewrite (proj2 (N.ltb_lt _ _) E1). cbn [andb].
    destruct (j <? i)%N eqn:E2.
    { apply N.ltb_lt in E2. rewrite (proj2 (N.leb_gt _ _) E2). cbn [bind].
      eexists. split; [reflexivity|]. reflexivity. }
    apply N.ltb_ge in E2. rewrite (proj2 (N.leb_le _ _) E2).
    destruct (fw_slices i) as (P0 & P1 & P2 & P3 & P4 & P5). rewrite P1, P3, P5.
    assert (Hj : N.to_nat j < 2 ^ H) by (rewrite <- pow_N_nat; lia).
    destruct (fw_advance (N.to_nat j - N.to_nat i) (N.to_nat i) st) as (st' & Ea & HB').
    { apply HB. lia. } { lia. }
    rewrite Ea. cbn [bind].
    eexists. split; [reflexivity|]. split; [reflexivity|]. split; [lia|]. intros _.
    cbn [xf_state]. now replace (N.to_nat j) with (N.to_nat i + (N.to_nat j - N.to_nat i)) by lia.
  Qed.

  Lemma fw_auth : forall s st, bds_ok hf ssd ps p mm qq s st ->
    firstn H (b_auth st) = auth_path hf (N.to_nat (w_w (x_wots p))) (w_len (x_wots p)) ssd ps H s.
  Proof.
    intros s st HB. destruct fw_mq as (M1 & M2 & M3 & M4).
    assert (L : length (b_auth st) = H) by (rewrite (bo_auth_len _ _ _ _ _ _ _ _ HB); lia).
    rewrite firstn_all2 by lia. apply nth_ext with (d := []) (d' := []).
    - now rewrite auth_path_length.
    - intros n Hn. rewrite L in Hn. unfold auth_path.
      pose proof (bo_auth _ _ _ _ _ _ _ _ HB n ltac:(lia)) as A. apply nth_error_nth with (d := []) in A. rewrite A.
      symmetry. apply nth_error_nth. rewrite nth_error_map.
      rewrite (nth_error_nth' (seq 0 H) 0) by (rewrite seq_length; lia). rewrite seq_nth by lia. reflexivity.
  Qed.

  Lemma fw_getIndex : forall o i, fw_inv i o -> getIndex (xf_base o) = i.
  Proof.
    intros o i (Eb & Hi & _). rewrite Eb. apply w_getIndex; auto.
    pose proof fw_pow. change (2 ^ 32)%N with 4294967296%N. change (2 ^ 30)%N with 1073741824%N in *. lia.
  Qed.

  Section Usable.
  Hypothesis HU : usable_w w.
  Lemma fw_Signmsg : forall o i msg, fw_inv i o -> (i < 2 ^ N.of_nat H)%N ->
    exists st', xmssfast_Signmsg hf p (sk i) (xf_state o) msg =
      Ok (sk (i + 1), st', w_sig hf w H seed (N.to_nat i) msg) /\
      fw_inv (i + 1) (mkXF (obj (i + 1)) st').
  Proof.
    intros [b st] i msg (Eb & Hi & HB) Hlt. cbn [xf_base xf_state] in *. specialize (HB Hlt).
    destruct fw_mq as (M1 & M2 & M3 & M4). pose proof (usable_ok w HU) as HP.
    unfold xmssfast_Signmsg. rewrite fw_index by exact Hi. change (x_h p) with H.
    destruct (fw_slices i) as (P0 & P1 & P2 & P3 & P4 & P5). rewrite P1, P2, P3, P4, P5.
    rewrite <- (w_signature hf w H seed (N.to_nat i) msg HU). unfold signature. set (idx := N.to_nat i).
    assert (Ei : i = N.of_nat idx) by (unfold idx; now rewrite N2Nat.id). rewrite Ei.
    assert (ER : HashAddress.prf hf (to_byte 32 (N.of_nat idx)) prf = randomizer hf prf idx) by apply prf_PRF.
    rewrite ER. set (R := randomizer hf prf idx).
    assert (Ed : h_msg hf msg (R ++ root ++ to_byte 32 (N.of_nat idx)) = digest hf R root idx msg).
    { unfold h_msg, digest. now rewrite core_hash_keyed. }
    rewrite Ed. set (dg := digest hf R root idx msg).
    destruct (digits_of_ok (x_wots p) dg HP) as (D1 & D2 & D3). { apply keyed_length. }
    destruct (get_seed_spec hf ssd _ idx (ots_adrs_init idx)) as (a1 & G1 & A1). rewrite G1.
    destruct (wots_sign_spec hf (x_wots p) dg (ots_seed hf ssd idx) ps a1 idx ssd (digits_of (x_wots p) dg) A1 eq_refl D1 D2 D3)
      as (a2 & G2 & A2).
    rewrite G2. cbn [bind]. rewrite (fw_auth idx st HB).
    assert (Hidx : idx < 2 ^ H) by (rewrite <- pow_N_nat; unfold idx; lia).
    assert (Hst : exists st', (if (N.of_nat idx <? 2 ^ N.of_nat H - 1)%N
         then bds_step hf p ssd ps a2 idx st else Ok st) = Ok st' /\
         ((N.of_nat idx + 1 < 2 ^ N.of_nat H)%N -> bds_ok hf ssd ps p mm qq (idx + 1) st')).
    { destruct (N.of_nat idx <? 2 ^ N.of_nat H - 1)%N eqn:El.
      - apply N.ltb_lt in El.
        destruct (bds_step_spec hf ssd ps p mm qq M1 M2 M3 eq_refl fw_w1 fw_len1 idx st a2) as (st1 & E1 & HB1); auto.
        { apply A2. } { rewrite M4. rewrite <- pow_N_nat. lia. }
        exists st1. auto.
      - apply N.ltb_ge in El. exists st. split; auto. intros; lia. }
    destruct Hst as (st' & Est & HB'). rewrite Est. cbn [bind].
    exists st'. split; [reflexivity|]. split; [reflexivity|]. split; [lia|].
    intros Hl. cbn [xf_state]. replace (N.to_nat (N.of_nat idx + 1)) with (idx + 1) by lia. auto.
  Qed.

  Theorem fw_step : forall o i op, fw_inv i o ->
    exists o', step o op = Ok (o', snd (ref_step H (w_sig hf w H seed) i op)) /\
      fw_inv (fst (ref_step H (w_sig hf w H seed) i op)) o'.
  Proof.
    intros o i op HI. destruct op as [m|j]; cbn [step ref_step].
    - unfold xfast_sign. rewrite (fw_getIndex o i HI). destruct (fw_setIndex o i i HI) as (o1 & E1 & H1).
      rewrite E1. cbn [bind]. rewrite N.leb_refl, andb_true_r in *.
      destruct (i <? 2 ^ N.of_nat H)%N eqn:El.
      + apply N.ltb_lt in El. pose proof H1 as (Eb1 & Hi1 & HB1). rewrite Eb1.
        cbn [w_obj xb_hash xb_params xb_sk]. unfold with_hash. rewrite Hh.
        destruct (fw_Signmsg o1 i m H1 El) as (st' & Es & HI').
        rewrite Es. cbn [bind]. eexists. split; [reflexivity|]. cbn [fst snd]. exact HI'.
      + cbn [bind]. subst o1. exists o. cbn [fst snd]. auto.
    - destruct (fw_setIndex o i j HI) as (o1 & E1 & H1). rewrite E1. cbn [bind].
      destruct ((j <? 2 ^ N.of_nat H)%N && (i <=? j)%N) eqn:Ec; cbn [fst snd].
      + exists o1. split; [reflexivity|]. auto.
      + subst o1. exists o. auto.
  Qed.
  Theorem fw_run : forall cs o i, fw_inv i o ->
    exists o', run o cs = Ok (o', snd (ref_run H (w_sig hf w H seed) i cs)) /\
      fw_inv (fst (ref_run H (w_sig hf w H seed) i cs)) o'.
  Proof.
    induction cs as [|a cs IH]; intros o i HI; cbn [run ref_run].
    - exists o. auto.
    - destruct (fw_step o i a HI) as (o1 & E1 & HI1). rewrite E1. cbn [bind].
      destruct (ref_step H (w_sig hf w H seed) i a) as [i1 x1]. cbn [fst snd] in *.
      destruct (IH o1 i1 HI1) as (o2 & E2 & HI2). rewrite E2. cbn [bind].
      destruct (ref_run H (w_sig hf w H seed) i1 cs) as [i2 xs]. cbn [fst snd] in *. exists o2. auto.
  Qed.
  End Usable.

  Lemma fw_sign_undefined : forall o i msg, ~ usable_w w -> fw_inv i o -> (i < 2 ^ N.of_nat H)%N -> xfast_sign o msg = UB.
  Proof.
    intros o i msg HU HI Hi. unfold xfast_sign. rewrite (fw_getIndex o i HI).
    destruct (fw_setIndex o i i HI) as (o1 & E1 & H1). rewrite E1. cbn [bind].
    rewrite N.leb_refl, andb_true_r in *. rewrite (proj2 (N.ltb_lt _ _) Hi) in *. destruct H1 as (Eb & _). rewrite Eb.
    cbn [w_obj xb_hash xb_params xb_sk]. unfold with_hash. rewrite Hh.
    unfold xmssfast_Signmsg. cbv zeta. destruct (get_seed hf _ _) as [os a]. unfold wots_sign. cbn [x_wots].
    rewrite digits_undefined; auto. unfold h_msg. rewrite core_hash_keyed. apply keyed_length.
  Qed.
End FastW.

(** The object an XmssFast object becomes by initialize_tree(w), after any history. *)
Lemma fast_reinit : forall junk seed height hash hf fmt, supported hash hf 16 w16 height seed ->
  exists x, XmssFast_new junk seed (N.of_nat height) hash fmt = Ok x /\
    forall cs y os, run x cs = Ok (y, os) ->
      forall junk' w, xfast_initialize_tree junk' y w = initialize_tree junk' seed (N.of_nat height) hash fmt w.
Proof.
  intros junk seed height hash hf fmt HS. destruct (new_run _ _ _ _ fmt HS junk) as (x & E & HR). exists x. split; auto.
  intros cs y os Er junk' w. destruct (HR cs) as (y' & Er' & HI). rewrite Er in Er'. apply Ok_inj in Er'.
  apply pair_equal_spec in Er'. destruct Er' as [-> _]. destruct HI as (Eb & _).
  unfold xfast_initialize_tree. rewrite Eb. reflexivity.
Qed.

(** Usable w: whatever happened before, initialize_tree(w) gives a key whose every
    history of calls has the observations of the reference machine started at index
    0 with the signatures for w, and each of them is accepted by verify with that w
    under the new public key. *)
Theorem C73_fast_usable : forall junk seed height hash hf fmt w,
  supported hash hf 16 w16 height seed -> usable_w w ->
  exists x, XmssFast_new junk seed (N.of_nat height) hash fmt = Ok x /\
    forall before y os junk', run x before = Ok (y, os) ->
      exists z, xfast_initialize_tree junk' y w = Ok z /\ getIndex (xf_base z) = 0%N /\
        forall cs, exists z' obs, run z cs = Ok (z', obs) /\
          obs = snd (ref_run height (w_sig hf w height seed) 0 cs) /\
          getIndex (xf_base z') = fst (ref_run height (w_sig hf w height seed) 0 cs) /\
          getPK (xf_base z') = getPK (xf_base z) /\
          forall n msg sig, nth_error cs n = Some (OpSign msg) -> nth_error obs n = Some (ObsSig sig) ->
            verify msg sig (getPK (xf_base z)) w = Ok true.
Proof.
  intros junk seed height hash hf fmt w HSu HU. pose proof (usable_sized w HU) as HS.
  destruct (fast_reinit junk seed height hash hf fmt HSu) as (x & Ex & HR). exists x. split; [exact Ex|].
  intros before y os junk' Er. rewrite (HR _ _ _ Er). clear HR Er Ex.
  destruct HSu as (Hh & _ & H4 & He & HL).
  destruct (fw_init hf hash fmt w height seed HS Hh H4 He HL junk') as (z & Ez & HI).
  exists z. split; [exact Ez|]. split; [eapply fw_getIndex; eauto|].
  intros cs. destruct (fw_run hf hash fmt w height seed HS Hh H4 He HL HU cs z 0%N HI) as (z' & Ez' & HI').
  exists z'. eexists. split; [exact Ez'|]. split; [reflexivity|]. split; [eapply fw_getIndex; eauto|].
  assert (PK0 : getPK (xf_base z) = getPK (w_obj hf w hash fmt height seed 0)).
  { destruct HI as (Eb & _). now rewrite Eb. }
  split. { rewrite PK0. destruct HI' as (Eb & _). rewrite Eb. now rewrite !w_getPK. }
  rewrite PK0. clear - HU Hh H4 He. intros n msg sig En Eo. revert n En Eo. generalize 0%N as i.
  induction cs as [|a cs IH]; intros i n En Eo; [destruct n; discriminate|].
  cbn [ref_run] in Eo. destruct (ref_step height (w_sig hf w height seed) i a) as [i1 x1] eqn:Es.
  destruct (ref_run height (w_sig hf w height seed) i1 cs) as [i2 xs] eqn:Er. cbn [snd] in Eo.
  destruct n; cbn [nth_error] in *.
  - injection En as ->. injection Eo as ->. cbn [ref_step] in Es. destruct (i <? 2 ^ N.of_nat height)%N eqn:El; [|discriminate].
    apply N.ltb_lt in El. apply pair_equal_spec in Es. destruct Es as [_ Es].
    assert (Esig : sig = w_sig hf w height seed (N.to_nat i) msg) by congruence. rewrite Esig.
    apply w_sig_verifies; auto. rewrite <- pow_N_nat. lia.
  - apply (IH i1 n En). rewrite Er. exact Eo.
Qed.

(** Unusable w: initialize_tree(w) succeeds, setIndex works, and sign with any
    remaining index is undefined. *)
Theorem C73_fast_unusable : forall junk seed height hash hf fmt w,
  supported hash hf 16 w16 height seed -> sized_w w -> ~ usable_w w ->
  exists x, XmssFast_new junk seed (N.of_nat height) hash fmt = Ok x /\
    forall before y os junk', run x before = Ok (y, os) ->
      exists z, xfast_initialize_tree junk' y w = Ok z /\
        (forall msg, xfast_sign z msg = UB) /\
        forall i, (i < 2 ^ N.of_nat height)%N ->
          exists z', xfast_setIndex z i = Ok (z', inr i) /\ getIndex (xf_base z') = i /\
            forall msg, xfast_sign z' msg = UB.
Proof.
  intros junk seed height hash hf fmt w HSu HS HU.
  destruct (fast_reinit junk seed height hash hf fmt HSu) as (x & Ex & HR). exists x. split; [exact Ex|].
  intros before y os junk' Er. rewrite (HR _ _ _ Er). clear HR Er Ex.
  destruct HSu as (Hh & _ & H4 & He & HL).
  destruct (fw_init hf hash fmt w height seed HS Hh H4 He HL junk') as (z & Ez & HI).
  exists z. split; [exact Ez|].
  assert (PP : (0 < 2 ^ N.of_nat height)%N) by (apply N.neq_0_lt_0, N.pow_nonzero; lia).
  split. { intros msg. eapply fw_sign_undefined; eauto. }
  intros i Hi. destruct (fw_setIndex hf hash fmt w height seed HS Hh H4 He HL z 0 i HI) as (z' & E & HI').
  rewrite (proj2 (N.ltb_lt _ _) Hi), (proj2 (N.leb_le _ _) (N.le_0_l i)) in E, HI'. cbn [andb] in E, HI'.
  exists z'. split; [exact E|]. split; [eapply fw_getIndex; eauto|]. intros msg. eapply fw_sign_undefined; eauto.
Qed.

(** w without sizes: initialize_tree(w) itself is undefined. *)
Theorem C73_fast_unsized : forall junk seed height hash hf fmt w,
  supported hash hf 16 w16 height seed -> ~ sized_w w ->
  exists x, XmssFast_new junk seed (N.of_nat height) hash fmt = Ok x /\
    forall before y os junk', run x before = Ok (y, os) -> xfast_initialize_tree junk' y w = UB.
Proof.
  intros junk seed height hash hf fmt w HSu HS.
  destruct (fast_reinit junk seed height hash hf fmt HSu) as (x & Ex & HR). exists x. split; [exact Ex|].
  intros before y os junk' Er. rewrite (HR _ _ _ Er). clear HR Er Ex.
  destruct HSu as (Hh & _ & H4 & He & HL). unfold initialize_tree.
  assert (E : bad_height (N.of_nat height) = false).
  { apply Nat.even_spec in He. destruct He as [v Ev]. replace (N.of_nat height) with (2 * N.of_nat v)%N by lia.
    rewrite bad_height_even. apply N.leb_gt. lia. }
  rewrite E. unfold xmss_set_params.
  destruct ((N.to_nat (N.of_nat height) <=? 2) || (2 <? 2) || negb ((N.to_nat (N.of_nat height) - 2) mod 2 =? 0))%bool; [reflexivity|].
  now rewrite (set_params_unsized w HS).
Qed.

Example C73_fast_hypotheses : supported 1 SHAKE_128 16 w16 10 (repeat 7%N 48) /\ usable_w 6 /\ (sized_w 8 /\ ~ usable_w 8) /\ ~ sized_w 1.
Proof.
  unfold supported, usable_w. repeat match goal with |- _ /\ _ => split end; try reflexivity; try lia.
  - split; [split; [lia|reflexivity]|vm_compute; discriminate].
  - intros [[H _] _]. lia.
Qed.
