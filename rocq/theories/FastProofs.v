(** XmssFast and XmssBasic objects against SpecApi.v. *)
From Coq Require Import List NArith Arith Lia Bool.
From Verif Require Import Base Bytes Keccak KeccakLemmas HashAddress Wots XmssCommon AlgsXmss AlgsXmssFast Descriptor
  SpecXmss SpecApi XmssObj XmssRefine WotsProofs TreeProofs BasicProofs BdsSched BdsProofs BdsSetup.
Import ListNotations.
Open Scope nat_scope.

(** ** Parameters *)
Definition wparams (w : N) : wots_params :=
  match winternitz w with
  | Some (lw, l1, l2) => mkWP w lw l1 l2
  | None => mkWP w 0 0 0
  end.

Lemma winternitz_cases : forall w wp, winternitz w = Some wp ->
  (w = 2%N /\ wp = (1, 256, 9)) \/ (w = 4%N /\ wp = (2, 128, 5)) \/
  (w = 16%N /\ wp = (4, 64, 3)) \/ (w = 256%N /\ wp = (8, 32, 2)).
Proof.
  intros w wp. unfold winternitz.
  destruct (w =? 2)%N eqn:E1; [apply N.eqb_eq in E1; intros H; injection H as <-; auto|].
  destruct (w =? 4)%N eqn:E2; [apply N.eqb_eq in E2; intros H; injection H as <-; auto|].
  destruct (w =? 16)%N eqn:E3; [apply N.eqb_eq in E3; intros H; injection H as <-; auto|].
  destruct (w =? 256)%N eqn:E4; [apply N.eqb_eq in E4; intros H; injection H as <-; auto 10|]. discriminate.
Qed.

Lemma wparams_ok : forall w wp, winternitz w = Some wp ->
  wots_set_params w = Ok (wparams w) /\ wots_ok (wparams w) /\
  w_w (wparams w) = w /\ N.to_nat w = 2 ^ fst (fst wp) /\ w_log_w (wparams w) = fst (fst wp) /\
  w = (2 ^ N.of_nat (fst (fst wp)))%N /\
  w_len_1 (wparams w) = snd (fst wp) /\ w_len_2 (wparams w) = snd wp /\
  w_len (wparams w) = snd (fst wp) + snd wp.
Proof.
  intros w wp H.
  assert (E : wots_set_params w = Ok (wparams w)).
  { apply winternitz_cases in H. destruct H as [(-> & ->)|[(-> & ->)|[(-> & ->)|(-> & ->)]]]; vm_compute; reflexivity. }
  split; [exact E|]. split.
  - split; [eauto|]. unfold wparams. rewrite H. apply winternitz_cases in H.
    destruct H as [(-> & ->)|[(-> & ->)|[(-> & ->)|(-> & ->)]]]; cbn; auto.
  - unfold wparams. rewrite H. apply winternitz_cases in H.
    destruct H as [(-> & ->)|[(-> & ->)|[(-> & ->)|(-> & ->)]]]; repeat split; reflexivity.
Qed.

Lemma digits_of_msg : forall w wp m, winternitz w = Some wp -> length m = 32 ->
  digits_of (wparams w) m = msg_digits (fst (fst wp)) (snd (fst wp)) (snd wp) m.
Proof.
  intros w wp m H HM. destruct (wparams_ok w wp H) as (_ & HP & E1 & E2 & E3 & E4 & E5 & E6 & _).
  unfold digits_of. rewrite (wots_digits_msg_digits (wparams w) (fst (fst wp)) m); auto.
  - now rewrite E5, E6.
  - congruence.
Qed.

(** ** Key material *)
Lemma key_lengths : forall seed, length (key_seed seed) = 32 /\ length (key_prf seed) = 32 /\ length (key_pub seed) = 32.
Proof.
  intros. unfold key_seed, key_prf, key_pub, key_stream.
  pose proof (shake256_length 96 seed) as L. change (96%nat) with 96 in L.
  repeat split; rewrite firstn_length, ?skipn_length, L; reflexivity.
Qed.

Lemma key_stream_split : forall seed, key_stream seed = key_seed seed ++ key_prf seed ++ key_pub seed.
Proof.
  intros. unfold key_seed, key_prf, key_pub. set (rb := key_stream seed).
  assert (LL : length rb = 96) by apply shake256_length.
  rewrite <- (firstn_skipn 32 rb) at 1. f_equal.
  rewrite <- (firstn_skipn 32 (skipn 32 rb)) at 1. f_equal.
  rewrite skipn_add. cbn [plus]. symmetry. apply firstn_all2. rewrite skipn_length. lia.
Qed.

(** Objects with the public parameters of a key pair. *)
Record key_cfg : Type := mkCfg { c_hf : hashfn; c_hash : N; c_w : N; c_fmt : N; c_height : nat; c_seed : list N }.

Record cfg_ok (c : key_cfg) (wp : nat * nat * nat) : Prop := {
  co_hash : hash_of_id (c_hash c) = Some (c_hf c);
  co_w : winternitz (c_w c) = Some wp;
  co_h : 4 <= c_height c <= 30;
  co_even : Nat.even (c_height c) = true;
  co_seed : length (c_seed c) = 48 }.

Definition c_params (c : key_cfg) : xmss_params := mkXP (wparams (c_w c)) (c_height c) 2.
Definition c_sk (c : key_cfg) (wp : nat * nat * nat) (i : N) : list N := ref_sk (c_hf c) wp (c_height c) (c_seed c) i.
Definition c_obj (c : key_cfg) (wp : nat * nat * nat) (i : N) : xbase :=
  mkXB (c_params c) (c_hash c) (c_fmt c) (N.of_nat (c_height c)) (c_sk c wp i) (c_seed c).
Definition c_sig (c : key_cfg) (wp : nat * nat * nat) := ref_sig (c_hf c) wp (c_height c) (c_seed c).

Section Obj.
  Variables (c : key_cfg) (wp : nat * nat * nat).
  Hypothesis HC : cfg_ok c wp.
  Local Notation p := (c_params c).
  Local Notation hf := (c_hf c).
  Local Notation H := (c_height c).
  Local Notation ssd := (key_seed (c_seed c)).
  Local Notation prf := (key_prf (c_seed c)).
  Local Notation ps := (key_pub (c_seed c)).
  Local Notation root := (ref_root hf wp H (c_seed c)).

  Lemma cfg_root : root = tnode hf ssd ps p H 0.
  Proof.
    unfold ref_root, tnode. destruct (wparams_ok _ _ (co_w _ _ HC)) as (_ & _ & E1 & E2 & _ & _ & _ & _ & E7).
    cbn [c_params x_wots]. now rewrite E1, E2, E7.
  Qed.
  Lemma cfg_sk : forall i, c_sk c wp i = sk_at i ssd prf ps root.
  Proof. reflexivity. Qed.
  Lemma cfg_root_len : length root = 32.
  Proof.
    unfold ref_root. apply node_length. pose proof (co_w _ _ HC) as Hw0. apply winternitz_cases in Hw0.
    destruct Hw0 as [(_ & ->)|[(_ & ->)|[(_ & ->)|(_ & ->)]]]; cbn; lia.
  Qed.
  Lemma cfg_wots : wots_ok (x_wots p).
  Proof. apply (wparams_ok _ _ (co_w _ _ HC)). Qed.

  Lemma cfg_sig : forall i msg,
    signature hf (N.to_nat (w_w (x_wots p))) (w_len (x_wots p)) H (digits_of (x_wots p)) ssd prf ps root i msg = c_sig c wp i msg.
  Proof.
    intros. unfold c_sig, ref_sig. destruct (wparams_ok _ _ (co_w _ _ HC)) as (_ & _ & E1 & E2 & _ & _ & _ & _ & E7).
    cbn [c_params x_wots]. rewrite E1, E2, E7. unfold signature.
    rewrite (digits_of_msg _ _ _ (co_w _ _ HC)) by apply keyed_length. reflexivity.
  Qed.

  Lemma cfg_height_ok : bad_height (N.of_nat H) = false.
  Proof.
    pose proof (co_h _ _ HC). unfold bad_height. apply orb_false_iff. split; [apply N.leb_gt; lia|].
    apply negb_false_iff, N.eqb_eq. pose proof (co_even _ _ HC) as He. apply Nat.even_spec in He.
    destruct He as [y Ey]. rewrite Ey. replace (N.of_nat (2 * y) - 2)%N with (N.of_nat (y - 1) * 2)%N by lia.
    apply N.mod_mul. lia.
  Qed.

  Lemma cfg_set_params : xmss_set_params H (c_w c) 2 = Ok p.
  Proof.
    pose proof (co_h _ _ HC) as Hb. unfold xmss_set_params.
    assert (E : ((H <=? 2) || (2 <? 2) || negb ((H - 2) mod 2 =? 0))%bool = false).
    { rewrite (proj2 (Nat.leb_gt _ _)) by lia. cbn [orb]. change (2 <? 2) with false. cbn [orb].
      apply negb_false_iff, Nat.eqb_eq. pose proof (co_even _ _ HC) as He. apply Nat.even_spec in He.
      destruct He as [y Ey]. replace (H - 2) with ((y - 1) * 2) by lia. apply Nat.mod_mul. lia. }
    rewrite E. destruct (wparams_ok _ _ (co_w _ _ HC)) as (E1 & _). rewrite E1. reflexivity.
  Qed.

  (** *** XmssFast *)
  Local Notation mm := (H - 2).
  Local Notation qq := ((H - 2) / 2).

  Lemma cfg_mq : mm = 2 * qq /\ 1 <= qq /\ x_h p = mm + 2 /\ mm + 2 = H.
  Proof.
    pose proof (co_h _ _ HC) as Hb. pose proof (co_even _ _ HC) as He. apply Nat.even_spec in He. destruct He as [y Ey].
    assert (E : qq = y - 1). { replace mm with ((y - 1) * 2) by lia. now apply Nat.div_mul. }
    rewrite E. cbn [c_params x_h]. lia.
  Qed.

  (** The object whose next one-time key is [i]. *)
  Definition fast_inv (i : N) (o : xfast) : Prop :=
    xf_base o = c_obj c wp i /\ (i <= 2 ^ N.of_nat H)%N /\
    ((i < 2 ^ N.of_nat H)%N -> bds_ok hf ssd ps p mm qq (N.to_nat i) (xf_state o)).

  Lemma initialize_tree_spec : forall junk,
    exists o, initialize_tree junk (c_seed c) (N.of_nat H) (c_hash c) (c_fmt c) (c_w c) = Ok o /\ fast_inv 0 o.
  Proof.
    intros junk. pose proof (co_h _ _ HC) as Hb. destruct cfg_mq as (M1 & M2 & M3 & M4).
    unfold initialize_tree. rewrite cfg_height_ok, Nat2N.id, cfg_set_params. cbn [bind].
    rewrite (proj2 (N.leb_gt _ _)) by lia. unfold with_hash. rewrite (co_hash _ _ HC).
    unfold xmssfast_Genkeypair. rewrite (firstn_all2 (n := 48)) by (rewrite (co_seed _ _ HC); lia).
    change (shake256 96 (c_seed c)) with (key_stream (c_seed c)).
    change (slice 0 32 (key_stream (c_seed c))) with ssd. change (slice 64 32 (key_stream (c_seed c))) with ps.
    destruct (wots_ok_facts _ cfg_wots) as (Hw & _ & _ & Hlen & _).
    destruct (treehash_setup_spec hf ssd ps p mm qq M1 M2 M3 eq_refl Hw Hlen junk (fresh_bds (x_h p) (x_k p)) zero_adrs)
      as (st & E & HB); cbn [fresh_bds b_stackoffset b_stack b_stacklevels b_auth b_keep b_treehash b_retain];
      rewrite ?repeat_length; cbn [c_params x_h x_k]; try (rewrite M4; reflexivity); try reflexivity.
    { repeat split. }
    change (x_h p) with H. change (x_k p) with 2. cbn [x_h x_k c_params] in E. rewrite E. cbn [bind].
    eexists. split; [reflexivity|]. split; [|split; [lia|]].
    - cbn [xf_base]. unfold c_obj. f_equal. unfold c_sk, ref_sk. rewrite key_stream_split, <- !app_assoc.
      change (to_byte 4 0) with [0;0;0;0]%N. rewrite cfg_root, M4. reflexivity.
    - intros _. exact HB.
  Qed.

  Lemma pow_H_bound : (2 ^ N.of_nat H <= 2 ^ 30)%N.
  Proof. apply N.pow_le_mono_r; [lia|]. pose proof (co_h _ _ HC). lia. Qed.

  Lemma sk_index : forall i, (i <= 2 ^ N.of_nat H)%N -> from_be (slice 0 4 (c_sk c wp i)) = i.
  Proof.
    intros i Hi. destruct (key_lengths (c_seed c)) as (L1 & L2 & L3).
    rewrite cfg_sk. destruct (sk_at_slices ssd prf ps root p L1 L2 L3 cfg_root_len i) as (E0 & _).
    rewrite E0. apply from_be_to_byte4. pose proof pow_H_bound.
    change (2 ^ 32)%N with 4294967296%N. change (2 ^ 30)%N with 1073741824%N in *. lia.
  Qed.
  Lemma sk_parts : forall i, slice 4 32 (c_sk c wp i) = ssd /\ slice 36 32 (c_sk c wp i) = prf /\
    slice 68 32 (c_sk c wp i) = ps /\ slice 100 32 (c_sk c wp i) = root /\ skipn 4 (c_sk c wp i) = ssd ++ prf ++ ps ++ root.
  Proof.
    intros i. destruct (key_lengths (c_seed c)) as (L1 & L2 & L3).
    rewrite cfg_sk. apply (sk_at_slices ssd prf ps root p L1 L2 L3 cfg_root_len i).
  Qed.

  Lemma pow_N_nat : forall n, N.to_nat (2 ^ N.of_nat n) = 2 ^ n.
  Proof. intros. rewrite N2Nat.inj_pow, Nat2N.id. reflexivity. Qed.

  (** The catch-up loop. *)
  Lemma advance_spec : forall n s st, bds_ok hf ssd ps p mm qq s st -> s + n < 2 ^ H ->
    exists st', for_from n s (fun j st => bds_step hf p ssd ps zero_adrs j st) st = Ok st' /\
      bds_ok hf ssd ps p mm qq (s + n) st'.
  Proof.
    destruct cfg_mq as (M1 & M2 & M3 & M4). destruct (wots_ok_facts _ cfg_wots) as (Hw & _ & _ & Hlen & _).
    induction n; intros s st HB Hs; cbn [for_from].
    - exists st. now rewrite Nat.add_0_r.
    - destruct (bds_step_spec hf ssd ps p mm qq M1 M2 M3 eq_refl Hw Hlen s st zero_adrs) as (st1 & E1 & HB1); auto.
      { repeat split. } { rewrite M4. lia. }
      rewrite E1. cbn [bind]. rewrite Nat.add_1_r in HB1.
      destruct (IHn (S s) st1 HB1 ltac:(lia)) as (st2 & E2 & HB2).
      exists st2. split; auto. now replace (s + S n) with (S s + n) by lia.
  Qed.

  Lemma setIndex_spec : forall o i j, fast_inv i o ->
    exists o', xfast_setIndex o j = Ok (o', if ((j <? 2 ^ N.of_nat H) && (i <=? j))%N then inr j else inl InvalidArgument) /\
      (if ((j <? 2 ^ N.of_nat H) && (i <=? j))%N then fast_inv j o' else o' = o).
  Proof.
    intros [b st] i j (Eb & Hi & HB). cbn [xf_base xf_state] in *. subst b.
    unfold xfast_setIndex. cbn [xf_base xf_state c_obj xb_hash xb_params xb_sk].
    unfold with_hash. rewrite (co_hash _ _ HC). unfold xmssfast_update.
    rewrite sk_index by exact Hi. change (x_h p) with H.
    destruct (2 ^ N.of_nat H <=? j)%N eqn:E1.
    { apply N.leb_le in E1. rewrite (proj2 (N.ltb_ge _ _) E1). cbn [andb bind].
      eexists. split; [reflexivity|]. reflexivity. }
    apply N.leb_gt in E1. rewrite (proj2 (N.ltb_lt _ _) E1). cbn [andb].
    destruct (j <? i)%N eqn:E2.
    { apply N.ltb_lt in E2. rewrite (proj2 (N.leb_gt _ _) E2). cbn [bind].
      eexists. split; [reflexivity|]. reflexivity. }
    apply N.ltb_ge in E2. rewrite (proj2 (N.leb_le _ _) E2).
    destruct (sk_parts i) as (P1 & P2 & P3 & P4 & P5). rewrite P1, P3, P5.
    assert (Hj : N.to_nat j < 2 ^ H) by (rewrite <- pow_N_nat; lia).
    destruct (advance_spec (N.to_nat j - N.to_nat i) (N.to_nat i) st) as (st' & Ea & HB').
    { apply HB. lia. } { lia. }
    rewrite Ea. cbn [bind].
    eexists. split; [reflexivity|]. split; [reflexivity|]. split; [lia|]. intros _.
    cbn [xf_state]. now replace (N.to_nat j) with (N.to_nat i + (N.to_nat j - N.to_nat i)) by lia.
  Qed.

  Lemma auth_concat : forall s st, bds_ok hf ssd ps p mm qq s st ->
    firstn H (b_auth st) = auth_path hf (N.to_nat (w_w (x_wots p))) (w_len (x_wots p)) ssd ps H s.
  Proof.
    intros s st HB. destruct cfg_mq as (M1 & M2 & M3 & M4).
    assert (L : length (b_auth st) = H) by (rewrite (bo_auth_len _ _ _ _ _ _ _ _ HB); lia).
    rewrite firstn_all2 by lia. apply nth_ext with (d := []) (d' := []).
    - now rewrite auth_path_length.
    - intros n Hn. rewrite L in Hn. unfold auth_path.
      pose proof (bo_auth _ _ _ _ _ _ _ _ HB n ltac:(lia)) as A. apply nth_error_nth with (d := []) in A. rewrite A.
      symmetry. apply nth_error_nth. rewrite nth_error_map.
      rewrite (nth_error_nth' (seq 0 H) 0) by (rewrite seq_length; lia). rewrite seq_nth by lia. reflexivity.
  Qed.

  Lemma fast_Signmsg_spec : forall o i msg, fast_inv i o -> (i < 2 ^ N.of_nat H)%N ->
    exists st', xmssfast_Signmsg hf p (c_sk c wp i) (xf_state o) msg =
      Ok (c_sk c wp (i + 1), st', c_sig c wp (N.to_nat i) msg) /\
      fast_inv (i + 1) (mkXF (c_obj c wp (i + 1)) st').
  Proof.
    intros [b st] i msg (Eb & Hi & HB) Hlt. cbn [xf_base xf_state] in *. specialize (HB Hlt).
    destruct cfg_mq as (M1 & M2 & M3 & M4). pose proof cfg_wots as HP.
    destruct (wots_ok_facts _ HP) as (Hw & _ & _ & Hlen & _).
    unfold xmssfast_Signmsg. rewrite sk_index by exact Hi. change (x_h p) with H.
    destruct (sk_parts i) as (P1 & P2 & P3 & P4 & P5). rewrite P1, P2, P3, P4, P5.
    rewrite <- cfg_sig. unfold signature. set (idx := N.to_nat i).
    assert (Ei : i = N.of_nat idx) by (unfold idx; now rewrite N2Nat.id). rewrite Ei.
    assert (ER : HashAddress.prf hf (to_byte 32 (N.of_nat idx)) prf = randomizer hf prf idx) by apply prf_PRF.
    rewrite ER. set (R := randomizer hf prf idx).
    assert (Ed : h_msg hf msg (R ++ root ++ to_byte 32 (N.of_nat idx)) = digest hf R root idx msg).
    { unfold h_msg, digest. now rewrite core_hash_keyed. }
    rewrite Ed. set (dg := digest hf R root idx msg).
    destruct (digits_of_ok (x_wots p) dg HP) as (D1 & D2 & D3). { apply keyed_length. }
    destruct (get_seed_spec hf ssd _ idx (ots_adrs_init idx)) as (a1 & G1 & A1). rewrite G1.
    destruct (wots_sign_spec hf (x_wots p) dg (ots_seed hf ssd idx) ps a1 idx ssd (digits_of (x_wots p) dg) A1 eq_refl D1 D2 D3)
      as (a2 & G2 & A2).
    rewrite G2. cbn [bind]. rewrite (auth_concat idx st HB).
    assert (Hidx : idx < 2 ^ H) by (rewrite <- pow_N_nat; unfold idx; lia).
    assert (Hst : exists st', (if (N.of_nat idx <? 2 ^ N.of_nat H - 1)%N
         then bds_step hf p ssd ps a2 idx st else Ok st) = Ok st' /\
         ((N.of_nat idx + 1 < 2 ^ N.of_nat H)%N -> bds_ok hf ssd ps p mm qq (idx + 1) st')).
    { destruct (N.of_nat idx <? 2 ^ N.of_nat H - 1)%N eqn:El.
      - apply N.ltb_lt in El.
        destruct (bds_step_spec hf ssd ps p mm qq M1 M2 M3 eq_refl Hw Hlen idx st a2) as (st1 & E1 & HB1); auto.
        { apply A2. } { rewrite M4. rewrite <- pow_N_nat. lia. }
        exists st1. auto.
      - apply N.ltb_ge in El. exists st. split; auto. intros; lia. }
    destruct Hst as (st' & Est & HB'). rewrite Est. cbn [bind].
    exists st'. split; [reflexivity|]. split; [reflexivity|]. split; [lia|].
    intros Hl. cbn [xf_state]. replace (N.to_nat (N.of_nat idx + 1)) with (idx + 1) by lia. auto.
  Qed.

  Theorem step_spec : forall o i op, fast_inv i o ->
    exists o', step o op = Ok (o', snd (ref_step H (c_sig c wp) i op)) /\
      fast_inv (fst (ref_step H (c_sig c wp) i op)) o' /\
      (forall e, snd (ref_step H (c_sig c wp) i op) = ObsExn e -> o' = o).
  Proof.
    intros o i op HI. destruct op as [m|j]; cbn [step ref_step].
    - unfold xfast_sign.
      assert (EI : getIndex (xf_base o) = i).
      { destruct HI as (Eb & Hi & _). rewrite Eb. unfold getIndex. cbn [c_obj xb_sk]. rewrite sk_index by auto.
        unfold u32. apply N.mod_small. pose proof pow_H_bound. change (2 ^ 32)%N with 4294967296%N.
        change (2 ^ 30)%N with 1073741824%N in *. lia. }
      rewrite EI. destruct (setIndex_spec o i i HI) as (o1 & E1 & H1).
      rewrite E1. cbn [bind]. rewrite N.leb_refl, andb_true_r in *.
      destruct (i <? 2 ^ N.of_nat H)%N eqn:El.
      + apply N.ltb_lt in El. pose proof H1 as (Eb1 & Hi1 & HB1). rewrite Eb1.
        cbn [c_obj xb_hash xb_params xb_sk]. unfold with_hash. rewrite (co_hash _ _ HC).
        destruct (fast_Signmsg_spec o1 i m H1 El) as (st' & Es & HI').
        rewrite Es. cbn [bind]. eexists. split; [reflexivity|]. cbn [fst snd]. split; [exact HI'|]. discriminate.
      + cbn [bind]. subst o1. exists o. cbn [fst snd]. auto.
    - destruct (setIndex_spec o i j HI) as (o1 & E1 & H1). rewrite E1. cbn [bind].
      destruct ((j <? 2 ^ N.of_nat H)%N && (i <=? j)%N) eqn:Ec; cbn [fst snd].
      + exists o1. split; [reflexivity|]. split; auto. discriminate.
      + subst o1. exists o. auto.
  Qed.

  Theorem run_spec : forall cs o i, fast_inv i o ->
    exists o', run o cs = Ok (o', snd (ref_run H (c_sig c wp) i cs)) /\
      fast_inv (fst (ref_run H (c_sig c wp) i cs)) o'.
  Proof.
    induction cs as [|a cs IH]; intros o i HI; cbn [run ref_run].
    - exists o. auto.
    - destruct (step_spec o i a HI) as (o1 & E1 & HI1 & _). rewrite E1. cbn [bind].
      destruct (ref_step H (c_sig c wp) i a) as [i1 x1]. cbn [fst snd] in *.
      destruct (IH o1 i1 HI1) as (o2 & E2 & HI2). rewrite E2. cbn [bind].
      destruct (ref_run H (c_sig c wp) i1 cs) as [i2 xs]. cbn [fst snd] in *. exists o2. auto.
  Qed.

  (** *** XmssBasic *)
  Lemma XmssBasic_new_spec : forall junk,
    XmssBasic_new junk (c_seed c) (N.of_nat H) (c_hash c) (c_fmt c) (c_w c) = Ok (c_obj c wp 0).
  Proof.
    intros junk. pose proof (co_h _ _ HC) as Hb. unfold XmssBasic_new, check_seed.
    rewrite (co_seed _ _ HC). cbn [Nat.eqb negb]. rewrite (proj2 (N.ltb_ge _ _)) by lia. cbn [bind].
    rewrite cfg_height_ok, Nat2N.id, cfg_set_params. cbn [bind].
    rewrite (proj2 (N.leb_gt _ _)) by lia. unfold with_hash. rewrite (co_hash _ _ HC).
    pose proof (Genkeypair_spec hf junk p (c_seed c) cfg_wots) as G. cbv zeta in G. rewrite G. cbn [bind].
    rewrite (firstn_all2 (n := 48)) by (rewrite (co_seed _ _ HC); lia).
    unfold c_obj, c_sk, ref_sk. f_equal. f_equal. rewrite cfg_root. reflexivity.
  Qed.

  Lemma XmssBasic_sign_spec : forall junk i msg, c_height c < 26 -> (i < 2 ^ N.of_nat H)%N ->
    XmssBasic_sign junk (c_obj c wp i) msg = Ok (c_obj c wp (i + 1), c_sig c wp (N.to_nat i) msg).
  Proof.
    intros junk i msg Hb Hi. pose proof (co_h _ _ HC) as Hb0. unfold XmssBasic_sign.
    cbn [c_obj xb_hash xb_params xb_sk]. unfold with_hash. rewrite (co_hash _ _ HC).
    destruct (key_lengths (c_seed c)) as (L1 & L2 & L3).
    rewrite cfg_sk. rewrite <- (N2Nat.id i) at 1.
    rewrite (Signmsg_spec hf ssd prf ps root p L1 L2 L3 cfg_root_len cfg_wots).
    - cbn [bind]. change (x_h p) with H. rewrite cfg_sig, N2Nat.id. reflexivity.
    - cbn [c_params x_h]. lia.
    - cbn [c_params x_h]. rewrite <- pow_N_nat. lia.
  Qed.

  (** *** Verification *)
  Definition c_pk (i : N) : list N := getPK (c_obj c wp i).

  Lemma getPK_shape : forall i, c_pk i = descr_getBytes (mkDescr (c_hash c) 0 (N.of_nat H) (c_fmt c)) ++ root ++ ps.
  Proof.
    intros. unfold c_pk, getPK, getRoot, getPKSeed. cbn [c_obj xb_sk].
    destruct (sk_parts i) as (_ & _ & P3 & P4 & _). now rewrite P3, P4.
  Qed.
End Obj.
