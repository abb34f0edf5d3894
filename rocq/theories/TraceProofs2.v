(** Proofs about Trace.v: the log of the BDS traversal and of signing. *)
From Coq Require Import List NArith Arith Lia Bool.
From Verif Require Import Base Bytes Keccak HashAddress Wots XmssCommon AlgsXmss AlgsXmssFast Descriptor XmssObj
  SpecXmss SpecApi SpecDomain SpecTweak XmssRefine WotsProofs TreeProofs BasicProofs BdsSched BdsProofs BdsSetup FastProofs Trace TraceProofs.
Import ListNotations.
Open Scope nat_scope.

Lemma leaf_in_tree : forall w len h o pl, o < 2 ^ h -> In pl (leaf_places w len o) -> In pl (tree_places w len h).
Proof.
  intros. unfold tree_places. apply in_or_app. left. apply in_flat_map. exists o. split; [apply in_seq; lia|assumption].
Qed.
Lemma node_in_tree : forall w len h j i, j < h -> i < 2 ^ (h - 1 - j) -> In (TNode j i) (tree_places w len h).
Proof.
  intros. unfold tree_places. apply in_or_app. right. apply in_flat_map. exists j. split; [apply in_seq; lia|].
  apply in_map, in_seq. lia.
Qed.
Lemma node_in_tree_sum : forall w len h j i, (i + 1) * 2 ^ S j <= 2 ^ h -> In (TNode j i) (tree_places w len h).
Proof.
  intros w len h j i H. pose proof (pow2_pos (S j)).
  assert (Hj : S j <= h).
  { destruct (Nat.le_gt_cases (S j) h) as [|G]; auto. exfalso. pose proof (Nat.pow_lt_mono_r 2 h (S j) ltac:(lia) G). nia. }
  apply node_in_tree; [lia|]. rewrite (pow2_split (S j) h Hj) in H. replace (h - 1 - j) with (h - S j) by lia.
  apply Nat.mul_le_mono_pos_r in H; lia.
Qed.
Lemma step_in_tree : forall w len h o c i, o < 2 ^ h -> c < len -> i < w - 1 -> In (Step o c i) (tree_places w len h).
Proof.
  intros. apply (leaf_in_tree w len h o); [assumption|]. unfold leaf_places. apply in_or_app. left.
  apply in_flat_map. exists c. split; [apply in_seq; lia|]. apply in_map, in_seq. lia.
Qed.
Lemma nd_adr : forall a j i, nd_adrs a ->
  addr_to_byte (setKeyAndMask (setTreeIndex (setTreeHeight a (N.of_nat j)) (N.of_nat i)) 0) = place_adr (TNode j i) 0.
Proof.
  intros a j i (R & E3 & E4). cbn [place_adr]. apply adr_bytes. repeat split; try apply R.
  - cbn. now rewrite E3.
  - cbn. now rewrite E4.
  - cbn. apply u32_u32.
  - cbn. apply u32_u32.
Qed.

Section BDS.
  Variables (hf : hashfn) (ssd ps : list N) (p : xmss_params).
  Variables (m q : nat).
  Hypothesis Hmq : m = 2 * q.
  Hypothesis Hq : 1 <= q.
  Hypothesis Hh : x_h p = m + 2.
  Hypothesis Hk : x_k p = 2.
  Hypothesis Hw : (1 <= w_w (x_wots p))%N.
  Hypothesis Hlen : 1 <= w_len (x_wots p).
  Local Notation h := (m + 2).
  Local Notation nd := (tnode hf ssd ps p).
  Local Notation rep := (stack_rep hf ssd ps p).
  Local Notation w := (N.to_nat (w_w (x_wots p))).
  Local Notation len := (w_len (x_wots p)).
  Local Notation call := (call_at hf ssd ps (x_wots p)).

  (** Every call of the log is at a place of the tree, with that place's content. *)
  Definition tree_calls (l : list hcall) : Prop := Forall (fun e => exists pl, In pl (tree_places w len h) /\ e = call pl) l.
  Lemma tree_calls_app : forall a b, tree_calls a -> tree_calls b -> tree_calls (a ++ b).
  Proof. intros. now apply Forall_app. Qed.
  Lemma tree_calls_nil : tree_calls [].
  Proof. constructor. Qed.
  Lemma tree_calls_leaf : forall o, o < 2 ^ h -> tree_calls (map call (leaf_places w len o)).
  Proof.
    intros o Ho. apply Forall_forall. intros e He. apply in_map_iff in He. destruct He as (pl & <- & Hin).
    exists pl. split; [|reflexivity]. eapply leaf_in_tree; eauto.
  Qed.

  Lemma gen_leaf_logs : forall lta ota o, lt_adrs lta o -> ots_adrs ota o -> o < 2 ^ h ->
    logs (gen_leaf_wots_t hf ssd p ps lta ota) (gen_leaf_wots hf ssd p ps lta ota)
      (fun r l => fst (fst r) = nd 0 o /\ tree_calls l).
  Proof.
    intros lta ota o Hl Ho Hb. destruct (gen_leaf_wots_t_spec hf ssd p ps lta ota o Hl Ho Hw Hlen) as (r & l & E1 & E2 & L).
    destruct (gen_leaf_wots_spec hf ssd p ps lta ota o) as (la & oa & E3 & _); auto.
    rewrite E2. exists l. split; [exact E1|]. split.
    - rewrite E3 in E2. apply Ok_inj in E2. subst r. reflexivity.
    - rewrite L. now apply tree_calls_leaf.
  Qed.

  Lemma update_while_t_spec : forall Pi next b rest stack levels off l x a,
    nd_adrs a -> rep (Pi ++ rest) stack levels off -> covers b Pi (x * 2 ^ l) -> next + 1 = (x + 1) * 2 ^ l ->
    (forall l' x' r', Pi = (l', x') :: r' -> l <= l') -> next < 2 ^ h ->
    logs (update_while_t hf (length Pi) next ps stack levels off (nd l x) l a)
         (update_while hf (length Pi) next ps stack levels off (nd l x) l a) (fun _ lg => tree_calls lg).
  Proof.
    induction Pi as [|[l1 x1] Pi IH]; intros next b rest stack levels off l x a Ha Hr Hc Hn Hle Hb.
    - cbn [length update_while_t update_while]. apply logs_ret. constructor.
    - cbn [length update_while_t update_while]. cbn [app] in Hr.
      destruct (stack_rep_tail hf ssd ps p m q Hmq Hq Hh Hk Hw Hlen _ _ _ _ _ Hr) as (O1 & G1 & G2 & Hr').
      rewrite (proj2 (Nat.eqb_neq off 0)) by lia. apply logs_bind_lift. intros l0 E0. rewrite G2 in E0. apply Ok_inj in E0. subst l0. cbn [lvl fst].
      specialize (Hle l1 x1 Pi eq_refl). pose proof (pow2_pos l) as Pl.
      inversion Hc as [|? ? ? Hc' Hev Hdec E1 E2]; subst.
      destruct (l1 =? l) eqn:El; cbn [negb]; [|apply logs_ret; constructor].
      apply Nat.eqb_eq in El. subst l1. assert (x = x1 + 1) by nia. subst x.
      apply Nat.even_spec in Hev. destruct Hev as [y ->].
      apply logs_bind_lift. intros lf E0. rewrite G1 in E0. apply Ok_inj in E0. subst lf.
      assert (Ei : next / 2 ^ (l + 1) = y).
      { rewrite Nat.add_1_r, pow2_S. symmetry. apply (Nat.div_unique _ _ _ (2 * 2 ^ l - 1)); [lia|]. nia. }
      rewrite Ei. unfold hash_h_t.
      destruct (hash_node hf ps a l y (val hf ssd ps p (l, 2 * y)) (nd l (2 * y + 1)) Ha) as (a1 & Eh & Ha1).
      rewrite Eh. rewrite nd_adr by exact Ha. apply logs_call.
      change (rand_hash hf ps 2 0 l y (val hf ssd ps p (l, 2 * y)) (nd l (2 * y + 1))) with (nd (S l) y).
      rewrite Nat.add_1_r.
      eapply logs_mono; [apply (IH next b rest stack levels (off - 1) (S l) y a1 Ha1 Hr')|].
      + replace (y * 2 ^ S l) with (2 * y * 2 ^ l) by (rewrite pow2_S; nia). exact Hc'.
      + rewrite pow2_S. nia.
      + intros l' x' r' ->. specialize (Hdec l' x' r' eq_refl). lia.
      + exact Hb.
      + cbv beta. intros _ lg _ HL. cbn [tw filter is_tweak app]. constructor; [|exact HL].
        exists (TNode l y). split; [apply node_in_tree_sum; rewrite pow2_S; nia|reflexivity].
  Qed.

  Lemma treehash_update_t_spec : forall t r P st pk addr,
    root_adrs addr -> th_ok hf ssd ps p m t r P st -> pk < m -> 0 < r pk ->
    (forall j, j < pk -> P j = []) ->
    logs (treehash_update_t hf pk st ssd p ps addr) (treehash_update hf pk st ssd p ps addr) (fun _ lg => tree_calls lg).
  Proof.
    intros t r P st pk addr HR HT Hpk Hr HPe.
    destruct (to_inst _ _ _ _ _ _ _ _ _ HT pk Hpk) as (th & En & Hok).
    pose proof Hok as (Eh & Hle & _ & H2). destruct (H2 Hr) as (Ec & Enx & Eu & Hc).
    unfold treehash_update_t, treehash_update. apply logs_bind_lift. intros th' E.
    rewrite (proj2 (get_ok _ _ _ _) En) in E. apply Ok_inj in E. subst th'.
    destruct (copy_adrs addr HR) as (Ho & Hl & Hn).
    assert (Hnx : th_next_idx th < 2 ^ h).
    { pose proof (to_live _ _ _ _ _ _ _ _ _ HT pk Hpk Hr) as HB. rewrite Enx. unfold base in *.
      pose proof (pow2_pos pk). rewrite (pow2_split pk h) in HB |- * by lia.
      apply Nat.mul_lt_mono_pos_r in HB; [|lia].
      assert ((Jt t pk + 1) * 2 ^ pk <= 2 ^ (h - pk) * 2 ^ pk) by (apply Nat.mul_le_mono_r; lia). lia. }
    eapply logs_bind; [apply (gen_leaf_logs _ _ (th_next_idx th))|].
    { eapply lt_adrs_set; eauto. } { eapply ots_adrs_set; eauto. } { exact Hnx. }
    cbv beta. intros [[lf lta] ota] lg1 _ (El & HL1). cbn [fst] in El. subst lf.
    pose proof (to_rep _ _ _ _ _ _ _ _ _ HT) as Hrep. rewrite (stk_from_split P pk m Hpk HPe) in Hrep.
    rewrite Eu.
    eapply logs_bind; [eapply (update_while_t_spec (P pk) (th_next_idx th) (base t pk)); eauto|].
    { rewrite Nat.pow_0_r, Nat.mul_1_r, Enx. exact Hc. }
    { cbn. lia. } { intros; lia. }
    cbv beta. intros [[[node nh] us] off] lg2 _ HL2.
    assert (HLL : tree_calls (lg1 ++ lg2 ++ [])) by (rewrite app_nil_r; now apply tree_calls_app).
    destruct (nh =? th_h th).
    - apply logs_bind_lift. intros ths _. apply logs_ret. exact HLL.
    - repeat (apply logs_bind_lift; intros ? _). apply logs_ret. exact HLL.
  Qed.

  Lemma bds_treehash_update_t_spec : forall n t u r P st addr,
    root_adrs addr -> th_ok hf ssd ps p m t r P st -> sched m q t u r ->
    logs (bds_treehash_update_t hf n st ssd p ps addr) (bds_treehash_update hf n st ssd p ps addr) (fun _ lg => tree_calls lg).
  Proof.
    induction n; intros t u r P st addr HR HT HS; cbn [bds_treehash_update_t bds_treehash_update].
    - apply logs_ret. constructor.
    - apply logs_bind_lift. intros [lv mn] E0. rewrite Hh, Hk. replace (h - 2) with m by lia.
      destruct (choose_spec hf ssd ps p m q Hmq Hq Hh Hk Hw Hlen t r P st HT) as [(E & H0)|(pk & lmin & E & Hpk & Hr & HPe & HF & Hok)];
        rewrite E in E0; apply Ok_inj in E0; apply pair_equal_spec in E0; destruct E0 as (<- & <-).
      + rewrite Nat.eqb_refl. apply logs_ret. constructor.
      + rewrite (proj2 (Nat.eqb_neq pk m)) by lia.
        eapply logs_bind; [apply (treehash_update_t_spec t r P st pk addr HR HT Hpk Hr HPe)|].
        cbv beta. intros st1' lg E1' HL.
        destruct (treehash_update_spec hf ssd ps p m q Hmq Hq Hh Hk Hw Hlen t r P st pk addr HR HT Hpk Hr HPe HF) as (st1 & P1 & E1 & HT1 & _).
        rewrite E1 in E1'. apply Ok_inj in E1'. subst st1'.
        eapply logs_mono; [eapply (IHn t (S u)); eauto|].
        * eapply sched_update; eauto.
        * cbv beta. intros _ lg2 _ HL2. now apply tree_calls_app.
  Qed.

  Lemma bds_round_t_spec : forall s st addr, root_adrs addr -> s + 1 < 2 ^ h -> bds_ok hf ssd ps p m q s st ->
    logs (bds_round_t hf st s ssd p ps addr) (bds_round hf st s ssd p ps addr) (fun _ lg => tree_calls lg).
  Proof.
    intros s st addr HR Hs HB.
    destruct (find_tau_spec s h Hs) as (tau & x & Etau & Htau & E).
    destruct (tau_facts s tau x E) as (F1 & F2 & F3 & F4 & F5).
    unfold bds_round_t, bds_round. rewrite Hh, Hk, Etau. clear Etau.
    destruct (copy_adrs addr HR) as (Ho & Hl & Hn).
    apply logs_bind_lift. intros buf Ebuf.
    assert (Hbuf : 0 < tau -> buf = nd (tau - 1) (2 * (s / 2 ^ tau)) ++ nd (tau - 1) (2 * (s / 2 ^ tau) + 1)).
    { intros E0. rewrite (proj2 (Nat.ltb_lt _ _) E0) in Ebuf. destruct (F3 (tau - 1) ltac:(lia)) as (y & Y1 & Y2 & Y3 & Y4 & Y5).
      replace (S (tau - 1)) with tau in * by lia.
      pose proof (bo_auth _ _ _ _ _ _ _ _ HB (tau - 1) ltac:(lia)) as A1.
      rewrite Y1, lxor_1, odd_double_1 in A1. replace (2 * y + 1 - 1) with (2 * y) in A1 by lia.
      assert (A2 : nth_error (b_keep st) ((tau - 1) / 2) = Some (nd (tau - 1) (2 * y + 1))).
      { rewrite <- Y1. apply (bo_keep _ _ _ _ _ _ _ _ HB); [lia| |].
        - rewrite Y1. apply odd_double_1.
        - replace (S (tau - 1)) with tau by lia. rewrite F1. apply odd_double. }
      apply get_ok in A1. apply get_ok in A2. rewrite A1 in Ebuf. cbn [bind] in Ebuf. rewrite A2 in Ebuf. cbn [bind] in Ebuf.
      apply Ok_inj in Ebuf. now rewrite Y4. }
    apply logs_bind_lift. intros keep _.
    destruct (tau =? 0) eqn:E0.
    - eapply logs_bind; [apply (gen_leaf_logs _ _ s)|].
      { eapply lt_adrs_set; eauto. } { eapply ots_adrs_set; eauto. } { lia. }
      cbv beta. intros [[lf lta] ota] lg1 _ (_ & HL1). apply logs_bind_lift. intros auth _. apply logs_ret. now rewrite app_nil_r.
    - apply Nat.eqb_neq in E0. rewrite Hbuf by lia. unfold hash_h_t. rewrite nd_adr by exact Hn.
      destruct (hash_node hf ps (copy_layer_tree addr 2) (tau - 1) (s / 2 ^ tau)
                 (nd (tau - 1) (2 * (s / 2 ^ tau))) (nd (tau - 1) (2 * (s / 2 ^ tau) + 1)) Hn) as (a' & Eh & _).
      rewrite Eh. apply logs_call. repeat (apply logs_bind_lift; intros ? _). apply logs_ret.
      cbn [tw filter is_tweak app]. constructor; [|constructor]. exists (TNode (tau - 1) (s / 2 ^ tau)). split; [|reflexivity].
      apply node_in_tree_sum. replace (S (tau - 1)) with tau by lia. rewrite F1. nia.
  Qed.

  Lemma bds_step_t_spec : forall s st addr, root_adrs addr -> s + 1 < 2 ^ h -> bds_ok hf ssd ps p m q s st ->
    logs (bds_step_t hf p ssd ps addr s st) (bds_step hf p ssd ps addr s st) (fun _ lg => tree_calls lg).
  Proof.
    intros s st addr HR Hs HB. unfold bds_step_t, bds_step.
    eapply logs_bind; [apply (bds_round_t_spec s st addr HR Hs HB)|]. cbv beta. intros st1' lg E1' HL.
    destruct (bds_round_spec hf ssd ps p m q Hmq Hq Hh Hk Hw Hlen s st addr HR Hs HB) as (st1 & r & P & E1 & HT & HS & _).
    rewrite E1 in E1'. apply Ok_inj in E1'. subst st1'.
    eapply logs_mono; [eapply (bds_treehash_update_t_spec _ (S s) 0); eauto|].
    - now apply sched_restart.
    - cbv beta. intros _ lg2 _ HL2. now apply tree_calls_app.
  Qed.
End BDS.

Section Obj.
  Variables (c : key_cfg) (wp : nat * nat * nat).
  Hypothesis HC : cfg_ok c wp.
  Local Notation p := (c_params c).
  Local Notation hf := (c_hf c).
  Local Notation H := (c_height c).
  Local Notation ssd := (key_seed (c_seed c)).
  Local Notation prf := (key_prf (c_seed c)).
  Local Notation ps := (key_pub (c_seed c)).
  Local Notation root := (ref_root hf wp H (c_seed c)).
  Local Notation mm := (c_height c - 2).
  Local Notation qq := ((c_height c - 2) / 2).
  Local Notation w := (N.to_nat (w_w (x_wots (c_params c)))).
  Local Notation len := (w_len (x_wots (c_params c))).

  (** Every call of the log is at a place of the key's tree, with that place's content. *)
  Definition key_calls (l : list hcall) : Prop :=
    Forall (fun e => exists pl, In pl (tree_places w len H) /\ e = call_at hf ssd ps (x_wots p) pl) l.
  Lemma key_calls_tree : forall l, key_calls l <-> tree_calls hf ssd ps p mm l.
  Proof. destruct (cfg_mq c wp HC) as (M1 & M2 & M3 & M4). intros l. unfold key_calls, tree_calls. rewrite M4. tauto. Qed.

  Lemma advance_t_spec : forall n s st, bds_ok hf ssd ps p mm qq s st -> s + n < 2 ^ H ->
    logs (tfor_from n s (fun j st => bds_step_t hf p ssd ps zero_adrs j st) st)
         (for_from n s (fun j st => bds_step hf p ssd ps zero_adrs j st) st) (fun _ lg => key_calls lg).
  Proof.
    destruct (cfg_mq c wp HC) as (M1 & M2 & M3 & M4). destruct (wots_ok_facts _ (cfg_wots c wp HC)) as (Hw & _ & _ & Hlen & _).
    intros n s st HB Hs.
    eapply logs_mono; [apply (logs_for _ (fun i st lg => bds_ok hf ssd ps p mm qq i st /\ key_calls lg))|].
    - split; [exact HB|constructor].
    - intros i st1 lg Hi (HB1 & HL).
      assert (R0 : root_adrs zero_adrs) by (repeat split).
      eapply logs_mono; [apply (bds_step_t_spec hf ssd ps p mm qq M1 M2 M3 eq_refl Hw Hlen i st1 zero_adrs R0)|]; auto.
      + rewrite M4. lia.
      + cbv beta. intros st2 lg2 E2 HL2. split.
        * destruct (bds_step_spec hf ssd ps p mm qq M1 M2 M3 eq_refl Hw Hlen i st1 zero_adrs R0) as (st2' & E2' & HB2); auto.
          { rewrite M4. lia. }
          rewrite E2 in E2'. apply Ok_inj in E2'. subst st2'. now rewrite Nat.add_1_r in HB2.
        * apply Forall_app. split; [exact HL|]. now apply key_calls_tree.
    - cbv beta. intros st2 lg _ (_ & HL). exact HL.
  Qed.

  Lemma setIndex_t_spec : forall o i j, fast_inv c wp i o ->
    logs (xfast_setIndex_t o j) (xfast_setIndex o j) (fun _ lg => key_calls lg).
  Proof.
    intros [b st] i j (Eb & Hi & HB). cbn [xf_base xf_state] in *. subst b.
    unfold xfast_setIndex_t, xfast_setIndex. cbn [xf_base xf_state c_obj xb_hash xb_params xb_sk].
    unfold with_hash. rewrite (co_hash _ _ HC).
    eapply logs_bind with (Q1 := fun _ lg => key_calls lg).
    - unfold xmssfast_update_t, xmssfast_update. rewrite (sk_index c wp HC) by exact Hi. change (x_h p) with H.
      destruct (2 ^ N.of_nat H <=? j)%N eqn:E1; [apply logs_ret; constructor|].
      destruct (j <? i)%N eqn:E2; [apply logs_ret; constructor|].
      apply N.leb_gt in E1. apply N.ltb_ge in E2.
      destruct (sk_parts c wp HC i) as (P1 & P2 & P3 & P4 & P5). rewrite P1, P3.
      assert (Hj : N.to_nat j < 2 ^ H) by (rewrite <- pow_N_nat; lia).
      eapply logs_bind; [apply advance_t_spec; [apply HB; lia|lia]|]. cbv beta. intros st' lg _ HL. apply logs_ret. now rewrite app_nil_r.
    - cbv beta. intros [[sk st'] r] lg _ HL. destruct r; apply logs_ret; now rewrite app_nil_r.
  Qed.

  Lemma steps_key_calls : forall o (f : nat -> nat), o < 2 ^ H -> (forall k, f k <= w - 1) ->
    key_calls (map (call_at hf ssd ps (x_wots p)) (flat_map (fun k => map (Step o k) (seq 0 (f k))) (seq 0 len))).
  Proof.
    intros o f Ho Hf. apply Forall_forall. intros e He. apply in_map_iff in He. destruct He as (pl & <- & Hin).
    exists pl. split; [|reflexivity]. apply in_flat_map in Hin. destruct Hin as (k & Hk & Hin). apply in_seq in Hk.
    apply in_map_iff in Hin. destruct Hin as (i & <- & Hi). apply in_seq in Hi. specialize (Hf k). apply step_in_tree; lia.
  Qed.

  Lemma Signmsg_t_spec : forall o i msg, fast_inv c wp i o -> (i < 2 ^ N.of_nat H)%N ->
    logs (xmssfast_Signmsg_t hf p (c_sk c wp i) (xf_state o) msg) (xmssfast_Signmsg hf p (c_sk c wp i) (xf_state o) msg)
      (fun _ lg => key_calls lg).
  Proof.
    intros [b st] i msg (Eb & Hi & HB) Hlt. cbn [xf_base xf_state] in *. specialize (HB Hlt).
    destruct (cfg_mq c wp HC) as (M1 & M2 & M3 & M4). pose proof (cfg_wots c wp HC) as HP.
    destruct (wots_ok_facts _ HP) as (Hw & _ & _ & Hlen & _).
    unfold xmssfast_Signmsg_t, xmssfast_Signmsg. rewrite (sk_index c wp HC) by exact Hi. change (x_h p) with H.
    destruct (sk_parts c wp HC i) as (P1 & P2 & P3 & P4 & P5). rewrite P1, P2, P3, P4, P5.
    set (idx := N.to_nat i). assert (Ei : i = N.of_nat idx) by (unfold idx; now rewrite N2Nat.id). rewrite Ei.
    unfold prf_t at 1. apply logs_call. unfold h_msg_t. apply logs_call.
    assert (ER : HashAddress.prf hf (to_byte 32 (N.of_nat idx)) prf = randomizer hf prf idx) by apply prf_PRF.
    rewrite ER. set (R := randomizer hf prf idx).
    assert (Ed : h_msg hf msg (R ++ root ++ to_byte 32 (N.of_nat idx)) = digest hf R root idx msg).
    { unfold h_msg, digest. now rewrite core_hash_keyed. }
    rewrite Ed. set (dg := digest hf R root idx msg).
    destruct (digits_of_ok (x_wots p) dg HP) as (D1 & D2 & D3). { apply keyed_length. }
    destruct (get_seed_spec hf ssd _ idx (ots_adrs_init idx)) as (a1 & G1 & A1).
    destruct (get_seed_t_eq hf ssd (setOTSADRS (setType zero_adrs 0) (N.of_nat idx))) as (l1 & T1 & L1). rewrite T1, G1.
    apply logs_call. rewrite L1.
    assert (D3' : Forall (fun d => d < w_w (x_wots p))%N (digits_of (x_wots p) dg)).
    { eapply Forall_impl; [|exact D3]. cbv beta. intros d Hd. lia. }
    destruct (wots_sign_t_spec hf ssd ps (x_wots p) Hw Hlen a1 idx dg (digits_of (x_wots p) dg) A1 D1 D2 D3') as (l2 & r2 & T2 & S2 & L2).
    destruct (wots_sign_spec hf (x_wots p) dg (ots_seed hf ssd idx) ps a1 idx ssd (digits_of (x_wots p) dg) A1 eq_refl D1 D2 D3)
      as (a2 & G2 & A2).
    rewrite S2 in G2. apply Ok_inj in G2. subst r2. rewrite T2, S2. apply logs_call. cbn [bind]. rewrite L2.
    assert (Hidx : idx < 2 ^ H) by (rewrite <- pow_N_nat; unfold idx; lia).
    assert (HS : key_calls (map (call_at hf ssd ps (x_wots p)) (flat_map (fun k => map (Step idx k) (seq 0 (N.to_nat (nth k (digits_of (x_wots p) dg) 0%N)))) (seq 0 len)))).
    { apply (steps_key_calls idx (fun k => N.to_nat (nth k (digits_of (x_wots p) dg) 0%N))); auto.
      intros k. destruct (nth_in_or_default k (digits_of (x_wots p) dg) 0%N) as [Hin| ->]; [|lia].
      rewrite Forall_forall in D3. specialize (D3 _ Hin). cbv beta in D3. lia. }
    eapply logs_bind with (Q1 := fun _ lg => key_calls lg).
    - destruct (N.of_nat idx <? 2 ^ N.of_nat H - 1)%N eqn:El; [|apply logs_ret; constructor].
      apply N.ltb_lt in El.
      eapply logs_mono; [apply (bds_step_t_spec hf ssd ps p mm qq M1 M2 M3 eq_refl Hw Hlen idx st a2)|]; auto.
      + apply A2.
      + rewrite M4. rewrite <- pow_N_nat. lia.
      + cbv beta. intros _ lg _ HL. now apply key_calls_tree.
    - cbv beta. intros st' lg _ HL. apply logs_ret. cbn [tw filter is_tweak app]. rewrite app_nil_r. apply Forall_app. split; auto.
  Qed.

  Lemma sign_t_spec : forall o i msg, fast_inv c wp i o ->
    logs (xfast_sign_t o msg) (xfast_sign o msg) (fun _ lg => key_calls lg).
  Proof.
    intros o i msg HI. unfold xfast_sign_t, xfast_sign.
    assert (EI : getIndex (xf_base o) = i).
    { destruct HI as (Eb & Hi & _). rewrite Eb. unfold getIndex. cbn [c_obj xb_sk]. rewrite (sk_index c wp HC) by auto.
      unfold u32. apply N.mod_small. pose proof (pow_H_bound c wp HC). change (2 ^ 32)%N with 4294967296%N.
      change (2 ^ 30)%N with 1073741824%N in *. lia. }
    rewrite EI. destruct (setIndex_spec c wp HC o i i HI) as (o1 & E1 & H1).
    eapply logs_bind; [apply (setIndex_t_spec o i i HI)|]. cbv beta. intros [o1' r] lg E1' HL.
    rewrite E1 in E1'. apply Ok_inj in E1'. apply pair_equal_spec in E1'. destruct E1' as (<- & <-).
    rewrite N.leb_refl, andb_true_r in *.
    destruct (i <? 2 ^ N.of_nat H)%N eqn:El; [|apply logs_ret; now rewrite app_nil_r].
    apply N.ltb_lt in El. pose proof H1 as (Eb1 & Hi1 & HB1). rewrite Eb1.
    cbn [c_obj xb_hash xb_params xb_sk]. unfold with_hash. rewrite (co_hash _ _ HC).
    eapply logs_bind; [apply (Signmsg_t_spec o1 i msg H1 El)|]. cbv beta. intros [[sk st] sig] lg2 _ HL2.
    apply logs_ret. rewrite app_nil_r. apply Forall_app. now split.
  Qed.
End Obj.
