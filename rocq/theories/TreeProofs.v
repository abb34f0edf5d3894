(** Merkle tree code: validate_authpath, treehash, compute_authpath_wots compute
    the recursive tree of SpecXmss.v. *)
From Coq Require Import List NArith Arith Lia Bool.
From Verif Require Import Base Bytes Keccak Sha256 HashAddress Wots XmssCommon AlgsXmss SpecXmss XmssRefine.
Import ListNotations.
Open Scope nat_scope.

(** A hash-tree address. *)
Definition nd_adrs (a : adrs) : Prop := root_adrs a /\ a3 a = 2%N /\ u32 (a4 a) = 0%N.

Lemma nd_setTreeHeight : forall a v, nd_adrs a -> nd_adrs (setTreeHeight a v).
Proof. intros a v (R & E3 & E4). repeat split; auto; apply R. Qed.
Lemma nd_setTreeIndex : forall a v, nd_adrs a -> nd_adrs (setTreeIndex a v).
Proof. intros a v (R & E3 & E4). repeat split; auto; apply R. Qed.
Lemma nd_setKeyAndMask : forall a v, nd_adrs a -> nd_adrs (setKeyAndMask a v).
Proof. intros a v (R & E3 & E4). repeat split; auto; apply R. Qed.

Lemma hash_node_h : forall hf ps a j i l r, nd_adrs a -> u32 (a5 a) = u32 (N.of_nat j) ->
  exists a', hash_h hf (l ++ r) ps (setTreeIndex a (N.of_nat i)) = (rand_hash hf ps 2 0 j i l r, a')
             /\ nd_adrs a' /\ u32 (a5 a') = u32 (N.of_nat j).
Proof.
  intros hf ps a j i l r Ha Hj. eexists. split.
  - apply hash_h_spec. destruct Ha as (R & E3 & E4). repeat split; try apply R.
    + cbn. now rewrite E3.
    + exact E4.
    + exact Hj.
    + cbn. apply u32_u32.
  - split; [|exact Hj]. now apply nd_setKeyAndMask, nd_setTreeIndex.
Qed.

Lemma hash_node : forall hf ps a j i l r, nd_adrs a ->
  exists a', hash_h hf (l ++ r) ps (setTreeIndex (setTreeHeight a (N.of_nat j)) (N.of_nat i))
             = (rand_hash hf ps 2 0 j i l r, a') /\ nd_adrs a'.
Proof.
  intros. destruct (hash_node_h hf ps (setTreeHeight a (N.of_nat j)) j i l r) as (a' & E & H1 & _).
  - now apply nd_setTreeHeight.
  - cbn. apply u32_u32.
  - eauto.
Qed.

Lemma shiftr1_of_nat : forall n, N.shiftr (N.of_nat n) 1 = N.of_nat (n / 2).
Proof. intros. rewrite N.shiftr_div_pow2. change (2 ^ 1)%N with 2%N. now rewrite Nat2N.inj_div. Qed.
Lemma odd_of_nat : forall n, N.odd (N.of_nat n) = Nat.odd n.
Proof.
  induction n; [reflexivity|].
  rewrite Nat2N.inj_succ, N.odd_succ, Nat.odd_succ, <- N.negb_odd, <- Nat.negb_odd. now rewrite IHn.
Qed.

(** ** validate_authpath *)
Lemma validate_loop_spec : forall hf ps n i idx bl br path pos a,
  nd_adrs a -> length (skipn pos path) = n ->
  exists li bl' br' a',
    validate_loop hf n (N.of_nat i) (N.of_nat idx) bl br path pos ps a = Ok (N.of_nat li, bl', br', a')
    /\ nd_adrs a' /\
    rand_hash hf ps 2 0 (i + n) (li / 2) bl' br' =
    climb hf ps (S i) (idx / 2) (rand_hash hf ps 2 0 i (idx / 2) bl br) (skipn pos path).
Proof.
  induction n; intros i idx bl br path pos a Ha Hn.
  - cbn [validate_loop]. exists idx, bl, br, a. repeat split; try apply Ha.
    apply length_zero_iff_nil in Hn. rewrite Hn. cbn [climb]. now rewrite Nat.add_0_r.
  - cbn [validate_loop]. rewrite shiftr1_of_nat.
    destruct (hash_node hf ps a i (idx / 2) bl br Ha) as (a1 & E1 & Ha1). rewrite E1.
    destruct (skipn pos path) as [|c rest] eqn:Es; [discriminate|].
    assert (Eg : get path pos = Ok c).
    { apply get_ok. rewrite <- (firstn_skipn pos path), Es.
      assert (pos < length path).
      { destruct (Nat.lt_ge_cases pos (length path)); auto.
        rewrite skipn_all2 in Es by auto. discriminate. }
      rewrite nth_error_app2 by (rewrite firstn_length_le; lia).
      rewrite firstn_length_le by lia. now rewrite Nat.sub_diag. }
    assert (Er : skipn (S pos) path = rest).
    { clear - Es. revert path Es. induction pos; intros [|x path] Es; try discriminate.
      - cbn in Es. injection Es as -> ->. reflexivity.
      - cbn [skipn] in Es. exact (IHpos path Es). }
    rewrite Eg. cbn [bind]. rewrite odd_of_nat.
    replace (N.of_nat i + 1)%N with (N.of_nat (S i)) by lia.
    cbn [climb]. replace (i + S n) with (S i + n) by lia.
    destruct (Nat.odd (idx / 2)).
    + destruct (IHn (S i) (idx / 2) c (rand_hash hf ps 2 0 i (idx / 2) bl br) path (S pos) a1 Ha1)
        as (li & bl' & br' & a' & E & Ha' & Ev). { rewrite Er. cbn in Hn. lia. }
      rewrite E. exists li, bl', br', a'. rewrite Er in Ev. auto.
    + destruct (IHn (S i) (idx / 2) (rand_hash hf ps 2 0 i (idx / 2) bl br) c path (S pos) a1 Ha1)
        as (li & bl' & br' & a' & E & Ha' & Ev). { rewrite Er. cbn in Hn. lia. }
      rewrite E. exists li, bl', br', a'. rewrite Er in Ev. auto.
Qed.

Lemma validate_authpath_spec : forall hf ps lf idx path h a,
  nd_adrs a -> length path = h -> 1 <= h ->
  validate_authpath hf lf (N.of_nat idx) path h ps a = Ok (climb hf ps 0 idx lf path).
Proof.
  intros hf ps lf idx path h a Ha HL Hh. unfold validate_authpath.
  destruct path as [|c rest]; [cbn in HL; lia|].
  change (get (c :: rest) 0) with (Ok c). cbn [bind]. rewrite odd_of_nat.
  cbn [climb]. cbn [length] in HL.
  assert (Hs : length (skipn 1 (c :: rest)) = h - 1) by (cbn; lia).
  assert (Fin : forall li bl br a', nd_adrs a' ->
     fst (hash_h hf (bl ++ br) ps
        (setTreeIndex (setTreeHeight a' (N.of_nat (h - 1))) (N.shiftr (N.of_nat li) 1)))
     = rand_hash hf ps 2 0 (h - 1) (li / 2) bl br).
  { intros li bl br a' H'. rewrite shiftr1_of_nat.
    destruct (hash_node hf ps a' (h - 1) (li / 2) bl br H') as (a2 & E & _). now rewrite E. }
  destruct (Nat.odd idx).
  - destruct (validate_loop_spec hf ps (h - 1) 0 idx c lf (c :: rest) 1 a Ha Hs)
      as (li & bl & br & a' & E & Ha' & Ev).
    change (N.of_nat 0) with 0%N in E. rewrite E. cbn [bind]. rewrite Fin by auto.
    f_equal. exact Ev.
  - destruct (validate_loop_spec hf ps (h - 1) 0 idx lf c (c :: rest) 1 a Ha Hs)
      as (li & bl & br & a' & E & Ha' & Ev).
    change (N.of_nat 0) with 0%N in E. rewrite E. cbn [bind]. rewrite Fin by auto.
    f_equal. exact Ev.
Qed.

  (** A stack of tree nodes, top first, with strictly decreasing levels from the
      bottom, that tiles the leaves [b .. n).  The top may be odd-indexed or have
      the level of its neighbour ([full] = false) while it is being reduced. *)
  Inductive covers (b : nat) : list (nat * nat) -> nat -> Prop :=
  | cov_nil : covers b [] b
  | cov_cons : forall l i rest, covers b rest (i * 2 ^ l) -> Nat.even i = true ->
      (forall l' i' r', rest = (l', i') :: r' -> l < l') ->
      covers b ((l, i) :: rest) ((i + 1) * 2 ^ l).

  Lemma covers_ge : forall b st n, covers b st n -> b <= n.
  Proof. induction 1; lia. Qed.

  Lemma covers_top_lt : forall b l i rest n, covers b ((l, i) :: rest) n -> b < n.
  Proof. intros * H. inversion H as [|? ? ? Hc]; subst. apply covers_ge in Hc.
         assert (2 ^ l <> 0) by (apply Nat.pow_nonzero; lia). nia. Qed.

  (* levels of a stable stack are distinct and bounded *)
  Lemma covers_levels : forall b st n, covers b st n ->
    forall l i, In (l, i) st -> 2 ^ l <= n.
  Proof.
    induction 1; intros l0 i0 Hin; [destruct Hin|]. destruct Hin as [E|Hin].
    - injection E as <- <-. nia.
    - apply IHcovers in Hin. nia.
  Qed.

  Lemma covers_length : forall b st n, covers b st n ->
    forall B, (forall l i, In (l, i) st -> l < B) ->
    match st with [] => True | (l, _) :: _ => length st + l <= B end.
  Proof.
    induction 1; intros B HB; auto.
    destruct rest as [|[l' i'] r'].
    - specialize (HB l i (or_introl eq_refl)). cbn. lia.
    - assert (l < l') by (eapply H1; reflexivity).
      specialize (IHcovers B). cbn [length] in *.
      assert (S (length r') + l' <= B). { apply IHcovers. intros. eapply HB. right. eassumption. }
      lia.
  Qed.

  (* lists of array cells *)
  Lemma firstn_rev_top : forall A (arr : list A) x st, firstn (S (length st)) arr = rev (x :: st) ->
    nth_error arr (length st) = Some x /\ firstn (length st) arr = rev st.
  Proof.
    intros A arr x st H. cbn [rev] in H.
    assert (L : length (firstn (S (length st)) arr) = S (length st)) by (rewrite H, app_length, rev_length; cbn; lia).
    rewrite firstn_length in L.
    assert (L2 : length st < length arr) by lia.
    destruct (nth_error arr (length st)) as [y|] eqn:E; [|apply nth_error_None in E; lia].
    rewrite (firstn_S_nth_error _ _ _ _ E) in H. apply app_inj_tail in H. destruct H as [H1 ->]. auto.
  Qed.

  Lemma lxor_1 : forall i, Nat.lxor i 1 = if Nat.odd i then i - 1 else i + 1.
  Proof.
    intros. destruct (Nat.odd i) eqn:E.
    - apply Nat.odd_spec in E. destruct E as [m ->]. replace (2 * m + 1 - 1) with (2 * m) by lia.
      apply Nat.bits_inj. intros [|n].
      + rewrite Nat.lxor_spec. rewrite Nat.testbit_odd_0, Nat.testbit_even_0. reflexivity.
      + rewrite Nat.lxor_spec, Nat.testbit_odd_succ, Nat.testbit_even_succ by lia.
        change 1 with (2 * 0 + 1). rewrite Nat.testbit_odd_succ by lia. rewrite Nat.bits_0.
        now destruct (Nat.testbit m n).
    - rewrite <- Nat.negb_even in E. apply negb_false_iff in E. apply Nat.even_spec in E. destruct E as [m ->].
      apply Nat.bits_inj. intros [|n].
      + rewrite Nat.lxor_spec. rewrite Nat.testbit_odd_0, Nat.testbit_even_0. reflexivity.
      + rewrite Nat.lxor_spec, Nat.testbit_odd_succ, Nat.testbit_even_succ by lia.
        change 1 with (2 * 0 + 1). rewrite Nat.testbit_odd_succ by lia. rewrite Nat.bits_0.
        now destruct (Nat.testbit m n).
  Qed.

Section Tree.
  Variables (hf : hashfn) (ssd ps : list N) (p : xmss_params).
  Let w := N.to_nat (w_w (x_wots p)).
  Let len := w_len (x_wots p).
  Definition tnode : nat -> nat -> list N := node hf w len ssd ps.

  Lemma tnode_S : forall j i, tnode (S j) i = rand_hash hf ps 2 0 j i (tnode j (2 * i)) (tnode j (2 * i + 1)).
  Proof. reflexivity. Qed.

  (** Climbing from a tree node along its siblings reaches its ancestor. *)
  Lemma climb_siblings : forall n j s, 
    climb hf ps j (s / 2 ^ j) (tnode j (s / 2 ^ j))
      (map (fun i => tnode i (Nat.lxor (s / 2 ^ i) 1)) (seq j n)) = tnode (j + n) (s / 2 ^ (j + n)).
  Proof.
    induction n; intros j s.
    - cbn. now rewrite Nat.add_0_r.
    - cbn [seq map climb]. replace (j + S n) with (S j + n) by lia. rewrite <- IHn.
      replace (s / 2 ^ j / 2) with (s / 2 ^ S j).
      2:{ rewrite Nat.div_div by (try apply Nat.pow_nonzero; lia). f_equal. cbn. lia. }
      f_equal. rewrite lxor_1, tnode_S.
      assert (E : s / 2 ^ S j = s / 2 ^ j / 2).
      { rewrite Nat.div_div by (try apply Nat.pow_nonzero; lia). f_equal. cbn. lia. }
      destruct (Nat.odd (s / 2 ^ j)) eqn:Eo.
      + apply Nat.odd_spec in Eo. destruct Eo as [m Em]. rewrite E, Em.
        replace ((2 * m + 1) / 2) with m by (rewrite Nat.mul_comm, Nat.div_add_l by lia; cbn; lia).
        now replace (2 * m + 1 - 1) with (2 * m) by lia.
      + rewrite <- Nat.negb_even in Eo. apply negb_false_iff in Eo. apply Nat.even_spec in Eo.
        destruct Eo as [m Em]. rewrite E, Em.
        replace ((2 * m) / 2) with m by (rewrite Nat.mul_comm, Nat.div_mul; lia). reflexivity.
  Qed.

  Lemma climb_auth_path : forall h s, s < 2 ^ h ->
    climb hf ps 0 s (tnode 0 s) (auth_path hf w len ssd ps h s) = tnode h 0.
  Proof.
    intros h s Hs. unfold auth_path. 
    pose proof (climb_siblings h 0 s) as H. rewrite Nat.pow_0_r, Nat.div_1_r in H.
    fold tnode. rewrite H. cbn [plus]. now rewrite Nat.div_small.
  Qed.

  (** ** treehash *)

  Definition lvl (x : nat * nat) := fst x.
  Definition val (x : nat * nat) := tnode (fst x) (snd x).

  Record stack_rep (st : list (nat * nat)) (stack : list (list N)) (levels : list nat) (off : nat) : Prop := {
    sr_off : off = length st;
    sr_stack : firstn off stack = rev (map val st);
    sr_levels : firstn off levels = rev (map lvl st) }.

  Lemma stack_rep_push : forall st stack levels off l i,
    stack_rep st stack levels off -> off < length stack -> off < length levels ->
    stack_rep ((l, i) :: st) (upd stack off (tnode l i)) (upd levels off l) (S off).
  Proof.
    intros * [H1 H2 H3] L1 L2. constructor.
    - cbn. lia.
    - rewrite firstn_upd_S by auto. cbn. now rewrite H2.
    - rewrite firstn_upd_S by auto. cbn. now rewrite H3.
  Qed.

  Lemma stack_rep_top2 : forall st stack levels off x y,
    stack_rep (x :: y :: st) stack levels off ->
    2 <= off /\ get stack (off - 1) = Ok (val x) /\ get stack (off - 2) = Ok (val y) /\
    get levels (off - 1) = Ok (lvl x) /\ get levels (off - 2) = Ok (lvl y) /\
    stack_rep st stack levels (off - 2) /\ off - 2 < length stack /\ off - 2 < length levels.
  Proof.
    intros st stack levels off x y [H1 H2 H3]. cbn [length] in H1.
    split; [lia|]. subst off. cbn [Nat.sub]. rewrite Nat.sub_0_r.
    cbn [map] in H2, H3.
    assert (Ls : length (map val st) = length st) by apply map_length.
    assert (Ll : length (map lvl st) = length st) by apply map_length.
    pose proof (firstn_rev_top _ stack (val x) (val y :: map val st)) as A1.
    cbn [length] in A1. rewrite Ls in A1. destruct (A1 H2) as [A2 A3].
    pose proof (firstn_rev_top _ stack (val y) (map val st)) as A4. rewrite Ls in A4.
    destruct (A4 A3) as [A5 A6].
    pose proof (firstn_rev_top _ levels (lvl x) (lvl y :: map lvl st)) as B1.
    cbn [length] in B1. rewrite Ll in B1. destruct (B1 H3) as [B2 B3].
    pose proof (firstn_rev_top _ levels (lvl y) (map lvl st)) as B4. rewrite Ll in B4.
    destruct (B4 B3) as [B5 B6].
    repeat split; try (apply get_ok; assumption); auto.
    - apply nth_error_Some. congruence.
    - apply nth_error_Some. congruence.
  Qed.

  (* reducing loop *)
  Lemma treehash_while_spec : forall fuel idx st l i n stack levels off a,
    nd_adrs a -> stack_rep ((l, i) :: st) stack levels off -> covers 0 st (i * 2 ^ l) ->
    n = idx + 1 -> n = (i + 1) * 2 ^ l ->
    (forall l' i' r', st = (l', i') :: r' -> l <= l') -> length st < fuel ->
    exists st' stack' levels' off' a',
      treehash_while hf fuel idx ps stack levels off a = Ok (stack', levels', off', a') /\
      nd_adrs a' /\ stack_rep st' stack' levels' off' /\ covers 0 st' n /\
      length stack' = length stack /\ length levels' = length levels.
  Proof.
    induction fuel; intros idx st l i n stack levels off a Ha Hr Hc Hn Hn2 Hle Hf; [lia|].
    cbn [treehash_while].
    destruct st as [|[l' i'] st].
    - assert (off = 1) by (apply (sr_off _ _ _ _ Hr)). subst off. cbn [Nat.leb].
      exists [(l, i)], stack, levels, 1, a. repeat split; auto; try apply Ha; try apply Hr.
      inversion Hc. assert (i = 0). { assert (2 ^ l <> 0) by (apply Nat.pow_nonzero; lia). nia. }
      subst i. replace n with ((0 + 1) * 2 ^ l) by lia. constructor; auto. intros; discriminate.
    - destruct (stack_rep_top2 _ _ _ _ _ _ Hr) as (O2 & G1 & G2 & G3 & G4 & Hr' & L1 & L2).
      rewrite (proj2 (Nat.leb_gt _ _)) by lia.
      rewrite G3, G4. cbn [bind lvl fst].
      specialize (Hle l' i' st eq_refl) as Hll.
      assert (P : 2 ^ l <> 0) by (apply Nat.pow_nonzero; lia).
      inversion Hc as [|? ? ? Hc' Hev Hdec E1 E2]; subst l0 i0 rest.
      destruct (l =? l') eqn:El; cbn [negb].
      + apply Nat.eqb_eq in El. subst l'.
        assert (i = i' + 1) by nia. subst i.
        assert (Ei : exists m, i' = 2 * m) by (apply Nat.even_spec in Hev; exact Hev).
        destruct Ei as [m ->].
        assert (Eidx : idx / 2 ^ (l + 1) = m).
        { rewrite Nat.add_1_r. cbn [Nat.pow]. symmetry.
          apply (Nat.div_unique _ _ _ (2 * 2 ^ l - 1)); [lia|]. nia. }
        rewrite Eidx.
        rewrite G2, G1. cbn [bind].
        destruct (hash_node hf ps a l m (val (l, 2 * m)) (val (l, 2 * m + 1)) Ha) as (a1 & Eh & Ha1).
        rewrite Eh. rewrite (set_ok _ stack) by lia. cbn [bind].
        rewrite (set_ok _ levels) by lia. cbn [bind].
        change (rand_hash hf ps 2 0 l m (val (l, 2 * m)) (val (l, 2 * m + 1))) with (tnode (S l) m).
        rewrite Nat.add_1_r.
        destruct (IHfuel idx st (S l) m n (upd stack (off - 2) (tnode (S l) m))
                    (upd levels (off - 2) (S l)) (off - 1) a1 Ha1) as (st' & s' & lv' & o' & a' & E & R1 & R2 & R3 & R4 & R5).
        * replace (off - 1) with (S (off - 2)) by lia. apply stack_rep_push; auto.
        * replace (m * 2 ^ S l) with (2 * m * 2 ^ l) by (cbn [Nat.pow]; nia). exact Hc'.
        * exact Hn.
        * cbn [Nat.pow]. nia.
        * intros l'' i'' r'' ->. specialize (Hdec l'' i'' r'' eq_refl). lia.
        * cbn in Hf. lia.
        * rewrite E. exists st', s', lv', o', a'. rewrite upd_length in R4, R5. split; [reflexivity|tauto].
      + apply Nat.eqb_neq in El.
        exists ((l, i) :: (l', i') :: st), stack, levels, off, a.
        repeat split; auto; try apply Ha; try apply Hr.
        rewrite Hn2. constructor; auto.
        * assert (Hi : i * 2 ^ l = (i' + 1) * 2 ^ l') by nia.
          replace l' with (S (l' - l - 1) + l) in Hi by lia.
          rewrite Nat.pow_add_r in Hi. cbn [Nat.pow] in Hi.
          apply Nat.even_spec. exists ((i' + 1) * 2 ^ (l' - l - 1)). nia.
        * intros l0 i0 r0 E. injection E as <- <- <-. lia.
  Qed.

  Lemma lt_adrs_set : forall a o k, lt_adrs a o -> lt_adrs (setLtreeADRS a (N.of_nat k)) k.
  Proof. intros a o k (R & E3 & E4). repeat split; auto; try apply R. cbn. apply u32_u32. Qed.
  Lemma ots_adrs_set : forall a o k, ots_adrs a o -> ots_adrs (setOTSADRS a (N.of_nat k)) k.
  Proof. intros a o k (R & E3 & E4). repeat split; auto; try apply R. cbn. apply u32_u32. Qed.

  Lemma copy_adrs : forall addr, root_adrs addr ->
    ots_adrs (copy_layer_tree addr 0) 0 /\ lt_adrs (copy_layer_tree addr 1) 0 /\ nd_adrs (copy_layer_tree addr 2).
  Proof. intros addr R. repeat split; apply R. Qed.

  Hypothesis Hw : (1 <= w_w (x_wots p))%N.
  Hypothesis Hlen : 1 <= w_len (x_wots p).

  Theorem treehash_spec : forall junk h addr, root_adrs addr ->
    treehash hf junk h ssd p ps addr = Ok (tnode h 0).
  Proof.
    intros junk h addr R. unfold treehash.
    destruct (copy_adrs addr R) as (Ho & Hl & Hn).
    match goal with |- (bind (for_up _ ?f ?s0) _) = _ =>
      destruct (for_up_inv _ (fun idx '(stack, levels, off, oa, la, na) =>
        (exists st, stack_rep st stack levels off /\ covers 0 st idx) /\
        (exists o, ots_adrs oa o) /\ (exists o, lt_adrs la o) /\ nd_adrs na /\
        length stack = h + 1 /\ length levels = h + 1) f (2 ^ h) s0) as (s' & E & HI) end.
    - repeat split; eauto; try apply Hn; try apply repeat_length.
      exists []. split; [constructor; auto|constructor].
    - intros idx [[[[[stack levels] off] oa] la] na] Hidx ((st & Hr & Hc) & (o1 & Ho1) & (o2 & Ho2) & Hna & L1 & L2).
      destruct (gen_leaf_wots_spec hf ssd p ps (setLtreeADRS la (N.of_nat idx)) (setOTSADRS oa (N.of_nat idx)) idx)
        as (la' & oa' & E & Hla & Hoa); auto.
      { eapply lt_adrs_set; eauto. } { eapply ots_adrs_set; eauto. }
      rewrite E. cbn [bind].
      assert (Hoff : off < h + 1).
      { rewrite (sr_off _ _ _ _ Hr).
        assert (HB : forall l i, In (l, i) st -> l < h).
        { intros l i Hin. pose proof (covers_levels _ _ _ Hc l i Hin).
          destruct (Nat.lt_ge_cases l h); auto.
          assert (2 ^ h <= 2 ^ l) by (apply Nat.pow_le_mono_r; lia). lia. }
        pose proof (covers_length _ _ _ Hc h HB) as HLn. destruct st as [|[l i] st]; cbn in *; lia. }
      rewrite (set_ok _ stack) by lia. cbn [bind]. rewrite (set_ok _ levels) by lia. cbn [bind].
      fold w. fold len. change (leaf hf w len ssd ps idx) with (tnode 0 idx).
      destruct (treehash_while_spec (S off) idx st 0 idx (S idx) (upd stack off (tnode 0 idx)) (upd levels off 0) (S off) na Hna)
        as (st' & s' & lv' & o' & a' & E' & R1 & R2 & R3 & R4 & R5).
      + apply stack_rep_push; auto; lia.
      + rewrite Nat.pow_0_r, Nat.mul_1_r. exact Hc.
      + lia. + cbn. lia. + intros; lia. + rewrite <- (sr_off _ _ _ _ Hr). lia.
      + rewrite E'. cbn [bind]. eexists. split; [reflexivity|].
        rewrite upd_length in R4, R5. repeat split; eauto; try apply R1; lia.
    - destruct s' as [[[[[stack levels] off] oa] la] na].
      destruct HI as ((st & Hr & Hc) & _). rewrite E. cbn [bind].
      (* the stack is the single node (h, 0) *)
      assert (st = [(h, 0)]).
      { inversion Hc as [E0|l i rest Hc' Hev Hdec E1 E2].
        - assert (2 ^ h <> 0) by (apply Nat.pow_nonzero; lia). lia.
        - assert (Hi : i = 0 /\ l = h).
          { destruct (Nat.lt_trichotomy l h) as [Hlt|[->|Hgt]].
            - replace h with (S (h - l - 1) + l) in E2 by lia. rewrite Nat.pow_add_r in E2.
              cbn [Nat.pow] in E2. assert (2 ^ l <> 0) by (apply Nat.pow_nonzero; lia).
              apply Nat.even_spec in Hev. destruct Hev as [m ->].
              assert (2 * m + 1 = 2 * 2 ^ (h - l - 1)) by nia. lia.
            - assert (2 ^ h <> 0) by (apply Nat.pow_nonzero; lia). nia.
            - replace l with (S (l - h - 1) + h) in E2 by lia. rewrite Nat.pow_add_r in E2.
              cbn [Nat.pow] in E2. assert (2 ^ h <> 0) by (apply Nat.pow_nonzero; lia).
              assert (2 ^ (l - h - 1) <> 0) by (apply Nat.pow_nonzero; lia). nia. }
          destruct Hi as [-> ->]. cbn [Nat.mul] in Hc'. inversion Hc' as [|l2 i2 r2 Hc2 _ _ E3 E4]; auto.
          assert (2 ^ l2 <> 0) by (apply Nat.pow_nonzero; lia). nia. }
      subst st. pose proof (sr_off _ _ _ _ Hr) as Eo. cbn in Eo. subst off.
      pose proof (sr_stack _ _ _ _ Hr) as Es. cbn in Es. destruct stack; [discriminate|].
      cbn in Es. injection Es as ->. reflexivity.
  Qed.

  (** ** compute_authpath_wots *)
  Theorem compute_authpath_spec : forall junk s addr, root_adrs addr ->
    1 <= x_h p < 26 -> s < 2 ^ x_h p ->
    compute_authpath_wots hf junk s ssd p ps addr =
    Ok (tnode (x_h p) 0, auth_path hf w len ssd ps (x_h p) s).
  Proof.
    intros junk s addr R Hh Hs. unfold compute_authpath_wots. set (h := x_h p) in *.
    rewrite (proj2 (Nat.leb_gt _ _)) by lia.
    destruct (copy_adrs addr R) as (Ho & Hl & Hn).
    assert (P : 2 ^ h <> 0) by (apply Nat.pow_nonzero; lia).
    (* leaves *)
    match goal with |- (bind (for_up _ ?f ?s0) _) = _ =>
      destruct (for_up_inv _ (fun i '(tree, oa, la) =>
        (forall j, j < i -> nth_error tree (2 ^ h + j) = Some (tnode 0 j)) /\
        (exists o, ots_adrs oa o) /\ (exists o, lt_adrs la o) /\ length tree = 2 * 2 ^ h) f (2 ^ h) s0)
        as (s1 & E1 & HI1) end.
    { repeat split; eauto; [intros; lia | apply repeat_length]. }
    { intros i [[tree oa] la] Hi (HT & (o1 & Ho1) & (o2 & Ho2) & HL).
      destruct (gen_leaf_wots_spec hf ssd p ps (setLtreeADRS la (N.of_nat i)) (setOTSADRS oa (N.of_nat i)) i)
        as (la' & oa' & E & Hla & Hoa); auto.
      { eapply lt_adrs_set; eauto. } { eapply ots_adrs_set; eauto. }
      rewrite E. cbn [bind]. rewrite set_ok by lia. cbn [bind]. eexists. split; [reflexivity|].
      repeat split; eauto; [|now rewrite upd_length].
      intros j Hj. destruct (Nat.eq_dec j i) as [->|].
      - rewrite nth_error_upd_same by lia. reflexivity.
      - rewrite nth_error_upd_other by lia. apply HT. lia. }
    destruct s1 as [[tree1 oa1] la1]. rewrite E1. cbn [bind]. destruct HI1 as (HT1 & _ & _ & HL1).
    clear E1.
    (* inner nodes *)
    match goal with |- (bind (for_up _ ?f ?s0) _) = _ =>
      destruct (for_up_inv _ (fun lev '(tree, na) =>
        (forall l j, l <= lev -> j < 2 ^ (h - l) -> nth_error tree (2 ^ (h - l) + j) = Some (tnode l j)) /\
        nd_adrs na /\ length tree = 2 * 2 ^ h) f h s0)
        as (s2 & E2 & HI2) end.
    { repeat split; auto; try apply Hn. intros l j Hl0 Hj. replace l with 0 in * by lia.
      rewrite Nat.sub_0_r in *. auto. }
    { intros lev [tree na] Hlev (HT & Hna & HL).
      set (i := 2 ^ (h - lev)).
      assert (Ei : i = 2 * 2 ^ (h - S lev)).
      { unfold i. replace (h - lev) with (S (h - S lev)) by lia. reflexivity. }
      assert (Ei2 : i / 2 = 2 ^ (h - S lev)) by (rewrite Ei, Nat.mul_comm, Nat.div_mul; lia).
      assert (Ele : i <= 2 ^ h) by (unfold i; apply Nat.pow_le_mono_r; lia).
      match goal with |- exists s'', for_up _ ?g ?t0 = _ /\ _ =>
        destruct (for_up_inv _ (fun j2 '(tree', na') =>
          (forall l j, l <= lev -> j < 2 ^ (h - l) -> nth_error tree' (2 ^ (h - l) + j) = Some (tnode l j)) /\
          (forall j, j < j2 -> nth_error tree' (i / 2 + j) = Some (tnode (S lev) j)) /\
          nd_adrs na' /\ u32 (a5 na') = u32 (N.of_nat lev) /\ length tree' = 2 * 2 ^ h) g (i / 2) t0)
          as (t' & Et & HIt) end.
      - repeat split; auto; try (apply nd_setTreeHeight; apply Hna); try (intros; lia); try apply Hna. cbn. apply u32_u32.
      - intros j2 [tree' na'] Hj2 (HA & HB & HN & H5 & HL').
        assert (Gl : nth_error tree' (i + 2 * j2) = Some (tnode lev (2 * j2))) by (unfold i; apply HA; lia).
        assert (Gr : nth_error tree' (i + 2 * j2 + 1) = Some (tnode lev (2 * j2 + 1))).
        { rewrite <- Nat.add_assoc. unfold i; apply HA; lia. }
        apply get_ok in Gl. apply get_ok in Gr. rewrite Gl. cbn [bind]. rewrite Gr. cbn [bind].
        destruct (hash_node_h hf ps na' lev j2 (tnode lev (2 * j2)) (tnode lev (2 * j2 + 1)) HN H5) as (a' & Eh & Ha' & H5').
        rewrite Eh. rewrite set_ok by lia. cbn [bind]. eexists. split; [reflexivity|].
        repeat split; auto; try apply Ha'; [| |now rewrite upd_length].
        + intros l j Hl0 Hj. rewrite nth_error_upd_other; auto.
          assert (i <= 2 ^ (h - l)) by (unfold i; apply Nat.pow_le_mono_r; lia). lia.
        + intros j Hj. destruct (Nat.eq_dec j j2) as [->|].
          * rewrite nth_error_upd_same by lia. reflexivity.
          * rewrite nth_error_upd_other by lia. apply HB. lia.
      - exists t'. split; [exact Et|]. destruct t' as [tree' na']. destruct HIt as (HA & HB & HN & _ & HL').
        repeat split; auto; try apply HN. intros l j Hl0 Hj.
        destruct (Nat.eq_dec l (S lev)) as [->|]; [rewrite <- Ei2 in *; auto | apply HA; lia]. }
    destruct s2 as [tree2 na2]. rewrite E2. cbn [bind]. destruct HI2 as (HT2 & _ & HL2). clear E2.
    (* authentication path *)
    match goal with |- (bind (for_up _ ?f ?s0) _) = _ =>
      destruct (for_up_inv _ (fun n acc => acc = map (fun i => tnode i (Nat.lxor (s / 2 ^ i) 1)) (seq 0 n)) f h s0)
        as (s3 & E3 & HI3) end.
    { reflexivity. }
    { intros i acc Hi ->.
      assert (Ep : 2 ^ h / 2 ^ i = 2 ^ (h - i)).
      { symmetry. apply (Nat.div_unique_exact _ _ _). apply Nat.pow_nonzero; lia. rewrite <- Nat.pow_add_r. f_equal. lia. }
      rewrite Ep.
      assert (Hx : Nat.lxor (s / 2 ^ i) 1 < 2 ^ (h - i)).
      { assert (Hq : s / 2 ^ i < 2 ^ (h - i)).
        { apply Nat.div_lt_upper_bound. apply Nat.pow_nonzero; lia. rewrite <- Nat.pow_add_r.
          replace (i + (h - i)) with h by lia. auto. }
        assert (Hpw : 2 ^ (h - i) = 2 * 2 ^ (h - i - 1)).
        { replace (h - i) with (S (h - i - 1)) at 1 by lia. reflexivity. }
        rewrite lxor_1. destruct (Nat.odd (s / 2 ^ i)) eqn:Eo; [lia|].
        rewrite <- Nat.negb_even in Eo. apply negb_false_iff in Eo. apply Nat.even_spec in Eo. destruct Eo as [m Em]. lia. }
      rewrite (proj2 (get_ok _ _ _ _) (HT2 i _ ltac:(lia) Hx)). cbn [bind]. eexists. split; [reflexivity|].
      rewrite seq_S, map_app. reflexivity. }
    rewrite E3. cbn [bind]. 
    assert (Gr : nth_error tree2 (2 ^ (h - h) + 0) = Some (tnode h 0)).
    { apply HT2; [lia|]. rewrite Nat.sub_diag. cbn. lia. }
    rewrite Nat.sub_diag in Gr. cbn [Nat.pow plus] in Gr.
    rewrite (proj2 (get_ok _ _ _ _) Gr). cbn [bind]. rewrite HI3. reflexivity.
  Qed.
End Tree.
