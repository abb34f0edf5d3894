(** Proofs about Trace.v: the log of key generation and of XmssBasic. *)
From Coq Require Import List NArith Arith Lia Bool Permutation.
From Verif Require Import Base Bytes Keccak HashAddress Wots XmssCommon AlgsXmss AlgsXmssFast Descriptor XmssObj
  SpecXmss SpecApi SpecDomain SpecTweak XmssRefine WotsProofs TreeProofs BasicProofs BdsSched BdsProofs BdsSetup FastProofs
  PropDomain Trace TraceProofs TraceProofs2.
Import ListNotations.
Open Scope nat_scope.

(** The tree nodes completed by leaf [idx]. *)
Definition nodes_at (h idx : nat) : list place :=
  map (fun s => TNode s (idx / 2 ^ S s)) (filter (fun s => (idx + 1) mod 2 ^ S s =? 0) (seq 0 h)).
(** The places in the order in which treehash visits them. *)
Definition treehash_places (w len h : nat) : list place :=
  flat_map (fun o => leaf_places w len o ++ nodes_at h o) (seq 0 (2 ^ h)).

Lemma flat_map_app_perm : forall A B (f g : A -> list B) l,
  Permutation (flat_map (fun a => f a ++ g a) l) (flat_map f l ++ flat_map g l).
Proof.
  induction l; cbn [flat_map]; [constructor|]. rewrite <- !app_assoc. apply Permutation_app_head.
  rewrite IHl. rewrite !app_assoc. apply Permutation_app_tail, Permutation_app_comm.
Qed.

Lemma nodes_at_in : forall h idx pl, In pl (nodes_at h idx) <-> exists s x, pl = TNode s x /\ s < h /\ idx + 1 = (x + 1) * 2 ^ S s.
Proof.
  intros h idx pl. unfold nodes_at. rewrite in_map_iff. split.
  - intros (s & <- & Hs). apply filter_In in Hs. destruct Hs as (Hs & E). apply in_seq in Hs. apply Nat.eqb_eq in E.
    exists s, (idx / 2 ^ S s). split; [reflexivity|]. split; [lia|]. pose proof (pow2_pos (S s)).
    apply Nat.mod_divides in E; [|lia]. destruct E as (c & E). destruct c; [lia|].
    replace (idx / 2 ^ S s) with c; [lia|]. apply (Nat.div_unique _ _ _ (2 ^ S s - 1)); [lia|]. nia.
  - intros (s & x & -> & Hs & E). pose proof (pow2_pos (S s)). exists s. split.
    + f_equal. symmetry. apply (Nat.div_unique _ _ _ (2 ^ S s - 1)); [lia|]. nia.
    + apply filter_In. split; [apply in_seq; lia|]. apply Nat.eqb_eq. rewrite E. apply Nat.mod_mul. lia.
Qed.

Lemma treehash_places_perm : forall w len h, Permutation (treehash_places w len h) (tree_places w len h).
Proof.
  intros w len h. unfold treehash_places. rewrite flat_map_app_perm. unfold tree_places. apply Permutation_app_head.
  apply NoDup_Permutation.
  - apply NoDup_flat_map; [apply seq_NoDup| |].
    + intros o _. unfold nodes_at. apply FinFun.Injective_map_NoDup; [|apply NoDup_filter, seq_NoDup].
      intros a b E. congruence.
    + intros a b x _ _ Ha Hb. apply nodes_at_in in Ha. apply nodes_at_in in Hb.
      destruct Ha as (s & y & -> & _ & E1). destruct Hb as (s' & y' & E & _ & E2). injection E as <- <-. lia.
  - apply NoDup_flat_map; [apply seq_NoDup| |].
    + intros j _. apply NoDup_map_inj; [congruence|apply seq_NoDup].
    + intros a b x _ _ Ha Hb. apply in_map_iff in Ha. apply in_map_iff in Hb.
      destruct Ha as (? & <- & _). destruct Hb as (? & E & _). congruence.
  - intros pl. rewrite !in_flat_map. split.
    + intros (o & Ho & Hin). apply in_seq in Ho. apply nodes_at_in in Hin. destruct Hin as (s & x & -> & Hs & E).
      exists s. split; [apply in_seq; lia|]. apply in_map, in_seq. split; [lia|].
      assert (Hle : (x + 1) * 2 ^ S s <= 2 ^ h) by lia. rewrite (pow2_split (S s) h) in Hle by lia.
      apply Nat.mul_le_mono_pos_r in Hle; [|apply pow2_pos]. replace (h - 1 - s) with (h - S s) by lia. lia.
    + intros (s & Hs & Hin). apply in_seq in Hs. apply in_map_iff in Hin. destruct Hin as (x & <- & Hx). apply in_seq in Hx.
      pose proof (pow2_pos (S s)). exists ((x + 1) * 2 ^ S s - 1). split.
      * apply in_seq. split; [lia|]. rewrite (pow2_split (S s) h) by lia.
        assert ((x + 1) * 2 ^ S s <= 2 ^ (h - S s) * 2 ^ S s) by (apply Nat.mul_le_mono_r; replace (h - S s) with (h - 1 - s) by lia; lia). nia.
      * apply nodes_at_in. exists s, x. split; [reflexivity|]. split; [lia|]. nia.
Qed.

(** With odd part: the levels merged after leaf [idx] are those below the number of trailing zeros. *)
Lemma nodes_at_seq : forall h idx l y, idx + 1 = (2 * y + 1) * 2 ^ l -> l <= h ->
  nodes_at h idx = map (fun s => TNode s (idx / 2 ^ S s)) (seq 0 l).
Proof.
  intros h idx l y E Hl. destruct (tau_facts idx l y E) as (_ & _ & _ & _ & F5). unfold nodes_at. f_equal.
  replace h with (l + (h - l)) by lia. rewrite seq_app, filter_app. cbn [plus].
  assert (G1 : forall n a, a + n <= l -> filter (fun s => (idx + 1) mod 2 ^ S s =? 0) (seq a n) = seq a n).
  { induction n; intros a Ha; [reflexivity|]. cbn [seq filter]. rewrite (proj2 (Nat.eqb_eq _ _)) by (apply F5; lia). f_equal. apply IHn. lia. }
  assert (G2 : forall n a, l <= a -> filter (fun s => (idx + 1) mod 2 ^ S s =? 0) (seq a n) = []).
  { induction n; intros a Ha; [reflexivity|]. cbn [seq filter]. rewrite (proj2 (Nat.eqb_neq _ _)) by (rewrite F5; lia). apply IHn. lia. }
  rewrite G1, G2 by lia. apply app_nil_r.
Qed.

Section Setup.
  Variables (hf : hashfn) (ssd ps : list N) (p : xmss_params).
  Hypothesis Hw : (1 <= w_w (x_wots p))%N.
  Hypothesis Hlen : 1 <= w_len (x_wots p).
  Local Notation nd := (tnode hf ssd ps p).
  Local Notation rep := (stack_rep hf ssd ps p).
  Local Notation w := (N.to_nat (w_w (x_wots p))).
  Local Notation len := (w_len (x_wots p)).
  Local Notation call := (call_at hf ssd ps (x_wots p)).

  (** What one reducing loop leaves, and its log. *)
  Definition reduced (h idx l : nat) (ls ll : nat) (stack : list (list N)) (levels : list nat) (off : nat) (a : adrs) (lg : list hcall) : Prop :=
    nd_adrs a /\ length stack = ls /\ length levels = ll /\
    (exists st', rep st' stack levels off /\ covers 0 st' (idx + 1)) /\
    exists l' y, l <= l' /\ idx + 1 = (2 * y + 1) * 2 ^ l' /\
      lg = map call (map (fun s => TNode s (idx / 2 ^ S s)) (seq l (l' - l))).

  Lemma reduced_exit : forall h idx l y st stack levels off a,
    nd_adrs a -> rep st stack levels off -> covers 0 st (idx + 1) -> idx + 1 = (2 * y + 1) * 2 ^ l ->
    reduced h idx l (length stack) (length levels) stack levels off a [].
  Proof.
    intros h idx l y st stack levels off a Ha Hr Hc E. split; [exact Ha|]. split; [reflexivity|]. split; [reflexivity|].
    split; [eauto|]. exists l, y. rewrite Nat.sub_diag. auto.
  Qed.
  Lemma reduced_step : forall h idx l x ls ll stack levels off a lg,
    idx / 2 ^ (l + 1) = x -> reduced h idx (S l) ls ll stack levels off a lg ->
    reduced h idx l ls ll stack levels off a (call (TNode l x) :: lg).
  Proof.
    intros h idx l x ls ll stack levels off a lg Ex (A1 & A2 & A3 & A4 & l' & y & Hl & E & ->). repeat (split; [assumption|]).
    exists l', y. split; [lia|]. split; [exact E|]. replace (l' - l) with (S (l' - S l)) by lia. cbn [seq map].
    rewrite Nat.add_1_r in Ex. now rewrite Ex.
  Qed.
  Lemma reduced_log : forall h idx ls ll stack levels off a lg, idx < 2 ^ h ->
    reduced h idx 0 ls ll stack levels off a lg -> lg = map call (nodes_at h idx).
  Proof.
    intros h idx ls ll stack levels off a lg Hi (_ & _ & _ & _ & l' & y & _ & E & ->). rewrite Nat.sub_0_r.
    rewrite (nodes_at_seq h idx l' y E); [reflexivity|].
    destruct (Nat.le_gt_cases l' h) as [|G]; [assumption|]. exfalso.
    pose proof (Nat.pow_lt_mono_r 2 h l' ltac:(lia) G). nia.
  Qed.

  (* facts at the head of the loop *)
  Lemma merge_facts : forall idx l i l' i' st, covers 0 ((l', i') :: st) (i * 2 ^ l) -> idx + 1 = (i + 1) * 2 ^ l -> l <= l' ->
    (l = l' -> exists x, i' = 2 * x /\ i = 2 * x + 1 /\ idx / 2 ^ (l + 1) = x /\ covers 0 st (x * 2 ^ S l) /\
       (forall l'' i'' r, st = (l'', i'') :: r -> S l <= l'')) /\
    (l <> l' -> exists y, i = 2 * y /\ covers 0 ((l, i) :: (l', i') :: st) (idx + 1)).
  Proof.
    intros idx l i l' i' st Hc Hn Hll. assert (P : 2 ^ l <> 0) by (apply Nat.pow_nonzero; lia).
    inversion Hc as [|? ? ? Hc' Hev Hdec E1 E2]; subst l0 i0 rest. split.
    - intros <-. assert (i = i' + 1) by nia. subst i. apply Nat.even_spec in Hev. destruct Hev as [x ->].
      exists x. split; [reflexivity|]. split; [reflexivity|]. split; [|split].
      + rewrite Nat.add_1_r, pow2_S. symmetry. apply (Nat.div_unique _ _ _ (2 * 2 ^ l - 1)); [lia|]. nia.
      + replace (x * 2 ^ S l) with (2 * x * 2 ^ l) by (rewrite pow2_S; nia). exact Hc'.
      + intros l'' i'' r ->. specialize (Hdec l'' i'' r eq_refl). lia.
    - intros Hne. assert (Hevi : exists y, i = 2 * y).
      { replace l' with (S (l' - l - 1) + l) in E2 by lia. rewrite Nat.pow_add_r in E2. cbn [Nat.pow] in E2.
        exists ((i' + 1) * 2 ^ (l' - l - 1)). nia. }
      destruct Hevi as [y ->]. exists y. split; [reflexivity|]. rewrite Hn. constructor; [exact Hc|apply Nat.even_spec; now exists y|].
      intros l0 i0 r0 E. injection E as <- <- <-. lia.
  Qed.

  Lemma treehash_while_t_spec : forall h fuel idx st l i stack levels off a,
    nd_adrs a -> rep ((l, i) :: st) stack levels off -> covers 0 st (i * 2 ^ l) -> idx + 1 = (i + 1) * 2 ^ l ->
    (forall l' i' r', st = (l', i') :: r' -> l <= l') ->
    logs (treehash_while_t hf fuel idx ps stack levels off a) (treehash_while hf fuel idx ps stack levels off a)
      (fun '(stack', levels', off', a') lg => reduced h idx l (length stack) (length levels) stack' levels' off' a' lg).
  Proof.
    intros h fuel. induction fuel; intros idx st l i stack levels off a Ha Hr Hc Hn Hle.
    all: cbn [treehash_while_t treehash_while].
    all: assert (P : 2 ^ l <> 0) by (apply Nat.pow_nonzero; lia).
    all: destruct st as [|[l' i'] st];
      [assert (off = 1) by (apply (sr_off _ _ _ _ _ _ _ _ Hr)); subst off; cbn [Nat.leb]; apply logs_ret;
       inversion Hc; assert (Hi0 : i = 0) by nia; subst i; apply (reduced_exit h idx l 0 [(l, 0)]); auto;
       rewrite Hn; constructor; auto; intros; discriminate|].
    all: destruct (stack_rep_top2 _ _ _ _ _ _ _ _ _ _ Hr) as (O2 & G1 & G2 & G3 & G4 & Hr' & L1 & L2).
    all: rewrite (proj2 (Nat.leb_gt _ _)) by lia.
    all: apply logs_bind_lift; intros v1 E1; rewrite G3 in E1; apply Ok_inj in E1; subst v1.
    all: apply logs_bind_lift; intros v2 E2; rewrite G4 in E2; apply Ok_inj in E2; subst v2; cbn [lvl fst].
    all: specialize (Hle l' i' st eq_refl) as Hll.
    all: destruct (merge_facts idx l i l' i' st Hc Hn Hll) as (M1 & M2).
    all: destruct (l =? l') eqn:El; cbn [negb];
      [apply Nat.eqb_eq in El|apply Nat.eqb_neq in El; destruct (M2 El) as (y & -> & Hc2); apply logs_ret;
        apply (reduced_exit h idx l y ((l, 2 * y) :: (l', i') :: st)); auto].
    - reflexivity.
    - subst l'. destruct (M1 eq_refl) as (x & -> & -> & Eidx & Hc' & Hdec). rewrite Eidx.
      apply logs_bind_lift. intros v1 E1. rewrite G2 in E1. apply Ok_inj in E1. subst v1.
      apply logs_bind_lift. intros v2 E2. rewrite G1 in E2. apply Ok_inj in E2. subst v2.
      destruct (hash_node hf ps a l x (val hf ssd ps p (l, 2 * x)) (val hf ssd ps p (l, 2 * x + 1)) Ha) as (a1 & Eh & Ha1).
      unfold hash_h_t. rewrite Eh, nd_adr by exact Ha. apply logs_call.
      change (rand_hash hf ps 2 0 l x (val hf ssd ps p (l, 2 * x)) (val hf ssd ps p (l, 2 * x + 1))) with (nd (S l) x).
      apply logs_bind_lift. intros v1 E1. rewrite set_ok in E1 by lia. apply Ok_inj in E1. subst v1.
      apply logs_bind_lift. intros v2 E2. rewrite set_ok in E2 by lia. apply Ok_inj in E2. subst v2.
      rewrite Nat.add_1_r.
      eapply logs_mono; [apply (IHfuel idx st (S l) x); auto|].
      + replace (off - 1) with (S (off - 2)) by lia. apply stack_rep_push; auto.
      + rewrite pow2_S. nia.
      + cbv beta. intros [[[s' lv'] o'] a'] lg _ HR. rewrite !upd_length in HR.
        cbn [tw filter is_tweak app]. apply (reduced_step h idx l x _ _ _ _ _ _ _ Eidx HR).
  Qed.

  Lemma setup_while_t_spec : forall hh kk h fuel idx st l i stack levels off a auth ths retain,
    nd_adrs a -> rep ((l, i) :: st) stack levels off -> covers 0 st (i * 2 ^ l) -> idx + 1 = (i + 1) * 2 ^ l ->
    (forall l' i' r', st = (l', i') :: r' -> l <= l') ->
    logs (setup_while_t hf fuel hh kk idx ps stack levels off a auth ths retain) (setup_while hf fuel hh kk idx ps stack levels off a auth ths retain)
      (fun '(stack', levels', off', a', _, _, _) lg => reduced h idx l (length stack) (length levels) stack' levels' off' a' lg).
  Proof.
    intros hh kk h fuel. induction fuel; intros idx st l i stack levels off a auth ths retain Ha Hr Hc Hn Hle.
    all: cbn [setup_while_t setup_while].
    all: assert (P : 2 ^ l <> 0) by (apply Nat.pow_nonzero; lia).
    all: destruct st as [|[l' i'] st];
      [assert (off = 1) by (apply (sr_off _ _ _ _ _ _ _ _ Hr)); subst off; cbn [Nat.leb]; apply logs_ret;
       inversion Hc; assert (Hi0 : i = 0) by nia; subst i; apply (reduced_exit h idx l 0 [(l, 0)]); auto;
       rewrite Hn; constructor; auto; intros; discriminate|].
    all: destruct (stack_rep_top2 _ _ _ _ _ _ _ _ _ _ Hr) as (O2 & G1 & G2 & G3 & G4 & Hr' & L1 & L2).
    all: rewrite (proj2 (Nat.leb_gt _ _)) by lia.
    all: apply logs_bind_lift; intros v1 E1; rewrite G3 in E1; apply Ok_inj in E1; subst v1.
    all: apply logs_bind_lift; intros v2 E2; rewrite G4 in E2; apply Ok_inj in E2; subst v2; cbn [lvl fst].
    all: specialize (Hle l' i' st eq_refl) as Hll.
    all: destruct (merge_facts idx l i l' i' st Hc Hn Hll) as (M1 & M2).
    all: destruct (l =? l') eqn:El; cbn [negb];
      [apply Nat.eqb_eq in El|apply Nat.eqb_neq in El; destruct (M2 El) as (y & -> & Hc2); apply logs_ret;
        apply (reduced_exit h idx l y ((l, 2 * y) :: (l', i') :: st)); auto].
    - reflexivity.
    - subst l'. destruct (M1 eq_refl) as (x & -> & -> & Eidx & Hc' & Hdec).
      apply logs_bind_lift. intros v1 E1. rewrite G1 in E1. apply Ok_inj in E1. subst v1.
      apply logs_bind_lift. intros [[auth1 ths1] retain1] _. rewrite Eidx.
      apply logs_bind_lift. intros v2 E2. rewrite G2 in E2. apply Ok_inj in E2. subst v2.
      destruct (hash_node hf ps a l x (val hf ssd ps p (l, 2 * x)) (val hf ssd ps p (l, 2 * x + 1)) Ha) as (a1 & Eh & Ha1).
      unfold hash_h_t. rewrite Eh, nd_adr by exact Ha. apply logs_call.
      change (rand_hash hf ps 2 0 l x (val hf ssd ps p (l, 2 * x)) (val hf ssd ps p (l, 2 * x + 1))) with (nd (S l) x).
      apply logs_bind_lift. intros v1 E1. rewrite set_ok in E1 by lia. apply Ok_inj in E1. subst v1.
      apply logs_bind_lift. intros v2 E2. rewrite set_ok in E2 by lia. apply Ok_inj in E2. subst v2.
      rewrite Nat.add_1_r.
      eapply logs_mono; [apply (IHfuel idx st (S l) x); auto|].
      + replace (off - 1) with (S (off - 2)) by lia. apply stack_rep_push; auto.
      + rewrite pow2_S. nia.
      + cbv beta. intros [[[[[[s' lv'] o'] a'] ?] ?] ?] lg _ HR. rewrite !upd_length in HR.
        cbn [tw filter is_tweak app]. apply (reduced_step h idx l x _ _ _ _ _ _ _ Eidx HR).
  Qed.

  Lemma stack_room : forall h idx st stack levels off, rep st stack levels off -> covers 0 st idx -> idx < 2 ^ h -> off < h + 1.
  Proof.
    intros h idx st stack levels off Hr Hc Hi. rewrite (sr_off _ _ _ _ _ _ _ _ Hr).
    assert (HB : forall l i, In (l, i) st -> l < h).
    { intros l i Hin. pose proof (covers_levels _ _ _ Hc l i Hin).
      destruct (Nat.lt_ge_cases l h); auto. assert (2 ^ h <= 2 ^ l) by (apply Nat.pow_le_mono_r; lia). lia. }
    pose proof (covers_length _ _ _ Hc h HB) as HLn. destruct st as [|[l i] st]; cbn in *; lia.
  Qed.

  Lemma leaf_logs : forall lta ota o, lt_adrs lta o -> ots_adrs ota o ->
    logs (gen_leaf_wots_t hf ssd p ps lta ota) (gen_leaf_wots hf ssd p ps lta ota)
      (fun '(lf, la, oa) l => lf = nd 0 o /\ (exists k, lt_adrs la k) /\ (exists k, ots_adrs oa k) /\ l = map call (leaf_places w len o)).
  Proof.
    intros lta ota o Hl Ho. destruct (gen_leaf_wots_t_spec hf ssd p ps lta ota o Hl Ho Hw Hlen) as (r & l & E1 & E2 & L).
    destruct (gen_leaf_wots_spec hf ssd p ps lta ota o) as (la & oa & E3 & A1 & A2); auto.
    rewrite E2. exists l. split; [exact E1|]. rewrite E3 in E2. apply Ok_inj in E2. subst r. repeat split; eauto.
  Qed.

  Lemma map_snoc : forall (f : nat -> list place) n, map call (flat_map f (seq 0 (S n))) = map call (flat_map f (seq 0 n)) ++ map call (f n).
  Proof. intros. rewrite seq_S, flat_map_app, map_app. cbn [plus flat_map]. now rewrite app_nil_r. Qed.

  Theorem treehash_setup_t_spec : forall junk st addr, root_adrs addr ->
    logs (treehash_setup_t hf junk st ssd p ps addr) (treehash_setup hf junk st ssd p ps addr)
      (fun _ lg => lg = map call (treehash_places w len (x_h p))).
  Proof.
    intros junk st addr R. unfold treehash_setup_t, treehash_setup. set (h := x_h p).
    destruct (copy_adrs addr R) as (Ho & Hl & Hn).
    apply logs_bind_lift. intros ths0 _.
    eapply logs_bind.
    - apply (logs_for _ (fun idx '(stack, levels, off, oa, la, na, auth, ths, retain) lg =>
        (exists st, rep st stack levels off /\ covers 0 st idx) /\
        (exists o, ots_adrs oa o) /\ (exists o, lt_adrs la o) /\ nd_adrs na /\
        length stack = h + 1 /\ length levels = h + 1 /\
        lg = map call (flat_map (fun o => leaf_places w len o ++ nodes_at h o) (seq 0 idx)))).
      + split. { exists []. split; [constructor; auto|constructor]. }
        split; [eauto|]. split; [eauto|]. split; [exact Hn|]. split; [apply repeat_length|]. split; [apply repeat_length|]. reflexivity.
      + cbn [plus]. intros idx [[[[[[[[stack levels] off] oa] la] na] auth] ths1] retain] lg Hidx
          ((sl & Hr & Hc) & (o1 & Ho1) & (o2 & Ho2) & Hna & L1 & L2 & Elg).
        pose proof (stack_room h idx sl stack levels off Hr Hc (proj2 Hidx)) as Hoff.
        eapply logs_bind; [apply (leaf_logs _ _ idx)|].
        { eapply lt_adrs_set; eauto. } { eapply ots_adrs_set; eauto. }
        cbv beta. intros [[lf la1] oa1] lg1 _ (-> & Hla & Hoa & ->).
        apply logs_bind_lift. intros v1 E1. rewrite set_ok in E1 by lia. apply Ok_inj in E1. subst v1.
        apply logs_bind_lift. intros v2 E2. rewrite set_ok in E2 by lia. apply Ok_inj in E2. subst v2.
        apply logs_bind_lift. intros ths2 _.
        eapply logs_bind; [apply (setup_while_t_spec h (x_k p) h (S off) idx sl 0 idx); auto|].
        { apply stack_rep_push; auto; lia. }
        { rewrite Nat.pow_0_r, Nat.mul_1_r. exact Hc. }
        { cbn. lia. } { intros; lia. }
        cbv beta. intros [[[[[[s' lv'] o'] a'] au'] th'] re'] lg2 _ HR. apply logs_ret.
        pose proof (reduced_log h idx _ _ _ _ _ _ _ (proj2 Hidx) HR) as ->.
        destruct HR as (B1 & B2 & B3 & (st' & B4 & B5) & _). rewrite upd_length in B2, B3. 
        split; [exists st'; split; [exact B4|]; now rewrite <- Nat.add_1_r|]. split; [eauto|]. split; [eauto|]. split; [exact B1|]. split; [lia|]. split; [lia|].
        rewrite map_snoc, map_app, <- Elg. rewrite !app_nil_r. reflexivity.
    - cbv beta. intros [[[[[[[[stack levels] off] oa] la] na] auth] ths1] retain] lg _ (_ & _ & _ & _ & _ & _ & ->).
      apply logs_bind_lift. intros root _. apply logs_ret. now rewrite app_nil_r.
  Qed.

  Theorem treehash_t_spec : forall junk h addr, root_adrs addr ->
    logs (treehash_t hf junk h ssd p ps addr) (treehash hf junk h ssd p ps addr)
      (fun _ lg => lg = map call (treehash_places w len h)).
  Proof.
    intros junk h addr R. unfold treehash_t, treehash.
    destruct (copy_adrs addr R) as (Ho & Hl & Hn).
    eapply logs_bind.
    - apply (logs_for _ (fun idx '(stack, levels, off, oa, la, na) lg =>
        (exists st, rep st stack levels off /\ covers 0 st idx) /\
        (exists o, ots_adrs oa o) /\ (exists o, lt_adrs la o) /\ nd_adrs na /\
        length stack = h + 1 /\ length levels = h + 1 /\
        lg = map call (flat_map (fun o => leaf_places w len o ++ nodes_at h o) (seq 0 idx)))).
      + split. { exists []. split; [constructor; auto|constructor]. }
        split; [eauto|]. split; [eauto|]. split; [exact Hn|]. split; [apply repeat_length|]. split; [apply repeat_length|]. reflexivity.
      + cbn [plus]. intros idx [[[[[stack levels] off] oa] la] na] lg Hidx
          ((sl & Hr & Hc) & (o1 & Ho1) & (o2 & Ho2) & Hna & L1 & L2 & Elg).
        pose proof (stack_room h idx sl stack levels off Hr Hc (proj2 Hidx)) as Hoff.
        eapply logs_bind; [apply (leaf_logs _ _ idx)|].
        { eapply lt_adrs_set; eauto. } { eapply ots_adrs_set; eauto. }
        cbv beta. intros [[lf la1] oa1] lg1 _ (-> & Hla & Hoa & ->).
        apply logs_bind_lift. intros v1 E1. rewrite set_ok in E1 by lia. apply Ok_inj in E1. subst v1.
        apply logs_bind_lift. intros v2 E2. rewrite set_ok in E2 by lia. apply Ok_inj in E2. subst v2.
        eapply logs_bind; [apply (treehash_while_t_spec h (S off) idx sl 0 idx); auto|].
        { apply stack_rep_push; auto; lia. }
        { rewrite Nat.pow_0_r, Nat.mul_1_r. exact Hc. }
        { cbn. lia. } { intros; lia. }
        cbv beta. intros [[[s' lv'] o'] a'] lg2 _ HR. apply logs_ret.
        pose proof (reduced_log h idx _ _ _ _ _ _ _ (proj2 Hidx) HR) as ->.
        destruct HR as (B1 & B2 & B3 & (st' & B4 & B5) & _). rewrite upd_length in B2, B3. 
        split; [exists st'; split; [exact B4|]; now rewrite <- Nat.add_1_r|]. split; [eauto|]. split; [eauto|]. split; [exact B1|]. split; [lia|]. split; [lia|].
        rewrite map_snoc, map_app, <- Elg. rewrite !app_nil_r. reflexivity.
    - cbv beta. intros [[[[[stack levels] off] oa] la] na] lg _ (_ & _ & _ & _ & _ & _ & ->).
      eapply logs_mono; [apply (logs_lift _ _ (fun _ l => l = [])); auto|]. cbv beta. intros _ l _ ->. now rewrite !app_nil_r.
  Qed.

  (** compute_authpath_wots visits the whole tree once, row by row. *)
  Theorem compute_authpath_t_spec : forall junk s addr, root_adrs addr ->
    logs (compute_authpath_wots_t hf junk s ssd p ps addr) (compute_authpath_wots hf junk s ssd p ps addr)
      (fun _ lg => lg = map call (tree_places w len (x_h p))).
  Proof.
    intros junk s addr R. unfold compute_authpath_wots_t, compute_authpath_wots. set (h := x_h p) in *.
    destruct (26 <=? h); [reflexivity|].
    destruct (copy_adrs addr R) as (Ho & Hl & Hn).
    assert (P : 2 ^ h <> 0) by (apply Nat.pow_nonzero; lia).
    eapply logs_bind.
    { apply (logs_for _ (fun i '(tree, oa, la) lg =>
        (forall j, j < i -> nth_error tree (2 ^ h + j) = Some (nd 0 j)) /\
        (exists o, ots_adrs oa o) /\ (exists o, lt_adrs la o) /\ length tree = 2 * 2 ^ h /\
        lg = map call (flat_map (leaf_places w len) (seq 0 i)))).
      { split; [intros; lia|]. split; [eauto|]. split; [eauto|]. split; [apply repeat_length|reflexivity]. }
      cbn [plus]. intros i [[tree oa] la] lg Hi (HT & (o1 & Ho1) & (o2 & Ho2) & HL & Elg).
      eapply logs_bind; [apply (leaf_logs _ _ i)|].
      { eapply lt_adrs_set; eauto. } { eapply ots_adrs_set; eauto. }
      cbv beta. intros [[lf la1] oa1] lg1 _ (-> & Hla & Hoa & ->).
      apply logs_bind_lift. intros v1 E1. rewrite set_ok in E1 by lia. apply Ok_inj in E1. subst v1.
      apply logs_ret. split; [|split; [eauto|split; [eauto|split; [now rewrite upd_length|]]]].
      - intros j Hj. destruct (Nat.eq_dec j i) as [->|].
        + rewrite nth_error_upd_same by lia. reflexivity.
        + rewrite nth_error_upd_other by lia. apply HT. lia.
      - rewrite map_snoc, Elg, !app_nil_r. reflexivity. }
    cbv beta. intros [[tree1 oa1] la1] lg1 _ (HT1 & _ & _ & HL1 & ->).
    eapply logs_bind.
    { apply (logs_for _ (fun lev '(tree, na) lg =>
        (forall l j, l <= lev -> j < 2 ^ (h - l) -> nth_error tree (2 ^ (h - l) + j) = Some (nd l j)) /\
        nd_adrs na /\ length tree = 2 * 2 ^ h /\
        lg = map call (flat_map (fun j => map (TNode j) (seq 0 (2 ^ (h - 1 - j)))) (seq 0 lev)))).
      { split; [|split; [exact Hn|split; [exact HL1|reflexivity]]]. intros l j Hl0 Hj. replace l with 0 in * by lia.
        rewrite Nat.sub_0_r in *. auto. }
      cbn [plus]. intros lev [tree na] lg Hlev (HT & Hna & HL & Elg).
      set (i := 2 ^ (h - lev)).
      assert (Ei : i = 2 * 2 ^ (h - S lev)).
      { unfold i. replace (h - lev) with (S (h - S lev)) by lia. reflexivity. }
      assert (Ei2 : i / 2 = 2 ^ (h - S lev)) by (rewrite Ei, Nat.mul_comm, Nat.div_mul; lia).
      assert (Ele : i <= 2 ^ h) by (unfold i; apply Nat.pow_le_mono_r; lia).
      eapply logs_mono; [apply (logs_for _ (fun j2 '(tree', na') lg' =>
          (forall l j, l <= lev -> j < 2 ^ (h - l) -> nth_error tree' (2 ^ (h - l) + j) = Some (nd l j)) /\
          (forall j, j < j2 -> nth_error tree' (i / 2 + j) = Some (nd (S lev) j)) /\
          nd_adrs na' /\ u32 (a5 na') = u32 (N.of_nat lev) /\ length tree' = 2 * 2 ^ h /\
          lg' = map call (map (TNode lev) (seq 0 j2))))|].
      - split; [auto|]. split; [intros; lia|]. split; [now apply nd_setTreeHeight|]. split; [cbn; apply u32_u32|]. split; [auto|reflexivity].
      - cbn [plus]. intros j2 [tree' na'] lg' Hj2 (HA & HB & HN & H5 & HL' & Elg').
        assert (Gl : nth_error tree' (i + 2 * j2) = Some (nd lev (2 * j2))) by (unfold i; apply HA; lia).
        assert (Gr : nth_error tree' (i + 2 * j2 + 1) = Some (nd lev (2 * j2 + 1))).
        { rewrite <- Nat.add_assoc. unfold i; apply HA; lia. }
        apply get_ok in Gl. apply get_ok in Gr.
        apply logs_bind_lift. intros v1 E1. rewrite Gl in E1. apply Ok_inj in E1. subst v1.
        apply logs_bind_lift. intros v2 E2. rewrite Gr in E2. apply Ok_inj in E2. subst v2.
        destruct (hash_node_h hf ps na' lev j2 (nd lev (2 * j2)) (nd lev (2 * j2 + 1)) HN H5) as (a' & Eh & Ha' & H5').
        assert (EA : addr_to_byte (setKeyAndMask (setTreeIndex na' (N.of_nat j2)) 0) = place_adr (TNode lev j2) 0).
        { cbn [place_adr]. apply adr_bytes. destruct HN as (RR & E3 & E4). repeat split; try apply RR.
          - cbn. now rewrite E3.
          - cbn. now rewrite E4.
          - exact H5.
          - cbn. apply u32_u32. }
        unfold hash_h_t. rewrite Eh, EA. apply logs_call.
        apply logs_bind_lift. intros v1 E1. rewrite set_ok in E1 by lia. apply Ok_inj in E1. subst v1.
        apply logs_ret. split; [|split; [|split; [exact Ha'|split; [exact H5'|split; [now rewrite upd_length|]]]]].
        + intros l j Hl0 Hj. rewrite nth_error_upd_other; auto.
          assert (i <= 2 ^ (h - l)) by (unfold i; apply Nat.pow_le_mono_r; lia). lia.
        + intros j Hj. destruct (Nat.eq_dec j j2) as [->|].
          * rewrite nth_error_upd_same by lia. reflexivity.
          * rewrite nth_error_upd_other by lia. apply HB. lia.
        + rewrite seq_S, !map_app, <- Elg'. reflexivity.
      - cbv beta. cbn [plus]. intros [tree' na'] lg' _ (HA & HB & HN & _ & HL' & ->).
        split; [|split; [exact HN|split; [exact HL'|]]].
        + intros l j Hl0 Hj. destruct (Nat.eq_dec l (S lev)) as [->|]; [rewrite <- Ei2 in *; auto | apply HA; lia].
        + rewrite map_snoc, Elg, Ei2. replace (h - 1 - lev) with (h - S lev) by lia. reflexivity. }
    cbv beta. intros [tree2 na2] lg2 _ (_ & _ & _ & ->).
    apply logs_bind_lift. intros ap _. apply logs_bind_lift. intros root _. apply logs_ret.
    rewrite app_nil_r. unfold tree_places. now rewrite map_app.
  Qed.
End Setup.
