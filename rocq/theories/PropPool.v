(** Properties of the pool: C36 - C40, C50 - C53. *)
(** Concrete executions meeting the hypotheses below: PoolExamples.v. *)
From Coq Require Import List NArith Arith Lia Bool Permutation FinFun.
From Verif Require Import Base Bytes Keccak KeccakLemmas HashAddress Descriptor SpecXmss SpecApi XmssObj PropObj PropKeys Pool SpecPool PoolInv.
Import ListNotations.
Open Scope N_scope.

Lemma NoDup_map_in : forall (A B : Type) (f : A -> B) l, (forall a b, In a l -> In b l -> f a = f b -> a = b) -> NoDup l -> NoDup (map f l).
Proof.
  induction l as [|x l IH]; intros H N; [constructor|]. inversion N; subst. cbn [map]. constructor.
  - intros Hin. apply in_map_iff in Hin. destruct Hin as (y & E & Hy). apply H in E; [|now right|now left]. now subst.
  - apply IH; auto. intros a b Ha Hb. apply H; now right.
Qed.
Lemma from64_NoDup : forall a n, N.of_nat n <= 2 ^ 64 -> NoDup (from64 a n).
Proof.
  intros a n Hn. unfold from64. apply NoDup_map_in; [|apply seq_NoDup].
  intros i j Hi Hj E. apply in_seq in Hi. apply in_seq in Hj.
  assert (E2 : (a + N.of_nat i) mod 2 ^ 64 = (a + N.of_nat j) mod 2 ^ 64) by exact E.
  assert (N.of_nat i < 2 ^ 64 /\ N.of_nat j < 2 ^ 64) by lia.
  assert (P : 2 ^ 64 <> 0) by discriminate.
  pose proof (N.div_mod (a + N.of_nat i) (2 ^ 64) P) as D1. pose proof (N.div_mod (a + N.of_nat j) (2 ^ 64) P) as D2.
  rewrite E2 in D1. set (m := (a + N.of_nat j) mod 2 ^ 64) in *. set (p := (a + N.of_nat i) / 2 ^ 64) in *.
  set (q := (a + N.of_nat j) / 2 ^ 64) in *. clearbody m p q. set (T := 2 ^ 64) in *. clearbody T. clear E E2.
  assert (HiT : N.of_nat i < T) by tauto. assert (HjT : N.of_nat j < T) by tauto. clear H Hi Hj Hn P.
  destruct (N.lt_trichotomy p q) as [Hpq|[Hpq|Hpq]].
  - assert (T * (p + 1) <= T * q) by (apply N.mul_le_mono_l; lia). lia.
  - subst. lia.
  - assert (T * (q + 1) <= T * p) by (apply N.mul_le_mono_l; lia). lia.
Qed.
Lemma NoDup_app_l : forall (A : Type) (a b : list A), NoDup (a ++ b) -> NoDup a.
Proof. induction a; intros b H; [constructor|]. inversion H; subst. constructor; [|eapply IHa; eauto]. intros Hin. apply H2, in_app_iff. auto. Qed.

Lemma somes_all : forall l : list (option N), (forall h, In h l -> h <> None) -> l = map Some (somes l).
Proof.
  induction l as [|[v|] l IH]; intros G; cbn [somes map]; auto.
  - f_equal. apply IH. intros h Hin. apply G. now right.
  - elim (G None); auto. now left.
Qed.

(** ** C36 *)
Theorem C36_pool_indices : forall c tr x, pool_ok c -> exec c tr x ->
  (* the k-th claimed index is starting_index + k *)
  claimed tr = from64 (pc_start c) (length (claimed tr)) /\
  (* every returned tree belongs to a claim made by its own call *)
  (forall h r, In (h, r) (answers tr) -> h <> None) /\
  (* no two calls return trees of the same index *)
  (N.of_nat (length (claimed tr)) <= 2 ^ 64 -> NoDup (map fst (answers tr))) /\
  (* when all calls have returned and none threw, no index was skipped *)
  ((forall t, snd x t = Idle) -> lost tr = [] ->
     Permutation (map fst (answers tr)) (map Some (from64 (pc_start c) (length (answers tr))))).
Proof.
  intros c tr x HP HE. pose proof (exec_inv c tr x HP HE) as [HT Hcur Hcl Hlk Hfr Hst (L & HL1 & HL2 & HL3) Han].
  assert (Hs : map fst (answers tr) = map Some (somes (map fst (answers tr)))).
  { assert (G : forall h, In h (map fst (answers tr)) -> h <> None).
    { intros h Hin. apply in_map_iff in Hin. destruct Hin as ((h' & r) & <- & Hin). destruct (Han _ _ Hin) as (v & _ & -> & _). discriminate. }
    now apply somes_all. }
  split; [exact Hcl|]. split.
  { intros h r Hin. destruct (Han h r Hin) as (v & _ & -> & _). discriminate. }
  split.
  - intros Hn. pose proof (from64_NoDup (pc_start c) _ Hn) as ND. rewrite <- Hcl in ND.
    apply (Permutation_NoDup HL3) in ND. apply NoDup_app_l in ND. rewrite Hs.
    apply Injective_map_NoDup; auto. intros u v E. congruence.
  - intros Hidle Hlost. rewrite Hs. apply Permutation_map. rewrite Hlost in HL3. cbn [somes app] in HL3.
    assert (L = []).
    { destruct L as [|(t & v) L]; auto. pose proof (proj2 (HL2 t v) (or_introl eq_refl)) as Hh.
      specialize (Hst t). rewrite (Hidle t) in Hst. cbn in Hst. congruence. }
    subst L. cbn [map] in HL3. rewrite app_nil_r in HL3. rewrite <- HL3. rewrite Hcl at 1.
    replace (length (claimed tr)) with (length (answers tr)); [reflexivity|].
    rewrite (Permutation_length HL3). rewrite <- (map_length fst), Hs, map_length. f_equal. now rewrite <- Hs.
Qed.

(** getCurrentIndex returns the number of claims so far, added to the starting
    index. *)
Lemma exec_app : forall c a l x, exec c (a ++ [l]) x -> exists y, exec c a y /\ pstep c y l x.
Proof.
  intros c a l x H. inversion H; subst.
  - destruct a; discriminate.
  - apply app_inj_tail in H0. destruct H0 as [-> ->]. eauto.
Qed.
Lemma exec_prefix : forall c a b x, exec c (a ++ b) x -> exists y, exec c a y.
Proof.
  intros c a b. revert a. induction b as [|l b IH]; intros a x H; [rewrite app_nil_r in H; eauto|].
  replace (a ++ l :: b) with ((a ++ [l]) ++ b) in H by (rewrite <- app_assoc; reflexivity).
  apply IH in H. destruct H as (y & H). apply exec_app in H. destruct H as (z & H & _). eauto.
Qed.
(** The part of the trace since a thread's running call began. *)
Definition window (l0 : label) (tr m : list label) : Prop := exists a, tr = a ++ l0 :: m /\ ~ In l0 m.
Lemma window_app : forall l0 tr m l, window l0 tr m -> l <> l0 -> window l0 (tr ++ [l]) (m ++ [l]).
Proof.
  intros l0 tr m l (a & -> & H) Hne. exists a. split; [rewrite <- app_assoc; reflexivity|].
  rewrite in_app_iff. cbn [In]. intros [?|[?|[]]]; auto.
Qed.
Lemma window_unique : forall l0 tr m m', window l0 tr m -> window l0 tr m' -> m = m'.
Proof.
  intros l0 tr m m' (a & -> & H) (b & E & H'). revert b E. induction a as [|y a IH]; intros b E.
  - destruct b as [|z b]; [now injection E|]. injection E as -> E. elim H. rewrite E, in_app_iff. right. now left.
  - destruct b as [|z b].
    + injection E as -> E. elim H'. rewrite <- E, in_app_iff. right. now left.
    + injection E as -> E. eauto.
Qed.
Section Call.
  Variables (V : Type) (t : nat) (l0 : label) (ph1 : pc -> bool) (ph2 : pc -> option V) (rd : V -> label).
  Hypothesis own1 : forall c s p l s' p', tstep c t s p l s' p' -> ph1 p' = true -> l = l0 \/ ph1 p = true /\ l <> l0.
  Hypothesis own2 : forall c s p l s' p' v, tstep c t s p l s' p' -> ph2 p' = Some v -> (ph2 p = Some v \/ ph1 p = true /\ l = rd v) /\ l <> l0.
  Hypothesis other : forall c u s p l s' p', tstep c u s p l s' p' -> u <> t -> l <> l0.
  Hypothesis tau : Tau <> l0.
  Hypothesis idle : ph1 Idle = false /\ ph2 Idle = None.
  Lemma call_window : forall c tr x, exec c tr x ->
    (ph1 (snd x t) = true -> exists m, window l0 tr m) /\
    (forall v, ph2 (snd x t) = Some v -> exists m1 m2, window l0 tr (m1 ++ rd v :: m2)).
  Proof.
    intros c tr x H. induction H as [|tr x l y H (IH1 & IH2) HS].
    - cbn [init_pool snd]. destruct idle as [-> ->]. split; discriminate.
    - assert (X : l <> l0 -> forall m, window l0 tr m -> window l0 (tr ++ [l]) (m ++ [l])) by (intros; now apply window_app).
      assert (Y : forall th u p', snd x = th -> snd y = upd_thread th u p' -> u <> t -> snd y t = snd x t).
      { intros th u p' <- -> Hne. apply upd_thread_other. auto. }
      inversion HS as [s th u l' s' p' Ht|s th s' Hf]; subst; cbn [snd] in *.
      + destruct (Nat.eq_dec u t) as [->|Hne].
        * rewrite upd_thread_same. split.
          -- intros P. destruct (own1 _ _ _ _ _ _ Ht P) as [->|(P' & Hl)]; [exists [], tr; auto|].
             destruct (IH1 P') as (m & W). eauto.
          -- intros v P. destruct (own2 _ _ _ _ _ _ _ Ht P) as ([P'|(P' & El)] & Hl).
             ++ destruct (IH2 v P') as (m1 & m2 & W). exists m1, (m2 ++ [l]). apply (X Hl) in W. rewrite <- app_assoc in W. exact W.
             ++ destruct (IH1 P') as (m & W). apply (X Hl) in W. rewrite El in W at 2. exists m, []. exact W.
        * rewrite upd_thread_other by auto. pose proof (other _ _ _ _ _ _ _ Ht Hne) as Hl. split.
          -- intros P. destruct (IH1 P) as (m & W). eauto.
          -- intros v P. destruct (IH2 v P) as (m1 & m2 & W). exists m1, (m2 ++ [l]). apply (X Hl) in W. rewrite <- app_assoc in W. exact W.
      + split.
        -- intros P. destruct (IH1 P) as (m & W). eauto.
        -- intros v P. destruct (IH2 v P) as (m1 & m2 & W). exists m1, (m2 ++ [Tau]). apply (X tau) in W. rewrite <- app_assoc in W. exact W.
  Qed.
End Call.

Lemma index_window : forall c t tr x, exec c tr x -> forall v, snd x t = IndexUnlock v \/ snd x t = IndexRet v ->
  exists m1 m2, window (CallIndex t) tr (m1 ++ ReadIndex t v :: m2).
Proof.
  intros c t tr x H v Hv.
  refine (proj2 (call_window N t (CallIndex t)
     (fun p => match p with IndexLock | IndexRead => true | _ => false end)
     (fun p => match p with IndexUnlock v | IndexRet v => Some v | _ => None end) (ReadIndex t) _ _ _ _ _ c tr x H) v _).
  - intros c' s p l s' p' Ht. destruct Ht; try discriminate; auto. intros _. right. split; [auto|discriminate].
  - intros c' s p l s' p' w Ht. destruct Ht; try discriminate; auto; intros E; injection E as <-; (split; [auto|discriminate]).
  - intros c' u s p l s' p' Ht Hne. destruct Ht; congruence.
  - discriminate.
  - auto.
  - destruct Hv as [-> | ->]; reflexivity.
Qed.

(** getCurrentIndex returns starting_index plus the number of indices claimed at some
    moment between its call and its return. *)
Theorem C36_current_index : forall c a t m v b x, pool_ok c ->
  exec c (a ++ CallIndex t :: m ++ RetIndex t v :: b) x -> ~ In (CallIndex t) m ->
  exists m1 m2, m = m1 ++ m2 /\ v = (pc_start c + N.of_nat (length (claimed (a ++ CallIndex t :: m1)))) mod 2 ^ 64.
Proof.
  intros c a t m v b x HP H Hm.
  replace (a ++ CallIndex t :: m ++ RetIndex t v :: b) with (((a ++ CallIndex t :: m) ++ [RetIndex t v]) ++ b) in H
    by (repeat (rewrite <- app_assoc; cbn [app]); reflexivity).
  apply exec_prefix in H. destruct H as (y & H). apply exec_app in H. destruct H as (z & Hz & Hs).
  assert (Hv : snd z t = IndexRet v).
  { inversion Hs as [s th u l s' p' Ht|]; subst. cbn [snd]. remember (th u) as p eqn:Ep. remember (RetIndex t v) as l eqn:El.
    destruct Ht; try discriminate El. injection El as <- <-. auto. }
  destruct (index_window c t _ _ Hz v (or_intror Hv)) as (m1 & m2 & W).
  assert (E : m = m1 ++ ReadIndex t v :: m2) by (eapply window_unique; [|exact W]; exists a; auto).
  exists m1, (ReadIndex t v :: m2). split; [exact E|]. rewrite E in Hz.
  replace (a ++ CallIndex t :: m1 ++ ReadIndex t v :: m2) with (((a ++ CallIndex t :: m1) ++ [ReadIndex t v]) ++ m2) in Hz
    by (repeat (rewrite <- app_assoc; cbn [app]); reflexivity).
  apply exec_prefix in Hz. destruct Hz as (z' & Hz). apply exec_app in Hz. destruct Hz as (z'' & Hz & Hs').
  pose proof (I_cur _ _ _ _ (exec_inv c _ _ HP Hz)) as Hcur.
  inversion Hs' as [s th u l s' p' Ht|]; subst. cbn [fst] in *. remember (th u) as p eqn:Ep. remember (ReadIndex t v) as l eqn:El.
  destruct Ht; try discriminate El. injection El as <- <-. exact Hcur.
Qed.

(** ** C37 *)
(** A returned tree is built from the base seed, the height and the claimed index
    only; [junk] stands for uninitialised stack memory. *)
Theorem C37_returned_tree : forall c tr x h r, pool_ok c -> exec c tr x -> In (h, r) (answers tr) ->
  exists v junk, h = Some v /\ r = prepareTree (pc_seed c) (pc_height c) junk v.
Proof. intros c tr x h r HP HE. apply (I_ans _ _ _ _ (exec_inv c tr x HP HE)). Qed.

(** For a valid height it is a fresh XMSS key for that index' seed, and two trees
    of one index cannot be told apart. *)
Theorem C37_tree_is_fresh_key : forall seed height v, (4 <= height <= 30)%nat -> Nat.even height = true -> forall junk,
  exists t, prepareTree seed (N.of_nat height) junk v = Ok t /\
    xb_seed (xf_base t) = shake256 48 (tree_seed_input seed v) /\
    getIndex (xf_base t) = 0 /\
    getRoot (xf_base t) = ref_root SHAKE_128 (4, 64, 3)%nat height (shake256 48 (tree_seed_input seed v)) /\
    forall junk', exists t', prepareTree seed (N.of_nat height) junk' v = Ok t' /\ xf_base t' = xf_base t /\
      forall cs, exists u u' obs, run t cs = Ok (u, obs) /\ run t' cs = Ok (u', obs).
Proof.
  intros seed height v Hh He junk. unfold prepareTree. set (sd := shake256 48 (tree_seed_input seed v)).
  assert (HS : supported 1 SHAKE_128 16 w16 height sd).
  { repeat split; auto; try apply Hh. apply shake256_length. }
  destruct (C14_key_layout junk sd height 1 SHAKE_128 0 HS) as (t & Et & HL).
  exists t. split; auto.
  destruct (new_run _ _ _ _ 0 HS junk) as (t2 & Et2 & HR). assert (t2 = t) by congruence. subst t2.
  destruct (HR []) as (x' & Er0 & HI0). injection Er0 as <-. cbn [ref_run fst] in HI0.
  pose proof (inv_getIndex _ _ _ _ _ HS _ _ HI0) as Ei.
  specialize (HL [] t [] eq_refl). cbv zeta in HL. destruct HL as (_ & _ & _ & _ & _ & Er & _ & _ & _ & _ & _ & _ & _ & _ & Es).
  split; [exact Es|]. split; [exact Ei|]. split; [exact Er|].
  intros junk'. destruct (new_run _ _ _ _ 0 HS junk') as (t' & Et' & HR'). exists t'. split; auto.
  destruct (HR' []) as (x' & Er0 & HI0'). injection Er0 as <-. cbn [ref_run fst] in HI0'.
  split. { destruct HI0 as (-> & _). destruct HI0' as (-> & _). reflexivity. }
  intros cs. destruct (HR cs) as (u & E1 & _). destruct (HR' cs) as (u' & E2 & _). eauto.
Qed.

(** ** C38 *)
Lemma index_bytes_value : forall f v, v < 256 ^ N.of_nat f -> from_le (index_bytes f v) = v.
Proof.
  induction f; intros v Hv; [cbn in *; lia|]. cbn [index_bytes]. destruct (0 <? v) eqn:E.
  - cbn [from_le]. rewrite IHf.
    + change 0xFF with (N.ones 8). rewrite N.land_ones, N.shiftr_div_pow2. change (2 ^ 8) with 256.
      pose proof (N.div_mod v 256). lia.
    + rewrite N.shiftr_div_pow2. apply N.div_lt_upper_bound; [discriminate|]. change (2 ^ 8) with 256.
      rewrite Nat2N.inj_succ, N.pow_succ_r' in Hv. exact Hv.
  - apply N.ltb_ge in E. cbn [from_le]. lia.
Qed.
Lemma index_bytes_bytes : forall f v, all_bytes (index_bytes f v).
Proof.
  induction f; intros v; cbn [index_bytes]; [constructor|]. destruct (0 <? v); [|constructor]. constructor; [|apply IHf].
  unfold is_byte. change 0xFF with (N.ones 8). rewrite N.land_ones. apply N.mod_lt. discriminate.
Qed.
Lemma index_bytes_last : forall f v d, v < 256 ^ N.of_nat f -> 0 < v -> index_bytes f v <> [] /\ last (index_bytes f v) d <> 0.
Proof.
  induction f; intros v d Hv H0; [cbn in *; lia|]. cbn [index_bytes]. rewrite (proj2 (N.ltb_lt _ _) H0). split; [discriminate|].
  assert (Hs : N.shiftr v 8 < 256 ^ N.of_nat f).
  { rewrite N.shiftr_div_pow2. apply N.div_lt_upper_bound; [discriminate|]. change (2 ^ 8) with 256.
      rewrite Nat2N.inj_succ, N.pow_succ_r' in Hv. exact Hv. }
  destruct (N.eq_dec (N.shiftr v 8) 0) as [E|E].
  - rewrite E. replace (index_bytes f 0) with (@nil N) by (destruct f; reflexivity). cbn [last].
    change 0xFF with (N.ones 8). rewrite N.land_ones. rewrite N.shiftr_div_pow2 in E. change (2 ^ 8) with 256 in *.
    pose proof (N.div_mod v 256). lia.
  - destruct (IHf _ d Hs ltac:(lia)) as [H1 H2]. destruct (index_bytes f (N.shiftr v 8)); [congruence|exact H2].
Qed.

Theorem C38_seed_inputs : forall base i, i < 2 ^ 64 - 1 ->
  exists suffix, tree_seed_input base i = base ++ suffix /\
    all_bytes suffix /\ from_le suffix = i + 1 /\ last suffix 0 <> 0 /\
    forall j, j < 2 ^ 64 -> tree_seed_input base j = tree_seed_input base i -> j = i.
Proof.
  intros base i Hi. unfold tree_seed_input. eexists. split; [reflexivity|].
  assert (B : forall x, x < 2 ^ 64 -> x < 256 ^ N.of_nat 8) by (intros; assumption).
  rewrite u64_small by lia. split; [apply index_bytes_bytes|]. split; [apply index_bytes_value; apply B; lia|].
  split; [apply index_bytes_last; [apply B|]; lia|].
  intros j Hj E. apply app_inv_head in E. apply (f_equal from_le) in E. rewrite !index_bytes_value in E by (apply B; try apply u64_lt; lia).
  destruct (N.eq_dec j (2 ^ 64 - 1)) as [->|Hne]; [|rewrite u64_small in E; lia].
  replace (2 ^ 64 - 1 + 1) with (2 ^ 64) in E by lia. change (u64 (2 ^ 64)) with 0 in E. lia.
Qed.

(** Two indices that would get the same 48-byte seed give a SHAKE256 collision. *)
Theorem C38_same_tree_seed_is_collision : forall base i j, i < 2 ^ 64 -> j < 2 ^ 64 -> i <> j ->
  shake256 48 (tree_seed_input base i) = shake256 48 (tree_seed_input base j) ->
  exists a b, a <> b /\ shake256 48 a = shake256 48 b /\ (exists s, a = base ++ s) /\ (exists s, b = base ++ s).
Proof.
  intros base i j Hi Hj Hne E. exists (tree_seed_input base i), (tree_seed_input base j). split; [|split; [exact E|split; eexists; reflexivity]].
  intros EE. destruct (N.eq_dec i (2 ^ 64 - 1)) as [Ei|Ei].
  - destruct (C38_seed_inputs base j) as (_ & _ & _ & _ & _ & G); [lia|]. apply G in EE; lia.
  - destruct (C38_seed_inputs base i) as (_ & _ & _ & _ & _ & G); [lia|]. symmetry in EE. apply G in EE; lia.
Qed.

(** ** C39 *)
Lemma stage_size : forall c s p h, crit p = true -> stage c s p h -> cache_size s <= pc_size c.
Proof.
  intros c s p h Hc. destruct p; cbn [crit stage] in *; try discriminate; unfold good; try tauto.
  - intros (_ & k & rest & ?). tauto.
  - intros (_ & k & _ & _ & _ & ?). lia.
  - intros (_ & _ & k & _ & _ & _ & ?). lia.
Qed.
Theorem C39_cache : forall c tr x, pool_ok c -> exec c tr x ->
  let s := fst x in
  N.of_nat (length (p_cache s)) <= pc_size c /\
  (p_lock s = None -> forall n, (n < length (p_cache s))%nat ->
     exists k r, nth_error (p_cache s) n = Some (Some k) /\
       nth_error (p_tasks s) k = Some (mkTask ((p_cur s + N.of_nat n) mod 2 ^ 64) r)) /\
  (forall t, ~ In (Undefined t) tr).
Proof.
  intros c tr x HP HE s. pose proof (exec_inv c tr x HP HE) as [HT Hcur Hcl Hlk Hfr Hst _ _].
  split; [|split].
  - destruct (p_lock (fst x)) as [t|] eqn:El.
    + apply (stage_size c _ (snd x t) (held tr t)); [now apply Hlk|apply Hst].
    + apply (Hfr eq_refl).
  - intros Hn n Hlt. destruct (Hfr Hn) as (HC & _). destruct (HC n Hlt) as (k & Ek & r & Tk). exists k, r. auto.
  - clear -HP HE. induction HE; intros t; [intros []|]. rewrite in_app_iff. cbn [In]. intros [Hin|[E|[]]]; [now apply (IHHE t)|].
    destruct (step_inv c tr x l y HP (exec_inv c tr x HP HE) H) as (HU & _). now apply (HU t).
Qed.

(** ** Finitely many threads are active *)
Lemma pstep_support : forall c x l y L, pstep c x l y -> (forall t, ~ In t L -> snd x t = Idle) ->
  exists L', (forall t, ~ In t L' -> snd y t = Idle) /\ incl L L'.
Proof.
  intros c x l y L H HL. destruct H as [s th t l s' p' H|]; cbn [snd] in *.
  - exists (t :: L). split; [|intros u Hu; now right]. intros u Hu. cbn [In] in Hu.
    rewrite upd_thread_other by (intros ->; tauto). apply HL. tauto.
  - exists L. split; auto. apply incl_refl.
Qed.
Lemma exec_support : forall c tr x, exec c tr x -> exists L, NoDup L /\ forall t, ~ In t L -> snd x t = Idle.
Proof.
  intros c tr x H. induction H as [|tr x l y H IH HS].
  - exists []. split; [constructor|]. reflexivity.
  - destruct IH as (L & _ & HL). destruct (pstep_support c x l y L HS HL) as (L' & H' & _).
    exists (nodup Nat.eq_dec L'). split; [apply NoDup_nodup|]. intros t Ht. apply H'. intros Hin. apply Ht. now apply nodup_In.
Qed.
Fixpoint total (w : pc -> nat) (th : threads) (L : list nat) : nat :=
  match L with [] => 0 | t :: r => w (th t) + total w th r end%nat.
Lemma total_other : forall w th t p L, ~ In t L -> total w (upd_thread th t p) L = total w th L.
Proof.
  induction L; intros H; cbn [total]; auto. cbn [In] in H. rewrite IHL by tauto. rewrite upd_thread_other by (intros ->; tauto). reflexivity.
Qed.
Lemma total_upd : forall w th t p L, NoDup L -> In t L -> (total w (upd_thread th t p) L + w (th t) = total w th L + w p)%nat.
Proof.
  induction L; intros HN Hin; [destruct Hin|]. inversion HN; subst. cbn [total]. destruct Hin as [->|Hin].
  - rewrite upd_thread_same, total_other by auto. lia.
  - rewrite upd_thread_other by (intros ->; auto). specialize (IHL H2 Hin). lia.
Qed.
Lemma total_out : forall w th L, w Idle = 0%nat -> (forall t, In t L -> th t = Idle) -> total w th L = 0%nat.
Proof. induction L; intros W H; cbn [total]; auto. rewrite (H a), W, IHL; auto with datatypes. Qed.

(** ** C40 *)
(** Threads on the way out with an exception. *)
Definition unwinding (p : pc) : nat := match p with DropNew _ _ | NextUnwind _ | Unwind _ => 1 | _ => 0 end%nat.
Lemma failures_app : forall a b, failures (a ++ b) = (failures a + failures b)%nat.
Proof. induction a as [|l a IH]; intros b; auto. destruct l; cbn [failures app]; rewrite ?IH; auto. Qed.
Lemma tstep_unwinding : forall c t s p l s' p' h, tstep c t s p l s' p' -> (forall u, l <> Undefined u) ->
  (unwinding p + failures [l] = unwinding p' + length (lost_by l h))%nat.
Proof. intros c t s p l s' p' h H HU. destruct H; cbn; auto; try (elim (HU t); reflexivity). Qed.
Lemma failures_count : forall c tr x, pool_ok c -> exec c tr x ->
  exists L, NoDup L /\ (forall t, ~ In t L -> snd x t = Idle) /\ (failures tr = length (lost tr) + total unwinding (snd x) L)%nat.
Proof.
  intros c tr x HP H. induction H as [|tr x l y H IH HS].
  - exists []. cbn. repeat split; auto. constructor.
  - destruct (step_inv c tr x l y HP (exec_inv c tr x HP H) HS) as (HU & _).
    destruct IH as (L & HN & HL & HF). rewrite failures_app, lost_app, app_length.
    destruct HS as [s th t l s' p' HS|s th s' HS]; cbn [snd] in *.
    + pose proof (tstep_unwinding c t s (th t) l s' p' (held tr) HS HU) as HW.
      destruct (in_dec Nat.eq_dec t L) as [Hin|Hout].
      * exists L. split; auto. split.
        { intros u Hu. rewrite upd_thread_other by (intros ->; auto). auto. }
        pose proof (total_upd unwinding th t p' L HN Hin). lia.
      * exists (t :: L). split; [now constructor|]. split.
        { intros u Hu. cbn [In] in Hu. rewrite upd_thread_other by (intros ->; tauto). apply HL. tauto. }
        cbn [total]. rewrite upd_thread_same, total_other by auto. rewrite (HL t Hout) in HW. cbn [unwinding] in HW. lia.
    + exists L. split; auto. split; auto. cbn. lia.
Qed.

Theorem C40_failed_launches : forall c tr x, pool_ok c -> exec c tr x ->
  (* a call throws only because of a failed launch, after it claimed an index *)
  (length (lost tr) <= failures tr)%nat /\ (forall h, In h (lost tr) -> h <> None) /\
  (* all indices, lost or not, still come in order; a lost one is never issued again *)
  claimed tr = from64 (pc_start c) (length (claimed tr)) /\
  (N.of_nat (length (claimed tr)) <= 2 ^ 64 -> NoDup (map fst (answers tr) ++ lost tr)) /\
  (* when no call is running every claimed index was answered or lost *)
  ((forall t, snd x t = Idle) ->
     failures tr = length (lost tr) /\ Permutation (map Some (claimed tr)) (map fst (answers tr) ++ lost tr)).
Proof.
  intros c tr x HP HE. pose proof (exec_inv c tr x HP HE) as [HT Hcur Hcl Hlk Hfr Hst (L & HL1 & HL2 & HL3) Han].
  destruct (failures_count c tr x HP HE) as (M & HM1 & HM2 & HM3).
  assert (G1 : map fst (answers tr) = map Some (somes (map fst (answers tr)))).
  { assert (G : forall h, In h (map fst (answers tr)) -> h <> None).
    { intros h Hin. apply in_map_iff in Hin. destruct Hin as ((h' & r) & <- & Hin). destruct (Han _ _ Hin) as (v & _ & -> & _). discriminate. }
    now apply somes_all. }
  assert (G0 : forall h, In h (lost tr) -> h <> None).
  { clear -HP HE. induction HE as [|tr x l y HE IH HS]; [intros h []|]. intros h. rewrite lost_app, in_app_iff. intros [Hin|Hin]; [auto|].
    destruct l; cbn [lost_by] in Hin; try (destruct Hin; fail). destruct Hin as [<-|[]].
    pose proof (I_stage _ _ _ _ (exec_inv c tr x HP HE)) as Hst.
    inversion HS as [s th u l s' p' Ht|]; subst. cbn [fst snd] in *.
    remember (th u) as p eqn:Ep. remember (ThrowNext t) as l eqn:El.
    destruct Ht; try discriminate El; injection El as <-; specialize (Hst u); rewrite <- Ep in Hst; cbn [stage] in Hst;
      destruct Hst as (k' & v & _ & -> & _); discriminate. }
  assert (G2 : lost tr = map Some (somes (lost tr))).
  { now apply somes_all. }
  split; [lia|]. split; [exact G0|]. split; [exact Hcl|]. split.
  - intros Hn. pose proof (from64_NoDup (pc_start c) _ Hn) as ND. rewrite <- Hcl in ND.
    apply (Permutation_NoDup HL3) in ND. rewrite app_assoc in ND. apply NoDup_app_l in ND. rewrite G1, G2, <- map_app.
    apply Injective_map_NoDup; auto. intros u v E. congruence.
  - intros Hidle. split.
    { rewrite total_out in HM3; auto. lia. }
    assert (L = []).
    { destruct L as [|(t & v) L]; auto. pose proof (proj2 (HL2 t v) (or_introl eq_refl)) as Hh.
      specialize (Hst t). rewrite (Hidle t) in Hst. cbn in Hst. congruence. }
    subst L. cbn [map] in HL3. rewrite app_nil_r in HL3. rewrite HL3, map_app, <- G1, <- G2. reflexivity.
Qed.
