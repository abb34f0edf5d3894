(** C93: pools over one base seed in several runs of the process. *)
From Coq Require Import List NArith Arith Lia Bool Permutation.
From Verif Require Import Base Bytes Keccak KeccakLemmas HashAddress SpecXmss SpecApi XmssObj PropObj Pool SpecPool PoolInv PropPool
  PoolExamples SpecRestart.
Import ListNotations.
Open Scope N_scope.

Lemma held_claimed : forall tr t v, held tr t = Some v -> In v (claimed tr).
Proof.
  intros tr. induction tr as [|l tr IH] using rev_ind; intros t v; [discriminate|].
  rewrite held_app, claimed_app, in_app_iff. destruct l; cbn [holds claimed In]; try (intros H; left; exact (IH _ _ H));
    destruct (t =? _)%nat; try discriminate; try (intros H; left; exact (IH _ _ H)).
  intros [= ->]. right. now left.
Qed.
Lemma answers_claimed : forall tr v r, In (Some v, r) (answers tr) -> In v (claimed tr).
Proof.
  intros tr. induction tr as [|l tr IH] using rev_ind; intros v r; [intros []|].
  rewrite answers_app, claimed_app, !in_app_iff. intros [H|H]; [left; exact (IH _ _ H)|].
  destruct l; cbn [answer In] in H; try contradiction. destruct H as [[= H ->]|[]]. left. now apply held_claimed in H.
Qed.
Lemma claimed_range : forall seed height s, happened seed height s -> forall v, In v (claimed (se_trace s)) ->
  se_start s <= v /\ v < se_start s + N.of_nat (length (claimed (se_trace s))).
Proof.
  intros seed height s (HP & HW & x & HE) v Hv. destruct (C36_pool_indices _ _ _ HP HE) as (EC & _).
  cbn [session_cfg pc_start] in EC. rewrite EC in Hv. unfold from64 in Hv. apply in_map_iff in Hv.
  destruct Hv as (k & <- & Hk). apply in_seq in Hk. rewrite N.mod_small by lia. lia.
Qed.
Lemma happened_prefix : forall seed height st sz a b, happened seed height (mkSession st sz (a ++ b)) -> happened seed height (mkSession st sz a).
Proof.
  intros seed height st sz a b (HP & HW & x & HE). cbn [se_start se_trace] in *. split; [exact HP|]. split.
  - cbn [se_start se_trace]. rewrite claimed_app, app_length in HW. lia.
  - apply exec_prefix in HE. exact HE.
Qed.
Lemma stored_above : forall seed height s v n, happened seed height s -> stored (se_trace s) v n -> se_start s <= v /\ v < n.
Proof.
  intros seed height [st sz tr] v n HS (a & t & r & b & u & m & d & E & Hm & Hh). cbn [se_trace se_start] in *. subst tr.
  pose proof HS as (HP & HW & x & HE). cbn [se_start se_trace] in *.
  apply held_claimed in Hh. destruct (claimed_range _ _ _ (happened_prefix _ _ _ _ _ _ HS) v Hh) as (R1 & R2). cbn [se_start se_trace] in *.
  split; [exact R1|].
  replace (a ++ RetNext t r :: b ++ CallIndex u :: m ++ RetIndex u n :: d) with ((a ++ RetNext t r :: b) ++ CallIndex u :: m ++ RetIndex u n :: d) in *
    by (rewrite <- app_assoc; reflexivity).
  destruct (C36_current_index _ _ _ _ _ _ _ HP HE Hm) as (m1 & m2 & -> & ->). cbn [session_cfg pc_start se_start].
  cbn [session_cfg pc_start se_start] in *.
  assert (L : (length (claimed a) <= length (claimed ((a ++ RetNext t r :: b) ++ CallIndex u :: m1)) <=
               length (claimed ((a ++ RetNext t r :: b) ++ CallIndex u :: (m1 ++ m2) ++ RetIndex u n :: d)))%nat).
  { rewrite !claimed_app. cbn [claimed]. rewrite !claimed_app, !app_length. lia. }
  rewrite N.mod_small.
  - lia.
  - eapply N.le_lt_trans; [|exact HW]. apply N.add_le_mono_l. lia.
Qed.

Lemma restarts_later : forall l i j s s' v n, restarts l -> nth_error l i = Some s -> nth_error l j = Some s' -> (i < j)%nat ->
  stored (se_trace s) v n -> n <= se_start s'.
Proof.
  induction l as [|a l IH]; intros [|i] [|j] s s' v n HR Ei Ej Hij HS; cbn [nth_error] in *; try discriminate; try lia; destruct HR as (H1 & H2).
  - injection Ei as ->. apply nth_error_In in Ej. eapply H1; eauto.
  - eapply IH with (i := i) (j := j); eauto. lia.
Qed.

(** ** With the discipline no tree is used twice *)
(** Any number of runs, each ended anywhere (also in the middle of calls), any sizes, threads
    and failures: a tree for which the application stored the index it read after getting the
    tree is handed out again by no later run, so no two of the stored trees, in whatever runs,
    have the same index; nor do two answers of one run. *)
Theorem C93_used_trees_never_come_again : forall seed height l, Forall (happened seed height) l -> restarts l ->
  (forall i j s s' v n, nth_error l i = Some s -> nth_error l j = Some s' -> (i < j)%nat ->
     stored (se_trace s) v n -> ~ handed (se_trace s') v) /\
  (forall i j s s' v n n', nth_error l i = Some s -> nth_error l j = Some s' ->
     stored (se_trace s) v n -> stored (se_trace s') v n' -> i = j) /\
  (forall s, In s l -> NoDup (map fst (answers (se_trace s)))).
Proof.
  intros seed height l HF HR.
  assert (A : forall i s, nth_error l i = Some s -> happened seed height s).
  { intros i s E. apply nth_error_In in E. rewrite Forall_forall in HF. auto. }
  split; [|split].
  - intros i j s s' v n Ei Ej Hij HS (r & Hr). pose proof (restarts_later _ _ _ _ _ _ _ HR Ei Ej Hij HS) as Hn.
    destruct (stored_above _ _ _ _ _ (A _ _ Ei) HS) as (_ & Hv). apply answers_claimed in Hr.
    destruct (claimed_range _ _ _ (A _ _ Ej) _ Hr) as (Hs & _). lia.
  - assert (L : forall i j s s' v n n', nth_error l i = Some s -> nth_error l j = Some s' -> stored (se_trace s) v n -> stored (se_trace s') v n' -> ~ (i < j)%nat).
    { intros i j s s' v n n' Ei Ej HS HS' Hij. pose proof (restarts_later _ _ _ _ _ _ _ HR Ei Ej Hij HS) as Hn.
      destruct (stored_above _ _ _ _ _ (A _ _ Ei) HS) as (_ & Hv). destruct (stored_above _ _ _ _ _ (A _ _ Ej) HS') as (Hv' & _). lia. }
    intros i j s s' v n n' Ei Ej HS HS'. pose proof (L _ _ _ _ _ _ _ Ei Ej HS HS'). pose proof (L _ _ _ _ _ _ _ Ej Ei HS' HS). lia.
  - intros s Hin. rewrite Forall_forall in HF. destruct (HF s Hin) as (HP & HW & x & HE).
    destruct (C36_pool_indices _ _ _ HP HE) as (_ & _ & HN & _). apply HN. lia.
Qed.

Lemma map_seq_from : forall (A : Type) (f : nat -> A) k n, map f (seq k n) = map (fun i => f (k + i)%nat) (seq 0 n).
Proof.
  intros A f k n. revert k. induction n as [|n IH]; intros k; [reflexivity|]. rewrite !seq_S, !map_app, IH. cbn [map Nat.add]. reflexivity.
Qed.

(** ** A restart after a quiet end loses nothing *)
(** If a run ended with no call in progress and no exception, and the last thing that touched
    the index was a getCurrentIndex that returned [n], then exactly the trees starting_index,
    ..., n - 1 were handed out; and a run that starts at [n] continues the sequence of indices
    as if there had been one pool all along. *)
Theorem C93_quiet_restart_continues : forall seed height s a t m n, happened seed height s ->
  se_trace s = a ++ CallIndex t :: m ++ [RetIndex t n] -> ~ In (CallIndex t) m -> claimed m = [] ->
  lost (se_trace s) = [] -> (exists x, exec (session_cfg seed height s) (se_trace s) x /\ forall u, snd x u = Idle) ->
  n = se_start s + N.of_nat (length (answers (se_trace s))) /\
  (forall v, handed (se_trace s) v <-> se_start s <= v < n) /\
  forall s', happened seed height s' -> se_start s' = n ->
    claimed (se_trace s) ++ claimed (se_trace s') =
      map (fun k => se_start s + N.of_nat k) (seq 0 (length (claimed (se_trace s)) + length (claimed (se_trace s')))).
Proof.
  intros seed height s a t m n HS Et Hm Hc Hl (x & HE & Hidle). pose proof HS as (HP & HW & _).
  destruct (C36_pool_indices _ _ _ HP HE) as (EC & _ & _ & HQ). specialize (HQ Hidle Hl). cbn [session_cfg pc_start] in EC, HQ.
  pose proof HE as HE2. rewrite Et in HE2. destruct (C36_current_index _ _ _ _ _ _ _ HP HE2 Hm) as (m1 & m2 & Em & En).
  cbn [session_cfg pc_start] in En.
  assert (Ecl : length (claimed (a ++ CallIndex t :: m1)) = length (claimed (se_trace s))).
  { rewrite Et, !claimed_app. cbn [claimed]. rewrite claimed_app, Hc. subst m. rewrite claimed_app in Hc. apply app_eq_nil in Hc. destruct Hc as (-> & _). reflexivity. }
  assert (FR : forall st k, st + N.of_nat k < 2 ^ 64 -> from64 st k = map (fun i => st + N.of_nat i) (seq 0 k)).
  { intros st k H. unfold from64. apply map_ext_in. intros i Hi. apply in_seq in Hi. apply N.mod_small. lia. }
  (* as many answers as claims *)
  assert (EL : length (answers (se_trace s)) = length (claimed (se_trace s))).
  { pose proof (exec_inv _ _ _ HP HE) as [_ _ _ _ _ Hst (L & HL1 & HL2 & HL3) Han]. rewrite Hl in HL3. cbn [somes app] in HL3.
    assert (L = []).
    { destruct L as [|(u & v) L]; auto. pose proof (proj2 (HL2 u v) (or_introl eq_refl)) as Hh.
      specialize (Hst u). rewrite (Hidle u) in Hst. cbn in Hst. congruence. }
    subst L. cbn [map] in HL3. rewrite app_nil_r in HL3. rewrite (Permutation_length HL3).
    transitivity (length (map fst (answers (se_trace s)))); [now rewrite map_length|]. rewrite somes_all at 1; [now rewrite map_length|].
    intros h Hin. apply in_map_iff in Hin. destruct Hin as ((h' & r) & <- & Hin). destruct (Han _ _ Hin) as (v & _ & -> & _). discriminate. }
  rewrite Ecl, N.mod_small in En by (exact HW). split; [rewrite EL; exact En|]. split.
  - intros v. split.
    + intros (r & Hr). apply answers_claimed in Hr. destruct (claimed_range _ _ _ HS _ Hr). rewrite En. lia.
    + intros Hv. assert (Hin : In (Some v) (map Some (from64 (se_start s) (length (answers (se_trace s)))))).
      { apply in_map. rewrite FR by (rewrite EL; exact HW). apply in_map_iff. exists (N.to_nat (v - se_start s)). split; [lia|]. apply in_seq. lia. }
      apply Permutation_sym in HQ. apply (Permutation_in _ HQ) in Hin. apply in_map_iff in Hin. destruct Hin as ((h & r) & E & Hin).
      cbn [fst] in E. subst h. exists r. exact Hin.
  - intros s' (HP' & HW' & x' & HE') Es'. destruct (C36_pool_indices _ _ _ HP' HE') as (EC' & _). cbn [session_cfg pc_start] in EC'.
    rewrite EC at 1. rewrite EC' at 1. rewrite !FR by assumption. rewrite Es', seq_app, map_app. f_equal.
    cbn [Nat.add]. rewrite (map_seq_from _ (fun i => se_start s + N.of_nat i) (length (claimed (se_trace s)))).
    apply map_ext. intros i. lia.
Qed.

(** ** Without it the same tree comes again *)
(** One call of getNextTree on a fresh pool of any size can return the tree of the starting
    index. *)
Lemma first_tree : forall seed height st sz junk, st + sz + 1 < 2 ^ 64 ->
  exists tr x, exec (mkCfgP seed height st sz) tr x /\ claimed tr = [st] /\ answers tr = [(Some st, prepareTree seed height junk st)].
Proof.
  intros seed height st sz junk Hw. set (c := mkCfgP seed height st sz).
  pose proof (ex_init c) as H. unfold init_pool in H.
  assert (EU : u64 (pc_start c + pc_size c) = st + sz) by (cbn [c pc_start pc_size]; unfold u64; apply N.mod_small; lia).
  assert (EI : init_range c = map (fun k => st + N.of_nat k) (seq 0 (N.to_nat sz))).
  { unfold init_range. cbv zeta. rewrite EU. cbn [c pc_start]. do 2 f_equal. lia. }
  rewrite EI in H. rewrite map_length, seq_length in H. destruct (N.to_nat sz) as [|n] eqn:En.
  - cbn [seq map] in H. cbn [c pc_start] in H. step H 0%nat st_call_next. step H 0%nat st_lock_next. step H 0%nat st_test_empty.
    step H 0%nat st_miss_read. step H 0%nat st_miss_write. step H 0%nat st_unlock_miss.
    eapply go with (t := 0%nat) in H; [|reflexivity|eapply (st_build _ _ _ _ junk)]. fold_state H.
    eexists _, _. split; [exact H|]. split; reflexivity.
  - cbn [seq map] in H. cbn [c pc_start] in H. rewrite N.add_0_r in H.
    step H 0%nat st_call_next. step H 0%nat st_lock_next. step H 0%nat st_test_full. step H 0%nat st_front. step H 0%nat st_pop.
    step H 0%nat st_read_inc. step H 0%nat st_write_inc. step H 0%nat st_fill_bounds.
    assert (E1 : u64 (st + 1) = st + 1) by (unfold u64; apply N.mod_small; lia).
    match type of H with context [FillLoop _ ?a ?b] => assert (Ei : a = st + sz); [|assert (Ee : b = st + 1 + sz); [|rewrite Ei, Ee in H]] end.
    { unfold cache_size. cbn [p_cache set_cur set_cache]. rewrite map_length, seq_length, E1. unfold u64. rewrite N.mod_small by lia. lia. }
    { rewrite E1. cbn [c pc_size]. unfold u64. rewrite N.mod_small by lia. lia. }
    eapply go with (t := 0%nat) in H; [|reflexivity|eapply st_fill_push; lia]. fold_state H.
    eapply go with (t := 0%nat) in H; [|reflexivity|eapply st_fill_end; lia]. fold_state H.
    step H 0%nat st_unlock.
    eapply ex_step in H; [|apply ps_task; exists 0%nat, st, junk; split; reflexivity]. fold_state H.
    step H 0%nat st_get.
    eexists _, _. split; [exact H|]. split; reflexivity.
Qed.

(** Two runs that start at the same index, of any sizes, can both hand out its tree: the same
    key, with which both sign their first message under the same one-time key. *)
Theorem C93_unstored_tree_comes_again : forall seed height st sz sz' m m', (4 <= height <= 30)%nat -> Nat.even height = true ->
  st + sz + 1 < 2 ^ 64 -> st + sz' + 1 < 2 ^ 64 ->
  exists tr tr' T y y' g g',
    happened seed (N.of_nat height) (mkSession st sz tr) /\ happened seed (N.of_nat height) (mkSession st sz' tr') /\
    answers tr = [(Some st, Ok T)] /\ answers tr' = [(Some st, Ok T)] /\
    run T [OpSign m] = Ok (y, [ObsSig g]) /\ run T [OpSign m'] = Ok (y', [ObsSig g']) /\
    sig_index g = 0 /\ sig_index g' = 0 /\
    verify m g (getPK (xf_base T)) 16 = Ok true /\ verify m' g' (getPK (xf_base T)) 16 = Ok true.
Proof.
  intros seed height st sz sz' m m' Hh He H1 H2. 
  destruct (first_tree seed (N.of_nat height) st sz [] H1) as (tr & x & E1 & C1 & A1).
  destruct (first_tree seed (N.of_nat height) st sz' [] H2) as (tr' & x' & E2 & C2 & A2).
  set (sd := shake256 48 (tree_seed_input seed st)).
  assert (HS : supported 1 SHAKE_128 16 w16 height sd).
  { repeat split; auto; try apply Hh. apply shake256_length. }
  destruct (C18_fast_signatures_verify [] sd height 1 SHAKE_128 0 HS) as (T & ET & HV).
  destruct (fast_history [] sd height 1 SHAKE_128 0 HS) as (T' & ET' & HR). assert (T' = T) by congruence. subst T'.
  assert (Hpos : (0 <? 2 ^ N.of_nat height) = true) by (apply N.ltb_lt, N.neq_0_lt_0, N.pow_nonzero; discriminate).
  assert (G : forall q, exists y g, run T [OpSign q] = Ok (y, [ObsSig g]) /\ sig_index g = 0 /\ verify q g (getPK (xf_base T)) 16 = Ok true).
  { intros q. destruct (HR [OpSign q]) as (y & Er & _). cbn [ref_run ref_step] in Er. rewrite Hpos in Er. cbn [snd] in Er.
    exists y, (ref_sig SHAKE_128 w16 height sd (N.to_nat 0) q). split; [exact Er|]. split.
    - unfold sig_index, ref_sig, signature. reflexivity.
    - destruct (HV [OpSign q]) as (y2 & os & Er2 & _ & _ & HQ). assert (os = [ObsSig (ref_sig SHAKE_128 w16 height sd (N.to_nat 0) q)]) by congruence. subst os.
      apply (HQ 0%nat); reflexivity. }
  destruct (G m) as (y & g & Y1 & Y2 & Y3). destruct (G m') as (y' & g' & Z1 & Z2 & Z3).
  exists tr, tr', T, y, y', g, g'.
  assert (HP : forall k, st + k + 1 < 2 ^ 64 -> pool_ok (mkCfgP seed (N.of_nat height) st k)) by (intros k Hk; split; cbn [pc_start pc_size]; lia).
  split. { split; [apply HP, H1|]. split; [cbn [se_start se_trace]; rewrite C1; cbn [length]; lia|exists x; exact E1]. }
  split. { split; [apply HP, H2|]. split; [cbn [se_start se_trace]; rewrite C2; cbn [length]; lia|exists x'; exact E2]. }
  unfold prepareTree in A1, A2. fold sd in A1, A2. rewrite ET in A1, A2. repeat (split; [assumption|]). assumption.
Qed.

(** Two runs meet the hypotheses: the first hands out tree 5, reads and stores index 6 and is
    cut off in the middle of its next call, which has claimed tree 6 but not returned it; the
    second starts at 6 and hands out tree 6. *)
Example C93_case : exists l s s' tr0, l = [s; s'] /\ Forall (happened (repeat 7 48) 4) l /\ restarts l /\
  stored (se_trace s) 5 6 /\ handed (se_trace s') 6 /\ claimed (se_trace s) = [5; 6] /\
  (* and the beginning of the first run those of the quiet restart *)
  (exists a t m rest, tr0 = a ++ CallIndex t :: m ++ [RetIndex t 6] /\ ~ In (CallIndex t) m /\ claimed m = [] /\ lost tr0 = [] /\ se_trace s = tr0 ++ rest) /\
  exists x, exec (mkCfgP (repeat 7 48) 4 5 0) tr0 x /\ forall u, snd x u = Idle.
Proof.
  pose proof (ex_init (mkCfgP (repeat 7 48) 4 5 0)) as H. unfold init_pool in H. fold_state H. cbn in H.
  step H 0%nat st_call_next. step H 0%nat st_lock_next. step H 0%nat st_test_empty.
  step H 0%nat st_miss_read. step H 0%nat st_miss_write. step H 0%nat st_unlock_miss.
  eapply go with (t := 0%nat) in H; [|reflexivity|eapply (st_build _ _ _ _ [])]. fold_state H.
  step H 1%nat st_call_index. step H 1%nat st_lock_index. step H 1%nat st_read_index. step H 1%nat st_unlock_index. step H 1%nat st_ret_index.
  pose proof H as H0.
  step H 0%nat st_call_next. step H 0%nat st_lock_next. step H 0%nat st_test_empty.
  step H 0%nat st_miss_read. step H 0%nat st_miss_write.
  cbn [app] in H, H0. 
  destruct (first_tree (repeat 7 48) 4 6 3 []) as (tr' & x' & E' & C' & A'); [reflexivity|].
  match type of H with exec _ ?tr _ => exists [mkSession 5 0 tr; mkSession 6 3 tr'], (mkSession 5 0 tr) end. exists (mkSession 6 3 tr').
  match type of H0 with exec _ ?tr _ => exists tr end.
  split; [reflexivity|]. split; [|split; [|split; [|split; [|split; [|split]]]]].
  - constructor; [|constructor; [|constructor]].
    + split; [split; reflexivity|]. split; [reflexivity|eexists; exact H].
    + split; [split; reflexivity|]. split; [cbn [se_start se_trace]; rewrite C'; reflexivity|eexists; exact E'].
  - cbn [restarts]. split; [|split; [intros ? ? ? []|exact I]].
    intros s' v n [<-|[]] (a & t & r & b & u & m & d & E & _). cbn [se_start se_trace] in *.
    assert (Hin : In (RetIndex u n) (a ++ RetNext t r :: b ++ CallIndex u :: m ++ RetIndex u n :: d)).
    { apply in_app_iff. right. right. apply in_app_iff. right. right. apply in_app_iff. right. now left. }
    rewrite <- E in Hin. cbn [In] in Hin. repeat (destruct Hin as [Hin|Hin]; [try discriminate Hin; injection Hin as _ <-; vm_compute; discriminate|]). destruct Hin.
  - cbn [se_trace]. exists [CallNext 0; Tau; Tau; Tau; Claim 0 5; Tau], 0%nat. eexists. exists [], 1%nat, [Tau; ReadIndex 1 6; Tau]. eexists. split; [reflexivity|].
    split; [|reflexivity]. cbn [In]. intros [X|[X|[X|[]]]]; discriminate X.
  - exists (prepareTree (repeat 7 48) 4 [] 6). cbn [se_trace]. rewrite A'. left. reflexivity.
  - reflexivity.
  - eexists _, 1%nat, [Tau; ReadIndex 1 6; Tau], _. split; [|split; [|split; [|split]]].
    2:{ cbn [In]. intros [X|[X|[X|[]]]]; discriminate X. }
    2: reflexivity. 2: reflexivity.
    + match goal with |- ?l = _ => change l with (firstn (length l - 5) l ++ CallIndex 1 :: [Tau; ReadIndex 1 6; Tau] ++ [RetIndex 1 6]) end. reflexivity.
    + cbn [se_trace app]. reflexivity.
  - eexists. split; [exact H0|]. intros u. cbn [snd]. destruct u as [|[|u]]; reflexivity.
Qed.
Example C93_restart_case : exists m m', m <> m' /\ (4 <= 4 <= 30)%nat /\ Nat.even 4 = true /\ 5 + 3 + 1 < 2 ^ 64 /\
  exists T y, answers T = [(Some 5, Ok y)] /\ happened (repeat 7 48) 4 (mkSession 5 3 T) /\ m = [1] /\ m' = [2].
Proof.
  exists [1], [2]. split; [discriminate|]. split; [lia|]. split; [reflexivity|]. split; [reflexivity|].
  destruct (C93_unstored_tree_comes_again (repeat 7 48) 4 5 3 3 [1] [2]) as (tr & _ & T & _ & _ & _ & _ & H1 & _ & H2 & _); try lia; try reflexivity.
  exists tr, T. auto.
Qed.
