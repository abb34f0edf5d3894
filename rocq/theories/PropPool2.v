(** Properties of the pool: C50 - C53. *)
(** Concrete executions meeting the hypotheses below: PoolExamples.v. *)
From Coq Require Import List NArith Arith Lia Bool Permutation.
From Verif Require Import Base Bytes Keccak HashAddress XmssObj Pool SpecPool PoolInv PropPool.
Import ListNotations.
Open Scope N_scope.

(** ** C50: no data races *)
(** The next statement of a thread at this point reads or writes _current_index or
    _cache (xmssPool.cpp:20-27, 38-49, 67-71, xmssPool.h:40). *)
Definition touches (p : pc) : bool :=
  match p with
  | NextTest | MissRead | MissWrite _ | Front | PopFront _ | ReadInc _ | WriteInc _ _ | FillBounds _ | FillLoop _ _ _
  | AvailTest | AvailPoll | IndexRead => true
  | _ => false
  end.
(** Same lock and tasks, any index and cache. *)
Definition with_data (s : shared) (cur : N) (cache : list (option nat)) : shared := mkShared cur cache (p_lock s) (p_tasks s).
Theorem C50_race_free : forall c tr x, pool_ok c -> exec c tr x ->
  (* at most one thread is about to access the index or the cache *)
  (forall t u, touches (snd x t) = true -> touches (snd x u) = true -> t = u) /\
  (* the table is right: every other step, of a thread or of a background task, leaves both
     alone and would happen in the same way whatever they contain *)
  (forall t l s' p', touches (snd x t) = false -> tstep c t (fst x) (snd x t) l s' p' ->
     p_cur s' = p_cur (fst x) /\ p_cache s' = p_cache (fst x) /\
     forall v q, tstep c t (with_data (fst x) v q) (snd x t) l (with_data s' v q) p') /\
  (forall s', finish c (fst x) s' -> p_cur s' = p_cur (fst x) /\ p_cache s' = p_cache (fst x) /\ p_lock s' = p_lock (fst x) /\
     forall v q, finish c (with_data (fst x) v q) (with_data s' v q)).
Proof.
  intros c tr x HP HE. pose proof (I_lock _ _ _ _ (exec_inv c tr x HP HE)) as HL.
  assert (T : forall p, touches p = true -> crit p = true) by (intros []; cbn; auto).
  split; [|split].
  - intros t u Ht Hu. apply T, HL in Ht. apply T, HL in Hu. congruence.
  - intros t l s' p' Ht H. remember (snd x t) as p eqn:Ep. destruct H; try discriminate Ht; (split; [reflexivity|split; [reflexivity|]]);
      intros w q; try solve [econstructor; eauto].
  - intros s' (k & i & junk & E & ->). split; [reflexivity|split; [reflexivity|split; [reflexivity|]]]. intros v q. exists k, i, junk. auto.
Qed.

(** ** C51: every call returns *)
Definition is_call (l : label) : Prop := match l with CallNext _ | CallAvail _ | CallIndex _ => True | _ => False end.
(** Continuations of length n without new calls. *)
Inductive quiet_run (c : pool_cfg) : nat -> shared * threads -> shared * threads -> Prop :=
| qr_nil : forall x, quiet_run c 0 x x
| qr_step : forall n x l y z, pstep c x l y -> ~ is_call l -> quiet_run c n y z -> quiet_run c (S n) x z.

Definition weight (c : pool_cfg) (p : pc) : nat :=
  let z := (3 * N.to_nat (pc_size c))%nat in
  match p with
  | Idle => 0
  | Build _ | Get _ | Unwind _ => 1
  | NextUnlock _ | NextUnlockMiss _ | NextUnwind _ => 2
  | DropNew _ _ => 3
  | MissWrite _ => 3 | MissRead => 4
  | FillLoop _ i e => 5 + 3 * N.to_nat (e - i)
  | FillBounds _ => 6 + z | WriteInc _ _ => 7 + z | ReadInc _ => 8 + z | PopFront _ => 9 + z | Front => 10 + z
  | NextTest => 11 + z | NextLock => 12 + z
  | AvailRet _ => 1 | AvailUnlock _ => 2 | AvailPoll => 3 | AvailTest => 4 | AvailLock => 5
  | IndexRet _ => 1 | IndexUnlock _ => 2 | IndexRead => 3 | IndexLock => 4
  end%nat.
Definition undone (l : list task) : nat := length (filter (fun k => match t_result k with None => true | Some _ => false end) l).
Lemma undone_app : forall l i, undone (l ++ [mkTask i None]) = S (undone l).
Proof. intros. unfold undone. rewrite filter_app, app_length. cbn. lia. Qed.
Lemma undone_upd : forall l k i r, nth_error l k = Some (mkTask i None) -> undone l = S (undone (upd l k (mkTask i (Some r)))).
Proof.
  unfold undone. induction l as [|a l IH]; intros [|k] i r E; try discriminate; cbn [nth_error] in E.
  - injection E as ->. reflexivity.
  - cbn [upd filter]. destruct (t_result a); cbn [length]; erewrite (IH k) by eauto; reflexivity.
Qed.
Lemma tstep_weight : forall c t s p l s' p' h, pool_ok c -> tstep c t s p l s' p' -> ~ is_call l -> (forall u, l <> Undefined u) ->
  stage c s p h -> p <> Idle /\ (weight c p' + undone (p_tasks s') < weight c p + undone (p_tasks s))%nat.
Proof.
  intros c t s p l s' p' h HP H Hl Hu HS.
  destruct H; try (elim Hl; exact I); try (elim (Hu t); reflexivity); (split; [discriminate|]);
    cbn [weight set_lock set_cur set_cache add_task p_tasks]; try lia.
  - (* fill bounds *)
    cbn [stage] in HS. destruct HS as (_ & HG & HL). unfold cache_size in *.
    assert (G : u64 (p_cur s + pc_size c) - u64 (p_cur s + N.of_nat (length (p_cache s))) <= pc_size c).
    { destruct HP as (_ & HP). set (a := p_cur s) in *. set (n := N.of_nat (length (p_cache s))) in *. set (z := pc_size c) in *.
      pose proof (u64_lt (a + n)). unfold u64 in *. clearbody a n z.
      pose proof (N.mod_upper_bound (a + z) (2 ^ 64)). 
      pose proof (N.mod_upper_bound (a + n) (2 ^ 64)).
      pose proof (N.div_mod (a + z) (2 ^ 64)). pose proof (N.div_mod (a + n) (2 ^ 64)).
      set (T := 2 ^ 64) in *.
      assert (T <> 0) by discriminate.
      assert ((a + n) / T <= (a + z) / T) by (apply N.div_le_mono; lia).
      set (u := (a + z) / T) in *. set (w := (a + n) / T) in *. set (m := (a + z) mod T) in *. set (m' := (a + n) mod T) in *. clearbody T u w m m'.
      assert (T * w <= T * u) by (apply N.mul_le_mono_l; lia). lia. }
    lia.
  - rewrite undone_app. lia.
  - rewrite undone_app. lia.
Qed.

Lemma quiet_step : forall c tr x l y L, pool_ok c -> exec c tr x -> NoDup L -> (forall t, ~ In t L -> snd x t = Idle) ->
  pstep c x l y -> ~ is_call l ->
  (forall t, ~ In t L -> snd y t = Idle) /\
  (total (weight c) (snd y) L + undone (p_tasks (fst y)) < total (weight c) (snd x) L + undone (p_tasks (fst x)))%nat.
Proof.
  intros c tr x l y L HP HE HN HL HS Hl.
  pose proof (exec_inv c tr x HP HE) as HI. destruct (step_inv c tr x l y HP HI HS) as (HU & _).
  destruct HS as [s th t l s' p' H|s th s' H]; cbn [fst snd] in *.
  - destruct (tstep_weight c t s (th t) l s' p' (held tr t) HP H Hl HU) as (Hne & HW); [apply (I_stage _ _ _ _ HI)|].
    destruct (in_dec Nat.eq_dec t L) as [Hin|Hout]; [|elim Hne; auto].
    split; [|pose proof (total_upd (weight c) th t p' L HN Hin); lia].
    intros u Hu. rewrite upd_thread_other by (intros ->; auto). auto.
  - split; auto. destruct H as (k & i & junk & E & ->). cbn [p_tasks]. rewrite (undone_upd _ k i (prepareTree (pc_seed c) (pc_height c) junk i) E). apply Nat.add_lt_mono_l, Nat.lt_succ_diag_r.
Qed.
Lemma quiet_bound : forall c n x y, quiet_run c n x y -> forall tr L, pool_ok c -> exec c tr x -> NoDup L -> (forall t, ~ In t L -> snd x t = Idle) ->
  (n <= total (weight c) (snd x) L + undone (p_tasks (fst x)))%nat /\ exists tr', exec c tr' y.
Proof.
  intros c n x y H. induction H as [|n x l y z HS Hl HR IH]; intros tr L HP HE HN HL; [split; [lia|eauto]|].
  destruct (quiet_step c tr x l y L HP HE HN HL HS Hl) as (HL' & HW).
  destruct (IH (tr ++ [l]) L HP (ex_step c tr x l y HE HS) HN HL') as (HB & HX). split; [lia|exact HX].
Qed.

Lemma undone_task : forall s k, (k < length (p_tasks s))%nat -> done s k \/ exists i, nth_error (p_tasks s) k = Some (mkTask i None).
Proof.
  intros s k Hk. destruct (nth_error (p_tasks s) k) as [[i [r|]]|] eqn:E; [left; exists i, r; auto|right; eauto|].
  apply nth_error_None in E. lia.
Qed.
Lemma task_step : forall c s th k i, nth_error (p_tasks s) k = Some (mkTask i None) -> exists y, pstep c (s, th) Tau y.
Proof. intros c s th k i E. eexists. apply ps_task. exists k, i, []. split; [exact E|reflexivity]. Qed.
Lemma progress : forall c tr x t, pool_ok c -> exec c tr x -> snd x t <> Idle -> exists l y, ~ is_call l /\ pstep c x l y.
Proof.
  intros c tr (s, th) t HP HE Ht. pose proof (exec_inv c tr _ HP HE) as HI. cbn [fst snd] in *.
  assert (C : forall u, crit (th u) = true -> exists l y, ~ is_call l /\ pstep c (s, th) l y).
  { intros u Hu. pose proof (I_stage _ _ _ _ HI u) as HS.
    assert (ST : forall p l s' p', th u = p -> tstep c u s p l s' p' -> ~ is_call l -> exists l y, ~ is_call l /\ pstep c (s, th) l y).
    { intros p l s' p' <- H Hl. exists l. eexists. split; [exact Hl|]. apply ps_thread. exact H. }
    destruct (th u) eqn:Ep; cbn [crit] in Hu; try discriminate Hu; cbn [stage] in HS;
      try (eapply ST; [exact eq_refl|now constructor|now intros []]).
    - destruct (p_cache s) eqn:Ec; [eapply ST; [exact eq_refl|now apply st_test_empty|now intros []]|].
      eapply ST; [exact eq_refl|apply st_test_full; congruence|now intros []].
    - destruct (p_cache s) eqn:Ec; [destruct HS as (_ & _ & HS); congruence|]. eapply ST; [exact eq_refl|eapply st_front; eauto|now intros []].
    - destruct (p_cache s) eqn:Ec; [destruct HS as (_ & k & r & _ & E & _); congruence|]. eapply ST; [exact eq_refl|eapply st_pop; eauto|now intros []].
    - destruct (N.lt_ge_cases i e); [eapply ST; [exact eq_refl|now apply st_fill_push|now intros []]|].
      eapply ST; [exact eq_refl|now apply st_fill_end|now intros []].
    - destruct HS as (_ & _ & Hk). destruct (undone_task s k Hk) as [D|(i & E)].
      + eapply ST; [exact eq_refl|now apply st_drop_new|now intros []].
      + destruct (task_step c s th k i E) as (y & Hy). exists Tau, y. split; [now intros []|exact Hy].
    - destruct (p_cache s) eqn:Ec; [eapply ST; [exact eq_refl|now apply st_avail_empty|now intros []]|].
      eapply ST; [exact eq_refl|apply st_avail_full; congruence|now intros []].
    - destruct HS as (_ & (HC & _) & HS). destruct (p_cache s) as [|f rest] eqn:Ec; [congruence|].
      destruct (HC 0%nat) as (k & Ek & (r & Tk)); [cbn; lia|]. cbn in Ek. injection Ek as ->.
      destruct r as [r|].
      + eapply ST; [exact eq_refl|eapply st_poll_yes; [exact Ec|exists (u64 (p_cur s + 0)), r; exact Tk]|now intros []].
      + eapply ST; [exact eq_refl|eapply st_poll_no; [exact Ec|]|now intros []]. intros (i & r & E). rewrite Tk in E. discriminate. }
  destruct (p_lock s) as [u|] eqn:El; [apply (C u); apply (I_lock _ _ _ _ HI u); exact El|].
  destruct (crit (th t)) eqn:Ec; [eauto|].
  pose proof (I_stage _ _ _ _ HI t) as HS.
  assert (ST : forall p l s' p', th t = p -> tstep c t s p l s' p' -> ~ is_call l -> exists l y, ~ is_call l /\ pstep c (s, th) l y).
  { intros p l s' p' <- H Hl. exists l. eexists. split; [exact Hl|]. apply ps_thread. exact H. }
  assert (K : forall f h, mine s f h -> exists k, f = Some k /\ (k < length (p_tasks s))%nat).
  { intros f h (k & v & -> & _ & (r & E)). exists k. split; auto. apply nth_error_Some. congruence. }
  destruct (th t) eqn:Ep; cbn [crit] in Ec; try discriminate Ec; try congruence; cbn [stage] in HS;
    try (eapply ST; [exact eq_refl|(apply st_lock_next || apply st_lock_avail || apply st_lock_index); exact El|now intros []]).
  - eapply ST; [exact eq_refl|exact (st_build c t s idx [])|now intros []].
  - destruct (K _ _ HS) as (k & -> & Hk). destruct (undone_task s k Hk) as [(i & r & E)|(i & E)].
    + eapply ST; [exact eq_refl|eapply st_get; exact E|now intros []].
    + destruct (task_step c s th k i E) as (y & Hy). exists Tau, y. split; [now intros []|exact Hy].
  - destruct (K _ _ HS) as (k & -> & Hk). destruct (undone_task s k Hk) as [D|(i & E)].
    + eapply ST; [exact eq_refl|eapply st_throw; exact D|now intros []].
    + destruct (task_step c s th k i E) as (y & Hy). exists Tau, y. split; [now intros []|exact Hy].
  - eapply ST; [exact eq_refl|apply st_ret_avail|now intros []].
  - eapply ST; [exact eq_refl|apply st_ret_index|now intros []].
Qed.

Theorem C51_calls_return : forall c tr x, pool_ok c -> exec c tr x ->
  (* without new calls, whatever the scheduler does, only boundedly many steps can follow *)
  (exists n, forall m y, quiet_run c m x y -> (m <= n)%nat) /\
  (* and when no step is left, all calls have returned and all background tasks are done *)
  (forall m y, quiet_run c m x y -> (forall l z, pstep c y l z -> is_call l) ->
     (forall t, snd y t = Idle) /\ p_lock (fst y) = None /\ forall k, (k < length (p_tasks (fst y)))%nat -> done (fst y) k).
Proof.
  intros c tr x HP HE. destruct (exec_support c tr x HE) as (L & HN & HL). split.
  - exists (total (weight c) (snd x) L + undone (p_tasks (fst x)))%nat. intros m y HQ.
    now apply (quiet_bound c m x y HQ tr L HP HE HN HL).
  - intros m y HQ Hmax. destruct (quiet_bound c m x y HQ tr L HP HE HN HL) as (_ & tr' & HE').
    assert (HI : forall t, snd y t = Idle).
    { intros t. destruct (snd y t) eqn:Ep; auto; exfalso;
        (destruct (progress c tr' y t HP HE') as (l & z & Hl & Hz); [congruence|exact (Hl (Hmax l z Hz))]). }
    split; [exact HI|]. split.
    + destruct (p_lock (fst y)) as [t|] eqn:El; auto. apply (I_lock _ _ _ _ (exec_inv c tr' y HP HE')) in El. rewrite HI in El. discriminate.
    + intros k Hk. destruct (undone_task _ k Hk) as [D|(i & E)]; auto. destruct y as (s, th).
      destruct (task_step c s th k i E) as (z & Hz). destruct (Hmax _ _ Hz).
Qed.

(** A call that holds the mutex never waits for a key generation: it can always go on by
    itself, whatever the background tasks do.  The only exception is the cleanup after
    push_back failed. *)
Theorem C51_lock_holder_never_waits : forall c tr x t, pool_ok c -> exec c tr x -> p_lock (fst x) = Some t ->
  (exists l s' p', tstep c t (fst x) (snd x t) l s' p' /\ ~ is_call l) \/ (exists f k, snd x t = DropNew f k).
Proof.
  intros c tr (s, th) t HP HE HL. pose proof (exec_inv c tr _ HP HE) as HI. cbn [fst snd] in *.
  pose proof (proj2 (I_lock _ _ _ _ HI t) HL) as Hu. pose proof (I_stage _ _ _ _ HI t) as HS.
  cbn [fst snd] in *.
  assert (ST : forall p l s' p', th t = p -> tstep c t s p l s' p' -> ~ is_call l ->
    (exists l s' p', tstep c t s (th t) l s' p' /\ ~ is_call l) \/ (exists f k, th t = DropNew f k)).
  { intros p l s' p' <- H Hl. left. eauto. }
  destruct (th t) eqn:Ep; cbn [crit] in Hu; try discriminate Hu; cbn [stage] in HS;
    try (eapply ST; [exact eq_refl|now constructor|now intros []]).
  - destruct (p_cache s) eqn:Ec; [eapply ST; [exact eq_refl|now apply st_test_empty|now intros []]|].
    eapply ST; [exact eq_refl|apply st_test_full; congruence|now intros []].
  - destruct (p_cache s) eqn:Ec; [destruct HS as (_ & _ & HS); congruence|]. eapply ST; [exact eq_refl|eapply st_front; eauto|now intros []].
  - destruct (p_cache s) eqn:Ec; [destruct HS as (_ & k & r & _ & E & _); congruence|]. eapply ST; [exact eq_refl|eapply st_pop; eauto|now intros []].
  - destruct (N.lt_ge_cases i e); [eapply ST; [exact eq_refl|now apply st_fill_push|now intros []]|].
    eapply ST; [exact eq_refl|now apply st_fill_end|now intros []].
  - right. eauto.
  - destruct (p_cache s) eqn:Ec; [eapply ST; [exact eq_refl|now apply st_avail_empty|now intros []]|].
    eapply ST; [exact eq_refl|apply st_avail_full; congruence|now intros []].
  - destruct HS as (_ & (HC & _) & HS). destruct (p_cache s) as [|f rest] eqn:Ec; [congruence|].
    destruct (HC 0%nat) as (k & Ek & (r & Tk)); [cbn; lia|]. cbn in Ek. injection Ek as ->.
    destruct r as [r|].
    + eapply ST; [exact eq_refl|eapply st_poll_yes; [exact Ec|exists (u64 (p_cur s + 0)), r; exact Tk]|now intros []].
    + eapply ST; [exact eq_refl|eapply st_poll_no; [exact Ec|]|now intros []]. intros (i & r & E). rewrite Tk in E. discriminate.
Qed.

(** ** C52: isAvailable *)
Lemma avail_window : forall c t tr x, exec c tr x -> forall v, snd x t = AvailUnlock v \/ snd x t = AvailRet v ->
  exists m1 m2, window (CallAvail t) tr (m1 ++ ReadAvail t v :: m2).
Proof.
  intros c t tr x H v Hv.
  refine (proj2 (call_window bool t (CallAvail t)
     (fun p => match p with AvailLock | AvailTest | AvailPoll => true | _ => false end)
     (fun p => match p with AvailUnlock v | AvailRet v => Some v | _ => None end) (ReadAvail t) _ _ _ _ _ c tr x H) v _).
  - intros c' s p l s' p' Ht. destruct Ht; try discriminate; auto; intros _; right; (split; [auto|discriminate]).
  - intros c' s p l s' p' w Ht. destruct Ht; try discriminate; auto; intros E; injection E as <-; (split; [auto|discriminate]).
  - intros c' u s p l s' p' Ht Hne. destruct Ht; congruence.
  - discriminate.
  - auto.
  - destruct Hv as [-> | ->]; reflexivity.
Qed.
Lemma ret_avail_read : forall c a t m v b x, exec c (a ++ CallAvail t :: m ++ RetAvail t v :: b) x -> ~ In (CallAvail t) m ->
  exists m1 m2, m = m1 ++ ReadAvail t v :: m2.
Proof.
  intros c a t m v b x H Hm.
  replace (a ++ CallAvail t :: m ++ RetAvail t v :: b) with (((a ++ CallAvail t :: m) ++ [RetAvail t v]) ++ b) in H
    by (repeat (rewrite <- app_assoc; cbn [app]); reflexivity).
  apply exec_prefix in H. destruct H as (y & H). apply exec_app in H. destruct H as (z & Hz & Hs).
  assert (Hv : snd z t = AvailRet v).
  { inversion Hs as [s th u l s' p' Ht|]; subst. cbn [snd]. remember (th u) as p eqn:Ep. remember (RetAvail t v) as l eqn:El.
    destruct Ht; try discriminate El. injection El as <- <-. auto. }
  destruct (avail_window c t _ _ Hz v (or_intror Hv)) as (m1 & m2 & W). exists m1, m2.
  eapply window_unique; [|exact W]. exists a; auto.
Qed.

(** After the front was seen ready and before the next claim: it is still the front, or a
    thread that has the lock has taken it. *)
Definition taken (p : pc) : option (option nat) :=
  match p with PopFront f | ReadInc f | WriteInc f _ => Some f | _ => None end.
Definition ready (k : nat) (x : shared * threads) : Prop :=
  done (fst x) k /\
  ((exists rest, p_cache (fst x) = Some k :: rest) /\ (forall u, taken (snd x u) = None) \/
   exists u, taken (snd x u) = Some (Some k)).
(** After the next claim, by u: u carries the ready future. *)
Definition carries (p : pc) : option (option nat) :=
  match p with FillBounds f | FillLoop f _ _ | DropNew f _ | NextUnlock f | NextUnwind f | Get f | Unwind f => Some f | _ => None end.

Lemma done_step : forall c x l y k, pstep c x l y -> done (fst x) k -> done (fst y) k.
Proof.
  intros c x l y k H D. destruct H as [s th t l s' p' H|s th s' H]; cbn [fst] in *.
  - destruct H; try exact D; exact (done_add s i k D).
  - destruct (finish_view _ _ _ H) as (_ & _ & _ & _ & V). auto.
Qed.
Lemma ready_step : forall c tr x l y k, pool_ok c -> exec c tr x -> pstep c x l y -> ready k x ->
  match l with
  | Claim u _ => carries (snd y u) = Some (Some k)
  | ReadAvail _ b => b = true /\ ready k y
  | _ => ready k y
  end.
Proof.
  intros c tr x l y k HP HE HS (D & HR). pose proof (exec_inv c tr x HP HE) as HI.
  destruct (step_inv c tr x l y HP HI HS) as (HU & _).
  pose proof (I_lock _ _ _ _ HI) as HL. pose proof (I_stage _ _ _ _ HI) as HG.
  pose proof (done_step c x l y k HS D) as D'.
  assert (TC : forall p f, taken p = Some f -> crit p = true) by (intros p g; destruct p; cbn; congruence).
  destruct HS as [s th t l s' p' H|s th s' H]; cbn [fst snd] in *.
  2:{ split; [exact D'|]. destruct (finish_view _ _ _ H) as (_ & V & _). cbn [fst snd]. rewrite V. exact HR. }
  pose proof (HG t) as HGt.
  assert (OT : forall u p, u <> t -> taken (upd_thread th t p u) = taken (th u)) by (intros; now rewrite upd_thread_other).
  (* a step that keeps the head of the cache and does not change what t has taken *)
  assert (KEEP : forall s1 p1, done s1 k -> taken p1 = taken (th t) ->
     (forall rest, p_cache s = Some k :: rest -> exists rest', p_cache s1 = Some k :: rest') -> ready k (s1, upd_thread th t p1)).
  { intros s1 p1 D1 ET HC. split; [exact D1|]. cbn [fst snd]. destruct HR as [((rest & E) & HN)|(u & Eu)].
    - left. split; [eauto|]. intros u. destruct (Nat.eq_dec u t) as [->|Hne]; [rewrite upd_thread_same, ET; auto|rewrite OT; auto].
    - right. exists u. destruct (Nat.eq_dec u t) as [->|Hne]; [now rewrite upd_thread_same, ET|now rewrite OT]. }
  assert (LK : forall u, crit (th t) = true -> crit (th u) = true -> u = t).
  { intros u Ht Hu. apply HL in Ht. apply HL in Hu. congruence. }
  remember (th t) as p eqn:Ep.
  destruct H; try (elim (HU t); reflexivity); try (apply KEEP; [exact D'|reflexivity|intros rest E; now eauto]).
  - (* miss: the cache is empty *)
    cbn [stage] in HGt. destruct HGt as (_ & _ & E0 & _). destruct HR as [((rest & E) & _)|(u & Eu)]; [congruence|].
    pose proof (LK u eq_refl (TC _ _ Eu)). subst u. rewrite <- Ep in Eu. discriminate.
  - (* front *)
    destruct HR as [((rest' & E) & HN)|(u & Eu)].
    + rewrite E in H. injection H as <- <-. split; [exact D'|]. right. exists t. cbn [snd]. now rewrite upd_thread_same.
    + pose proof (LK u eq_refl (TC _ _ Eu)). subst u. rewrite <- Ep in Eu. discriminate.
  - (* pop *)
    destruct HR as [(_ & HN)|(u & Eu)].
    + specialize (HN t). rewrite <- Ep in HN. discriminate.
    + pose proof (LK u eq_refl (TC _ _ Eu)). subst u. rewrite <- Ep in Eu. cbn in Eu. injection Eu as ->.
      split; [exact D'|]. right. exists t. cbn [snd]. now rewrite upd_thread_same.
  - (* write inc: the claim *)
    destruct HR as [(_ & HN)|(u & Eu)].
    + specialize (HN t). rewrite <- Ep in HN. discriminate.
    + pose proof (LK u eq_refl (TC _ _ Eu)). subst u. rewrite <- Ep in Eu. cbn in Eu. injection Eu as ->.
      cbn [snd]. now rewrite upd_thread_same.
  - (* push *)
    apply KEEP; [exact D'|reflexivity|]. intros rest E. cbn [set_cache p_cache]. rewrite E. cbn [app]. eauto.
  - (* avail: empty *)
    destruct HR as [((rest & E) & _)|(u & Eu)]; [congruence|].
    pose proof (LK u eq_refl (TC _ _ Eu)). subst u. rewrite <- Ep in Eu. discriminate.
  - split; [reflexivity|]. apply KEEP; [exact D'|reflexivity|intros r E; now eauto].
  - destruct HR as [((rest' & E) & _)|(u & Eu)].
    + rewrite E in H. injection H as <- <-. contradiction.
    + pose proof (LK u eq_refl (TC _ _ Eu)). subst u. rewrite <- Ep in Eu. discriminate.
Qed.
Lemma carries_step : forall c x l y k u, pstep c x l y -> carries (snd x u) = Some (Some k) ->
  (forall r, l <> RetNext u r) -> l <> ThrowNext u -> carries (snd y u) = Some (Some k).
Proof.
  intros c x l y k u H HC H1 H2. destruct H as [s th t l s' p' H|s th s' H]; cbn [snd] in *; [|exact HC].
  destruct (Nat.eq_dec u t) as [->|Hne]; [|now rewrite upd_thread_other].
  rewrite upd_thread_same. remember (th t) as p eqn:Ep.
  destruct H; cbn in HC; try discriminate HC; auto; try (elim (H1 _ eq_refl)); try (elim (H2 eq_refl)).
Qed.

(** A continuation of an execution. *)
Lemma exec_split : forall c a b x, exec c (a ++ b) x -> forall P : list label -> shared * threads -> Prop,
  (forall y, exec c a y -> P [] y) ->
  (forall b1 y l b2 z, b = b1 ++ l :: b2 -> exec c (a ++ b1) y -> P b1 y -> pstep c y l z -> P (b1 ++ [l]) z) -> P b x.
Proof.
  intros c a b. induction b as [|l b IH] using rev_ind; intros x H P H0 HS.
  - rewrite app_nil_r in H. auto.
  - rewrite app_assoc in H. apply exec_app in H. destruct H as (y & Hy & Hs).
    apply (HS b y l []); auto. apply IH; auto. intros b1 z l' b2 w E. apply (HS b1 z l' (b2 ++ [l])).
    rewrite E, <- app_assoc. reflexivity.
Qed.
Lemma claimed_nil : forall a l b, claimed (a ++ l :: b) = [] -> claimed a = [] /\ (forall t v, l <> Claim t v).
Proof.
  intros a l b H. rewrite claimed_app in H. apply app_eq_nil in H. destruct H as (H1 & H2). split; auto.
  intros t v ->. discriminate.
Qed.
Lemma read_ready : forall c a t x, pool_ok c -> exec c (a ++ [ReadAvail t true]) x -> exists k, ready k x.
Proof.
  intros c a t x HP H. apply exec_app in H. destruct H as (y & Hy & Hs).
  pose proof (I_lock _ _ _ _ (exec_inv c a y HP Hy)) as HL.
  inversion Hs as [s th u l s' p' Ht|]; subst. cbn [snd fst] in *. remember (th u) as p eqn:Ep. remember (ReadAvail t true) as l eqn:El.
  destruct Ht; try discriminate El. exists k. split; [exact H0|]. left. split; [cbn; eauto|]. cbn [snd]. intros w.
  destruct (Nat.eq_dec w u) as [->|Hne]; [now rewrite upd_thread_same|]. rewrite upd_thread_other by auto.
  destruct (taken (th w)) as [f|] eqn:Ew; auto. elim Hne.
  assert (crit (th w) = true) by (destruct (th w); try discriminate; auto).
  assert (crit (th u) = true) by (now rewrite <- Ep). apply HL in H1. apply HL in H2. congruence.
Qed.
Lemma ready_run : forall c a t b x, pool_ok c -> exec c (a ++ ReadAvail t true :: b) x -> claimed b = [] ->
  (exists k, ready k x) /\ forall u v, In (ReadAvail u v) b -> v = true.
Proof.
  intros c a t b x HP H Hb. replace (a ++ ReadAvail t true :: b) with ((a ++ [ReadAvail t true]) ++ b) in H by (rewrite <- app_assoc; reflexivity).
  apply (exec_split c (a ++ [ReadAvail t true]) b x H
    (fun b1 y => (exists k, ready k y) /\ forall u v, In (ReadAvail u v) b1 -> v = true)).
  - intros y Hy. split; [eapply read_ready; eauto|]. intros u v [].
  - intros b1 y l b2 z -> Hy ((k & HR) & HA) Hs. apply claimed_nil in Hb. destruct Hb as (_ & Hb).
    pose proof (ready_step c _ y l z k HP Hy Hs HR) as G.
    split; [exists k; destruct l; try exact G; try apply G; elim (Hb t0 v eq_refl)|].
    intros u v. rewrite in_app_iff. cbn [In]. intros [Hin|[->|[]]]; [eauto|apply G].
Qed.

(** A positive answer stays right until the next index is claimed: every isAvailable in
    between answers true, and the call that makes the next claim hands over a finished tree
    without building one and without waiting. *)
Theorem C52_available : forall c a t m b x, pool_ok c ->
  exec c (a ++ CallAvail t :: m ++ RetAvail t true :: b) x -> ~ In (CallAvail t) m -> claimed m = [] ->
  (* answers of calls made before the next claim *)
  (claimed b = [] -> forall b1 u m' v b2, b = b1 ++ CallAvail u :: m' ++ RetAvail u v :: b2 -> ~ In (CallAvail u) m' -> v = true) /\
  (* the next claim *)
  (forall b1 u v b2, b = b1 ++ Claim u v :: b2 -> claimed b1 = [] ->
     (forall r, ~ In (RetNext u r) b2) -> ~ In (ThrowNext u) b2 ->
     (forall i, snd x u <> Build i) /\ (forall i, snd x u <> NextUnlockMiss i) /\
     (forall f, snd x u = Get f -> exists r y, pstep c x (RetNext u r) y)).
Proof.
  intros c a t m b x HP H Hm Hcm. destruct (ret_avail_read c a t m true b x H Hm) as (m1 & m2 & ->).
  rewrite claimed_app in Hcm. apply app_eq_nil in Hcm. destruct Hcm as (_ & Hcm). cbn [claimed] in Hcm.
  replace (a ++ CallAvail t :: (m1 ++ ReadAvail t true :: m2) ++ RetAvail t true :: b)
    with ((a ++ CallAvail t :: m1) ++ ReadAvail t true :: (m2 ++ RetAvail t true :: b)) in H
    by (repeat (rewrite <- app_assoc; cbn [app]); reflexivity).
  split.
  - intros Hb b1 u m' v b2 -> Hm'.
    destruct (ready_run c _ t _ x HP H) as (_ & HA); [rewrite claimed_app, Hcm; exact Hb|].
    replace ((a ++ CallAvail t :: m1) ++ ReadAvail t true :: m2 ++ RetAvail t true :: b1 ++ CallAvail u :: m' ++ RetAvail u v :: b2)
      with (((a ++ CallAvail t :: m1) ++ ReadAvail t true :: m2 ++ RetAvail t true :: b1) ++ CallAvail u :: m' ++ RetAvail u v :: b2) in H
      by (repeat (rewrite <- app_assoc; cbn [app]); reflexivity).
    destruct (ret_avail_read c _ u m' v b2 x H Hm') as (n1 & n2 & ->).
    apply (HA u v). rewrite !in_app_iff. right. right. rewrite in_app_iff. right. right. rewrite !in_app_iff. left. right. now left.
  - intros b1 u v b2 -> Hb1 HR HT.
    replace ((a ++ CallAvail t :: m1) ++ ReadAvail t true :: m2 ++ RetAvail t true :: b1 ++ Claim u v :: b2)
      with ((((a ++ CallAvail t :: m1) ++ ReadAvail t true :: m2 ++ RetAvail t true :: b1) ++ [Claim u v]) ++ b2) in H
      by (repeat (rewrite <- app_assoc; cbn [app]); reflexivity).
    assert (G : exists k, carries (snd x u) = Some (Some k) /\ done (fst x) k).
    { apply (exec_split c _ b2 x H (fun _ y => exists k, carries (snd y u) = Some (Some k) /\ done (fst y) k)).
      - intros y Hy. apply exec_app in Hy. destruct Hy as (z & Hz & Hs).
        destruct (ready_run c _ t _ z HP Hz) as ((k & HK) & _); [rewrite claimed_app, Hcm; exact Hb1|].
        exists k. pose proof (ready_step c _ z _ y k HP Hz Hs HK) as G. split; [exact G|].
        eapply done_step; eauto. apply HK.
      - intros d1 y l d2 z -> Hy (k & HC & HD) Hs. exists k. split; [|eapply done_step; eauto].
        eapply carries_step; eauto.
        + intros r ->. apply (HR r). rewrite in_app_iff. right. now left.
        + intros ->. apply HT. rewrite in_app_iff. right. now left. }
    destruct G as (k & HC & (i & r & HD)). split; [intros j E; rewrite E in HC; discriminate|]. split; [intros j E; rewrite E in HC; discriminate|].
    intros f E. rewrite E in HC. cbn in HC. injection HC as ->. destruct x as (s, th). cbn [fst snd] in *. exists r.
    eexists. apply ps_thread with (t := u). rewrite E. eapply st_get. exact HD.
Qed.

(** ** C53: when the cache is full and when it is not *)
(** The pool never runs a key generation inside getNextTree as long as no launch has failed
    and the indices stay below 2^64. *)
Definition fullness (c : pool_cfg) (s : shared) (p : pc) : Prop :=
  match p with
  | Idle | NextLock | AvailLock | AvailRet _ | IndexLock | IndexRet _ | Get _ => True
  | NextTest | AvailTest | IndexRead | AvailUnlock _ | IndexUnlock _ | Front | AvailPoll | NextUnlock _ => cache_size s = pc_size c
  | PopFront _ => cache_size s = pc_size c
  | ReadInc _ | WriteInc _ _ | FillBounds _ => cache_size s + 1 = pc_size c
  | FillLoop _ i e => i <= e /\ cache_size s + (e - i) = pc_size c
  | MissRead | MissWrite _ | NextUnlockMiss _ | Build _ => pc_size c = 0
  | DropNew _ _ | NextUnwind _ | Unwind _ => False
  end.
Definition full_inv (c : pool_cfg) (x : shared * threads) : Prop :=
  (p_lock (fst x) = None -> cache_size (fst x) = pc_size c) /\ forall t, fullness c (fst x) (snd x t).
Lemma fullness_noncrit : forall c s s' p, crit p = false -> fullness c s p -> fullness c s' p.
Proof. intros c s s' [] H; cbn in *; try discriminate; auto. Qed.
Lemma init_full : forall c, pool_ok c -> pc_start c + pc_size c < 2 ^ 64 -> full_inv c (init_pool c).
Proof.
  intros c HP HB. split; [|intros t; exact I]. intros _. unfold cache_size, init_pool, init_range. cbn [fst p_cache].
  rewrite map_length, seq_length, map_length, seq_length, u64_small by auto. lia.
Qed.
Lemma full_step : forall c tr x l y, pool_ok c -> exec c tr x -> pstep c x l y ->
  pc_start c + N.of_nat (length (claimed (tr ++ [l]))) + pc_size c < 2 ^ 64 -> (forall t, l <> LaunchFail t) ->
  full_inv c x -> full_inv c y.
Proof.
  intros c tr x l y HP HE HS HB HF (Hfree & Hst). pose proof (exec_inv c tr x HP HE) as HI.
  destruct (step_inv c tr x l y HP HI HS) as (HU & HI').
  pose proof (I_lock _ _ _ _ HI) as HL. pose proof (I_stage _ _ _ _ HI) as HG. pose proof (I_cur _ _ _ _ HI) as HC.
  assert (HCl : (length (claimed tr) <= length (claimed (tr ++ [l])))%nat) by (rewrite claimed_app, app_length; lia).
  rewrite u64_small in HC by lia.
  destruct HS as [s th t l s' p' H|s th s' H]; cbn [fst snd] in *.
  2:{ destruct H as (k & i & junk & E & ->). exact (conj Hfree Hst). }
  assert (OWN : (crit p' = false -> p_lock s' = None -> cache_size s' = pc_size c) /\ fullness c s' p').
  { pose proof (Hst t) as F. pose proof (HG t) as G. pose proof (HL t) as L. remember (th t) as p eqn:Ep.
    destruct H; try (elim (HU t); reflexivity); try (elim (HF t); reflexivity); cbn [fullness crit stage] in *; unfold cache_size in *;
      cbn [set_lock set_cur set_cache add_task p_cache p_lock p_cur] in *; auto; try (split; [intros; discriminate|]); auto; try tauto.
    - rewrite H in F. cbn [length] in F. lia.
    - rewrite H in F. cbn [length] in *. lia.
    - rewrite H in F. cbn [length] in *. lia.
    - rewrite !u64_small by lia. lia.
    - lia.
    - rewrite app_length. cbn [length]. lia.
    - split; auto. intros _ _. destruct G as (_ & _ & G). unfold cache_size in G. lia. }
  destruct OWN as (O1 & O2). split; cbn [fst snd].
  - intros EL. destruct (crit p') eqn:Ec; [|auto].
    destruct HI' as [_ _ _ HL' _ _ _ _]. cbn [fst snd] in HL'. specialize (HL' t). rewrite upd_thread_same in HL'. apply HL' in Ec. congruence.
  - intros u. destruct (Nat.eq_dec u t) as [->|Hne]; [now rewrite upd_thread_same|]. rewrite upd_thread_other by auto.
    destruct (crit (th u)) eqn:Eu; [|now apply (fullness_noncrit c s)].
    pose proof (proj1 (HL u) Eu) as El. destruct (crit (th t)) eqn:Ec.
    { pose proof (proj1 (HL t) Ec). congruence. }
    destruct (crit_step _ _ _ _ _ _ _ H Ec) as [(C0 & _)|(-> & _)]; [congruence|apply Hst].
Qed.
Lemma full_exec : forall c tr x, pool_ok c -> exec c tr x ->
  pc_start c + N.of_nat (length (claimed tr)) + pc_size c < 2 ^ 64 -> failures tr = 0%nat -> full_inv c x.
Proof.
  intros c tr x HP H. induction H as [|tr x l y H IH HS]; intros HB HF.
  - apply init_full; auto. cbn in HB. lia.
  - rewrite failures_app in HF. eapply full_step; eauto.
    + intros t ->. cbn in HF. lia.
    + apply IH; [|lia]. rewrite claimed_app, app_length in HB. lia.
Qed.
Theorem C53_cache_stays_full : forall c tr x, pool_ok c -> exec c tr x ->
  pc_start c + N.of_nat (length (claimed tr)) + pc_size c < 2 ^ 64 -> failures tr = 0%nat ->
  (p_lock (fst x) = None -> N.of_nat (length (p_cache (fst x))) = pc_size c) /\
  (0 < pc_size c -> forall t i, snd x t <> Build i).
Proof.
  intros c tr x HP HE HB HF. destruct (full_exec c tr x HP HE HB HF) as (H1 & H2). split; [exact H1|].
  intros H0 t i E. specialize (H2 t). rewrite E in H2. cbn in H2. lia.
Qed.

(** If the cache is ever empty while nobody is inside a call's critical section, it stays
    empty for good: every later isAvailable answers false. *)
Definition past_fill (p : pc) : bool :=
  match p with Front | PopFront _ | ReadInc _ | WriteInc _ _ | FillBounds _ | FillLoop _ _ _ | AvailPoll => true | _ => false end.
Inductive steps (c : pool_cfg) : shared * threads -> list label -> shared * threads -> Prop :=
| ss_nil : forall x, steps c x [] x
| ss_cons : forall x l y b z, pstep c x l y -> steps c y b z -> steps c x (l :: b) z.
Lemma steps_exec : forall c x b y, steps c x b y -> forall a, exec c a x -> exec c (a ++ b) y.
Proof.
  intros c x b y H. induction H as [|x l y b z HS _ IH]; intros a HE; [now rewrite app_nil_r|].
  replace (a ++ l :: b) with ((a ++ [l]) ++ b) by (rewrite <- app_assoc; reflexivity). apply IH. eapply ex_step; eauto.
Qed.
Definition dry (x : shared * threads) : Prop := p_cache (fst x) = [] /\ forall u, past_fill (snd x u) = false.
Lemma dry_step : forall c x l y, pstep c x l y -> dry x ->
  dry y /\ (forall u v, l = ReadAvail u v -> v = false) /\
  (forall u f, snd y u = Get f \/ snd y u = NextUnlock f -> snd x u = Get f \/ snd x u = NextUnlock f).
Proof.
  intros c x l y H (HC & HP). destruct H as [s th t l s' p' H|s th s' H]; cbn [fst snd] in *.
  2:{ destruct H as (k & i & junk & E & ->). split; [split; auto|]. split; [discriminate|auto]. }
  pose proof (HP t) as Ht.
  assert (Q : past_fill p' = false /\ p_cache s' = [] /\ (forall u v, l = ReadAvail u v -> v = false) /\
    (forall f, p' = Get f \/ p' = NextUnlock f -> th t = Get f \/ th t = NextUnlock f)).
  { remember (th t) as p eqn:Ep. destruct H; cbn in Ht; try discriminate Ht; try congruence; cbn [past_fill set_lock set_cur p_cache];
      (split; [reflexivity|split; [auto|split; [intros ? ? E0; congruence|
        intros g [Eg|Eg]; try discriminate Eg; injection Eg as <-; auto]]]). }
  destruct Q as (Q1 & Q2 & Q3 & Q4). split; [|split; [exact Q3|]].
  - split; [exact Q2|]. cbn [snd]. intros u. destruct (Nat.eq_dec u t) as [->|Hne]; [now rewrite upd_thread_same|rewrite upd_thread_other; auto].
  - intros u f. destruct (Nat.eq_dec u t) as [->|Hne]; [rewrite upd_thread_same; auto|rewrite upd_thread_other; auto].
Qed.
Lemma dry_run : forall c x b y, steps c x b y -> dry x ->
  dry y /\ (forall u v, In (ReadAvail u v) b -> v = false) /\
  (forall u f, snd y u = Get f \/ snd y u = NextUnlock f -> snd x u = Get f \/ snd x u = NextUnlock f).
Proof.
  intros c x b y H. induction H as [|x l y b z HS _ IH]; intros HD; [split; [auto|split; [intros u v []|auto]]|].
  destruct (dry_step c x l y HS HD) as (D1 & D2 & D3). destruct (IH D1) as (E1 & E2 & E3).
  split; [exact E1|]. split; [|eauto]. intros u v [->|Hin]; eauto.
Qed.
Theorem C53_empty_cache_is_final : forall c a x b y, pool_ok c -> exec c a x -> p_lock (fst x) = None -> p_cache (fst x) = [] ->
  steps c x b y ->
  p_cache (fst y) = [] /\
  (* every later isAvailable answers false *)
  (forall b1 u m v b2, b = b1 ++ CallAvail u :: m ++ RetAvail u v :: b2 -> ~ In (CallAvail u) m -> v = false) /\
  (* no later getNextTree gets a tree from the background *)
  (forall u f, snd y u = Get f -> snd x u = Get f).
Proof.
  intros c a x b y HP HE HL HC HS.
  assert (HD : dry x).
  { split; [exact HC|]. intros u. pose proof (I_lock _ _ _ _ (exec_inv c a x HP HE) u) as L.
    destruct (past_fill (snd x u)) eqn:E; auto. assert (crit (snd x u) = true) by (destruct (snd x u); try discriminate; auto).
    apply L in H. congruence. }
  destruct (dry_run c x b y HS HD) as ((D1 & _) & D2 & D3). split; [exact D1|]. split.
  - intros b1 u m v b2 -> Hm. pose proof (steps_exec c x _ y HS a HE) as H. rewrite app_assoc in H.
    destruct (ret_avail_read c _ u m v b2 y H Hm) as (m1 & m2 & ->). apply (D2 u v).
    rewrite in_app_iff. right. right. rewrite !in_app_iff. left. right. now left.
  - intros u f E. destruct (D3 u f (or_introl E)) as [G|G]; auto.
    pose proof (I_lock _ _ _ _ (exec_inv c a x HP HE) u) as L. rewrite G in L. cbn in L. assert (p_lock (fst x) = Some u) by now apply L. congruence.
Qed.
