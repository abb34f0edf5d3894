(** C74: construction and destruction of a pool. *)
From Coq Require Import List NArith Arith Lia Bool.
From Verif Require Import Base Bytes XmssObj Pool SpecPool PoolInv PropPool PropPool2 PoolLife.
Import ListNotations.
Open Scope N_scope.

(** The future a thread holds in its local variable [pending] (or is dropping). *)
Definition holder (p : pc) (k : nat) : Prop :=
  match p with
  | PopFront f | ReadInc f | WriteInc f _ | FillBounds f | FillLoop f _ _ | NextUnlock f | NextUnwind f | Get f | Unwind f => f = Some k
  | DropNew f k' => f = Some k \/ k' = k
  | _ => False
  end.
Definition unfinished (s : shared) (k : nat) : Prop := exists i, nth_error (p_tasks s) k = Some (mkTask i None).
Definition covered (s : shared) (th : threads) : Prop :=
  forall k, unfinished s k -> In (Some k) (p_cache s) \/ exists t, holder (th t) k.

Lemma unfinished_not_done : forall s k, unfinished s k -> done s k -> False.
Proof. intros s k (i & E) (j & r & E'). congruence. Qed.
Lemma unfinished_add : forall s i k, unfinished (add_task s i) k -> unfinished s k \/ k = length (p_tasks s).
Proof.
  intros s i k (j & E). cbn [add_task p_tasks] in E. destruct (Nat.lt_ge_cases k (length (p_tasks s))).
  - rewrite nth_error_app1 in E by auto. left. exists j. exact E.
  - rewrite nth_error_app2 in E by auto. destruct (k - length (p_tasks s))%nat as [|[|]] eqn:Ek; cbn in E; try discriminate. right. lia.
Qed.
Lemma finish_unfinished : forall c s s' k, finish c s s' -> unfinished s' k -> unfinished s k.
Proof.
  intros c s s' k (k' & i & junk & E & ->) (j & E'). cbn [p_tasks] in E'. rewrite nth_error_upd in E'.
  destruct (k' =? k)%nat; [destruct (k' <? length (p_tasks s))%nat; discriminate|]. exists j. exact E'.
Qed.

Lemma covered_tstep : forall c tr s th t l s' p', pool_ok c -> exec c tr (s, th) -> tstep c t s (th t) l s' p' ->
  covered s th -> covered s' (upd_thread th t p').
Proof.
  intros c tr s th t l s' p' HP HE HT HC.
  assert (HI : Inv c tr s th) by exact (exec_inv c tr (s, th) HP HE).
  pose proof (I_stage _ _ _ _ HI t) as HS.
  assert (K : forall k, unfinished s' k ->
     (In (Some k) (p_cache s) -> In (Some k) (p_cache s') \/ holder p' k) /\ (holder (th t) k -> In (Some k) (p_cache s') \/ holder p' k) /\
     (unfinished s k \/ In (Some k) (p_cache s') \/ holder p' k)).
  { intros k Hk. remember (th t) as p eqn:Ep. destruct HT;
      cbn [set_lock set_cur set_cache add_task p_cache holder stage] in *;
      try (split; [now left|]; split; [tauto|left; exact Hk]).
    - (* front *)
      rewrite H. cbn [In]. split; [|split; [tauto|left; exact Hk]]. intros [->|X]; auto.
    - (* pop *)
      destruct HS as (_ & k0 & rest' & -> & Ec & _). rewrite H in Ec. injection Ec as -> ->. rewrite H. cbn [In].
      split; [|split; [auto|left; exact Hk]]. intros [X|X]; [discriminate|auto].
    - (* pop of an empty deque *)
      destruct HS as (_ & k0 & rest' & _ & Ec & _). congruence.
    - (* push *)
      split; [intros X; left; apply in_or_app; now left|]. split; [tauto|].
      apply unfinished_add in Hk. destruct Hk as [Hk|Hk]; [now left|right; left]. apply in_or_app. right. subst k. now left.
    - (* push_back fails *)
      split; [now left|]. split; [auto|]. apply unfinished_add in Hk. destruct Hk as [Hk|Hk]; [now left|]. subst k. auto.
    - (* new future dropped *)
      split; [now left|]. split; [|left; exact Hk]. intros [X|X]; [auto|]. subst. exfalso. eapply unfinished_not_done; eauto.
    - (* get *)
      split; [now left|]. split; [|left; exact Hk]. intros X. injection X as ->. exfalso. eapply unfinished_not_done; eauto. exists i, r. auto.
    - split; [now left|]. split; [discriminate|left; exact Hk].
    - split; [now left|]. split; [|left; exact Hk]. intros X. injection X as ->. exfalso. eapply unfinished_not_done; eauto.
    - split; [now left|]. split; [discriminate|left; exact Hk]. }
  intros k Hk. destruct (K k Hk) as (K1 & K2 & K3).
  assert (T : In (Some k) (p_cache s') \/ holder p' k -> In (Some k) (p_cache s') \/ (exists u, holder (upd_thread th t p' u) k)).
  { intros [X|X]; auto. right. exists t. now rewrite upd_thread_same. }
  destruct K3 as [K3|K3]; [|now apply T].
  destruct (HC k K3) as [X|(u & X)]; [now apply T, K1|].
  destruct (Nat.eq_dec u t) as [->|Hu]; [now apply T, K2|]. right. exists u. now rewrite upd_thread_other.
Qed.

(** ** Construction *)
Definition begun (c : pool_cfg) (a b : task) : Prop :=
  exists i, a = mkTask i None /\ (b = a \/ exists junk, b = mkTask i (Some (prepareTree (pc_seed c) (pc_height c) junk i))).
Definition plain (start : N) (n : nat) : list task := map (fun i => mkTask i None) (map (fun k => start + N.of_nat k) (seq 0 n)).
Lemma plain_S : forall start n, plain start (S n) = plain start n ++ [mkTask (start + N.of_nat n) None].
Proof. intros. unfold plain. rewrite seq_S, !map_app. reflexivity. Qed.
Lemma plain_length : forall start n, length (plain start n) = n.
Proof. intros. unfold plain. now rewrite !map_length, seq_length. Qed.
Lemma begun_finish : forall c A B, Forall2 (begun c) A B -> forall k i junk, nth_error B k = Some (mkTask i None) ->
  Forall2 (begun c) A (upd B k (mkTask i (Some (prepareTree (pc_seed c) (pc_height c) junk i)))).
Proof.
  intros c A B H. induction H as [|a b A B Hab H IH]; intros [|k] i junk E; try discriminate; cbn [nth_error] in E; cbn [upd].
  - injection E as ->. constructor; auto. destruct Hab as (j & -> & [X|(junk' & X)]); [|discriminate].
    injection X as ->. exists j. split; auto. right. now exists junk.
  - constructor; auto.
Qed.
Lemma upd_middle : forall (p : list task) a l b, upd (p ++ a :: l) (length p) b = p ++ b :: l.
Proof. induction p as [|x p IH]; intros; cbn [app length upd]; [reflexivity|now rewrite IH]. Qed.
Lemma nth_middle' : forall (p : list task) a l, nth_error (p ++ a :: l) (length p) = Some a.
Proof. intros. rewrite nth_error_app2 by lia. now rewrite Nat.sub_diag. Qed.
Lemma finish_all : forall c A B, Forall2 (begun c) A B -> forall p tr cur ca lk th,
  exec c tr (mkShared cur ca lk (p ++ A), th) -> exists n, exec c (tr ++ repeat Tau n) (mkShared cur ca lk (p ++ B), th).
Proof.
  intros c A B H. induction H as [|a b A B Hab H IH]; intros p tr cur ca lk th HE.
  - exists 0%nat. now rewrite app_nil_r.
  - assert (HE' : exists n, exec c (tr ++ repeat Tau n) (mkShared cur ca lk (p ++ b :: A), th)).
    { destruct Hab as (i & -> & [->|(junk & ->)]); [exists 0%nat; now rewrite app_nil_r|]. exists 1%nat. cbn [repeat].
      eapply ex_step; [exact HE|]. apply ps_task. exists (length p), i, junk. cbn [p_tasks p_cur p_cache p_lock].
      rewrite nth_middle', upd_middle. auto. }
    destruct HE' as (n & HE'). replace (p ++ b :: A) with ((p ++ [b]) ++ A) in HE' by (rewrite <- app_assoc; reflexivity).
    destruct (IH _ _ _ _ _ _ HE') as (m & HM). exists (n + m)%nat. rewrite repeat_app, app_assoc.
    replace (p ++ b :: B) with ((p ++ [b]) ++ B) by (rewrite <- app_assoc; reflexivity). exact HM.
Qed.

(** ** The invariant *)
Definition visible (tr : list label) : list label := filter (fun l => match l with Tau => false | _ => true end) tr.
Fixpoint used (tr : list llabel) : list label :=
  match tr with [] => [] | Use l :: r => l :: used r | _ :: r => used r end.
Lemma used_app : forall a b, used (a ++ b) = used a ++ used b.
Proof. induction a as [|[] a IH]; intros; cbn [app used]; rewrite ?IH; auto. Qed.
Lemma visible_app : forall a b, visible (a ++ b) = visible a ++ visible b.
Proof. intros. apply filter_app. Qed.
Lemma visible_tau : forall n, visible (repeat Tau n) = [].
Proof. induction n; auto. Qed.

Definition idle (th : threads) : Prop := forall t, th t = Idle.
Definition entries (s : shared) : Prop := forall f, In f (p_cache s) -> exists k, f = Some k /\ (k < length (p_tasks s))%nat.
Definition J (c : pool_cfg) (tr : list llabel) (x : pool) : Prop :=
  let s := l_shared x in
  match l_phase x with
  | Building i e => exists n, i = pc_start c + N.of_nat n /\ e = u64 (pc_start c + pc_size c) /\ (i <= e \/ n = 0%nat) /\
      l_threads x = (fun _ => Idle) /\ used tr = [] /\
      p_cur s = pc_start c /\ p_cache s = map Some (seq 0 n) /\ p_lock s = None /\ Forall2 (begun c) (plain (pc_start c) n) (p_tasks s)
  | BuildDrop k => entries s /\ (k < length (p_tasks s))%nat /\ forall j, unfinished s j -> In (Some j) (p_cache s) \/ j = k
  | Alive => covered s (l_threads x) /\ exists tr', exec c tr' (s, l_threads x) /\ visible tr' = visible (used tr)
  | Dying => entries s /\ forall j, unfinished s j -> In (Some j) (p_cache s)
  | Gone => forall j, ~ unfinished s j
  end.

Lemma lt_tasks : forall s k, unfinished s k -> (k < length (p_tasks s))%nat.
Proof. intros s k (i & E). apply nth_error_Some. congruence. Qed.
Lemma begun_length : forall c A B, Forall2 (begun c) A B -> length A = length B.
Proof. intros c A B H. induction H; cbn; auto. Qed.
Lemma entries_seq : forall s, p_cache s = map Some (seq 0 (length (p_tasks s))) -> entries s.
Proof.
  intros s E f Hf. rewrite E in Hf. apply in_map_iff in Hf. destruct Hf as (k & <- & Hk). apply in_seq in Hk. exists k. split; auto. lia.
Qed.
Lemma finish_length : forall c s s', finish c s s' -> length (p_tasks s') = length (p_tasks s) /\ p_cache s' = p_cache s /\ p_cur s' = p_cur s /\ p_lock s' = p_lock s.
Proof. intros c s s' (k & i & junk & E & ->). cbn. now rewrite upd_length. Qed.

Lemma J_init : forall c, J c [] (new_pool c).
Proof.
  intros c. exists 0%nat. cbn [new_pool l_phase l_shared l_threads p_cur p_cache p_lock p_tasks]. repeat split; auto. lia. constructor.
Qed.

Lemma covered_idle : forall s th, idle th -> covered s th -> forall k, unfinished s k -> In (Some k) (p_cache s).
Proof. intros s th HI HC k Hk. destruct (HC k Hk) as [X|(t & X)]; auto. rewrite HI in X. destruct X. Qed.

Lemma J_step : forall c tr x l y, pool_ok c -> J c tr x -> lstep c x l y -> J c (tr ++ [l]) y /\ l <> UseAfterFree.
Proof.
  intros c tr x l y HP HJ HS. destruct HS; unfold J in HJ; cbn [l_phase l_shared l_threads] in HJ.
  - (* push *) split; [|discriminate]. destruct HJ as (n & -> & -> & Hb & -> & Hu & Hc & Hq & Hl & HF). exists (S n).
    cbn [l_phase l_shared l_threads p_cur p_cache p_lock p_tasks set_cache add_task]. rewrite used_app, Hu.
    pose proof (begun_length _ _ _ HF) as HL. rewrite plain_length in HL.
    repeat split; auto; [lia|lia| |].
    + rewrite Hq, seq_S, map_app, <- HL. reflexivity.
    + rewrite plain_S. apply Forall2_app; auto. constructor; [|constructor]. eexists. split; [reflexivity|now left].
  - (* async throws *) split; [|discriminate]. destruct HJ as (n & -> & -> & Hb & -> & Hu & Hc & Hq & Hl & HF).
    pose proof (begun_length _ _ _ HF) as HL. rewrite plain_length in HL. subst n. split; [now apply entries_seq|].
    cbn [l_shared]. intros j Hj. rewrite Hq. apply in_map, in_seq. apply lt_tasks in Hj. lia.
  - (* push_back throws *) split; [|discriminate]. destruct HJ as (n & -> & -> & Hb & -> & Hu & Hc & Hq & Hl & HF).
    pose proof (begun_length _ _ _ HF) as HL. rewrite plain_length in HL. subst n. unfold J.
    cbn [l_phase l_shared l_threads p_cur p_cache p_lock p_tasks set_cache add_task]. repeat split.
    + intros f Hf. destruct (entries_seq s Hq f Hf) as (k & -> & Hk). exists k. split; auto. cbn. rewrite app_length. lia.
    + rewrite app_length. cbn. lia.
    + intros j Hj. apply unfinished_add in Hj. destruct Hj as [Hj|Hj]; [left|now right]. rewrite Hq. apply in_map, in_seq. apply lt_tasks in Hj. lia.
  - split; [|discriminate]. destruct HJ as (He & Hk & Hj). split; auto. intros j Hu. destruct (Hj j Hu) as [X|X]; auto. subst.
    exfalso. eapply unfinished_not_done; eauto.
  - (* built *) split; [|discriminate]. destruct HJ as (n & -> & -> & Hb & -> & Hu & Hc & Hq & Hl & HF).
    pose proof (begun_length _ _ _ HF) as HL. rewrite plain_length in HL. unfold J. cbn [l_phase l_shared l_threads]. split.
    + intros k Hk. left. rewrite Hq. apply in_map, in_seq. apply lt_tasks in Hk. lia.
    + assert (En : n = N.to_nat (u64 (pc_start c + pc_size c) - pc_start c)) by lia.
      destruct (finish_all c _ _ HF [] [] (pc_start c) (map Some (seq 0 n)) None (fun _ => Idle)) as (m & HM).
      { pose proof (ex_init c) as HE. unfold init_pool, init_range in HE. rewrite map_length, seq_length, <- En in HE. exact HE. }
      exists (repeat Tau m). cbn [app] in HM. split.
      * destruct s as [s1 s2 s3 s4]. cbn [p_cur p_cache p_lock p_tasks] in *. subst. exact HM.
      * rewrite visible_tau, used_app, Hu. reflexivity.
  - (* use *) split; [|discriminate]. destruct HJ as (HC & tr' & HE & HV). split.
    + eapply covered_tstep; eauto.
    + exists (tr' ++ [l]). split; [eapply ex_step; [exact HE|]; now apply ps_thread|].
      rewrite used_app, !visible_app, HV. reflexivity.
  - (* destructor *) split; [|discriminate]. destruct HJ as (HC & tr' & HE & HV).
    pose proof (exec_inv c tr' _ HP HE) as HI. cbn [fst snd] in HI.
    assert (Hf : p_lock s = None).
    { destruct (p_lock s) as [t|] eqn:El; auto. pose proof (proj2 (I_lock _ _ _ _ HI t) El) as X. rewrite H in X. discriminate. }
    pose proof (I_free _ _ _ _ HI Hf) as (HG & _). split; cbn [l_shared].
    + intros f Hin. apply In_nth_error in Hin. destruct Hin as (n & Hn).
      destruct (HG n) as (k & E & (r & T)); [apply nth_error_Some; congruence|]. exists k. split; [congruence|]. apply nth_error_Some. congruence.
    + eapply covered_idle; eauto.
  - (* a future is dropped *) split; [|discriminate]. destruct HJ as (He & Hj). split; cbn [l_shared set_cache p_cache].
    + intros g Hg. apply (He g). rewrite H. apply in_app_iff in Hg. apply in_app_iff. destruct Hg; auto. right. now right.
    + intros j Hu. specialize (Hj j Hu). rewrite H in Hj. apply in_app_iff in Hj. apply in_app_iff. destruct Hj as [X|[X|X]]; auto.
      exfalso. eapply unfinished_not_done; [exact Hu|]. apply (H0 j X).
  - (* free *) split; [|discriminate]. destruct HJ as (He & Hj). intros j Hu. specialize (Hj j Hu). rewrite H in Hj. destruct Hj.
  - (* task *) split; [|discriminate]. destruct (finish_length c s s' H0) as (L1 & L2 & L3 & L4).
    assert (EN : entries s -> entries s') by (intros X f Hf; rewrite L2 in Hf; rewrite L1; auto).
    destruct ph; unfold J; cbn [l_phase l_shared l_threads]; rewrite ?L1, ?L2, ?L3, ?L4.
    + destruct HJ as (n & -> & -> & Hb & -> & Hu & Hc & Hq & Hl & HF). exists n. rewrite used_app, Hu. repeat split; auto.
      destruct H0 as (k & j & junk & E & ->). cbn [p_tasks]. now apply begun_finish.
    + destruct HJ as (He & Hk & Hj). repeat split; auto. intros j Hu. apply Hj. eapply finish_unfinished; eauto.
    + destruct HJ as (HC & tr' & HE & HV). split.
      * intros k Hk. rewrite L2. apply HC. eapply finish_unfinished; eauto.
      * exists (tr' ++ [Tau]). split; [eapply ex_step; [exact HE|]; now apply ps_task|].
        rewrite used_app, !visible_app, HV. reflexivity.
    + destruct HJ as (He & Hj). split; auto. intros j Hu. apply Hj. eapply finish_unfinished; eauto.
    + congruence.
  - exfalso. apply (HJ k). now exists i.
Qed.
Lemma J_exec : forall c tr x, pool_ok c -> lexec c tr x -> J c tr x /\ ~ In UseAfterFree tr.
Proof.
  intros c tr x HP H. induction H as [|tr x l y H (IH & IU) HS]; [split; [apply J_init|auto]|].
  destruct (J_step c tr x l y HP IH HS) as (HJ & HU). split; auto. rewrite in_app_iff. intros [X|[X|[]]]; auto.
Qed.

(** *** C74 *)
(** No background task ever reads a member of a destroyed pool: whether the constructor succeeds
    or throws, whatever is called in between and however the tasks are scheduled; when the
    storage is released every task has finished. *)
Theorem C74_no_use_after_free : forall c tr x, pool_ok c -> lexec c tr x ->
  ~ In UseAfterFree tr /\
  (l_phase x = Gone -> (forall k t, nth_error (p_tasks (l_shared x)) k = Some t -> t_result t <> None) /\
     forall l y, ~ lstep c x l y).
Proof.
  intros c tr x HP HX. destruct (J_exec c tr x HP HX) as (HJ & HU). split; auto. intros Eg. unfold J in HJ. rewrite Eg in HJ. split.
  - intros k [i r] E Er. cbn in Er. subst r. apply (HJ k). now exists i.
  - intros l y HS. destruct HS; cbn [l_phase l_shared] in *; try discriminate; try congruence.
    apply (HJ k). now exists i.
Qed.

(** The living pool is exactly the pool of Pool.v: same states, same visible history. *)
Lemma lexec_app : forall c tr x l y, lexec c tr x -> lstep c x l y -> lexec c (tr ++ [l]) y.
Proof. intros. eapply lx_step; eauto. Qed.
Lemma build_n : forall c n, (n <= N.to_nat (u64 (pc_start c + pc_size c) - pc_start c))%nat ->
  lexec c (repeat Launch n) (mkPool (Building (pc_start c + N.of_nat n) (u64 (pc_start c + pc_size c)))
    (mkShared (pc_start c) (map Some (seq 0 n)) None (plain (pc_start c) n)) (fun _ => Idle)).
Proof.
  intros c. induction n as [|n IH]; intros Hn.
  - cbn. rewrite N.add_0_r. apply lx_init.
  - replace (repeat Launch (S n)) with (repeat Launch n ++ [Launch]) by (rewrite <- repeat_cons; reflexivity).
    eapply lx_step; [apply IH; lia|].
    pose proof (ls_push c (mkShared (pc_start c) (map Some (seq 0 n)) None (plain (pc_start c) n)) (fun _ => Idle)
      (pc_start c + N.of_nat n) (u64 (pc_start c + pc_size c)) ltac:(lia)) as HS.
    unfold set_cache, add_task in HS. cbn [p_cur p_cache p_lock p_tasks] in HS.
    rewrite plain_length, <- plain_S in HS. rewrite seq_S, map_app. cbn [map plus]. replace (pc_start c + N.of_nat (S n)) with (pc_start c + N.of_nat n + 1) by lia. exact HS.
Qed.
Theorem C74_living_pool : forall c s th, pool_ok c ->
  (forall tr, lexec c tr (mkPool Alive s th) -> exists tr', exec c tr' (s, th) /\ visible tr' = visible (used tr)) /\
  (forall tr', exec c tr' (s, th) -> exists tr, lexec c tr (mkPool Alive s th) /\ visible tr' = visible (used tr)).
Proof.
  intros c s th HP. split.
  - intros tr HX. destruct (J_exec c tr _ HP HX) as ((_ & HJ) & _). exact HJ.
  - intros tr' HE. change s with (fst (s, th)). change th with (snd (s, th)) at 2. induction HE as [|tr' x l y HE (tr & HX & HV) HS].
    + set (n := N.to_nat (u64 (pc_start c + pc_size c) - pc_start c)).
      exists (repeat Launch n ++ [Built]). split.
      * eapply lx_step; [apply (build_n c n); apply le_n|].
        unfold init_pool, init_range. cbn [fst snd]. rewrite map_length, seq_length. fold n. apply ls_built. lia.
      * rewrite used_app. assert (E : used (repeat Launch n) = []) by (clear; induction n; auto). now rewrite E.
    + destruct HS as [s0 th0 t l s' p' HT|s0 th0 s' HF]; cbn [fst snd] in *.
      * exists (tr ++ [Use l]). split; [eapply lx_step; [exact HX|]; now apply ls_use|]. rewrite used_app, !visible_app, HV. reflexivity.
      * exists (tr ++ [Task]). split; [eapply lx_step; [exact HX|]; now apply ls_task|]. rewrite used_app, !visible_app, HV. reflexivity.
Qed.

(** The destructor returns: once it has been called (or the constructor has thrown) at most
    [unfinished tasks + cached futures + 2] steps are left, and until the storage is
    released there always is one. *)
Definition left_over (x : pool) : nat :=
  match l_phase x with
  | BuildDrop _ => undone (p_tasks (l_shared x)) + length (p_cache (l_shared x)) + 2
  | Dying => undone (p_tasks (l_shared x)) + length (p_cache (l_shared x)) + 1
  | _ => 0
  end.
Definition ending (ph : phase) : bool := match ph with BuildDrop _ | Dying => true | _ => false end.
Lemma ending_step : forall c x l y, lstep c x l y -> ending (l_phase x) = true -> (left_over y < left_over x)%nat /\ (ending (l_phase y) = true \/ l_phase y = Gone).
Proof.
  intros c x l y H HE. destruct H; cbn [l_phase ending left_over l_shared] in *; try discriminate; unfold left_over; cbn [l_phase l_shared]; auto.
  - split; auto. lia.
  - split; auto. cbn [set_cache p_tasks p_cache]. rewrite H, !app_length. cbn [length]. lia.
  - split; auto. lia.
  - destruct H0 as (k & i & junk & E & ->). cbn [p_tasks p_cache].
    rewrite (undone_upd _ k i (prepareTree (pc_seed c) (pc_height c) junk i) E).
    assert (X : forall p q : nat, (p + q < S p + q)%nat) by (intros; lia).
    destruct ph; try discriminate HE; split; auto; rewrite <- !Nat.add_assoc; apply X.
Qed.
Theorem C74_destructor_returns : forall c tr x, pool_ok c -> lexec c tr x ->
  (forall k, l_phase x = BuildDrop k \/ l_phase x = Dying ->
     (forall n y, lrun c n x y -> (n <= undone (p_tasks (l_shared x)) + length (p_cache (l_shared x)) + 2)%nat) /\
     exists l y, lstep c x l y).
Proof.
  intros c tr x HP HX k HK. assert (HE : ending (l_phase x) = true) by (destruct HK as [->| ->]; auto).
  assert (HB : (left_over x <= undone (p_tasks (l_shared x)) + length (p_cache (l_shared x)) + 2)%nat).
  { unfold left_over. destruct HK as [->| ->]; lia. }
  destruct (J_exec c tr x HP HX) as (HJ & _). split.
  - intros n y HR. apply Nat.le_trans with (left_over x); [|exact HB].
    assert (G : forall n x y, lrun c n x y -> forall tr, lexec c tr x -> ending (l_phase x) = true -> (n <= left_over x)%nat).
    { clear - HP. intros n x y H. induction H as [|n x l y z HS HR IH]; intros tr HX HE; [lia|].
      destruct (ending_step c x l y HS HE) as (H1 & [H2|H2]).
      - specialize (IH _ (lx_step c _ _ _ _ HX HS) H2). lia.
      - destruct (C74_no_use_after_free c _ y HP (lx_step c _ _ _ _ HX HS)) as (_ & HG). destruct (HG H2) as (_ & HN).
        destruct HR as [|n y l' y' z HS' _]; [|elim (HN l' y' HS')]. lia. }
    eapply G; eauto.
  - destruct x as [ph s th]. unfold J in HJ. cbn [l_phase l_shared l_threads] in *. destruct HK as [-> | ->].
    + destruct HJ as (He & Hk & Hj). destruct (undone_task s k Hk) as [D|(i & E)].
      * do 2 eexists. eapply ls_drop_new; eauto.
      * do 2 eexists. eapply ls_task; [discriminate|]. exists k, i, []. split; [exact E|reflexivity].
    + destruct HJ as (He & Hj). destruct (p_cache s) as [|f rest] eqn:Ec.
      * do 2 eexists. eapply ls_free; eauto.
      * destruct (He f) as (j & -> & Hk); [rewrite Ec; now left|]. destruct (undone_task s j Hk) as [D|(i & E)].
        -- do 2 eexists. eapply (ls_drop c s th [] (Some j) rest); [exact Ec|]. intros k' X. now injection X as <-.
        -- do 2 eexists. eapply ls_task; [discriminate|]. exists j, i, []. split; [exact E|reflexivity].
Qed.

(** The constructor's loop ends too: it launches exactly the range asked for, or throws. *)
Theorem C74_constructor : forall c n x y, lexec c [] x -> lrun c n x y -> (exists i e, l_phase y = Building i e) ->
  (n <= 2 * N.to_nat (u64 (pc_start c + pc_size c) - pc_start c))%nat.
Proof.
  intros c n x y HX HR HY.
  assert (Ex : x = new_pool c).
  { inversion HX; auto. destruct tr; discriminate. }
  subst x.
  assert (Mon : forall n x y, lrun c n x y -> forall i e, l_phase y = Building i e -> exists i' e', l_phase x = Building i' e' /\
    (n + (2 * N.to_nat (e - i) + undone (p_tasks (l_shared y))) <= 2 * N.to_nat (e' - i') + undone (p_tasks (l_shared x)))%nat).
  { clear. intros n x y H. induction H as [x|n x l y z HS HR IH]; intros i e Ez.
    - exists i, e. split; auto.
    - destruct (IH i e Ez) as (i1 & e1 & Ey & Hle). destruct HS; cbn [l_phase l_shared] in *; try discriminate Ey.
      + injection Ey as <- <-. exists i0, e0. split; auto. cbn [set_cache add_task p_tasks] in Hle. rewrite undone_app in Hle. lia.
      + subst ph. exists i1, e1. split; auto. destruct H0 as (k & j & junk & E & ->). cbn [p_tasks] in Hle.
        rewrite (undone_upd _ k j (prepareTree (pc_seed c) (pc_height c) junk j) E).
        cbn [plus]. rewrite Nat.add_succ_r. apply le_n_S. exact Hle. }
  destruct HY as (i & e & HY). destruct (Mon _ _ _ HR i e HY) as (i' & e' & E & Hle). cbn [new_pool l_phase l_shared p_tasks] in *.
  injection E as <- <-. cbn [undone filter length] in Hle. unfold undone in Hle. cbn [filter length] in Hle. lia.
Qed.

(** Concrete lives: a pool of two trees destroyed at once, with both tasks still running; and a
    constructor that fails on the second push_back, with both tasks still running. *)
Example C74_concrete :
  (exists tr x, lexec (mkCfgP [1; 2; 3] 4 7 2) tr x /\ l_phase x = Dying /\
     undone (p_tasks (l_shared x)) = 2%nat /\ length (p_cache (l_shared x)) = 2%nat) /\
  (exists tr x, lexec (mkCfgP [1; 2; 3] 4 7 2) tr x /\ l_phase x = BuildDrop 1 /\
     undone (p_tasks (l_shared x)) = 2%nat /\ length (p_cache (l_shared x)) = 1%nat).
Proof.
  set (c := mkCfgP [1; 2; 3] 4 7 2). split.
  - assert (H2 := build_n c 2 ltac:(vm_compute; lia)). do 2 eexists. split.
    + eapply lx_step; [eapply lx_step; [exact H2|]|].
      * apply ls_built. vm_compute. discriminate.
      * apply ls_dtor. reflexivity.
    + repeat split.
  - assert (H1 := build_n c 1 ltac:(vm_compute; lia)). do 2 eexists. split.
    + eapply lx_step; [exact H1|]. apply ls_fail_push. vm_compute. reflexivity.
    + repeat split.
Qed.
