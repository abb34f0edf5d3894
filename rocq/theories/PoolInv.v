(** The invariant of the pool (Pool.v). *)
From Coq Require Import List NArith Arith Lia Bool Permutation.
From Verif Require Import Base Bytes Keccak HashAddress XmssObj Pool SpecPool.
Import ListNotations.
Open Scope N_scope.

Definition task_idx (s : shared) (k : nat) (v : N) : Prop := exists r, nth_error (p_tasks s) k = Some (mkTask v r).
Definition contig (s : shared) (a : N) (l : list (option nat)) : Prop :=
  forall n, (n < length l)%nat -> exists k, nth_error l n = Some (Some k) /\ task_idx s k (u64 (a + N.of_nat n)).
Definition good (c : pool_cfg) (s : shared) : Prop := contig s (p_cur s) (p_cache s) /\ cache_size s <= pc_size c.
Definition mine (s : shared) (f : option nat) (h : option N) : Prop := exists k v, f = Some k /\ h = Some v /\ task_idx s k v.

(** The mutex is held exactly at these points. *)
Definition crit (p : pc) : bool :=
  match p with
  | NextTest | MissRead | MissWrite _ | Front | PopFront _ | ReadInc _ | WriteInc _ _ | FillBounds _ | FillLoop _ _ _
  | DropNew _ _ | NextUnlock _ | NextUnlockMiss _ | NextUnwind _ | AvailTest | AvailPoll | AvailUnlock _ | IndexRead | IndexUnlock _ => true
  | Idle | NextLock | Build _ | Get _ | Unwind _ | AvailLock | AvailRet _ | IndexLock | IndexRet _ => false
  end.

Definition stage (c : pool_cfg) (s : shared) (p : pc) (h : option N) : Prop :=
  match p with
  | Idle | NextLock | AvailLock | AvailRet _ | IndexLock | IndexRet _ => h = None
  | NextTest | AvailTest | IndexRead | AvailUnlock _ | IndexUnlock _ => h = None /\ good c s
  | MissRead => h = None /\ good c s /\ p_cache s = []
  | MissWrite idx => h = None /\ good c s /\ p_cache s = [] /\ idx = p_cur s
  | Front | AvailPoll => h = None /\ good c s /\ p_cache s <> []
  | PopFront f => h = None /\ exists k rest, f = Some k /\ p_cache s = None :: rest /\ task_idx s k (p_cur s) /\
      contig s (u64 (p_cur s + 1)) rest /\ cache_size s <= pc_size c
  | ReadInc f => h = None /\ exists k, f = Some k /\ task_idx s k (p_cur s) /\
      contig s (u64 (p_cur s + 1)) (p_cache s) /\ cache_size s + 1 <= pc_size c
  | WriteInc f v => h = None /\ v = p_cur s /\ exists k, f = Some k /\ task_idx s k (p_cur s) /\
      contig s (u64 (p_cur s + 1)) (p_cache s) /\ cache_size s + 1 <= pc_size c
  | FillBounds f => mine s f h /\ good c s
  | FillLoop f i e => mine s f h /\ good c s /\
      (i < e -> i = u64 (p_cur s + cache_size s) /\ cache_size s + (e - i) <= pc_size c /\ e < 2 ^ 64)
  | DropNew f k => mine s f h /\ good c s /\ (k < length (p_tasks s))%nat
  | NextUnlock f | NextUnwind f => mine s f h /\ good c s
  | NextUnlockMiss idx => h = Some idx /\ good c s
  | Build idx => h = Some idx
  | Get f | Unwind f => mine s f h
  end.

Definition tasks_ok (c : pool_cfg) (s : shared) : Prop :=
  forall k i r, nth_error (p_tasks s) k = Some (mkTask i (Some r)) ->
    exists junk, r = prepareTree (pc_seed c) (pc_height c) junk i.

Fixpoint somes {A} (l : list (option A)) : list A :=
  match l with [] => [] | Some a :: r => a :: somes r | None :: r => somes r end.

Record Inv (c : pool_cfg) (tr : list label) (s : shared) (th : threads) : Prop := {
  I_tasks : tasks_ok c s;
  I_cur : p_cur s = u64 (pc_start c + N.of_nat (length (claimed tr)));
  I_claims : claimed tr = from64 (pc_start c) (length (claimed tr));
  I_lock : forall t, crit (th t) = true <-> p_lock s = Some t;
  I_free : p_lock s = None -> good c s;
  I_stage : forall t, stage c s (th t) (held tr t);
  I_perm : exists L, NoDup (map fst L) /\ (forall t v, held tr t = Some v <-> In (t, v) L) /\
     Permutation (claimed tr) (somes (map fst (answers tr)) ++ somes (lost tr) ++ map snd L);
  I_ans : forall h r, In (h, r) (answers tr) -> exists v junk, h = Some v /\ r = prepareTree (pc_seed c) (pc_height c) junk v
}.

(** ** Monotonicity *)
Definition le_tasks (s s' : shared) : Prop := forall k v, task_idx s k v -> task_idx s' k v.
Definition same_view (s s' : shared) : Prop :=
  p_cur s' = p_cur s /\ p_cache s' = p_cache s /\ (length (p_tasks s) <= length (p_tasks s'))%nat /\ le_tasks s s' /\
  (forall k, done s k -> done s' k).

Lemma contig_mono : forall s s' a l, le_tasks s s' -> contig s a l -> contig s' a l.
Proof. intros s s' a l H C n Hn. destruct (C n Hn) as (k & E & T). eauto. Qed.
Lemma good_mono : forall c s s', same_view s s' -> good c s -> good c s'.
Proof.
  intros c s s' (E1 & E2 & _ & H & _) (C & L). unfold good, cache_size in *. rewrite E1, E2. split; auto. eapply contig_mono; eauto.
Qed.
Lemma mine_mono : forall s s' f h, le_tasks s s' -> mine s f h -> mine s' f h.
Proof. intros s s' f h H (k & v & E & E' & T). exists k, v. auto. Qed.
Lemma stage_mono : forall c s s' p h, same_view s s' -> stage c s p h -> stage c s' p h.
Proof.
  intros c s s' p h V. pose proof V as (E1 & E2 & EL & H & HD). pose proof (good_mono c s s' V) as G.
  assert (CS : cache_size s' = cache_size s) by (unfold cache_size; now rewrite E2).
  destruct p; cbn [stage]; rewrite ?E1, ?E2, ?CS; try tauto.
  - intros (Hh & k & rest & ? & ? & ? & ? & ?). split; auto. exists k, rest. repeat split; auto. eapply contig_mono; eauto.
  - intros (Hh & k & ? & ? & ? & ?). split; auto. exists k. repeat split; auto. eapply contig_mono; eauto.
  - intros (Hh & ? & k & ? & ? & ? & ?). repeat split; auto. exists k. repeat split; auto. eapply contig_mono; eauto.
  - intros (? & ?). split; eauto using mine_mono.
  - intros (? & ? & ?). split; eauto using mine_mono.
  - intros (? & ? & ?). split; [eauto using mine_mono|]. split; [auto|lia].
  - intros (? & ?). split; eauto using mine_mono.
  - intros (? & ?). split; eauto using mine_mono.
  - eauto using mine_mono.
  - eauto using mine_mono.
Qed.
Lemma stage_noncrit : forall c s s' p h, crit p = false -> le_tasks s s' -> stage c s p h -> stage c s' p h.
Proof. intros c s s' p h Hc H. destruct p; cbn [stage crit] in *; try discriminate; auto; apply mine_mono; auto. Qed.

Lemma le_refl_tasks : forall s s', p_tasks s' = p_tasks s -> le_tasks s s'.
Proof. intros s s' E k v (r & H). exists r. now rewrite E. Qed.
Lemma le_add_task : forall s i, le_tasks s (add_task s i).
Proof.
  intros s i k v (r & H). exists r. cbn [add_task p_tasks]. rewrite nth_error_app1; auto. apply nth_error_Some. congruence.
Qed.
Lemma nth_error_upd : forall A (l : list A) i j a, nth_error (upd l i a) j =
  if (i =? j)%nat then (if (i <? length l)%nat then Some a else None) else nth_error l j.
Proof.
  induction l as [|x l IH]; intros [|i] [|j] a; cbn [upd nth_error length]; auto.
  - destruct (S i =? S j)%nat; reflexivity.
  - rewrite IH. cbn. destruct (i =? j)%nat; auto.
Qed.

Lemma done_add : forall s i k, done s k -> done (add_task s i) k.
Proof.
  intros s i k (j & r & E). exists j, r. cbn [add_task p_tasks]. rewrite nth_error_app1; auto. apply nth_error_Some. congruence.
Qed.
Lemma finish_view : forall c s s', finish c s s' -> same_view s s'.
Proof.
  intros c s s' (k & i & junk & E & ->). repeat split; cbn [p_tasks]; auto.
  - now rewrite upd_length.
  - intros k' v (r & H). unfold task_idx. cbn [p_tasks]. rewrite nth_error_upd. destruct (k =? k')%nat eqn:Ek.
    + apply Nat.eqb_eq in Ek. subst k'. rewrite (proj2 (Nat.ltb_lt _ _)) by (apply nth_error_Some; congruence).
      assert (v = i) by congruence. subst. eauto.
    + eauto.
  - intros k' (j & r & H). unfold done. cbn [p_tasks]. rewrite nth_error_upd. destruct (k =? k')%nat eqn:Ek; [|eauto].
    apply Nat.eqb_eq in Ek. subst k'. congruence.
Qed.

(** ** Traces *)
Lemma claimed_app : forall a b, claimed (a ++ b) = claimed a ++ claimed b.
Proof. induction a as [|l a IH]; intros b; auto. destruct l; cbn [claimed app]; rewrite ?IH; auto. Qed.
Lemma held_app : forall a l, held (a ++ [l]) = holds l (held a).
Proof. intros. unfold held. now rewrite fold_left_app. Qed.
Lemma answers_from_app : forall a h b, answers_from h (a ++ b) = answers_from h a ++ answers_from (fold_left (fun h l => holds l h) a h) b.
Proof. induction a as [|l a IH]; intros h b; auto. cbn [answers_from app fold_left]. now rewrite IH, app_assoc. Qed.
Lemma answers_app : forall a l, answers (a ++ [l]) = answers a ++ answer l (held a).
Proof. intros. unfold answers. rewrite answers_from_app. cbn [answers_from]. now rewrite app_nil_r. Qed.
Lemma lost_from_app : forall a h b, lost_from h (a ++ b) = lost_from h a ++ lost_from (fold_left (fun h l => holds l h) a h) b.
Proof. induction a as [|l a IH]; intros h b; auto. cbn [lost_from app fold_left]. now rewrite IH, app_assoc. Qed.
Lemma lost_app : forall a l, lost (a ++ [l]) = lost a ++ lost_by l (held a).
Proof. intros. unfold lost. rewrite lost_from_app. cbn [lost_from]. now rewrite app_nil_r. Qed.
Lemma somes_app : forall A (a b : list (option A)), somes (a ++ b) = somes a ++ somes b.
Proof. induction a as [|[x|] a IH]; intros; cbn [somes app]; rewrite ?IH; auto. Qed.

Lemma from64_S : forall a n, from64 a (S n) = from64 a n ++ [u64 (a + N.of_nat n)].
Proof. intros. unfold from64. rewrite seq_S, map_app. reflexivity. Qed.

(** Labels that change neither claims nor answers. *)
Definition quiet (l : label) : Prop :=
  match l with Claim _ _ | RetNext _ _ | ThrowNext _ | CallNext _ => False | _ => True end.

Definition trace_part (c : pool_cfg) (tr : list label) : Prop :=
  (claimed tr = from64 (pc_start c) (length (claimed tr))) /\
  (exists L, NoDup (map fst L) /\ (forall t v, held tr t = Some v <-> In (t, v) L) /\
     Permutation (claimed tr) (somes (map fst (answers tr)) ++ somes (lost tr) ++ map snd L)) /\
  (forall h r, In (h, r) (answers tr) -> exists v junk, h = Some v /\ r = prepareTree (pc_seed c) (pc_height c) junk v).

Lemma trace_quiet : forall c tr l, quiet l -> trace_part c tr ->
  trace_part c (tr ++ [l]) /\ claimed (tr ++ [l]) = claimed tr /\ held (tr ++ [l]) = held tr.
Proof.
  intros c tr l Q H. unfold trace_part. rewrite answers_app, lost_app, held_app, claimed_app.
  destruct l; cbn [quiet] in Q; try tauto; cbn [answer lost_by holds claimed]; rewrite !app_nil_r; auto.
Qed.
Lemma trace_call : forall c tr t, trace_part c tr -> held tr t = None ->
  trace_part c (tr ++ [CallNext t]) /\ claimed (tr ++ [CallNext t]) = claimed tr /\ (forall u, held (tr ++ [CallNext t]) u = held tr u).
Proof.
  intros c tr t (H1 & (L & HL1 & HL2 & HL3) & H3) Ht.
  assert (Hh : forall u, held (tr ++ [CallNext t]) u = held tr u).
  { intros u. rewrite held_app. cbn [holds]. destruct (u =? t)%nat eqn:E; auto. apply Nat.eqb_eq in E. now subst. }
  split; [|split; auto].
  - unfold trace_part. rewrite answers_app, lost_app, claimed_app. cbn [answer lost_by claimed]. rewrite !app_nil_r.
    repeat split; auto. exists L. repeat split; auto; rewrite Hh; apply HL2.
  - rewrite claimed_app. cbn [claimed]. apply app_nil_r.
Qed.
Lemma trace_claim : forall c tr t v, trace_part c tr -> held tr t = None -> v = u64 (pc_start c + N.of_nat (length (claimed tr))) ->
  trace_part c (tr ++ [Claim t v]).
Proof.
  intros c tr t v (H1 & (L & HL1 & HL2 & HL3) & H3) Ht Ev.
  unfold trace_part. rewrite answers_app, lost_app, claimed_app, held_app. cbn [answer lost_by claimed holds]. rewrite !app_nil_r.
  split.
  { rewrite app_length. cbn [length]. rewrite Nat.add_1_r, from64_S, <- H1. now subst v. }
  split; [|exact H3].
  exists ((t, v) :: L). cbn [map fst snd]. split.
  { constructor; auto. intros Hin. apply in_map_iff in Hin. destruct Hin as ((t' & v') & E & Hin). cbn in E. subst t'.
    apply HL2 in Hin. congruence. }
  split.
  { intros u x. destruct (u =? t)%nat eqn:E.
    - apply Nat.eqb_eq in E. subst u. cbn [In]. split.
      + intros Eq. injection Eq as <-. now left.
      + intros [Eq|Hin]; [congruence|]. apply HL2 in Hin. congruence.
    - apply Nat.eqb_neq in E. rewrite HL2. cbn [In]. split; auto. intros [Eq|]; auto. congruence. }
  rewrite Permutation_app_comm. cbn [app]. rewrite HL3, !app_assoc. apply Permutation_middle.
Qed.
Lemma remove_in : forall (L : list (nat * N)) t v, NoDup (map fst L) -> In (t, v) L ->
  exists L', NoDup (map fst L') /\ (forall u x, In (u, x) L' <-> In (u, x) L /\ u <> t) /\ Permutation L ((t, v) :: L').
Proof.
  intros L t v HN Hin. apply in_split in Hin. destruct Hin as (A & B & ->). exists (A ++ B).
  rewrite map_app in HN. cbn [map fst] in HN. pose proof (NoDup_remove_1 _ _ _ HN) as N1. pose proof (NoDup_remove_2 _ _ _ HN) as N2.
  rewrite <- map_app in N1, N2. split; auto. split.
  - intros u x. rewrite !in_app_iff. cbn [In]. split.
    + intros H. assert (u <> t).
      { intros ->. apply N2. apply in_map_iff. exists (t, x). split; auto. now apply in_app_iff. }
      tauto.
    + intros [[H|[H|H]] Hne]; auto. congruence.
  - symmetry. apply Permutation_middle.
Qed.
Lemma trace_ret : forall c tr t v junk, trace_part c tr -> held tr t = Some v ->
  trace_part c (tr ++ [RetNext t (prepareTree (pc_seed c) (pc_height c) junk v)]).
Proof.
  intros c tr t v junk (H1 & (L & HL1 & HL2 & HL3) & H3) Ht.
  unfold trace_part. rewrite answers_app, lost_app, claimed_app, held_app. cbn [answer lost_by claimed holds]. rewrite !app_nil_r.
  split; auto. pose proof (proj1 (HL2 t v) Ht) as Hin. destruct (remove_in L t v HL1 Hin) as (L' & N' & I' & P').
  split.
  - exists L'. split; auto. split.
    + intros u x. rewrite I', <- HL2. destruct (u =? t)%nat eqn:E.
      * apply Nat.eqb_eq in E. subst. split; [discriminate|tauto].
      * apply Nat.eqb_neq in E. tauto.
    + rewrite map_app, somes_app, Ht. cbn [map fst somes]. rewrite HL3, P'. cbn [map snd].
      rewrite <- !app_assoc. cbn [app]. apply Permutation_app_head. symmetry. apply Permutation_middle.
  - intros h r Hin'. apply in_app_iff in Hin'. destruct Hin' as [|[E|[]]]; auto. injection E as <- <-. eauto.
Qed.
Lemma trace_throw : forall c tr t v, trace_part c tr -> held tr t = Some v -> trace_part c (tr ++ [ThrowNext t]).
Proof.
  intros c tr t v (H1 & (L & HL1 & HL2 & HL3) & H3) Ht.
  unfold trace_part. rewrite answers_app, lost_app, claimed_app, held_app. cbn [answer lost_by claimed holds]. rewrite !app_nil_r.
  split; auto. pose proof (proj1 (HL2 t v) Ht) as Hin. destruct (remove_in L t v HL1 Hin) as (L' & N' & I' & P').
  split; auto.
  exists L'. split; auto. split.
  - intros u x. rewrite I', <- HL2. destruct (u =? t)%nat eqn:E.
    + apply Nat.eqb_eq in E. subst. split; [discriminate|tauto].
    + apply Nat.eqb_neq in E. tauto.
  - rewrite somes_app, Ht. cbn [somes]. rewrite HL3, P'. cbn [map snd].
    rewrite <- !app_assoc. cbn [app]. apply Permutation_app_head, Permutation_app_head. reflexivity.
Qed.

(** ** The invariant holds *)
Lemma u64_small : forall x, x < 2 ^ 64 -> u64 x = x.
Proof. intros. unfold u64. now apply N.mod_small. Qed.
Lemma u64_lt : forall x, u64 x < 2 ^ 64.
Proof. intros. unfold u64. apply N.mod_lt. discriminate. Qed.
Lemma u64_add : forall a b, u64 (u64 a + b) = u64 (a + b).
Proof. intros. unfold u64. rewrite N.add_mod_idemp_l by discriminate. reflexivity. Qed.

Lemma init_inv : forall c, pool_ok c -> Inv c [] (fst (init_pool c)) (snd (init_pool c)).
Proof.
  intros c (Hs & Hz). cbn [init_pool fst snd].
  assert (HL : N.of_nat (length (init_range c)) <= pc_size c).
  { unfold init_range. cbv zeta. rewrite map_length, seq_length. rewrite N2Nat.id.
    unfold u64. destruct (N.lt_ge_cases (pc_start c + pc_size c) (2 ^ 64)).
    - rewrite N.mod_small by auto. lia.
    - rewrite <- (N.mod_unique (pc_start c + pc_size c) (2 ^ 64) 1 (pc_start c + pc_size c - 2 ^ 64)) by lia. lia. }
  assert (HE : pc_start c + N.of_nat (length (init_range c)) <= 2 ^ 64).
  { unfold init_range. cbv zeta. rewrite map_length, seq_length. rewrite N2Nat.id.
    pose proof (u64_lt (pc_start c + pc_size c)). lia. }
  assert (G : good c (mkShared (pc_start c) (map Some (seq 0 (length (init_range c)))) None (map (fun i => mkTask i None) (init_range c)))).
  { split; cbn [p_cur p_cache].
    - intros n Hn. rewrite map_length, seq_length in Hn. exists n. split.
      + rewrite nth_error_map, nth_error_nth' with (d := 0%nat) by (rewrite seq_length; lia). rewrite seq_nth by lia. reflexivity.
      + exists None. cbn [p_tasks]. rewrite nth_error_map. unfold init_range in *. cbv zeta in *. rewrite map_length, seq_length in *.
        rewrite nth_error_map, nth_error_nth' with (d := 0%nat) by (rewrite seq_length; lia). rewrite seq_nth by lia. cbn [option_map].
        rewrite u64_small by lia. do 3 f_equal. 
    - unfold cache_size. cbn [p_cache]. now rewrite map_length, seq_length. }
  constructor; cbn [claimed answers lost held fold_left].
  - intros k i r H. cbn [p_tasks] in H. rewrite nth_error_map in H. destruct (nth_error (init_range c) k); discriminate.
  - cbn [p_cur length]. rewrite N.add_0_r. now rewrite u64_small.
  - reflexivity.
  - intros t. cbn. split; discriminate.
  - auto.
  - intros t. reflexivity.
  - exists []. cbn. repeat split; try constructor; try discriminate; tauto.
  - intros h r [].
Qed.

Lemma upd_thread_same : forall th t p, upd_thread th t p t = p.
Proof. intros. unfold upd_thread. now rewrite Nat.eqb_refl. Qed.
Lemma upd_thread_other : forall th t p u, u <> t -> upd_thread th t p u = th u.
Proof. intros. unfold upd_thread. now apply Nat.eqb_neq in H as ->. Qed.

(** Steps that change the shared data are made by the thread that has the lock
    or takes it. *)
Lemma crit_step : forall c t s p l s' p', tstep c t s p l s' p' ->
  crit p = false -> p_lock s = None /\ crit p' = true /\ s' = set_lock s (Some t) \/ s' = s /\ crit p' = false.
Proof. intros c t s p l s' p' H Hc. destruct H; cbn [crit] in *; try discriminate; auto. Qed.
Lemma crit_step2 : forall c t s p l s' p', tstep c t s p l s' p' ->
  crit p = true -> (crit p' = true /\ p_lock s' = p_lock s) \/ (crit p' = false /\ (p_lock s' = None \/ exists u, l = Undefined u)).
Proof. intros c t s p l s' p' H Hc. destruct H; cbn [crit] in *; try discriminate; eauto. Qed.

Lemma tstep_tasks : forall c t s p l s' p', tstep c t s p l s' p' -> le_tasks s s'.
Proof.
  intros c t s p l s' p' H. destruct H; try (apply le_refl_tasks; reflexivity); try apply le_add_task.
Qed.
Lemma tstep_tasks_ok : forall c t s p l s' p', tstep c t s p l s' p' -> tasks_ok c s -> tasks_ok c s'.
Proof.
  assert (A : forall c s i, tasks_ok c s -> tasks_ok c (add_task s i)).
  { intros c s i H k j r E. cbn [add_task p_tasks] in E. destruct (Nat.lt_ge_cases k (length (p_tasks s))).
    - rewrite nth_error_app1 in E by auto. eauto.
    - rewrite nth_error_app2 in E by auto. destruct (k - length (p_tasks s))%nat as [|[]]; cbn in E; discriminate. }
  intros c t s p l s' p' H HT. destruct H; try exact HT; try (apply A; exact HT).
Qed.

(** The moving thread: its stage after the step, and the data when it releases. *)
Lemma own_step : forall c t s p l s' p' tr, pool_ok c -> tstep c t s p l s' p' -> tasks_ok c s ->
  p_cur s = u64 (pc_start c + N.of_nat (length (claimed tr))) ->
  (p_lock s = None -> good c s) ->
  stage c s p (held tr t) -> trace_part c tr ->
  (forall u, l <> Undefined u) /\ trace_part c (tr ++ [l]) /\
  stage c s' p' (held (tr ++ [l]) t) /\ (crit p = true -> crit p' = false -> good c s') /\
  p_cur s' = u64 (pc_start c + N.of_nat (length (claimed (tr ++ [l])))) /\
  (forall u, u <> t -> held (tr ++ [l]) u = held tr u).
Proof.
  intros c t s p l s' p' tr HP H HT Hcur Hfree HS HTr.
  assert (Q : forall l, quiet l -> trace_part c (tr ++ [l]) /\ claimed (tr ++ [l]) = claimed tr /\ held (tr ++ [l]) = held tr)
    by (intros; now apply trace_quiet).
  assert (W : forall P : Prop, (quiet l -> P) -> quiet l -> P) by auto.
  assert (Hu : p_cur s < 2 ^ 64) by (rewrite Hcur; apply u64_lt).
  destruct H; cbn [stage crit] in *;
    try (destruct (Q Tau I) as (Q1 & Q2 & Q3); rewrite Q2, Q3);
    try (split; [discriminate|split; [exact Q1|]]).
  - (* call next *)
    destruct (trace_call c tr t HTr HS) as (T1 & T2 & T3). rewrite T2.
    split; [discriminate|]. split; [exact T1|]. split; [rewrite T3; exact HS|]. split; [discriminate|]. split; auto.
  - repeat split; auto; try apply Hfree; auto.
  - repeat split; auto; try apply HS; try discriminate.
  - repeat split; auto; try apply HS; try discriminate.
  - repeat split; auto; try apply HS; try discriminate.
  - (* miss write *)
    destruct HS as (Hh & HG & HE & ->).
    assert (T := trace_claim c tr t (p_cur s) HTr Hh Hcur).
    split; [discriminate|]. split; [exact T|].
    assert (G' : good c (set_cur s (u64 (p_cur s + 1)))).
    { destruct HG as (HC & HL). split; cbn [set_cur p_cur p_cache cache_size].
      - rewrite HE. intros n Hn. cbn in Hn. lia.
      - unfold cache_size in *. cbn [set_cur p_cache]. exact HL. }
    rewrite held_app. cbn [holds]. rewrite Nat.eqb_refl.
    repeat split; try apply G'; auto.
    + rewrite claimed_app, app_length. cbn [claimed length set_cur p_cur]. rewrite Hcur, u64_add. f_equal. lia.
    + intros u Hne. apply Nat.eqb_neq in Hne. now rewrite Hne.
  - (* front *)
    destruct HS as (Hh & (HC & HL) & HE). rewrite H in HC.
    destruct (HC 0%nat) as (k & Ek & Tk); [cbn; lia|]. cbn in Ek. injection Ek as ->.
    rewrite N.add_0_r, u64_small in Tk by auto.
    repeat split; auto; try discriminate. exists k, rest. repeat split; auto.
    + intros n Hn. destruct (HC (S n)) as (k' & Ek' & Tk'); [cbn; lia|]. exists k'. split; auto.
      cbn [set_cache p_cur] in *. rewrite u64_add. replace (p_cur s + 1 + N.of_nat n) with (p_cur s + N.of_nat (S n)) by lia. exact Tk'.
    + unfold cache_size in *. rewrite H in HL. exact HL.
  - destruct HS as (_ & _ & HE). congruence.
  - (* pop *)
    destruct HS as (Hh & k & rest' & -> & HE & Tk & HC & HL). rewrite HE in H. injection H as <- <-.
    repeat split; auto; try discriminate. exists k. repeat split; auto.
    unfold cache_size in *. rewrite HE in HL. cbn [set_cache p_cache length] in *. lia.
  - destruct HS as (_ & k & rest' & _ & HE & _). congruence.
  - repeat split; auto; try apply HS; try discriminate.
  - (* write inc *)
    destruct HS as (Hh & -> & k & -> & Tk & HC & HL).
    assert (T := trace_claim c tr t (p_cur s) HTr Hh Hcur).
    split; [discriminate|]. split; [exact T|].
    rewrite held_app. cbn [holds]. rewrite Nat.eqb_refl.
    split.
    { split; [exists k, (p_cur s); auto|]. split; [exact HC|]. unfold cache_size in *. cbn [set_cur p_cache]. lia. }
    split; [discriminate|]. split.
    + rewrite claimed_app, app_length. cbn [claimed length set_cur p_cur]. rewrite Hcur, u64_add. f_equal. lia.
    + intros u Hne. apply Nat.eqb_neq in Hne. now rewrite Hne.
  - (* fill bounds *)
    destruct HS as (HM & HG). split; [|split; [discriminate|split; auto]].
    split; [exact HM|]. split; [exact HG|]. intros HL. pose proof (u64_lt (p_cur s + pc_size c)) as HE.
    split; [reflexivity|]. split; [|exact HE].
    destruct HG as (_ & HL'). destruct HP as (_ & HP).
    set (a := p_cur s) in *. set (n := cache_size s) in *. set (z := pc_size c) in *. clearbody a n z.
    unfold u64 in *.
    destruct (N.lt_ge_cases (a + z) (2 ^ 64)).
    + rewrite !N.mod_small in * by lia. lia.
    + rewrite <- (N.mod_unique (a + z) (2 ^ 64) 1 (a + z - 2 ^ 64)) in * by lia.
      destruct (N.lt_ge_cases (a + n) (2 ^ 64)).
      * rewrite N.mod_small in * by lia. lia.
      * rewrite <- (N.mod_unique (a + n) (2 ^ 64) 1 (a + n - 2 ^ 64)) in * by lia. lia.
  - repeat split; auto; try apply HS; try discriminate.
  - (* push *)
    destruct HS as (HM & (HC & HL) & HF). destruct (HF H) as (Ei & HB & He).
    assert (V : le_tasks s (set_cache (add_task s i) (p_cache s ++ [Some (length (p_tasks s))]))).
    { intros k v Tk. exact (le_add_task s i k v Tk). }
    assert (CS : cache_size (set_cache (add_task s i) (p_cache s ++ [Some (length (p_tasks s))])) = cache_size s + 1).
    { unfold cache_size. cbn [set_cache p_cache]. rewrite app_length. cbn [length]. lia. }
    split.
    { split; [now apply (mine_mono s)|]. split.
      - split; [|rewrite CS; lia]. cbn [set_cache p_cache p_cur add_task]. intros n Hn. rewrite app_length in Hn. cbn [length] in Hn.
        destruct (Nat.lt_ge_cases n (length (p_cache s))) as [Hlt|Hge].
        + destruct (HC n Hlt) as (k & Ek & Tk). exists k. rewrite nth_error_app1 by auto. split; [auto|now apply V].
        + assert (n = length (p_cache s)) by lia. subst n. exists (length (p_tasks s)). split.
          * now rewrite nth_error_app2, Nat.sub_diag by lia.
          * exists None. cbn [set_cache add_task p_tasks]. rewrite nth_error_app2, Nat.sub_diag by lia. cbn [nth_error]. do 2 f_equal. exact Ei.
      - intros Hlt. rewrite CS. cbn [set_cache add_task p_cur]. split; [|lia].
        rewrite N.add_assoc, <- (u64_add (p_cur s + cache_size s)), <- Ei, u64_small by lia. reflexivity. }
    split; [discriminate|]. split; auto.
  - destruct (Q (LaunchFail t) I) as (Q1 & Q2 & Q3). rewrite Q2, Q3. split; [discriminate|]. split; [exact Q1|]. repeat split; auto; try apply HS; try discriminate.
  - (* push_back fails *)
    destruct (Q (LaunchFail t) I) as (Q1 & Q2 & Q3). rewrite Q2, Q3. split; [discriminate|]. split; auto.
    destruct HS as (HM & HG & _).
    assert (V : same_view s (add_task s i)).
    { split; [reflexivity|]. split; [reflexivity|]. split; [cbn [add_task p_tasks]; rewrite app_length; lia|]. split; [apply le_add_task|apply done_add]. }
    split; [|split; [discriminate|split; auto]].
    split; [eapply mine_mono; [apply le_add_task|exact HM]|]. split; [exact (good_mono c s _ V HG)|].
    cbn [add_task p_tasks]. rewrite app_length. cbn [length]. lia.
  - repeat split; auto; try apply HS; try discriminate.
  - destruct HS as (HM & HG). repeat split; auto; apply HG.
  - destruct HS as (HM & HG). repeat split; auto; apply HG.
  - destruct HS as (HM & HG). repeat split; auto; apply HG.
  - (* build *)
    assert (T := trace_ret c tr t idx junk HTr HS). split; [discriminate|]. split; [exact T|].
    rewrite held_app, claimed_app. cbn [holds claimed]. rewrite Nat.eqb_refl, app_nil_r. repeat split; auto; try discriminate.
    intros u Hne. apply Nat.eqb_neq in Hne. now rewrite Hne.
  - (* get *)
    destruct HS as (k' & v & Ek & Eh & (r' & Tk)). injection Ek as <-. rewrite H in Tk. injection Tk as -> <-.
    destruct (HT k v r H) as (junk & ->).
    assert (T := trace_ret c tr t v junk HTr Eh). split; [discriminate|]. split; [exact T|].
    rewrite held_app, claimed_app. cbn [holds claimed]. rewrite Nat.eqb_refl, app_nil_r. repeat split; auto; try discriminate.
    intros u Hne. apply Nat.eqb_neq in Hne. now rewrite Hne.
  - destruct HS as (k' & v & Ek & _). discriminate.
  - (* throw *)
    destruct HS as (k' & v & Ek & Eh & _).
    assert (T := trace_throw c tr t v HTr Eh). split; [discriminate|]. split; [exact T|].
    rewrite held_app, claimed_app. cbn [holds claimed]. rewrite Nat.eqb_refl, app_nil_r. repeat split; auto; try discriminate.
    intros u Hne. apply Nat.eqb_neq in Hne. now rewrite Hne.
  - destruct HS as (k' & v & Ek & _). discriminate.
  - destruct (Q (CallAvail t) I) as (Q1 & Q2 & Q3). rewrite Q2, Q3. split; [discriminate|]. split; [exact Q1|]. repeat split; auto; discriminate.
  - repeat split; auto; try apply Hfree; auto.
  - destruct (Q (ReadAvail t false) I) as (Q1 & Q2 & Q3). rewrite Q2, Q3. split; [discriminate|]. split; [exact Q1|]. repeat split; auto; try discriminate; apply HS.
  - repeat split; auto; try apply HS; try discriminate.
  - destruct HS as (_ & _ & HE). congruence.
  - destruct HS as (_ & (HC & _) & HE). rewrite H in HC. destruct (HC 0%nat) as (k & Ek & _); [cbn; lia|]. discriminate.
  - destruct (Q (ReadAvail t true) I) as (Q1 & Q2 & Q3). rewrite Q2, Q3. split; [discriminate|]. split; [exact Q1|]. repeat split; auto; try discriminate; apply HS.
  - destruct (Q (ReadAvail t false) I) as (Q1 & Q2 & Q3). rewrite Q2, Q3. split; [discriminate|]. split; [exact Q1|]. repeat split; auto; try discriminate; apply HS.
  - repeat split; auto; try apply HS; try discriminate.
  - destruct (Q (RetAvail t b) I) as (Q1 & Q2 & Q3). rewrite Q2, Q3. split; [discriminate|]. split; [exact Q1|]. repeat split; auto; try discriminate; apply HS.
  - destruct (Q (CallIndex t) I) as (Q1 & Q2 & Q3). rewrite Q2, Q3. split; [discriminate|]. split; [exact Q1|]. repeat split; auto; discriminate.
  - repeat split; auto; try apply Hfree; auto.
  - destruct (Q (ReadIndex t (p_cur s)) I) as (Q1 & Q2 & Q3). rewrite Q2, Q3. split; [discriminate|]. split; [exact Q1|]. repeat split; auto; try discriminate; apply HS.
  - repeat split; auto; try apply HS; try discriminate.
  - destruct (Q (RetIndex t v) I) as (Q1 & Q2 & Q3). rewrite Q2, Q3. split; [discriminate|]. split; [exact Q1|]. repeat split; auto; try discriminate; apply HS.
Qed.

Lemma step_inv : forall c tr x l y, pool_ok c -> Inv c tr (fst x) (snd x) -> pstep c x l y ->
  (forall u, l <> Undefined u) /\ Inv c (tr ++ [l]) (fst y) (snd y).
Proof.
  intros c tr x l y HP HI HS. destruct HI as [HT Hcur Hcl Hlk Hfr Hst Hpm Han].
  assert (HTr : trace_part c tr) by (split; auto).
  destruct HS as [s th t l s' p' HS|s th s' HS]; cbn [fst snd] in *.
  - destruct (own_step c t s (th t) l s' p' tr HP HS HT Hcur Hfr (Hst t) HTr) as (HU & (T1 & T2 & T3) & HS1 & HG & HC & HH).
    split; auto.
    constructor; auto.
    + eapply tstep_tasks_ok; eauto.
    + (* lock *)
      intros u. destruct (Nat.eq_dec u t) as [->|Hne].
      * rewrite upd_thread_same. destruct (crit (th t)) eqn:Ec.
        -- pose proof (proj1 (Hlk t) Ec) as El. destruct (crit_step2 _ _ _ _ _ _ _ HS Ec) as [(C1 & C2)|(C1 & [C2|(w & C2)])].
           ++ rewrite C1, C2. tauto. ++ rewrite C1, C2. split; discriminate. ++ elim (HU w C2).
        -- destruct (crit_step _ _ _ _ _ _ _ HS Ec) as [(C0 & C1 & ->)|(-> & C1)].
           ++ rewrite C1. cbn. tauto. ++ rewrite C1. rewrite <- Hlk. rewrite Ec. tauto.
      * rewrite upd_thread_other by auto. rewrite Hlk. destruct (crit (th t)) eqn:Ec.
        -- pose proof (proj1 (Hlk t) Ec) as El. destruct (crit_step2 _ _ _ _ _ _ _ HS Ec) as [(C1 & C2)|(C1 & [C2|(w & C2)])].
           ++ rewrite C2. tauto. ++ rewrite C2, El. split; [|discriminate]. intros E. congruence. ++ elim (HU w C2).
        -- destruct (crit_step _ _ _ _ _ _ _ HS Ec) as [(C0 & C1 & ->)|(-> & C1)].
           ++ rewrite C0. cbn. split; [discriminate|]. intros E. congruence. ++ tauto.
    + (* free *)
      intros Hn. destruct (crit (th t)) eqn:Ec.
      * pose proof (proj1 (Hlk t) Ec) as El. destruct (crit_step2 _ _ _ _ _ _ _ HS Ec) as [(C1 & C2)|(C1 & _)]; [congruence|auto].
      * destruct (crit_step _ _ _ _ _ _ _ HS Ec) as [(C0 & C1 & ->)|(-> & C1)]; [discriminate|auto].
    + (* stages *)
      intros u. destruct (Nat.eq_dec u t) as [->|Hne]; [now rewrite upd_thread_same|].
      rewrite upd_thread_other, HH by auto. destruct (crit (th u)) eqn:Eu.
      * pose proof (proj1 (Hlk u) Eu) as El. destruct (crit (th t)) eqn:Ec.
        { pose proof (proj1 (Hlk t) Ec). congruence. }
        destruct (crit_step _ _ _ _ _ _ _ HS Ec) as [(C0 & C1 & ->)|(-> & C1)]; [congruence|apply Hst].
      * eapply stage_noncrit; eauto. eapply tstep_tasks; eauto.
  - pose proof (finish_view _ _ _ HS) as V. pose proof V as (V1 & V2 & V3 & V4 & V5).
    destruct (trace_quiet c tr Tau I HTr) as ((T1 & T2 & T3) & Q2 & Q3).
    assert (VL : p_lock s' = p_lock s) by (destruct HS as (? & ? & ? & _ & ->); reflexivity).
    split; [discriminate|]. constructor; auto.
    + destruct HS as (k & i & junk & Ek & ->). intros k' i' r' E. cbn [p_tasks] in E. rewrite nth_error_upd in E.
      destruct (k =? k')%nat; [|eauto]. destruct (k <? length (p_tasks s))%nat; [|discriminate]. injection E as <- <-. eauto.
    + now rewrite Q2, V1.
    + now rewrite VL.
    + rewrite VL. intros Hn. eapply good_mono; eauto.
    + intros t. rewrite Q3. eapply stage_mono; eauto.
Qed.

Theorem exec_inv : forall c tr x, pool_ok c -> exec c tr x -> Inv c tr (fst x) (snd x).
Proof.
  intros c tr x HP H. induction H; [now apply init_inv|]. eapply step_inv; eauto.
Qed.
