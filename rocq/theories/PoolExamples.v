(** Concrete executions: the hypotheses of the pool theorems can be met. *)
From Coq Require Import List NArith Arith Lia Bool.
From Verif Require Import Base Bytes XmssObj Pool SpecPool PoolInv PropPool PropPool2.
Import ListNotations.
Open Scope N_scope.

Definition ex_cfg : pool_cfg := mkCfgP (repeat 7 48) 4 5 1.
Lemma ex_ok : pool_ok ex_cfg.
Proof. split; reflexivity. Qed.
Lemma go : forall c tr s th t p l s' p', exec c tr (s, th) -> th t = p -> tstep c t s p l s' p' ->
  exec c (tr ++ [l]) (s', upd_thread th t p').
Proof. intros. eapply ex_step; [eassumption|]. apply ps_thread. congruence. Qed.
Lemma fin : forall c tr s th k i, exec c tr (s, th) -> nth_error (p_tasks s) k = Some (mkTask i None) ->
  exec c (tr ++ [Tau]) (mkShared (p_cur s) (p_cache s) (p_lock s)
    (upd (p_tasks s) k (mkTask i (Some (prepareTree (pc_seed c) (pc_height c) [] i)))), th).
Proof. intros. eapply ex_step; [eassumption|]. apply ps_task. exists k, i, []. auto. Qed.
Ltac fold_state H := cbn [set_lock set_cur set_cache add_task p_cur p_cache p_lock p_tasks length app upd u64 cache_size] in H.
Ltac step H u r := eapply go with (t := u) in H; [|reflexivity|eapply r; try reflexivity; try discriminate]; fold_state H.
Ltac task H j := eapply fin with (k := j) in H; [|reflexivity]; fold_state H.

Lemma ex_init_state : exec ex_cfg [] (mkShared 5 [Some 0%nat] None [mkTask 5 None], fun _ => Idle).
Proof. exact (ex_init ex_cfg). Qed.

(** Two calls overlap; the second claimant returns first; isAvailable sees the front first
    not ready, then ready. *)
Example pool_two_threads : exists tr x, exec ex_cfg tr x /\
  claimed tr = [5; 6] /\ map fst (answers tr) = [Some 6; Some 5] /\ lost tr = [] /\
  In (RetAvail 2 false) tr /\ In (RetAvail 2 true) tr /\ In (RetIndex 2 7) tr /\
  (forall t, snd x t = Idle) /\ p_lock (fst x) = None /\ length (p_cache (fst x)) = 1%nat.
Proof.
  pose proof ex_init_state as H.
  step H 2%nat st_call_avail. step H 2%nat st_lock_avail. step H 2%nat st_avail_full.
  eapply go with (t := 2%nat) in H; [|reflexivity|eapply st_poll_no; [reflexivity|intros (i & r & E); discriminate E]]. fold_state H.
  step H 2%nat st_unlock_avail. step H 2%nat st_ret_avail.
  step H 0%nat st_call_next. step H 1%nat st_call_next.
  step H 0%nat st_lock_next. step H 0%nat st_test_full. step H 0%nat st_front. step H 0%nat st_pop.
  step H 0%nat st_read_inc. step H 0%nat st_write_inc. step H 0%nat st_fill_bounds. step H 0%nat st_fill_push.
  step H 0%nat st_fill_end. step H 0%nat st_unlock.
  task H 1%nat.
  step H 2%nat st_call_avail. step H 2%nat st_lock_avail. step H 2%nat st_avail_full.
  eapply go with (t := 2%nat) in H; [|reflexivity|eapply st_poll_yes; [reflexivity|do 2 eexists; reflexivity]]. fold_state H.
  step H 2%nat st_unlock_avail. step H 2%nat st_ret_avail.
  step H 1%nat st_lock_next. step H 1%nat st_test_full. step H 1%nat st_front. step H 1%nat st_pop.
  step H 1%nat st_read_inc. step H 1%nat st_write_inc. step H 1%nat st_fill_bounds. step H 1%nat st_fill_push.
  step H 1%nat st_fill_end. step H 1%nat st_unlock. step H 1%nat st_get.
  task H 0%nat. step H 0%nat st_get.
  step H 2%nat st_call_index. step H 2%nat st_lock_index. step H 2%nat st_read_index. step H 2%nat st_unlock_index. step H 2%nat st_ret_index.
  eexists _, _. split; [exact H|]. cbn [app]. split; [reflexivity|]. split; [reflexivity|]. split; [reflexivity|].
  split; [cbn [In]; tauto|]. split; [cbn [In]; tauto|]. split; [cbn [In]; tauto|].
  split; [|split; reflexivity]. intros t. cbn [snd]. destruct t as [|[|[|t]]]; reflexivity.
Qed.

(** A failed launch with pool_size 1: the index is lost and the cache is empty for good. *)
Example pool_launch_failure : exists tr x, exec ex_cfg tr x /\
  claimed tr = [5] /\ answers tr = [] /\ lost tr = [Some 5] /\ failures tr = 1%nat /\
  (forall t, snd x t = Idle) /\ p_lock (fst x) = None /\ p_cache (fst x) = [] /\ 0 < pc_size ex_cfg.
Proof.
  pose proof ex_init_state as H.
  step H 0%nat st_call_next.
  step H 0%nat st_lock_next. step H 0%nat st_test_full. step H 0%nat st_front. step H 0%nat st_pop.
  step H 0%nat st_read_inc. step H 0%nat st_write_inc. step H 0%nat st_fill_bounds. step H 0%nat st_fill_fail.
  step H 0%nat st_unwind. task H 0%nat.
  eapply go with (t := 0%nat) in H; [|reflexivity|eapply st_throw; do 2 eexists; reflexivity]. fold_state H.
  eexists _, _. split; [exact H|]. repeat (split; [reflexivity|]). split; [|repeat split; reflexivity].
  intros t. cbn [snd]. destruct t as [|t]; reflexivity.
Qed.
