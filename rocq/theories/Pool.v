(** Model of src/qrl/xmssPool.{h,cpp}: an XmssPool shared by any number of
    threads, as a transition system.

    One step is one access to the shared members (_current_index, _cache, _mutex),
    one completion of a background task, or one call/return at the API.  Between
    two steps of a thread any number of steps of other threads and of background
    tasks can happen.  The constructor (xmssPool.cpp:10-17) runs before the object
    is shared; if launching a task fails there, no pool exists. *)
From Coq Require Import List NArith Arith Lia Bool.
From Verif Require Import Base Bytes Keccak HashAddress XmssObj.
Import ListNotations.
Open Scope N_scope.

(** ** prepareTree, xmssPool.cpp:74-91 *)

(** xmssPool.cpp:84-88, the while loop on a size_t: a 64-bit value has at most 8
    bytes, so 8 iterations are enough. *)
Fixpoint index_bytes (fuel : nat) (idx : N) : list N :=
  match fuel with
  | O => []
  | S f => if 0 <? idx then N.land idx 0xFF :: index_bytes f (N.shiftr idx 8) else []
  end.
(** xmssPool.cpp:82-88. *)
Definition tree_seed_input (base_seed : list N) (index : N) : list N :=
  base_seed ++ index_bytes 8 (u64 (index + 1)).
(** xmssPool.cpp:90; XmssFast's default arguments are SHAKE_128 (1) and SHA256_2X (0),
    xmssFast.h:13-16.  [junk]: see AlgsXmssFast.v. *)
Definition prepareTree (base_seed : list N) (height : N) (junk : list N) (index : N) : res xfast :=
  XmssFast_new junk (shake256 48 (tree_seed_input base_seed index)) height 1 0.

(** ** State *)

(** Members that never change (xmssPool.h:44-47). *)
Record pool_cfg : Type := mkCfgP { pc_seed : list N; pc_height : N; pc_start : N; pc_size : N }.
(** size_t parameters, xmssPool.h:27-30. *)
Definition pool_ok (c : pool_cfg) : Prop := pc_start c < 2 ^ 64 /\ pc_size c < 2 ^ 64.

(** A background task: the index captured by the lambda (xmssPool.cpp:24-26) and
    its result (value or exception) once it is ready. *)
Record task : Type := mkTask { t_index : N; t_result : option (res xfast) }.

(** Shared members.  A cached future refers to a task; [None] is a moved-from
    future.  xmssPool.h:46, 48, 49. *)
Record shared : Type := mkShared {
  p_cur : N; p_cache : list (option nat); p_lock : option nat; p_tasks : list task }.

(** Where a thread is.  [f] is the local variable [pending] of getNextTree.  xmssPool.cpp:30-72, xmssPool.h:38-41. *)
Inductive pc : Type :=
| Idle
| NextLock                                (* :36 waiting for the mutex *)
| NextTest                                (* :38 *)
| MissRead                                (* :40 read _current_index *)
| MissWrite (idx : N)                     (* :40 write _current_index *)
| Front                                   (* :47 *)
| PopFront (f : option nat)               (* :48 *)
| ReadInc (f : option nat)                (* :49 read *)
| WriteInc (f : option nat) (v : N)       (* :49 write *)
| FillBounds (f : option nat)             (* :20-21 *)
| FillLoop (f : option nat) (i e : N)     (* :23-27 *)
| DropNew (f : option nat) (k : nat)      (* :24 push_back threw: destroy the new future *)
| NextUnlock (f : option nat)             (* :53 *)
| NextUnlockMiss (idx : N)                (* :53 *)
| NextUnwind (f : option nat)             (* :53, exception in flight *)
| Build (idx : N)                         (* :56 *)
| Get (f : option nat)                    (* :59 *)
| Unwind (f : option nat)                 (* destruction of [pending], exception in flight *)
| AvailLock | AvailTest | AvailPoll | AvailUnlock (b : bool) | AvailRet (b : bool)   (* :62-72 *)
| IndexLock | IndexRead | IndexUnlock (v : N) | IndexRet (v : N).                    (* xmssPool.h:38-41 *)

(** What can be seen of a step.  xmssPool.cpp:30-72, xmssPool.h:38-41. *)
Inductive label : Type :=
| Tau
| CallNext (t : nat) | RetNext (t : nat) (r : res xfast) | ThrowNext (t : nat)
| Claim (t : nat) (v : N)                 (* _current_index goes from v to v + 1 *)
| LaunchFail (t : nat)                    (* std::async or push_back throws *)
| CallAvail (t : nat) | ReadAvail (t : nat) (b : bool) | RetAvail (t : nat) (b : bool)
| CallIndex (t : nat) | ReadIndex (t : nat) (v : N) | RetIndex (t : nat) (v : N)
| Undefined (t : nat).                    (* front()/pop_front() of an empty deque, use of an invalid future *)

(** xmssPool.h:49, xmssPool.cpp:36, 63: std::mutex. *)
Definition lock_free (s : shared) : Prop := p_lock s = None.
(** xmssPool.h:49, xmssPool.cpp:36, 63: std::mutex. *)
Definition set_lock (s : shared) (l : option nat) : shared := mkShared (p_cur s) (p_cache s) l (p_tasks s).
(** xmssPool.cpp:40, 49. *)
Definition set_cur (s : shared) (v : N) : shared := mkShared v (p_cache s) (p_lock s) (p_tasks s).
(** xmssPool.cpp:24, 47-48. *)
Definition set_cache (s : shared) (c : list (option nat)) : shared := mkShared (p_cur s) c (p_lock s) (p_tasks s).
(** xmssPool.cpp:24: std::async starts a task. *)
Definition add_task (s : shared) (i : N) : shared := mkShared (p_cur s) (p_cache s) (p_lock s) (p_tasks s ++ [mkTask i None]).
(** xmssPool.cpp:20: _cache.size(). *)
Definition cache_size (s : shared) : N := N.of_nat (length (p_cache s)).
(** std::future_status::ready, xmssPool.cpp:71. *)
Definition done (s : shared) (k : nat) : Prop :=
  exists i r, nth_error (p_tasks s) k = Some (mkTask i (Some r)).

(** ** Steps of thread [t] *)
(** xmssPool.cpp:19-72, xmssPool.h:38-41; the cases give the lines. *)
Inductive tstep (c : pool_cfg) (t : nat) : shared -> pc -> label -> shared -> pc -> Prop :=
(* getNextTree, xmssPool.cpp:30-60 *)
| st_call_next : forall s, tstep c t s Idle (CallNext t) s NextLock
| st_lock_next : forall s, lock_free s -> tstep c t s NextLock Tau (set_lock s (Some t)) NextTest
| st_test_empty : forall s, p_cache s = [] -> tstep c t s NextTest Tau s MissRead
| st_test_full : forall s, p_cache s <> [] -> tstep c t s NextTest Tau s Front
| st_miss_read : forall s, tstep c t s MissRead Tau s (MissWrite (p_cur s))
| st_miss_write : forall s idx,
    tstep c t s (MissWrite idx) (Claim t idx) (set_cur s (u64 (idx + 1))) (NextUnlockMiss idx)
| st_front : forall s f rest, p_cache s = f :: rest ->
    tstep c t s Front Tau (set_cache s (None :: rest)) (PopFront f)
| st_front_bad : forall s, p_cache s = [] -> tstep c t s Front (Undefined t) s Idle
| st_pop : forall s f x rest, p_cache s = x :: rest ->
    tstep c t s (PopFront f) Tau (set_cache s rest) (ReadInc f)
| st_pop_bad : forall s f, p_cache s = [] -> tstep c t s (PopFront f) (Undefined t) s Idle
| st_read_inc : forall s f, tstep c t s (ReadInc f) Tau s (WriteInc f (p_cur s))
| st_write_inc : forall s f v,
    tstep c t s (WriteInc f v) (Claim t v) (set_cur s (u64 (v + 1))) (FillBounds f)
| st_fill_bounds : forall s f,
    tstep c t s (FillBounds f) Tau s
      (FillLoop f (u64 (p_cur s + cache_size s)) (u64 (p_cur s + pc_size c)))
| st_fill_end : forall s f i e, e <= i -> tstep c t s (FillLoop f i e) Tau s (NextUnlock f)
| st_fill_push : forall s f i e, i < e ->
    tstep c t s (FillLoop f i e) Tau
      (set_cache (add_task s i) (p_cache s ++ [Some (length (p_tasks s))])) (FillLoop f (i + 1) e)
| st_fill_fail : forall s f i e, i < e -> tstep c t s (FillLoop f i e) (LaunchFail t) s (NextUnwind f)
| st_fill_fail_push : forall s f i e, i < e ->
    tstep c t s (FillLoop f i e) (LaunchFail t) (add_task s i) (DropNew f (length (p_tasks s)))
| st_drop_new : forall s f k, done s k -> tstep c t s (DropNew f k) Tau s (NextUnwind f)
| st_unlock : forall s f, tstep c t s (NextUnlock f) Tau (set_lock s None) (Get f)
| st_unlock_miss : forall s idx, tstep c t s (NextUnlockMiss idx) Tau (set_lock s None) (Build idx)
| st_unwind : forall s f, tstep c t s (NextUnwind f) Tau (set_lock s None) (Unwind f)
| st_build : forall s idx junk,
    tstep c t s (Build idx) (RetNext t (prepareTree (pc_seed c) (pc_height c) junk idx)) s Idle
| st_get : forall s k i r, nth_error (p_tasks s) k = Some (mkTask i (Some r)) ->
    tstep c t s (Get (Some k)) (RetNext t r) s Idle
| st_get_bad : forall s, tstep c t s (Get None) (Undefined t) s Idle
| st_throw : forall s k, done s k -> tstep c t s (Unwind (Some k)) (ThrowNext t) s Idle
| st_throw_none : forall s, tstep c t s (Unwind None) (ThrowNext t) s Idle
(* isAvailable, xmssPool.cpp:62-72 *)
| st_call_avail : forall s, tstep c t s Idle (CallAvail t) s AvailLock
| st_lock_avail : forall s, lock_free s -> tstep c t s AvailLock Tau (set_lock s (Some t)) AvailTest
| st_avail_empty : forall s, p_cache s = [] -> tstep c t s AvailTest (ReadAvail t false) s (AvailUnlock false)
| st_avail_full : forall s, p_cache s <> [] -> tstep c t s AvailTest Tau s AvailPoll
| st_poll_bad : forall s, p_cache s = [] -> tstep c t s AvailPoll (Undefined t) s Idle
| st_poll_moved : forall s rest, p_cache s = None :: rest -> tstep c t s AvailPoll (Undefined t) s Idle
| st_poll_yes : forall s k rest, p_cache s = Some k :: rest -> done s k -> tstep c t s AvailPoll (ReadAvail t true) s (AvailUnlock true)
| st_poll_no : forall s k rest, p_cache s = Some k :: rest -> ~ done s k -> tstep c t s AvailPoll (ReadAvail t false) s (AvailUnlock false)
| st_unlock_avail : forall s b, tstep c t s (AvailUnlock b) Tau (set_lock s None) (AvailRet b)
| st_ret_avail : forall s b, tstep c t s (AvailRet b) (RetAvail t b) s Idle
(* getCurrentIndex, xmssPool.h:38-41 *)
| st_call_index : forall s, tstep c t s Idle (CallIndex t) s IndexLock
| st_lock_index : forall s, lock_free s -> tstep c t s IndexLock Tau (set_lock s (Some t)) IndexRead
| st_read_index : forall s, tstep c t s IndexRead (ReadIndex t (p_cur s)) s (IndexUnlock (p_cur s))
| st_unlock_index : forall s v, tstep c t s (IndexUnlock v) Tau (set_lock s None) (IndexRet v)
| st_ret_index : forall s v, tstep c t s (IndexRet v) (RetIndex t v) s Idle.

(** A background task finishes; it only reads _base_seed and _height.  xmssPool.cpp:24-26, 74-91. *)
Definition finish (c : pool_cfg) (s s' : shared) : Prop :=
  exists k i junk, nth_error (p_tasks s) k = Some (mkTask i None) /\
    s' = mkShared (p_cur s) (p_cache s) (p_lock s)
           (upd (p_tasks s) k (mkTask i (Some (prepareTree (pc_seed c) (pc_height c) junk i)))).

(** the callers of xmssPool.h:34-41, any number of threads. *)
Definition threads := nat -> pc.
(** the callers of xmssPool.h:34-41, any number of threads. *)
Definition upd_thread (th : threads) (t : nat) (p : pc) : threads := fun u => if (u =? t)%nat then p else th u.

(** interleaving of the callers (xmssPool.cpp:30-72) and the tasks (:24-26). *)
Inductive pstep (c : pool_cfg) : shared * threads -> label -> shared * threads -> Prop :=
| ps_thread : forall s th t l s' p', tstep c t s (th t) l s' p' -> pstep c (s, th) l (s', upd_thread th t p')
| ps_task : forall s th s', finish c s s' -> pstep c (s, th) Tau (s', th).

(** xmssPool.cpp:10-28: the pool after construction.  The loop runs for
    i = start, start + 1, ... while i < end, with start = _current_index and
    end = _current_index + _pool_size in size_t arithmetic. *)
Definition init_range (c : pool_cfg) : list N :=
  let e := u64 (pc_start c + pc_size c) in
  map (fun k => pc_start c + N.of_nat k) (seq 0 (N.to_nat (e - pc_start c))).
(** xmssPool.cpp:10-28. *)
Definition init_pool (c : pool_cfg) : shared * threads :=
  (mkShared (pc_start c) (map Some (seq 0 (length (init_range c)))) None
     (map (fun i => mkTask i None) (init_range c)), fun _ => Idle).

(** Executions: the labels in the order in which they happened.  Model of xmssPool.cpp:10-91. *)
Inductive exec (c : pool_cfg) : list label -> shared * threads -> Prop :=
| ex_init : exec c [] (init_pool c)
| ex_step : forall tr x l y, exec c tr x -> pstep c x l y -> exec c (tr ++ [l]) y.
