(** Model of the lifetime of an XmssPool: construction (which launches tasks that
    captured [this]), use, destruction by the implicit destructor.
    The members in order of declaration (xmssPool.h:44-50) are _base_seed, _height,
    _current_index, _pool_size, _cache, _mutex; they are destroyed in the opposite
    order, also when the constructor throws.  Destroying a future made by std::async
    waits for its task; the order in which a deque destroys its elements is not
    specified.  A background task may read _base_seed and _height (prepareTree,
    xmssPool.cpp:74-91) at any time until it has finished. *)
From Coq Require Import List NArith Arith Lia Bool.
From Verif Require Import Base Bytes XmssObj Pool.
Import ListNotations.
Open Scope N_scope.

(** xmssPool.cpp:10-28, xmssPool.h:32. *)
Inductive phase : Type :=
| Building (i e : N)     (* xmssPool.cpp:16, in fillCache's loop (:23-27) *)
| BuildDrop (k : nat)    (* :24 push_back threw: destroying the new future *)
| Alive
| Dying                  (* _mutex is gone, the elements of _cache are being destroyed *)
| Gone.                  (* _base_seed is freed *)

(** xmssPool.h:44-49. *)
Record pool : Type := mkPool { l_phase : phase; l_shared : shared; l_threads : threads }.

(** steps of xmssPool.cpp:10-91 and xmssPool.h:32. *)
Inductive llabel : Type :=
| Use (l : label)        (* a step of a call on the living pool *)
| Task                   (* a background task finishes *)
| Launch | LaunchThrows | Built | DtorCall | DropFuture | Freed
| UseAfterFree.          (* a background task reads _base_seed after its destruction *)

(** xmssPool.cpp:10-91, xmssPool.h:32; the cases give the lines. *)
Inductive lstep (c : pool_cfg) : pool -> llabel -> pool -> Prop :=
(* xmssPool.cpp:10-28 *)
| ls_push : forall s th i e, i < e ->
    lstep c (mkPool (Building i e) s th) Launch
      (mkPool (Building (i + 1) e) (set_cache (add_task s i) (p_cache s ++ [Some (length (p_tasks s))])) th)
| ls_fail : forall s th i e, i < e -> lstep c (mkPool (Building i e) s th) LaunchThrows (mkPool Dying s th)
| ls_fail_push : forall s th i e, i < e ->
    lstep c (mkPool (Building i e) s th) LaunchThrows (mkPool (BuildDrop (length (p_tasks s))) (add_task s i) th)
| ls_drop_new : forall s th k, done s k -> lstep c (mkPool (BuildDrop k) s th) DropFuture (mkPool Dying s th)
| ls_built : forall s th i e, e <= i -> lstep c (mkPool (Building i e) s th) Built (mkPool Alive s th)
(* calls, Pool.v *)
| ls_use : forall s th t l s' p', tstep c t s (th t) l s' p' ->
    lstep c (mkPool Alive s th) (Use l) (mkPool Alive s' (upd_thread th t p'))
(* xmssPool.h:34 ~XmssPool() = default.  The user must not destroy a pool while a
   call on it is in progress. *)
| ls_dtor : forall s th, (forall t, th t = Idle) -> lstep c (mkPool Alive s th) DtorCall (mkPool Dying s th)
| ls_drop : forall s th a f b, p_cache s = a ++ f :: b -> (forall k, f = Some k -> done s k) ->
    lstep c (mkPool Dying s th) DropFuture (mkPool Dying (set_cache s (a ++ b)) th)
| ls_free : forall s th, p_cache s = [] -> lstep c (mkPool Dying s th) Freed (mkPool Gone s th)
(* background tasks *)
| ls_task : forall ph s th s', ph <> Gone -> finish c s s' -> lstep c (mkPool ph s th) Task (mkPool ph s' th)
| ls_task_bad : forall s th k i, nth_error (p_tasks s) k = Some (mkTask i None) ->
    lstep c (mkPool Gone s th) UseAfterFree (mkPool Gone s th).

(** Before the constructor's body: xmssPool.cpp:11-14, bounds of the loop :20-21. *)
Definition new_pool (c : pool_cfg) : pool :=
  mkPool (Building (pc_start c) (u64 (pc_start c + pc_size c))) (mkShared (pc_start c) [] None []) (fun _ => Idle).

(** executions of xmssPool.cpp:10-91 and xmssPool.h:32. *)
Inductive lexec (c : pool_cfg) : list llabel -> pool -> Prop :=
| lx_init : lexec c [] (new_pool c)
| lx_step : forall tr x l y, lexec c tr x -> lstep c x l y -> lexec c (tr ++ [l]) y.

(** [n] steps from one state to another.  executions of xmssPool.cpp:10-91 and xmssPool.h:32. *)
Inductive lrun (c : pool_cfg) : nat -> pool -> pool -> Prop :=
| lr_0 : forall x, lrun c 0 x x
| lr_S : forall n x l y z, lstep c x l y -> lrun c n y z -> lrun c (S n) x z.
