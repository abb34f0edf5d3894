(** Specification for C93: an application that uses pools over one base seed in several runs
    of the process, one after another.  Each run makes a pool with a starting index and a size
    and ends, normally or in a crash, after some trace of labels (Pool.v). *)
From Coq Require Import List NArith.
From Verif Require Import Base Bytes Pool SpecPool.
Import ListNotations.
Open Scope N_scope.

Record session : Type := mkSession { se_start : N; se_size : N; se_trace : list label }.

Definition session_cfg (seed : list N) (height : N) (s : session) : pool_cfg :=
  mkCfgP seed height (se_start s) (se_size s).

(** The trace is one of the pool's, cut off anywhere, and the 64-bit index has not wrapped. *)
Definition happened (seed : list N) (height : N) (s : session) : Prop :=
  pool_ok (session_cfg seed height s) /\ se_start s + N.of_nat (length (claimed (se_trace s))) < 2 ^ 64 /\
  exists x, exec (session_cfg seed height s) (se_trace s) x.

(** Tree [v] was handed out by getNextTree. *)
Definition handed (tr : list label) (v : N) : Prop := exists r, In (Some v, r) (answers tr).

(** Tree [v] was handed out, and after that a call of getCurrentIndex, by any thread, was made
    and returned [n].  The application stores [n] before it signs with the tree. *)
Definition stored (tr : list label) (v n : N) : Prop :=
  exists a t r b u m d, tr = a ++ RetNext t r :: b ++ CallIndex u :: m ++ RetIndex u n :: d /\
    ~ In (CallIndex u) m /\ held a t = Some v.

(** Every run starts at or above whatever an earlier run stored. *)
Fixpoint restarts (l : list session) : Prop :=
  match l with
  | [] => True
  | s :: r => (forall s' v n, In s' r -> stored (se_trace s) v n -> n <= se_start s') /\ restarts r
  end.
