(** What the user of a pool sees in a trace of labels: claimed indices, the claim
    that belongs to each answer, and the seed input of a tree. *)
From Coq Require Import List NArith Arith Bool.
From Verif Require Import Base Pool.
Import ListNotations.

(** Indices in the order in which they were claimed. *)
Fixpoint claimed (tr : list label) : list N :=
  match tr with
  | [] => []
  | Claim _ v :: r => v :: claimed r
  | _ :: r => claimed r
  end.

(** [0, 1, 2, ...] from [a] in 64-bit arithmetic. *)
Definition from64 (a : N) (n : nat) : list N := map (fun k => ((a + N.of_nat k) mod 2 ^ 64)%N) (seq 0 n).

(** The claim a thread's running call holds: set by Claim, cleared when the call
    starts and ends. *)
Definition holds (l : label) (h : nat -> option N) : nat -> option N :=
  match l with
  | Claim t v => fun u => if (u =? t)%nat then Some v else h u
  | CallNext t | RetNext t _ | ThrowNext t => fun u => if (u =? t)%nat then None else h u
  | _ => h
  end.
Definition held (tr : list label) : nat -> option N := fold_left (fun h l => holds l h) tr (fun _ => None).

(** Every answer of getNextTree with the index its call claimed. *)
Definition answer (l : label) (h : nat -> option N) : list (option N * res XmssObj.xfast) :=
  match l with RetNext t r => [(h t, r)] | _ => [] end.
Fixpoint answers_from (h : nat -> option N) (tr : list label) : list (option N * res XmssObj.xfast) :=
  match tr with
  | [] => []
  | l :: r => answer l h ++ answers_from (holds l h) r
  end.
Definition answers (tr : list label) := answers_from (fun _ => None) tr.

(** Indices lost in calls that threw. *)
Definition lost_by (l : label) (h : nat -> option N) : list (option N) :=
  match l with ThrowNext t => [h t] | _ => [] end.
Fixpoint lost_from (h : nat -> option N) (tr : list label) : list (option N) :=
  match tr with
  | [] => []
  | l :: r => lost_by l h ++ lost_from (holds l h) r
  end.
Definition lost (tr : list label) := lost_from (fun _ => None) tr.

(** Number of failed launches. *)
Fixpoint failures (tr : list label) : nat :=
  match tr with [] => 0 | LaunchFail _ :: r => S (failures r) | _ :: r => failures r end.
