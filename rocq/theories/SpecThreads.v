(** What callers on several threads should observe of one shared XmssFast object. *)
From Coq Require Import List NArith Arith Bool.
From Verif Require Import Base SpecApi.
Import ListNotations.
Open Scope nat_scope.

(** A call that has returned: the thread that made it, the call and its outcome. *)
Definition event : Type := nat * op * obs.
Definition caller (e : event) : nat := fst (fst e).
Definition call (e : event) : op := snd (fst e).
Definition outcome (e : event) : obs := snd e.

(** The calls of thread [t] that have returned, in order. *)
Definition calls_by (t : nat) (log : list event) : list op :=
  map call (filter (fun e => caller e =? t) log).

(** The log of events is what one thread making the same calls in the same order would
    have seen: [sig i m] is the signature of message [m] with one-time key [i]. *)
Definition sequential (h : nat) (sig : nat -> list N -> list N) (log : list event) : Prop :=
  map outcome log = snd (ref_run h sig 0 (map call log)).
