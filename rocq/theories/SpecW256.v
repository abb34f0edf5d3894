(** Specification for C102: which digests one signature made with w = 256 gives away.  With this
    parameter a chain position is a byte, so this talks about the bytes of the message digest. *)
From Coq Require Import List NArith.
Import ListNotations.
Open Scope N_scope.

Definition sum_bytes (d : list N) : N := fold_right N.add 0 d.

(** What is left of the checksum 32 * 255 - sum: its low byte. *)
Definition low_check (d : list N) : N := (8160 - sum_bytes d) mod 256.

(** [d2] is at or above [d1] in each of the bytes and in what is left of the checksum. *)
Definition slides (d1 d2 : list N) : Prop := Forall2 N.le d1 d2 /\ low_check d1 <= low_check d2.
