(** Specification for C104: the PRF inputs behind one tweakable call. *)
From Coq Require Import List NArith.
From Verif Require Import SpecDomain SpecTweak SpecPlace.
Import ListNotations.

(** The 32-byte addresses from which a call derives its key (last word 0) and its masks (last
    word 1, and for the two-block hash H also 2): exactly the PRF inputs of [call_value]. *)
Definition prf_adrs (e : hcall) : list (list N) :=
  match e with
  | EvF a _ => [with_mask a 0; with_mask a 1]
  | EvH a _ => [with_mask a 0; with_mask a 1; with_mask a 2]
  | _ => []
  end.
