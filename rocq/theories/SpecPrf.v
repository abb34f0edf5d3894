(** Specification for C91: the plain calls of the pseudorandom function and of the message
    hash that a key's owner makes. *)
From Coq Require Import List NArith Arith Bool.
From Verif Require Import Base Bytes HashAddress SpecXmss SpecApi SpecTweak.
Import ListNotations.
Open Scope nat_scope.

Definition msg_calls (l : list hcall) : list hcall := filter (fun e => match e with EvMsg _ _ => true | _ => false end) l.
Definition prf_calls (l : list hcall) : list hcall := filter (fun e => match e with EvPrf _ _ => true | _ => false end) l.

(** Deriving the secret of one-time key [o] from the secret seed, or the start of its chain
    [c] from that secret. *)
Definition derives (hf : hashfn) (wp : nat * nat * nat) (h : nat) (seed : list N) (e : hcall) : Prop :=
  exists o, o < 2 ^ h /\
    (e = EvPrf (key_seed seed) (adr 0 (N.of_nat o) 0 0 0) \/
     exists c, c < snd (fst wp) + snd wp /\ e = EvPrf (ots_seed hf (key_seed seed) o) (to_byte 32 (N.of_nat c))).

(** The message hash of a signature: keyed with its randomiser, the root and its index. *)
Definition message_call (hf : hashfn) (wp : nat * nat * nat) (h : nat) (seed msg sig : list N) : hcall :=
  EvMsg (firstn 32 (skipn 4 sig) ++ ref_root hf wp h seed ++ to_byte 32 (from_be (firstn 4 sig))) msg.

(** The message hashes of a history: one for each signature handed out, in order. *)
Definition history_message_calls (hf : hashfn) (wp : nat * nat * nat) (h : nat) (seed : list N) (cs : list op) (os : list obs) : list hcall :=
  flat_map (fun co => match co with
                      | (OpSign m, ObsSig s) => [message_call hf wp h seed m s]
                      | _ => []
                      end) (combine cs os).
