(** Terms used in the statements of the property theorems about the Rust port: outcomes, what
    a key object says, which messages and calls the port cannot tell apart. *)
From Coq Require Import List NArith Arith Bool.
From Verif Require Import Base Bytes HashAddress SpecXmss SpecApi SpecForge SpecReuse SpecRust RsBase RsHash RsObj.
Import ListNotations.
Local Open Scope nat_scope.

(** How a Rust call ends: normally exactly if P, with [Err(InvalidArgument)] exactly if
    Q, with [Err(FailedConversion)] exactly if C, with a panic exactly if R. *)
Definition rs_outcome {A} (r : rs A) (P Q C R : Prop) : Prop :=
  ((exists a, r = ROk a) <-> P) /\ (r = RErr RInvalidArgument <-> Q) /\ (r = RErr RFailedConversion <-> C) /\ (r = RPanic <-> R).

(** What a key object says about itself at index [i]. *)
Definition rust_key_at (hf : hashfn) (wp : nat * nat * nat) (height : nat) (seed : list N) (i : N) (o : rs_base) : Prop :=
  let descr := [rs_hash_u8 hf; N.of_nat (height / 2); 0%N] in
  ro_sk o = ref_sk hf wp height seed i /\ rs_get_index o = ROk i /\
  rs_get_pk o = ROk (descr ++ ref_root hf wp height seed ++ key_pub seed) /\
  rs_get_extended_seed o = descr ++ seed /\
  rs_get_sk_seed o = ROk (key_seed seed) /\ rs_get_sk_prf o = ROk (key_prf seed) /\
  rs_get_pk_seed o = ROk (key_pub seed) /\ rs_get_root o = ROk (ref_root hf wp height seed) /\
  rs_number_signatures o = ROk (2 ^ N.of_nat height)%N /\
  rs_remaining_signatures o = ROk (2 ^ N.of_nat height - i)%N.

(** Two messages the port cannot tell apart: same length, same first [k] bytes. *)
Definition same_visible (k : nat) (m m' : list N) : Prop := length m = length m' /\ firstn k m = firstn k m'.

(** Signing: calls that differ only in the invisible part of messages are not
    distinguished, in any history. *)
Definition same_call (k : nat) (a b : op) : Prop :=
  match a, b with
  | OpSign m, OpSign m' => same_visible k m m'
  | OpSetIndex i, OpSetIndex j => i = j
  | _, _ => False
  end.

(** Messages the port hashes as they are. *)
Definition fully_seen (hf : hashfn) (m : list N) : Prop :=
  match seen_bytes hf with None => (N.of_nat (length m) + 128 < 2 ^ 32)%N | Some k => length m < k end.

(** The outcome of the port that corresponds to one of the C++ library. *)
Definition robs_of (x : obs) : robs :=
  match x with ObsSig s => RObsSig s | ObsIdx i => RObsIdx i | ObsExn _ => RObsErr RInvalidArgument end.

(** Messages the port cannot tell apart. *)
Definition exchangeable (hf : hashfn) (m m' : list N) : Prop :=
  match seen_bytes hf with None => m = m' | Some k => same_visible k m m' end.

(** The message the verifier of the port hashes for [msg]. *)
Definition seen_by (hf : hashfn) (pk sig msg : list N) : list N := seen_message hf (sig_R sig) (pk_root pk) (sig_index sig) msg.

(** The index of the call fits the port's u32. *)
Definition op_u32 (c : op) : Prop := match c with OpSign _ => True | OpSetIndex j => (j < 2 ^ 32)%N end.

(** The call did not end in an error. *)
Definition no_err (x : robs) : Prop := match x with RObsErr _ => False | _ => True end.
