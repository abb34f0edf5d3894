(** Specification for C90: the value of a logged hash call, and the calls a verification
    makes.  Calls are those of SpecTweak.v, places those of SpecDomain.v. *)
From Coq Require Import List NArith Arith Bool.
From Verif Require Import Bytes HashAddress SpecXmss SpecApi SpecDomain SpecTweak.
Import ListNotations.
Open Scope nat_scope.

(** The address with another last word (keyAndMask). *)
Definition with_mask (ad : list N) (m : N) : list N := firstn 28 ad ++ to_byte 4 m.
(** The value of a tweakable call under public seed [ps]: key and masks come from the
    address, one mask for F, two for H. *)
Definition call_value (hf : hashfn) (ps : list N) (e : hcall) : list N :=
  match e with
  | EvF ad x => keyed hf 0 (PRF hf ps (with_mask ad 0)) (xor_bytes x (PRF hf ps (with_mask ad 1)))
  | EvH ad x => keyed hf 1 (PRF hf ps (with_mask ad 0)) (xor_bytes x (PRF hf ps (with_mask ad 1) ++ PRF hf ps (with_mask ad 2)))
  | EvPrf k x => PRF hf k x
  | EvMsg k x => keyed hf 2 k x
  end.
Definition call_data (e : hcall) : list N := match e with EvF _ x | EvH _ x | EvPrf _ x | EvMsg _ x => x end.

(** Two calls of the same kind (F or H) with the same address. *)
Definition same_tweak (e e' : hcall) : Prop :=
  match e, e' with
  | EvF a _, EvF a' _ | EvH a _, EvH a' _ => a = a'
  | _, _ => False
  end.
(** [e] is a second preimage for the call [e0]: same kind, same address, data of the same
    length, other data, same value. *)
Definition second_preimage (hf : hashfn) (ps : list N) (e0 e : hcall) : Prop :=
  same_tweak e e0 /\ length (call_data e) = length (call_data e0) /\ call_data e <> call_data e0 /\
  call_value hf ps e = call_value hf ps e0.

(** The tweakable calls of one verification: the chains from the positions [ds] to their
    ends, the L-tree over the ends, the path to the root. *)
Section Calls.
  Variables (hf : hashfn) (ps : list N).
  Definition chain_calls (w o : nat) (ds : list N) (sig : list (list N)) : list hcall :=
    flat_map (fun c => let d := N.to_nat (nth c ds 0%N) in
      map (fun k => EvF (place_adr (Step o c (d + k)) 0) (chain hf ps o c d k (nth c sig []))) (seq 0 (w - 1 - d)))
      (seq 0 (length sig)).
  Fixpoint ltree_calls (fuel o j : nat) (l : list (list N)) {struct fuel} : list hcall :=
    if length l <=? 1 then [] else
    match fuel with
    | O => []
    | S f => map (fun k => EvH (place_adr (LNode o j k) 0) (nth (2 * k) l [] ++ nth (2 * k + 1) l [])) (seq 0 (length l / 2)) ++
             ltree_calls f o (S j) (l_level hf ps o j 0 l)
    end.
  Fixpoint path_calls (j i : nat) (cur : list N) (path : list (list N)) {struct path} : list hcall :=
    match path with
    | [] => []
    | a :: t =>
        let l := if Nat.odd i then a else cur in
        let r := if Nat.odd i then cur else a in
        EvH (place_adr (TNode j (i / 2)) 0) (l ++ r) :: path_calls (S j) (i / 2) (rand_hash hf ps 2 0 j (i / 2) l r) t
    end.
  Definition sig_calls (w o : nat) (ds : list N) (sig path : list (list N)) : list hcall :=
    let pk := pk_of_sig hf w ps o ds sig in
    chain_calls w o ds sig ++ ltree_calls (length pk) o 0 pk ++ path_calls 0 o (compress hf ps o pk) path.
End Calls.
