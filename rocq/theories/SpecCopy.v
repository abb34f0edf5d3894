(** Specification for C78 and C79: what signatures of a copied XmssFast object look like, and
    the hash collision that would be needed for a wrong one to be accepted. *)
From Coq Require Import List NArith Arith Bool.
From Verif Require Import Base Bytes Keccak Sha256 HashAddress SpecXmss SpecApi SpecForge.
Import ListNotations.
Open Scope nat_scope.

(** Calls on two objects, [false] = the original, [true] = its copy. *)
Definition calls_of (who : bool) (l : list (bool * op)) : list op :=
  map snd (filter (fun x => Bool.eqb (fst x) who) l).
Definition obs_of (who : bool) (l : list (bool * op)) (os : list obs) : list obs :=
  map snd (filter (fun x => Bool.eqb (fst (fst x)) who) (combine l os)).

(** ** Programs over XmssFast objects, numbered in order of creation *)
Inductive act : Type :=
  | ANew (junk seed : list N) (height hash fmt : N)   (* XmssFast o(seed, height, hash, fmt); *)
  | ACall (n : nat) (c : op)             (* obj_n.sign(m) / obj_n.setIndex(i) *)
  | ACopy (n : nat)                      (* XmssFast o(obj_n); *)
  | AMove (n : nat)                      (* XmssFast o(std::move(obj_n)); *)
  | AMoveAssign (n m : nat)              (* obj_n = std::move(obj_m); *)
  | ADestroy (n : nat)                   (* delete obj_n *)
  | AInit (n : nat) (junk : list N).     (* obj_n.initialize_tree() *)

(** Programs that never copy an object, and do nothing with an object they have moved
    away but destroy it or assign to it: what each object then has to do.  [None]: the
    program breaks this rule (or constructs a tree the library cannot build). *)
Inductive slot : Type := SLive (hf : hashfn) (h : nat) (seed : list N) (i : N) | SMoved | SDead.
Definition put {A} (l : list A) (n : nat) (x : A) : list A := firstn n l ++ x :: skipn (S n) l.
Definition slot_step (a : list slot) (x : act) : option (list slot * list obs) :=
  match x with
  | ANew _ seed height hash _ =>
      if negb (length seed =? 48) || (254 <? height)%N || (height <? 4)%N || N.odd height then Some (a, [ObsExn InvalidArgument])
      else if (30 <? height)%N then None
      else match hash_of_id hash with Some hf => Some (a ++ [SLive hf (N.to_nat height) seed 0], []) | None => None end
  | ACall n c =>
      match nth_error a n with
      | Some (SLive hf h seed i) =>
          let '(i', o) := ref_step h (ref_sig hf (4, 64, 3) h seed) i c in Some (put a n (SLive hf h seed i'), [o])
      | _ => None
      end
  | ACopy _ => None
  | AMove n =>
      match nth_error a n with
      | Some (SLive hf h seed i) => Some (put a n SMoved ++ [SLive hf h seed i], [])
      | _ => None
      end
  | AMoveAssign n m =>
      if n =? m then None else
      match nth_error a n, nth_error a m with
      | Some (SLive _ _ _ _), Some (SLive hf h seed i) | Some SMoved, Some (SLive hf h seed i) =>
          Some (put (put a n (SLive hf h seed i)) m SMoved, [])
      | _, _ => None
      end
  | ADestroy n =>
      match nth_error a n with
      | Some (SLive _ _ _ _) | Some SMoved => Some (put a n SDead, [])
      | _ => None
      end
  | AInit n _ =>
      match nth_error a n with
      | Some (SLive hf h seed _) => Some (put a n (SLive hf h seed 0), [])
      | _ => None
      end
  end.
Fixpoint slot_run (a : list slot) (l : list act) : option (list slot * list obs) :=
  match l with
  | [] => Some (a, [])
  | x :: r =>
      match slot_step a x with
      | None => None
      | Some (a, o) => match slot_run a r with None => None | Some (a, os) => Some (a, o ++ os) end
      end
  end.

(** Bytes before the authentication path: index, randomiser, one-time signature. *)
Definition path_start (wp : nat * nat * nat) : nat := 36 + 32 * (snd (fst wp) + snd wp).

(** The signature of [msg] with one-time key [i], but followed by the
    authentication path of leaf [i']. *)
Definition stale_sig (hf : hashfn) (wp : nat * nat * nat) (h : nat) (seed : list N) (i i' : nat) (msg : list N) : list N :=
  firstn (path_start wp) (ref_sig hf wp h seed i msg) ++ skipn (path_start wp) (ref_sig hf wp h seed i' msg).

(** The last two nodes below an L-tree root, with the height they have. *)
Fixpoint l_last (hf : hashfn) (ps : list N) (fuel : nat) (ots height : nat) (l : list (list N)) {struct fuel}
  : option (nat * list N * list N) :=
  match l with
  | [] => None
  | [_] => None
  | [a; b] => Some (height, a, b)
  | _ => match fuel with
         | O => None
         | S f => l_last hf ps f ots (S height) (l_level hf ps ots height 0 l)
         end
  end.

Section Coll.
  Variables (hf : hashfn) (wp : nat * nat * nat) (seed : list N).
  Local Notation w := (2 ^ fst (fst wp)).
  Local Notation len := (snd (fst wp) + snd wp).
  Local Notation ss := (key_seed seed).
  Local Notation ps := (key_pub seed).

  (** Two different leaves with equal value: their last L-tree hashes differ already
      in the address, so either the two keys collide or the two hash inputs do. *)
  Definition leaf_collision (i j : nat) : option (list N * list N) :=
    match l_last hf ps len i 0 (ots_pk hf w len ss ps i), l_last hf ps len j 0 (ots_pk hf w len ss ps j) with
    | Some (x, a, b), Some (y, a', b') =>
        let ai := adr 1 (N.of_nat i) (N.of_nat x) 0 0 in
        let aj := adr 1 (N.of_nat j) (N.of_nat y) 0 0 in
        if bytes_eqb (PRF hf ps ai) (PRF hf ps aj)
        then Some (PRF_input ps ai, PRF_input ps aj)
        else Some (H_input hf ps 1 i x 0 a b, H_input hf ps 1 j y 0 a' b')
    | _, _ => None
    end.

  (** The parent of (leaf 0, leaf 1) equal to the hash of (leaf 0, leaf 0). *)
  Definition twin_collision : option (list N * list N) :=
    let l0 := leaf hf w len ss ps 0 in
    let l1 := leaf hf w len ss ps 1 in
    if bytes_eqb l0 l1 then leaf_collision 0 1
    else Some (H_input hf ps 2 0 0 0 l0 l1, H_input hf ps 2 0 0 0 l0 l0).

  (** The signature of [msg] with one-time key 2, but with the second node of the
      authentication path, the parent of leaves 0 and 1, computed from leaf 0 twice. *)
  Definition crossed_sig (h : nat) (msg : list N) : list N :=
    let s := ref_sig hf wp h seed 2 msg in
    let l0 := leaf hf w len ss ps 0 in
    firstn (path_start wp + 32) s ++ rand_hash hf ps 2 0 0 0 l0 l0 ++ skipn (path_start wp + 64) s.
End Coll.
