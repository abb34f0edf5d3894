(** What the user of a Rust pool sees: the seed of each tree and the answers of a
    history of calls. *)
From Coq Require Import List NArith Arith Bool.
From Verif Require Import Sha256 SpecMisc RsBase RsObj RsPool.
Import ListNotations.
Open Scope N_scope.

(** [d] is the decimal numeral of [n]: digits, no leading zero, value [n]. *)
Definition decimal_value (d : list N) : N := fold_left (fun a c => 10 * a + (c - 48)) d 0.
Definition is_decimal (d : list N) (n : N) : Prop :=
  d <> [] /\ Forall (fun c => 48 <= c <= 57) d /\ (n <> 0 -> hd 0 d <> 48) /\ decimal_value d = n.

(** The 48-byte seed of the tree with this index. *)
Definition is_tree_seed (base_seed : list N) (index : N) (seed : list N) : Prop :=
  exists d, is_decimal d (index + 1) /\
    let h := sha256 (hex_text base_seed ++ d) in seed = h ++ firstn 16 h.

(** Reference: the state is the current index and the number of trees in store.  A call
    of get_next_tree answers with tree [cur]; [refill]: the store is topped up after
    each call; otherwise only a call that finds it empty fills it.  [None]: panic
    (64-bit overflow). *)
Definition pool_ref_step (refill : bool) (max : N) (tree : N -> rerr + rs_fast) (s : N * N) (c : pcall) : option (N * N * pobs) :=
  let '(cur, stored) := s in
  match c with
  | PNext =>
      if refill || (stored =? 0)
      then if 2 ^ 64 <=? cur + 1 + max then None else Some (cur + 1, max, PTree (tree cur))
      else if 2 ^ 64 <=? cur + 1 then None else Some (cur + 1, stored - 1, PTree (tree cur))
  | PAvail => Some (cur, stored, PBool (0 <? stored))
  | PIndex => Some (cur, stored, PNum cur)
  end.
Fixpoint pool_ref_run (refill : bool) (max : N) (tree : N -> rerr + rs_fast) (s : N * N) (cs : list pcall) : option (N * N * list pobs) :=
  match cs with
  | [] => Some (s, [])
  | c :: rest =>
      match pool_ref_step refill max tree s c with
      | None => None
      | Some (s1, x) =>
          match pool_ref_run refill max tree s1 rest with
          | None => None
          | Some (s2, xs) => Some (s2, x :: xs)
          end
      end
  end.
Definition nexts (cs : list pcall) : N := N.of_nat (length (filter (fun c => match c with PNext => true | _ => false end) cs)).
