(** Copy assignment [obj_n = obj_m;] between XmssFast objects (C95), on top of FastCopy.v.
    No class declares an assignment operator (xmssBase.h:28-43, xmssFast.h:11-24), so the
    compiler's assigns every member: the scalars and the pointers of [_state] are
    overwritten, the vectors get the contents of the source's own vectors. *)
From Coq Require Import List NArith Arith Lia Bool.
From Verif Require Import Base Bytes AlgsXmssFast SpecApi SpecCopy XmssObj FastCopy.
Import ListNotations.
Open Scope nat_scope.

(** The actions of FastCopy.v and copy assignment.  xmssFast.h:11-36. *)
Inductive act2 : Type :=
  | A1 (a : act)
  | ACopyAssign (n m : nat).   (* obj_n = obj_m; *)

(** Is some living object other than [n] pointing into the vectors [p]?  xmssFast.h:27-35. *)
Fixpoint pointed (l : list (option handle)) (k n p : nat) {struct l} : bool :=
  match l with
  | [] => false
  | Some h :: r => (negb (k =? n) && (h_ptr h =? p)) || pointed r (S k) n p
  | None :: r => pointed r (S k) n p
  end.

(** xmssFast.h:11-36, xmssBase.h:45-52, algsxmss_fast.h:17-36.  Simplification: assigning a vector to one of the
    same length keeps its storage (as in libstdc++, libc++ and the Microsoft library).  The elements of [_treehash] hold
    pointers to the nodes of the object the source's [_state] points to; where a third
    object would still follow the target's old vectors, or the lengths differ although the source points there, the
    outcome is not modelled ([UB]). *)
Definition world_step2 (w : world) (a : act2) : res (world * list obs) :=
  match a with
  | A1 a => world_step w a
  | ACopyAssign n m =>
      match nth_error (w_objs w) n, nth_error (w_objs w) m with
      | Some (Some t), Some (Some s) =>
          if n =? m then Ok (w, []) else
          match nth_error (w_bufs w) (h_own t), nth_error (w_bufs w) (h_own s) with
          | Some (Some old), Some (Some new) =>
              if (if h_ptr s =? h_own t then length (b_auth old) =? length (b_auth new)
                  else negb (pointed (w_objs w) 0 n (h_own t)))
              then Ok (mkW (upd (w_bufs w) (h_own t) (Some new))
                           (upd (w_objs w) n (Some (mkH (h_base s) (h_off s) (h_ptr s) (h_own t)))), [])
              else UB
          | _, _ => UB
          end
      | _, _ => UB
      end
  end.

(** programs over xmssFast.h:11-36. *)
Fixpoint world_run2 (w : world) (l : list act2) : res (world * list obs) :=
  match l with
  | [] => Ok (w, [])
  | a :: r =>
      '(w, x) <- world_step2 w a ;;
      '(w, xs) <- world_run2 w r ;;
      Ok (w, x ++ xs)
  end.
