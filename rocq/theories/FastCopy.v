(** Copies and moves of XmssFast objects.  Neither XmssBase nor XmssFast declares a copy
    constructor (xmssBase.h:28-43, xmssFast.h:11-24), so the compiler's copies every
    member.  [_state] (xmssFast.h:27; algsxmss_fast.h:27-36) holds the scalar
    [stackoffset] and pointers: the copy gets its own [stackoffset] and its own
    vectors [_stack ... _retain] (xmssFast.h:28-35), but its pointers still point into
    the vectors [xmss_set_bds_state] (xmssFast.cpp:50-58) was given, the ones of the
    object that was constructed.
    XmssBase declares a destructor (xmssBase.h:37), so it is copied even when the object
    is moved; XmssFast declares none, so its vectors are moved: the buffers get a new
    owner, and the pointers of both objects still lead to them.  Copy assignment is in
    FastAssign.v. *)
From Coq Require Import List NArith Arith Lia Bool.
From Verif Require Import Base Bytes Keccak HashAddress Wots XmssCommon AlgsXmss AlgsXmssFast Descriptor SpecApi SpecCopy XmssObj.
Import ListNotations.
Open Scope nat_scope.

(** One object: the members of XmssBase, [_state.stackoffset], the vectors the
    pointers of [_state] point into, and the vectors it owns (as ids of [w_bufs]).  xmssFast.h:26-36, algsxmss_fast.h:27-36. *)
Record handle : Type := mkH { h_base : xbase; h_off : nat; h_ptr : nat; h_own : nat }.

(** Memory: sets of vectors ([None] = freed) and objects ([None] = destroyed).  The
    field [b_stackoffset] of a stored [bds_state] has no meaning.  xmssFast.h:28-35. *)
Record world : Type := mkW { w_bufs : list (option bds_state); w_objs : list (option handle) }.

(** [_state] as one object sees it.  xmssFast.h:27, algsxmss_fast.h:29. *)
Definition with_off (st : bds_state) (off : nat) : bds_state :=
  mkBDS (b_stack st) off (b_stacklevels st) (b_auth st) (b_keep st) (b_treehash st) (b_retain st).

(** A program that constructs one XmssFast object [x].  xmssFast.cpp:7-14. *)
Definition world_of (x : xfast) : world :=
  mkW [Some (xf_state x)] [Some (mkH (xf_base x) (b_stackoffset (xf_state x)) 0 0)].

(** Does the call follow the pointers of [_state]?  xmssfast_update only in its loop
    (algsxmss_fast.c:567-581), i.e. for current < new < 2^h; xmssfast_Signmsg copies
    the authentication path (684) once update has accepted the current index. *)
Definition follows (b : xbase) (c : op) : bool :=
  let cur := from_be (slice 0 4 (xb_sk b)) in
  let n := (2 ^ N.of_nat (x_h (xb_params b)))%N in
  match c with
  | OpSign _ => (getIndex b <? n)%N && (cur <=? getIndex b)%N
  | OpSetIndex j => ((j <? n) && (cur <? j))%N
  end.

(** A state no call that does not follow the pointers can tell from any other.  the empty vectors of xmssFast.h:28-35 after a move. *)
Definition no_state : bds_state := mkBDS [] 0 [] [] [] [] [].

(** xmssFast.h:11-24 (constructors, implicit copy, move and destructor), xmssFast.cpp:7-14, 22-66, 68-95. *)
Definition world_step (w : world) (a : act) : res (world * list obs) :=
  match a with
  | ANew junk seed height hash fmt =>
      match XmssFast_new junk seed height hash fmt with
      | Ok o => Ok (mkW (w_bufs w ++ [Some (xf_state o)])
                        (w_objs w ++ [Some (mkH (xf_base o) (b_stackoffset (xf_state o)) (length (w_bufs w)) (length (w_bufs w)))]), [])
      | Exn e => Ok (w, [ObsExn e])
      | UB => UB
      end
  | ACall n c =>
      match nth_error (w_objs w) n with
      | Some (Some h) =>
          match nth_error (w_bufs w) (h_ptr h) with
          | Some (Some b) =>
              '(o, x) <- step (mkXF (h_base h) (with_off b (h_off h))) c ;;
              Ok (mkW (upd (w_bufs w) (h_ptr h) (Some (xf_state o)))
                      (upd (w_objs w) n (Some (mkH (xf_base o) (b_stackoffset (xf_state o)) (h_ptr h) (h_own h)))), [x])
          | _ =>
              (* dangling pointers *)
              if follows (h_base h) c then UB else
              '(o, x) <- step (mkXF (h_base h) no_state) c ;;
              Ok (mkW (w_bufs w) (upd (w_objs w) n (Some (mkH (xf_base o) (h_off h) (h_ptr h) (h_own h)))), [x])
          end
      | _ => UB
      end
  | ACopy n =>
      match nth_error (w_objs w) n with
      | Some (Some h) =>
          match nth_error (w_bufs w) (h_own h) with
          | Some own => Ok (mkW (w_bufs w ++ [own])
                                (w_objs w ++ [Some (mkH (h_base h) (h_off h) (h_ptr h) (length (w_bufs w)))]), [])
          | None => UB
          end
      | _ => UB
      end
  | AMove n =>
      (* the implicit move constructor; the source is left with empty vectors *)
      match nth_error (w_objs w) n with
      | Some (Some h) =>
          Ok (mkW (w_bufs w ++ [Some no_state])
                  (upd (w_objs w) n (Some (mkH (h_base h) (h_off h) (h_ptr h) (length (w_bufs w))))
                     ++ [Some (mkH (h_base h) (h_off h) (h_ptr h) (h_own h))]), [])
      | _ => UB
      end
  | AMoveAssign n m =>
      (* the implicit move assignment: the old vectors of the target are freed.
         Assigning an object to itself is not modelled. *)
      if n =? m then UB else
      match nth_error (w_objs w) n, nth_error (w_objs w) m with
      | Some (Some t), Some (Some h) =>
          Ok (mkW (upd (w_bufs w) (h_own t) None ++ [Some no_state])
                  (upd (upd (w_objs w) n (Some (mkH (h_base h) (h_off h) (h_ptr h) (h_own h))))
                       m (Some (mkH (h_base h) (h_off h) (h_ptr h) (length (w_bufs w))))), [])
      | _, _ => UB
      end
  | ADestroy n =>
      match nth_error (w_objs w) n with
      | Some (Some h) => Ok (mkW (upd (w_bufs w) (h_own h) None) (upd (w_objs w) n None), [])
      | _ => UB
      end
  | AInit n junk =>
      (* xmssFast.cpp:22-66: assigns fresh vectors to the members (the old ones are
         freed) and points [_state] at them *)
      match nth_error (w_objs w) n with
      | Some (Some h) =>
          o <- xfast_initialize_tree junk (mkXF (h_base h) no_state) 16 ;;
          Ok (mkW (upd (w_bufs w) (h_own h) None ++ [Some (xf_state o)])
                  (upd (w_objs w) n (Some (mkH (xf_base o) (b_stackoffset (xf_state o)) (length (w_bufs w)) (length (w_bufs w))))), [])
      | _ => UB
      end
  end.

(** programs over xmssFast.h:11-36. *)
Fixpoint world_run (w : world) (l : list act) : res (world * list obs) :=
  match l with
  | [] => Ok (w, [])
  | a :: r =>
      '(w, x) <- world_step w a ;;
      '(w, xs) <- world_run w r ;;
      Ok (w, x ++ xs)
  end.

(** The object a handle stands for when its buffers live.  xmssFast.h:26-36. *)
Definition obj_at (w : world) (n : nat) : option xfast :=
  match nth_error (w_objs w) n with
  | Some (Some h) => match nth_error (w_bufs w) (h_ptr h) with
                     | Some (Some b) => Some (mkXF (h_base h) (with_off b (h_off h)))
                     | _ => None
                     end
  | _ => None
  end.
