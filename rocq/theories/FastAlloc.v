(** XmssFast when memory runs out.  The allocations of the two members that allocate,
    in order; an allocation that fails throws std::bad_alloc, which leaves the call.
    The C code underneath works on the stack (PicoSHA2, which is not in the repository,
    is taken not to throw). *)
From Coq Require Import List NArith Arith Lia Bool.
From Verif Require Import Base Bytes Keccak HashAddress Wots XmssCommon AlgsXmss AlgsXmssFast Descriptor SpecApi SpecAlloc XmssObj FastCopy.
Import ListNotations.
Open Scope nat_scope.

(** The object, and whether the pointers of [_state] still lead to live vectors.  xmssFast.h:26-36. *)
Record aobj : Type := mkA { a_obj : xfast; a_intact : bool }.

(** xmssFast.cpp:79-95.  Allocation 0: the signature (:81); allocation 1: the temporary
    copy of the message (:91, none for an empty one).  Both come before
    xmssfast_Signmsg runs, which follows the pointers of [_state] (undefined if they do
    not lead to live vectors); setIndex (:84) may throw in between, and to the current
    index does not follow them. *)
Definition sign_alloc (intact : bool) (fail : option nat) (o : xfast) (msg : list N) : res (xfast * (exn + list N + unit)) :=
  if fails_at fail 0 then Ok (o, inr tt) else
  let index := getIndex (xf_base o) in
  '(o, r) <- xfast_setIndex o index ;;
  match r with
  | inl e => Ok (o, inl (inl e))
  | inr _ =>
      if fails_at fail 1 && negb (length msg =? 0) then Ok (o, inr tt) else
      if negb intact then UB else
      let b := xf_base o in
      with_hash (xb_hash b) (fun hf =>
        '(sk, st, sig) <- xmssfast_Signmsg hf (xb_params b) (xb_sk b) (xf_state o) msg ;;
        Ok (mkXF (with_sk b sk) st, inl (inr sig)))
  end.

(** xmssFast.cpp:22-66 with w = 16.  Allocations: 0 the new _sk (:24), 1 tmp (:25),
    then params are set (:35), 2..8 the vectors (:38-44), each assigned (the old one
    freed) before the next is allocated; the pointers are set last (:50-58). *)
Definition init_alloc (junk : list N) (fail : option nat) (a : aobj) : res (aobj * bool) :=
  let o := a_obj a in
  let b := xf_base o in
  if fails_at fail 0 then Ok (a, false) else
  let b := with_sk b (repeat 0%N 132) in
  if fails_at fail 1 then Ok (mkA (mkXF b (xf_state o)) (a_intact a), false) else
  if bad_height (xb_height b) then Exn InvalidArgument else
  p <- xmss_set_params (N.to_nat (xb_height b)) 16 2 ;;
  let b := mkXB p (xb_hash b) (xb_fmt b) (xb_height b) (xb_sk b) (xb_seed b) in
  if fails_below fail 9 then Ok (mkA (mkXF b (xf_state o)) (a_intact a && fails_at fail 2), false) else
  o <- initialize_tree junk (xb_seed b) (xb_height b) (xb_hash b) (xb_fmt b) 16 ;;
  Ok (mkA o true, true).

(** calls of xmssFast.cpp:22-95; setIndex follows the pointers only if it has to advance
    (FastCopy.follows). *)
Definition alloc_step (a : aobj) (c : acall) : res (aobj * aobs) :=
  match c with
  | MSign m fail =>
      '(o, r) <- sign_alloc (a_intact a) fail (a_obj a) m ;;
      Ok (mkA o (a_intact a), match r with inr _ => ABadAlloc | inl (inl e) => AObs (ObsExn e) | inl (inr s) => AObs (ObsSig s) end)
  | MSetIndex i =>
      if negb (a_intact a) && follows (xf_base (a_obj a)) (OpSetIndex i) then UB else
      '(o, r) <- xfast_setIndex (a_obj a) i ;;
      Ok (mkA o (a_intact a), AObs (match r with inl e => ObsExn e | inr j => ObsIdx j end))
  | MInit junk fail =>
      '(a, ok) <- init_alloc junk fail a ;;
      Ok (a, if ok then ADone else ABadAlloc)
  end.
(** calls of xmssFast.cpp:22-95. *)
Fixpoint alloc_run (a : aobj) (l : list acall) : res (aobj * list aobs) :=
  match l with
  | [] => Ok (a, [])
  | c :: r => '(a, x) <- alloc_step a c ;; '(a, xs) <- alloc_run a r ;; Ok (a, x :: xs)
  end.

(** A history of calls before each of which the traversal state is replaced.  calls of xmssFast.cpp:22-95. *)
Fixpoint upset_run (o : xfast) (l : list (bds_state * op)) : res (xfast * list obs) :=
  match l with
  | [] => Ok (o, [])
  | (st, c) :: r => '(o, x) <- step (mkXF (xf_base o) st) c ;; '(o, xs) <- upset_run o r ;; Ok (o, x :: xs)
  end.
