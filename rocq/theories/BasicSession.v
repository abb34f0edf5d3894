(** C100: an application that keeps the index of an XmssBasic key in durable storage and
    may crash at any time.  As in Session.v the application is not code of the
    repository; its calls are the modelled ones (XmssObj.v). *)
From Coq Require Import List NArith Arith Bool.
From Verif Require Import Base Bytes Descriptor SpecApi XmssObj Session.
Import ListNotations.
Open Scope nat_scope.

(** The constructor's arguments, xmssBasic.cpp:7-50 (there is no constructor from an
    extended seed), backed up once. *)
Record bbackup : Type := mkBB { b_seed : list N; b_height : N; b_hash : N; b_fmt : N; b_w : N }.

Inductive bevent : Type :=
| BStart (junk : list N)                          (* XmssBasic(seed, ...), xmssBasic.cpp:7-50, then setIndex(saved), xmssBase.cpp:141-148 *)
| BSign (junk : list N) (msg : list N) (c : crash) (* xmssBasic.cpp:52-63 *)
| BSkip (i : N)                                   (* xmssBase.cpp:141-148 *)
| BCrash.
(** setIndex takes a uint32_t, xmssBase.h:76. *)
Definition bevent_ok (e : bevent) : Prop := match e with BSkip i => (i < 2 ^ 32)%N | _ => True end.

(** Durable: [b_saved] and what has been handed out; volatile: the object. *)
Record bapp : Type := mkBA { b_saved : N; b_out : list (list N * list N); b_live : option xbase }.

(** How the application sees that the key is spent: not at all, by
    getIndex() >= getNumberSignatures(), or by getRemainingSignatures() == 0
    (xmssBase.h:71-75). *)
Inductive end_test : Type := NoTest | IndexTest | RemainingTest.
Definition is_spent (t : end_test) (o : xbase) : res bool :=
  match t with
  | NoTest => Ok false
  | IndexTest => n <- getNumberSignatures o ;; Ok (n <=? getIndex o)%N
  | RemainingTest => r <- getRemainingSignatures o ;; Ok (r =? 0)%N
  end.
(** What the application does by itself, because XmssBasic does not: store the index
    before the signature leaves; test for the end of the key before signing; never set
    the index back. *)
Record policy : Type := mkPolicy { store_first : bool; end_check : end_test; forward_only : bool }.

(** One event (xmssBasic.cpp:7-63, xmssBase.cpp:133-148). *)
Definition bapp_step (p : policy) (k : bbackup) (a : bapp) (e : bevent) : res bapp :=
  match e with
  | BStart junk =>
      o <- XmssBasic_new junk (b_seed k) (b_height k) (b_hash k) (b_fmt k) (b_w k) ;;
      Ok (mkBA (b_saved a) (b_out a) (Some (fst (base_setIndex o (b_saved a)))))
  | BSign junk msg c =>
      match b_live a with
      | None => Ok a
      | Some o =>
          spent <- is_spent (end_check p) o ;;
          if (spent : bool) then Ok a else
          '(o, s) <- XmssBasic_sign junk o msg ;;
          let out := b_out a ++ [(msg, s)] in
          match c with
          | AfterSign => Ok (mkBA (b_saved a) (b_out a) None)
          | BetweenActions => Ok (if store_first p then mkBA (getIndex o) (b_out a) None else mkBA (b_saved a) out None)
          | NoCrash => Ok (mkBA (getIndex o) out (Some o))
          end
      end
  | BSkip i =>
      match b_live a with
      | None => Ok a
      | Some o => if forward_only p && (i <? getIndex o)%N then Ok a
                  else Ok (mkBA (b_saved a) (b_out a) (Some (fst (base_setIndex o i))))
      end
  | BCrash => Ok (mkBA (b_saved a) (b_out a) None)
  end.
(** A life of the application: any events (xmssBasic.cpp:7-63). *)
Fixpoint bapp_run (p : policy) (k : bbackup) (a : bapp) (l : list bevent) : res bapp :=
  match l with
  | [] => Ok a
  | e :: r => a <- bapp_step p k a e ;; bapp_run p k a r
  end.
Definition bapp_start : bapp := mkBA 0 [] None.
