(** C81: an application that keeps its index in durable storage and may crash at any
    time.  The application is not code of the repository; it is the protocol the index
    functions of xmssFast.h:15-24 and xmssBase.h:75-77 are for.  Its calls are the
    modelled ones (XmssObj.v). *)
From Coq Require Import List NArith Arith Bool.
From Verif Require Import Base Bytes Descriptor SpecApi XmssObj.
Import ListNotations.
Open Scope nat_scope.

(** What the application backed up once: the constructor's arguments, and the extended
    seed (getExtendedSeed, xmssBase.cpp:176-181). *)
Record backup : Type := mkBackup { k_seed : list N; k_height : N; k_hash : N; k_fmt : N; k_ext : list N }.

(** Where a crash hits a signing operation: after sign returned, after the first of the
    two actions "store getIndex()" and "hand the signature out", or not at all. *)
Inductive crash : Type := AfterSign | BetweenActions | NoCrash.
Inductive event : Type :=
| EStart (junk : list N)              (* XmssFast(seed, ...), xmssFast.cpp:7-14, then setIndex(saved) *)
| EStartExt (junk : list N)           (* XmssFast(extended_seed), xmssFast.cpp:16-20, then setIndex(saved) *)
| ESign (msg : list N) (c : crash)    (* xmssFast.cpp:79-95 *)
| ESkip (i : N)                       (* xmssFast.cpp:68-77 *)
| ECrash.

(** Durable: [saved] and what has been handed out; volatile: the object. *)
Record appst : Type := mkApp { saved : N; handed_out : list (list N * list N); live : option xfast }.

(** xmssFast.cpp:68-77: restoring the index; the application gives up if setIndex throws,
    unless it is [careless]. *)
Definition restore (careless : bool) (a : appst) (x : xfast) : res appst :=
  '(x, r) <- xfast_setIndex x (saved a) ;;
  Ok (mkApp (saved a) (handed_out a) (match r with inl _ => if careless then Some x else None | inr _ => Some x end)).

(** One event (xmssFast.cpp:7-20, 68-95, xmssBase.cpp:133-139).  [save_first]: the order
    of the two actions after sign. *)
Definition app_step (save_first careless : bool) (k : backup) (a : appst) (e : event) : res appst :=
  match e with
  | EStart junk => x <- XmssFast_new junk (k_seed k) (k_height k) (k_hash k) (k_fmt k) ;; restore careless a x
  | EStartExt junk => x <- XmssFast_from_extended_seed junk (k_ext k) ;; restore careless a x
  | ESign msg c =>
      match live a with
      | None => Ok a
      | Some x =>
          '(x, r) <- xfast_sign x msg ;;
          match r with
          | inl _ => Ok (mkApp (saved a) (handed_out a) (Some x))
          | inr s =>
              let i := getIndex (xf_base x) in
              let out := handed_out a ++ [(msg, s)] in
              match c with
              | AfterSign => Ok (mkApp (saved a) (handed_out a) None)
              | BetweenActions => if save_first then Ok (mkApp i (handed_out a) None) else Ok (mkApp (saved a) out None)
              | NoCrash => Ok (mkApp i out (Some x))
              end
          end
      end
  | ESkip i =>
      match live a with
      | None => Ok a
      | Some x => '(x, _) <- xfast_setIndex x i ;; Ok (mkApp (saved a) (handed_out a) (Some x))
      end
  | ECrash => Ok (mkApp (saved a) (handed_out a) None)
  end.
(** A life of the application: any events, from a fresh key (xmssFast.cpp:7-20). *)
Fixpoint app_run (save_first careless : bool) (k : backup) (a : appst) (l : list event) : res appst :=
  match l with
  | [] => Ok a
  | e :: r => a <- app_step save_first careless k a e ;; app_run save_first careless k a r
  end.
Definition app_start : appst := mkApp 0 [] None.
