(** C103: one wallet in durable storage (its words and the next index), started now with
    the C++ library and now with the Rust port, by an application that may crash at any
    time.  The application is not code of the repository; its calls are the modelled
    ones (Misc.v, XmssObj.v, RsMisc.v, RsObj.v). *)
From Coq Require Import List NArith Arith Bool.
From Verif Require Import Base Bytes SpecApi XmssObj Misc RsBase RsObj RsMisc SpecMove Session.
Import ListNotations.
Open Scope nat_scope.

(** The object in memory: of the C++ library or of the port. *)
Inductive handle : Type := HCpp (x : xfast) | HRust (o : rs_fast).
Inductive mix_event : Type :=
| MStart (s : side) (junk : list N)   (* restore with that library, then setIndex(saved) *)
| MSign (msg : list N) (c : crash)
| MSkip (i : N)
| MCrash.
(** Durable: the index and what was handed out, with the side that made it. *)
Record mixst : Type := mkMix { mx_saved : N; mx_out : list (side * list N * list N); mx_live : option handle }.
Definition mix_new : mixst := mkMix 0 [] None.
Definition kill (a : mixst) : mixst := mkMix (mx_saved a) (mx_out a) None.

(** C++: mnemonic2bin (misc.cpp:87-135), XmssFast(extended_seed) (xmssFast.cpp:16-20),
    setIndex (xmssFast.cpp:68-77).  Port: misc.rs:103-151, xmss_fast.rs:98-143.  Where
    the index is refused the application gives up; [None]: undefined behaviour, a panic
    or another error. *)
Definition mix_start (words : list N) (s : side) (junk : list N) (a : mixst) : option mixst :=
  match s with
  | Cpp =>
      match (es <- mnemonic2bin words ;; x <- XmssFast_from_extended_seed junk es ;; xfast_setIndex x (mx_saved a)) with
      | Ok (x, inr _) => Some (mkMix (mx_saved a) (mx_out a) (Some (HCpp x)))
      | Ok (_, inl _) => Some (kill a)
      | _ => None
      end
  | Rust =>
      match (es <~ rs_mnemonic2bin words ;; o <~ rs_fast_from_extended_seed es ;; rs_fast_set_index o (mx_saved a)) with
      | ROk (o, inr _) => Some (mkMix (mx_saved a) (mx_out a) (Some (HRust o)))
      | ROk (_, inl _) => Some (kill a)
      | _ => None
      end
  end.

(** What follows a successful sign: store the index [i] of the object and hand the
    signature out, in the order [save_first] (xmssBase.cpp:133-139, xmss_base.rs:207-210). *)
Definition mix_release (save_first : bool) (a : mixst) (x : handle) (i : N) (y : side * list N * list N) (c : crash) : mixst :=
  match c with
  | AfterSign => kill a
  | BetweenActions => if save_first then mkMix i (mx_out a) None else mkMix (mx_saved a) (mx_out a ++ [y]) None
  | NoCrash => mkMix i (mx_out a ++ [y]) (Some x)
  end.

(** One event: xmssFast.cpp:68-95, xmss_fast.rs:134-164.  A panic of the port while it
    signs ends the process. *)
Definition mix_step (save_first : bool) (words : list N) (a : mixst) (e : mix_event) : option mixst :=
  match e with
  | MStart s junk => mix_start words s junk a
  | MCrash => Some (kill a)
  | MSign msg c =>
      match mx_live a with
      | None => Some a
      | Some (HCpp x) =>
          match xfast_sign x msg with
          | Ok (x, inr s) => Some (mix_release save_first a (HCpp x) (getIndex (xf_base x)) (Cpp, msg, s) c)
          | Ok (x, inl _) => Some (mkMix (mx_saved a) (mx_out a) (Some (HCpp x)))
          | _ => None
          end
      | Some (HRust o) =>
          match rs_fast_sign o msg with
          | ROk (o, inr s) =>
              match rs_get_index (rfa_base o) with
              | ROk i => Some (mix_release save_first a (HRust o) i (Rust, msg, s) c)
              | _ => None
              end
          | ROk (o, inl _) => Some (mkMix (mx_saved a) (mx_out a) (Some (HRust o)))
          | RPanic => Some (kill a)
          | RErr _ => None
          end
      end
  | MSkip i =>
      match mx_live a with
      | None => Some a
      | Some (HCpp x) =>
          match xfast_setIndex x i with
          | Ok (x, _) => Some (mkMix (mx_saved a) (mx_out a) (Some (HCpp x)))
          | _ => None
          end
      | Some (HRust o) =>
          match rs_fast_set_index o i with
          | ROk (o, _) => Some (mkMix (mx_saved a) (mx_out a) (Some (HRust o)))
          | _ => None
          end
      end
  end.
(** Any life of the wallet (xmssFast.cpp:16-95, xmss_fast.rs:98-164). *)
Fixpoint mix_run (save_first : bool) (words : list N) (a : mixst) (l : list mix_event) : option mixst :=
  match l with
  | [] => Some a
  | e :: r => match mix_step save_first words a e with Some a => mix_run save_first words a r | None => None end
  end.
