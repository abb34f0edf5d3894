(** C101: a wallet that moves between the C++ library and the Rust port.  Its owner keeps
    the mnemonic and the index of the next one-time key; the moves are not code of the
    repository, their calls are the modelled ones (Misc.v, XmssObj.v, RsMisc.v,
    RsObj.v). *)
From Coq Require Import List NArith Arith Bool.
From Verif Require Import Base Bytes SpecApi XmssObj Misc RsBase RsObj RsMisc SpecRust SpecMove.
Import ListNotations.
Open Scope nat_scope.

Record paper : Type := mkPaper { p_words : list N; p_next : N }.

(** A stay with the C++ library: mnemonic2bin (misc.cpp:87-135), XmssFast(extended_seed)
    (xmssFast.cpp:16-20), setIndex, any calls (xmssFast.cpp:68-95), then getExtendedSeed
    (xmssBase.cpp:176-181), bin2mnemonic (misc.cpp:67-85) and getIndex.  If setIndex
    throws, the key is left alone and every call counts as refused. *)
Definition cpp_stay (junk : list N) (cs : list op) (p : paper) : res (paper * list mobs) :=
  es <- mnemonic2bin (p_words p) ;;
  x <- XmssFast_from_extended_seed junk es ;;
  '(x, r) <- xfast_setIndex x (p_next p) ;;
  match r with
  | inl _ => Ok (p, map (fun _ => MRefused) cs)
  | inr _ =>
      '(x, os) <- run x cs ;;
      t <- bin2mnemonic (getExtendedSeed (xf_base x)) ;;
      Ok (mkPaper t (getIndex (xf_base x)), map of_obs os)
  end.

(** What one call of the port shows, xmss_fast.rs:134-164. *)
Definition of_robs (o : robs) : mobs := match o with RObsSig s => MSig s | RObsIdx i => MIdx i | RObsErr _ => MRefused end.
(** The same with the port: misc.rs:103-151, xmss_fast.rs:98-164, xmss_base.rs:245-249,
    misc.rs:74-101, xmss_base.rs:207-210. *)
Definition rust_stay (cs : list op) (p : paper) : rs (paper * list mobs) :=
  es <~ rs_mnemonic2bin (p_words p) ;;
  o <~ rs_fast_from_extended_seed es ;;
  '(o, r) <~ rs_fast_set_index o (p_next p) ;;
  match r with
  | inl _ => ROk (p, map (fun _ => MRefused) cs)
  | inr _ =>
      '(o, os) <~ rs_run o cs ;;
      t <~ rs_bin2mnemonic (rs_get_extended_seed (rfa_base o)) ;;
      i <~ rs_get_index (rfa_base o) ;;
      ROk (mkPaper t i, map of_robs os)
  end.

Inductive stay : Type := StayCpp (junk : list N) (cs : list op) | StayRust (cs : list op).
(** [None]: undefined behaviour, a panic, or an error while the wallet is restored or
    written down (misc.cpp:67-135, xmssFast.cpp:16-95, misc.rs:74-151,
    xmss_fast.rs:98-164). *)
Definition make_stay (s : stay) (p : paper) : option (paper * list mobs) :=
  match s with
  | StayCpp junk cs => match cpp_stay junk cs p with Ok r => Some r | _ => None end
  | StayRust cs => match rust_stay cs p with ROk r => Some r | _ => None end
  end.
(** A life of the wallet (misc.cpp:67-135, xmssFast.cpp:16-95, misc.rs:74-151,
    xmss_fast.rs:98-164). *)
Fixpoint make_stays (l : list stay) (p : paper) : option (paper * list mobs) :=
  match l with
  | [] => Some (p, [])
  | s :: r =>
      match make_stay s p with
      | None => None
      | Some (p, xs) => match make_stays r p with None => None | Some (p, ys) => Some (p, xs ++ ys) end
      end
  end.
(** The calls of a stay with the side they are made on (xmssFast.cpp:68-95,
    xmss_fast.rs:134-164). *)
Definition stay_calls (s : stay) : list (side * op) :=
  match s with StayCpp _ cs => map (pair Cpp) cs | StayRust cs => map (pair Rust) cs end.
