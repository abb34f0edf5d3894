(** What misc.cpp, qrlHelper.h, XmssBase::verify and XmssBasic::sign do when memory runs out
    (C96).  A result [None] is std::bad_alloc leaving the call; which allocations fail is an
    arbitrary parameter.

    A stream whose buffer cannot grow while a formatted operation runs does not throw: the
    operation catches the exception, sets badbit ([exceptions()] is not changed anywhere in
    misc.cpp), and every later operation on the stream does nothing.
    PicoSHA2 is taken to allocate at most once per call. *)
From Coq Require Import List NArith Arith Bool.
From Verif Require Import Base Bytes Keccak HashAddress Sha256 Wordlist Wots XmssCommon AlgsXmss Descriptor XmssObj Misc.
Import ListNotations.
Open Scope N_scope.

(** The std::stringstream of misc.cpp:15 and 73: what has been written, and badbit. *)
Record ostr : Type := mkOS { o_text : list N; o_bad : bool }.
(** One character put into the buffer; [room n] = a buffer that holds n characters has place
    for one more, or can be enlarged.  misc.cpp:22, 26, 80 (operator<<). *)
Definition sputc (room : nat -> bool) (s : ostr) (c : N) : ostr :=
  if o_bad s then s else if room (length (o_text s)) then mkOS (o_text s ++ [c]) false else mkOS (o_text s) true.
(** misc.cpp:22, 26, 80. *)
Definition sput (room : nat -> bool) (s : ostr) (cs : list N) : ostr := fold_left (sputc room) cs s.
(** [ss.str()] copies the text.  misc.cpp:29, 84. *)
Definition str_of (ok : bool) (s : ostr) : option (list N) := if ok then Some (o_text s) else None.

(** misc.cpp:17-27 *)
Fixpoint bin2hstr_mem_loop (room : nat -> bool) (wrap count : N) (vec : list N) (s : ostr) {struct vec} : res ostr :=
  match vec with
  | [] => Ok s
  | val :: rest =>
      if 0 <? wrap then
        if INT_MAX <? count + 1 then UB
        else if wrap <? count + 1
             then bin2hstr_mem_loop room wrap 1 rest (sput room (sput room s [10]) (put_hex val))
             else bin2hstr_mem_loop room wrap (count + 1) rest (sput room s (put_hex val))
      else bin2hstr_mem_loop room wrap count rest (sput room s (put_hex val))
  end.
(** misc.cpp:14-30; [ok] 0: the stream, [ok] 1: the returned string. *)
Definition bin2hstr_mem (ok : nat -> bool) (room : nat -> bool) (vec : list N) (wrap : N) : res (option (list N)) :=
  if negb (ok 0%nat) then Ok None else
  s <- bin2hstr_mem_loop room wrap 0 vec (mkOS [] false) ;;
  Ok (str_of (ok 1%nat) s).

(** misc.cpp:75-82 *)
Fixpoint bin2mnemonic_mem_loop (room : nat -> bool) (fuel : nat) (vec : list N) (nibble : N) (separator : list N) (s : ostr) {struct fuel} : res ostr :=
  match fuel with
  | O => UB
  | S f =>
      if nibble <? N.of_nat (length vec) * 2 then
        let p := nibble / 2 in
        b1 <- get vec (N.to_nat p) ;;
        b2 <- (if p + 1 <? N.of_nat (length vec) then get vec (N.to_nat (p + 1)) else Ok 0) ;;
        let idx := if nibble mod 2 =? 0 then b1 * 16 + b2 / 16 else (b1 mod 16) * 256 + b2 in
        word <- get wordlist (N.to_nat idx) ;;
        if INT_MAX <? nibble + 3 then UB else
        bin2mnemonic_mem_loop room f vec (nibble + 3) [32] (sput room (sput room s separator) word)
      else Ok s
  end.
(** misc.cpp:67-85; [ok] 0: the exception or the stream, [ok] 1: the returned string. *)
Definition bin2mnemonic_mem (ok : nat -> bool) (room : nat -> bool) (vec : list N) : res (option (list N)) :=
  if negb (ok 0%nat) then Ok None else
  if negb (Nat.modulo (length vec) 3 =? 0)%nat then Exn InvalidArgument else
  s <- bin2mnemonic_mem_loop room (S (length vec * 2)) vec 0 [] (mkOS [] false) ;;
  Ok (str_of (ok 1%nat) s).

(** misc.cpp:111-128; [hold k w] = in its k-th turn [ss >> word] gets the memory to hold [w];
    if not, badbit is set and the loop ends.  [push n] = the result, of n bytes, can take
    another byte (else std::bad_alloc leaves, :125); simplification: asked once per turn, for the bytes
    of the turn. *)
Fixpoint decode_mem_loop (hold : nat -> list N -> bool) (push : nat -> bool) (k : nat) (fuel : nat) (ss : list N) (current buffering : N) (out : list N) {struct fuel}
  : res (option (N * N * list N)) :=
  match fuel with
  | O => UB
  | S f =>
      match extract_word ss with
      | None => Ok (Some (current, buffering, out))
      | Some (word, ss') =>
          if negb (hold k word) then Ok (Some (current, buffering, out)) else
          match word_lookup word with
          | None => Exn InvalidArgument
          | Some v =>
              '(current', buffering', out') <- drain 3 (current * 4096 + v) (buffering + 3) out ;;
              if negb (forallb push (seq (length out) (length out' - length out))) then Ok None else
              decode_mem_loop hold push (S k) f ss' current' buffering' out'
          end
      end
  end.
(** misc.cpp:87-135; [ok] 0: the exception (:92), the look-up table (:97-101) or the stream. *)
Definition mnemonic2bin_mem (ok : nat -> bool) (hold : nat -> list N -> bool) (push : nat -> bool) (mnemonic : list N) : res (option (list N)) :=
  if negb (ok 0%nat) then Ok None else
  let word_count := count_char 32 mnemonic + 1 in
  if negb (word_count mod 2 =? 0) then Exn InvalidArgument else
  r <- decode_mem_loop hold push 0 (S (length mnemonic)) mnemonic 0 0 [] ;;
  match r with
  | None => Ok None
  | Some (current, buffering, out) =>
      if 0 <? buffering then if push (length out) then Ok (Some (out ++ [N.land current 255])) else Ok None
      else Ok (Some out)
  end.

(** [throw std::invalid_argument(text)]: the exception object holds a copy of the text.  xmssBase.cpp:210, 215, 90, 94, 242. *)
Definition throw_mem {A} (ok : bool) : res (option A) := if ok then Exn InvalidArgument else Ok None.

(** xmssBase.cpp:209-254.  Allocations: 0 an exception, 1 the descriptor bytes
    (qrlDescriptor.h:54-57), 2 the copy of the signature (:245), 3 the copy of the message (:249). *)
Definition verify_mem_body (ok : nat -> bool) (msg sig extended_pk : list N) (w : N) : res (option bool) :=
  if negb (length extended_pk =? 67)%nat then throw_mem (ok 0%nat) else
  base <- calculateSignatureBaseSize w ;;
  if base + 254 * 32 <? N.of_nat (length sig) then throw_mem (ok 0%nat) else
  if negb (ok 1%nat) then Ok None else
  desc <- descr_fromExtendedPK extended_pk ;;
  if negb (d_sig desc =? 0) then Ok (Some false) else
  match getHeightFromSigSize (N.of_nat (length sig)) w with
  | Exn e => if ok 0%nat then Exn e else Ok None
  | UB => UB
  | Ok height =>
      if (height =? 0) || negb (d_height desc =? height) then Ok (Some false) else
      if bad_height height then throw_mem (ok 0%nat) else
      p <- xmss_set_params (N.to_nat height) w 2 ;;
      if negb (ok 2%nat) then Ok None else
      if negb (ok 3%nat) && negb (length msg =? 0)%nat then Ok None else
      b <- with_hash (d_hash desc) (fun hf =>
        xmss_Verifysig hf (x_wots p) msg sig (skipn descr_getSize extended_pk) (N.to_nat height)) ;;
      Ok (Some b)
  end.
(** [catch (std::invalid_argument &)] only: std::bad_alloc leaves.  xmssBase.cpp:203-259. *)
Definition verify_mem (ok : nat -> bool) (msg sig extended_pk : list N) (w : N) : res (option bool) :=
  match verify_mem_body ok msg sig extended_pk w with
  | Exn InvalidArgument => Ok (Some false)
  | r => r
  end.

(** qrlHelper.h:41-65.  Allocations: 0 the descriptor bytes, 1 the hash, 2 inside hash256. *)
Definition addressIsValid_mem_body (ok : nat -> bool) (address : list N) : res (option bool) :=
  if negb (length address =? 39)%nat then Ok (Some false) else
  if negb (ok 0%nat) then Ok None else
  descr <- descr_fromBytes (firstn descr_getSize address) ;;
  if negb (d_fmt descr =? SHA256_2X) then Ok (Some false) else
  if negb (ok 1%nat) then Ok None else
  if negb (ok 2%nat) then Ok None else
  let hashed_key2 := sha256 (firstn 35 address) in
  x35 <- get address 35 ;; y28 <- get hashed_key2 28 ;;
  x36 <- get address 36 ;; y29 <- get hashed_key2 29 ;;
  x37 <- get address 37 ;; y30 <- get hashed_key2 30 ;;
  x38 <- get address 38 ;; y31 <- get hashed_key2 31 ;;
  Ok (Some ((x35 =? y28) && (x36 =? y29) && (x37 =? y30) && (x38 =? y31))%bool).
(** [catch (...) { return false; }].  qrlHelper.h:39-67. *)
Definition addressIsValid_mem (ok : nat -> bool) (address : list N) : res bool :=
  match addressIsValid_mem_body ok address with
  | Exn _ | Ok None => Ok false
  | Ok (Some b) => Ok b
  | UB => UB
  end.

(** xmssBasic.cpp:52-63.  Allocations: 0 the signature, 1 the copy of the message; both
    before xmss_Signmsg runs.  The object after the call, and the signature. *)
Definition XmssBasic_sign_mem (ok : nat -> bool) (junk : list N) (o : xbase) (msg : list N) : res (xbase * option (list N)) :=
  if negb (ok 0%nat) then Ok (o, None) else
  if negb (ok 1%nat) && negb (length msg =? 0)%nat then Ok (o, None) else
  '(o, sig) <- XmssBasic_sign junk o msg ;;
  Ok (o, Some sig).
