(** Model of src/jswrapper/getRandomSeed.js.

    [size] is undefined or a JavaScript number (another primitive value behaves like the
    number it converts to; objects, symbols and BigInts are not modelled).  The platform:
    WebCrypto or nothing; crypto.getRandomValues refuses more than 65536 bytes (W3C Web
    Cryptography API, 10.1.1) and otherwise fills the array; Uint8Array(size) truncates the
    length towards zero (ECMA-262 ToIndex); reading behind the end of a typed array gives
    undefined; what embind makes of push_back(undefined) depends on build options: an
    exception or some byte. *)
From Coq Require Import List NArith ZArith Arith QArith Qround Bool.
Import ListNotations.
Open Scope nat_scope.

(** getRandomSeed.js:10-14: the argument. *)
Inductive js_number : Type := JNaN | JPosInf | JNegInf | JFin (q : Q).
(** getRandomSeed.js:10-14: the argument. *)
Inductive js_size : Type := JUndefined | JNumber (x : js_number).
(** getRandomSeed.js:15-49: the ways out. *)
Inductive js_result : Type :=
| JBytes (v : list N)          (* the Uint8Vector returned *)
| JBadSize                     (* line 15 *)
| JNoCrypto                    (* line 24 *)
| JRefused                     (* thrown by Uint8Array or getRandomValues, lines 27-28 *)
| JAllZero                     (* line 41 *)
| JNotAByte.                   (* thrown by push_back(undefined), line 47 *)

(** getRandomSeed.js:18-28, 45-48: the environment. *)
Record platform : Type := mkPlatform {
  has_crypto : bool;
  random_bytes : nat -> list N;      (* what getRandomValues writes into an array of this length *)
  push_undefined : option N }.
(** getRandomValues fills the whole array with bytes.  getRandomSeed.js:27-28. *)
Definition platform_ok (p : platform) : Prop :=
  forall n, length (random_bytes p n) = n /\ Forall (fun b => (b < 256)%N) (random_bytes p n).

(** [x > 0] (line 14) *)
Definition js_positive (x : js_number) : bool :=
  match x with JNaN | JNegInf => false | JPosInf => true | JFin q => match (q ?= 0)%Q with Gt => true | _ => false end end.

(** lines 34-39: the loop leaves when it meets a byte that is not 0; undefined is not 0. *)
Fixpoint js_all_zero (bytes : list N) (is : list nat) : bool :=
  match is with
  | [] => true
  | i :: r => match nth_error bytes i with Some b => if (b =? 0)%N then js_all_zero bytes r else false | None => false end
  end.
(** lines 46-48 *)
Fixpoint js_push (conv : option N) (bytes : list N) (is : list nat) : option (list N) :=
  match is with
  | [] => Some []
  | i :: r =>
      match (match nth_error bytes i with Some b => Some b | None => conv end) with
      | None => None
      | Some b => match js_push conv bytes r with None => None | Some v => Some (b :: v) end
      end
  end.

(** lines 10-50.  For a finite positive [q] the loop "for (i = 0; i < q; i++)" runs for the
    i below the ceiling of q. *)
Definition js_getRandomSeed (p : platform) (size : js_size) : js_result :=
  let x := match size with JUndefined => JFin 48 | JNumber x => x end in
  if negb (js_positive x) then JBadSize else
  if negb (has_crypto p) then JNoCrypto else
  match x with
  | JFin q =>
      let len := Qfloor q in
      if (65536 <? len)%Z then JRefused else
      let bytes := random_bytes p (Z.to_nat len) in
      let is := seq 0 (Z.to_nat (Qceiling q)) in
      if Qle_bool 16 q && js_all_zero bytes is then JAllZero else
      match js_push (push_undefined p) bytes is with None => JNotAByte | Some v => JBytes v end
  | _ => JRefused
  end.
