(** Model of src/qrl/qrlDescriptor.h and src/qrl/qrlHelper.h. *)
From Coq Require Import List NArith Arith Lia Bool.
From Verif Require Import Base Bytes Sha256 XmssCommon.
Import ListNotations.
Open Scope N_scope.

(** qrlDescriptor.h:17-103, the four private fields; enum values are kept as the
    integers that the casts store in them. *)
Record descriptor : Type := mkDescr {
  d_hash : N; d_sig : N; d_height : N; d_fmt : N }.

(** qrlDescriptor.h:61-73 fromBytes *)
Definition descr_fromBytes (b : list N) : res descriptor :=
  match b with
  | [b0; b1; _] =>
      let hashFunction := N.land b0 0x0F in
      let signatureType := N.land (N.shiftr b0 4) 0xF0 in
      let height := u8 (N.shiftl (N.land b1 0x0F) 1) in
      let addrFormatType := N.shiftr (N.land b1 0xF0) 4 in
      Ok (mkDescr hashFunction signatureType height addrFormatType)
  | _ => Exn InvalidArgument
  end.

(** qrlDescriptor.h:75-78 *)
Definition descr_getSize : nat := 3.

(** qrlDescriptor.h:37-47 *)
Definition descr_fromExtendedSeed (es : list N) : res descriptor :=
  if negb (length es =? 51)%nat then Exn InvalidArgument
  else descr_fromBytes (firstn descr_getSize es).

(** qrlDescriptor.h:49-59 *)
Definition descr_fromExtendedPK (pk : list N) : res descriptor :=
  if negb (length pk =? 67)%nat then Exn InvalidArgument
  else descr_fromBytes (firstn descr_getSize pk).

(** qrlDescriptor.h:80-96 *)
Definition descr_getBytes (d : descriptor) : list N :=
  [ u8 (N.lor (N.shiftl (d_sig d) 4) (N.land (d_hash d) 0x0F));
    u8 (N.lor (N.shiftl (d_fmt d) 4) (N.land (N.shiftr (d_height d) 1) 0x0F));
    0 ].

(** qrlAddressFormat.h: SHA256_2X = 0; ADDRESS_HASH_SIZE = 32.  qrlAddressFormat.h:6-8, qrlHelper.h:28, 42. *)
Definition SHA256_2X : N := 0.

(** qrlHelper.h:17-37 *)
Definition getAddress (extended_pk : list N) : res (list N) :=
  descr <- descr_fromExtendedPK extended_pk ;;
  if negb (d_fmt descr =? SHA256_2X) then Exn InvalidArgument else
  let address := descr_getBytes descr in
  let address := address ++ sha256 extended_pk in
  let hashed_key2 := sha256 address in
  Ok (address ++ skipn 28 hashed_key2).

(** qrlHelper.h:41-65 without the try block: what is thrown inside it. *)
Definition addressIsValid_body (address : list N) : res bool :=
  if negb (length address =? 39)%nat then Ok false else
  descr <- descr_fromBytes (firstn descr_getSize address) ;;
  if negb (d_fmt descr =? SHA256_2X) then Ok false else
  let hashed_key2 := sha256 (firstn 35 address) in
  x35 <- get address 35 ;; y28 <- get hashed_key2 28 ;;
  x36 <- get address 36 ;; y29 <- get hashed_key2 29 ;;
  x37 <- get address 37 ;; y30 <- get hashed_key2 30 ;;
  x38 <- get address 38 ;; y31 <- get hashed_key2 31 ;;
  Ok ((x35 =? y28) && (x36 =? y29) && (x37 =? y30) && (x38 =? y31))%bool.

(** qrlHelper.h:39-67 with [catch (...) { return false; }]. *)
Definition addressIsValid (address : list N) : res bool :=
  match addressIsValid_body address with Exn _ => Ok false | r => r end.
