(** Model of src/jswrapper/jsqrlwrapper.cpp: the library as seen from JavaScript.
    Strings are lists of character codes; the emscripten conversion of vectors,
    strings and enumerators is not modelled (an enumerator is its integer). *)
From Coq Require Import List NArith Arith Lia Bool.
From Verif Require Import Base Bytes HashAddress XmssCommon Descriptor SpecApi XmssObj Wordlist Misc.
Import ListNotations.
Open Scope N_scope.

(** ** class XmssWrapper: its only member is an XmssFast (line 124). *)

(** lines 14-18 and 64-70: the constructor passes three arguments, so the address
    format is the header default SHA256_2X (xmssFast.h:17). *)
Definition js_fromParameters (junk seed : list N) (height hash : N) : res xfast :=
  XmssFast_new junk seed height hash SHA256_2X.

(** lines 20-38 *)
Definition js_getIndex (o : xfast) : N := getIndex (xf_base o).
(** jsqrlwrapper.cpp:26-29. *)
Definition js_getHeight (o : xfast) : N := xb_height (xf_base o).
(** jsqrlwrapper.cpp:31-34. *)
Definition js_getPKRaw (o : xfast) : list N := getPK (xf_base o).
(** jsqrlwrapper.cpp:36-39. *)
Definition js_getPK (o : xfast) : res (list N) := bin2hstr (getPK (xf_base o)) 0.
(** lines 40-48; 'Q' is character 81. *)
Definition js_getAddressRaw (o : xfast) : res (list N) := obj_getAddress (xf_base o).
(** jsqrlwrapper.cpp:46-49. *)
Definition js_getAddress (o : xfast) : res (list N) :=
  a <- obj_getAddress (xf_base o) ;; t <- bin2hstr a 0 ;; Ok (81 :: t).
(** lines 50-60 *)
Definition js_getHexSeed (o : xfast) : res (list N) := bin2hstr (getExtendedSeed (xf_base o)) 0.
(** jsqrlwrapper.cpp:57-61. *)
Definition js_getMnemonic (o : xfast) : res (list N) := bin2mnemonic (getExtendedSeed (xf_base o)).

(** The common tail of fromHexSeed (lines 74-87) and fromMnemonic (91-104). *)
Definition js_fromExtendedSeed (junk extended_seed : list N) : res xfast :=
  descr <- descr_fromExtendedSeed extended_seed ;;
  let raw_seed := skipn descr_getSize extended_seed in
  XmssFast_new junk raw_seed (d_height descr) (d_hash descr) SHA256_2X.
(** lines 72-87 *)
Definition js_fromHexSeed (junk hexseed : list N) : res xfast :=
  extended_seed <- hstr2bin hexseed ;; js_fromExtendedSeed junk extended_seed.
(** lines 89-104 *)
Definition js_fromMnemonic (junk mnemonic : list N) : res xfast :=
  extended_seed <- mnemonic2bin mnemonic ;; js_fromExtendedSeed junk extended_seed.

(** lines 109-117: [setIndex] and [sign] forward to XmssFast ([xfast_setIndex],
    [xfast_sign]); lines 119-123 [verify] uses the default w = 16
    (xmssBase.h: verify's default argument). *)
Definition js_verify (msg sig pk : list N) : res bool := verify msg sig pk 16.

(** ** class XmssBasicWrapper (lines 129-201) *)
Definition jsb_fromParameters (junk seed : list N) (height hash fmt w : N) : res xbase :=
  XmssBasic_new junk seed height hash fmt w.
(** jsqrlwrapper.cpp:167-171. *)
Definition jsb_getHexSeed (o : xbase) : res (list N) := bin2hstr (getExtendedSeed o) 0.
(** jsqrlwrapper.cpp:178-181. *)
Definition jsb_getPK (o : xbase) : res (list N) := bin2hstr (getPK o) 0.
(** jsqrlwrapper.cpp:183-190. *)
Definition jsb_verify (msg sig pk : list N) (w : N) : res bool := verify msg sig pk w.

(** ** Free functions *)

(** lines 233-241 getBinAddress: [1 + 2 * getSize()] = 7; [substr(1)]. *)
Definition js_getBinAddress (address_str : list N) : res (list N) :=
  if (length address_str <? 1 + 2 * descr_getSize)%nat then Exn InvalidArgument
  else hstr2bin (skipn 1 address_str).

(** The range [address.cbegin(), address.cbegin()+3) copied into a vector:
    undefined when there are fewer than three elements.  jsqrlwrapper.cpp:246-249, 263-266, 276-279. *)
Definition js_descr_of (address : list N) : res descriptor :=
  if (length address <? descr_getSize)%nat then UB else descr_fromBytes (firstn descr_getSize address).

(** lines 243-259 _getHashFunction *)
Definition js_getHashFunction (address_str : list N) : res N :=
  address <- js_getBinAddress address_str ;;
  if (length address <? descr_getSize)%nat then Exn InvalidArgument else
  descr <- js_descr_of address ;; Ok (d_hash descr).
(** lines 261-276 _getSignatureType *)
Definition js_getSignatureType (address_str : list N) : res N :=
  address <- js_getBinAddress address_str ;;
  if (length address <? descr_getSize)%nat then Exn InvalidArgument else
  descr <- js_descr_of address ;; Ok (d_sig descr).
(** lines 278-289 _getHeight: no size check of its own *)
Definition js_height_of_address (address_str : list N) : res N :=
  address <- js_getBinAddress address_str ;;
  descr <- js_descr_of address ;; Ok (d_height descr).

(** lines 291-308 _getAddressRaw, _getAddress *)
Definition js_address_of_pk (epk_str : list N) : res (list N) :=
  if negb (length epk_str =? 2 * 67)%nat then Exn InvalidArgument else
  epk <- hstr2bin epk_str ;;
  a <- getAddress epk ;; bin2hstr a 0.

(** lines 310-321 _validateAddressRaw, _validateAddress *)
Definition js_validateAddress (address_str : list N) : res bool :=
  address <- js_getBinAddress address_str ;; addressIsValid address.
