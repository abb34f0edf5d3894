(** Model of src/qrl/xmssBase.{h,cpp}, xmssBasic.cpp, xmssFast.{h,cpp}. *)
From Coq Require Import List NArith Arith Lia Bool.
From Verif Require Import Base Bytes Keccak HashAddress Wots XmssCommon AlgsXmss AlgsXmssFast Descriptor SpecApi.
Import ListNotations.
Open Scope N_scope.

(** xmssBase.h:90-97: the protected members. *)
Record xbase : Type := mkXB {
  xb_params : xmss_params;
  xb_hash : N;
  xb_fmt : N;
  xb_height : N;
  xb_sk : list N;
  xb_seed : list N }.

(** xmssFast.h:27-35: XmssFast adds the traversal state (the vectors are the
    storage behind [_state]). *)
Record xfast : Type := mkXF { xf_base : xbase; xf_state : bds_state }.

(** ** Checks of the two XmssBase constructors *)

(** xmssBase.cpp:34-50 *)
Definition check_seed (seed : list N) (height : N) : res unit :=
  if negb (length seed =? 48)%nat then Exn InvalidArgument else
  if 254 <? height then Exn InvalidArgument else Ok tt.

(** xmssBase.cpp:52-67: (seed, height, hash, format) of an extended seed. *)
Definition parse_extended_seed (es : list N) : res (list N * N * N * N) :=
  if negb (length es =? 51)%nat then Exn InvalidArgument else
  desc <- descr_fromExtendedSeed es ;;
  Ok (skipn descr_getSize es, d_height desc, d_hash desc, d_fmt desc).

(** ** Sizes *)

(** xmssBase.cpp:69-73 *)
Definition calculateSignatureBaseSize (w : N) : res N :=
  wp <- wots_set_params w ;;
  Ok (u32 (4 + 32 + N.of_nat (w_keysize wp))).

(** xmssBase.cpp:75-80 *)
Definition getSignatureSize (height : N) (w : N) : res N :=
  base <- calculateSignatureBaseSize w ;;
  Ok (u32 (base + height * 32)).

(** xmssBase.cpp:82-97.  [sigSize] is a size_t; [sigSize - 4] cannot wrap because
    sigSize >= base >= 36 at that point. *)
Definition getHeightFromSigSize (sigSize : N) (w : N) : res N :=
  base <- calculateSignatureBaseSize w ;;
  if sigSize <? base then Exn InvalidArgument else
  if negb ((sigSize - 4) mod 32 =? 0) then Exn InvalidArgument else
  Ok (u8 ((sigSize - base) / 32)).

(** ** Getters of XmssBase *)

(** xmssBase.cpp:26-32, 109-131 *)
Definition getSKSeed (o : xbase) : list N := slice 4 32 (xb_sk o).
(** xmssBase.cpp:115-119. *)
Definition getSKPRF (o : xbase) : list N := slice 36 32 (xb_sk o).
(** xmssBase.cpp:121-125. *)
Definition getPKSeed (o : xbase) : list N := slice 68 32 (xb_sk o).
(** xmssBase.cpp:127-131. *)
Definition getRoot (o : xbase) : list N := slice 100 32 (xb_sk o).
(** xmssBase.cpp:133-139 *)
Definition getIndex (o : xbase) : N := u32 (from_be (slice 0 4 (xb_sk o))).
(** xmssBase.cpp:154-157 *)
Definition getSK (o : xbase) : list N := xb_sk o.
(** xmssBase.cpp:183-196 *)
Definition getDescriptor (o : xbase) : descriptor := mkDescr (xb_hash o) 0 (xb_height o) (xb_fmt o).
(** xmssBase.cpp:193-196. *)
Definition getDescriptorBytes (o : xbase) : list N := descr_getBytes (getDescriptor o).
(** xmssBase.cpp:159-174 *)
Definition getPK (o : xbase) : list N := getDescriptorBytes o ++ getRoot o ++ getPKSeed o.
(** xmssBase.cpp:176-181 *)
Definition getExtendedSeed (o : xbase) : list N := getDescriptorBytes o ++ xb_seed o.
(** xmssBase.cpp:198-201 *)
Definition obj_getAddress (o : xbase) : res (list N) := getAddress (getPK o).
(** xmssBase.h:71-73; shifting a uint32_t by 32 or more is undefined. *)
Definition getNumberSignatures (o : xbase) : res N :=
  if 32 <=? xb_height o then UB else Ok (2 ^ xb_height o).
(** xmssBase.h:73. *)
Definition getRemainingSignatures (o : xbase) : res N :=
  n <- getNumberSignatures o ;;
  Ok (u32 (n + 2 ^ 32 - getIndex o)).

(** assignment to _sk, e.g. xmssBase.cpp:143-149. *)
Definition with_sk (o : xbase) (sk : list N) : xbase :=
  mkXB (xb_params o) (xb_hash o) (xb_fmt o) (xb_height o) sk (xb_seed o).

(** xmssBase.cpp:141-152 XmssBase::setIndex (also XmssBasic's): returns the new
    object and getIndex(). *)
Definition base_setIndex (o : xbase) (new_index : N) : xbase * N :=
  let o' := with_sk o (to_byte 4 new_index ++ skipn 4 (xb_sk o)) in
  (o', getIndex o').

(** First use of the object's hash function: an id without an enumerator makes
    core_hash leave its output unwritten (see HashAddress.hash_of_id).  hash.c:50-84. *)
Definition with_hash {A} (id : N) (k : hashfn -> res A) : res A :=
  match hash_of_id id with Some hf => k hf | None => UB end.

(** Height check shared by xmssBasic.cpp:38-40, xmssFast.cpp:31-33 and
    xmssBase.cpp:239-241: [k >= height || (height - k) % 2] with k = 2. *)
Definition bad_height (height : N) : bool := (height <=? 2) || negb ((height - 2) mod 2 =? 0).

(** ** XmssBasic *)

(** xmssBasic.cpp:9-49.  [1 << height] (algsxmss.c:89) overflows int from height
    31 on. *)
Definition XmssBasic_new (junk seed : list N) (height hash fmt w : N) : res xbase :=
  _ <- check_seed seed height ;;
  if bad_height height then Exn InvalidArgument else
  p <- xmss_set_params (N.to_nat height) w 2 ;;
  if 31 <=? height then UB else
  with_hash hash (fun hf =>
    sk <- xmss_Genkeypair hf junk p seed ;;
    Ok (mkXB p hash fmt height sk seed)).

(** xmssBasic.cpp:52-63.  The buffer has getSignatureSize(w) bytes, all of which
    xmss_Signmsg writes. *)
Definition XmssBasic_sign (junk : list N) (o : xbase) (msg : list N) : res (xbase * list N) :=
  with_hash (xb_hash o) (fun hf =>
    '(sk, sig) <- xmss_Signmsg hf junk (xb_params o) (xb_sk o) msg ;;
    Ok (with_sk o sk, sig)).

(** ** XmssFast *)

(** xmssFast.cpp:37-58: the freshly allocated (zero-initialised) vectors. *)
Definition fresh_bds (h k : nat) : bds_state :=
  let z := repeat 0 32 in
  mkBDS (repeat z (h + 1)) 0 (repeat 0%nat (h + 1)) (repeat z h) (repeat z (h / 2))
        (repeat (mkTH 0 0 0 false z) (h - k)) (repeat z (2 ^ k - k - 1)).

(** xmssFast.cpp:22-66 initialize_tree. *)
Definition initialize_tree (junk seed : list N) (height hash fmt w : N) : res xfast :=
  if bad_height height then Exn InvalidArgument else
  p <- xmss_set_params (N.to_nat height) w 2 ;;
  if 31 <=? height then UB else
  with_hash hash (fun hf =>
    '(sk, st) <- xmssfast_Genkeypair hf junk p (fresh_bds (x_h p) (x_k p)) seed ;;
    Ok (mkXF (mkXB p hash fmt height sk seed) st)).

(** xmssFast.cpp:7-14 (the header default for w is 16, xmssFast.h:12) *)
Definition XmssFast_new (junk seed : list N) (height hash fmt : N) : res xfast :=
  _ <- check_seed seed height ;;
  initialize_tree junk seed height hash fmt 16.

(** xmssFast.cpp:16-20 *)
Definition XmssFast_from_extended_seed (junk es : list N) : res xfast :=
  '(seed, height, hash, fmt) <- parse_extended_seed es ;;
  initialize_tree junk seed height hash fmt 16.

(** A second call of the public member initialize_tree(w) on an object.  xmssFast.cpp:22-66. *)
Definition xfast_initialize_tree (junk : list N) (o : xfast) (w : N) : res xfast :=
  let b := xf_base o in
  initialize_tree junk (xb_seed b) (xb_height b) (xb_hash b) (xb_fmt b) w.

(** xmssFast.cpp:68-77: the object after the call, and the exception thrown
    ([inl]) or the returned index ([inr]). *)
Definition xfast_setIndex (o : xfast) (new_index : N) : res (xfast * (exn + N)) :=
  let b := xf_base o in
  with_hash (xb_hash b) (fun hf =>
    '(sk, st, r) <- xmssfast_update hf (xb_params b) (xb_sk b) (xf_state o) new_index ;;
    let o := mkXF (with_sk b sk) st in
    match r with
    | inl e => Ok (o, inl e)
    | inr _ => Ok (o, inr new_index)
    end).

(** xmssFast.cpp:79-95: the object after the call, and the exception or the
    signature. *)
Definition xfast_sign (o : xfast) (msg : list N) : res (xfast * (exn + list N)) :=
  let index := getIndex (xf_base o) in
  '(o, r) <- xfast_setIndex o index ;;
  match r with
  | inl e => Ok (o, inl e)
  | inr _ =>
      let b := xf_base o in
      with_hash (xb_hash b) (fun hf =>
        '(sk, st, sig) <- xmssfast_Signmsg hf (xb_params b) (xb_sk b) (xf_state o) msg ;;
        Ok (mkXF (with_sk b sk) st, inr sig))
  end.

(** ** XmssBase::verify, xmssBase.cpp:203-259 *)

(** The body of the try block.  xmssBase.cpp:209-254. *)
Definition verify_body (msg sig extended_pk : list N) (w : N) : res bool :=
  if negb (length extended_pk =? 67)%nat then Exn InvalidArgument else
  base <- calculateSignatureBaseSize w ;;
  if base + 254 * 32 <? N.of_nat (length sig) then Exn InvalidArgument else
  desc <- descr_fromExtendedPK extended_pk ;;
  if negb (d_sig desc =? 0) then Ok false else
  height <- getHeightFromSigSize (N.of_nat (length sig)) w ;;
  if (height =? 0) || negb (d_height desc =? height) then Ok false else
  if bad_height height then Exn InvalidArgument else
  p <- xmss_set_params (N.to_nat height) w 2 ;;
  with_hash (d_hash desc) (fun hf =>
    xmss_Verifysig hf (x_wots p) msg sig (skipn descr_getSize extended_pk) (N.to_nat height)).

(** [catch (std::invalid_argument &) { return false; }];  xmssBase.cpp:203-259. *)
Definition verify (msg sig extended_pk : list N) (w : N) : res bool :=
  match verify_body msg sig extended_pk w with
  | Exn InvalidArgument => Ok false
  | r => r
  end.

(** ** Histories of API calls on one XmssFast object *)
(** One call; a C++ exception is caught by the caller, who keeps using the object.  xmssFast.cpp:68-95: calls of setIndex and sign. *)
Definition step (o : xfast) (c : op) : res (xfast * obs) :=
  match c with
  | OpSign m =>
      '(o, r) <- xfast_sign o m ;;
      Ok (o, match r with inl e => ObsExn e | inr s => ObsSig s end)
  | OpSetIndex i =>
      '(o, r) <- xfast_setIndex o i ;;
      Ok (o, match r with inl e => ObsExn e | inr j => ObsIdx j end)
  end.

(** xmssFast.cpp:68-95: calls of setIndex and sign. *)
Fixpoint run (o : xfast) (cs : list op) : res (xfast * list obs) :=
  match cs with
  | [] => Ok (o, [])
  | c :: rest =>
      '(o, x) <- step o c ;;
      '(o, xs) <- run o rest ;;
      Ok (o, x :: xs)
  end.
