(** Model of src/dilithium/dilithium.{h,cpp}, src/kyber/kyber.{h,cpp} and their
    JavaScript wrappers src/jswrapper/jsdilwrapper.cpp, jskybwrapper.cpp.  The
    primitives themselves (deps/, absent from the checkout) are an arbitrary
    record of C functions; what the theorems assume of them is stated as
    [sign_api_ok] / in the theorem. *)
From Coq Require Import List NArith Arith Lia Bool.
From Verif Require Import Base Bytes Misc.
Import ListNotations.
Open Scope nat_scope.

(** A C function that reads exactly [k] bytes behind a pointer to [buf].  dilithium.cpp:24-57, kyber.cpp:36-61: the arguments of the C calls. *)
Definition read_c (k : nat) (buf : list N) : res (list N) :=
  if k <=? length buf then Ok (firstn k buf) else UB.
(** [std::vector::resize(n)].  dilithium.cpp:42-57. *)
Definition resize (n : nat) (v : list N) : list N := firstn n v ++ repeat 0%N (n - length v).

(** ** Dilithium *)

(** dilithium/ref/api.h: CRYPTO_BYTES, CRYPTO_PUBLICKEYBYTES,
    CRYPTO_SECRETKEYBYTES and the three functions.  [sa_open] gets the output
    buffer and returns (ret == 0) and the buffer afterwards.  dilithium.cpp:9-57 calls it; source absent (deps/). *)
Record sign_api : Type := mkSA {
  sa_bytes : nat; sa_pkb : nat; sa_skb : nat;
  sa_keypair : list N -> list N * list N;
  sa_sign : list N -> list N -> list N;
  sa_open : list N -> list N -> list N -> bool * list N }.

(** The documented contract of such an API (the NIST interface).  dilithium.cpp:9-57 calls it; source absent (deps/). *)
Record sign_api_ok (A : sign_api) : Prop := {
  so_keypair : forall r, length (fst (sa_keypair A r)) = sa_pkb A /\ length (snd (sa_keypair A r)) = sa_skb A;
  so_sign : forall sk m, length sk = sa_skb A ->
    length (sa_sign A sk m) = sa_bytes A + length m /\ skipn (sa_bytes A) (sa_sign A sk m) = m;
  so_open : forall buf sm pk, length (snd (sa_open A buf sm pk)) = length buf;
  so_correct : forall r m buf, length buf = sa_bytes A + length m ->
    fst (sa_open A buf (sa_sign A (snd (sa_keypair A r)) m) (fst (sa_keypair A r))) = true /\
    firstn (length m) (snd (sa_open A buf (sa_sign A (snd (sa_keypair A r)) m) (fst (sa_keypair A r)))) = m }.

(** dilithium.h:45-47 *)
Record dilithium : Type := mkDil { dil_pk : list N; dil_sk : list N }.

(** dilithium.cpp:9-15; [entropy] is what randombytes delivers. *)
Definition dil_new (A : sign_api) (entropy : list N) : dilithium :=
  let '(pk, sk) := sa_keypair A entropy in mkDil pk sk.
(** dilithium.cpp:17-22: no check. *)
Definition dil_from_keys (pk sk : list N) : dilithium := mkDil pk sk.
(** dilithium.cpp:24-40: [message_signed] has [message.size() + CRYPTO_BYTES]
    bytes, all written by crypto_sign. *)
Definition dil_sign (A : sign_api) (o : dilithium) (message : list N) : res (list N) :=
  sk <- read_c (sa_skb A) (dil_sk o) ;; Ok (sa_sign A sk message).
(** dilithium.cpp:42-57: return value and new contents of [message_output]. *)
Definition dil_sign_open (A : sign_api) (message_output message_signed pk : list N) : res (bool * list N) :=
  let message_output := resize (length message_signed) message_output in
  pk <- read_c (sa_pkb A) pk ;;
  Ok (sa_open A message_output message_signed pk).
(** dilithium.cpp:61-64: iterator arithmetic past the end is undefined. *)
Definition dil_extract_message (A : sign_api) (v : list N) : res (list N) :=
  if sa_bytes A <=? length v then Ok (skipn (sa_bytes A) v) else UB.
(** dilithium.cpp:66-69. *)
Definition dil_extract_signature (A : sign_api) (v : list N) : res (list N) :=
  if sa_bytes A <=? length v then Ok (firstn (sa_bytes A) v) else UB.

(** jsdilwrapper.cpp:24-29 fromKeys *)
Definition jsd_fromKeys (pk sk : list N) : res dilithium :=
  p <- hstr2bin pk ;; s <- hstr2bin sk ;; Ok (dil_from_keys p s).
(** jsdilwrapper.cpp:51-54 sign *)
Definition jsd_sign (A : sign_api) (o : dilithium) (message : list N) : res (list N) :=
  m <- hstr2bin message ;; s <- dil_sign A o m ;; bin2hstr s 0.
(** jsdilwrapper.cpp:56-64 sign_open: the Boolean is dropped. *)
Definition jsd_sign_open (A : sign_api) (message_output message_signed pk : list N) : res (list N) :=
  s <- hstr2bin message_signed ;; p <- hstr2bin pk ;;
  '(_, vec) <- dil_sign_open A message_output s p ;;
  bin2hstr vec 0.
(** jsdilwrapper.cpp:66-71 extract_message: [begin()] and [end()] belong to two
    different temporaries, so the range is invalid whenever both calls return. *)
Definition jsd_extract_message (A : sign_api) (message_output : list N) : res (list N) :=
  _ <- hstr2bin message_output ;; UB.

(** ** Kyber *)

(** kyber/ref/api.h.  [ka_enc entropy pk] = (ret == 0, ct, key); [ka_dec ct sk] =
    (ret == 0, key).  kyber.cpp:28-61 calls it; source absent (deps/). *)
Record kem_api : Type := mkKA {
  ka_pkb : nat; ka_skb : nat; ka_ctb : nat; ka_ssb : nat;
  ka_keypair : list N -> list N * list N;
  ka_enc : list N -> list N -> bool * list N * list N;
  ka_dec : list N -> list N -> bool * list N }.
(** kyber.cpp:28-61 calls it; source absent (deps/). *)
Record kem_api_ok (A : kem_api) : Prop := {
  ko_keypair : forall r, length (fst (ka_keypair A r)) = ka_pkb A /\ length (snd (ka_keypair A r)) = ka_skb A;
  ko_enc : forall r pk, length (snd (fst (ka_enc A r pk))) = ka_ctb A /\ length (snd (ka_enc A r pk)) = ka_ssb A;
  ko_dec : forall ct sk, length (snd (ka_dec A ct sk)) = ka_ssb A }.

(** kyber.h:40-44 *)
Record kyber : Type := mkKyb { kyb_pk : list N; kyb_sk : list N; kyb_key : list N; kyb_ct : list N }.

(** kyber.cpp:10-26 *)
Definition kyb_from_keys (A : kem_api) (pk sk : list N) : res kyber :=
  if negb (length pk =? ka_pkb A) then Exn InvalidArgument else
  if negb (length sk =? ka_skb A) then Exn InvalidArgument else
  Ok (mkKyb pk sk [] []).
(** kyber.cpp:28-34 *)
Definition kyb_new (A : kem_api) (entropy : list N) : kyber :=
  let '(pk, sk) := ka_keypair A entropy in mkKyb pk sk [] [].
(** kyber.cpp:36-48: new object and returned Boolean. *)
Definition kyb_encode (A : kem_api) (entropy : list N) (o : kyber) (other_pk : list N) : res (kyber * bool) :=
  pk <- read_c (ka_pkb A) other_pk ;;
  let '(ok, ct, key) := ka_enc A entropy pk in
  Ok (mkKyb (kyb_pk o) (kyb_sk o) key ct, ok).
(** kyber.cpp:50-61 *)
Definition kyb_decode (A : kem_api) (o : kyber) (cyphertext : list N) : res (kyber * bool) :=
  ct <- read_c (ka_ctb A) cyphertext ;;
  sk <- read_c (ka_skb A) (kyb_sk o) ;;
  let '(ok, key) := ka_dec A ct sk in
  Ok (mkKyb (kyb_pk o) (kyb_sk o) key (kyb_ct o), ok).
(** jskybwrapper.cpp:74-79, 42-50 *)
Definition jsk_fromKeys (A : kem_api) (pk sk : list N) : res kyber :=
  p <- hstr2bin pk ;; s <- hstr2bin sk ;; kyb_from_keys A p s.
(** jskybwrapper.cpp:42-45. *)
Definition jsk_encode (A : kem_api) (entropy : list N) (o : kyber) (input : list N) : res (kyber * bool) :=
  p <- hstr2bin input ;; kyb_encode A entropy o p.
(** jskybwrapper.cpp:47-50. *)
Definition jsk_decode (A : kem_api) (o : kyber) (input : list N) : res (kyber * bool) :=
  c <- hstr2bin input ;; kyb_decode A o c.

(** Histories of one Kyber object; each encapsulation has its own entropy.  kyber.cpp:36-61. *)
Inductive kop : Type := KEnc (entropy other_pk : list N) | KDec (ct : list N).
(** kyber.cpp:36-61. *)
Fixpoint kyb_run (A : kem_api) (o : kyber) (l : list kop) : res (kyber * list bool) :=
  match l with
  | [] => Ok (o, [])
  | c :: rest =>
      '(o, b) <- (match c with KEnc e p => kyb_encode A e o p | KDec ct => kyb_decode A o ct end) ;;
      '(o, bs) <- kyb_run A o rest ;;
      Ok (o, b :: bs)
  end.
