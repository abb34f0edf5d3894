(** Model of the Rust port's src/rust_wrapper/dilithium/dilithium.rs and
    kyber/kyber.rs.  The crates pqcrypto-dilithium and pqcrypto-kyber are an
    arbitrary record of functions; values of their key, ciphertext and secret types
    are their bytes.  What theorems assume of them is stated as [rsign_ok] /
    [rkem_ok]. *)
From Coq Require Import List NArith Arith Bool.
From Verif Require Import RsBase.
Import ListNotations.
Open Scope nat_scope.

(** ** Dilithium *)

(** pqcrypto_dilithium::dilithium5: the constants (dilithium.rs:10-12) and functions;
    [rs_open] returns [None] for an invalid signature. *)
Record rsign_api : Type := mkRSA {
  rsa_pkb : nat; rsa_skb : nat; rsa_bytes : nat;
  rsa_keypair : list N -> list N * list N;
  rsa_sign : list N -> list N -> list N;
  rsa_open : list N -> list N -> option (list N) }.
(** The crate's contract: sizes, signature in front of the message, correctness.  dilithium.rs:20-82. *)
Record rsign_ok (A : rsign_api) : Prop := {
  rso_keypair : forall r, length (fst (rsa_keypair A r)) = rsa_pkb A /\ length (snd (rsa_keypair A r)) = rsa_skb A;
  rso_sign : forall m sk, length sk = rsa_skb A ->
    length (rsa_sign A m sk) = rsa_bytes A + length m /\ skipn (rsa_bytes A) (rsa_sign A m sk) = m;
  rso_correct : forall r m, rsa_open A (rsa_sign A m (snd (rsa_keypair A r))) (fst (rsa_keypair A r)) = Some m }.

(** [PublicKey::from_bytes(b).unwrap()] and [SecretKey::from_bytes(b).unwrap()]:
    [Err(BadLength)] for any other size.  dilithium.rs:20-82. *)
Definition rs_key_from_bytes (size : nat) (b : list N) : rs (list N) :=
  if length b =? size then ROk b else RPanic.

(** dilithium.rs:14-17 *)
Record rs_dil : Type := mkRDil { rdil_pk : list N; rdil_sk : list N }.
(** dilithium.rs:20-24 *)
Definition rs_dil_new (A : rsign_api) (pk_bytes sk_bytes : list N) : rs rs_dil :=
  pk <~ rs_key_from_bytes (rsa_pkb A) pk_bytes ;;
  sk <~ rs_key_from_bytes (rsa_skb A) sk_bytes ;;
  ROk (mkRDil pk sk).
(** dilithium.rs:78-83; [entropy] is what the crate's generator delivers. *)
Definition rs_dil_default (A : rsign_api) (entropy : list N) : rs_dil :=
  let '(pk, sk) := rsa_keypair A entropy in mkRDil pk sk.
(** dilithium.rs:34-39 *)
Definition rs_dil_sign (A : rsign_api) (o : rs_dil) (message : list N) : list N := rsa_sign A message (rdil_sk o).
(** dilithium.rs:49-54 *)
Definition rs_dil_sign_open (A : rsign_api) (message_signed pk : list N) : option (list N) := rsa_open A message_signed pk.
(** dilithium.rs:56-64; [SignedMessage::from_bytes] takes every byte string; the
    subtraction is checked. *)
Definition rs_dil_extract_message (A : rsign_api) (v : list N) : rs (list N) :=
  if length v <? rsa_bytes A then RPanic else rslice 0 (length v - rsa_bytes A) v.
(** dilithium.rs:66-74 *)
Definition rs_dil_extract_signature (A : rsign_api) (v : list N) : rs (list N) :=
  if length v <? rsa_bytes A then RPanic else rslice (length v - rsa_bytes A) (length v) v.

(** ** Kyber *)

(** pqcrypto_kyber::kyber768: [encapsulate] gives the secret and the ciphertext.  kyber.rs:24-65. *)
Record rkem_api : Type := mkRKA {
  rka_pkb : nat; rka_skb : nat; rka_ctb : nat; rka_ssb : nat;
  rka_keypair : list N -> list N * list N;
  rka_enc : list N -> list N -> list N * list N;
  rka_dec : list N -> list N -> list N }.
(** kyber.rs:24-65. *)
Record rkem_ok (A : rkem_api) : Prop := {
  rko_keypair : forall r, length (fst (rka_keypair A r)) = rka_pkb A /\ length (snd (rka_keypair A r)) = rka_skb A;
  rko_enc : forall e pk, length (fst (rka_enc A e pk)) = rka_ssb A /\ length (snd (rka_enc A e pk)) = rka_ctb A;
  rko_dec : forall ct sk, length (rka_dec A ct sk) = rka_ssb A }.

(** kyber.rs:15-21 *)
Record rs_kyb : Type := mkRKyb { rkyb_pk : list N; rkyb_sk : list N; rkyb_ss : list N; rkyb_ct : list N }.
(** kyber.rs:24-29 *)
Definition rs_kyb_new (A : rkem_api) (entropy pk_bytes sk_bytes : list N) : rs rs_kyb :=
  pk <~ rs_key_from_bytes (rka_pkb A) pk_bytes ;;
  sk <~ rs_key_from_bytes (rka_skb A) sk_bytes ;;
  let '(ss, ct) := rka_enc A entropy pk in
  ROk (mkRKyb pk sk ss ct).
(** kyber.rs:59-65; two draws from the generator. *)
Definition rs_kyb_default (A : rkem_api) (e1 e2 : list N) : rs_kyb :=
  let '(pk, sk) := rka_keypair A e1 in
  let '(ss, ct) := rka_enc A e2 pk in
  mkRKyb pk sk ss ct.
(** kyber.rs:47-51 *)
Definition rs_kyb_encode (A : rkem_api) (entropy : list N) (o : rs_kyb) (other_pk : list N) : rs_kyb :=
  let '(ss, ct) := rka_enc A entropy other_pk in
  mkRKyb (rkyb_pk o) (rkyb_sk o) ss ct.
(** kyber.rs:53-55 *)
Definition rs_kyb_decode (A : rkem_api) (o : rs_kyb) (cyphertext : list N) : rs_kyb :=
  mkRKyb (rkyb_pk o) (rkyb_sk o) (rka_dec A cyphertext (rkyb_sk o)) (rkyb_ct o).

(** Histories of one Kyber object.  kyber.rs:47-55. *)
Inductive rkop : Type := RKEnc (entropy other_pk : list N) | RKDec (ct : list N).
(** kyber.rs:47-55. *)
Definition rs_kyb_step (A : rkem_api) (o : rs_kyb) (c : rkop) : rs_kyb :=
  match c with RKEnc e p => rs_kyb_encode A e o p | RKDec ct => rs_kyb_decode A o ct end.
(** kyber.rs:47-55. *)
Definition rs_kyb_run (A : rkem_api) (o : rs_kyb) (l : list rkop) : rs_kyb := fold_left (rs_kyb_step A) l o.
