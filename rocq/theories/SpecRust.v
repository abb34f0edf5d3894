(** Specification for the Rust port: which string its message hash absorbs.

    H_msg hashes  toByte(2,32) || R || root || toByte(idx,32) || message,  that is 128
    bytes in front of the message.  fips202.rs absorbs strings below its block size
    (168 bytes for SHAKE128, 136 for SHAKE256) correctly; for longer ones it takes the
    bytes behind the first block from the start of the string again. *)
From Coq Require Import List NArith Arith Bool.
From Verif Require Import Bytes HashAddress SpecXmss SpecApi RsBase.
Import ListNotations.
Open Scope nat_scope.

(** Message bytes in the first block; [None]: no limit (SHA2-256). *)
Definition seen_bytes (hf : hashfn) : option nat :=
  match hf with SHA2_256 => None | SHAKE_128 => Some 40 | SHAKE_256 => Some 8 end.

(** The message that is hashed in place of [msg]. *)
Definition seen_message (hf : hashfn) (R root : list N) (idx : N) (msg : list N) : list N :=
  match seen_bytes hf with
  | None => msg
  | Some k =>
      if length msg <? k then msg
      else firstn k msg ++ firstn (length msg - k) (to_byte 32 2 ++ R ++ root ++ to_byte 32 idx ++ msg)
  end.

(** Message lengths that do not panic. *)
Definition signable (hf : hashfn) (msg : list N) : Prop :=
  match hf with
  | SHA2_256 => (N.of_nat (length msg) + 128 < 2 ^ 32)%N
  | SHAKE_128 => length msg < 208
  | SHAKE_256 => length msg < 144
  end.

Definition signable_dec (hf : hashfn) (msg : list N) : {signable hf msg} + {~ signable hf msg}.
Proof.
  unfold signable. destruct hf.
  - destruct (N.of_nat (length msg) + 128 <? 2 ^ 32)%N eqn:E; [left; now apply N.ltb_lt|right].
    intros H. apply N.ltb_lt in H. rewrite E in H. discriminate H.
  - apply lt_dec.
  - apply lt_dec.
Defined.

(** ** Histories of sign / set_index calls on one Rust XMSSFast object *)

(** What the caller observes of one call that returns. *)
Inductive robs : Type := RObsSig (sig : list N) | RObsIdx (i : N) | RObsErr (e : rerr).

(** The signature the port makes: the reference signature of the message it sees. *)
Definition rust_sig (hf : hashfn) (wp : nat * nat * nat) (h : nat) (seed : list N) (idx : nat) (msg : list N) : list N :=
  ref_sig hf wp h seed idx
    (seen_message hf (randomizer hf (key_prf seed) idx) (ref_root hf wp h seed) (N.of_nat idx) msg).

(** Reference behaviour; [None]: the call panics.  The state is the index of the next
    one-time key. *)
Definition rust_ref_step (hf : hashfn) (h : nat) (sig : nat -> list N -> list N) (i : N) (c : op) : option (N * robs) :=
  match c with
  | OpSign m =>
      if (i <? 2 ^ N.of_nat h)%N then
        if signable_dec hf m then Some ((i + 1)%N, RObsSig (sig (N.to_nat i) m)) else None
      else Some (i, RObsErr RInvalidArgument)
  | OpSetIndex j =>
      if ((j <? 2 ^ N.of_nat h)%N && (i <=? j)%N)%bool then Some (j, RObsIdx j) else Some (i, RObsErr RInvalidArgument)
  end.
Fixpoint rust_ref_run (hf : hashfn) (h : nat) (sig : nat -> list N -> list N) (i : N) (cs : list op) : option (N * list robs) :=
  match cs with
  | [] => Some (i, [])
  | c :: rest =>
      match rust_ref_step hf h sig i c with
      | None => None
      | Some (i1, x) =>
          match rust_ref_run hf h sig i1 rest with
          | None => None
          | Some (i2, xs) => Some (i2, x :: xs)
          end
      end
  end.

(** XMSSBasic: set_index takes any 32-bit value; a signature needs an index in range and
    a tree of height at most 24. *)
Definition rust_basic_ref_step (hf : hashfn) (h : nat) (sig : nat -> list N -> list N) (i : N) (c : op) : option (N * robs) :=
  match c with
  | OpSign m =>
      if ((h <=? 24) && (i <? 2 ^ N.of_nat h)%N)%bool then
        if signable_dec hf m then Some ((i + 1)%N, RObsSig (sig (N.to_nat i) m)) else None
      else None
  | OpSetIndex j => Some (j, RObsIdx j)
  end.
Fixpoint rust_basic_ref_run (hf : hashfn) (h : nat) (sig : nat -> list N -> list N) (i : N) (cs : list op) : option (N * list robs) :=
  match cs with
  | [] => Some (i, [])
  | c :: rest =>
      match rust_basic_ref_step hf h sig i c with
      | None => None
      | Some (i1, x) =>
          match rust_basic_ref_run hf h sig i1 rest with
          | None => None
          | Some (i2, xs) => Some (i2, x :: xs)
          end
      end
  end.

(** ** Verification *)

(** Which of the rejections applies, in the order the caller sees them; behind them the
    reference verifier on the message the port sees.  [pk] = descriptor (3 bytes) || root
    || pub_seed; a valid descriptor has hash nibble 0..2 and address-format nibble 0. *)
Definition rust_ref_verify (wp : nat * nat * nat) (msg sig pk : list N) : rs unit :=
  let l := snd (fst wp) + snd wp in
  let h := 2 * N.to_nat (nth 1 pk 0 mod 16)%N in
  if negb (length pk =? 67) then RErr RInvalidArgument else
  if 36 + 32 * l + 32 * 254 <? length sig then RErr RInvalidArgument else
  match hash_of_id (nth 0 pk 0 mod 16)%N with
  | None => RErr RFailedConversion
  | Some hf =>
      if negb (nth 1 pk 0 / 16 =? 0)%N then RErr RFailedConversion else
      if negb ((4 <=? h) && (length sig =? 36 + 32 * l + 32 * h)) then RErr RInvalidArgument else
      if signable_dec hf msg then
        let seen := seen_message hf (firstn 32 (skipn 4 sig)) (firstn 32 (skipn 3 pk)) (from_be (firstn 4 sig)) msg in
        if ref_verify hf wp seen sig pk then ROk tt else RErr RInvalidArgument
      else RPanic
  end.
