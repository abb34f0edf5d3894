(** Terms used in the statements of the property theorems: key parameters, sizes, addresses,
    digit strings, evidence of a forgery.  Each is defined here once; the theorems are in the
    Prop*.v files. *)
From Coq Require Import List NArith Arith Bool.
From Verif Require Import Bytes Sha256 HashAddress SpecXmss SpecApi SpecMisc SpecForge.
Import ListNotations.
Local Open Scope nat_scope.

(** XmssFast uses w = 16. *)
Definition w16 : nat * nat * nat := (4, 64, 3).

(** w = 256. *)
Definition w256 : nat * nat * nat := (8, 32, 2).

Local Open Scope N_scope.

(** Heights a tree may have: even and at least 4. *)
Definition tree_height (h : N) : Prop := 4 <= h /\ N.even h = true.

(** [known]: the hash id names one of the three functions. *)
Definition known_hash (id : N) : Prop := exists hf, hash_of_id id = Some hf.

(** A well-formed address: 39 bytes, address format 0, the last four bytes the checksum of
    the others. *)
Definition checksummed (a : list N) : Prop :=
  length a = 39%nat /\ nth 1 a 0 / 16 = 0 /\ skipn 35 a = skipn 28 (sha256 (firstn 35 a)).

Close Scope N_scope.

(** The public key has 67 bytes, encodes a height of at least 4 and the signature
    has the size of that height. *)
Definition sizes_match (wp : nat * nat * nat) (sig pk : list N) : Prop :=
  let h := 2 * N.to_nat (nth 1 pk 0 mod 16)%N in
  length pk = 67 /\ 4 <= h /\ length sig = 4 + 32 + 32 * (snd (fst wp) + snd wp) + 32 * h.

(** The history [cs] with observations [os] handed out signature [sig] for message [msg]. *)
Definition issued (cs : list op) (os : list obs) (msg sig : list N) : Prop :=
  exists n, nth_error cs n = Some (OpSign msg) /\ nth_error os n = Some (ObsSig sig).

(** One-time-key reuse by somebody else: a signature that is accepted for the
    index of a signature the owner released, and is not that signature of that
    message, exhibits a collision (of the tree, chain or message hash), or reveals a
    chain value strictly below the position the owner published. *)
Definition forged_evidence (hf : hashfn) (wp : nat * nat * nat) (h : nat) (seed msg0 s0 msg sig : list N) : Prop :=
  let i := N.to_nat (sig_index s0) in
  (exists xy, extract hf wp h seed msg sig = Some xy /\ collision hf xy) \/
  collision hf (msg_input (sig_R sig) (ref_root hf wp h seed) i msg, msg_input (sig_R s0) (ref_root hf wp h seed) i msg0) \/
  exists c, c < snd (fst wp) + snd wp /\
    (nth c (sig_digits hf wp h seed msg sig) 0 < nth c (sig_digits hf wp h seed msg0 s0) 0)%N /\
    nth c (sig_wots wp sig) [] =
      chain hf (key_pub seed) i c 0 (N.to_nat (nth c (sig_digits hf wp h seed msg sig) 0%N)) (chain_start hf (key_seed seed) i c).

(** Does a call need the traversal state?  (index [i], height [h]) *)
Definition advances (h : nat) (i : N) (c : op) : bool :=
  match c with
  | OpSign _ => (i <? 2 ^ N.of_nat h)%N
  | OpSetIndex j => ((i <? j) && (j <? 2 ^ N.of_nat h))%N
  end.

Local Open Scope N_scope.

(** Lines: every line but the last has exactly [w] bytes, the last 1..w. *)
Fixpoint lines_ok (w : N) (ls : list (list N)) : Prop :=
  match ls with
  | [] => True
  | [l] => 1 <= N.of_nat (length l) <= w
  | l :: rest => N.of_nat (length l) = w /\ lines_ok w rest
  end.

(** A word: not empty, no white space. *)
Definition plain (w : list N) : Prop := w <> [] /\ Forall (fun c => is_white c = false) w.

Close Scope N_scope.

(** [f] applied [n] times. *)
Fixpoint iterate {A} (n : nat) (f : A -> A) (x : A) {struct n} : A := match n with O => x | S k => f (iterate k f x) end.

Local Open Scope N_scope.

(** Byte number [i] from the right (0 = least significant) of the integer [v]. *)
Definition digit256 (v : N) (i : nat) : N := (v / 256 ^ N.of_nat i) mod 256.

(** Weighted sum of a byte string whose byte [i] has weight 256^(weight i). *)
Definition weighted (weight : nat -> nat) (l : list N) : N :=
  fold_right N.add 0 (map (fun i => nth i l 0 * 256 ^ N.of_nat (weight i)) (seq 0 (length l))).

(** No digit of [a] exceeds the one of [b] at its position. *)
Definition digits_le (a b : list N) : Prop := Forall2 N.le a b.

Close Scope N_scope.

(** The Winternitz parameters the library is documented for. *)
Definition power_of_two (w : N) : Prop := w = 2%N \/ w = 4%N \/ w = 16%N \/ w = 256%N.

Local Open Scope N_scope.

(** Bytes with one bit cleared. *)
Definition clear_bit (b : N) (x : N) : N := N.ldiff x (2 ^ b).

Close Scope N_scope.

(** All eight words of an address fit 32 bits. *)
Definition words32 (a : adrs) : Prop :=
  (a0 a < 2 ^ 32 /\ a1 a < 2 ^ 32 /\ a2 a < 2 ^ 32 /\ a3 a < 2 ^ 32 /\
   a4 a < 2 ^ 32 /\ a5 a < 2 ^ 32 /\ a6 a < 2 ^ 32 /\ a7 a < 2 ^ 32)%N.
