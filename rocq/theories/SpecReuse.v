(** Specification for C94: what anybody can compute from several signatures made with the same
    one-time key.  Only public data occurs: public keys, messages, signatures. *)
From Coq Require Import List NArith Arith Bool.
From Verif Require Import Base Bytes HashAddress SpecXmss SpecApi SpecForge XmssObj RsBase RsWots RsObj SpecRust.
Import ListNotations.
Open Scope nat_scope.

(** Root and public seed in a public key: descriptor (3 bytes) || root || public seed. *)
Definition pk_root (pk : list N) : list N := firstn 32 (skipn 3 pk).
Definition pk_seed (pk : list N) : list N := firstn 32 (skipn 35 pk).

(** A published signature: the Winternitz parameters (log2 w, message digits, checksum digits)
    it was made with, the public key, the message and the signature. *)
Definition published : Type := (nat * nat * nat) * (list N * list N * list N).

Section Reuse.
  Variable hf : hashfn.

  (** The chain positions a signature with randomiser [R] at index [i] shows for [msg]. *)
  Definition positions (wp : nat * nat * nat) (pk R : list N) (i : nat) (msg : list N) : list N :=
    msg_digits (fst (fst wp)) (snd (fst wp)) (snd wp) (digest hf R (pk_root pk) i msg).

  (** The positions and the chain values a published signature shows. *)
  Definition shown (s : published) : list N * list (list N) :=
    let '(wp, (pk, msg, sig)) := s in
    (positions wp pk (sig_R sig) (N.to_nat (sig_index sig)) msg, sig_wots wp sig).

  (** The value at position [a] of chain [c]: hash forward from the first signature that has
      this chain and shows a value at or below the position. *)
  Fixpoint reach (ps : list N) (i c : nat) (a : N) (l : list (list N * list (list N))) {struct l} : list N :=
    match l with
    | [] => []
    | (d, vs) :: r =>
        let b := nth c d 0%N in
        if (c <? length vs) && (b <=? a)%N then chain hf ps i c (N.to_nat b) (N.to_nat (a - b)) (nth c vs [])
        else reach ps i c a r
    end.

  (** Every one of the positions [d] is at or above one shown for the same chain. *)
  Definition covered_by (d : list N) (l : list published) : Prop :=
    forall c, c < length d -> exists s, In s l /\ c < length (snd (shown s)) /\ (nth c (fst (shown s)) 0 <= nth c d 0)%N.

  (** A signature of [msg] for the tree of [pk], of height [h], with any randomiser [R], put
      together from the signatures [l] and the authentication path of [sig0]. *)
  Definition assemble (wp : nat * nat * nat) (h : nat) (pk sig0 : list N) (l : list published) (R msg : list N) : list N :=
    let i := N.to_nat (sig_index sig0) in
    let d := positions wp pk R i msg in
    to_byte 4 (sig_index sig0) ++ R ++
    concat (map (fun c => reach (pk_seed pk) i c (nth c d 0%N) (map shown l)) (seq 0 (snd (fst wp) + snd wp))) ++
    concat (sig_path wp h sig0).
End Reuse.

(** [sig] is a signature of [msg] that some object with this seed and hash function and the
    Winternitz parameter [w] handed out at index [idx]; [pk] is the object's public key, [h] its
    height.  The object is an XmssFast with any history, an XmssBasic moved to the index, or an
    XMSSFast of the Rust port with any history; the port's signatures are for the message it sees
    (C65), which is known to everybody who has the message and the signature. *)
Inductive signed (hash : N) (hf : hashfn) (w : N) (wp : nat * nat * nat) (seed : list N) (idx : N) : nat -> list N * list N * list N -> Prop :=
| signed_fast : forall junk h fmt x cs y os n msg sig, w = 16%N -> supported hash hf w wp h seed ->
    XmssFast_new junk seed (N.of_nat h) hash fmt = Ok x -> run x cs = Ok (y, os) ->
    nth_error cs n = Some (OpSign msg) -> nth_error os n = Some (ObsSig sig) -> sig_index sig = idx ->
    signed hash hf w wp seed idx h (getPK (xf_base x), msg, sig)
| signed_basic : forall junk junk' h fmt x y msg sig, supported hash hf w wp h seed -> h <= 24 ->
    XmssBasic_new junk seed (N.of_nat h) hash fmt w = Ok x -> (idx < 2 ^ N.of_nat h)%N ->
    XmssBasic_sign junk' (fst (base_setIndex x idx)) msg = Ok (y, sig) ->
    signed hash hf w wp seed idx h (getPK x, msg, sig)
| signed_rust : forall rw h o pk cs o' os n msg sig, hash = rs_hash_u8 hf -> w = w_of rw -> supported hash hf w wp h seed ->
    rs_fast_new seed (N.of_nat h) (Some hf) (Some rw) = ROk o -> rs_get_pk (rfa_base o) = ROk pk -> rs_run o cs = ROk (o', os) ->
    nth_error cs n = Some (OpSign msg) -> nth_error os n = Some (RObsSig sig) -> sig_index sig = idx ->
    signed hash hf w wp seed idx h (pk, seen_message hf (sig_R sig) (pk_root pk) idx msg, sig).
