(** Explicit extraction of hash collisions from accepted signatures.

    "There is a collision" is true of every compressing function, so the theorems
    about forgeries name the collision: the functions below compute a pair of hash
    inputs from the key and the accepted signature. *)
From Coq Require Import List NArith Arith Bool.
From Verif Require Import Bytes Keccak Sha256 HashAddress SpecXmss SpecApi.
Import ListNotations.
Open Scope nat_scope.

(** The underlying hash function, 32 bytes of output. *)
Definition raw (hf : hashfn) (x : list N) : list N :=
  match hf with SHA2_256 => sha256 x | SHAKE_128 => shake128 32 x | SHAKE_256 => shake256 32 x end.

(** Two different byte strings with the same hash. *)
Definition collision (hf : hashfn) (xy : list N * list N) : Prop :=
  fst xy <> snd xy /\ raw hf (fst xy) = raw hf (snd xy).

(** The byte strings that are hashed in a chain step, a tree node, a PRF call and
    for a message. *)
Definition F_input (hf : hashfn) (ps : list N) (o c i : nat) (x : list N) : list N :=
  let a := adr 0 (N.of_nat o) (N.of_nat c) (N.of_nat i) in
  to_byte 32 0 ++ PRF hf ps (a 0%N) ++ xor_bytes x (PRF hf ps (a 1%N)).
Definition H_input (hf : hashfn) (ps : list N) (type : N) (k j i : nat) (l r : list N) : list N :=
  let a := adr type (N.of_nat k) (N.of_nat j) (N.of_nat i) in
  to_byte 32 1 ++ PRF hf ps (a 0%N) ++ xor_bytes (l ++ r) (PRF hf ps (a 1%N) ++ PRF hf ps (a 2%N)).
Definition PRF_input (key m : list N) : list N := to_byte 32 3 ++ key ++ m.
Definition msg_input (R root : list N) (idx : nat) (msg : list N) : list N :=
  to_byte 32 2 ++ (R ++ root ++ to_byte 32 (N.of_nat idx)) ++ msg.

Definition bytes_eqb (a b : list N) : bool := if list_eq_dec N.eq_dec a b then true else false.
Definition orelse {A} (a b : option A) : option A := match a with Some _ => a | None => b end.

(** Two chain values at the same position [start] that end at the same value. *)
Fixpoint chain_collision (hf : hashfn) (ps : list N) (o c start n : nat) (x y : list N) {struct n} : option (list N * list N) :=
  match n with
  | O => None
  | S k =>
      let x' := chain hf ps o c start k x in
      let y' := chain hf ps o c start k y in
      if bytes_eqb x' y' then chain_collision hf ps o c start k x y
      else Some (F_input hf ps o c (start + k) x', F_input hf ps o c (start + k) y')
  end.

(** Two lists of L-tree nodes of one level whose parents are equal. *)
Fixpoint level_collision (hf : hashfn) (ps : list N) (o j i : nat) (l l' : list (list N)) {struct l} : option (list N * list N) :=
  match l, l' with
  | a :: b :: t, a' :: b' :: t' =>
      if bytes_eqb (rand_hash hf ps 1 o j i a b) (rand_hash hf ps 1 o j i a' b') && negb (bytes_eqb a a' && bytes_eqb b b')
      then Some (H_input hf ps 1 o j i a b, H_input hf ps 1 o j i a' b')
      else level_collision hf ps o j (S i) t t'
  | _, _ => None
  end.
Fixpoint ltree_collision (hf : hashfn) (ps : list N) (fuel o j : nat) (l l' : list (list N)) {struct fuel} : option (list N * list N) :=
  match fuel with
  | O => None
  | S f => orelse (level_collision hf ps o j 0 l l')
                  (ltree_collision hf ps f o (S j) (l_level hf ps o j 0 l) (l_level hf ps o j 0 l'))
  end.

(** A climb from [cur] at node (j, i) compared with the nodes [nd] of a tree. *)
Fixpoint path_collision (hf : hashfn) (ps : list N) (nd : nat -> nat -> list N) (j i : nat) (cur : list N)
  (path : list (list N)) {struct path} : option (list N * list N) :=
  match path with
  | [] => None
  | a :: t =>
      let i2 := i / 2 in
      let l := if Nat.odd i then a else cur in
      let r := if Nat.odd i then cur else a in
      let nxt := rand_hash hf ps 2 0 j i2 l r in
      if bytes_eqb nxt (nd (S j) i2) && negb (bytes_eqb l (nd j (2 * i2)) && bytes_eqb r (nd j (2 * i2 + 1)))
      then Some (H_input hf ps 2 0 j i2 l r, H_input hf ps 2 0 j i2 (nd j (2 * i2)) (nd j (2 * i2 + 1)))
      else path_collision hf ps nd (S j) i2 nxt t
  end.

(** An index outside the tree: the last step hashes under another address. *)
Definition outside_collision (hf : hashfn) (ps : list N) (nd : nat -> nat -> list N) (i : nat) (cur : list N)
  (path : list (list N)) : option (list N * list N) :=
  let k := length path - 1 in
  let top := i / 2 ^ k in
  let cur' := climb hf ps 0 i cur (removelast path) in
  let a := last path [] in
  let l := if Nat.odd top then a else cur' in
  let r := if Nat.odd top then cur' else a in
  let adr_of x := adr 2 0 (N.of_nat k) (N.of_nat x) 0 in
  if bytes_eqb (PRF hf ps (adr_of (top / 2))) (PRF hf ps (adr_of 0))
  then Some (PRF_input ps (adr_of (top / 2)), PRF_input ps (adr_of 0))
  else Some (H_input hf ps 2 0 k (top / 2) l r, H_input hf ps 2 0 k 0 (nd k 0) (nd k 1)).

(** First collision among the chains. *)
Fixpoint first_some {A} (l : list (option A)) : option A :=
  match l with [] => None | x :: t => orelse x (first_some t) end.

Section Extract.
  Variables (hf : hashfn) (wp : nat * nat * nat) (h : nat) (seed : list N).
  Local Notation lw := (fst (fst wp)).
  Local Notation len := (snd (fst wp) + snd wp).
  Local Notation w := (2 ^ lw).
  Local Notation ss := (key_seed seed).
  Local Notation ps := (key_pub seed).

  (** Parts of a signature. *)
  Definition sig_R (sig : list N) : list N := firstn 32 (skipn 4 sig).
  Definition sig_wots (sig : list N) : list (list N) := cells len (skipn 36 sig).
  Definition sig_path (sig : list N) : list (list N) := cells h (skipn (36 + 32 * len) sig).
  Definition sig_digits (msg sig : list N) : list N :=
    msg_digits lw (snd (fst wp)) (snd wp)
      (digest hf (sig_R sig) (ref_root hf wp h seed) (N.to_nat (sig_index sig)) msg).

  Definition extract (msg sig : list N) : option (list N * list N) :=
    let i := N.to_nat (sig_index sig) in
    let nd := node hf w len ss ps in
    let ds := sig_digits msg sig in
    let pk := pk_of_sig hf w ps i ds (sig_wots sig) in
    let cur := compress hf ps i pk in
    if 2 ^ h <=? i then outside_collision hf ps nd i cur (sig_path sig)
    else orelse (path_collision hf ps nd 0 i cur (sig_path sig))
        (orelse (ltree_collision hf ps len i 0 pk (ots_pk hf w len ss ps i))
           (first_some (map (fun c => let d := N.to_nat (nth c ds 0%N) in
              chain_collision hf ps i c d (w - 1 - d) (nth c (sig_wots sig) [])
                (chain hf ps i c 0 d (chain_start hf ss i c))) (seq 0 len)))).

  (** The signature bytes with one-time key [idx], a chosen randomiser [R], and
      otherwise everything as the key owner would compute it. *)
  Definition owner_sig (idx : nat) (R msg : list N) : list N :=
    to_byte 4 (N.of_nat idx) ++ R ++
    concat (ots_sig hf len ss ps idx
       (msg_digits lw (snd (fst wp)) (snd wp) (digest hf R (ref_root hf wp h seed) idx msg))) ++
    concat (auth_path hf w len ss ps h idx).
End Extract.
