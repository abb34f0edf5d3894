(** Specification for C97: what a 67-byte public key commits its publisher to.

    The key is arbitrary: nobody says that it was generated by this library.  As in SpecForge.v
    the theorems name the collisions, so the functions below compute them from accepted
    signatures. *)
From Coq Require Import List NArith Arith Bool.
From Verif Require Import Bytes HashAddress SpecXmss SpecApi SpecForge SpecReuse Base Descriptor XmssObj.
Import ListNotations.
Open Scope nat_scope.

(** Tree height in a public key: twice the low nibble of its second byte. *)
Definition pk_height (pk : list N) : nat := 2 * N.to_nat (nth 1 pk 0 mod 16)%N.

(** The value of node (k, x) of the hash tree that a climb from the value [cur] of node (j, i)
    along the sibling path shows: the nodes on the way and their siblings, nothing else. *)
Fixpoint node_shown (hf : hashfn) (ps : list N) (j i : nat) (cur : list N) (path : list (list N)) (k x : nat) {struct path} : option (list N) :=
  match path with
  | [] => if (k =? j) && (x =? i) then Some cur else None
  | a :: t =>
      if k =? j then (if x =? i then Some cur else if x =? Nat.lxor i 1 then Some a else None)
      else node_shown hf ps (S j) (i / 2)
             (rand_hash hf ps 2 0 j (i / 2) (if Nat.odd i then a else cur) (if Nat.odd i then cur else a)) t k x
  end.

(** Two climbs of the same length: the lowest level at which both arrive at one node with one
    value from different children. *)
Fixpoint paths_collision (hf : hashfn) (ps : list N) (j i1 i2 : nat) (cur1 cur2 : list N) (p1 p2 : list (list N)) {struct p1} : option (list N * list N) :=
  match p1, p2 with
  | a1 :: t1, a2 :: t2 =>
      let l1 := if Nat.odd i1 then a1 else cur1 in let r1 := if Nat.odd i1 then cur1 else a1 in
      let l2 := if Nat.odd i2 then a2 else cur2 in let r2 := if Nat.odd i2 then cur2 else a2 in
      let n1 := rand_hash hf ps 2 0 j (i1 / 2) l1 r1 in
      let n2 := rand_hash hf ps 2 0 j (i2 / 2) l2 r2 in
      if (i1 / 2 =? i2 / 2) && bytes_eqb n1 n2 && negb (bytes_eqb l1 l2 && bytes_eqb r1 r2)
      then Some (H_input hf ps 2 0 j (i1 / 2) l1 r1, H_input hf ps 2 0 j (i2 / 2) l2 r2)
      else paths_collision hf ps (S j) (i1 / 2) (i2 / 2) n1 n2 t1 t2
  | _, _ => None
  end.

(** Two tree hashes at different places (or with different public seeds): the hash keys agree,
    which is a collision of the key derivation, or the hashed strings differ. *)
Definition places_collision (hf : hashfn) (ps1 ps2 : list N) (t : N) (k1 k2 j1 j2 x1 x2 : nat) (l1 r1 l2 r2 : list N) : list N * list N :=
  let a1 := adr t (N.of_nat k1) (N.of_nat j1) (N.of_nat x1) 0 in
  let a2 := adr t (N.of_nat k2) (N.of_nat j2) (N.of_nat x2) 0 in
  if bytes_eqb (PRF hf ps1 a1) (PRF hf ps2 a2) then (PRF_input ps1 a1, PRF_input ps2 a2)
  else (H_input hf ps1 t k1 j1 x1 l1 r1, H_input hf ps2 t k2 j2 x2 l2 r2).

(** The last hash of an L-tree: its height and its two inputs. *)
Fixpoint l_last (hf : hashfn) (ps : list N) (fuel o j : nat) (l : list (list N)) {struct fuel} : nat * (list N * list N) :=
  match fuel with
  | O => (j, ([], []))
  | S f => match l with
           | [a; b] => (j, (a, b))
           | _ => l_last hf ps f o (S j) (l_level hf ps o j 0 l)
           end
  end.

Section Sig.
  Variables (hf : hashfn) (wp : nat * nat * nat) (pk msg sig : list N).
  Local Notation i := (N.to_nat (sig_index sig)).
  Local Notation h := (pk_height pk).
  Local Notation ps := (pk_seed pk).

  (** What a verifier recomputes: the chain positions, the one-time public key, its leaf. *)
  Definition v_positions : list N := positions hf wp pk (sig_R sig) i msg.
  Definition v_ots_pk : list (list N) := pk_of_sig hf (2 ^ fst (fst wp)) ps i v_positions (sig_wots wp sig).
  Definition v_leaf : list N := compress hf ps i v_ots_pk.
  (** The tree nodes the signature shows. *)
  Definition v_node (k x : nat) : option (list N) := node_shown hf ps 0 i v_leaf (sig_path wp h sig) k x.
  (** The two inputs of the last tree hash. *)
  Definition v_top : list N * list N :=
    let top := i / 2 ^ (h - 1) in
    let cur := climb hf ps 0 i v_leaf (removelast (sig_path wp h sig)) in
    let a := last (sig_path wp h sig) [] in
    if Nat.odd top then (a, cur) else (cur, a).
End Sig.

(** The last hashes of two verifications, at different places. *)
Definition root_pair (hf : hashfn) (wp1 wp2 : nat * nat * nat) (pk1 m1 s1 pk2 m2 s2 : list N) : list N * list N :=
  let i1 := N.to_nat (sig_index s1) in let i2 := N.to_nat (sig_index s2) in
  let '(l1, r1) := v_top hf wp1 pk1 m1 s1 in let '(l2, r2) := v_top hf wp2 pk2 m2 s2 in
  places_collision hf (pk_seed pk1) (pk_seed pk2) 2 0 0 (pk_height pk1 - 1) (pk_height pk2 - 1)
    (i1 / 2 ^ pk_height pk1) (i2 / 2 ^ pk_height pk2) l1 r1 l2 r2.

(** The last hashes of the L-trees of two one-time public keys of different sizes. *)
Definition sizes_pair (hf : hashfn) (ps : list N) (o : nat) (l l' : list (list N)) : list N * list N :=
  let '(j, (a, b)) := l_last hf ps (length l) o 0 l in
  let '(j', (a', b')) := l_last hf ps (length l') o 0 l' in
  places_collision hf ps ps 1 o o j j' 0 0 a b a' b'.

(** Collision extracted from two signatures that are accepted under one public key. *)
Definition tie (hf : hashfn) (wp1 wp2 : nat * nat * nat) (pk m1 s1 m2 s2 : list N) : option (list N * list N) :=
  let ps := pk_seed pk in let h := pk_height pk in
  let i1 := N.to_nat (sig_index s1) in let i2 := N.to_nat (sig_index s2) in
  if negb (i1 / 2 ^ h =? i2 / 2 ^ h) then Some (root_pair hf wp1 wp2 pk m1 s1 pk m2 s2)
  else orelse (paths_collision hf ps 0 i1 i2 (v_leaf hf wp1 pk m1 s1) (v_leaf hf wp2 pk m2 s2) (sig_path wp1 h s1) (sig_path wp2 h s2))
    (if negb (i1 =? i2) then None
     else let p1 := v_ots_pk hf wp1 pk m1 s1 in let p2 := v_ots_pk hf wp2 pk m2 s2 in
     if negb (fst (fst wp1) =? fst (fst wp2)) then Some (sizes_pair hf ps i1 p1 p2)
     else orelse (ltree_collision hf ps (length p1) i1 0 p1 p2)
       (first_some (map (fun c =>
          let d1 := N.to_nat (nth c (v_positions hf wp1 pk m1 s1) 0%N) in
          let d2 := N.to_nat (nth c (v_positions hf wp2 pk m2 s2) 0%N) in
          let x1 := nth c (sig_wots wp1 s1) [] in let x2 := nth c (sig_wots wp2 s2) [] in
          let w := 2 ^ fst (fst wp1) in
          if d1 <=? d2 then chain_collision hf ps i1 c d2 (w - 1 - d2) (chain hf ps i1 c d1 (d2 - d1) x1) x2
          else chain_collision hf ps i1 c d1 (w - 1 - d1) (chain hf ps i1 c d2 (d1 - d2) x2) x1) (seq 0 (length p1))))).

(** [sig] is accepted for [msg] under the key [pk] with the Winternitz parameter [w]; [hf] is the
    hash function the key names and [wp] are the sizes that belong to [w]. *)
Definition accepts (hf : hashfn) (w : N) (wp : nat * nat * nat) (pk msg sig : list N) : Prop :=
  winternitz w = Some wp /\ all_bytes pk /\ hash_of_id (nth 0 pk 0 mod 16)%N = Some hf /\ all_bytes sig /\
  verify msg sig pk w = Ok true.

(** Two signatures at one index show values of the same chains: the value at the lower position,
    hashed forward, is the one at the higher position. *)
Definition same_chains (hf : hashfn) (wp : nat * nat * nat) (pk m1 s1 m2 s2 : list N) : Prop :=
  let i := N.to_nat (sig_index s1) in
  forall c, c < snd (fst wp) + snd wp ->
    let d1 := N.to_nat (nth c (v_positions hf wp pk m1 s1) 0%N) in
    let d2 := N.to_nat (nth c (v_positions hf wp pk m2 s2) 0%N) in
    let x1 := nth c (sig_wots wp s1) [] in let x2 := nth c (sig_wots wp s2) [] in
    (d1 <= d2 -> x2 = chain hf (pk_seed pk) i c d1 (d2 - d1) x1) /\
    (d2 <= d1 -> x1 = chain hf (pk_seed pk) i c d2 (d1 - d2) x2).
