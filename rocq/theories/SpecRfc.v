(** RFC 8391 (XMSS), Algorithms 1, 2, 4 to 9 and 11 to 14, transcribed for n = 32.

    This specification does not use the other Spec files: it is written from the pseudo-code of
    the RFC (section numbers in the comments), with its loops, its stack and its mutable
    address, so that it can be compared with the RFC line by line.  Arrays are lists, an address
    is the list of its eight 32-bit words, and a function that changes its copy of ADRS does
    not change the caller's (in the RFC the caller always sets the words it needs afresh).
    The RFC leaves open how the one-time secret keys are made: [wots_sk i] are the len strings
    of the i-th one.  The hash function is a parameter (section 5.1 builds F, H, H_msg and PRF
    from SHA2-256 or SHAKE by a prefix; the numbers are its). *)
From Coq Require Import List NArith Arith Bool.
Import ListNotations.
Open Scope nat_scope.

Section Rfc8391.
  Variables (hash : list N -> list N) (lg_w len_1 len_2 : nat).
  Definition rfc_len : nat := len_1 + len_2.
  Definition rfc_w : nat := 2 ^ lg_w.

  (** 2.4: toByte(x, y), the y-byte string of x in big-endian order. *)
  Fixpoint toByte (x : N) (y : nat) : list N :=
    match y with
    | O => []
    | S y' => toByte (x / 256) y' ++ [(x mod 256)%N]
    end.
  (** XOR of byte strings of equal length. *)
  Definition xorb (a b : list N) : list N := map (fun p => N.lxor (fst p) (snd p)) (combine a b).

  (** 5.1: F, H, H_msg and PRF. *)
  Definition rfc_F (KEY M : list N) := hash (toByte 0 32 ++ KEY ++ M).
  Definition rfc_H (KEY M : list N) := hash (toByte 1 32 ++ KEY ++ M).
  Definition rfc_H_msg (KEY M : list N) := hash (toByte 2 32 ++ KEY ++ M).
  Definition rfc_PRF (KEY M : list N) := hash (toByte 3 32 ++ KEY ++ M).

  (** 2.5: hash addresses.  Words: 0 layer, 1-2 tree, 3 type, then by type
      0: 4 OTS address, 5 chain address, 6 hash address;
      1: 4 L-tree address, 5 tree height, 6 tree index;
      2: 4 padding, 5 tree height, 6 tree index;  always 7 keyAndMask.
      "Whenever the type word of an address is changed, all following words should be
      initialized with 0." *)
  Definition set_word (k : nat) (ADRS : list N) (v : N) : list N := firstn k ADRS ++ [v] ++ skipn (S k) ADRS.
  Definition setType (ADRS : list N) (t : N) : list N := firstn 3 ADRS ++ [t; 0; 0; 0; 0]%N.
  Definition setOTSAddress := set_word 4.
  Definition setChainAddress := set_word 5.
  Definition setHashAddress := set_word 6.
  Definition setLTreeAddress := set_word 4.
  Definition setTreeHeight := set_word 5.
  Definition setTreeIndex := set_word 6.
  Definition setKeyAndMask := set_word 7.
  Definition getTreeHeight (ADRS : list N) : N := nth 5 ADRS 0%N.
  Definition getTreeIndex (ADRS : list N) : N := nth 6 ADRS 0%N.
  (** The address as the 32-byte string that is hashed. *)
  Definition adrs (ADRS : list N) : list N := concat (map (fun v => toByte v 4) ADRS).
  (** "ADRS = toByte(0, 32)". *)
  Definition ADRS0 : list N := repeat 0%N 8.

  (** 2.6, Algorithm 1: base_w(X, w, out_len).  State of the loop: in, total, bits. *)
  Fixpoint base_w_loop (X : list N) (out_len : nat) (inn : nat) (total : N) (bits : nat) : list N :=
    match out_len with
    | O => []
    | S r =>
        let '(inn, total, bits) := if bits =? 0 then (S inn, nth inn X 0%N, bits + 8) else (inn, total, bits) in
        let bits := bits - lg_w in
        N.land (N.shiftr total (N.of_nat bits)) (N.of_nat rfc_w - 1) :: base_w_loop X r inn total bits
    end.
  Definition base_w (X : list N) (out_len : nat) : list N := base_w_loop X out_len 0 0 0.

  (** 3.1.2, Algorithm 2: chain(X, i, s, SEED, ADRS); None is the RFC's NULL. *)
  Fixpoint chain_rfc (X : list N) (i s : nat) (SEED ADRS : list N) : option (list N) :=
    match s with
    | O => Some X
    | S s' =>
        if rfc_w - 1 <? i + s then None else
        match chain_rfc X i s' SEED ADRS with
        | None => None
        | Some tmp =>
            let ADRS := setHashAddress ADRS (N.of_nat (i + s - 1)) in
            let KEY := rfc_PRF SEED (adrs (setKeyAndMask ADRS 0)) in
            let BM := rfc_PRF SEED (adrs (setKeyAndMask ADRS 1)) in
            Some (rfc_F KEY (xorb tmp BM))
        end
    end.

  (** All of a list of results, or NULL. *)
  Fixpoint all_of {A} (l : list (option A)) : option (list A) :=
    match l with
    | [] => Some []
    | Some x :: r => match all_of r with Some t => Some (x :: t) | None => None end
    | None :: _ => None
    end.

  (** 3.1.4, Algorithm 4: WOTS_genPK. *)
  Definition WOTS_genPK (sk : list (list N)) (SEED ADRS : list N) : option (list (list N)) :=
    all_of (map (fun i => chain_rfc (nth i sk []) 0 (rfc_w - 1) SEED (setChainAddress ADRS (N.of_nat i))) (seq 0 rfc_len)).

  (** First half of 3.1.5, Algorithm 5: message and checksum to base w. *)
  Definition wots_msg (M : list N) : list N :=
    let msg := base_w M len_1 in
    let csum := fold_left (fun csum m => (csum + N.of_nat rfc_w - 1 - m)%N) msg 0%N in
    let csum := N.shiftl csum (N.of_nat (8 - ((len_2 * lg_w) mod 8))) in
    let len_2_bytes := (len_2 * lg_w + 7) / 8 in
    msg ++ base_w (toByte csum len_2_bytes) len_2.
  (** Second half: WOTS_sign. *)
  Definition WOTS_sign (M : list N) (sk : list (list N)) (SEED ADRS : list N) : option (list (list N)) :=
    let msg := wots_msg M in
    all_of (map (fun i => chain_rfc (nth i sk []) 0 (N.to_nat (nth i msg 0%N)) SEED (setChainAddress ADRS (N.of_nat i))) (seq 0 rfc_len)).
  (** 3.1.6, Algorithm 6: WOTS_pkFromSig. *)
  Definition WOTS_pkFromSig (M : list N) (sig : list (list N)) (SEED ADRS : list N) : option (list (list N)) :=
    let msg := wots_msg M in
    all_of (map (fun i => let m := N.to_nat (nth i msg 0%N) in
                 chain_rfc (nth i sig []) m (rfc_w - 1 - m) SEED (setChainAddress ADRS (N.of_nat i))) (seq 0 rfc_len)).

  (** 4.1.4, Algorithm 7: RAND_HASH(LEFT, RIGHT, SEED, ADRS). *)
  Definition RAND_HASH (LEFT RIGHT SEED ADRS : list N) : list N :=
    let KEY := rfc_PRF SEED (adrs (setKeyAndMask ADRS 0)) in
    let BM_0 := rfc_PRF SEED (adrs (setKeyAndMask ADRS 1)) in
    let BM_1 := rfc_PRF SEED (adrs (setKeyAndMask ADRS 2)) in
    rfc_H KEY (xorb LEFT BM_0 ++ xorb RIGHT BM_1).

  (** 4.1.5, Algorithm 8: ltree(pk, SEED, ADRS), in place. *)
  Definition store (l : list (list N)) (k : nat) (v : list N) : list (list N) := firstn k l ++ [v] ++ skipn (S k) l.
  Definition ltree_for (len' : nat) (SEED ADRS : list N) (pk : list (list N)) : list (list N) :=
    fold_left (fun pk i => store pk i (RAND_HASH (nth (2 * i) pk []) (nth (2 * i + 1) pk []) SEED (setTreeIndex ADRS (N.of_nat i))))
      (seq 0 (len' / 2)) pk.
  Fixpoint ltree_while (fuel : nat) (len' : nat) (SEED ADRS : list N) (pk : list (list N)) : list N :=
    match fuel with
    | O => nth 0 pk []
    | S f =>
        if 1 <? len' then
          let pk := ltree_for len' SEED ADRS pk in
          let pk := if len' mod 2 =? 1 then store pk (len' / 2) (nth (len' - 1) pk []) else pk in
          ltree_while f ((len' + 1) / 2) SEED (setTreeHeight ADRS (getTreeHeight ADRS + 1)) pk
        else nth 0 pk []
    end.
  (** [rfc_len] turns are always enough: len' at least halves, rounded up, in each. *)
  Definition ltree (pk : list (list N)) (SEED ADRS : list N) : list N :=
    ltree_while rfc_len rfc_len SEED (setTreeHeight ADRS 0) pk.

  Section Key.
    Variables (wots_sk : nat -> list (list N)) (SEED : list N).

    (** 4.1.6, Algorithm 9: treeHash(SK, s, t, ADRS).  The stack holds nodes with their
        heights, its top is the head of the list. *)
    Fixpoint merge (stack : list (nat * list N)) (h' : nat) (node : list N) (ADRS : list N) {struct stack} : list (nat * list N) :=
      match stack with
      | (k, top) :: rest =>
          if k =? h' then
            let ADRS := setTreeIndex ADRS ((getTreeIndex ADRS - 1) / 2) in
            let node := RAND_HASH top node SEED ADRS in
            let ADRS := setTreeHeight ADRS (getTreeHeight ADRS + 1) in
            merge rest (S h') node ADRS
          else (h', node) :: stack
      | [] => [(h', node)]
      end.
    Definition treeHash_turn (ADRS : list N) (stack : option (list (nat * list N))) (j : nat) : option (list (nat * list N)) :=
      match stack with
      | None => None
      | Some stack =>
          let A := setOTSAddress (setType ADRS 0) (N.of_nat j) in
          match WOTS_genPK (wots_sk j) SEED A with
          | None => None
          | Some pk =>
              let A := setLTreeAddress (setType A 1) (N.of_nat j) in
              let node := ltree pk SEED A in
              let A := setTreeIndex (setTreeHeight (setType A 2) 0) (N.of_nat j) in
              Some (merge stack 0 node A)
          end
      end.
    Definition treeHash (s t : nat) (ADRS : list N) : option (list N) :=
      if negb (s mod 2 ^ t =? 0) then None else
      match fold_left (treeHash_turn ADRS) (map (fun i => s + i) (seq 0 (2 ^ t))) (Some []) with
      | Some ((_, node) :: _) => Some node
      | _ => None
      end.

    (** 4.1.9, buildAuth(SK, i, ADRS). *)
    Definition buildAuth (h i : nat) (ADRS : list N) : option (list (list N)) :=
      all_of (map (fun j => let k := Nat.lxor (i / 2 ^ j) 1 in treeHash (k * 2 ^ j) j ADRS) (seq 0 h)).
    (** 4.1.9, Algorithm 11: treeSig(M', SK, idx_sig, ADRS) = sig_ots || auth. *)
    Definition treeSig (h : nat) (M' : list N) (idx_sig : nat) (ADRS : list N) : option (list N) :=
      match buildAuth h idx_sig ADRS with
      | None => None
      | Some auth =>
          match WOTS_sign M' (wots_sk idx_sig) SEED (setOTSAddress (setType ADRS 0) (N.of_nat idx_sig)) with
          | None => None
          | Some sig_ots => Some (concat sig_ots ++ concat auth)
          end
      end.
    (** 4.1.9, Algorithm 12: XMSS_sign, the signature made at index idx_sig (4 bytes). *)
    Definition XMSS_sign (h : nat) (SK_PRF root : list N) (idx_sig : nat) (M : list N) : option (list N) :=
      let r := rfc_PRF SK_PRF (toByte (N.of_nat idx_sig) 32) in
      let M' := rfc_H_msg (r ++ root ++ toByte (N.of_nat idx_sig) 32) M in
      match treeSig h M' idx_sig ADRS0 with
      | None => None
      | Some s => Some (toByte (N.of_nat idx_sig) 4 ++ r ++ s)
      end.
  End Key.

  (** 4.1.10, Algorithm 13: XMSS_rootFromSig. *)
  Definition root_turn (idx_sig : nat) (auth : list (list N)) (SEED : list N) (st : list N * list N) (k : nat) : list N * list N :=
    let '(node, ADRS) := st in
    let ADRS := setTreeHeight ADRS (N.of_nat k) in
    if (idx_sig / 2 ^ k) mod 2 =? 0 then
      let ADRS := setTreeIndex ADRS (getTreeIndex ADRS / 2) in
      (RAND_HASH node (nth k auth []) SEED ADRS, ADRS)
    else
      let ADRS := setTreeIndex ADRS ((getTreeIndex ADRS - 1) / 2) in
      (RAND_HASH (nth k auth []) node SEED ADRS, ADRS).
  Definition XMSS_rootFromSig (h idx_sig : nat) (sig_ots auth : list (list N)) (M' SEED ADRS : list N) : option (list N) :=
    let A := setOTSAddress (setType ADRS 0) (N.of_nat idx_sig) in
    match WOTS_pkFromSig M' sig_ots SEED A with
    | None => None
    | Some pk_ots =>
        let A := setLTreeAddress (setType A 1) (N.of_nat idx_sig) in
        let node := ltree pk_ots SEED A in
        let A := setTreeIndex (setType A 2) (N.of_nat idx_sig) in
        Some (fst (fold_left (root_turn idx_sig auth SEED) (seq 0 h) (node, A)))
    end.
  (** 4.1.10, Algorithm 14: XMSS_verify; the signature is idx_sig || r || sig_ots || auth. *)
  Definition XMSS_verify (h idx_sig : nat) (r : list N) (sig_ots auth : list (list N)) (M root SEED : list N) : bool :=
    let M' := rfc_H_msg (r ++ root ++ toByte (N.of_nat idx_sig) 32) M in
    match XMSS_rootFromSig h idx_sig sig_ots auth M' SEED ADRS0 with
    | None => false
    | Some node => if list_eq_dec N.eq_dec node root then true else false
    end.
End Rfc8391.

(** 2.6 gives these outputs of base_w for X = 0x1234. *)
Example base_w_rfc_16 : base_w 4 [0x12; 0x34]%N 4 = [1; 2; 3; 4]%N. Proof. reflexivity. Qed.
Example base_w_rfc_16_3 : base_w 4 [0x12; 0x34]%N 3 = [1; 2; 3]%N. Proof. reflexivity. Qed.
Example base_w_rfc_4 : base_w 2 [0x12; 0x34]%N 8 = [0; 1; 0; 2; 0; 3; 1; 0]%N. Proof. reflexivity. Qed.

(** The one-time secret keys of the library (the RFC leaves them to the implementation): chain
    c of key i starts from PRF(PRF(SK_SEED, OTS address i), toByte(c, 32)). *)
Definition lib_wots_sk (hash : list N -> list N) (len : nat) (SK_SEED : list N) (i : nat) : list (list N) :=
  map (fun c => rfc_PRF hash (rfc_PRF hash SK_SEED (adrs (setOTSAddress ADRS0 (N.of_nat i)))) (toByte (N.of_nat c) 32)) (seq 0 len).
