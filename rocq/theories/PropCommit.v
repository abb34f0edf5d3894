(** C97: what a public key commits its publisher to, whoever made it. *)
(** Concrete cases for the hypotheses: the Examples at the end. *)
From Coq Require Import List NArith Arith Lia Bool.
From Verif Require Import Base Bytes Keccak KeccakLemmas HashAddress Wots XmssCommon Descriptor SpecXmss SpecApi SpecForge SpecReuse SpecCommit XmssObj XmssRefine DescrProofs
  WotsProofs TreeProofs BasicProofs BdsProofs FastProofs VerifyProofs PropObj PropKeys PropDomain PropVerify PropForge PropForge2 PropReuse CasesXmss.
Import ListNotations.
Open Scope nat_scope.

Lemma lxor1_cases : forall i, i = 2 * (i / 2) + (if Nat.odd i then 1 else 0) /\
  Nat.lxor i 1 = 2 * (i / 2) + (if Nat.odd i then 0 else 1).
Proof.
  intros i. assert (E : i = 2 * (i / 2) + (if Nat.odd i then 1 else 0)).
  { rewrite (Nat.div2_odd i) at 1. rewrite Nat.div2_div. now destruct (Nat.odd i). }
  split; [exact E|]. rewrite lxor_1. destruct (Nat.odd i); lia.
Qed.

(** ** Two climbs *)
Lemma shown_start : forall hf ps path j i cur, node_shown hf ps j i cur path j i = Some cur.
Proof. destruct path; intros; cbn [node_shown]; now rewrite !Nat.eqb_refl. Qed.

Lemma paths_coll : forall hf ps p1 p2 j i1 i2 c1 c2, length p1 = length p2 -> length c1 = 32 -> length c2 = 32 ->
  cells32 p1 -> cells32 p2 -> i1 / 2 ^ length p1 = i2 / 2 ^ length p1 ->
  climb hf ps j i1 c1 p1 = climb hf ps j i2 c2 p2 ->
  found hf (paths_collision hf ps j i1 i2 c1 c2 p1 p2) \/
  (paths_collision hf ps j i1 i2 c1 c2 p1 p2 = None /\
   forall k x v v', node_shown hf ps j i1 c1 p1 k x = Some v -> node_shown hf ps j i2 c2 p2 k x = Some v' -> v = v').
Proof.
  intros hf ps. induction p1 as [|a1 t1 IH]; intros [|a2 t2] j i1 i2 c1 c2 HL L1 L2 F1 F2 Ei E; try discriminate.
  - right. split; [reflexivity|]. cbn [node_shown climb] in *. subst c2. intros k x v v' H H'.
    destruct ((k =? j) && (x =? i1)); [|discriminate]. destruct ((k =? j) && (x =? i2)); [|discriminate]. congruence.
  - inversion F1 as [|? ? La1 Ft1]; subst. inversion F2 as [|? ? La2 Ft2]; subst. cbn [length] in HL, Ei.
    cbn [climb paths_collision node_shown] in *.
    set (l1 := if Nat.odd i1 then a1 else c1) in *. set (r1 := if Nat.odd i1 then c1 else a1) in *.
    set (l2 := if Nat.odd i2 then a2 else c2) in *. set (r2 := if Nat.odd i2 then c2 else a2) in *.
    assert (En1 : (if Nat.odd i1 then rand_hash hf ps 2 0 j (i1 / 2) a1 c1 else rand_hash hf ps 2 0 j (i1 / 2) c1 a1)
              = rand_hash hf ps 2 0 j (i1 / 2) l1 r1) by (unfold l1, r1; now destruct (Nat.odd i1)).
    assert (En2 : (if Nat.odd i2 then rand_hash hf ps 2 0 j (i2 / 2) a2 c2 else rand_hash hf ps 2 0 j (i2 / 2) c2 a2)
              = rand_hash hf ps 2 0 j (i2 / 2) l2 r2) by (unfold l2, r2; now destruct (Nat.odd i2)).
    rewrite En1, En2 in E. set (n1 := rand_hash hf ps 2 0 j (i1 / 2) l1 r1) in *. set (n2 := rand_hash hf ps 2 0 j (i2 / 2) l2 r2) in *.
    assert (Ll1 : length l1 = 32) by (unfold l1; destruct (Nat.odd i1); auto).
    assert (Lr1 : length r1 = 32) by (unfold r1; destruct (Nat.odd i1); auto).
    assert (Ll2 : length l2 = 32) by (unfold l2; destruct (Nat.odd i2); auto).
    assert (Lr2 : length r2 = 32) by (unfold r2; destruct (Nat.odd i2); auto).
    assert (Ed : forall i, i / 2 / 2 ^ length t1 = i / 2 ^ S (length t1)) by (intros; rewrite Nat.div_div; [reflexivity|lia|apply Nat.pow_nonzero; lia]).
    destruct (IH t2 (S j) (i1 / 2) (i2 / 2) n1 n2) as [Hf|(Hn & Hv)]; auto; try apply rand_hash_length.
    { now rewrite !Ed. }
    + left. destruct ((i1 / 2 =? i2 / 2) && bytes_eqb n1 n2 && negb (bytes_eqb l1 l2 && bytes_eqb r1 r2)) eqn:Eb; auto.
      apply andb_true_iff in Eb. destruct Eb as [Eb E3]. apply andb_true_iff in Eb. destruct Eb as [E1 E2].
      apply Nat.eqb_eq in E1. destruct (bytes_eqb_spec n1 n2) as [E2'|]; [|discriminate].
      eexists. split; [reflexivity|]. split; cbn [fst snd]; [|rewrite <- !H_raw; exact E2'].
      rewrite E1. intros EH. apply H_input_inj in EH; auto. destruct EH as [-> ->].
      destruct (bytes_eqb_spec l2 l2); [|congruence]. destruct (bytes_eqb_spec r2 r2); [|congruence]. discriminate.
    + destruct ((i1 / 2 =? i2 / 2) && bytes_eqb n1 n2 && negb (bytes_eqb l1 l2 && bytes_eqb r1 r2)) eqn:Eb.
      * left. apply andb_true_iff in Eb. destruct Eb as [Eb E3]. apply andb_true_iff in Eb. destruct Eb as [E1 E2].
        apply Nat.eqb_eq in E1. destruct (bytes_eqb_spec n1 n2) as [E2'|]; [|discriminate].
        eexists. split; [reflexivity|]. split; cbn [fst snd]; [|rewrite <- !H_raw; exact E2'].
        rewrite E1. intros EH. apply H_input_inj in EH; auto. destruct EH as [-> ->].
        destruct (bytes_eqb_spec l2 l2); [|congruence]. destruct (bytes_eqb_spec r2 r2); [|congruence]. discriminate.
      * right. split; [exact Hn|]. intros k x v v' H H'.
        destruct (k =? j) eqn:Ek; [|eapply Hv; eauto].
        destruct (lxor1_cases i1) as (I1 & X1). destruct (lxor1_cases i2) as (I2 & X2).
        assert (V1 : x / 2 = i1 / 2 /\ v = if Nat.odd x then r1 else l1).
        { destruct (x =? i1) eqn:Ex.
          - apply Nat.eqb_eq in Ex. subst x. split; auto. assert (v = c1) as -> by congruence. unfold l1, r1. now destruct (Nat.odd i1).
          - destruct (x =? Nat.lxor i1 1) eqn:Ex2; [|discriminate]. apply Nat.eqb_eq in Ex2. assert (v = a1) as -> by congruence.
            rewrite X1 in Ex2. subst x. split.
            + rewrite (Nat.mul_comm 2), Nat.div_add_l by lia. destruct (Nat.odd i1); cbn; lia.
            + rewrite Nat.odd_add, Nat.odd_mul. cbn [Nat.odd]. unfold l1, r1. destruct (Nat.odd i1); reflexivity. }
        assert (V2 : x / 2 = i2 / 2 /\ v' = if Nat.odd x then r2 else l2).
        { destruct (x =? i2) eqn:Ex.
          - apply Nat.eqb_eq in Ex. subst x. split; auto. assert (v' = c2) as -> by congruence. unfold l2, r2. now destruct (Nat.odd i2).
          - destruct (x =? Nat.lxor i2 1) eqn:Ex2; [|discriminate]. apply Nat.eqb_eq in Ex2. assert (v' = a2) as -> by congruence.
            rewrite X2 in Ex2. subst x. split.
            + rewrite (Nat.mul_comm 2), Nat.div_add_l by lia. destruct (Nat.odd i2); cbn; lia.
            + rewrite Nat.odd_add, Nat.odd_mul. cbn [Nat.odd]. unfold l2, r2. destruct (Nat.odd i2); reflexivity. }
        destruct V1 as (D1 & ->). destruct V2 as (D2 & ->).
        assert (D : i1 / 2 = i2 / 2) by congruence.
        assert (Enn : n1 = n2). { apply (Hv (S j) (i1 / 2)); [apply shown_start|rewrite D; apply shown_start]. }
        rewrite D, Nat.eqb_refl in Eb. cbn [andb] in Eb. destruct (bytes_eqb_spec n1 n2); [|congruence]. cbn [andb] in Eb.
        apply negb_false_iff, andb_true_iff in Eb. destruct Eb as [B1 B2].
        destruct (bytes_eqb_spec l1 l2); [|discriminate]. destruct (bytes_eqb_spec r1 r2); [|discriminate].
        destruct (Nat.odd x); auto.
Qed.

(** ** Different places *)
Lemma adr_places : forall t k1 j1 x1 k2 j2 x2, (N.of_nat k1 < 2 ^ 32)%N -> (N.of_nat k2 < 2 ^ 32)%N -> (N.of_nat j1 < 2 ^ 32)%N -> (N.of_nat j2 < 2 ^ 32)%N ->
  (N.of_nat x1 < 2 ^ 32)%N -> (N.of_nat x2 < 2 ^ 32)%N ->
  adr t (N.of_nat k1) (N.of_nat j1) (N.of_nat x1) 0 = adr t (N.of_nat k2) (N.of_nat j2) (N.of_nat x2) 0 -> k1 = k2 /\ j1 = j2 /\ x1 = x2.
Proof.
  intros t k1 j1 x1 k2 j2 x2 K1 K2 J1 J2 X1 X2 E. unfold adr in E. cbn [map concat] in E. rewrite !app_nil_r in E.
  do 4 (apply app_inv_head in E).
  apply app_inj_len in E; [|now rewrite !to_byte_length]. destruct E as (Ek & E).
  apply app_inj_len in E; [|now rewrite !to_byte_length]. destruct E as (Ej & E).
  apply app_inv_tail in E.
  apply (to_byte_inj 4) in Ek; auto. apply (to_byte_inj 4) in Ej; auto. apply (to_byte_inj 4) in E; auto. lia.
Qed.

Lemma places_coll : forall hf ps1 ps2 t k1 k2 j1 j2 x1 x2 l1 r1 l2 r2, length ps1 = 32 -> length ps2 = 32 ->
  (N.of_nat k1 < 2 ^ 32)%N -> (N.of_nat k2 < 2 ^ 32)%N -> (N.of_nat j1 < 2 ^ 32)%N -> (N.of_nat j2 < 2 ^ 32)%N ->
  (N.of_nat x1 < 2 ^ 32)%N -> (N.of_nat x2 < 2 ^ 32)%N ->
  rand_hash hf ps1 t k1 j1 x1 l1 r1 = rand_hash hf ps2 t k2 j2 x2 l2 r2 ->
  collision hf (places_collision hf ps1 ps2 t k1 k2 j1 j2 x1 x2 l1 r1 l2 r2) \/ (ps1 = ps2 /\ k1 = k2 /\ j1 = j2 /\ x1 = x2).
Proof.
  intros hf ps1 ps2 t k1 k2 j1 j2 x1 x2 l1 r1 l2 r2 LP1 LP2 K1 K2 J1 J2 X1 X2 E. unfold places_collision.
  set (A1 := adr t (N.of_nat k1) (N.of_nat j1) (N.of_nat x1) 0) in *. set (A2 := adr t (N.of_nat k2) (N.of_nat j2) (N.of_nat x2) 0) in *.
  destruct (bytes_eqb_spec (PRF hf ps1 A1) (PRF hf ps2 A2)) as [EP|NP].
  - destruct (list_eq_dec N.eq_dec (PRF_input ps1 A1) (PRF_input ps2 A2)) as [EI|NI].
    + right. unfold PRF_input in EI. apply app_inv_head in EI. apply app_inj_len in EI; [|congruence]. destruct EI as (Es & EA).
      apply adr_places in EA; auto.
    + left. split; cbn [fst snd]; [exact NI|]. rewrite <- !PRF_raw. exact EP.
  - left. split; cbn [fst snd]; [|rewrite <- !H_raw; exact E].
    intros EI. unfold H_input in EI. fold A1 A2 in EI. apply app_inv_head in EI. apply app_inj_len in EI; [|now rewrite !PRF_length].
    destruct EI as (EP & _). exact (NP EP).
Qed.

(** ** The last hash of an L-tree *)
Lemma l_last_spec : forall hf ps o k fuel j l, 2 ^ k < length l <= 2 ^ S k -> length l <= fuel -> cells32 l ->
  let '(j', (a, b)) := l_last hf ps fuel o j l in j' = j + k /\ l_root hf ps fuel o j l = rand_hash hf ps 1 o j' 0 a b.
Proof.
  intros hf ps o. induction k as [|k IH]; intros fuel j l Hb Hf HC.
  - change (2 ^ 0) with 1 in Hb. change (2 ^ 1) with 2 in Hb. destruct l as [|a [|b [|]]]; cbn [length] in Hb; try lia.
    destruct fuel as [|fuel]; [cbn in Hf; lia|]. cbn [l_last]. rewrite Nat.add_0_r. split; [reflexivity|].
    cbn [l_root l_level]. now destruct fuel.
  - destruct fuel as [|fuel]; [lia|].
    assert (P : 2 ^ S k = 2 * 2 ^ k) by reflexivity. assert (P2 : 2 ^ S (S k) = 2 * 2 ^ S k) by reflexivity.
    pose proof (Nat.pow_nonzero 2 k ltac:(lia)) as Pn.
    assert (HL3 : 3 <= length l) by lia.
    assert (El : l_last hf ps (S fuel) o j l = l_last hf ps fuel o (S j) (l_level hf ps o j 0 l)).
    { destruct l as [|a [|b [|c t]]]; cbn [length] in HL3; try lia. reflexivity. }
    assert (Er : l_root hf ps (S fuel) o j l = l_root hf ps fuel o (S j) (l_level hf ps o j 0 l)).
    { destruct l as [|a [|b [|c t]]]; cbn [length] in HL3; try lia. reflexivity. }
    rewrite El, Er.
    specialize (IH fuel (S j) (l_level hf ps o j 0 l)). rewrite l_level_length in IH.
    pose proof (Nat.div_mod (length l + 1) 2 ltac:(lia)). pose proof (Nat.mod_upper_bound (length l + 1) 2 ltac:(lia)).
    destruct (l_last hf ps fuel o (S j) (l_level hf ps o j 0 l)) as (j' & a & b).
    destruct IH as (E1 & E2); [lia|lia|apply l_level_cells; exact HC|]. split; [lia|exact E2].
Qed.

(** ** What an accepted signature says *)
Section Accepted.
  Variables (hf : hashfn) (w : N) (wp : nat * nat * nat) (pk msg sig : list N).
  Hypothesis Hw : winternitz w = Some wp.
  Hypothesis Hpk : all_bytes pk.
  Hypothesis Hhf : hash_of_id (nth 0 pk 0 mod 16)%N = Some hf.
  Hypothesis HB : all_bytes sig.
  Hypothesis HV : verify msg sig pk w = Ok true.
  Local Notation len := (snd (fst wp) + snd wp).
  Local Notation W := (2 ^ fst (fst wp)).
  Local Notation h := (pk_height pk).
  Local Notation i := (N.to_nat (sig_index sig)).
  Local Notation ps := (pk_seed pk).

  Lemma acc_parts : length pk = 67 /\ 4 <= h <= 30 /\ length sig = 36 + 32 * len + 32 * h /\
    climb hf ps 0 i (v_leaf hf wp pk msg sig) (sig_path wp h sig) = pk_root pk.
  Proof.
    pose proof HV as V. rewrite (verify_spec w wp hf) in V by auto. apply Ok_inj in V. unfold ref_verify in V.
    destruct wp as [[lw l1] l2]. fold (pk_height pk) in V. fold (sig_index sig) in V.
    apply andb_true_iff in V. destruct V as [V V4]. apply andb_true_iff in V. destruct V as [V V3]. apply andb_true_iff in V. destruct V as [V1 V2].
    apply Nat.eqb_eq in V1, V3. apply Nat.leb_le in V2.
    split; [exact V1|]. split. { split; [exact V2|]. unfold pk_height. set (b := nth 1 pk 0%N). pose proof (N.mod_upper_bound b 16). lia. }
    split; [exact V3|]. destruct (list_eq_dec N.eq_dec _ _) as [E|] in V4; [|discriminate]. exact E.
  Qed.

  Lemma acc_len : 2 <= len.
  Proof. apply winternitz_cases in Hw. destruct Hw as [(_ & ->)|[(_ & ->)|[(_ & ->)|(_ & ->)]]]; cbn; lia. Qed.

  Lemma acc_cells : cells32 (sig_wots wp sig) /\ length (sig_wots wp sig) = len /\ cells32 (sig_path wp h sig) /\ length (sig_path wp h sig) = h /\
    cells32 (v_ots_pk hf wp pk msg sig) /\ length (v_ots_pk hf wp pk msg sig) = len /\ length (v_leaf hf wp pk msg sig) = 32 /\ length (sig_R sig) = 32.
  Proof.
    destruct acc_parts as (A1 & A2 & A3 & _). pose proof acc_len as HL.
    assert (C1 : cells32 (sig_wots wp sig)) by (apply cells_cells32; rewrite skipn_length; lia).
    assert (C2 : length (sig_wots wp sig) = len) by apply cells_length.
    assert (C3 : cells32 (sig_path wp h sig)) by (apply cells_cells32; rewrite skipn_length; lia).
    assert (C4 : length (sig_path wp h sig) = h) by apply cells_length.
    assert (C6 : length (v_ots_pk hf wp pk msg sig) = len) by (unfold v_ots_pk; now rewrite pk_of_sig_length).
    assert (C5 : cells32 (v_ots_pk hf wp pk msg sig)).
    { unfold v_ots_pk, pk_of_sig. apply Forall_forall. intros v Hv. apply in_map_iff in Hv. destruct Hv as (c & <- & Hc).
      apply in_seq in Hc. apply chain_length. apply nth_cells32; auto. lia. }
    repeat (split; [assumption|]). split.
    - apply compress_length; auto. intros E. rewrite E in C6. cbn in C6. lia.
    - unfold sig_R. rewrite firstn_length, skipn_length. lia.
  Qed.

  Lemma acc_idx : (N.of_nat i < 2 ^ 32)%N.
  Proof.
    rewrite N2Nat.id. unfold sig_index. eapply N.lt_le_trans; [apply from_be_bound; now apply all_bytes_firstn|].
    change (2 ^ 32)%N with (256 ^ N.of_nat 4)%N. apply N.pow_le_mono_r; [lia|]. rewrite firstn_length. lia.
  Qed.
  Lemma acc_div : forall k, (N.of_nat (i / 2 ^ k) < 2 ^ 32)%N.
  Proof.
    intros k. pose proof acc_idx. assert (i / 2 ^ k <= i); [|lia]. apply Nat.div_le_upper_bound; [apply Nat.pow_nonzero; lia|].
    pose proof (Nat.pow_nonzero 2 k ltac:(lia)). nia.
  Qed.

  Lemma acc_seed : length ps = 32.
  Proof. destruct acc_parts as (A1 & _). unfold pk_seed. rewrite firstn_length, skipn_length. lia. Qed.

  (** The root is the last tree hash. *)
  Lemma acc_top : pk_root pk = rand_hash hf ps 2 0 (h - 1) (i / 2 ^ h) (fst (v_top hf wp pk msg sig)) (snd (v_top hf wp pk msg sig)).
  Proof.
    destruct acc_parts as (A1 & A2 & A3 & A4). destruct acc_cells as (_ & _ & _ & C4 & _).
    set (path := sig_path wp h sig) in *. assert (Hne : path <> []) by (intros E; rewrite E in C4; cbn [length] in C4; lia).
    pose proof (@app_removelast_last (list N) path [] Hne) as Ep.
    assert (Lr : length (removelast path) = h - 1).
    { pose proof (f_equal (@length (list N)) Ep) as Ep2. rewrite app_length in Ep2. cbn [length] in Ep2. lia. }
    rewrite <- A4. rewrite Ep at 1. rewrite climb_app. cbv zeta. rewrite Lr. cbn [plus].
    unfold v_top. fold path. cbv zeta.
    replace (i / 2 ^ (h - 1) / 2) with (i / 2 ^ h).
    - destruct (Nat.odd (i / 2 ^ (h - 1))); reflexivity.
    - rewrite Nat.div_div by (try apply Nat.pow_nonzero; lia). f_equal. replace h with (S (h - 1)) at 1 by lia. cbn [Nat.pow]. lia.
  Qed.

  Lemma acc_positions : forall c, N.to_nat (nth c (v_positions hf wp pk msg sig) 0%N) <= W - 1.
  Proof.
    intros c. unfold v_positions, positions.
    set (D := digest hf (sig_R sig) (pk_root pk) i msg). assert (LD : length D = 32) by apply keyed_length.
    destruct (md_props w wp D Hw LD) as (_ & F).
    destruct (nth_in_or_default c (msg_digits (fst (fst wp)) (snd (fst wp)) (snd wp) D) 0%N) as [Hin|E0]; [|rewrite E0; cbn; lia].
    rewrite Forall_forall in F. specialize (F _ Hin). cbv beta in F.
    assert (EW : N.to_nat w = W). { apply winternitz_cases in Hw. destruct Hw as [(-> & ->)|[(-> & ->)|[(-> & ->)|(-> & ->)]]]; reflexivity. }
    lia.
  Qed.

  Lemma acc_bytes : sig = to_byte 4 (sig_index sig) ++ sig_R sig ++ concat (sig_wots wp sig) ++ concat (sig_path wp h sig).
  Proof.
    destruct acc_parts as (A1 & A2 & A3 & _). unfold sig_wots, sig_path. rewrite !concat_cells by (rewrite skipn_length; lia).
    assert (E4 : to_byte 4 (sig_index sig) = firstn 4 sig).
    { unfold sig_index. replace 4 with (length (firstn 4 sig)) at 1 by (rewrite firstn_length; lia).
      apply to_byte_from_be. now apply all_bytes_firstn. }
    rewrite E4. unfold sig_R.
    rewrite <- (firstn_skipn 4 sig) at 1. f_equal. rewrite <- (firstn_skipn 32 (skipn 4 sig)) at 1. f_equal.
    rewrite <- skipn_plus. change (32 + 4) with 36.
    rewrite <- (firstn_skipn (32 * len) (skipn 36 sig)) at 1. f_equal. rewrite <- skipn_plus.
    replace (32 * len + 36) with (36 + 32 * len) by lia. symmetry. apply firstn_all2. rewrite skipn_length. lia.
  Qed.
End Accepted.

(** ** C97 *)

(** Two keys with one root: one of them is the other (for every verification), or the last
    hashes of the two verifications collide. *)
Theorem C97_root_commits_to_key : forall hf w1 wp1 pk1 m1 s1 w2 wp2 pk2 m2 s2,
  accepts hf w1 wp1 pk1 m1 s1 -> accepts hf w2 wp2 pk2 m2 s2 -> pk_root pk1 = pk_root pk2 ->
  collision hf (root_pair hf wp1 wp2 pk1 m1 s1 pk2 m2 s2) \/
  (pk_seed pk1 = pk_seed pk2 /\ pk_height pk1 = pk_height pk2 /\
   N.to_nat (sig_index s1) / 2 ^ pk_height pk1 = N.to_nat (sig_index s2) / 2 ^ pk_height pk1 /\
   forall w wp msg sig, winternitz w = Some wp -> verify msg sig pk1 w = verify msg sig pk2 w).
Proof.
  intros hf w1 wp1 pk1 m1 s1 w2 wp2 pk2 m2 s2 (W1 & B1 & H1 & S1 & V1) (W2 & B2 & H2 & S2 & V2) ER.
  destruct (acc_parts hf w1 wp1 pk1 m1 s1 W1 B1 H1 V1) as (L1 & P1 & _). destruct (acc_parts hf w2 wp2 pk2 m2 s2 W2 B2 H2 V2) as (L2 & P2 & _).
  pose proof (acc_top hf w1 wp1 pk1 m1 s1 W1 B1 H1 V1) as T1. pose proof (acc_top hf w2 wp2 pk2 m2 s2 W2 B2 H2 V2) as T2.
  unfold root_pair. destruct (v_top hf wp1 pk1 m1 s1) as (l1 & r1). destruct (v_top hf wp2 pk2 m2 s2) as (l2 & r2). cbn [fst snd] in T1, T2.
  destruct (places_coll hf (pk_seed pk1) (pk_seed pk2) 2 0 0 (pk_height pk1 - 1) (pk_height pk2 - 1)
    (N.to_nat (sig_index s1) / 2 ^ pk_height pk1) (N.to_nat (sig_index s2) / 2 ^ pk_height pk2) l1 r1 l2 r2) as [HC|(E1 & _ & E2 & E3)].
  - apply (acc_seed hf w1 wp1 pk1 m1 s1); auto. - apply (acc_seed hf w2 wp2 pk2 m2 s2); auto.
  - reflexivity. - reflexivity. - lia. - lia. - now apply acc_div. - now apply acc_div.
  - congruence.
  - now left.
  - right. assert (EH : pk_height pk1 = pk_height pk2) by lia.
    split; [exact E1|]. split; [exact EH|]. split; [rewrite EH in E3 |- *; exact E3|].
    intros w wp msg sig Hw. rewrite !(verify_spec w wp hf) by auto. f_equal. unfold ref_verify. destruct wp as [[lw la] lb].
    fold (pk_root pk1) (pk_root pk2) (pk_seed pk1) (pk_seed pk2) (pk_height pk1) (pk_height pk2). rewrite ER, E1, EH, L1, L2. reflexivity.
Qed.

Lemma wp_lens : forall w wp, winternitz w = Some wp -> exists k, k <= 8 /\ 2 ^ k < snd (fst wp) + snd wp <= 2 ^ S k /\
  (fst (fst wp) = 1 /\ k = 8 \/ fst (fst wp) = 2 /\ k = 7 \/ fst (fst wp) = 4 /\ k = 6 \/ fst (fst wp) = 8 /\ k = 5).
Proof.
  intros w wp Hw. apply winternitz_cases in Hw. destruct Hw as [(_ & ->)|[(_ & ->)|[(_ & ->)|(_ & ->)]]]; [exists 8|exists 7|exists 6|exists 5];
    cbn [fst snd]; (split; [lia|]; split; [|auto]); cbn; lia.
Qed.
Lemma wp_same : forall w1 wp1 w2 wp2, winternitz w1 = Some wp1 -> winternitz w2 = Some wp2 -> fst (fst wp1) = fst (fst wp2) -> w1 = w2 /\ wp1 = wp2.
Proof.
  intros w1 wp1 w2 wp2 H1 H2. apply winternitz_cases in H1, H2.
  destruct H1 as [(-> & ->)|[(-> & ->)|[(-> & ->)|(-> & ->)]]], H2 as [(-> & ->)|[(-> & ->)|[(-> & ->)|(-> & ->)]]]; cbn; intros; try discriminate; auto.
Qed.

(** Two signatures accepted under one key: the pair of hash inputs computed from them is a
    collision, or they belong to one tree; at one index moreover to one Winternitz parameter,
    one one-time public key and the same chains. *)
Theorem C97_signatures_agree_or_collide : forall hf w1 wp1 w2 wp2 pk m1 s1 m2 s2,
  accepts hf w1 wp1 pk m1 s1 -> accepts hf w2 wp2 pk m2 s2 ->
  (exists xy, tie hf wp1 wp2 pk m1 s1 m2 s2 = Some xy /\ collision hf xy) \/
  (N.to_nat (sig_index s1) / 2 ^ pk_height pk = N.to_nat (sig_index s2) / 2 ^ pk_height pk /\
   (forall k x v v', v_node hf wp1 pk m1 s1 k x = Some v -> v_node hf wp2 pk m2 s2 k x = Some v' -> v = v') /\
   (sig_index s1 = sig_index s2 ->
      w1 = w2 /\ v_ots_pk hf wp1 pk m1 s1 = v_ots_pk hf wp2 pk m2 s2 /\ same_chains hf wp1 pk m1 s1 m2 s2)).
Proof.
  intros hf w1 wp1 w2 wp2 pk m1 s1 m2 s2 A1 A2.
  pose proof (C97_root_commits_to_key hf w1 wp1 pk m1 s1 w2 wp2 pk m2 s2 A1 A2 eq_refl) as T1.
  destruct A1 as (W1 & B & H & S1 & V1). destruct A2 as (W2 & _ & _ & S2 & V2).
  destruct (acc_parts hf w1 wp1 pk m1 s1 W1 B H V1) as (L1 & P1 & Q1 & R1). destruct (acc_parts hf w2 wp2 pk m2 s2 W2 B H V2) as (_ & _ & Q2 & R2).
  destruct (acc_cells hf w1 wp1 pk m1 s1 W1 B H V1) as (Cw1 & Lw1 & Cp1 & Lp1 & Ck1 & Lk1 & Ll1 & _).
  destruct (acc_cells hf w2 wp2 pk m2 s2 W2 B H V2) as (Cw2 & Lw2 & Cp2 & Lp2 & Ck2 & Lk2 & Ll2 & _).
  pose proof (acc_positions hf w1 wp1 pk m1 s1 W1 V1) as D1. pose proof (acc_positions hf w2 wp2 pk m2 s2 W2 V2) as D2.
  pose proof (acc_idx s1 S1) as I1.
  pose proof (acc_seed hf w1 wp1 pk m1 s1 W1 B H V1) as LS.
  fold (found hf (tie hf wp1 wp2 pk m1 s1 m2 s2)). unfold tie. cbv zeta.
  set (i1 := N.to_nat (sig_index s1)) in *. set (i2 := N.to_nat (sig_index s2)) in *. set (h := pk_height pk) in *. set (ps := pk_seed pk) in *.
  destruct (Nat.eqb_spec (i1 / 2 ^ h) (i2 / 2 ^ h)) as [Et|Nt]; cbn [negb].
  2:{ left. destruct T1 as [HC|(_ & _ & E & _)]; [|congruence]. eexists. split; [reflexivity|exact HC]. }
  clear T1.
  destruct (paths_coll hf ps (sig_path wp1 h s1) (sig_path wp2 h s2) 0 i1 i2 (v_leaf hf wp1 pk m1 s1) (v_leaf hf wp2 pk m2 s2)) as [Hf|(Hn & Hv)]; auto.
  { congruence. } { now rewrite Lp1. } { etransitivity; [exact R1|]. symmetry. exact R2. }
  { left. now apply found_orelse_l. }
  rewrite Hn. cbn [orelse].
  destruct (Nat.eqb_spec i1 i2) as [Ei|Ni]; cbn [negb].
  2:{ right. split; [exact Et|]. split; [exact Hv|]. intros E. exfalso. apply Ni. unfold i1, i2. now rewrite E. }
  assert (Elf : v_leaf hf wp1 pk m1 s1 = v_leaf hf wp2 pk m2 s2).
  { apply (Hv 0 i1); [apply shown_start|rewrite Ei; apply shown_start]. }
  unfold v_leaf in Elf. fold i1 i2 ps in Elf. rewrite <- Ei in Elf.
  set (K1 := v_ots_pk hf wp1 pk m1 s1) in *. set (K2 := v_ots_pk hf wp2 pk m2 s2) in *.
  destruct (Nat.eqb_spec (fst (fst wp1)) (fst (fst wp2))) as [Ew|Nw]; cbn [negb].
  2:{ left. destruct (wp_lens w1 wp1 W1) as (k1 & Hk1 & Hl1 & Hc1). destruct (wp_lens w2 wp2 W2) as (k2 & Hk2 & Hl2 & Hc2).
      rewrite <- Lk1 in Hl1. rewrite <- Lk2 in Hl2.
      pose proof (l_last_spec hf ps i1 k1 (length K1) 0 K1 Hl1 (le_n _) Ck1) as Z1.
      pose proof (l_last_spec hf ps i1 k2 (length K2) 0 K2 Hl2 (le_n _) Ck2) as Z2.
      unfold compress in Elf. unfold sizes_pair.
      destruct (l_last hf ps (length K1) i1 0 K1) as (j1 & a1 & b1). destruct (l_last hf ps (length K2) i1 0 K2) as (j2 & a2 & b2).
      destruct Z1 as (J1 & Z1). destruct Z2 as (J2 & Z2).
      eexists. split; [reflexivity|].
      destruct (places_coll hf ps ps 1 i1 i1 j1 j2 0 0 a1 b1 a2 b2) as [HC|(_ & _ & E & _)]; auto; try reflexivity; try lia.
      rewrite <- Z1, <- Z2. exact Elf. }
  destruct (wp_same w1 wp1 w2 wp2 W1 W2 Ew) as (EW & EP). subst w2 wp2.
  destruct (ltree_coll hf ps i1 (length K1) 0 K1 K2) as [Hf|(Hn2 & Epk)]; auto; try lia.
  { unfold compress in Elf. rewrite Elf at 1. now rewrite Lk1, Lk2. }
  { left. now apply found_orelse_l. }
  rewrite Hn2. cbn [orelse].
  set (W := 2 ^ fst (fst wp1)) in *.
  match goal with |- found hf (first_some (map ?f _)) \/ _ =>
    destruct (first_some_coll hf f (fun c => let d1 := N.to_nat (nth c (v_positions hf wp1 pk m1 s1) 0%N) in
      let d2 := N.to_nat (nth c (v_positions hf wp1 pk m2 s2) 0%N) in
      let x1 := nth c (sig_wots wp1 s1) [] in let x2 := nth c (sig_wots wp1 s2) [] in
      (d1 <= d2 -> x2 = chain hf ps i1 c d1 (d2 - d1) x1) /\ (d2 <= d1 -> x1 = chain hf ps i1 c d2 (d1 - d2) x2)) (seq 0 (length K1))) as [Hf|(Hn3 & Hch)] end.
  { intros c Hc. apply in_seq in Hc. cbv zeta.
    apply (f_equal (fun l => nth c l [])) in Epk. unfold K1, K2, v_ots_pk, pk_of_sig in Epk. rewrite Lw1, Lw2 in Epk.
    rewrite !nth_map_seq in Epk by lia. cbv zeta in Epk. fold i1 i2 ps W in Epk. rewrite <- Ei in Epk.
    specialize (D1 c). specialize (D2 c). fold W in D1, D2.
    set (d1 := N.to_nat (nth c (v_positions hf wp1 pk m1 s1) 0%N)) in *. set (d2 := N.to_nat (nth c (v_positions hf wp1 pk m2 s2) 0%N)) in *.
    assert (X1 : length (nth c (sig_wots wp1 s1) []) = 32) by (apply nth_cells32; auto; lia).
    assert (X2 : length (nth c (sig_wots wp1 s2) []) = 32) by (apply nth_cells32; auto; lia).
    set (x1 := nth c (sig_wots wp1 s1) []) in *. set (x2 := nth c (sig_wots wp1 s2) []) in *.
    destruct (d1 <=? d2) eqn:El.
    - apply Nat.leb_le in El. destruct (chain_coll hf ps i1 c d2 (W - 1 - d2) (chain hf ps i1 c d1 (d2 - d1) x1) x2) as [Hf|(Hn4 & E)]; auto.
      + now apply chain_length.
      + rewrite <- Epk. replace (W - 1 - d1) with ((d2 - d1) + (W - 1 - d2)) by lia. rewrite chain_add. f_equal. lia.
      + right. split; auto. split; [auto|]. intros Hle. assert (d1 = d2) as Edd by lia. rewrite Edd, Nat.sub_diag in E |- *. exact E.
    - apply Nat.leb_gt in El. destruct (chain_coll hf ps i1 c d1 (W - 1 - d1) (chain hf ps i1 c d2 (d1 - d2) x2) x1) as [Hf|(Hn4 & E)]; auto.
      + now apply chain_length.
      + rewrite Epk. replace (W - 1 - d2) with ((d1 - d2) + (W - 1 - d1)) by lia. rewrite chain_add. f_equal. lia.
      + right. split; auto. split; [lia|auto]. }
  { now left. }
  right. split; [exact Et|]. split; [exact Hv|]. intros _. split; [reflexivity|]. split; [exact Epk|].
  intros c Hc. apply Hch. apply in_seq. lia.
Qed.

Lemma shown_sibling : forall hf ps path j i cur k, k < length path ->
  node_shown hf ps j i cur path (j + k) (Nat.lxor (i / 2 ^ k) 1) = nth_error path k.
Proof.
  induction path as [|a t IH]; intros j i cur k Hk; [cbn in Hk; lia|]. cbn [node_shown]. destruct k as [|k].
  - rewrite Nat.add_0_r, Nat.eqb_refl. change (2 ^ 0) with 1. rewrite Nat.div_1_r.
    destruct (Nat.eqb_spec (Nat.lxor i 1) i) as [E|_].
    + destruct (lxor1_cases i) as (E1 & E2). destruct (Nat.odd i); lia.
    + now rewrite Nat.eqb_refl.
  - replace (j + S k =? j) with false by (symmetry; apply Nat.eqb_neq; lia).
    replace (j + S k) with (S j + k) by lia. cbn [length] in Hk. cbn [nth_error].
    rewrite <- (IH (S j) (i / 2) (rand_hash hf ps 2 0 j (i / 2) (if Nat.odd i then a else cur) (if Nat.odd i then cur else a)) k) by lia.
    rewrite Nat.div_div by (try apply Nat.pow_nonzero; lia). reflexivity.
Qed.

(** Under any key there is at most one accepted signature for a message, an index and a
    randomiser, whichever Winternitz parameters are tried, or a collision. *)
Theorem C97_one_signature : forall hf w1 wp1 w2 wp2 pk msg s1 s2,
  accepts hf w1 wp1 pk msg s1 -> accepts hf w2 wp2 pk msg s2 ->
  sig_index s1 = sig_index s2 -> sig_R s1 = sig_R s2 ->
  (exists xy, tie hf wp1 wp2 pk msg s1 msg s2 = Some xy /\ collision hf xy) \/ (w1 = w2 /\ s1 = s2).
Proof.
  intros hf w1 wp1 w2 wp2 pk msg s1 s2 A1 A2 EI ER.
  destruct (C97_signatures_agree_or_collide hf w1 wp1 w2 wp2 pk msg s1 msg s2 A1 A2) as [HC|(_ & Hv & HS)]; [now left|right].
  destruct (HS EI) as (<- & _ & Hch). split; [reflexivity|].
  destruct A1 as (W1 & B & H & S1 & V1). destruct A2 as (W2 & _ & _ & S2 & V2).
  assert (wp2 = wp1) by congruence. subst wp2.
  destruct (acc_cells hf w1 wp1 pk msg s1 W1 B H V1) as (Cw1 & Lw1 & Cp1 & Lp1 & _).
  destruct (acc_cells hf w1 wp1 pk msg s2 W2 B H V2) as (Cw2 & Lw2 & Cp2 & Lp2 & _).
  assert (EP : v_positions hf wp1 pk msg s1 = v_positions hf wp1 pk msg s2) by (unfold v_positions; now rewrite EI, ER).
  assert (EX : sig_wots wp1 s1 = sig_wots wp1 s2).
  { apply nth_ext with (d := []) (d' := []); [congruence|]. intros c Hc. rewrite Lw1 in Hc. destruct (Hch c Hc) as (_ & E). rewrite EP in E.
    specialize (E (le_n _)). rewrite Nat.sub_diag in E. exact E. }
  assert (EA : sig_path wp1 (pk_height pk) s1 = sig_path wp1 (pk_height pk) s2).
  { apply nth_ext with (d := []) (d' := []); [congruence|]. intros k Hk. rewrite Lp1 in Hk.
    apply (Hv k (Nat.lxor (N.to_nat (sig_index s1) / 2 ^ k) 1)); unfold v_node.
    - change k with (0 + k) at 1. rewrite shown_sibling by lia. apply nth_error_nth'. lia.
    - rewrite EI. change k with (0 + k) at 1. rewrite shown_sibling by lia. apply nth_error_nth'. lia. }
  rewrite (acc_bytes hf w1 wp1 pk msg s1 W1 B H S1 V1), (acc_bytes hf w1 wp1 pk msg s2 W2 B H S2 V2), EI, ER, EX, EA. reflexivity.
Qed.

(** ** Messages *)
Definition byte_digits (lw : nat) (b : N) : list N :=
  map (fun i => (b / 2 ^ N.of_nat (lw * (8 / lw - 1 - i))) mod 2 ^ N.of_nat lw)%N (seq 0 (8 / lw)).
Definition join_digits (lw : nat) (l : list N) : N := fold_left (fun a d => a * 2 ^ N.of_nat lw + d)%N l 0%N.
Lemma join_ok : forallb (fun lw => forallb (fun k => (join_digits lw (byte_digits lw (N.of_nat k)) =? N.of_nat k)%N) (seq 0 256)) [1; 2; 4; 8] = true.
Proof. vm_compute. reflexivity. Qed.
Lemma byte_digits_inj : forall lw x y, In lw [1; 2; 4; 8] -> is_byte x -> is_byte y -> byte_digits lw x = byte_digits lw y -> x = y.
Proof.
  intros lw x y Hl Hx Hy E. pose proof join_ok as J. rewrite forallb_forall in J. specialize (J _ Hl). rewrite forallb_forall in J.
  assert (K : forall v, is_byte v -> join_digits lw (byte_digits lw v) = v).
  { intros v Hv. unfold is_byte in Hv. specialize (J (N.to_nat v)). cbv beta in J. rewrite N2Nat.id in J. apply N.eqb_eq, J. apply in_seq. lia. }
  rewrite <- (K x Hx), <- (K y Hy). now rewrite E.
Qed.
Lemma base_digits_inj : forall lw l l', In lw [1; 2; 4; 8] -> all_bytes l -> all_bytes l' -> length l = length l' ->
  base_digits lw l = base_digits lw l' -> l = l'.
Proof.
  intros lw l l' Hlw Hl. revert l'. induction Hl as [|x l Hx Hl IH]; intros [|y l'] Hl' HL E; try discriminate; auto.
  unfold base_digits in E. cbn [flat_map] in E. fold (byte_digits lw x) (byte_digits lw y) in E.
  apply app_inj_len in E; [|unfold byte_digits; now rewrite !map_length]. destruct E as (E1 & E2). inversion Hl'; subst. cbn [length] in HL.
  f_equal; [eapply byte_digits_inj; eauto|apply IH; auto].
Qed.
Lemma base_digits_length : forall lw l, length (base_digits lw l) = length l * (8 / lw).
Proof. induction l as [|x l IH]; [reflexivity|]. unfold base_digits in *. cbn [flat_map]. rewrite app_length, IH, map_length, seq_length. cbn [length]. lia. Qed.
Lemma msg_digits_inj : forall w wp a b, winternitz w = Some wp -> all_bytes a -> all_bytes b -> length a = 32 -> length b = 32 ->
  msg_digits (fst (fst wp)) (snd (fst wp)) (snd wp) a = msg_digits (fst (fst wp)) (snd (fst wp)) (snd wp) b -> a = b.
Proof.
  intros w wp a b Hw Ha Hb La Lb E.
  assert (G : In (fst (fst wp)) [1; 2; 4; 8] /\ 32 * (8 / fst (fst wp)) = snd (fst wp)).
  { apply winternitz_cases in Hw. destruct Hw as [(_ & ->)|[(_ & ->)|[(_ & ->)|(_ & ->)]]]; split; try reflexivity; cbn; auto. }
  destruct G as (G1 & G2). apply (base_digits_inj (fst (fst wp))); auto; [congruence|].
  unfold msg_digits in E. cbv zeta in E.
  assert (K : forall m, length m = 32 -> firstn (snd (fst wp)) (base_digits (fst (fst wp)) m) = base_digits (fst (fst wp)) m).
  { intros m Hm. apply firstn_all2. rewrite base_digits_length, Hm. lia. }
  rewrite !K in E by auto. apply app_inj_len in E; [tauto|]. now rewrite !base_digits_length, La, Lb.
Qed.

(** One signature accepted for two messages: the message hashes collide, or the verifications
    show a collision, or a value returns to itself in one of the hash chains. *)
Theorem C97_signature_binds_message : forall hf w1 wp1 w2 wp2 pk m1 m2 sig,
  accepts hf w1 wp1 pk m1 sig -> accepts hf w2 wp2 pk m2 sig -> m1 <> m2 ->
  let i := N.to_nat (sig_index sig) in
  collision hf (msg_input (sig_R sig) (pk_root pk) i m1, msg_input (sig_R sig) (pk_root pk) i m2) \/
  (exists xy, tie hf wp1 wp2 pk m1 sig m2 sig = Some xy /\ collision hf xy) \/
  (exists c d d', c < snd (fst wp1) + snd wp1 /\ d < d' <= 2 ^ fst (fst wp1) - 1 /\
     let x := nth c (sig_wots wp1 sig) [] in x = chain hf (pk_seed pk) i c d (d' - d) x).
Proof.
  intros hf w1 wp1 w2 wp2 pk m1 m2 sig A1 A2 NE i.
  set (D1 := digest hf (sig_R sig) (pk_root pk) i m1). set (D2 := digest hf (sig_R sig) (pk_root pk) i m2).
  destruct (list_eq_dec N.eq_dec D1 D2) as [ED|ND].
  { left. split; cbn [fst snd]; [|rewrite <- !msg_raw; exact ED]. intros E. apply NE. unfold msg_input in E. do 2 (apply app_inv_head in E). exact E. }
  destruct (C97_signatures_agree_or_collide hf w1 wp1 w2 wp2 pk m1 sig m2 sig A1 A2) as [HC|(_ & _ & HS)]; [now right; left|right; right].
  destruct (HS eq_refl) as (EW & _ & Hch). subst w2.
  destruct A1 as (W1 & B & H & S1 & V1). destruct A2 as (W2 & _ & _ & _ & V2). assert (wp2 = wp1) by congruence. subst wp2.
  pose proof (acc_positions hf w1 wp1 pk m1 sig W1 V1) as Q1. pose proof (acc_positions hf w1 wp1 pk m2 sig W1 V2) as Q2.
  set (p1 := v_positions hf wp1 pk m1 sig) in *. set (p2 := v_positions hf wp1 pk m2 sig) in *.
  assert (L1 : length D1 = 32) by apply keyed_length. assert (L2 : length D2 = 32) by apply keyed_length.
  destruct (md_props w1 wp1 D1 W1 L1) as (N1 & _). destruct (md_props w1 wp1 D2 W1 L2) as (N2 & _).
  assert (NP : p1 <> p2). { intros E. apply ND. apply (msg_digits_inj w1 wp1); auto; apply keyed_bytes. }
  assert (Hex : exists c, c < snd (fst wp1) + snd wp1 /\ nth c p1 0%N <> nth c p2 0%N).
  { change (length p1 = snd (fst wp1) + snd wp1) in N1. change (length p2 = snd (fst wp1) + snd wp1) in N2.
    rewrite <- N1. assert (NL : length p1 = length p2) by congruence. clear - NP NL. clearbody p1 p2. revert p2 NP NL.
    induction p1 as [|a p1 IH]; intros [|b p2] NP NL; try discriminate; [congruence|]. destruct (N.eq_dec a b) as [->|Nab].
    - cbn [length] in NL. destruct (IH p2) as (c & Hc & Hd); [congruence|congruence|]. exists (S c). split; [cbn [length]; lia|exact Hd].
    - exists 0. split; [cbn [length]; lia|exact Nab]. }
  destruct Hex as (c & Hc & Hd). destruct (Hch c Hc) as (Y1 & Y2). fold p1 p2 i in Y1, Y2. specialize (Q1 c). specialize (Q2 c).
  destruct (Nat.lt_ge_cases (N.to_nat (nth c p1 0%N)) (N.to_nat (nth c p2 0%N))) as [Hl|Hg].
  - exists c, (N.to_nat (nth c p1 0%N)), (N.to_nat (nth c p2 0%N)). split; [exact Hc|]. split; [lia|]. apply Y1. lia.
  - exists c, (N.to_nat (nth c p2 0%N)), (N.to_nat (nth c p1 0%N)). split; [exact Hc|]. split; [lia|]. apply Y2. exact Hg.
Qed.

(** ** Any number of signatures: one tree *)
Lemma all_or_some : forall A (P Q : A -> Prop) l, (forall a, In a l -> P a \/ Q a) -> (exists a, In a l /\ P a) \/ (forall a, In a l -> Q a).
Proof.
  induction l as [|x l IH]; intros H; [right; intros a []|].
  destruct (H x (or_introl eq_refl)) as [Hp|Hq]; [left; exists x; split; auto; now left|].
  destruct IH as [(a & Ha & Hp)|Hq2]; [intros a Ha; apply H; now right|left; exists a; split; auto; now right|right].
  intros a [->|Ha]; auto.
Qed.

(** Whatever signatures anybody gets accepted under one key, with whatever Winternitz
    parameters: two of them yield a collision, or one fixed tree contains all the nodes that
    they show, and all the indices agree above the tree. *)
Theorem C97_one_tree : forall hf pk (L : list (N * (nat * nat * nat) * (list N * list N))),
  (forall w wp msg sig, In (w, wp, (msg, sig)) L -> accepts hf w wp pk msg sig) ->
  (exists w1 wp1 m1 s1 w2 wp2 m2 s2 xy, In (w1, wp1, (m1, s1)) L /\ In (w2, wp2, (m2, s2)) L /\
     tie hf wp1 wp2 pk m1 s1 m2 s2 = Some xy /\ collision hf xy) \/
  (exists (node : nat -> nat -> list N) (top : nat),
     forall w wp msg sig, In (w, wp, (msg, sig)) L ->
       N.to_nat (sig_index sig) / 2 ^ pk_height pk = top /\
       forall k x v, v_node hf wp pk msg sig k x = Some v -> v = node k x).
Proof.
  intros hf pk L HA.
  set (good := fun (a b : N * (nat * nat * nat) * (list N * list N)) =>
    N.to_nat (sig_index (snd (snd a))) / 2 ^ pk_height pk = N.to_nat (sig_index (snd (snd b))) / 2 ^ pk_height pk /\
    forall k x v v', v_node hf (snd (fst a)) pk (fst (snd a)) (snd (snd a)) k x = Some v ->
      v_node hf (snd (fst b)) pk (fst (snd b)) (snd (snd b)) k x = Some v' -> v = v').
  set (bad := fun (a b : N * (nat * nat * nat) * (list N * list N)) =>
    exists xy, tie hf (snd (fst a)) (snd (fst b)) pk (fst (snd a)) (snd (snd a)) (fst (snd b)) (snd (snd b)) = Some xy /\ collision hf xy).
  destruct (all_or_some _ (fun a => exists b, In b L /\ bad a b) (fun a => forall b, In b L -> good a b) L) as [(a & Ha & b & Hb & xy & Et & HC)|HG].
  { intros a Ha. apply all_or_some. intros b Hb. destruct a as ((w1 & wp1) & m1 & s1). destruct b as ((w2 & wp2) & m2 & s2).
    destruct (C97_signatures_agree_or_collide hf w1 wp1 w2 wp2 pk m1 s1 m2 s2 (HA _ _ _ _ Ha) (HA _ _ _ _ Hb)) as [HC|(E1 & E2 & _)].
    - left. exact HC. - right. split; [exact E1|exact E2]. }
  - left. destruct a as ((w1 & wp1) & m1 & s1). destruct b as ((w2 & wp2) & m2 & s2). exists w1, wp1, m1, s1, w2, wp2, m2, s2, xy. auto.
  - right.
    set (val := fun k x => fold_right (fun (a : N * (nat * nat * nat) * (list N * list N)) r =>
       match v_node hf (snd (fst a)) pk (fst (snd a)) (snd (snd a)) k x with Some v => v | None => r end) [] L).
    exists val, (match L with [] => 0 | a :: _ => N.to_nat (sig_index (snd (snd a))) / 2 ^ pk_height pk end).
    intros w wp msg sig Hin. split.
    + destruct L as [|a L]; [destruct Hin|]. apply (HG (w, wp, (msg, sig)) Hin a (or_introl eq_refl)).
    + intros k x v Hv. unfold val. clear val HA.
      assert (G : forall L', incl L' L -> In (w, wp, (msg, sig)) L' ->
        v = fold_right (fun (a : N * (nat * nat * nat) * (list N * list N)) r =>
          match v_node hf (snd (fst a)) pk (fst (snd a)) (snd (snd a)) k x with Some v => v | None => r end) [] L').
      { induction L' as [|a L' IH]; intros HI Hn; [destruct Hn|]. cbn [fold_right].
        destruct (v_node hf (snd (fst a)) pk (fst (snd a)) (snd (snd a)) k x) as [u|] eqn:Eu.
        - destruct (HG (w, wp, (msg, sig)) Hin a (HI a (or_introl eq_refl))) as (_ & G). eapply G; [exact Hv|exact Eu].
        - destruct Hn as [->|Hn].
          + cbn [fst snd] in Eu. rewrite Hv in Eu. discriminate.
          + apply IH; auto. intros z Hz. apply HI. now right. }
      apply (G L); auto. apply incl_refl.
Qed.

(** Cases that meet the hypotheses: a generated key of height 10.  Its owner can make accepted
    signatures at every index and with every randomiser. *)
Lemma owner_accepts : forall i R msg, i < 1024 -> length R = 32 -> all_bytes R ->
  exists x, XmssBasic_new [] seed_c 10 2 0 16 = Ok x /\
    accepts SHAKE_256 16 w16 (getPK x) msg (owner_sig SHAKE_256 w16 10 seed_c i R msg) /\
    sig_index (owner_sig SHAKE_256 w16 10 seed_c i R msg) = N.of_nat i /\ sig_R (owner_sig SHAKE_256 w16 10 seed_c i R msg) = R.
Proof.
  intros i R msg Hi LR BR. pose proof (cfg_of _ _ _ _ _ _ 0%N sup16) as HC.
  destruct (C48_owner_sig_accepted [] seed_c 10 2 SHAKE_256 0 16 w16 sup16) as (x & Ex & HA). exists x. split; [exact Ex|].
  pose proof (XmssBasic_new_spec _ _ HC []) as Ex'. assert (x = c_obj (mkCfg SHAKE_256 2 16 0 10 seed_c) w16 0) as Exo by (apply Ok_inj; rewrite <- Ex; exact Ex').
  destruct (owner_parts SHAKE_256 16 w16 10 seed_c i R msg eq_refl LR) as (Q1 & Q2 & _); [change (2 ^ 32)%N with 4294967296%N; lia|].
  split; [|split; assumption]. split; [reflexivity|]. split; [rewrite Exo; apply (c_pk_bytes _ _ HC)|].
  destruct (pk_parts _ _ 0 HC) as (_ & _ & _ & P4).
  split; [rewrite Exo; change (getPK (c_obj (mkCfg SHAKE_256 2 16 0 10 seed_c) w16 0)) with (c_pk (mkCfg SHAKE_256 2 16 0 10 seed_c) w16 0); rewrite P4; reflexivity|].
  split; [|apply HA; auto; change (2 ^ 10) with 1024; exact Hi].
  unfold owner_sig. apply all_bytes_app. split; [apply to_byte_bytes|]. apply all_bytes_app. split; [exact BR|]. apply all_bytes_app. split.
  - apply PropRust2.concat_bytes. apply Forall_forall. intros v Hv. unfold ots_sig in Hv. apply in_map_iff in Hv. destruct Hv as (c & <- & _).
    destruct (N.to_nat _); cbn [chain]; apply keyed_bytes.
  - apply PropRust2.concat_bytes. apply Forall_forall. intros v Hv. unfold auth_path in Hv. apply in_map_iff in Hv. destruct Hv as (c & <- & _).
    apply PropRust2.node_bytes.
Qed.

(** Three accepted signatures under one key: two messages and two randomisers at index 3, and
    one at index 900; they meet the hypotheses of the theorems about one key. *)
Example C97_case : exists pk s1 s2 s3,
  accepts SHAKE_256 16 w16 pk [1%N] s1 /\ accepts SHAKE_256 16 w16 pk [2%N] s2 /\ accepts SHAKE_256 16 w16 pk [3%N] s3 /\
  sig_index s1 = 3%N /\ sig_index s2 = 3%N /\ sig_index s3 = 900%N /\ s1 <> s2 /\ s1 <> s3 /\
  (forall w wp msg sig, In (w, wp, (msg, sig)) [(16%N, w16, ([1%N], s1)); (16%N, w16, ([2%N], s2)); (16%N, w16, ([3%N], s3))] ->
     accepts SHAKE_256 w wp pk msg sig).
Proof.
  assert (BR : forall v, (v < 256)%N -> all_bytes (repeat v 32)) by (intros v Hv; apply Forall_forall; intros z Hz; apply repeat_spec in Hz; subst z; exact Hv).
  destruct (owner_accepts 3 (repeat 7%N 32) [1%N]) as (x & Ex & A1 & I1 & R1); [lia|reflexivity|now apply BR|].
  destruct (owner_accepts 3 (repeat 8%N 32) [2%N]) as (x2 & Ex2 & A2 & I2 & R2); [lia|reflexivity|now apply BR|].
  destruct (owner_accepts 900 (repeat 7%N 32) [3%N]) as (x3 & Ex3 & A3 & I3 & R3); [lia|reflexivity|now apply BR|].
  assert (x2 = x) as Ea by congruence. assert (x3 = x) as Eb by congruence. rewrite Ea in A2. rewrite Eb in A3. clear Ea Eb Ex Ex2 Ex3.
  set (s1 := owner_sig SHAKE_256 w16 10 seed_c 3 (repeat 7%N 32) [1%N]) in *. clearbody s1.
  set (s2 := owner_sig SHAKE_256 w16 10 seed_c 3 (repeat 8%N 32) [2%N]) in *. clearbody s2.
  set (s3 := owner_sig SHAKE_256 w16 10 seed_c 900 (repeat 7%N 32) [3%N]) in *. clearbody s3.
  exists (getPK x), s1, s2, s3. repeat (split; [assumption|]).
  split; [intros E; rewrite E, R2 in R1; discriminate|]. split; [intros E; rewrite E, I3 in I1; discriminate|].
  intros w wp msg sig [E|[E|[E|[]]]]; injection E as <- <- <- <-; assumption.
Qed.

(** Two keys with one root: a key and the key with another third byte. *)
Example C97_case_two_keys : exists pk pk' sig, pk <> pk' /\ pk_root pk = pk_root pk' /\
  accepts SHAKE_256 16 w16 pk [1%N] sig /\ accepts SHAKE_256 16 w16 pk' [1%N] sig.
Proof.
  assert (BR : all_bytes (repeat 7%N 32)) by (apply Forall_forall; intros z Hz; apply repeat_spec in Hz; subst z; unfold is_byte; lia).
  destruct (owner_accepts 3 (repeat 7%N 32) [1%N]) as (x & Ex & A1 & _); [lia|reflexivity|exact BR|].
  set (sig := owner_sig SHAKE_256 w16 10 seed_c 3 (repeat 7%N 32) [1%N]) in *. clearbody sig.
  set (pk := getPK x) in *. clearbody pk. destruct A1 as (W & B & H & S & V).
  destruct (acc_parts _ _ _ _ _ _ W B H V) as (L & _).
  destruct pk as [|b0 [|b1 [|b2 r]]]; cbn [length] in L; try lia.
  exists (b0 :: b1 :: b2 :: r), (b0 :: b1 :: (if (b2 =? 0)%N then 1 else 0)%N :: r), sig.
  inversion B as [|? ? Y0 B']; subst. inversion B' as [|? ? Y1 B'']; subst. inversion B'' as [|? ? Y2 B3]; subst.
  assert (B2 : all_bytes (b0 :: b1 :: (if (b2 =? 0)%N then 1 else 0)%N :: r)).
  { constructor; [exact Y0|]. constructor; [exact Y1|]. constructor; [|exact B3]. destruct (b2 =? 0)%N; unfold is_byte; lia. }
  split. { intros E. injection E as E. destruct (N.eqb_spec b2 0); congruence. }
  split; [reflexivity|]. split; [repeat split; assumption|]. split; [exact W|]. split; [exact B2|]. split; [exact H|]. split; [exact S|].
  rewrite <- V. rewrite (verify_spec 16 w16 SHAKE_256) by assumption. rewrite (verify_spec 16 w16 SHAKE_256) by assumption. reflexivity.
Qed.
