(** The Rust port: addresses (C66) and XMSSBasic (C67). *)
(** Concrete cases for the hypotheses below: CasesXmss.v and CasesMisc.v. *)
From Coq Require Import List NArith Arith Lia Bool.
From Verif Require Import Base Bytes Keccak KeccakLemmas Sha256 HashAddress Wots XmssCommon AlgsXmss AlgsXmssFast Descriptor
  SpecXmss SpecApi XmssObj XmssRefine WotsProofs TreeProofs BasicProofs BdsProofs FastProofs DescrProofs VerifyProofs
  RsBase RsShake RsHash RsWots RsAlgs RsFast SpecRust RsObj RsSimTree RsSimAlgs RsSimFast RsObjProofs RsBasicProofs RsVerifyProofs
  PropObj PropKeys PropDescr PropCtor PropRust PropRust2 PropRust3.
From Verif Require Export SpecTerms3.
Import ListNotations.
Open Scope nat_scope.

(** ** C66: addresses *)

Lemma hash_id_cases : forall b, (exists hf, hash_of_id b = Some hf) /\ (b < 3)%N \/ hash_of_id b = None /\ (3 <= b)%N.
Proof. intros [|[[|[]|]|[]|]]; cbn [hash_of_id]; first [left; split; [eauto|lia]|right; split; [reflexivity|lia]]. Qed.

Theorem C66_rust_get_address : forall pk, all_bytes pk ->
  let hash := (nth 0 pk 0 mod 16)%N in let fmt := (nth 1 pk 0 / 16)%N in
  rs_outcome (rs_get_address pk)
    (length pk = 67 /\ (hash < 3)%N /\ fmt = 0%N)
    (length pk <> 67)
    (length pk = 67 /\ ((3 <= hash)%N \/ fmt <> 0%N))
    False /\
  forall a, rs_get_address pk = ROk a ->
    let body := [hash; nth 1 pk 0%N; 0%N] ++ sha256 pk in a = body ++ skipn 28 (sha256 body).
Proof.
  intros pk Hb. cbv zeta. unfold rs_get_address, rs_from_extended_pk.
  destruct (length pk =? 67) eqn:El; cbn [negb rbind].
  2:{ apply Nat.eqb_neq in El. split; [|discriminate]. apply rs_ends_outcome. constructor; tauto. }
  apply Nat.eqb_eq in El. rewrite rslice_ok by lia. cbn [rbind]. change (firstn (3 - 0) (skipn 0 pk)) with (firstn 3 pk).
  rewrite firstn_3 by lia. rewrite rs_from_bytes_arith by (now apply all_bytes_nth).
  pose proof (all_bytes_nth pk 1 Hb) as B1.
  destruct (hash_id_cases (nth 0 pk 0 mod 16)%N) as [[(hf & Eh) Hs]|[Eh Hs]]; rewrite Eh; cbn [rbind].
  2:{ split; [|discriminate]. apply rs_ends_outcome. constructor; intuition lia. }
  destruct (nth 1 pk 0 / 16 =? 0)%N eqn:E1; cbn [rbind].
  2:{ split; [|discriminate]. apply N.eqb_neq in E1. apply rs_ends_outcome. constructor; intuition lia. }
  apply N.eqb_eq in E1.
  assert (Ed : rs_descr_bytes (mkRD hf (2 * (nth 1 pk 0 mod 16))%N) = [(nth 0 pk 0 mod 16)%N; nth 1 pk 0%N; 0%N]).
  { rewrite rs_descr_bytes_arith. rewrite N.mul_comm, N.div_mul by lia. rewrite N.mod_mod by lia.
    assert (Ev : (nth 1 pk 0 mod 16)%N = nth 1 pk 0%N). { pose proof (N.div_mod (nth 1 pk 0%N) 16). lia. } rewrite Ev. f_equal.
    destruct (nth 0 pk 0 mod 16)%N as [|[[|[]|]|[]|]]; cbn in Eh; try discriminate; injection Eh as <-; reflexivity. }
  rewrite Ed. rewrite sha256_length. change (32 - 4) with 28. rewrite rslice_ok by (rewrite ?sha256_length; lia). cbn [rbind].
  rewrite firstn_all2 by (rewrite skipn_length, sha256_length; lia). split.
  - apply rs_ends_outcome. constructor; intuition lia.
  - intros a Ha. apply ROk_inj in Ha. now subst a.
Qed.

(** What both libraries agree on. *)
Theorem C66_rust_get_address_is_cpp : forall pk a, all_bytes pk ->
  (rs_get_address pk = ROk a <-> getAddress pk = Ok a /\ (nth 0 pk 0 mod 16 < 3)%N).
Proof.
  intros pk a Hb. destruct (C66_rust_get_address pk Hb) as ((H1 & _) & _). split.
  - intros E. split; [now apply rs_get_address_cpp|]. apply H1. eauto.
  - intros [E Hn]. destruct (C11_generated_addresses_valid pk Hb) as (X & Y & _).
    assert (Z : exists a', rs_get_address pk = ROk a').
    { apply H1. destruct (Nat.eq_dec (length pk) 67); [|rewrite (proj2 X) in E by auto; discriminate].
      destruct (N.eq_dec (nth 1 pk 0 / 16)%N 0%N); [auto|rewrite (proj2 X) in E by auto; discriminate]. }
    destruct Z as (a' & Z). pose proof (rs_get_address_cpp pk a' Hb Z) as Z'. rewrite E in Z'. injection Z' as ->. exact Z.
Qed.

Theorem C66_rust_address_is_valid : forall a, all_bytes a ->
  exists b, rs_address_is_valid a = ROk b /\ (b = true <-> checksummed a /\ (nth 0 a 0 mod 16 < 3)%N).
Proof.
  intros a Ha. unfold rs_address_is_valid, checksummed. change (3 + 32 + 4) with 39. change (3 + 32) with 35.
  destruct (length a =? 39) eqn:EL; cbn [negb].
  2:{ apply Nat.eqb_neq in EL. exists false. split; [reflexivity|]. split; [discriminate|tauto]. }
  apply Nat.eqb_eq in EL. rewrite rslice_ok by lia. cbn [rbind]. change (firstn (3 - 0) (skipn 0 a)) with (firstn 3 a).
  rewrite firstn_3 by lia. rewrite rs_from_bytes_arith by (now apply all_bytes_nth).
  destruct (hash_id_cases (nth 0 a 0 mod 16)%N) as [[(hf & Eh) Hs]|[Eh Hs]]; rewrite Eh.
  2:{ exists false. split; [reflexivity|]. split; [discriminate|]. intros [_ X]. lia. }
  destruct (nth 1 a 0 / 16 =? 0)%N eqn:Ef.
  2:{ apply N.eqb_neq in Ef. exists false. split; [reflexivity|]. split; [discriminate|tauto]. }
  apply N.eqb_eq in Ef. rewrite rslice_ok by lia. cbn [rbind]. change (firstn (35 - 0) (skipn 0 a)) with (firstn 35 a).
  pose proof (sha256_length (firstn 35 a)) as HL.
  assert (G : forall (l : list N) i, i < length l -> rget l i = ROk (nth i l 0%N)).
  { intros l i Hi. unfold rget. now rewrite (nth_error_nth' l 0%N Hi). }
  rewrite !G by lia. cbn [rbind]. eexists. split; [reflexivity|]. rewrite skipn_35, skipn_28 by auto.
  rewrite !andb_true_iff, !N.eqb_eq. split.
  - intros (((E1 & E2) & E3) & E4). repeat split; auto. now rewrite E1, E2, E3, E4.
  - intros ((_ & _ & E) & _). injection E as E1 E2 E3 E4. auto.
Qed.

Theorem C66_rust_address_is_valid_is_cpp : forall a, all_bytes a ->
  (rs_address_is_valid a = ROk true <-> addressIsValid a = Ok true /\ (nth 0 a 0 mod 16 < 3)%N).
Proof.
  intros a Ha. destruct (C66_rust_address_is_valid a Ha) as (b & Eb & Hb). destruct (C12_addressIsValid_exact a Ha) as (b' & Eb' & Hb').
  rewrite Eb, Eb'. split.
  - intros E. apply ROk_inj in E. apply Hb in E. destruct E as [E ?]. apply Hb' in E. subst b'. auto.
  - intros [E ?]. apply Ok_inj in E. f_equal. apply Hb. split; auto. now apply Hb'.
Qed.

Theorem C66_rust_generated_addresses_valid : forall pk a, all_bytes pk -> rs_get_address pk = ROk a ->
  length a = 39 /\ all_bytes a /\ rs_address_is_valid a = ROk true /\ addressIsValid a = Ok true.
Proof.
  intros pk a Hb E. pose proof (proj1 (C66_rust_get_address_is_cpp pk a Hb) E) as [Ec Hn].
  destruct (C11_generated_addresses_valid pk Hb) as (_ & _ & X). destruct (X a Ec) as (L & Ba & F & _ & V).
  repeat split; auto. apply C66_rust_address_is_valid_is_cpp; auto. split; auto.
  replace (nth 0 a 0%N) with (nth 0 (firstn 3 a) 0%N) by (destruct a; reflexivity). rewrite F. cbn [nth]. rewrite N.mod_mod by lia. exact Hn.
Qed.

(** ** C67: XMSSBasic *)

(** XMSSBasic::new; the height is a u8. *)
Theorem C67_rust_basic_constructor : forall seed height hf w, (height < 256)%N ->
  rs_outcome (rs_basic_new seed height hf w)
    (length seed = 48 /\ tree_height height /\ (height <= 30)%N)
    (length seed <> 48 \/ ~ tree_height height)
    False
    (length seed = 48 /\ tree_height height /\ (30 < height)%N).
Proof.
  intros seed height hf w H8. apply rs_ends_outcome.
  replace (rs_basic_new seed height hf w) with (rs_basic_new seed height hf (Some (rw_of w))) by (destruct w; reflexivity).
  set (w0 := rw_of w). clearbody w0. clear w. destruct (rw_winternitz w0) as (wp & Hw).
  destruct (Nat.eq_dec (length seed) 48) as [El|El].
  2:{ unfold rs_basic_new. rewrite (proj2 (Nat.eqb_neq _ _) El). cbn [negb]. constructor; tauto. }
  destruct (bad_height height) eqn:Eb.
  { unfold rs_basic_new. rewrite (proj2 (Nat.eqb_eq _ _) El). cbn [negb]. change (rs_bad_height height) with (bad_height height). rewrite Eb.
    assert (~ tree_height height) by (rewrite <- bad_height_iff, Eb; discriminate). constructor; tauto. }
  pose proof (proj1 (bad_height_iff _) Eb) as HT. destruct HT as [H4 He]. pose proof He as He'. apply N.even_spec in He. destruct He as [y Ey].
  assert (HT : tree_height height) by (split; auto).
  destruct (N.lt_ge_cases 30 height) as [Hg|Hle].
  - unfold rs_basic_new. rewrite (proj2 (Nat.eqb_eq _ _) El). cbn [negb]. change (rs_bad_height height) with (bad_height height). rewrite Eb.
    destruct (rs_params_even w0 wp (N.to_nat y) Hw ltac:(lia)) as (p & Ep & Epw).
    assert (Ehp : x_h p = 2 * N.to_nat y).
    { unfold rs_xmss_params in Ep. destruct ((2 * N.to_nat y <=? 2) || (2 <? 2) || negb ((2 * N.to_nat y - 2) mod 2 =? 0)); [discriminate|].
      injection Ep as <-. reflexivity. }
    replace (N.to_nat height) with (2 * N.to_nat y) by lia. rewrite Ep. cbn [rbind].
    assert (R : rs_gen_keypair hf p (repeat 0%N 64) (repeat 0%N 132) seed = RPanic).
    { remember (shake256 96 (firstn 48 seed)) as rb eqn:Erb.
      rewrite (rs_gen_keypair_split hf p (repeat 0%N 64) (repeat 0%N 132) seed rb Erb (repeat_length _ _) (repeat_length _ _) El).
      unfold rs_keygen_back, rs_treehash. rewrite (proj2 (Nat.leb_le 32 (x_h p))) by lia. reflexivity. }
    rewrite R. cbn [rbind]. constructor; intuition lia.
  - assert (HC : cfg_ok (rust_cfg hf w0 (N.to_nat height) seed) wp).
    { constructor; cbn [rust_cfg c_hash c_hf c_w c_height c_seed]; auto using hash_id_u8; try lia.
      apply Nat.even_spec. exists (N.to_nat y). lia. }
    pose proof (rbasic_new hf w0 wp _ seed HC) as E. rewrite N2Nat.id in E. rewrite E.
    constructor; intuition lia.
Qed.



Lemma rbasic_run : forall hf w wp h seed, cfg_ok (rust_cfg hf w h seed) wp -> Nat.even h = true -> forall cs, Forall op_u32 cs -> forall i, (i < 2 ^ 32)%N ->
  match rust_basic_ref_run hf h (rust_sig hf wp h seed) i cs with
  | Some (i', obs) => rs_basic_run (rbasic_obj hf w wp h seed i) cs = ROk (rbasic_obj hf w wp h seed i', obs) /\ (i' < 2 ^ 32)%N
  | None => rs_basic_run (rbasic_obj hf w wp h seed i) cs = RPanic
  end.
Proof.
  intros hf w wp h seed HC Hev cs HF. induction HF as [|c cs Hc HF IH]; intros i Hi; cbn [rust_basic_ref_run rs_basic_run].
  { split; auto. }
  destruct c as [m|j]; cbn [rust_basic_ref_step rs_basic_step op_u32] in *.
  - destruct (h <=? 24) eqn:E24; cbn [andb].
    2:{ apply Nat.leb_gt in E24. assert (26 <= h) by (destruct (Nat.eq_dec h 25) as [->|]; [discriminate|lia]). rewrite rbasic_sign_panic by auto. reflexivity. }
    apply Nat.leb_le in E24. destruct (i <? 2 ^ N.of_nat h)%N eqn:Ei.
    2:{ apply N.ltb_ge in Ei. rewrite rbasic_sign_panic by auto. reflexivity. }
    apply N.ltb_lt in Ei. destruct (signable_dec hf m) as [S|S].
    2:{ rewrite rbasic_sign_panic by auto. reflexivity. }
    rewrite rbasic_sign by auto. cbn [rbind].
    assert (Hs : (i + 1 < 2 ^ 32)%N) by (apply (rc_small hf w wp h seed HC); lia).
    specialize (IH _ Hs). destruct (rust_basic_ref_run hf h (rust_sig hf wp h seed) (i + 1) cs) as [[i2 xs]|].
    + destruct IH as [-> ?]. cbn [rbind]. auto.
    + rewrite IH. reflexivity.
  - rewrite rbasic_set_index by auto. cbn [rbind]. specialize (IH _ Hc).
    destruct (rust_basic_ref_run hf h (rust_sig hf wp h seed) j cs) as [[i2 xs]|].
    + destruct IH as [-> ?]. cbn [rbind]. auto.
    + rewrite IH. reflexivity.
Qed.

(** Every history of sign and set_index calls. *)
Theorem C67_rust_basic_history : forall hf w wp height seed, supported (rs_hash_u8 hf) hf (w_of w) wp height seed ->
  exists o, rs_basic_new seed (N.of_nat height) hf (Some w) = ROk o /\ rust_key_at hf wp height seed 0 (rbas_base o) /\
    forall cs, Forall op_u32 cs ->
      match rust_basic_ref_run hf height (rust_sig hf wp height seed) 0 cs with
      | Some (i, obs) => exists o', rs_basic_run o cs = ROk (o', obs) /\ rs_get_index (rbas_base o') = ROk i /\
                           ((i <= 2 ^ N.of_nat height)%N -> rust_key_at hf wp height seed i (rbas_base o'))
      | None => rs_basic_run o cs = RPanic
      end.
Proof.
  intros hf w wp height seed HS. pose proof (rcfg_ok _ _ _ _ _ HS) as HC. exists (rbasic_obj hf w wp height seed 0).
  split; [now apply rbasic_new|]. split; [apply base_key; auto; apply N.le_0_l|].
  intros cs HF. pose proof (rbasic_run hf w wp height seed HC) as R.
  assert (Hev : Nat.even height = true) by apply HS.
  specialize (R Hev cs HF 0%N ltac:(lia)).
  destruct (rust_basic_ref_run hf height (rust_sig hf wp height seed) 0 cs) as [[i obs]|]; [|exact R].
  destruct R as [R Hi]. exists (rbasic_obj hf w wp height seed i). split; [exact R|]. split.
  - unfold rs_get_index, rbasic_obj. cbn [rbas_base ro_sk].
    rewrite rs_be32_sum_eq; [|apply (rc_sk_bytes hf w wp height seed HC)|rewrite (rbasic_sk_len hf w wp height seed HC); lia].
    now rewrite (rbasic_sk_index hf w wp height seed HC).
  - intros Hle. now apply base_key.
Qed.



Lemma fast_basic_ref : forall hf h sig cs i i' obs, h <= 24 -> rust_ref_run hf h sig i cs = Some (i', obs) -> Forall no_err obs ->
  rust_basic_ref_run hf h sig i cs = Some (i', obs).
Proof.
  intros hf h sig cs. induction cs as [|c cs IH]; intros i i' obs Hh R HN; cbn [rust_ref_run rust_basic_ref_run] in *; [exact R|].
  destruct (rust_ref_step hf h sig i c) as [[i1 x]|] eqn:ES; [|discriminate].
  destruct (rust_ref_run hf h sig i1 cs) as [[i2 xs]|] eqn:ER; [|discriminate]. injection R as -> <-. inversion HN as [|? ? Hx Hxs]; subst.
  assert (EB : rust_basic_ref_step hf h sig i c = Some (i1, x)).
  { destruct c as [m|j]; cbn [rust_ref_step rust_basic_ref_step] in *.
    - rewrite (proj2 (Nat.leb_le _ _) Hh). cbn [andb]. destruct (i <? 2 ^ N.of_nat h)%N; [exact ES|]. injection ES as <- <-. contradiction.
    - destruct ((j <? 2 ^ N.of_nat h)%N && (i <=? j)%N); injection ES as <- <-; [reflexivity|contradiction]. }
  rewrite EB. now rewrite (IH _ _ _ Hh ER Hxs).
Qed.

Theorem C67_rust_basic_is_fast : forall hf w wp height seed, supported (rs_hash_u8 hf) hf (w_of w) wp height seed -> height <= 24 ->
  exists of ob, rs_fast_new seed (N.of_nat height) (Some hf) (Some w) = ROk of /\
    rs_basic_new seed (N.of_nat height) hf (Some w) = ROk ob /\
    rs_get_pk (rfa_base of) = rs_get_pk (rbas_base ob) /\ ro_sk (rfa_base of) = ro_sk (rbas_base ob) /\
    forall cs of' obs, Forall op_u32 cs -> rs_run of cs = ROk (of', obs) -> Forall no_err obs ->
      exists ob', rs_basic_run ob cs = ROk (ob', obs) /\ ro_sk (rbas_base ob') = ro_sk (rfa_base of').
Proof.
  intros hf w wp height seed HS Hh. destruct (C63_rust_history hf w wp height seed HS) as (of & Ef & RF).
  destruct (C67_rust_basic_history hf w wp height seed HS) as (ob & Eb & Kb & RB).
  exists of, ob. split; auto. split; auto.
  destruct (RF []) as (of0 & R0 & K0). cbn [rs_run] in R0. injection R0 as <-.
  destruct K0 as (K1 & _ & K3 & _). destruct Kb as (B1 & _ & B3 & _). split; [congruence|]. split; [congruence|].
  intros cs of' obs HF R HN. pose proof (RF cs) as RF'. destruct (rust_ref_run hf height (rust_sig hf wp height seed) 0 cs) as [[i obs']|] eqn:ER; [|congruence].
  destruct RF' as (o1 & R1 & K). rewrite R in R1. apply ROk_inj in R1. apply pair_equal_spec in R1. destruct R1 as [<- <-].
  pose proof (RB cs HF) as RB'. rewrite (fast_basic_ref _ _ _ _ _ _ _ Hh ER HN) in RB'. destruct RB' as (ob' & R2 & GI & KB).
  exists ob'. split; auto.
  assert (Hi : (i <= 2 ^ N.of_nat height)%N).
  { clear -ER. assert (G : forall cs j i obs, (j <= 2 ^ N.of_nat height)%N -> rust_ref_run hf height (rust_sig hf wp height seed) j cs = Some (i, obs) -> (i <= 2 ^ N.of_nat height)%N).
    { clear. induction cs as [|c cs IH]; intros j i obs Hj R; cbn [rust_ref_run] in R; [injection R as <- _; auto|].
      destruct (rust_ref_step hf height (rust_sig hf wp height seed) j c) as [[j1 x]|] eqn:ES; [|discriminate].
      destruct (rust_ref_run hf height (rust_sig hf wp height seed) j1 cs) as [[j2 xs]|] eqn:ER; [|discriminate].
      injection R as -> _. eapply (IH j1); [|exact ER]. destruct c as [m|k]; cbn [rust_ref_step] in ES.
      - destruct (j <? 2 ^ N.of_nat height)%N eqn:E; [|injection ES as <- _; auto]. apply N.ltb_lt in E.
        destruct (signable_dec hf m); [injection ES as <- _; lia|discriminate].
      - destruct (k <? 2 ^ N.of_nat height)%N eqn:E; cbn [andb] in ES; [|injection ES as <- _; auto]. apply N.ltb_lt in E.
        destruct (j <=? k)%N; injection ES as <- _; lia. }
    eapply G; [|exact ER]. apply N.le_0_l. }
  specialize (KB Hi). destruct KB as (S1 & _). destruct K as (S2 & _). congruence.
Qed.

(** ** Instances *)
Example rust_address_of_zero : exists a, rs_get_address (1%N :: 5%N :: 0%N :: repeat 0%N 64) = ROk a.
Proof. apply (rs_get_address_total SHAKE_128 5 (repeat 0%N 64)); [reflexivity|lia]. Qed.
Example rust_address_hash_3 : rs_get_address (3%N :: repeat 0%N 66) = RErr RFailedConversion.
Proof. reflexivity. Qed.
Example rust_basic_reuse : forall sig, rust_basic_ref_run SHA2_256 4 sig 0 [OpSign [1%N]; OpSetIndex 0; OpSign [2%N]] =
  Some (1%N, [RObsSig (sig 0 [1%N]); RObsIdx 0; RObsSig (sig 0 [2%N])]).
Proof. reflexivity. Qed.
Example rust_basic_refuses : forall sig, rust_basic_ref_run SHA2_256 4 sig 0 [OpSetIndex 16; OpSign [2%N]] = None.
Proof. reflexivity. Qed.
