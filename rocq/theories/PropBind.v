(** C75: what an address stands for.  C76: what an accepted signature of the Rust port is. *)
From Coq Require Import List NArith Arith Lia Bool.
From Verif Require Import Base Bytes Keccak KeccakLemmas Sha256 HashAddress Wots XmssCommon AlgsXmss AlgsXmssFast Descriptor
  SpecXmss SpecApi SpecForge XmssObj XmssRefine WotsProofs TreeProofs BasicProofs FastProofs DescrProofs VerifyProofs PropObj PropKeys
  PropWots PropVerify PropDescr PropForge
  RsBase RsWots RsAlgs RsFast SpecRust RsObj RsObjProofs RsVerifyProofs PropRust PropRust2 PropRust3 PropRust4.
From Verif Require Export SpecTerms3.
Import ListNotations.
Open Scope nat_scope.

(** ** C75 *)
(** Two keys with one address: a collision of SHA-256, and the two keys are the collision. *)
Theorem C75_address_binds_key : forall pk pk' a, all_bytes pk -> all_bytes pk' ->
  getAddress pk = Ok a -> getAddress pk' = Ok a -> pk = pk' \/ collision SHA2_256 (pk, pk').
Proof.
  intros pk pk' a Hp Hp' E E'. destruct (list_eq_dec N.eq_dec pk pk') as [->|Hne]; [now left|right].
  destruct (C11_generated_addresses_valid pk Hp) as (_ & _ & X). destruct (X a E) as (_ & _ & _ & Y & _).
  destruct (C11_generated_addresses_valid pk' Hp') as (_ & _ & X'). destruct (X' a E') as (_ & _ & _ & Y' & _).
  split; [exact Hne|]. cbn [fst snd raw]. congruence.
Qed.
(** The same for addresses made by the Rust port, also against those of the C++ library. *)
Theorem C75_address_binds_key_rust : forall pk pk' a, all_bytes pk -> all_bytes pk' -> rs_get_address pk = ROk a ->
  rs_get_address pk' = ROk a \/ getAddress pk' = Ok a -> pk = pk' \/ collision SHA2_256 (pk, pk').
Proof.
  intros pk pk' a Hp Hp' E E'. apply (C75_address_binds_key pk pk' a Hp Hp').
  - now apply (C66_rust_get_address_is_cpp pk a Hp).
  - destruct E' as [E'|E']; [now apply (C66_rust_get_address_is_cpp pk' a Hp')|exact E'].
Qed.

(** Somebody who knows only the address of a key and is shown a public key with that address and
    a signature that verifies under it: it is the owner's key and an owner's signature, or
    there is a collision, either the two public keys or a pair computed from the signature. *)
Theorem C75_address_authenticates : forall junk seed height hash hf fmt w wp, supported hash hf w wp height seed ->
  exists x, XmssBasic_new junk seed (N.of_nat height) hash fmt w = Ok x /\
    (w = 16%N -> forall junk', exists y, XmssFast_new junk' seed (N.of_nat height) hash fmt = Ok y /\ getPK (xf_base y) = getPK x) /\
    forall a pk msg sig, obj_getAddress x = Ok a -> all_bytes pk -> all_bytes sig ->
      getAddress pk = Ok a -> verify msg sig pk w = Ok true ->
      collision SHA2_256 (pk, getPK x) \/
      (exists xy, extract hf wp height seed msg sig = Some xy /\ collision hf xy) \/
      (pk = getPK x /\ (sig_index sig < 2 ^ N.of_nat height)%N /\
       sig = owner_sig hf wp height seed (N.to_nat (sig_index sig)) (sig_R sig) msg).
Proof.
  intros junk seed height hash hf fmt w wp HS. pose proof (cfg_of _ _ _ _ _ _ fmt HS) as HC.
  destruct (C48_accepted_genuine_or_collision junk seed height hash hf fmt w wp HS) as (x & E & HF & HA).
  exists x. split; [exact E|]. split; [exact HF|]. intros a pk msg sig Ea Hp Hb Ep HV.
  assert (Ex : x = c_obj (mkCfg hf hash w fmt height seed) wp 0) by (apply Ok_inj; rewrite <- E; apply (XmssBasic_new_spec _ wp HC)).
  assert (HB : all_bytes (getPK x)) by (rewrite Ex; exact (c_pk_bytes _ wp HC 0%N)).
  destruct (C75_address_binds_key pk (getPK x) a Hp HB Ep Ea) as [->|Hc]; [|now left]. right.
  destruct (HA msg sig Hb HV) as [Hc|(H1 & H2)]; auto.
Qed.
(** A seed and parameters to which this applies, with its address. *)
Example C75_case : supported 0 SHA2_256 16 w16 4 (repeat 0%N 48) /\ (exists a, getAddress (0%N :: 2%N :: repeat 0%N 65) = Ok a /\ length a = 39).
Proof.
  split; [repeat split; try (vm_compute; reflexivity); try (cbn; lia); try (intros Hx; vm_compute in Hx; discriminate)|].
  eexists. split; vm_compute; reflexivity.
Qed.

(** ** C76 *)


Section Key.
  Variables (hf : hashfn) (w : rs_w) (wp : nat * nat * nat) (height : nat) (seed : list N).
  Hypothesis HS : supported (rs_hash_u8 hf) hf (w_of w) wp height seed.
  Local Notation c := (rust_cfg hf w height seed).
  Local Notation seen sig msg := (seen_message hf (sig_R sig) (ref_root hf wp height seed) (sig_index sig) msg).

  Lemma rust_accepts_cpp : forall msg sig, all_bytes sig -> rs_verify msg sig (rust_pk hf wp height seed) (Some w) = ROk tt ->
    signable hf msg /\ verify (seen sig msg) sig (c_pk c wp 0) (w_of w) = Ok true.
  Proof.
    intros msg sig HB HV. pose proof (rkey_cfg _ _ _ _ _ HS) as HC. destruct (pk_parts c wp 0 HC) as (P1 & _ & _ & P4).
    cbn [rust_cfg c_hf c_height c_seed c_hash] in P1, P4. rewrite <- (rust_pk_cpp hf w wp height seed HS) in *.
    assert (Hp : all_bytes (rust_pk hf wp height seed)) by (rewrite (rust_pk_cpp hf w wp height seed HS); apply (c_pk_bytes c wp HC)).
    assert (Hh : hash_of_id (nth 0 (rust_pk hf wp height seed) 0 mod 16)%N = Some hf) by (rewrite P4; destruct hf; reflexivity).
    assert (Hf : (nth 1 (rust_pk hf wp height seed) 0 / 16)%N = 0%N).
    { change (nth 1 (rust_pk hf wp height seed) 0%N) with (N.of_nat (height / 2)). apply N.div_small.
      destruct HS as (_ & _ & Hh' & _ & _). assert (height / 2 <= 15) by (apply Nat.div_le_upper_bound; lia). lia. }
    assert (Hw : winternitz (w_of w) = Some wp) by apply HS.
    assert (Hs : signable hf msg).
    { rewrite (C64_rust_verify w wp msg sig _ Hw Hp HB) in HV. unfold rust_ref_verify in HV. cbv zeta in HV. rewrite Hh in HV.
      destruct (signable_dec hf msg) as [S|S]; [exact S|].
      repeat match type of HV with (if ?b then _ else _) = _ => destruct b end; discriminate. }
    split; [exact Hs|]. apply (C64_rust_verify_vs_cpp w wp hf msg sig _ Hw Hp HB Hh Hf Hs) in HV. rewrite P1 in HV. exact HV.
  Qed.
  Lemma owner_pk : exists o, rs_fast_new seed (N.of_nat height) (Some hf) (Some w) = ROk o /\
    rs_get_pk (rfa_base o) = ROk (rust_pk hf wp height seed).
  Proof.
    destruct (rs_new_spec hf w wp height seed HS) as (o & E & HI). exists o. split; auto.
    destruct (inv_key hf w wp height seed HS 0 o HI) as (_ & _ & K3 & _). exact K3.
  Qed.
End Key.

(** What the port accepts under a key's public key is an owner's signature of the message the
    port sees (SpecRust.v), or exhibits a collision. *)
Theorem C76_rust_accepted_genuine_or_collision : forall hf w wp height seed, supported (rs_hash_u8 hf) hf (w_of w) wp height seed ->
  exists o pk, rs_fast_new seed (N.of_nat height) (Some hf) (Some w) = ROk o /\ rs_get_pk (rfa_base o) = ROk pk /\
    forall msg sig, all_bytes sig -> rs_verify msg sig pk (Some w) = ROk tt ->
      let seen := seen_message hf (sig_R sig) (ref_root hf wp height seed) (sig_index sig) msg in
      (exists xy, extract hf wp height seed seen sig = Some xy /\ collision hf xy) \/
      ((sig_index sig < 2 ^ N.of_nat height)%N /\
       sig = owner_sig hf wp height seed (N.to_nat (sig_index sig)) (sig_R sig) seen).
Proof.
  intros hf w wp height seed HS. destruct (owner_pk hf w wp height seed HS) as (o & E & K). exists o, (rust_pk hf wp height seed).
  split; auto. split; auto. intros msg sig HB HV. cbv zeta.
  destruct (rust_accepts_cpp hf w wp height seed HS msg sig HB HV) as (_ & HV').
  destruct (C48_accepted_genuine_or_collision [] seed height (rs_hash_u8 hf) hf 0 (w_of w) wp HS) as (x & Ex & _ & HA).
  pose proof (cfg_of _ _ _ _ _ _ 0%N HS) as HC. rewrite (XmssBasic_new_spec _ wp HC) in Ex. apply Ok_inj in Ex. subst x.
  exact (HA _ sig HB HV').
Qed.

Lemma rust_run_nth : forall hf h sig cs i j obs n m s, rust_ref_run hf h sig i cs = Some (j, obs) ->
  nth_error cs n = Some (OpSign m) -> nth_error obs n = Some (RObsSig s) ->
  exists k, (k < 2 ^ N.of_nat h)%N /\ s = sig (N.to_nat k) m /\ signable hf m.
Proof.
  intros hf h sig. induction cs as [|c cs IH]; intros i j obs [|n] m s HR Hc Ho; try discriminate; cbn [rust_ref_run] in HR.
  - cbn [nth_error] in Hc. injection Hc as ->. unfold rust_ref_step in HR. destruct (i <? 2 ^ N.of_nat h)%N eqn:L.
    + apply N.ltb_lt in L. destruct (signable_dec hf m) as [S|S]; [|discriminate].
      destruct (rust_ref_run hf h sig (i + 1) cs) as [[i2 xs]|]; [|discriminate]. injection HR as _ <-. cbn [nth_error] in Ho.
      exists i. split; auto. split; auto. congruence.
    + destruct (rust_ref_run hf h sig i cs) as [[i2 xs]|]; [|discriminate]. injection HR as _ <-. discriminate Ho.
  - cbn [nth_error] in Hc. destruct (rust_ref_step hf h sig i c) as [[i1 x]|]; [|discriminate].
    destruct (rust_ref_run hf h sig i1 cs) as [[i2 xs]|] eqn:ER; [|discriminate]. injection HR as _ <-. cbn [nth_error] in Ho. eapply IH; eauto.
Qed.
Lemma seen_inj : forall hf R root idx m m', length R = 32 -> length root = 32 -> signable hf m -> signable hf m' ->
  seen_message hf R root idx m = seen_message hf R root idx m' -> exchangeable hf m m'.
Proof.
  intros hf R root idx m m' LR Lr Hs Hs' E. unfold exchangeable, seen_message in *. destruct (seen_bytes hf) as [k|] eqn:Ek; [|exact E].
  assert (LS : forall x, signable hf x -> length (if length x <? k then x
     else firstn k x ++ firstn (length x - k) (to_byte 32 2 ++ R ++ root ++ to_byte 32 idx ++ x)) = length x /\
     firstn k (if length x <? k then x
     else firstn k x ++ firstn (length x - k) (to_byte 32 2 ++ R ++ root ++ to_byte 32 idx ++ x)) = firstn k x).
  { intros x Hx. destruct (length x <? k) eqn:L; [auto|]. apply Nat.ltb_ge in L. split.
    - rewrite app_length, !firstn_length, !app_length, !to_byte_length. lia.
    - rewrite firstn_app, firstn_firstn, firstn_length, Nat.min_id, Nat.min_l, Nat.sub_diag by lia. cbn [firstn]. apply app_nil_r. }
  destruct (LS m Hs) as (A1 & A2). destruct (LS m' Hs') as (B1 & B2). split; congruence.
Qed.

(** A signature accepted by the port with the index of a released one that is not that signature,
    or not for a message with the same visible part, exhibits a collision or a chain value
    below a published one. *)
Theorem C76_rust_one_time_forgery : forall hf w wp height seed, supported (rs_hash_u8 hf) hf (w_of w) wp height seed -> w <> W256 ->
  exists o pk, rs_fast_new seed (N.of_nat height) (Some hf) (Some w) = ROk o /\ rs_get_pk (rfa_base o) = ROk pk /\
    forall cs o' os n msg0 s0, rs_run o cs = ROk (o', os) ->
      nth_error cs n = Some (OpSign msg0) -> nth_error os n = Some (RObsSig s0) ->
      forall msg sig, all_bytes sig -> sig_index sig = sig_index s0 -> sig <> s0 \/ ~ exchangeable hf msg msg0 ->
        rs_verify msg sig pk (Some w) = ROk tt ->
        let seen s m := seen_message hf (sig_R s) (ref_root hf wp height seed) (sig_index s) m in
        forged_evidence hf wp height seed (seen s0 msg0) s0 (seen sig msg) sig.
Proof.
  intros hf w wp height seed HS Hw. destruct (owner_pk hf w wp height seed HS) as (o & E & K). exists o, (rust_pk hf wp height seed).
  split; auto. split; auto. intros cs o' os n msg0 s0 Er Hc Ho msg sig HB Hx Hne HV. cbv zeta.
  destruct (rust_accepts_cpp hf w wp height seed HS msg sig HB HV) as (Hsg & HV').
  destruct (C63_rust_history hf w wp height seed HS) as (o1 & E1 & HR). rewrite E in E1. apply ROk_inj in E1. subst o1.
  specialize (HR cs). destruct (rust_ref_run hf height (rust_sig hf wp height seed) 0 cs) as [[i obs]|] eqn:ER.
  2:{ rewrite Er in HR. discriminate. }
  destruct HR as (o2 & HR & _). rewrite Er in HR. apply ROk_inj in HR. apply pair_equal_spec in HR. destruct HR as [<- ->].
  destruct (rust_run_nth _ _ _ _ _ _ _ _ _ _ ER Hc Ho) as (k & Hk & Es & Hs0).
  assert (Hk' : N.to_nat k < 2 ^ height) by (rewrite <- pow_N_nat; lia).
  destruct (rust_sig_fields hf w wp height seed HS (N.to_nat k) msg0 Hk') as (F1 & F2). rewrite <- Es in F1, F2.
  assert (G : s0 = ref_sig hf wp height seed (N.to_nat k) (seen_message hf (sig_R s0) (ref_root hf wp height seed) (sig_index s0) msg0)).
  { unfold sig_R, sig_index. rewrite F1, F2. exact Es. }
  set (m0 := seen_message hf (sig_R s0) (ref_root hf wp height seed) (sig_index s0) msg0) in *.
  rewrite G.
  apply (forge_core (rs_hash_u8 hf) hf 0 (w_of w) wp height seed (N.to_nat k) m0); auto.
  - destruct w; cbn; auto. congruence.
  - rewrite <- G. exact Hx.
  - rewrite <- G. intros X. apply pair_equal_spec in X. destruct X as [X1 X2]. destruct Hne as [Hne|Hne]; [now apply Hne|].
    subst sig. apply Hne. apply (seen_inj hf (sig_R s0) (ref_root hf wp height seed) (sig_index s0)); auto.
    + unfold sig_R. rewrite F2. unfold randomizer. apply keyed_length.
    + pose proof (cfg_root_len _ _ (rkey_cfg _ _ _ _ _ HS)) as L. exact L.
Qed.

(** The hypotheses are met: a supported parameter set, and two 9-byte messages that a SHAKE256
    key of the port does tell apart while it does not tell apart two others. *)
Example C76_case : supported 2 SHAKE_256 16 w16 4 (repeat 0%N 48) /\
  ~ exchangeable SHAKE_256 (repeat 1%N 8 ++ [1%N]) (repeat 2%N 8 ++ [1%N]) /\
  exchangeable SHAKE_256 (repeat 1%N 8 ++ [1%N]) (repeat 1%N 8 ++ [2%N]).
Proof.
  split; [repeat split; try (vm_compute; reflexivity); try (cbn; lia); try (intros Hx; vm_compute in Hx; discriminate)|].
  split; [intros [_ X]; discriminate X|split; reflexivity].
Qed.
