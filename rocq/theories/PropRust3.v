(** C65: which part of a message a signature of the Rust port covers, and when the two
    implementations understand each other. *)
(** Concrete cases for the hypotheses below: CasesXmss.v and CasesMisc.v. *)
From Coq Require Import List NArith Arith Lia Bool.
From Verif Require Import Base Bytes Keccak KeccakLemmas HashAddress Wots XmssCommon AlgsXmss AlgsXmssFast Descriptor
  SpecXmss SpecApi XmssObj XmssRefine WotsProofs BasicProofs FastProofs VerifyProofs
  RsBase RsWots RsAlgs RsFast SpecRust RsObj RsObjProofs RsVerifyProofs PropObj PropKeys PropRust PropRust2.
From Verif Require Export SpecTerms3.
Import ListNotations.
Open Scope nat_scope.

Lemma firstn_le : forall A j k (a b : list A), j <= k -> firstn k a = firstn k b -> firstn j a = firstn j b.
Proof.
  intros A j k a b H E. rewrite <- (Nat.min_l j k H). rewrite <- !firstn_firstn. now rewrite E.
Qed.



Lemma seen_same : forall hf k R root idx m m', seen_bytes hf = Some k -> signable hf m -> length R = 32 -> length root = 32 ->
  same_visible k m m' -> seen_message hf R root idx m = seen_message hf R root idx m'.
Proof.
  intros hf k R root idx m m' Hk Hs LR Lr [L E]. unfold seen_message. rewrite Hk, <- L. destruct (length m <? k) eqn:Hl.
  - apply Nat.ltb_lt in Hl. rewrite (firstn_all2 m) in E by lia. rewrite (firstn_all2 m') in E by lia. exact E.
  - apply Nat.ltb_ge in Hl. rewrite E. f_equal.
    assert (P : forall x, to_byte 32 2 ++ R ++ root ++ to_byte 32 idx ++ x = (to_byte 32 2 ++ R ++ root ++ to_byte 32 idx) ++ x)
      by (intros; now rewrite <- !app_assoc).
    rewrite !P. set (Q := to_byte 32 2 ++ R ++ root ++ to_byte 32 idx).
    assert (LQ : length Q = 128) by (unfold Q; rewrite !app_length, !to_byte_length; lia). clearbody Q.
    rewrite !firstn_app, LQ. f_equal. apply (firstn_le _ _ k); auto.
    unfold signable in Hs. destruct hf; cbn in Hk; try discriminate; injection Hk as <-; lia.
Qed.
Lemma signable_len : forall hf m m', length m = length m' -> (signable hf m <-> signable hf m').
Proof. intros [] m m' E; unfold signable; now rewrite E. Qed.

(** Acceptance: whatever the signature and the key, such messages are exchangeable. *)
Theorem C65_rust_verify_truncates : forall w hf k msg msg' sig pk, all_bytes pk -> all_bytes sig ->
  hash_of_id (nth 0 pk 0 mod 16)%N = Some hf -> seen_bytes hf = Some k -> same_visible k msg msg' ->
  rs_verify msg sig pk (Some w) = rs_verify msg' sig pk (Some w).
Proof.
  intros w hf k msg msg' sig pk Hp Hs Hh Hk HV. destruct (rw_winternitz w) as (wp & Hw).
  rewrite !(rs_verify_spec w wp) by auto. unfold rust_ref_verify. cbv zeta. rewrite Hh.
  destruct (length pk =? 67) eqn:E1; cbn [negb]; [|reflexivity]. apply Nat.eqb_eq in E1.
  destruct (_ <? length sig); [reflexivity|]. destruct (negb (nth 1 pk 0 / 16 =? 0)%N); [reflexivity|].
  destruct ((4 <=? _) && (length sig =? _)) eqn:E3; cbn [negb]; [|reflexivity].
  apply andb_true_iff in E3. destruct E3 as [_ E3]. apply Nat.eqb_eq in E3.
  pose proof (signable_len hf msg msg' (proj1 HV)) as SL.
  destruct (signable_dec hf msg) as [S|S]; destruct (signable_dec hf msg') as [S'|S']; try tauto.
  assert (36 <= length sig) by (rewrite E3; generalize (32 * (2 * N.to_nat (nth 1 pk 0%N mod 16))); lia).
  rewrite (seen_same hf k _ _ _ msg msg'); auto; rewrite firstn_length, skipn_length; lia.
Qed.



Lemma rust_sig_same : forall hf w wp height seed k i m m', supported (rs_hash_u8 hf) hf (w_of w) wp height seed ->
  seen_bytes hf = Some k -> signable hf m -> same_visible k m m' ->
  rust_sig hf wp height seed i m = rust_sig hf wp height seed i m'.
Proof.
  intros hf w wp height seed k i m m' HS Hk Hm HV. unfold rust_sig. f_equal.
  apply (seen_same hf k); auto; [apply keyed_length|apply (cfg_root_len _ _ (rkey_cfg _ _ _ _ _ HS))].
Qed.

Theorem C65_rust_sign_truncates : forall hf w wp height seed k, supported (rs_hash_u8 hf) hf (w_of w) wp height seed ->
  seen_bytes hf = Some k ->
  exists o, rs_fast_new seed (N.of_nat height) (Some hf) (Some w) = ROk o /\
    forall cs cs', Forall2 (same_call k) cs cs' ->
      match rs_run o cs, rs_run o cs' with
      | ROk (_, obs), ROk (_, obs') => obs = obs'
      | RPanic, RPanic => True
      | _, _ => False
      end.
Proof.
  intros hf w wp height seed k HS Hk. destruct (C63_rust_history hf w wp height seed HS) as (o & E & HR).
  exists o. split; auto. intros cs cs' HF. pose proof (HR cs) as R1. pose proof (HR cs') as R2.
  assert (X : forall i, rust_ref_run hf height (rust_sig hf wp height seed) i cs = rust_ref_run hf height (rust_sig hf wp height seed) i cs').
  { clear - HS Hk HF. induction HF as [|a b cs cs' Hab HF IH]; intros i; cbn [rust_ref_run]; [reflexivity|].
    assert (Es : rust_ref_step hf height (rust_sig hf wp height seed) i a = rust_ref_step hf height (rust_sig hf wp height seed) i b).
    { destruct a as [m|x], b as [m'|y]; cbn [same_call] in Hab; try contradiction; [|now subst].
      unfold rust_ref_step. destruct (i <? 2 ^ N.of_nat height)%N; [|reflexivity].
      pose proof (signable_len hf m m' (proj1 Hab)) as SL.
      destruct (signable_dec hf m) as [S|S]; destruct (signable_dec hf m') as [S'|S']; try tauto.
      now rewrite (rust_sig_same hf w wp height seed k (N.to_nat i) m m' HS Hk S Hab). }
    rewrite Es. destruct (rust_ref_step hf height (rust_sig hf wp height seed) i b) as [[i1 x]|]; [|reflexivity]. now rewrite IH. }
  rewrite X in R1. destruct (rust_ref_run hf height (rust_sig hf wp height seed) 0 cs') as [[i obs]|].
  - destruct R1 as (o1 & -> & _). destruct R2 as (o2 & -> & _). reflexivity.
  - rewrite R1, R2. exact I.
Qed.

(** ** Interoperability *)


Lemma fully_seen_spec : forall hf m, fully_seen hf m -> signable hf m /\ forall R root idx, seen_message hf R root idx m = m.
Proof.
  intros hf m H. unfold fully_seen in H. split.
  - destruct hf; cbn [seen_bytes signable] in *; auto; lia.
  - intros. unfold seen_message. destruct (seen_bytes hf) as [k|]; [|reflexivity]. now rewrite (proj2 (Nat.ltb_lt _ _) H).
Qed.



(** On such messages every history of the Rust object is the history of the C++ object:
    same signatures, same indices, same failures, same secret key afterwards. *)
Theorem C65_rust_cpp_same_histories : forall junk hf height seed, supported (rs_hash_u8 hf) hf 16 w16 height seed ->
  exists o x, rs_fast_new seed (N.of_nat height) (Some hf) (Some W16) = ROk o /\
    XmssFast_new junk seed (N.of_nat height) (rs_hash_u8 hf) 0 = Ok x /\
    forall cs, (forall m, In (OpSign m) cs -> fully_seen hf m) ->
      exists o' x' obs, rs_run o cs = ROk (o', map robs_of obs) /\ run x cs = Ok (x', obs) /\
        ro_sk (rfa_base o') = getSK (xf_base x').
Proof.
  intros junk hf height seed HS. destruct (C63_rust_history hf W16 w16 height seed HS) as (o & E & HR).
  destruct (fast_history junk seed height (rs_hash_u8 hf) hf 0%N HS) as (x & Ex & HX).
  exists o, x. split; auto. split; auto. intros cs HF.
  destruct (HX cs) as (x' & Rx & _ & Kx). pose proof (HR cs) as R.
  assert (X : forall i, rust_ref_run hf height (rust_sig hf w16 height seed) i cs =
    Some (fst (ref_run height (ref_sig hf w16 height seed) i cs), map robs_of (snd (ref_run height (ref_sig hf w16 height seed) i cs)))).
  { clear - HF. induction cs as [|c cs IH]; intros i; cbn [rust_ref_run ref_run]; [reflexivity|].
    assert (Es : rust_ref_step hf height (rust_sig hf w16 height seed) i c =
      Some (fst (ref_step height (ref_sig hf w16 height seed) i c), robs_of (snd (ref_step height (ref_sig hf w16 height seed) i c)))).
    { destruct c as [m|j]; unfold rust_ref_step, ref_step.
      - destruct (fully_seen_spec hf m) as [S1 S2]; [apply HF; now left|].
        destruct (i <? 2 ^ N.of_nat height)%N; [|reflexivity].
        destruct (signable_dec hf m); [|contradiction]. unfold rust_sig. rewrite S2. reflexivity.
      - destruct ((j <? 2 ^ N.of_nat height)%N && (i <=? j)%N); reflexivity. }
    rewrite Es. destruct (ref_step height (ref_sig hf w16 height seed) i c) as [i1 y]. cbn [fst snd].
    rewrite IH by (intros m Hm; apply HF; now right).
    destruct (ref_run height (ref_sig hf w16 height seed) i1 cs) as [i2 ys]. reflexivity. }
  rewrite X in R. destruct R as (o' & R & K). exists o', x', (snd (ref_run height (ref_sig hf w16 height seed) 0 cs)).
  repeat split; auto. rewrite Kx. apply K.
Qed.

(** ... and both verifiers agree on them, for every signature and every public key whose
    descriptor the port decodes. *)
Theorem C65_rust_cpp_same_verify : forall w hf m sig pk, all_bytes pk -> all_bytes sig ->
  hash_of_id (nth 0 pk 0 mod 16)%N = Some hf -> (nth 1 pk 0 / 16)%N = 0%N -> fully_seen hf m ->
  (rs_verify m sig pk (Some w) = ROk tt <-> verify m sig pk (w_of w) = Ok true).
Proof.
  intros w hf m sig pk Hp Hs Hh Hf Hm. destruct (rw_winternitz w) as (wp & Hw). destruct (fully_seen_spec hf m Hm) as [S1 S2].
  rewrite (C64_rust_verify_vs_cpp w wp hf) by auto. now rewrite S2.
Qed.

(** Longer messages: the C++ library accepts the Rust signature for the seen message. *)
Theorem C65_rust_signature_is_for_seen_message : forall hf w wp height seed i m,
  supported (rs_hash_u8 hf) hf (w_of w) wp height seed -> i < 2 ^ height -> signable hf m ->
  let pk := [rs_hash_u8 hf; N.of_nat (height / 2); 0%N] ++ ref_root hf wp height seed ++ key_pub seed in
  let seen := seen_message hf (randomizer hf (key_prf seed) i) (ref_root hf wp height seed) (N.of_nat i) m in
  let s := rust_sig hf wp height seed i m in
  rs_verify m s pk (Some w) = ROk tt /\ verify seen s pk (w_of w) = Ok true.
Proof.
  intros hf w wp height seed i m HS Hi Hm. cbv zeta. split.
  - exact (rust_sig_verifies hf w wp height seed HS i m Hi Hm).
  - change (_ ++ ref_root hf wp height seed ++ key_pub seed) with (rust_pk hf wp height seed).
    rewrite (rust_pk_cpp hf w wp height seed HS).
    exact (c_sig_verifies (rust_cfg hf w height seed) wp (rkey_cfg _ _ _ _ _ HS) i 0 _ Hi).
Qed.

(** ** Instances *)
Example rust_supported : supported (rs_hash_u8 SHAKE_128) SHAKE_128 (w_of W16) w16 10 zero_seed.
Proof. repeat split; auto; try lia. Qed.
Example rust_supported_w4 : supported (rs_hash_u8 SHAKE_256) SHAKE_256 (w_of W4) (2, 128, 5) 4 zero_seed.
Proof. repeat split; auto; try lia. Qed.
(** Two different messages with one signature: same_visible is not equality. *)
Example confusable : same_visible 40 (repeat 65%N 40 ++ [1; 2; 3]%N) (repeat 65%N 40 ++ [4; 5; 6]%N) /\
  repeat 65%N 40 ++ [1; 2; 3]%N <> repeat 65%N 40 ++ [4; 5; 6]%N /\ signable SHAKE_128 (repeat 65%N 40 ++ [1; 2; 3]%N).
Proof. split; [split; reflexivity|]. split; [discriminate|]. unfold signable. cbn. lia. Qed.
Example not_confusable : fully_seen SHAKE_128 (repeat 65%N 39) /\ ~ fully_seen SHAKE_128 (repeat 65%N 40) /\ ~ signable SHAKE_256 (repeat 0%N 144).
Proof. unfold fully_seen, signable. cbn [seen_bytes]. rewrite !repeat_length. lia. Qed.
(** A history with a signature, a skip, a refused rewind and a panic. *)
Example rust_history_sample : forall sig,
  rust_ref_run SHAKE_128 4 sig 0 [OpSign [1%N]; OpSetIndex 5; OpSetIndex 3; OpSign [2%N]] =
    Some (6%N, [RObsSig (sig 0 [1%N]); RObsIdx 5; RObsErr RInvalidArgument; RObsSig (sig 5 [2%N])]) /\
  rust_ref_run SHAKE_128 4 sig 0 [OpSetIndex 5; OpSign (repeat 0%N 208)] = None.
Proof. intros sig. split; reflexivity. Qed.
