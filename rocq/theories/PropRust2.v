(** Signatures of the Rust port: C63 (continued), C64, C65. *)
(** Concrete cases for the hypotheses below: CasesXmss.v and CasesMisc.v. *)
From Coq Require Import List NArith Arith Lia Bool.
From Verif Require Import Base Bytes Keccak KeccakLemmas Sha256 HashAddress Wots XmssCommon AlgsXmss AlgsXmssFast Descriptor
  SpecXmss SpecApi XmssObj XmssRefine WotsProofs TreeProofs BasicProofs BdsProofs FastProofs DescrProofs VerifyProofs
  RsBase RsShake RsHash RsWots RsAlgs RsFast SpecRust RsObj RsSimTree RsSimAlgs RsSimFast RsObjProofs RsVerifyProofs PropObj PropKeys PropCtor PropRust.
Import ListNotations.
Open Scope nat_scope.

(** ** Reference signatures are byte strings *)
Lemma chain_bytes : forall hf ps o c s k x, all_bytes x -> all_bytes (chain hf ps o c s k x).
Proof. intros hf ps o c s [|k] x H; cbn [chain]; auto. apply keyed_bytes. Qed.
Lemma l_level_bytes : forall hf ps o h l i, Forall all_bytes l -> Forall all_bytes (l_level hf ps o h i l).
Proof.
  intros hf ps o h l. assert (G : forall n l i, length l <= n -> Forall all_bytes l -> Forall all_bytes (l_level hf ps o h i l)).
  { induction n; intros l0 i Hn H.
    - destruct l0; [constructor|cbn in Hn; lia].
    - destruct l0 as [|a [|b t]]; cbn [l_level]; auto. inversion H as [|? ? _ H']; subst. inversion H' as [|? ? _ H'']; subst.
      constructor; [apply keyed_bytes|]. apply IHn; auto. cbn in Hn. lia. }
  intros i H. now apply (G (length l)).
Qed.
Lemma l_root_bytes : forall hf ps o f h l, Forall all_bytes l -> all_bytes (l_root hf ps f o h l).
Proof.
  intros hf ps o. induction f; intros h l H; destruct l as [|a [|b t]]; cbn [l_root]; try constructor; try (inversion H; assumption).
  apply IHf. now apply l_level_bytes.
Qed.
Lemma node_bytes : forall hf w len ss ps j i, all_bytes (node hf w len ss ps j i).
Proof.
  intros hf w len ss ps [|j] i; cbn [node]; [|apply keyed_bytes]. unfold leaf, compress. apply l_root_bytes.
  apply Forall_forall. intros x Hx. unfold ots_pk in Hx. apply in_map_iff in Hx. destruct Hx as (c & <- & _).
  apply chain_bytes. apply keyed_bytes.
Qed.
Lemma concat_bytes : forall ls, Forall all_bytes ls -> all_bytes (concat ls).
Proof. induction ls; intros H; cbn [concat]; [constructor|]. inversion H; subst. apply Forall_app. split; auto. now apply IHls. Qed.
Lemma ref_sig_bytes : forall hf wp h seed i msg, all_bytes (ref_sig hf wp h seed i msg).
Proof.
  intros. unfold ref_sig, signature. rewrite !all_bytes_app. repeat split.
  - apply to_byte_bytes.
  - apply keyed_bytes.
  - apply concat_bytes. apply Forall_forall. intros x Hx. unfold ots_sig in Hx. apply in_map_iff in Hx. destruct Hx as (c & <- & _).
    apply chain_bytes. apply keyed_bytes.
  - apply concat_bytes. apply Forall_forall. intros x Hx. unfold auth_path in Hx. apply in_map_iff in Hx. destruct Hx as (c & <- & _).
    apply node_bytes.
Qed.

Section Key.
  Variables (hf : hashfn) (w : rs_w) (wp : nat * nat * nat) (height : nat) (seed : list N).
  Hypothesis HS : supported (rs_hash_u8 hf) hf (w_of w) wp height seed.
  Local Notation c := (rust_cfg hf w height seed).

  Definition rust_pk : list N := [rs_hash_u8 hf; N.of_nat (height / 2); 0%N] ++ ref_root hf wp height seed ++ key_pub seed.

  Lemma rust_pk_cpp : rust_pk = c_pk c wp 0.
  Proof.
    rewrite (getPK_shape c wp (rkey_cfg _ _ _ _ _ HS)). cbn [rust_cfg c_hash c_fmt c_height c_hf c_seed]. unfold rust_pk.
    rewrite <- (rs_descr_bytes_cpp hf), rs_descr_bytes_arith, (descr_half hf w wp height seed HS). reflexivity.
  Qed.

  Lemma rust_sig_len : forall i msg, length (rust_sig hf wp height seed i msg) = base_size wp + 32 * height.
  Proof. intros. exact (c_sig_length c wp (rkey_cfg _ _ _ _ _ HS) i _). Qed.

  Lemma small_idx : forall i, i < 2 ^ height -> (N.of_nat i < 2 ^ 32)%N.
  Proof.
    intros i Hi. assert (X : (N.of_nat i <= 2 ^ N.of_nat height)%N).
    { rewrite <- (Nat2N.id height), <- pow_N_nat in Hi. rewrite Nat2N.id in Hi. lia. }
    pose proof (rc_small hf w wp height seed (rkey_cfg _ _ _ _ _ HS) (N.of_nat i) X). lia.
  Qed.

  Lemma rust_sig_fields : forall i msg, i < 2 ^ height ->
    from_be (firstn 4 (rust_sig hf wp height seed i msg)) = N.of_nat i /\
    firstn 32 (skipn 4 (rust_sig hf wp height seed i msg)) = randomizer hf (key_prf seed) i.
  Proof.
    intros i msg Hi. unfold rust_sig, ref_sig, signature. set (T := concat _ ++ concat _). clearbody T. split.
    - change (firstn 4 ?x) with (slice 0 4 x). rewrite slice_app_l by (now rewrite to_byte_length).
      apply from_be_to_byte4. now apply small_idx.
    - rewrite skipn_app_exact by apply to_byte_length.
      assert (L : length (randomizer hf (key_prf seed) i) = 32) by apply keyed_length.
      rewrite <- L at 1. rewrite firstn_app, Nat.sub_diag, firstn_O, app_nil_r. apply firstn_all.
  Qed.

  Lemma rust_pk_fields : nth 0 rust_pk 0%N = rs_hash_u8 hf /\ nth 1 rust_pk 0%N = N.of_nat (height / 2) /\
    firstn 32 (skipn 3 rust_pk) = ref_root hf wp height seed /\ length rust_pk = 67.
  Proof.
    destruct (key_lengths seed) as (_ & _ & L3). pose proof (cfg_root_len _ _ (rkey_cfg _ _ _ _ _ HS)) as LR. cbn [rust_cfg c_hf c_height c_seed] in LR.
    unfold rust_pk. split; [reflexivity|]. split; [reflexivity|]. split.
    - rewrite skipn_app_exact by reflexivity. rewrite <- LR at 1. rewrite firstn_app, Nat.sub_diag, firstn_O, app_nil_r. apply firstn_all.
    - rewrite !app_length, LR, L3. reflexivity.
  Qed.

  (** Its own signatures verify. *)
  Lemma rust_sig_verifies : forall i msg, i < 2 ^ height -> signable hf msg ->
    rs_verify msg (rust_sig hf wp height seed i msg) rust_pk (Some w) = ROk tt.
  Proof.
    intros i msg Hi Hm. pose proof (rkey_cfg _ _ _ _ _ HS) as HC.
    assert (Hw : winternitz (w_of w) = Some wp) by apply HS. assert (Hh : 4 <= height <= 30) by apply HS.
    assert (He : Nat.even height = true) by apply HS. apply Nat.even_spec in He. destruct He as [y Ey].
    rewrite (rs_verify_spec w wp); auto.
    2:{ rewrite rust_pk_cpp. apply (c_pk_bytes c wp HC). }
    2:{ apply ref_sig_bytes. }
    destruct rust_pk_fields as (F0 & F1 & F2 & F3). destruct (rust_sig_fields i msg Hi) as (G1 & G2).
    unfold rust_ref_verify. cbv zeta. rewrite F3, rust_sig_len, F0, F1, F2, G1, G2. cbn [Nat.eqb negb].
    change (36 + 32 * (snd (fst wp) + snd wp)) with (base_size wp).
    rewrite (proj2 (Nat.ltb_ge _ _)) by lia.
    replace (hash_of_id (rs_hash_u8 hf mod 16)%N) with (Some hf) by (destruct hf; reflexivity).
    assert (Ey2 : height / 2 = y) by (rewrite Ey, Nat.mul_comm; apply Nat.div_mul; lia). rewrite Ey2.
    rewrite N.div_small by lia. cbn [N.eqb negb]. rewrite N.mod_small by lia. rewrite Nat2N.id. rewrite <- Ey.
    rewrite (proj2 (Nat.leb_le 4 height)) by lia. rewrite Nat.eqb_refl. cbn [andb negb].
    destruct (signable_dec hf msg) as [_|X]; [|contradiction].
    set (seen := seen_message hf _ _ _ msg).
    assert (V : ref_verify hf wp seen (ref_sig hf wp height seed i seen) (c_pk c wp 0) = true).
    { pose proof (c_sig_verifies c wp HC i 0 seen Hi) as V. rewrite (verify_spec _ wp hf) in V; auto.
      - now apply Ok_inj in V.
      - apply (c_pk_bytes c wp HC).
      - rewrite <- rust_pk_cpp, F0. destruct hf; reflexivity. }
    rewrite rust_pk_cpp. change (rust_sig hf wp height seed i msg) with (ref_sig hf wp height seed i seen). now rewrite V.
  Qed.
End Key.

(** ** Observations of the reference machine *)
Lemma rust_ref_len : forall hf h sig cs i i' obs, rust_ref_run hf h sig i cs = Some (i', obs) -> length obs = length cs.
Proof.
  intros hf h sig. induction cs as [|c cs IH]; intros i i' obs E; cbn [rust_ref_run] in E; [injection E as <- <-; reflexivity|].
  destruct (rust_ref_step hf h sig i c) as [[i1 x]|]; [|discriminate].
  destruct (rust_ref_run hf h sig i1 cs) as [[i2 xs]|] eqn:E2; [|discriminate]. injection E as <- <-. cbn [length]. f_equal. eauto.
Qed.
Lemma rust_ref_step_facts : forall hf h sig i c i1 x, (i <= 2 ^ N.of_nat h)%N -> rust_ref_step hf h sig i c = Some (i1, x) ->
  (i <= i1 <= 2 ^ N.of_nat h)%N /\
  (forall s, x = RObsSig s -> exists m, c = OpSign m /\ signable hf m /\ s = sig (N.to_nat i) m /\ (i < 2 ^ N.of_nat h)%N /\ i1 = (i + 1)%N) /\
  (forall e, x = RObsErr e -> e = RInvalidArgument /\ i1 = i).
Proof.
  intros hf h sig i c i1 x Hi E. destruct c as [m|j]; unfold rust_ref_step in E.
  - destruct (i <? 2 ^ N.of_nat h)%N eqn:L.
    + apply N.ltb_lt in L. destruct (signable_dec hf m) as [S|S]; [|discriminate]. injection E as <- <-.
      split; [lia|]. split; [|discriminate]. intros s Es. injection Es as <-. exists m. auto.
    + injection E as <- <-. split; [lia|]. split; [discriminate|]. intros e Ee. injection Ee as <-. auto.
  - destruct ((j <? 2 ^ N.of_nat h)%N && (i <=? j)%N) eqn:L.
    + apply andb_true_iff in L. destruct L as [L1 L2]. apply N.ltb_lt in L1. apply N.leb_le in L2. injection E as <- <-.
      split; [lia|]. split; discriminate.
    + injection E as <- <-. split; [lia|]. split; [discriminate|]. intros e Ee. injection Ee as <-. auto.
Qed.
(** A signature at position [n] was made at some index between the start and the end,
    and everything later starts above it. *)
Lemma rust_ref_nth : forall hf h sig cs i i' obs, (i <= 2 ^ N.of_nat h)%N -> rust_ref_run hf h sig i cs = Some (i', obs) ->
  (i <= i' <= 2 ^ N.of_nat h)%N /\
  forall n s, nth_error obs n = Some (RObsSig s) ->
    exists m k, nth_error cs n = Some (OpSign m) /\ signable hf m /\ s = sig (N.to_nat k) m /\ (i <= k < i')%N /\ (k < 2 ^ N.of_nat h)%N /\
      forall n2 s2, n < n2 -> nth_error obs n2 = Some (RObsSig s2) -> exists m2 k2, s2 = sig (N.to_nat k2) m2 /\ (k < k2 < 2 ^ N.of_nat h)%N.
Proof.
  intros hf h sig. induction cs as [|c cs IH]; intros i i' obs Hi E; cbn [rust_ref_run] in E.
  { injection E as <- <-. split; [lia|]. intros n s X. destruct n; discriminate. }
  destruct (rust_ref_step hf h sig i c) as [[i1 x]|] eqn:E1; [|discriminate].
  destruct (rust_ref_run hf h sig i1 cs) as [[i2 xs]|] eqn:E2; [|discriminate]. injection E as <- <-.
  destruct (rust_ref_step_facts _ _ _ _ _ _ _ Hi E1) as (M & F & _). destruct (IH i1 i2 xs ltac:(lia) E2) as (M2 & G).
  split; [lia|]. intros [|n] s X; cbn [nth_error] in *.
  - injection X as X. destruct (F s X) as (m & -> & S & -> & L & ->). exists m, i. repeat split; auto; try lia.
    intros n2 s2 Hn X2. destruct n2 as [|n2]; [lia|]. cbn [nth_error] in X2.
    destruct (G n2 s2 X2) as (m2 & k2 & _ & _ & -> & R1 & R2 & _). exists m2, k2. split; auto. lia.
  - destruct (G n s X) as (m & k & C & S & -> & R1 & R2 & R3). exists m, k. repeat split; auto; try lia.
    intros n2 s2 Hn X2. destruct n2 as [|n2]; [lia|]. cbn [nth_error] in X2. apply (R3 n2 s2); auto. lia.
Qed.

(** C63: in every history that does not panic, every signature verifies under the key's
    public key, claims an index below 2^height, and later signatures claim larger
    indices. *)
Theorem C63_rust_signatures_verify : forall hf w wp height seed, supported (rs_hash_u8 hf) hf (w_of w) wp height seed ->
  exists o pk, rs_fast_new seed (N.of_nat height) (Some hf) (Some w) = ROk o /\ rs_get_pk (rfa_base o) = ROk pk /\
    forall cs o' obs, rs_run o cs = ROk (o', obs) -> length obs = length cs /\ rs_get_pk (rfa_base o') = ROk pk /\
      (forall n s, nth_error obs n = Some (RObsSig s) ->
         exists m, nth_error cs n = Some (OpSign m) /\ rs_verify m s pk (Some w) = ROk tt /\ (sig_index s < 2 ^ N.of_nat height)%N) /\
      (forall n1 n2 s1 s2, n1 < n2 -> nth_error obs n1 = Some (RObsSig s1) -> nth_error obs n2 = Some (RObsSig s2) ->
         (sig_index s1 < sig_index s2)%N).
Proof.
  intros hf w wp height seed HS. destruct (C63_rust_history hf w wp height seed HS) as (o & E & HR).
  exists o, (rust_pk hf wp height seed). split; auto.
  split. { pose proof (HR []) as R0. cbn [rust_ref_run rs_run] in R0. destruct R0 as (o' & R0 & K). apply ROk_inj in R0.
    apply pair_equal_spec in R0. destruct R0 as [<- _]. apply K. }
  intros cs o' obs R. pose proof (HR cs) as R1.
  destruct (rust_ref_run hf height (rust_sig hf wp height seed) 0 cs) as [[i obs']|] eqn:ER; [|congruence].
  destruct R1 as (o1 & R1 & K). rewrite R in R1. apply ROk_inj in R1. apply pair_equal_spec in R1. destruct R1 as [<- <-].
  split; [eapply rust_ref_len; eauto|]. split; [apply K|].
  destruct (rust_ref_nth _ _ _ _ _ _ _ (N.le_0_l _) ER) as (_ & G).
  assert (P2 : forall k, (k < 2 ^ N.of_nat height)%N -> N.to_nat k < 2 ^ height).
  { intros k Hk. rewrite <- pow_N_nat. lia. }
  assert (SI : forall k m, (k < 2 ^ N.of_nat height)%N -> sig_index (rust_sig hf wp height seed (N.to_nat k) m) = k).
  { intros k m Hk. destruct (rust_sig_fields hf w wp height seed HS (N.to_nat k) m (P2 k Hk)) as (X & _).
    unfold sig_index. rewrite X. apply N2Nat.id. }
  split.
  - intros n s X. destruct (G n s X) as (m & k & C & S & -> & R1 & R2 & _). exists m. split; auto. split.
    + apply rust_sig_verifies; auto.
    + rewrite SI; auto.
  - intros n1 n2 s1 s2 Hn X1 X2. destruct (G n1 s1 X1) as (m & k & C & S & -> & R1 & R2 & R3).
    destruct (R3 n2 s2 Hn X2) as (m2 & k2 & -> & Hk). rewrite !SI by lia. lia.
Qed.

(** A call that returns [Err] leaves the object as it was, and the error is
    InvalidArgument. *)
Theorem C63_rust_failed_calls : forall hf w wp height seed, supported (rs_hash_u8 hf) hf (w_of w) wp height seed ->
  exists o, rs_fast_new seed (N.of_nat height) (Some hf) (Some w) = ROk o /\
    forall cs o1 obs, rs_run o cs = ROk (o1, obs) -> forall x o2 e, rs_step o1 x = ROk (o2, RObsErr e) ->
      o2 = o1 /\ e = RInvalidArgument.
Proof.
  intros hf w wp height seed HS. destruct (rs_new_spec hf w wp height seed HS) as (o & E & HI). exists o. split; auto.
  intros cs o1 obs R x o2 e X. pose proof (rkey_cfg _ _ _ _ _ HS) as HC.
  pose proof (rust_run hf w wp height seed HC cs o 0 HI) as R1.
  destruct (rust_ref_run hf height (rust_sig hf wp height seed) 0 cs) as [[i obs']|]; [|congruence].
  destruct R1 as (o1' & R1 & HI1). rewrite R in R1. apply ROk_inj in R1. apply pair_equal_spec in R1. destruct R1 as [<- _].
  pose proof (rust_step hf w wp height seed HC o1 i x HI1) as S.
  assert (Hi : (i <= 2 ^ N.of_nat height)%N) by (destruct HI1 as (oc & (_ & Hi & _) & _); exact Hi).
  destruct (rust_ref_step hf height (rust_sig hf wp height seed) i x) as [[i' ob]|] eqn:ES; [|congruence].
  destruct S as (o2' & S & _ & S2). rewrite X in S. apply ROk_inj in S. apply pair_equal_spec in S. destruct S as [<- <-].
  split; [now apply (S2 e)|]. now apply (rust_ref_step_facts _ _ _ _ _ _ _ Hi ES).
Qed.

(** ** C64: verify, for every input *)
Theorem C64_rust_verify : forall w wp msg sig pk, winternitz (w_of w) = Some wp -> all_bytes pk -> all_bytes sig ->
  rs_verify msg sig pk (Some w) = rust_ref_verify wp msg sig pk.
Proof. exact rs_verify_spec. Qed.
Theorem C64_rust_verify_default : forall msg sig pk, rs_verify msg sig pk None = rs_verify msg sig pk (Some W16).
Proof. reflexivity. Qed.

(** Against the C++ verifier: a public key the port's decoder takes, a message the port
    can hash: the port accepts exactly if the C++ library accepts the seen message. *)
Theorem C64_rust_verify_vs_cpp : forall w wp hf msg sig pk, winternitz (w_of w) = Some wp -> all_bytes pk -> all_bytes sig ->
  hash_of_id (nth 0 pk 0 mod 16)%N = Some hf -> (nth 1 pk 0 / 16)%N = 0%N -> signable hf msg ->
  (rs_verify msg sig pk (Some w) = ROk tt <->
   verify (seen_message hf (firstn 32 (skipn 4 sig)) (firstn 32 (skipn 3 pk)) (from_be (firstn 4 sig)) msg) sig pk (w_of w) = Ok true).
Proof.
  intros w wp hf msg sig pk Hw Hpk Hs Hh Hf Hm. rewrite (rs_verify_spec w wp) by auto. rewrite (verify_spec _ wp hf) by auto.
  set (seen := seen_message hf _ _ _ msg). unfold rust_ref_verify. cbv zeta. rewrite Hh, Hf. change (negb (0 =? 0)%N) with false.
  destruct (signable_dec hf msg) as [_|]; [|contradiction]. fold seen.
  destruct wp as [[lw l1] l2]. cbn [fst snd]. unfold ref_verify at 2. set (RR := if list_eq_dec _ _ _ then true else false).
  pose proof (N.mod_upper_bound (nth 1 pk 0%N) 16 ltac:(lia)) as HU.
  destruct (length pk =? 67) eqn:E1; cbn [negb andb]; [|split; [discriminate|intros X; apply Ok_inj in X; discriminate]].
  destruct (36 + 32 * (l1 + l2) + 32 * 254 <? length sig) eqn:E2.
  { apply Nat.ltb_lt in E2. replace (length sig =? _) with false by (symmetry; apply Nat.eqb_neq; lia).
    rewrite andb_false_r. cbn [andb]. split; [discriminate|intros X; apply Ok_inj in X; discriminate]. }
  destruct ((4 <=? _) && (length sig =? _)) eqn:E3; cbn [negb andb];
    [|split; [discriminate|intros X; apply Ok_inj in X; discriminate]].
  assert (E : ref_verify hf (lw, l1, l2) seen sig pk = RR).
  { unfold ref_verify. rewrite E1. cbn [andb]. fold RR. rewrite E3. reflexivity. }
  rewrite E. destruct RR; split; intros X; try reflexivity; try discriminate; apply Ok_inj in X; discriminate.
Qed.
