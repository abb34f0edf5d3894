(** C101: moving a wallet between the C++ library and the Rust port. *)
From Coq Require Import List NArith Arith Lia Bool.
From Verif Require Import Base Bytes Keccak KeccakLemmas HashAddress Wots XmssCommon AlgsXmss AlgsXmssFast Descriptor
  SpecXmss SpecApi XmssObj XmssRefine WotsProofs TreeProofs BasicProofs BdsProofs FastProofs DescrProofs VerifyProofs PropObj PropKeys PropCtor Session PropSession
  Misc PropMisc RsBase RsShake RsHash RsWots RsAlgs RsFast SpecRust RsObj RsMisc RsSimTree RsVerifyProofs RsObjProofs PropRust PropRust2 PropRust4 PropRsMisc SpecMove Migrate.
Import ListNotations.
Open Scope nat_scope.

(** The restored Rust object is the key of the seed (C62). *)
Lemma rs_ext_spec : forall hf height seed (HS : supported (rs_hash_u8 hf) hf (w_of W16) w16 height seed),
  exists o, rs_fast_from_extended_seed ([rs_hash_u8 hf; N.of_nat (height / 2); 0%N] ++ seed) = ROk o /\ rust_inv hf W16 w16 height seed 0 o.
Proof.
  intros hf height seed HS.
  destruct (rust_init hf W16 w16 height seed (rkey_cfg hf W16 w16 height seed HS) (repeat 0%N 132) (repeat_length _ _)) as (o & E & HI). exists o. split; [|exact HI].
  destruct HS as (_ & _ & Hh & He & Hl). apply Nat.even_spec in He. destruct He as [y Ey].
  assert (Ey2 : height / 2 = y) by (rewrite Ey, Nat.mul_comm; apply Nat.div_mul; lia). rewrite Ey2.
  unfold rs_fast_from_extended_seed, rs_base_from_extended_seed, rs_from_extended_seed. set (es := [rs_hash_u8 hf; N.of_nat y; 0%N] ++ seed).
  assert (Les : length es = 51) by (unfold es; rewrite app_length, Hl; reflexivity). rewrite Les. cbn [Nat.eqb negb].
  rewrite rslice_ok by lia. cbn [rbind].
  change (firstn (3 - 0) (skipn 0 es)) with [rs_hash_u8 hf; N.of_nat y; 0%N].
  assert (Hu : (rs_hash_u8 hf < 3)%N) by (destruct hf; cbn; lia).
  rewrite rs_from_bytes_arith by lia. rewrite N.mod_small by lia.
  replace (hash_of_id (rs_hash_u8 hf)) with (Some hf) by (destruct hf; reflexivity).
  rewrite N.div_small by lia. cbn [N.eqb rbind]. rewrite rslice_ok by lia. cbn [rbind rd_hash rd_height].
  change (skipn 3 es) with seed. rewrite firstn_all2 by lia.
  rewrite N.mod_small by lia. replace (2 * N.of_nat y)%N with (N.of_nat height) by lia. exact E.
Qed.
Theorem C62_rust_extended_seed_key : forall hf height seed, supported (rs_hash_u8 hf) hf 16 w16 height seed ->
  exists o1 o2, rs_fast_new seed (N.of_nat height) (Some hf) (Some W16) = ROk o1 /\
    rs_fast_from_extended_seed (rs_get_extended_seed (rfa_base o1)) = ROk o2 /\
    rust_key_at hf w16 height seed 0 (rfa_base o2) /\
    forall cs, match rs_run o1 cs, rs_run o2 cs with
               | ROk (y1, obs1), ROk (y2, obs2) => obs1 = obs2 /\ rfa_base y1 = rfa_base y2
               | RPanic, RPanic => True
               | _, _ => False
               end.
Proof.
  intros hf height seed HS. destruct (rs_new_spec hf W16 w16 height seed HS) as (o1 & E1 & I1).
  destruct (rs_ext_spec hf height seed HS) as (o2 & E2 & I2). exists o1, o2. split; [exact E1|].
  destruct (inv_key hf W16 w16 height seed HS 0 o1 I1) as (_ & _ & _ & K & _). rewrite K. split; [exact E2|].
  split; [exact (inv_key hf W16 w16 height seed HS 0 o2 I2)|]. intros cs.
  pose proof (rust_run hf W16 w16 height seed (rcfg_ok hf W16 w16 height seed HS) cs o1 0%N I1) as R1.
  pose proof (rust_run hf W16 w16 height seed (rcfg_ok hf W16 w16 height seed HS) cs o2 0%N I2) as R2.
  destruct (rust_ref_run hf height (rust_sig hf w16 height seed) 0 cs) as [[i obs]|].
  - destruct R1 as (y1 & R1 & J1). destruct R2 as (y2 & R2 & J2). rewrite R1, R2. split; [reflexivity|].
    destruct J1 as (c1 & _ & _ & ->). destruct J2 as (c2 & _ & _ & ->). reflexivity.
  - rewrite R1, R2. exact I.
Qed.

(** ** One signer *)
Lemma one_signer_app : forall h sig l1 l2 i,
  one_signer h sig i (l1 ++ l2) =
  let '(i1, xs) := one_signer h sig i l1 in let '(i2, ys) := one_signer h sig i1 l2 in (i2, xs ++ ys).
Proof.
  induction l1 as [|[s c] l1 IH]; intros l2 i; cbn [app one_signer].
  - destruct (one_signer h sig i l2). reflexivity.
  - destruct (ref_step h (sig s) i c) as [i1 x]. rewrite IH. destruct (one_signer h sig i1 l1) as [i2 xs].
    destruct (one_signer h sig i2 l2) as [i3 ys]. reflexivity.
Qed.
Lemma one_signer_side : forall h sig s cs i,
  one_signer h sig i (map (pair s) cs) = (fst (ref_run h (sig s) i cs), map of_obs (snd (ref_run h (sig s) i cs))).
Proof.
  induction cs as [|c cs IH]; intros i; cbn [map one_signer ref_run fst snd]; [reflexivity|].
  destruct (ref_step h (sig s) i c) as [i1 x]. rewrite IH. destruct (ref_run h (sig s) i1 cs) as [i2 xs]. reflexivity.
Qed.
(** A spent key refuses everything. *)
Lemma spent_refuses : forall h sig i cs, (2 ^ N.of_nat h <= i)%N ->
  ref_run h sig i cs = (i, map (fun _ => ObsExn InvalidArgument) cs).
Proof.
  intros h sig i cs Hi. induction cs as [|c cs IH]; cbn [ref_run map]; [reflexivity|].
  assert (E : ref_step h sig i c = (i, ObsExn InvalidArgument)).
  { destruct c as [m|j]; cbn [ref_step].
    - rewrite (proj2 (N.ltb_ge _ _) Hi). reflexivity.
    - destruct (j <? 2 ^ N.of_nat h)%N eqn:E1; [|reflexivity]. apply N.ltb_lt in E1. rewrite (proj2 (N.leb_gt _ _)) by lia. reflexivity. }
  rewrite E, IH. reflexivity.
Qed.
Lemma rust_ref_signable : forall hf h sig cs i, (forall m, In (OpSign m) cs -> signable hf m) ->
  exists os, rust_ref_run hf h sig i cs = Some (fst (ref_run h sig i cs), os) /\ map of_robs os = map of_obs (snd (ref_run h sig i cs)).
Proof.
  intros hf h sig. induction cs as [|c cs IH]; intros i Hm; cbn [rust_ref_run ref_run fst snd map]; [exists []; auto|].
  assert (E : exists x, rust_ref_step hf h sig i c = Some (fst (ref_step h sig i c), x) /\ of_robs x = of_obs (snd (ref_step h sig i c))).
  { destruct c as [m|j]; cbn [rust_ref_step ref_step].
    - destruct (i <? 2 ^ N.of_nat h)%N; [|eauto]. destruct (signable_dec hf m) as [_|n]; [eauto|]. exfalso. apply n, Hm. now left.
    - destruct ((j <? 2 ^ N.of_nat h) && (i <=? j))%N; eauto. }
  destruct E as (x & -> & Ex). destruct (ref_step h sig i c) as [i1 y]. cbn [fst snd] in *.
  destruct (IH i1) as (os & -> & Eo); [intros m Hin; apply Hm; now right|].
  destruct (ref_run h sig i1 cs) as [i2 xs]. cbn [fst snd map] in *. exists (x :: os). split; [reflexivity|]. cbn [map]. now rewrite Ex, Eo.
Qed.
Lemma ref_run_mono : forall h sig cs i, (i <= fst (ref_run h sig i cs))%N.
Proof.
  intros h sig. induction cs as [|c cs IH]; intros i; cbn [ref_run fst]; [lia|].
  assert (B : (i <= fst (ref_step h sig i c))%N).
  { destruct c as [m|j]; cbn [ref_step].
    - destruct (i <? 2 ^ N.of_nat h)%N; cbn [fst]; lia.
    - destruct (j <? 2 ^ N.of_nat h)%N; cbn [andb fst]; [|lia]. destruct (i <=? j)%N eqn:E; cbn [fst]; [apply N.leb_le in E; exact E|lia]. }
  destruct (ref_step h sig i c) as [i1 y]. cbn [fst] in B. specialize (IH i1). destruct (ref_run h sig i1 cs). cbn [fst] in *. lia.
Qed.
Lemma ref_run_bound : forall h sig cs i, (i <= 2 ^ N.of_nat h)%N -> (fst (ref_run h sig i cs) <= 2 ^ N.of_nat h)%N.
Proof.
  intros h sig. induction cs as [|c cs IH]; intros i Hi; cbn [ref_run fst]; [exact Hi|].
  assert (B : (fst (ref_step h sig i c) <= 2 ^ N.of_nat h)%N).
  { destruct c as [m|j]; cbn [ref_step].
    - destruct (i <? 2 ^ N.of_nat h)%N eqn:E; cbn [fst]; [apply N.ltb_lt in E; lia|exact Hi].
    - destruct (j <? 2 ^ N.of_nat h)%N eqn:E; cbn [andb]; [|exact Hi]. apply N.ltb_lt in E. destruct (i <=? j)%N; cbn [fst]; lia. }
  destruct (ref_step h sig i c) as [i1 y]. cbn [fst] in B. specialize (IH i1 B). destruct (ref_run h sig i1 cs). exact IH.
Qed.

Section Move.
  Variables (hf : hashfn) (height : nat) (seed : list N).
  Hypothesis HS : supported (rs_hash_u8 hf) hf 16 w16 height seed.
  Hypothesis Hb : all_bytes seed.
  Local Notation hash := (rs_hash_u8 hf).
  Local Notation c := (mkCfg hf hash 16 0 height seed).
  Local Notation ext := (descr_getBytes (mkDescr hash 0 (N.of_nat height) 0) ++ seed).
  Local Notation top := (2 ^ N.of_nat height)%N.
  Local Notation HC := (cfg_of _ _ _ _ _ _ 0%N HS).
  Definition side_sig (s : side) : nat -> list N -> list N :=
    match s with Cpp => ref_sig hf w16 height seed | Rust => rust_sig hf w16 height seed end.

  Lemma ext_rust : ext = [hash; N.of_nat (height / 2); 0%N] ++ seed.
  Proof. rewrite <- (rs_descr_bytes_cpp hf), rs_descr_bytes_arith, (descr_half hf W16 w16 height seed HS). reflexivity. Qed.
  Lemma ext_words : exists t, bin2mnemonic ext = Ok t /\ mnemonic2bin t = Ok ext /\ rs_bin2mnemonic ext = ROk t /\ rs_mnemonic2bin t = ROk ext.
  Proof.
    assert (L : length ext = 51) by (rewrite app_length; destruct HS as (_ & _ & _ & _ & ->); reflexivity).
    assert (B : all_bytes ext).
    { rewrite ext_rust. destruct HS as (_ & _ & Hh & _). repeat constructor; auto.
      - destruct hf; reflexivity.
      - unfold is_byte. assert (height / 2 <= 15) by (apply Nat.div_le_upper_bound; lia). lia. }
    destruct (C04_mnemonic_round_trip ext B) as (R & _); [intros F; rewrite F in L; discriminate L|rewrite L; reflexivity|].
    destruct R as (ws & t & E1 & Et & _ & _ & E2); [rewrite L; reflexivity|]. exists t. split; [exact E1|]. split; [exact E2|].
    destruct C69_rust_mnemonic_is_cpp as (M & _). specialize (M ext B ltac:(rewrite L; reflexivity)). rewrite E1 in M. split; [exact M|].
    destruct (C69_rust_mnemonic_round_trip ext B) as (R & _). destruct R as (ws' & F1 & _ & _ & F2); [rewrite L; reflexivity|].
    rewrite M in F1. injection F1 as ->. exact F2.
  Qed.

  Lemma cpp_stay_spec : forall t junk cs i, bin2mnemonic ext = Ok t -> mnemonic2bin t = Ok ext -> (i <= top)%N ->
    let '(i', os) := ref_run height (side_sig Cpp) i cs in
    cpp_stay junk cs (mkPaper t i) = Ok (mkPaper t i', map of_obs os).
  Proof.
    intros t junk cs i E1 E2 Hi. unfold cpp_stay. cbn [p_words p_next]. rewrite E2. cbn [bind].
    destruct (sess_ext hash hf height seed 0 HS ltac:(lia) junk) as (x & Ex & HI). rewrite Ex. cbn [bind].
    destruct (sess_set hash hf height seed 0 HS 0 i x HI) as (y & Hy).
    destruct (i <? top)%N eqn:El; cbn [andb] in Hy.
    - rewrite (proj2 (N.leb_le _ _) (N.le_0_l i)) in Hy. destruct Hy as (-> & Hy). cbn [bind].
      destruct (run_spec c w16 HC cs y i Hy) as (z & Ez & HIz). change (c_sig c w16) with (side_sig Cpp) in *. cbn [c_height] in *.
      rewrite Ez. cbn [bind]. pose proof (sess_index hash hf height seed 0 HS _ _ HIz) as Hx.
      destruct (ref_run height (side_sig Cpp) i cs) as [i' os]. cbn [fst snd] in *.
      assert (Ee : getExtendedSeed (xf_base z) = ext) by (destruct HIz as (-> & _); reflexivity). rewrite Ee, E1. cbn [bind]. now rewrite Hx.
    - apply N.ltb_ge in El. destruct Hy as ((e & ->) & ->). cbn [bind]. rewrite spent_refuses by exact El. now rewrite map_map.
  Qed.
  Lemma rust_stay_spec : forall t cs i, rs_bin2mnemonic ext = ROk t -> rs_mnemonic2bin t = ROk ext -> (i <= top)%N ->
    (forall m, In (OpSign m) cs -> signable hf m) ->
    let '(i', os) := ref_run height (side_sig Rust) i cs in
    rust_stay cs (mkPaper t i) = ROk (mkPaper t i', map of_obs os).
  Proof.
    intros t cs i E1 E2 Hi Hm. unfold rust_stay. cbn [p_words p_next]. rewrite E2. cbn [rbind].
    destruct (rs_ext_spec hf height seed HS) as (o & Eo & HI). rewrite ext_rust, Eo. cbn [rbind].
    destruct (rust_set_index hf W16 w16 height seed (rcfg_ok hf W16 w16 height seed HS) o 0 i HI) as (y & Ey & HIy & Hsame). rewrite Ey. cbn [rbind].
    destruct (i <? top)%N eqn:El; cbn [andb] in *.
    - rewrite (proj2 (N.leb_le _ _) (N.le_0_l i)) in *.
      destruct (rust_ref_signable hf height (side_sig Rust) cs i Hm) as (os & Er & Emap).
      pose proof (rust_run hf W16 w16 height seed (rcfg_ok hf W16 w16 height seed HS) cs y i HIy) as R.
      change (rust_sig hf w16 height seed) with (side_sig Rust) in R. rewrite Er in R. destruct R as (z & Ez & HIz). rewrite Ez. cbn [rbind].
      destruct (inv_key hf W16 w16 height seed HS _ z HIz) as (_ & Hx & _ & Hes & _).
      destruct (ref_run height (side_sig Rust) i cs) as [i' os']. cbn [fst snd] in *.
      rewrite Hes, <- ext_rust, E1. cbn [rbind]. rewrite Hx. cbn [rbind]. now rewrite Emap.
    - apply N.ltb_ge in El. rewrite spent_refuses by exact El. now rewrite map_map.
  Qed.

  Lemma stays_spec : forall t, bin2mnemonic ext = Ok t -> mnemonic2bin t = Ok ext -> rs_bin2mnemonic ext = ROk t -> rs_mnemonic2bin t = ROk ext ->
    forall l i, (i <= top)%N -> (forall cs m, In (StayRust cs) l -> In (OpSign m) cs -> signable hf m) ->
    let '(i', os) := one_signer height side_sig i (concat (map stay_calls l)) in
    make_stays l (mkPaper t i) = Some (mkPaper t i', os).
  Proof.
    intros t E1 E2 E3 E4. induction l as [|s l IH]; intros i Hi Hm; [reflexivity|].
    cbn [map concat]. rewrite one_signer_app.
    assert (S1 : exists i1 xs, one_signer height side_sig i (stay_calls s) = (i1, xs) /\ make_stay s (mkPaper t i) = Some (mkPaper t i1, xs) /\ (i1 <= top)%N).
    { destruct s as [junk cs|cs]; cbn [stay_calls make_stay]; rewrite one_signer_side; do 2 eexists; (split; [reflexivity|]); split;
        try (apply ref_run_bound; exact Hi).
      - pose proof (cpp_stay_spec t junk cs i E1 E2 Hi) as R. destruct (ref_run height (side_sig Cpp) i cs) as [i' os]. now rewrite R.
      - pose proof (rust_stay_spec t cs i E3 E4 Hi (fun m Hin => Hm cs m (or_introl eq_refl) Hin)) as R.
        destruct (ref_run height (side_sig Rust) i cs) as [i' os]. now rewrite R. }
    destruct S1 as (i1 & xs & -> & S1 & Hi1). cbn [make_stays]. rewrite S1.
    specialize (IH i1 Hi1 (fun cs m H1 H2 => Hm cs m (or_intror H1) H2)).
    destruct (one_signer height side_sig i1 (concat (map stay_calls l))) as [i2 ys]. now rewrite IH.
  Qed.
End Move.

(** A key made by either library, any number of stays with either library, any calls:
    the owner observes exactly what one signer would show who never moved, and the words
    stay the same.  (In the port the messages must be ones it can hash, C65.) *)
Theorem C101_moves_are_invisible : forall junk hf height seed, supported (rs_hash_u8 hf) hf 16 w16 height seed -> all_bytes seed ->
  exists x o t, XmssFast_new junk seed (N.of_nat height) (rs_hash_u8 hf) 0 = Ok x /\ bin2mnemonic (getExtendedSeed (xf_base x)) = Ok t /\
    rs_fast_new seed (N.of_nat height) (Some hf) (Some W16) = ROk o /\ rs_bin2mnemonic (rs_get_extended_seed (rfa_base o)) = ROk t /\
    forall l, (forall cs m, In (StayRust cs) l -> In (OpSign m) cs -> signable hf m) ->
      let sig s := match s with Cpp => ref_sig hf w16 height seed | Rust => rust_sig hf w16 height seed end in
      let '(i, os) := one_signer height sig 0 (concat (map stay_calls l)) in
      make_stays l (mkPaper t 0) = Some (mkPaper t i, os).
Proof.
  intros junk hf height seed HS Hb.
  destruct (C62_rust_key_is_cpp_key junk hf height seed HS) as (o & x & Eo & Ex & _ & _ & Ee & _).
  destruct (ext_words hf height seed HS Hb) as (t & E1 & E2 & E3 & E4).
  assert (Ees : getExtendedSeed (xf_base x) = descr_getBytes (mkDescr (rs_hash_u8 hf) 0 (N.of_nat height) 0) ++ seed).
  { destruct (XmssFast_new_spec junk seed height (rs_hash_u8 hf) hf 0 HS) as (x' & Ex' & HI). rewrite Ex in Ex'. apply Ok_inj in Ex'. subst x'.
    destruct HI as (-> & _). reflexivity. }
  exists x, o, t. split; [exact Ex|]. rewrite Ee, Ees. split; [exact E1|]. split; [exact Eo|]. split; [exact E3|].
  intros l Hm. exact (stays_spec hf height seed HS t E1 E2 E3 E4 l 0%N ltac:(lia) Hm).
Qed.

Lemma one_signer_signed : forall h sig cs i n s, nth_error (snd (one_signer h sig i cs)) n = Some (MSig s) ->
  exists sd m k, nth_error cs n = Some (sd, OpSign m) /\ s = sig sd (N.to_nat k) m /\ (i <= k < 2 ^ N.of_nat h)%N.
Proof.
  intros h sig. induction cs as [|[sd c] cs IH]; intros i n s F; cbn [one_signer] in F; [destruct n; discriminate F|].
  assert (M : (i <= fst (ref_step h (sig sd) i c))%N).
  { destruct c as [m|j]; cbn [ref_step].
    - destruct (i <? 2 ^ N.of_nat h)%N; cbn [fst]; lia.
    - destruct (j <? 2 ^ N.of_nat h)%N; cbn [andb fst]; [|lia]. destruct (i <=? j)%N eqn:E; cbn [fst]; [apply N.leb_le in E; exact E|lia]. }
  destruct n as [|n].
  - destruct c as [m|j]; cbn [ref_step] in F.
    + destruct (i <? 2 ^ N.of_nat h)%N eqn:E.
      * destruct (one_signer h sig (i + 1) cs). cbn [snd nth_error of_obs] in F. exists sd, m, i. split; [reflexivity|]. apply N.ltb_lt in E.
        split; [congruence|lia].
      * destruct (one_signer h sig i cs). discriminate F.
    + destruct ((j <? 2 ^ N.of_nat h) && (i <=? j))%N.
      * destruct (one_signer h sig j cs). discriminate F.
      * destruct (one_signer h sig i cs). discriminate F.
  - destruct (ref_step h (sig sd) i c) as [i1 x]. cbn [fst] in M. specialize (IH i1 n s).
    destruct (one_signer h sig i1 cs) as [i2 xs]. cbn [snd nth_error] in *. destruct (IH F) as (sd' & m & k & G1 & G2 & G3).
    exists sd', m, k. split; [exact G1|]. split; [exact G2|lia].
Qed.
Lemma one_signer_rises : forall h sig cs i n1 n2 s1 s2,
  (forall sd k m, (k < 2 ^ N.of_nat h)%N -> sig_index (sig sd (N.to_nat k) m) = k) -> n1 < n2 ->
  nth_error (snd (one_signer h sig i cs)) n1 = Some (MSig s1) -> nth_error (snd (one_signer h sig i cs)) n2 = Some (MSig s2) ->
  (sig_index s1 < sig_index s2)%N.
Proof.
  intros h sig. induction cs as [|[sd c] cs IH]; intros i n1 n2 s1 s2 HI Hlt F1 F2; cbn [one_signer] in F1, F2; [destruct n1; discriminate F1|].
  destruct n2 as [|n2]; [lia|]. destruct n1 as [|n1].
  - destruct c as [m|j]; cbn [ref_step] in F1, F2.
    + destruct (i <? 2 ^ N.of_nat h)%N eqn:E.
      * apply N.ltb_lt in E. pose proof (one_signer_signed h sig cs (i + 1) n2 s2) as G.
        destruct (one_signer h sig (i + 1) cs). cbn [snd nth_error of_obs] in *. destruct (G F2) as (sd' & m' & k & _ & -> & Hk).
        assert (sig sd (N.to_nat i) m = s1) as <- by congruence. rewrite !HI by lia. lia.
      * destruct (one_signer h sig i cs). discriminate F1.
    + destruct ((j <? 2 ^ N.of_nat h) && (i <=? j))%N.
      * destruct (one_signer h sig j cs). discriminate F1.
      * destruct (one_signer h sig i cs). discriminate F1.
  - destruct (ref_step h (sig sd) i c) as [i1 x]. specialize (IH i1 n1 n2 s1 s2 HI ltac:(lia)).
    destruct (one_signer h sig i1 cs) as [i2 xs]. cbn [snd nth_error] in *. auto.
Qed.

(** So moving never reuses a one-time key: over the whole life the indices increase
    strictly, and every signature is accepted, for its message, by the library that made
    it, under the one public key. *)
Theorem C101_moved_signatures : forall junk hf height seed, supported (rs_hash_u8 hf) hf 16 w16 height seed -> all_bytes seed ->
  exists x t, XmssFast_new junk seed (N.of_nat height) (rs_hash_u8 hf) 0 = Ok x /\ bin2mnemonic (getExtendedSeed (xf_base x)) = Ok t /\
    forall l, (forall cs m, In (StayRust cs) l -> In (OpSign m) cs -> signable hf m) ->
      exists p os, make_stays l (mkPaper t 0) = Some (p, os) /\ p_words p = t /\ (p_next p <= 2 ^ N.of_nat height)%N /\
      (forall n s, nth_error os n = Some (MSig s) -> exists sd m, nth_error (concat (map stay_calls l)) n = Some (sd, OpSign m) /\
         (sig_index s < p_next p)%N /\
         match sd with
         | Cpp => verify m s (getPK (xf_base x)) 16 = Ok true
         | Rust => rs_verify m s (getPK (xf_base x)) (Some W16) = ROk tt
         end) /\
      (forall n1 n2 s1 s2, n1 < n2 -> nth_error os n1 = Some (MSig s1) -> nth_error os n2 = Some (MSig s2) -> (sig_index s1 < sig_index s2)%N).
Proof.
  intros junk hf height seed HS Hb. destruct (C101_moves_are_invisible junk hf height seed HS Hb) as (x & o & t & Ex & Et & _ & _ & HM).
  exists x, t. split; [exact Ex|]. split; [exact Et|]. intros l Hm. specialize (HM l Hm). cbv zeta in HM.
  match type of HM with context [one_signer height ?S _ _] => change S with (side_sig hf height seed) in HM end.
  pose proof (one_signer_signed height (side_sig hf height seed) (concat (map stay_calls l)) 0) as G.
  pose proof (one_signer_rises height (side_sig hf height seed) (concat (map stay_calls l)) 0) as R.
  assert (HI : forall sd k m, (k < 2 ^ N.of_nat height)%N -> sig_index (side_sig hf height seed sd (N.to_nat k) m) = k).
  { intros sd k m Hk. destruct sd; apply (sg_index (rs_hash_u8 hf) hf height seed 0 HS ltac:(lia)); exact Hk. }
  assert (T : forall cs i, (i <= 2 ^ N.of_nat height)%N ->
    (fst (one_signer height (side_sig hf height seed) i cs) <= 2 ^ N.of_nat height)%N /\ (i <= fst (one_signer height (side_sig hf height seed) i cs))%N /\
    forall n s, nth_error (snd (one_signer height (side_sig hf height seed) i cs)) n = Some (MSig s) ->
      (sig_index s < fst (one_signer height (side_sig hf height seed) i cs))%N).
  { induction cs as [|[sd c] cs IH]; intros i Hi; cbn [one_signer fst snd].
    - split; [exact Hi|]. split; [lia|]. intros [|n] s F; discriminate F.
    - assert (M : (i <= fst (ref_step height (side_sig hf height seed sd) i c) <= 2 ^ N.of_nat height)%N /\
        forall s, snd (ref_step height (side_sig hf height seed sd) i c) = ObsSig s -> (sig_index s < fst (ref_step height (side_sig hf height seed sd) i c))%N).
      { destruct c as [m|j]; cbn [ref_step].
        - destruct (i <? 2 ^ N.of_nat height)%N eqn:E; cbn [fst snd].
          + apply N.ltb_lt in E. split; [lia|]. intros s F. assert (side_sig hf height seed sd (N.to_nat i) m = s) as <- by congruence. rewrite HI by exact E. lia.
          + split; [lia|discriminate].
        - destruct (j <? 2 ^ N.of_nat height)%N eqn:E; cbn [andb]; [|cbn [fst snd]; split; [lia|discriminate]]. apply N.ltb_lt in E.
          destruct (i <=? j)%N eqn:E2; cbn [fst snd]; [apply N.leb_le in E2|]; (split; [lia|discriminate]). }
      destruct (ref_step height (side_sig hf height seed sd) i c) as [i1 y]. cbn [fst snd] in M. destruct M as (M1 & M2).
      specialize (IH i1 ltac:(lia)). destruct (one_signer height (side_sig hf height seed) i1 cs) as [i2 xs]. cbn [fst snd] in *.
      destruct IH as (I1 & I2 & I3). split; [exact I1|]. split; [lia|]. intros [|n] s F; cbn [nth_error] in F; [|exact (I3 n s F)].
      destruct y as [s'|j'|e']; cbn [of_obs] in F; try discriminate F. assert (s' = s) as -> by congruence. specialize (M2 s eq_refl). lia. }
  specialize (T (concat (map stay_calls l)) 0%N ltac:(lia)). 
  destruct (one_signer height (side_sig hf height seed) 0 (concat (map stay_calls l))) as [i os] eqn:Eo. cbn [fst snd] in *.
  exists (mkPaper t i), os. split; [exact HM|]. split; [reflexivity|]. split; [apply T|]. split; [|intros n1 n2 s1 s2 Hlt; exact (R n1 n2 s1 s2 HI Hlt)].
  intros n s F. destruct (G n s F) as (sd & m & k & G1 & G2 & G3). exists sd, m. split; [exact G1|]. split; [apply (proj2 (proj2 T) n s F)|].
  assert (Hk : N.to_nat k < 2 ^ height) by (rewrite <- pow_N_nat; lia).
  pose proof (cfg_of _ _ _ _ _ _ 0%N HS) as HC.
  assert (Epk : getPK (xf_base x) = c_pk (mkCfg hf (rs_hash_u8 hf) 16 0 height seed) w16 0).
  { destruct (XmssFast_new_spec junk seed height (rs_hash_u8 hf) hf 0 HS) as (x' & Ex' & HI'). rewrite Ex in Ex'. apply Ok_inj in Ex'. subst x'.
    destruct HI' as (-> & _). reflexivity. }
  rewrite Epk, G2. destruct sd; cbn [side_sig].
  - exact (c_sig_verifies _ w16 HC (N.to_nat k) 0%N m Hk).
  - pose proof (rust_sig_verifies hf W16 w16 height seed HS (N.to_nat k) m Hk) as V.
    assert (Hs : signable hf m).
    { apply nth_error_In in G1. apply in_concat in G1. destruct G1 as (cl & H1 & H2). apply in_map_iff in H1. destruct H1 as (st & <- & H1).
      destruct st as [jk cs|cs]; cbn [stay_calls] in H2; apply in_map_iff in H2; destruct H2 as (c & H2 & H3); [discriminate H2|].
      assert (c = OpSign m) as -> by congruence. exact (Hm cs m H1 H3). }
    specialize (V Hs). rewrite (rust_pk_cpp hf W16 w16 height seed HS) in V. exact V.
Qed.

(** The messages excluded above really stop the port: at any index of the wallet, a stay
    with the port that signs first a message the port cannot hash ends in a panic (and
    the wallet on paper is as it was); the same stay with the C++ library goes through. *)
Theorem C101_port_panics : forall junk hf height seed, supported (rs_hash_u8 hf) hf 16 w16 height seed -> all_bytes seed ->
  exists x t, XmssFast_new junk seed (N.of_nat height) (rs_hash_u8 hf) 0 = Ok x /\ bin2mnemonic (getExtendedSeed (xf_base x)) = Ok t /\
    forall i m cs, (i < 2 ^ N.of_nat height)%N -> ~ signable hf m ->
      make_stay (StayRust (OpSign m :: cs)) (mkPaper t i) = None /\
      exists s p os, make_stay (StayCpp junk (OpSign m :: cs)) (mkPaper t i) = Some (p, MSig s :: os) /\
        p_words p = t /\ (i < p_next p)%N /\ sig_index s = i /\ verify m s (getPK (xf_base x)) 16 = Ok true.
Proof.
  intros junk hf height seed HS Hb. destruct (ext_words hf height seed HS Hb) as (t & E1 & E2 & E3 & E4).
  destruct (XmssFast_new_spec junk seed height (rs_hash_u8 hf) hf 0 HS) as (x & Ex & HIx).
  assert (Ees : getExtendedSeed (xf_base x) = descr_getBytes (mkDescr (rs_hash_u8 hf) 0 (N.of_nat height) 0) ++ seed) by (destruct HIx as (-> & _); reflexivity).
  assert (Epk : getPK (xf_base x) = c_pk (mkCfg hf (rs_hash_u8 hf) 16 0 height seed) w16 0) by (destruct HIx as (-> & _); reflexivity).
  exists x, t. split; [exact Ex|]. split; [rewrite Ees; exact E1|]. intros i m cs Hi Hm. split.
  - cbn [make_stay]. unfold rust_stay. cbn [p_words p_next]. rewrite E4. cbn [rbind].
    destruct (rs_ext_spec hf height seed HS) as (o & Eo & HI). rewrite (ext_rust hf height seed HS), Eo. cbn [rbind].
    destruct (rust_set_index hf W16 w16 height seed (rcfg_ok hf W16 w16 height seed HS) o 0 i HI) as (y & Ey & HIy & _). rewrite Ey. cbn [rbind].
    rewrite (proj2 (N.ltb_lt _ _) Hi), (proj2 (N.leb_le _ _) (N.le_0_l i)) in *. cbn [andb] in *. cbn [rs_run rs_step].
    destruct (rust_sign hf W16 w16 height seed (rcfg_ok hf W16 w16 height seed HS) y i m HIy Hi) as (_ & P). rewrite (P Hm). reflexivity.
  - pose proof (cpp_stay_spec hf height seed HS t junk (OpSign m :: cs) i E1 E2 ltac:(lia)) as R. cbn [ref_run ref_step] in R.
    rewrite (proj2 (N.ltb_lt _ _) Hi) in R. pose proof (ref_run_mono height (side_sig hf height seed Cpp) cs (i + 1)) as M.
    destruct (ref_run height (side_sig hf height seed Cpp) (i + 1) cs) as [i' os]. cbn [fst] in M.
    exists (side_sig hf height seed Cpp (N.to_nat i) m), (mkPaper t i'), (map of_obs os). cbn [make_stay]. rewrite R. split; [reflexivity|].
    split; [reflexivity|]. split; [cbn [p_next]; lia|]. split; [apply (sg_index (rs_hash_u8 hf) hf height seed 0 HS ltac:(lia)); exact Hi|].
    rewrite Epk. pose proof (cfg_of _ _ _ _ _ _ 0%N HS) as HC. apply (c_sig_verifies _ w16 HC (N.to_nat i) 0%N m). cbn [c_height]. rewrite <- pow_N_nat. lia.
Qed.

Example C101_hypotheses :
  supported (rs_hash_u8 SHAKE_256) SHAKE_256 16 w16 10 (repeat 7%N 48) /\ all_bytes (repeat 7%N 48) /\
  (let l := [StayCpp [] [OpSign [1%N]; OpSetIndex 5; OpSign [2%N]]; StayRust [OpSign [3%N]; OpSetIndex 2; OpSetIndex 1023; OpSign [4%N]]; StayCpp [170%N] [OpSign [5%N]]] in
   (forall cs m, In (StayRust cs) l -> In (OpSign m) cs -> signable SHAKE_256 m) /\
   one_signer 10 (fun s i m => match s with Cpp => 0%N | Rust => 1%N end :: N.of_nat i :: m) 0 (concat (map stay_calls l))
     = (1024%N, [MSig [0; 0; 1]; MIdx 5; MSig [0; 5; 2]; MSig [1; 6; 3]; MRefused; MIdx 1023; MSig [1; 1023; 4]; MRefused]%N)).
Proof.
  split; [unfold supported; repeat split; cbn; lia|]. split; [repeat constructor|]. split; [|reflexivity].
  intros cs m [F|[F|[F|[]]]] Hin; try discriminate F. assert (cs = [OpSign [3%N]; OpSetIndex 2; OpSetIndex 1023; OpSign [4%N]]) as -> by congruence.
  destruct Hin as [G|[G|[G|[G|[]]]]]; try discriminate G; (injection G as <-; cbn; lia).
Qed.
Example C101_moves_are_invisible_case := C101_moves_are_invisible [170%N] _ _ _ (proj1 C101_hypotheses) (proj1 (proj2 C101_hypotheses)).
Example C101_moved_signatures_case := C101_moved_signatures [170%N] _ _ _ (proj1 C101_hypotheses) (proj1 (proj2 C101_hypotheses)).
Example C101_port_panics_case := C101_port_panics [170%N] _ _ _ (proj1 C101_hypotheses) (proj1 (proj2 C101_hypotheses)).
Example C101_unsignable : ~ signable SHAKE_256 (repeat 1%N 200).
Proof. cbn. lia. Qed.
Example C62_rust_extended_seed_key_case := C62_rust_extended_seed_key _ _ _ (proj1 C101_hypotheses).
