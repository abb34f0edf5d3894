(** C103: one wallet, both libraries, crashes. *)
From Coq Require Import List NArith Arith Lia Bool.
From Verif Require Import Base Bytes Keccak KeccakLemmas HashAddress Wots XmssCommon AlgsXmss AlgsXmssFast Descriptor
  SpecXmss SpecApi XmssObj XmssRefine WotsProofs TreeProofs BasicProofs BdsProofs FastProofs DescrProofs VerifyProofs PropObj PropKeys PropCtor Session PropSession
  Misc PropMisc RsBase RsShake RsHash RsWots RsAlgs RsFast SpecRust RsObj RsMisc RsSimTree RsVerifyProofs RsObjProofs PropRust PropRust2 PropRust4 PropRsMisc SpecMove Migrate PropMigrate MixSession.
Import ListNotations.
Open Scope nat_scope.

Section Mix.
  Variables (hf : hashfn) (height : nat) (seed words : list N).
  Hypothesis HS : supported (rs_hash_u8 hf) hf 16 w16 height seed.
  Local Notation hash := (rs_hash_u8 hf).
  Local Notation ext := (descr_getBytes (mkDescr hash 0 (N.of_nat height) 0) ++ seed).
  Local Notation top := (2 ^ N.of_nat height)%N.
  Local Notation sg := (side_sig hf height seed).
  Hypothesis W2 : mnemonic2bin words = Ok ext.
  Hypothesis W4 : rs_mnemonic2bin words = ROk ext.

  Definition handle_at (i : N) (x : handle) : Prop :=
    match x with
    | HCpp x => live_at hash hf height seed 0 i x
    | HRust o => rust_inv hf W16 w16 height seed i o
    end.
  Lemma side_index : forall s i m, (i < top)%N -> sig_index (sg s (N.to_nat i) m) = i.
  Proof. intros s i m Hi. destruct s; apply (sg_index hash hf height seed 0 HS ltac:(lia)); exact Hi. Qed.

  (** Strictly increasing indices below the end of the key. *)
  Fixpoint mincr (b : N) (l : list (side * list N * list N)) : Prop :=
    match l with
    | [] => True
    | (sd, m, s) :: r => exists i, (b <= i < top)%N /\ (sd = Rust -> signable hf m) /\ s = sg sd (N.to_nat i) m /\ mincr (i + 1) r
    end.
  Fixpoint mend (b : N) (l : list (side * list N * list N)) : N :=
    match l with [] => b | (_, s) :: r => mend (sig_index s + 1) r end.
  Lemma mincr_app : forall l b sd m i, mincr b l -> (mend b l <= i < top)%N -> (sd = Rust -> signable hf m) -> mincr b (l ++ [(sd, m, sg sd (N.to_nat i) m)]).
  Proof.
    induction l as [|[[sd0 m0] s0] l IH]; intros b sd m i HI He Hm; cbn [mincr mend app] in *.
    - exists i. auto.
    - destruct HI as (j & Hj & Hs & -> & HI). exists j. split; [exact Hj|]. split; [exact Hs|]. split; [reflexivity|].
      rewrite side_index in He by lia. apply IH; auto.
  Qed.
  Lemma mend_app : forall l b x s, mend b (l ++ [(x, s)]) = (sig_index s + 1)%N.
  Proof. induction l as [|[x0 s0] l IH]; intros; cbn [mend app]; auto. Qed.

  Definition mix_ok (a : mixst) : Prop :=
    mincr 0 (mx_out a) /\ (mend 0 (mx_out a) <= mx_saved a <= top)%N /\
    match mx_live a with None => True | Some x => exists i, handle_at i x /\ (mx_saved a <= i)%N end.
  Lemma kill_ok : forall a, mix_ok a -> mix_ok (kill a).
  Proof. intros a (H1 & H2 & _). split; [exact H1|]. split; [exact H2|exact I]. Qed.
  Lemma relive_ok : forall a x i, mix_ok a -> handle_at i x -> (mx_saved a <= i)%N -> mix_ok (mkMix (mx_saved a) (mx_out a) (Some x)).
  Proof. intros a x i (H1 & H2 & _) HI Hi. split; [exact H1|]. split; [exact H2|]. exists i. auto. Qed.

  Lemma mix_start_spec : forall s junk a, exists a', mix_start words s junk a = Some a' /\
    ((mx_saved a < top)%N -> exists x, a' = mkMix (mx_saved a) (mx_out a) (Some x) /\ handle_at (mx_saved a) x /\
       match x with HCpp _ => Cpp | HRust _ => Rust end = s) /\
    (~ (mx_saved a < top)%N -> a' = kill a).
  Proof.
    intros s junk a. destruct s; unfold mix_start.
    - rewrite W2. cbn [bind]. destruct (sess_ext hash hf height seed 0 HS ltac:(lia) junk) as (x & -> & HI). cbn [bind].
      destruct (sess_set hash hf height seed 0 HS 0 (mx_saved a) x HI) as (y & Hy).
      destruct (mx_saved a <? top)%N eqn:E; cbn [andb] in Hy; [apply N.ltb_lt in E|apply N.ltb_nlt in E].
      + rewrite (proj2 (N.leb_le _ _) (N.le_0_l _)) in Hy. destruct Hy as (-> & Hy). eexists. split; [reflexivity|]. split; [|tauto].
        intros _. exists (HCpp y). auto.
      + destruct Hy as ((e & ->) & _). eexists. split; [reflexivity|]. split; [tauto|reflexivity].
    - rewrite W4. cbn [rbind]. destruct (rs_ext_spec hf height seed HS) as (o & Eo & HI). rewrite (ext_rust hf height seed HS), Eo. cbn [rbind].
      destruct (rust_set_index hf W16 w16 height seed (rcfg_ok hf W16 w16 height seed HS) o 0 (mx_saved a) HI) as (y & -> & HIy & _).
      destruct (mx_saved a <? top)%N eqn:E; cbn [andb] in *; [apply N.ltb_lt in E|apply N.ltb_nlt in E].
      + rewrite (proj2 (N.leb_le _ _) (N.le_0_l _)) in *. eexists. split; [reflexivity|]. split; [|tauto].
        intros _. exists (HRust y). auto.
      + eexists. split; [reflexivity|]. split; [tauto|reflexivity].
  Qed.
  Lemma mix_start_ok : forall s junk a, mix_ok a -> exists a', mix_start words s junk a = Some a' /\ mix_ok a'.
  Proof.
    intros s junk a HA. destruct (mix_start_spec s junk a) as (a' & E & L & K). exists a'. split; [exact E|].
    assert (D : ~ (mx_saved a < top)%N \/ (mx_saved a < top)%N) by lia. destruct D as [D|D].
    - rewrite (K D). apply kill_ok. exact HA.
    - destruct (L D) as (x & -> & Hx & _). apply (relive_ok a x (mx_saved a) HA Hx). lia.
  Qed.
  (** What a call on a live object does. *)
  Lemma mix_sign : forall sf a x i m c, mx_live a = Some x -> handle_at i x -> (i < top)%N ->
    let sd := match x with HCpp _ => Cpp | HRust _ => Rust end in
    (sd = Rust -> signable hf m) ->
    exists y, mix_step sf words a (MSign m c) = Some (mix_release sf a y (i + 1) (sd, m, sg sd (N.to_nat i) m) c) /\ handle_at (i + 1) y /\
      match x, y with HCpp _, HCpp _ => True | HRust _, HRust _ => True | _, _ => False end.
  Proof.
    intros sf a x i m c El HI Hi sd Hm. unfold mix_step. rewrite El. destruct x as [x|o]; subst sd.
    - destruct (sess_sign hash hf height seed 0 HS i m x HI) as (y & Hy). rewrite (proj2 (N.ltb_lt _ _) Hi) in Hy. destruct Hy as (-> & Hy).
      rewrite (sess_index hash hf height seed 0 HS _ _ Hy). exists (HCpp y). split; [reflexivity|]. split; [exact Hy|exact I].
    - destruct (rust_sign hf W16 w16 height seed (rcfg_ok hf W16 w16 height seed HS) o i m HI Hi) as (A & _).
      destruct (A (Hm eq_refl)) as (y & -> & Hy). destruct (inv_key hf W16 w16 height seed HS _ y Hy) as (_ & -> & _).
      exists (HRust y). split; [reflexivity|]. split; [exact Hy|exact I].
  Qed.
  Lemma mix_step_ok : forall a e, mix_ok a -> exists a', mix_step true words a e = Some a' /\ mix_ok a'.
  Proof.
    intros a e HA. destruct e as [s junk|m cr|j|]; cbn [mix_step].
    - apply mix_start_ok. exact HA.
    - pose proof HA as (H1 & H2 & H3). destruct (mx_live a) as [x|] eqn:El; [|exists a; auto].
      destruct H3 as (i & HI & Hi).
      assert (D : ~ (i < top)%N \/ (i < top)%N) by lia. destruct D as [D|D].
      + destruct x as [x|o].
        * destruct (sess_sign hash hf height seed 0 HS i m x HI) as (y & Hy). rewrite (proj2 (N.ltb_nlt _ _) D) in Hy. destruct Hy as ((e & ->) & ->).
          eexists. split; [reflexivity|]. exact (relive_ok a (HCpp x) i HA HI Hi).
        * rewrite (rust_sign_end hf W16 w16 height seed (rcfg_ok hf W16 w16 height seed HS) o i m HI D).
          eexists. split; [reflexivity|]. exact (relive_ok a (HRust o) i HA HI Hi).
      + assert (P : (exists o, x = HRust o /\ ~ signable hf m) \/ (match x with HCpp _ => Cpp | HRust _ => Rust end = Rust -> signable hf m)).
        { destruct x as [x|o]; [right; discriminate|]. destruct (signable_dec hf m); [now right|left; eauto]. }
        destruct P as [(o & -> & Hn)|Hm].
        * destruct (rust_sign hf W16 w16 height seed (rcfg_ok hf W16 w16 height seed HS) o i m HI D) as (_ & B). rewrite (B Hn).
          eexists. split; [reflexivity|]. apply kill_ok. exact HA.
        * destruct (mix_sign true a x i m cr El HI D Hm) as (y & E & Hy & _). unfold mix_step in E. rewrite El in E. rewrite E.
          eexists. split; [reflexivity|]. destruct cr; unfold mix_release.
          -- apply kill_ok. exact HA.
          -- split; [exact H1|]. split; [cbn [mx_saved mx_out]; lia|exact I].
          -- unfold mix_ok. cbn [mx_out mx_saved mx_live]. split; [apply mincr_app; auto; lia|]. rewrite mend_app, side_index by exact D.
             split; [lia|]. exists (i + 1)%N. split; [exact Hy|lia].
    - pose proof HA as (H1 & H2 & H3). destruct (mx_live a) as [x|] eqn:El; [|exists a; auto].
      destruct H3 as (i & HI & Hi). destruct x as [x|o].
      + destruct (sess_set hash hf height seed 0 HS i j x HI) as (y & Hy). destruct ((j <? top) && (i <=? j))%N eqn:Ej.
        * apply andb_prop in Ej. destruct Ej as (_ & Ej). apply N.leb_le in Ej. destruct Hy as (-> & Hy). eexists. split; [reflexivity|].
          apply (relive_ok a (HCpp y) j HA Hy). lia.
        * destruct Hy as ((e & ->) & ->). eexists. split; [reflexivity|]. exact (relive_ok a (HCpp x) i HA HI Hi).
      + destruct (rust_set_index hf W16 w16 height seed (rcfg_ok hf W16 w16 height seed HS) o i j HI) as (y & -> & HIy & _).
        eexists. split; [reflexivity|]. destruct ((j <? top) && (i <=? j))%N eqn:Ej.
        * apply andb_prop in Ej. destruct Ej as (_ & Ej). apply N.leb_le in Ej. apply (relive_ok a (HRust y) j HA HIy). lia.
        * exact (relive_ok a (HRust y) i HA HIy Hi).
    - eexists. split; [reflexivity|]. apply kill_ok. exact HA.
  Qed.
  Lemma mix_run_ok : forall l a, mix_ok a -> exists a', mix_run true words a l = Some a' /\ mix_ok a'.
  Proof.
    induction l as [|e l IH]; intros a HA; cbn [mix_run]; [eauto|].
    destruct (mix_step_ok a e HA) as (a1 & -> & HA1). apply IH. exact HA1.
  Qed.
  Lemma mix_new_ok : mix_ok mix_new.
  Proof. split; [exact I|]. split; [cbn; lia|exact I]. Qed.

  Lemma mincr_facts : forall l b, mincr b l ->
    (b <= mend b l)%N /\
    (forall n sd m s, nth_error l n = Some (sd, m, s) ->
       (b <= sig_index s < top)%N /\ (sig_index s < mend b l)%N /\ (sd = Rust -> signable hf m) /\ s = sg sd (N.to_nat (sig_index s)) m) /\
    (forall n1 n2 x1 s1 x2 s2, n1 < n2 -> nth_error l n1 = Some (x1, s1) -> nth_error l n2 = Some (x2, s2) -> (sig_index s1 < sig_index s2)%N).
  Proof.
    induction l as [|[[sd m] s] l IH]; intros b HI; cbn [mincr mend] in *.
    - split; [lia|]. split; [intros [|n] ? ? ? F; discriminate F|intros [|n1] ? ? ? ? ? _ F; discriminate F].
    - destruct HI as (i & Hi & Hs & -> & HI). rewrite side_index by lia. destruct (IH _ HI) as (G0 & G1 & G2). split; [lia|]. split.
      + intros [|n] sd' m' s' F; cbn [nth_error] in F.
        * assert (sd = sd' /\ m = m' /\ sg sd (N.to_nat i) m = s') as (<- & <- & <-) by (repeat split; congruence). rewrite side_index by lia.
          split; [lia|]. split; [lia|]. auto.
        * destruct (G1 n sd' m' s' F) as (A & B & C). split; [lia|]. auto.
      + intros [|n1] [|n2] x1 s1 x2 s2 Hlt F1 F2; cbn [nth_error] in F1, F2; try lia.
        * assert (sg sd (N.to_nat i) m = s1) as <- by congruence. rewrite side_index by lia. destruct x2 as [sd2 m2]. destruct (G1 n2 sd2 m2 s2 F2). lia.
        * apply (G2 n1 n2 x1 s1 x2 s2); auto. lia.
  Qed.
End Mix.

(** The words of a key: made by either library they are the same, and either reads them
    back as the same key (C101). *)
Lemma mix_words : forall junk hf height seed, supported (rs_hash_u8 hf) hf 16 w16 height seed -> all_bytes seed ->
  exists x o words, XmssFast_new junk seed (N.of_nat height) (rs_hash_u8 hf) 0 = Ok x /\ bin2mnemonic (getExtendedSeed (xf_base x)) = Ok words /\
    rs_fast_new seed (N.of_nat height) (Some hf) (Some W16) = ROk o /\ rs_bin2mnemonic (rs_get_extended_seed (rfa_base o)) = ROk words /\
    getPK (xf_base x) = c_pk (mkCfg hf (rs_hash_u8 hf) 16 0 height seed) w16 0 /\
    mnemonic2bin words = Ok (descr_getBytes (mkDescr (rs_hash_u8 hf) 0 (N.of_nat height) 0) ++ seed) /\
    rs_mnemonic2bin words = ROk (descr_getBytes (mkDescr (rs_hash_u8 hf) 0 (N.of_nat height) 0) ++ seed).
Proof.
  intros junk hf height seed HS Hb.
  destruct (C62_rust_key_is_cpp_key junk hf height seed HS) as (o & x & Eo & Ex & _ & _ & Ee & _).
  destruct (ext_words hf height seed HS Hb) as (t & E1 & E2 & E3 & E4).
  destruct (XmssFast_new_spec junk seed height (rs_hash_u8 hf) hf 0 HS) as (x' & Ex' & HI). rewrite Ex in Ex'. apply Ok_inj in Ex'. subst x'.
  assert (Ees : getExtendedSeed (xf_base x) = descr_getBytes (mkDescr (rs_hash_u8 hf) 0 (N.of_nat height) 0) ++ seed) by (destruct HI as (-> & _); reflexivity).
  assert (Epk : getPK (xf_base x) = c_pk (mkCfg hf (rs_hash_u8 hf) 16 0 height seed) w16 0) by (destruct HI as (-> & _); reflexivity).
  exists x, o, t. split; [exact Ex|]. rewrite Ee, Ees. auto 10.
Qed.

(** A wallet that stores the index before it releases a signature, whichever library it
    is started with each time, whatever it signs or skips, wherever it crashes, and even
    where the port panics on a message: nothing goes wrong, the indices of all the
    signatures it ever hands out increase strictly and stay below the stored index, and
    each signature is accepted under the one public key by the library that made it. *)
Theorem C103_mixed_life : forall junk hf height seed, supported (rs_hash_u8 hf) hf 16 w16 height seed -> all_bytes seed ->
  exists x o words, XmssFast_new junk seed (N.of_nat height) (rs_hash_u8 hf) 0 = Ok x /\ bin2mnemonic (getExtendedSeed (xf_base x)) = Ok words /\
    rs_fast_new seed (N.of_nat height) (Some hf) (Some W16) = ROk o /\ rs_bin2mnemonic (rs_get_extended_seed (rfa_base o)) = ROk words /\
    forall l, exists a, mix_run true words mix_new l = Some a /\
      (forall n1 n2 x1 s1 x2 s2, n1 < n2 -> nth_error (mx_out a) n1 = Some (x1, s1) -> nth_error (mx_out a) n2 = Some (x2, s2) ->
         (sig_index s1 < sig_index s2)%N) /\
      (forall sd m s, In (sd, m, s) (mx_out a) ->
         (sig_index s < mx_saved a)%N /\
         match sd with
         | Cpp => verify m s (getPK (xf_base x)) 16 = Ok true
         | Rust => rs_verify m s (getPK (xf_base x)) (Some W16) = ROk tt
         end) /\
      (mx_saved a <= 2 ^ N.of_nat height)%N.
Proof.
  intros junk hf height seed HS Hb. destruct (mix_words junk hf height seed HS Hb) as (x & o & t & Ex & Et & Eo & Er & Epk & W2 & W4).
  exists x, o, t. split; [exact Ex|]. split; [exact Et|]. split; [exact Eo|]. split; [exact Er|]. intros l.
  destruct (mix_run_ok hf height seed t HS W2 W4 l mix_new (mix_new_ok hf height seed)) as (a & E & (H1 & H2 & _)).
  exists a. split; [exact E|]. destruct (mincr_facts hf height seed HS (mx_out a) 0 H1) as (_ & G1 & G2).
  split; [exact G2|]. split; [|lia]. intros sd m s Hin. apply In_nth_error in Hin. destruct Hin as (n & Hn). destruct (G1 n sd m s Hn) as (B1 & B2 & B3 & B4).
  split; [lia|]. pose proof (cfg_of _ _ _ _ _ _ 0%N HS) as HC. rewrite Epk.
  assert (Hk : N.to_nat (sig_index s) < 2 ^ height) by (rewrite <- pow_N_nat; lia).
  destruct sd; cbn [side_sig] in B4; rewrite B4.
  - exact (c_sig_verifies _ w16 HC (N.to_nat (sig_index s)) 0%N m Hk).
  - pose proof (rust_sig_verifies hf W16 w16 height seed HS (N.to_nat (sig_index s)) m Hk (B3 eq_refl)) as V.
    rewrite (rust_pk_cpp hf W16 w16 height seed HS) in V. exact V.
Qed.

(** Released before it is stored: a crash in between and a restart with the other
    library signs two messages with one one-time key, in either direction. *)
Theorem C103_release_before_store_reuses : forall junk hf height seed, supported (rs_hash_u8 hf) hf 16 w16 height seed -> all_bytes seed ->
  exists x words, XmssFast_new junk seed (N.of_nat height) (rs_hash_u8 hf) 0 = Ok x /\ bin2mnemonic (getExtendedSeed (xf_base x)) = Ok words /\
    forall sd1 sd2 m1 m2, (sd1 = Rust -> signable hf m1) -> (sd2 = Rust -> signable hf m2) ->
    exists a s1 s2,
      mix_run false words mix_new [MStart sd1 junk; MSign m1 BetweenActions; MStart sd2 junk; MSign m2 NoCrash] = Some a /\
      mx_out a = [(sd1, m1, s1); (sd2, m2, s2)] /\ sig_index s1 = 0%N /\ sig_index s2 = 0%N /\ mx_saved a = 1%N.
Proof.
  intros junk hf height seed HS Hb. destruct (mix_words junk hf height seed HS Hb) as (x & o & t & Ex & Et & Eo & Er & Epk & W2 & W4).
  exists x, t. split; [exact Ex|]. split; [exact Et|]. intros sd1 sd2 m1 m2 S1 S2.
  assert (Htop : (0 < 2 ^ N.of_nat height)%N) by (apply N.neq_0_lt_0, N.pow_nonzero; lia).
  destruct (mix_start_spec hf height seed t HS W2 W4 sd1 junk mix_new) as (a1 & E1 & L1 & _).
  destruct (L1 Htop) as (x1 & -> & HI1 & T1). cbn [mx_saved mx_out mix_new] in *.
  destruct (mix_sign hf height seed t HS false (mkMix 0 [] (Some x1)) x1 0%N m1 BetweenActions eq_refl HI1 Htop ltac:(rewrite T1; exact S1)) as (y1 & E2 & _ & _).
  rewrite T1 in E2. cbn [mix_release mx_saved mx_out app] in E2.
  set (a2 := mkMix 0 [(sd1, m1, side_sig hf height seed sd1 (N.to_nat 0) m1)] None) in *.
  destruct (mix_start_spec hf height seed t HS W2 W4 sd2 junk a2) as (a3 & E3 & L3 & _).
  destruct (L3 Htop) as (x3 & -> & HI3 & T3). change (mx_saved a2) with 0%N in *.
  destruct (mix_sign hf height seed t HS false (mkMix 0 (mx_out a2) (Some x3)) x3 0%N m2 NoCrash eq_refl HI3 Htop ltac:(rewrite T3; exact S2)) as (y3 & E4 & _ & _).
  rewrite T3 in E4. cbn [mix_release mx_saved mx_out] in E4. change (0 + 1)%N with 1%N in E4.
  exists (mkMix 1 (mx_out a2 ++ [(sd2, m2, side_sig hf height seed sd2 (N.to_nat 0) m2)]) (Some y3)),
    (side_sig hf height seed sd1 (N.to_nat 0) m1), (side_sig hf height seed sd2 (N.to_nat 0) m2).
  split.
  - cbn [mix_run]. change (mix_step false t mix_new (MStart sd1 junk)) with (mix_start t sd1 junk mix_new). rewrite E1, E2.
    change (mix_step false t a2 (MStart sd2 junk)) with (mix_start t sd2 junk a2). rewrite E3, E4. reflexivity.
  - split; [reflexivity|]. split; [apply (side_index hf height seed HS); exact Htop|]. split; [apply (side_index hf height seed HS); exact Htop|reflexivity].
Qed.

(** A life across both libraries: a signature of each side, with crashes, is not ruled
    out. *)
Theorem C103_safe_life : forall junk hf height seed, supported (rs_hash_u8 hf) hf 16 w16 height seed -> all_bytes seed ->
  exists x words, XmssFast_new junk seed (N.of_nat height) (rs_hash_u8 hf) 0 = Ok x /\ bin2mnemonic (getExtendedSeed (xf_base x)) = Ok words /\
    forall sd1 sd2 m0 m1 m2, (sd1 = Rust -> signable hf m0 /\ signable hf m1) -> (sd2 = Rust -> signable hf m2) ->
    exists a s1 s2,
      mix_run true words mix_new [MStart sd1 junk; MSign m0 BetweenActions; MStart sd1 junk; MSign m1 NoCrash; MCrash; MStart sd2 junk; MSign m2 NoCrash; MCrash] = Some a /\
      mx_out a = [(sd1, m1, s1); (sd2, m2, s2)] /\ sig_index s1 = 1%N /\ sig_index s2 = 2%N /\ mx_saved a = 3%N /\ mx_live a = None.
Proof.
  intros junk hf height seed HS Hb. destruct (mix_words junk hf height seed HS Hb) as (x & o & t & Ex & Et & Eo & Er & Epk & W2 & W4).
  exists x, t. split; [exact Ex|]. split; [exact Et|]. intros sd1 sd2 m0 m1 m2 S1 S2.
  assert (Htop : (3 < 2 ^ N.of_nat height)%N).
  { assert (4 <= height) by (pose proof HS as (H1 & H2 & H3); lia). apply N.lt_le_trans with (2 ^ 4)%N; [reflexivity|]. apply N.pow_le_mono_r; lia. }
  pose proof (mix_start_spec hf height seed t HS W2 W4) as ST. pose proof (mix_sign hf height seed t HS true) as SG.
  destruct (ST sd1 junk mix_new) as (a1 & E1 & L1 & _). cbn [mx_saved mx_out mix_new] in L1. destruct (L1 ltac:(lia)) as (x1 & -> & H1 & T1). clear L1.
  destruct (SG (mkMix 0 [] (Some x1)) x1 0%N m0 BetweenActions eq_refl H1 ltac:(lia) ltac:(rewrite T1; intros F; exact (proj1 (S1 F)))) as (y1 & E2 & _).
  cbn [mix_release mx_saved mx_out] in E2. change (0 + 1)%N with 1%N in E2.
  destruct (ST sd1 junk (mkMix 1 [] None)) as (a3 & E3 & L3 & _). cbn [mx_saved mx_out] in L3. destruct (L3 ltac:(lia)) as (x3 & -> & H3 & T3). clear L3.
  destruct (SG (mkMix 1 [] (Some x3)) x3 1%N m1 NoCrash eq_refl H3 ltac:(lia) ltac:(rewrite T3; intros F; exact (proj2 (S1 F)))) as (y3 & E4 & _).
  rewrite T3 in E4. cbn [mix_release mx_saved mx_out app] in E4. change (1 + 1)%N with 2%N in E4.
  set (out := [(sd1, m1, side_sig hf height seed sd1 (N.to_nat 1) m1)]) in *.
  destruct (ST sd2 junk (mkMix 2 out None)) as (a5 & E5 & L5 & _). cbn [mx_saved mx_out] in L5. destruct (L5 ltac:(lia)) as (x5 & -> & H5 & T5). clear L5.
  destruct (SG (mkMix 2 out (Some x5)) x5 2%N m2 NoCrash eq_refl H5 ltac:(lia) ltac:(rewrite T5; exact S2)) as (y5 & E6 & _).
  rewrite T5 in E6. cbn [mix_release mx_saved mx_out] in E6. change (2 + 1)%N with 3%N in E6.
  exists (mkMix 3 (out ++ [(sd2, m2, side_sig hf height seed sd2 (N.to_nat 2) m2)]) None),
    (side_sig hf height seed sd1 (N.to_nat 1) m1), (side_sig hf height seed sd2 (N.to_nat 2) m2).
  split.
  - cbn [mix_run].
    change (mix_step true t mix_new (MStart sd1 junk)) with (mix_start t sd1 junk mix_new). rewrite E1, E2.
    change (mix_step true t (mkMix 1 [] None) (MStart sd1 junk)) with (mix_start t sd1 junk (mkMix 1 [] None)). rewrite E3, E4.
    change (mix_step true t (mkMix 2 out (Some y3)) MCrash) with (Some (mkMix 2 out None)). cbv beta iota.
    change (mix_step true t (mkMix 2 out None) (MStart sd2 junk)) with (mix_start t sd2 junk (mkMix 2 out None)). rewrite E5, E6. reflexivity.
  - split; [reflexivity|]. split; [apply (side_index hf height seed HS); lia|]. split; [apply (side_index hf height seed HS); lia|]. split; reflexivity.
Qed.

Example C103_mixed_life_case := C103_mixed_life [170%N] _ _ _ (proj1 C101_hypotheses) (proj1 (proj2 C101_hypotheses)).
Example C103_release_before_store_reuses_case := C103_release_before_store_reuses [170%N] _ _ _ (proj1 C101_hypotheses) (proj1 (proj2 C101_hypotheses)).
Example C103_safe_life_case := C103_safe_life [170%N] _ _ _ (proj1 C101_hypotheses) (proj1 (proj2 C101_hypotheses)).
