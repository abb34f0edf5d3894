(** C81: crashes and restarts. *)
(** Concrete cases for the hypotheses below: CasesXmss.v and CasesMisc.v. *)
From Coq Require Import List NArith Arith Lia Bool.
From Verif Require Import Base Bytes Keccak KeccakLemmas HashAddress Wots XmssCommon AlgsXmss AlgsXmssFast Descriptor
  SpecXmss SpecApi XmssObj XmssRefine WotsProofs TreeProofs BasicProofs BdsProofs FastProofs DescrProofs VerifyProofs PropObj PropKeys Session.
Import ListNotations.
Open Scope nat_scope.

Section Sess.
  Variables (hash : N) (hf : hashfn) (height : nat) (seed : list N) (fmt : N).
  Hypothesis HS : supported hash hf 16 w16 height seed.
  Hypothesis Hf : (fmt < 16)%N.
  Let c := mkCfg hf hash 16 fmt height seed.
  Let HC : cfg_ok c w16 := cfg_of _ _ _ _ _ _ fmt HS.
  Local Notation sg := (ref_sig hf w16 height seed).
  Local Notation top := (2 ^ N.of_nat height)%N.
  Local Notation ext := (descr_getBytes (mkDescr hash 0 (N.of_nat height) fmt) ++ seed).
  Local Notation bk := (mkBackup seed (N.of_nat height) hash fmt ext).

  Definition live_at (i : N) (x : xfast) : Prop := fast_inv c w16 i x.

  Lemma sess_new : forall junk, exists x, XmssFast_new junk seed (N.of_nat height) hash fmt = Ok x /\ live_at 0 x.
  Proof. intros junk. apply (XmssFast_new_spec junk seed height hash hf fmt HS). Qed.
  Lemma sess_ext : forall junk, exists x, XmssFast_from_extended_seed junk ext = Ok x /\ live_at 0 x.
  Proof.
    intros junk. destruct (initialize_tree_spec c w16 HC junk) as (z & Ez & HIz). exists z. split; [|exact HIz].
    unfold XmssFast_from_extended_seed. rewrite (extended_seed_parse hash hf height seed fmt HS Hf). exact Ez.
  Qed.
  Lemma sess_set : forall i j x, live_at i x -> exists y,
    (if ((j <? top) && (i <=? j))%N then xfast_setIndex x j = Ok (y, inr j) /\ live_at j y
     else (exists e, xfast_setIndex x j = Ok (y, inl e)) /\ y = x).
  Proof.
    intros i j x HI. destruct (step_spec c w16 HC x i (OpSetIndex j) HI) as (y & Ey & HI' & He). cbn [step ref_step] in *.
    change (c_height c) with height in *.
    destruct (xfast_setIndex x j) as [[o r]|e|]; cbn [bind] in Ey; try discriminate.
    apply Ok_inj, pair_equal_spec in Ey. destruct Ey as [-> Ey]. exists y.
    destruct ((j <? top) && (i <=? j))%N; cbn [fst snd] in *.
    - destruct r as [e|q]; [discriminate|]. injection Ey as ->. split; [reflexivity|exact HI'].
    - destruct r as [e|q]; [|discriminate]. split; [eauto|]. apply (He InvalidArgument). reflexivity.
  Qed.
  Lemma sess_sign : forall i m x, live_at i x -> exists y,
    (if (i <? top)%N then xfast_sign x m = Ok (y, inr (sg (N.to_nat i) m)) /\ live_at (i + 1) y
     else (exists e, xfast_sign x m = Ok (y, inl e)) /\ y = x).
  Proof.
    intros i m x HI. destruct (step_spec c w16 HC x i (OpSign m) HI) as (y & Ey & HI' & He). cbn [step ref_step] in *.
    change (c_height c) with height in *. change (c_sig c w16) with sg in *.
    destruct (xfast_sign x m) as [[o r]|e|]; cbn [bind] in Ey; try discriminate.
    apply Ok_inj, pair_equal_spec in Ey. destruct Ey as [-> Ey]. exists y.
    destruct (i <? top)%N; cbn [fst snd] in *.
    - destruct r as [e|q]; [discriminate|]. assert (q = sg (N.to_nat i) m) by congruence. subst q. split; [reflexivity|exact HI'].
    - destruct r as [e|q]; [|discriminate]. split; [eauto|]. apply (He InvalidArgument). reflexivity.
  Qed.
  Lemma sg_index : forall i m, (i < top)%N -> sig_index (sg (N.to_nat i) m) = i.
  Proof.
    intros i m Hi. unfold sig_index, ref_sig, signature. rewrite (firstn_app_exact _ 4) by apply to_byte_length.
    rewrite N2Nat.id. apply from_be_to_byte4. pose proof (pow_H_bound c w16 HC) as Hp. cbn [c c_height] in Hp.
    change (2 ^ 32)%N with 4294967296%N. change (2 ^ 30)%N with 1073741824%N in *. lia.
  Qed.
  Lemma sess_index : forall i x, live_at i x -> getIndex (xf_base x) = i.
  Proof. intros i x HI. exact (inv_getIndex hash hf height seed fmt HS _ _ HI). Qed.

  (** Strictly increasing indices below a bound. *)
  Fixpoint incr (b : N) (l : list (list N * list N)) : Prop :=
    match l with
    | [] => True
    | (m, s) :: r => exists i, (b <= i < top)%N /\ s = sg (N.to_nat i) m /\ incr (i + 1) r
    end.
  Fixpoint end_of (b : N) (l : list (list N * list N)) : N :=
    match l with [] => b | (_, s) :: r => end_of (sig_index s + 1) r end.
  Lemma incr_app : forall l b m i, incr b l -> (end_of b l <= i < top)%N -> incr b (l ++ [(m, sg (N.to_nat i) m)]).
  Proof.
    induction l as [|[m0 s0] l IH]; intros b m i HI He; cbn [incr end_of app] in *.
    - exists i. auto.
    - destruct HI as (j & Hj & -> & HI). exists j. split; [exact Hj|]. split; [reflexivity|]. rewrite sg_index in He by lia. apply IH; auto.
  Qed.
  Lemma end_app : forall l b m s, end_of b (l ++ [(m, s)]) = (sig_index s + 1)%N.
  Proof. induction l as [|[m0 s0] l IH]; intros; cbn [end_of app]; auto. Qed.

  Definition app_ok (a : appst) : Prop :=
    incr 0 (handed_out a) /\ (end_of 0 (handed_out a) <= saved a <= top)%N /\
    match live a with None => True | Some x => exists i, live_at i x /\ (saved a <= i)%N end.

  Lemma restore_ok : forall a x, app_ok a -> live_at 0 x -> exists a', restore false a x = Ok a' /\ app_ok a'.
  Proof.
    intros a x (H1 & H2 & H3) HI. unfold restore. destruct (sess_set 0 (saved a) x HI) as (y & Hy).
    destruct ((saved a <? top) && (0 <=? saved a))%N.
    - destruct Hy as (-> & Hy). cbn [bind]. eexists. split; [reflexivity|]. split; [exact H1|]. split; [exact H2|]. cbn [live saved]. exists (saved a). split; [exact Hy|lia].
    - destruct Hy as ((e & ->) & _). cbn [bind]. eexists. split; [reflexivity|]. split; [exact H1|]. split; [exact H2|exact I].
  Qed.
  Lemma app_step_ok : forall a e, app_ok a -> exists a', app_step true false bk a e = Ok a' /\ app_ok a'.
  Proof.
    intros a e HA. destruct e as [junk|junk|m cr|j|]; cbn [app_step k_seed k_height k_hash k_fmt k_ext].
    - destruct (sess_new junk) as (x & -> & HI). cbn [bind]. apply restore_ok; auto.
    - destruct (sess_ext junk) as (x & -> & HI). cbn [bind]. apply restore_ok; auto.
    - destruct HA as (H1 & H2 & H3). destruct (live a) as [x|] eqn:El.
      2:{ exists a. split; [reflexivity|]. split; [exact H1|]. split; [exact H2|]. rewrite El. exact I. }
      destruct H3 as (i & HI & Hi). destruct (sess_sign i m x HI) as (y & Hy). destruct (i <? top)%N eqn:Ei.
      + apply N.ltb_lt in Ei. destruct Hy as (-> & Hy). cbn [bind]. rewrite (sess_index _ _ Hy).
        destruct cr; eexists; (split; [reflexivity|]); unfold app_ok; cbn [handed_out saved live].
        * auto.
        * split; [exact H1|]. split; [lia|exact I].
        * split; [apply incr_app; auto; lia|]. rewrite end_app, sg_index by exact Ei. split; [lia|]. exists (i + 1)%N. split; [exact Hy|lia].
      + destruct Hy as ((e & ->) & ->). cbn [bind]. eexists. split; [reflexivity|]. split; [exact H1|]. split; [exact H2|]. cbn [live]. eauto.
    - destruct HA as (H1 & H2 & H3). destruct (live a) as [x|] eqn:El.
      2:{ exists a. split; [reflexivity|]. split; [exact H1|]. split; [exact H2|]. rewrite El. exact I. }
      destruct H3 as (i & HI & Hi). destruct (sess_set i j x HI) as (y & Hy). destruct ((j <? top) && (i <=? j))%N eqn:Ej.
      + apply andb_prop in Ej. destruct Ej as (_ & Ej). apply N.leb_le in Ej. destruct Hy as (-> & Hy). cbn [bind]. eexists. split; [reflexivity|].
        split; [exact H1|]. split; [exact H2|]. cbn [live saved]. exists j. split; [exact Hy|lia].
      + destruct Hy as ((e & ->) & ->). cbn [bind]. eexists. split; [reflexivity|]. split; [exact H1|]. split; [exact H2|]. cbn [live saved]. eauto.
    - destruct HA as (H1 & H2 & H3). eexists. split; [reflexivity|]. split; [exact H1|]. split; [exact H2|exact I].
  Qed.
  Lemma app_run_ok : forall l a, app_ok a -> exists a', app_run true false bk a l = Ok a' /\ app_ok a'.
  Proof.
    induction l as [|e l IH]; intros a HA; cbn [app_run]; [eauto|].
    destruct (app_step_ok a e HA) as (a1 & -> & HA1). cbn [bind]. apply IH. exact HA1.
  Qed.
  Lemma start_ok : app_ok app_start.
  Proof. split; [exact I|]. split; [|exact I]. cbn. lia. Qed.

  Lemma incr_facts : forall l b, incr b l ->
    (forall n m s, nth_error l n = Some (m, s) -> (b <= sig_index s < top)%N /\ s = sg (N.to_nat (sig_index s)) m) /\
    (forall n1 n2 m1 s1 m2 s2, n1 < n2 -> nth_error l n1 = Some (m1, s1) -> nth_error l n2 = Some (m2, s2) -> (sig_index s1 < sig_index s2)%N).
  Proof.
    induction l as [|[m s] l IH]; intros b HI; cbn [incr] in HI.
    - split; [intros [|n] ? ? F; discriminate F|intros [|n1] ? ? ? ? ? _ F; discriminate F].
    - destruct HI as (i & Hi & -> & HI). destruct (IH _ HI) as (G1 & G2). split.
      + intros [|n] m' s' F; cbn [nth_error] in F.
        * assert (m = m' /\ sg (N.to_nat i) m = s') as (<- & <-) by (split; congruence). rewrite sg_index by lia. auto.
        * destruct (G1 n m' s' F). split; [lia|auto].
      + intros [|n1] [|n2] m1 s1 m2 s2 Hlt F1 F2; cbn [nth_error] in F1, F2; try lia.
        * assert (sg (N.to_nat i) m = s1) as <- by congruence. rewrite sg_index by lia. destruct (G1 n2 m2 s2 F2). lia.
        * apply (G2 n1 n2 m1 s1 m2 s2); auto. lia.
  Qed.
End Sess.

(** If the application stores getIndex() before it hands a signature out: whatever the
    messages, skips, crashes and restarts, no call fails, all signatures ever handed out
    have different, strictly increasing indices, verify under the one public key, and lie
    below the stored index. *)
Theorem C81_store_before_release : forall junk seed height hash hf fmt, supported hash hf 16 w16 height seed -> (fmt < 16)%N ->
  exists x, XmssFast_new junk seed (N.of_nat height) hash fmt = Ok x /\
    forall l, exists a, app_run true false (mkBackup seed (N.of_nat height) hash fmt (getExtendedSeed (xf_base x))) app_start l = Ok a /\
      (forall n1 n2 m1 s1 m2 s2, n1 < n2 -> nth_error (handed_out a) n1 = Some (m1, s1) -> nth_error (handed_out a) n2 = Some (m2, s2) ->
         (sig_index s1 < sig_index s2)%N) /\
      (forall m s, In (m, s) (handed_out a) ->
         (sig_index s < saved a)%N /\ verify m s (getPK (xf_base x)) 16 = Ok true) /\
      (saved a <= 2 ^ N.of_nat height)%N.
Proof.
  intros junk seed height hash hf fmt HS Hf. pose proof (cfg_of _ _ _ _ _ _ fmt HS) as HC.
  destruct (XmssFast_new_spec junk seed height hash hf fmt HS) as (x & E & HI). exists x. split; auto.
  set (c := mkCfg hf hash 16 fmt height seed) in *.
  assert (Ees : getExtendedSeed (xf_base x) = descr_getBytes (mkDescr hash 0 (N.of_nat height) fmt) ++ seed)
    by (destruct HI as (-> & _); reflexivity).
  rewrite Ees. intros l.
  destruct (app_run_ok hash hf height seed fmt HS Hf l app_start (start_ok hash hf height seed fmt Hf)) as (a & -> & (H1 & H2 & _)).
  exists a. split; [reflexivity|]. destruct (incr_facts hash hf height seed fmt HS Hf _ _ H1) as (G1 & G2).
  split; [exact G2|]. split; [|lia]. intros m s Hin. apply In_nth_error in Hin. destruct Hin as (n & Hn). destruct (G1 n m s Hn) as (Hb & Hs). split.
  - assert (G : forall l b n m s, incr hf height seed b l -> nth_error l n = Some (m, s) -> (sig_index s < end_of b l)%N).
    { clear - HS Hf. induction l as [|[m0 s0] l IH]; intros b n m s HI F; [destruct n; discriminate|]. cbn [incr end_of] in *.
      destruct HI as (i & Hi & -> & HI).
      assert (Hs0 : sig_index (ref_sig hf w16 height seed (N.to_nat i) m0) = i) by (apply (sg_index hash hf height seed fmt HS Hf); lia). rewrite Hs0.
      assert (Hmono : forall l b, incr hf height seed b l -> (b <= end_of b l)%N).
      { clear - HS Hf. induction l as [|[m s] l IH]; intros b HI; cbn [incr end_of] in *; [lia|]. destruct HI as (j & Hj & -> & HI).
        rewrite (sg_index hash hf height seed fmt HS Hf) by lia. specialize (IH _ HI). lia. }
      destruct n as [|n]; cbn [nth_error] in F.
      - assert (ref_sig hf w16 height seed (N.to_nat i) m0 = s) as <- by congruence. rewrite Hs0. specialize (Hmono _ _ HI). lia.
      - exact (IH _ _ _ _ HI F). }
    specialize (G _ _ _ _ _ H1 Hn). lia.
  - assert (Epk : getPK (xf_base x) = c_pk c w16 0) by (destruct HI as (-> & _); reflexivity). rewrite Epk, Hs.
    apply (c_sig_verifies c w16 HC (N.to_nat (sig_index s)) 0%N m). cbn [c c_height]. rewrite <- pow_N_nat. lia.
Qed.

(** In the other order a crash between the two actions makes the next run sign another
    message with the same one-time key. *)
Theorem C81_release_before_store_reuses : forall junk seed height hash hf fmt, supported hash hf 16 w16 height seed -> (fmt < 16)%N ->
  exists x, XmssFast_new junk seed (N.of_nat height) hash fmt = Ok x /\
    forall m1 m2, exists a s1 s2,
      app_run false false (mkBackup seed (N.of_nat height) hash fmt (getExtendedSeed (xf_base x))) app_start
        [EStart junk; ESign m1 BetweenActions; EStartExt junk; ESign m2 NoCrash] = Ok a /\
      handed_out a = [(m1, s1); (m2, s2)] /\ sig_index s1 = sig_index s2.
Proof.
  intros junk seed height hash hf fmt HS Hf. pose proof (cfg_of _ _ _ _ _ _ fmt HS) as HC.
  destruct (XmssFast_new_spec junk seed height hash hf fmt HS) as (x & E & HI). exists x. split; auto.
  set (c := mkCfg hf hash 16 fmt height seed) in *.
  assert (Ees : getExtendedSeed (xf_base x) = descr_getBytes (mkDescr hash 0 (N.of_nat height) fmt) ++ seed)
    by (destruct HI as (-> & _); reflexivity).
  rewrite Ees. intros m1 m2.
  assert (Htop : (0 < 2 ^ N.of_nat height)%N) by (apply N.neq_0_lt_0, N.pow_nonzero; lia).
  assert (Hlt : (0 <? 2 ^ N.of_nat height)%N = true) by now apply N.ltb_lt.
  destruct (sess_set hash hf height seed fmt HS 0 0 x HI) as (x1 & Hx1). rewrite Hlt in Hx1. cbn [andb N.leb N.compare] in Hx1. destruct Hx1 as (Ex1 & Lx1).
  destruct (sess_sign hash hf height seed fmt HS 0 m1 x1 Lx1) as (x2 & Hx2). rewrite Hlt in Hx2. destruct Hx2 as (Ex2 & _).
  destruct (sess_ext hash hf height seed fmt HS Hf junk) as (x3 & Ex3 & Lx3).
  destruct (sess_set hash hf height seed fmt HS 0 0 x3 Lx3) as (x4 & Hx4). rewrite Hlt in Hx4. cbn [andb N.leb N.compare] in Hx4. destruct Hx4 as (Ex4 & Lx4).
  destruct (sess_sign hash hf height seed fmt HS 0 m2 x4 Lx4) as (x5 & Hx5). rewrite Hlt in Hx5. destruct Hx5 as (Ex5 & _).
  do 3 eexists. split; [|split].
  - unfold app_start. cbn [app_run app_step k_seed k_height k_hash k_fmt k_ext]. rewrite E. cbn [bind]. unfold restore at 1. cbn [saved handed_out live]. rewrite Ex1. cbn [bind app_step live saved handed_out].
    rewrite Ex2. cbn [bind app_step live saved handed_out k_ext app]. rewrite Ex3. cbn [bind]. unfold restore at 1. cbn [saved handed_out live]. rewrite Ex4. cbn [bind app_step live saved handed_out].
    rewrite Ex5. cbn [bind app]. reflexivity.
  - reflexivity.
  - rewrite !(sg_index hash hf height seed fmt HS Hf) by exact Htop. reflexivity.
Qed.

(** A spent key cannot be restored: setIndex(2^height) throws.  An application that
    carries on after the exception signs with one-time key 0 again. *)
Theorem C81_spent_key_restored_carelessly : forall junk seed height hash hf fmt, supported hash hf 16 w16 height seed -> (fmt < 16)%N ->
  exists x, XmssFast_new junk seed (N.of_nat height) hash fmt = Ok x /\
    let k := mkBackup seed (N.of_nat height) hash fmt (getExtendedSeed (xf_base x)) in
    forall out m, let spent := mkApp (2 ^ N.of_nat height) out None in
      app_run true false k spent [EStart junk; ESign m NoCrash] = Ok spent /\
      exists a s, app_run true true k spent [EStart junk; ESign m NoCrash] = Ok a /\
        handed_out a = out ++ [(m, s)] /\ sig_index s = 0%N /\ saved a = 1%N.
Proof.
  intros junk seed height hash hf fmt HS Hf. pose proof (cfg_of _ _ _ _ _ _ fmt HS) as HC.
  destruct (XmssFast_new_spec junk seed height hash hf fmt HS) as (x & E & HI). exists x. split; auto.
  intros k out m spent.
  assert (Htop : (0 < 2 ^ N.of_nat height)%N) by (apply N.neq_0_lt_0, N.pow_nonzero; lia).
  assert (Hlt : (0 <? 2 ^ N.of_nat height)%N = true) by now apply N.ltb_lt.
  destruct (sess_set hash hf height seed fmt HS 0 (2 ^ N.of_nat height) x HI) as (x1 & Hx1). rewrite N.ltb_irrefl in Hx1. cbn [andb] in Hx1. destruct Hx1 as ((e & Ex1) & ->).
  destruct (sess_sign hash hf height seed fmt HS 0 m x HI) as (x2 & Hx2). rewrite Hlt in Hx2. destruct Hx2 as (Ex2 & Lx2).
  split.
  - cbn [app_run app_step k k_seed k_height k_hash k_fmt]. rewrite E. cbn [bind]. unfold restore. cbn [spent saved handed_out live]. rewrite Ex1. cbn [bind app_step live]. reflexivity.
  - do 2 eexists. split.
    + cbn [app_run app_step k k_seed k_height k_hash k_fmt]. rewrite E. cbn [bind]. unfold restore. cbn [spent saved handed_out live]. rewrite Ex1. cbn [bind app_step live saved handed_out].
      rewrite Ex2. cbn [bind]. rewrite (sess_index hash hf height seed fmt HS _ _ Lx2). reflexivity.
    + cbn [handed_out saved]. split; [reflexivity|]. split; [|reflexivity]. apply (sg_index hash hf height seed fmt HS Hf). exact Htop.
Qed.

(** The safe order is not vacuous: a life with two crashes and both ways to restart hands
    out signatures 0 and 1. *)
Theorem C81_safe_life : forall junk seed height hash hf fmt, supported hash hf 16 w16 height seed -> (fmt < 16)%N ->
  exists x, XmssFast_new junk seed (N.of_nat height) hash fmt = Ok x /\
    forall m1 m2, exists a s1 s2,
      app_run true false (mkBackup seed (N.of_nat height) hash fmt (getExtendedSeed (xf_base x))) app_start
        [EStart junk; ESign m1 NoCrash; ECrash; EStartExt junk; ESign m2 NoCrash; ECrash] = Ok a /\
      handed_out a = [(m1, s1); (m2, s2)] /\ sig_index s1 = 0%N /\ sig_index s2 = 1%N /\ saved a = 2%N /\ live a = None.
Proof.
  intros junk seed height hash hf fmt HS Hf. pose proof (cfg_of _ _ _ _ _ _ fmt HS) as HC.
  destruct (XmssFast_new_spec junk seed height hash hf fmt HS) as (x & E & HI). exists x. split; auto.
  set (c := mkCfg hf hash 16 fmt height seed) in *.
  assert (Ees : getExtendedSeed (xf_base x) = descr_getBytes (mkDescr hash 0 (N.of_nat height) fmt) ++ seed)
    by (destruct HI as (-> & _); reflexivity).
  rewrite Ees. intros m1 m2.
  assert (Htop : (1 < 2 ^ N.of_nat height)%N).
  { assert (2 <= height) by (pose proof HS as (H1 & H2 & H3); lia). change 1%N with (2 ^ 0)%N. apply N.pow_lt_mono_r; lia. }
  assert (Hlt : (0 <? 2 ^ N.of_nat height)%N = true) by (apply N.ltb_lt; lia).
  assert (Hlt1 : (1 <? 2 ^ N.of_nat height)%N = true) by now apply N.ltb_lt.
  destruct (sess_set hash hf height seed fmt HS 0 0 x HI) as (x1 & Hx1). rewrite Hlt in Hx1. cbn [andb N.leb N.compare] in Hx1. destruct Hx1 as (Ex1 & Lx1).
  destruct (sess_sign hash hf height seed fmt HS 0 m1 x1 Lx1) as (x2 & Hx2). rewrite Hlt in Hx2. destruct Hx2 as (Ex2 & Lx2). change (0 + 1)%N with 1%N in Lx2.
  destruct (sess_ext hash hf height seed fmt HS Hf junk) as (x3 & Ex3 & Lx3).
  destruct (sess_set hash hf height seed fmt HS 0 1 x3 Lx3) as (x4 & Hx4). rewrite Hlt1 in Hx4. cbn [andb N.leb N.compare] in Hx4. destruct Hx4 as (Ex4 & Lx4).
  destruct (sess_sign hash hf height seed fmt HS 1 m2 x4 Lx4) as (x5 & Hx5). rewrite Hlt1 in Hx5. destruct Hx5 as (Ex5 & Lx5). change (1 + 1)%N with 2%N in Lx5.
  do 3 eexists. split; [|split; [|split; [|split; [|split]]]].
  - unfold app_start. cbn [app_run app_step k_seed k_height k_hash k_fmt k_ext]. rewrite E. cbn [bind]. unfold restore at 1. cbn [saved handed_out live]. rewrite Ex1. cbn [bind app_step live saved handed_out].
    rewrite Ex2. cbn [bind app_step live saved handed_out k_ext app]. rewrite (sess_index hash hf height seed fmt HS _ _ Lx2). rewrite Ex3. cbn [bind]. unfold restore at 1. cbn [saved handed_out live]. rewrite Ex4. cbn [bind app_step live saved handed_out].
    rewrite Ex5. cbn [bind app app_step saved handed_out]. rewrite (sess_index hash hf height seed fmt HS _ _ Lx5). reflexivity.
  - cbn [handed_out app]. reflexivity.
  - apply (sg_index hash hf height seed fmt HS Hf). lia.
  - apply (sg_index hash hf height seed fmt HS Hf). exact Htop.
  - reflexivity.
  - reflexivity.
Qed.

(** A crash after the index was stored costs one one-time key and hands nothing out; a
    crash before that leaves everything as it was. *)
Theorem C81_lost_signature : forall junk seed height hash hf fmt, supported hash hf 16 w16 height seed -> (fmt < 16)%N ->
  exists x, XmssFast_new junk seed (N.of_nat height) hash fmt = Ok x /\
    forall i out m careless, (i < 2 ^ N.of_nat height)%N ->
      let k := mkBackup seed (N.of_nat height) hash fmt (getExtendedSeed (xf_base x)) in
      app_run true careless k (mkApp i out None) [EStart junk; ESign m BetweenActions] = Ok (mkApp (i + 1) out None) /\
      app_run true careless k (mkApp i out None) [EStart junk; ESign m AfterSign] = Ok (mkApp i out None).
Proof.
  intros junk seed height hash hf fmt HS Hf. pose proof (cfg_of _ _ _ _ _ _ fmt HS) as HC.
  destruct (XmssFast_new_spec junk seed height hash hf fmt HS) as (x & E & HI). exists x. split; auto.
  intros i out m careless Hi k. pose proof (proj2 (N.ltb_lt _ _) Hi) as Hlt.
  destruct (sess_set hash hf height seed fmt HS 0 i x HI) as (x1 & Hx1). rewrite Hlt in Hx1.
  rewrite (proj2 (N.leb_le _ _) (N.le_0_l i)) in Hx1. cbn [andb] in Hx1. destruct Hx1 as (Ex1 & Lx1).
  destruct (sess_sign hash hf height seed fmt HS i m x1 Lx1) as (x2 & Hx2). rewrite Hlt in Hx2. destruct Hx2 as (Ex2 & Lx2).
  pose proof (sess_index hash hf height seed fmt HS _ _ Lx2) as E4.
  split; cbn [app_run app_step k k_seed k_height k_hash k_fmt]; rewrite E; cbn [bind]; unfold restore; cbn [saved handed_out live];
    rewrite Ex1; cbn [bind app_step live saved handed_out]; rewrite Ex2; cbn [bind]; [now rewrite E4|reflexivity].
Qed.
