(** C100: XmssBasic keys, crashes and restarts. *)
From Coq Require Import List NArith Arith Lia Bool.
From Verif Require Import Base Bytes Keccak KeccakLemmas HashAddress Wots XmssCommon AlgsXmss Descriptor
  SpecXmss SpecApi XmssObj XmssRefine WotsProofs TreeProofs BasicProofs FastProofs DescrProofs VerifyProofs PropMisc PropObj PropKeys PropBasicHist
  Session BasicSession.
Import ListNotations.
Open Scope nat_scope.

Section Sess.
  Variables (hash : N) (hf : hashfn) (w : N) (wp : nat * nat * nat) (height : nat) (seed : list N) (fmt : N).
  Hypothesis HS : supported hash hf w wp height seed.
  Hypothesis Hh : height <= 24.
  Let c := mkCfg hf hash w fmt height seed.
  Let HC : cfg_ok c wp := cfg_of _ _ _ _ _ _ fmt HS.
  Local Notation sg := (ref_sig hf wp height seed).
  Local Notation top := (2 ^ N.of_nat height)%N.
  Local Notation bk := (mkBB seed (N.of_nat height) hash fmt w).
  Local Notation ob := (c_obj c wp).

  Lemma bs_top : (top < 2 ^ 32)%N.
  Proof. apply N.pow_lt_mono_r; lia. Qed.
  Lemma bs_pos : (1 < top)%N.
  Proof. assert (4 <= height) by (pose proof HS as (_ & _ & G & _); lia). change 1%N with (2 ^ 0)%N. apply N.pow_lt_mono_r; lia. Qed.
  Lemma bs_index : forall i, (i < 2 ^ 32)%N -> getIndex (ob i) = i.
  Proof. apply bh_getIndex. exact HC. Qed.
  Lemma bs_new : forall junk, XmssBasic_new junk seed (N.of_nat height) hash fmt w = Ok (ob 0).
  Proof. intros junk. apply (XmssBasic_new_spec c wp HC junk). Qed.
  Lemma bs_sign : forall junk i m, (i < top)%N -> XmssBasic_sign junk (ob i) m = Ok (ob (i + 1), sg (N.to_nat i) m).
  Proof. intros junk i m Hi. apply (XmssBasic_sign_spec c wp HC); [cbn [c c_height]; lia|exact Hi]. Qed.
  Lemma bs_outside : forall junk i m, (top <= i < 2 ^ 32)%N -> XmssBasic_sign junk (ob i) m = UB.
  Proof. intros junk i m Hi. apply (bh_sign_outside c wp HC); auto. Qed.
  Lemma bs_number : forall i, getNumberSignatures (ob i) = Ok top.
  Proof.
    intros i. unfold getNumberSignatures. cbn [c_obj xb_height c c_height].
    assert (E : (32 <=? N.of_nat height)%N = false) by (apply N.leb_gt; lia). now rewrite E.
  Qed.
  Lemma bs_spent : forall t i, (i < 2 ^ 32)%N -> t <> NoTest -> (t = RemainingTest -> (i <= top)%N) ->
    is_spent t (ob i) = Ok (top <=? i)%N.
  Proof.
    intros t i Hi Ht Hr. destruct t; [congruence| |]; cbn [is_spent].
    - rewrite bs_number. cbn [bind]. now rewrite bs_index.
    - specialize (Hr eq_refl). unfold getRemainingSignatures. rewrite bs_number. cbn [bind]. rewrite bs_index by exact Hi.
      replace (top + 2 ^ 32 - i)%N with (top - i + 1 * 2 ^ 32)%N by lia. unfold u32. rewrite N.mod_add by discriminate.
      rewrite N.mod_small by (pose proof bs_top; lia). f_equal.
      destruct (top <=? i)%N eqn:E; [apply N.leb_le in E; apply N.eqb_eq; lia|apply N.leb_gt in E; apply N.eqb_neq; lia].
  Qed.
  Lemma bs_sg_index : forall i m, (i < top)%N -> sig_index (sg (N.to_nat i) m) = i.
  Proof.
    intros i m Hi. unfold sig_index, ref_sig, signature. rewrite (firstn_app_exact _ 4) by apply to_byte_length.
    rewrite N2Nat.id. apply from_be_to_byte4. pose proof bs_top. lia.
  Qed.

  (** What has been handed out, oldest first: indices increase, the last one is below [b]. *)
  Fixpoint rising (l : list (list N * list N)) (b : N) : Prop :=
    match l with
    | [] => True
    | (m, s) :: r => exists i, (i < top)%N /\ (i < b)%N /\ s = sg (N.to_nat i) m /\
                       (forall m' s', In (m', s') r -> (i < sig_index s')%N) /\ rising r b
    end.
  Lemma rising_mono : forall l b b', rising l b -> (b <= b')%N -> rising l b'.
  Proof.
    induction l as [|[m s] l IH]; intros b b' HR Hb; cbn [rising] in *; [exact I|].
    destruct HR as (i & H1 & H2 & H3 & H4 & H5). exists i. repeat (split; [auto; lia|]). exact (IH _ _ H5 Hb).
  Qed.
  Lemma rising_add : forall l i m, rising l i -> (i < top)%N -> rising (l ++ [(m, sg (N.to_nat i) m)]) (i + 1).
  Proof.
    induction l as [|[m0 s0] l IH]; intros i m HR Hi; cbn [rising app] in *.
    - exists i. split; [exact Hi|]. split; [lia|]. split; [reflexivity|]. split; [intros ? ? []|exact I].
    - destruct HR as (j & H1 & H2 & H3 & H4 & H5). exists j. split; [exact H1|]. split; [lia|]. split; [exact H3|]. split.
      + intros m' s' Hin. apply in_app_or in Hin. destruct Hin as [Hin|[E|[]]]; [exact (H4 _ _ Hin)|].
        assert (sg (N.to_nat i) m = s') as <- by congruence. rewrite bs_sg_index by exact Hi. exact H2.
      + apply IH; auto.
  Qed.
  Lemma rising_facts : forall l b, rising l b ->
    (forall m s, In (m, s) l -> (sig_index s < top)%N /\ (sig_index s < b)%N /\ s = sg (N.to_nat (sig_index s)) m) /\
    (forall n1 n2 m1 s1 m2 s2, n1 < n2 -> nth_error l n1 = Some (m1, s1) -> nth_error l n2 = Some (m2, s2) -> (sig_index s1 < sig_index s2)%N).
  Proof.
    induction l as [|[m s] l IH]; intros b HR; cbn [rising] in HR.
    - split; [intros ? ? []|intros [|n1] ? ? ? ? ? _ F; discriminate F].
    - destruct HR as (i & H1 & H2 & -> & H4 & H5). destruct (IH _ H5) as (G1 & G2). split.
      + intros m' s' [E|Hin]; [|exact (G1 _ _ Hin)].
        assert (m = m' /\ sg (N.to_nat i) m = s') as (<- & <-) by (split; congruence). rewrite bs_sg_index by exact H1. auto.
      + intros [|n1] [|n2] m1 s1 m2 s2 Hlt F1 F2; cbn [nth_error] in F1, F2; try lia.
        * assert (sg (N.to_nat i) m = s1) as <- by congruence. rewrite bs_sg_index by exact H1. apply (H4 m2). exact (nth_error_In _ _ F2).
        * apply (G2 n1 n2 m1 s1 m2 s2); auto. lia.
  Qed.

  Definition allowed (t : end_test) (e : bevent) : Prop :=
    match e with BSkip i => (i < 2 ^ 32)%N /\ (t = RemainingTest -> (i <= top)%N) | _ => True end.
  Definition bapp_ok (t : end_test) (a : bapp) : Prop :=
    rising (b_out a) (b_saved a) /\ (b_saved a <= top)%N /\
    match b_live a with
    | None => True
    | Some o => exists i, o = ob i /\ (b_saved a <= i < 2 ^ 32)%N /\ (t = RemainingTest -> (i <= top)%N)
    end.
  Lemma bapp_step_ok : forall t a e, t <> NoTest -> bapp_ok t a -> allowed t e ->
    exists a', bapp_step (mkPolicy true t true) bk a e = Ok a' /\ bapp_ok t a'.
  Proof.
    intros t a e Ht (H1 & H2 & H3) He. pose proof bs_top as Hb.
    destruct e as [junk|junk m cr|j|]; cbn [bapp_step b_seed b_height b_hash b_fmt b_w store_first end_check forward_only].
    - rewrite bs_new. cbn [bind]. eexists. split; [reflexivity|]. split; [exact H1|]. split; [exact H2|]. cbn [b_live b_saved].
      exists (b_saved a). split; [apply (bh_setIndex c wp)|]. split; [lia|auto].
    - destruct (b_live a) as [o|] eqn:El.
      2:{ exists a. split; [reflexivity|]. split; [exact H1|]. split; [exact H2|]. rewrite El. exact I. }
      destruct H3 as (i & -> & Hi & Hr). rewrite bs_spent by (auto; lia). cbn [bind]. destruct (top <=? i)%N eqn:Ei.
      + exists a. split; [reflexivity|]. split; [exact H1|]. split; [exact H2|]. rewrite El. eauto.
      + apply N.leb_gt in Ei. rewrite bs_sign by exact Ei. cbn [bind]. rewrite bs_index by lia.
        destruct cr; eexists; (split; [reflexivity|]); unfold bapp_ok; cbn [b_out b_saved b_live].
        * auto.
        * split; [apply (rising_mono _ (b_saved a)); auto; lia|]. split; [lia|exact I].
        * split; [apply rising_add; auto; apply (rising_mono _ (b_saved a)); auto; lia|]. split; [lia|].
          exists (i + 1)%N. split; [reflexivity|]. split; [lia|]. intros _. lia.
    - destruct (b_live a) as [o|] eqn:El.
      2:{ exists a. split; [reflexivity|]. split; [exact H1|]. split; [exact H2|]. rewrite El. exact I. }
      destruct H3 as (i & -> & Hi & Hr). rewrite bs_index by lia. cbn [andb]. destruct (j <? i)%N eqn:Ej.
      + exists a. split; [reflexivity|]. split; [exact H1|]. split; [exact H2|]. rewrite El. eauto.
      + apply N.ltb_ge in Ej. destruct He as (He & Her). eexists. split; [reflexivity|]. split; [exact H1|]. split; [exact H2|]. cbn [b_live b_saved].
        exists j. split; [apply (bh_setIndex c wp)|]. split; [lia|exact Her].
    - eexists. split; [reflexivity|]. split; [exact H1|]. split; [exact H2|exact I].
  Qed.
  Lemma bapp_run_ok : forall t l a, t <> NoTest -> bapp_ok t a -> Forall (allowed t) l ->
    exists a', bapp_run (mkPolicy true t true) bk a l = Ok a' /\ bapp_ok t a'.
  Proof.
    intros t. induction l as [|e l IH]; intros a Ht HA HF; cbn [bapp_run]; [eauto|]. inversion HF as [|? ? F1 F2]; subst.
    destruct (bapp_step_ok t a e Ht HA F1) as (a1 & -> & HA1). cbn [bind]. apply IH; auto.
  Qed.
  Lemma bapp_start_ok : forall t, bapp_ok t bapp_start.
  Proof. intros t. split; [exact I|]. split; [|exact I]. cbn. lia. Qed.

  Lemma bs_verifies : forall m s, (sig_index s < top)%N -> s = sg (N.to_nat (sig_index s)) m -> verify m s (getPK (ob 0)) w = Ok true.
  Proof.
    intros m s Hi Hs. rewrite Hs. apply (c_sig_verifies c wp HC (N.to_nat (sig_index s)) 0%N m). cbn [c c_height]. rewrite <- pow_N_nat. lia.
  Qed.
End Sess.

(** The application stores getIndex() before it hands a signature out, tests for the end
    of the key before it signs, and never sets the index back.  Whatever the messages,
    skips, crashes and restarts: no call is undefined, the signatures handed out have
    strictly increasing indices, all verify under the one public key, and lie below the
    stored index.  If the test is getRemainingSignatures() == 0 it must also not skip
    past the end. *)
Theorem C100_safe_policy : forall junk seed height hash hf fmt w wp t, supported hash hf w wp height seed -> height <= 24 -> t <> NoTest ->
  exists x, XmssBasic_new junk seed (N.of_nat height) hash fmt w = Ok x /\
    forall l, Forall bevent_ok l ->
      (t = RemainingTest -> forall i, In (BSkip i) l -> (i <= 2 ^ N.of_nat height)%N) ->
      exists a, bapp_run (mkPolicy true t true) (mkBB seed (N.of_nat height) hash fmt w) bapp_start l = Ok a /\
      (forall n1 n2 m1 s1 m2 s2, n1 < n2 -> nth_error (b_out a) n1 = Some (m1, s1) -> nth_error (b_out a) n2 = Some (m2, s2) ->
         (sig_index s1 < sig_index s2)%N) /\
      (forall m s, In (m, s) (b_out a) -> (sig_index s < b_saved a)%N /\ verify m s (getPK x) w = Ok true) /\
      (b_saved a <= 2 ^ N.of_nat height)%N.
Proof.
  intros junk seed height hash hf fmt w wp t HS Hh Ht. exists (c_obj (mkCfg hf hash w fmt height seed) wp 0).
  split; [apply (bs_new hash hf w wp height seed fmt HS)|]. intros l HF HR.
  destruct (bapp_run_ok hash hf w wp height seed fmt HS Hh t l bapp_start Ht (bapp_start_ok hash hf w wp height seed fmt Hh t)) as (a & E & (H1 & H2 & _)).
  { rewrite Forall_forall in *. intros e He. specialize (HF e He). destruct e; cbn [allowed bevent_ok] in *; auto. }
  exists a. split; [exact E|]. destruct (rising_facts hf wp height seed Hh _ _ H1) as (G1 & G2).
  split; [exact G2|]. split; [|exact H2]. intros m s Hin. destruct (G1 m s Hin) as (K1 & K2 & K3).
  split; [exact K2|]. apply (bs_verifies hash hf w wp height seed fmt HS Hh); auto.
Qed.

(** Unlike XmssFast (C81), a spent key can be restored, and such an application refuses
    to sign with it.  Without the test, signing with it is undefined. *)
Theorem C100_spent_key : forall junk seed height hash hf fmt w wp, supported hash hf w wp height seed -> height <= 24 ->
  forall out m junk' cr sf fo, let spent := mkBA (2 ^ N.of_nat height) out None in
    let k := mkBB seed (N.of_nat height) hash fmt w in
    (forall t, t <> NoTest -> exists o, bapp_run (mkPolicy sf t fo) k spent [BStart junk; BSign junk' m cr] = Ok (mkBA (2 ^ N.of_nat height) out (Some o)) /\
       getIndex o = (2 ^ N.of_nat height)%N /\ getRemainingSignatures o = Ok 0%N) /\
    bapp_run (mkPolicy sf NoTest fo) k spent [BStart junk; BSign junk' m cr] = UB.
Proof.
  intros junk seed height hash hf fmt w wp HS Hh out m junk' cr sf fo spent k. pose proof (bs_top height Hh) as Hb.
  set (c := mkCfg hf hash w fmt height seed). assert (E1 : forall t, bapp_step (mkPolicy sf t fo) k spent (BStart junk)
    = Ok (mkBA (2 ^ N.of_nat height) out (Some (c_obj c wp (2 ^ N.of_nat height))))).
  { intros t. cbn [bapp_step k b_seed b_height b_hash b_fmt b_w]. rewrite (bs_new hash hf w wp height seed fmt HS). cbn [bind spent b_saved b_out].
    now rewrite (bh_setIndex _ wp). }
  split.
  - intros t Ht. exists (c_obj c wp (2 ^ N.of_nat height)). cbn [bapp_run]. rewrite E1. cbn [bind bapp_step b_live end_check].
    rewrite (bs_spent hash hf w wp height seed fmt HS Hh) by (auto; lia). rewrite (proj2 (N.leb_le _ _) (N.le_refl _)). cbn [bind].
    split; [reflexivity|]. split; [apply (bs_index hash hf w wp height seed fmt HS); exact Hb|].
    unfold getRemainingSignatures. rewrite (bs_number hash hf w wp height seed fmt Hh). cbn [bind]. rewrite (bs_index hash hf w wp height seed fmt HS) by exact Hb.
    replace (2 ^ N.of_nat height + 2 ^ 32 - 2 ^ N.of_nat height)%N with (2 ^ 32)%N by lia. reflexivity.
  - cbn [bapp_run]. rewrite E1. cbn [bind bapp_step b_live end_check is_spent].
    rewrite (bs_outside hash hf w wp height seed fmt HS Hh) by lia. reflexivity.
Qed.

(** Each of the precautions is needed: signatures handed out first; the index set back
    (XmssBasic accepts it); the test getRemainingSignatures() == 0 after a skip past the
    end, where it wraps around. *)
Theorem C100_careless_policies : forall junk seed height hash hf fmt w wp, supported hash hf w wp height seed -> height <= 24 ->
  let k := mkBB seed (N.of_nat height) hash fmt w in
  (forall t fo m1 m2, t <> NoTest -> exists a s1 s2,
     bapp_run (mkPolicy false t fo) k bapp_start [BStart junk; BSign junk m1 BetweenActions; BStart junk; BSign junk m2 NoCrash] = Ok a /\
     b_out a = [(m1, s1); (m2, s2)] /\ sig_index s1 = 0%N /\ sig_index s2 = 0%N) /\
  (forall t sf m1 m2, t <> NoTest -> exists a s1 s2,
     bapp_run (mkPolicy sf t false) k bapp_start [BStart junk; BSign junk m1 NoCrash; BSkip 0; BSign junk m2 NoCrash] = Ok a /\
     b_out a = [(m1, s1); (m2, s2)] /\ sig_index s1 = 0%N /\ sig_index s2 = 0%N) /\
  (forall i m cr, (2 ^ N.of_nat height < i < 2 ^ 32)%N ->
     bapp_run (mkPolicy true RemainingTest true) k bapp_start [BStart junk; BSkip i; BSign junk m cr] = UB).
Proof.
  intros junk seed height hash hf fmt w wp HS Hh k. pose proof (bs_top height Hh) as Hb. pose proof (bs_pos hash hf w wp height seed HS Hh) as Hp.
  set (c := mkCfg hf hash w fmt height seed).
  assert (E1 : forall p a, bapp_step p k a (BStart junk) = Ok (mkBA (b_saved a) (b_out a) (Some (c_obj c wp (b_saved a))))).
  { intros p a. cbn [bapp_step k b_seed b_height b_hash b_fmt b_w]. rewrite (bs_new hash hf w wp height seed fmt HS). cbn [bind]. now rewrite (bh_setIndex _ wp). }
  assert (E2 : forall t m, t <> NoTest -> is_spent t (c_obj c wp 0) = Ok false /\
    XmssBasic_sign junk (c_obj c wp 0) m = Ok (c_obj c wp 1, ref_sig hf wp height seed 0 m)).
  { intros t m Ht. split.
    - rewrite (bs_spent hash hf w wp height seed fmt HS Hh) by (auto; lia). f_equal. apply N.leb_gt. lia.
    - apply (bs_sign hash hf w wp height seed fmt HS Hh junk 0%N m). lia. }
  assert (E3 : forall i, (i < 2 ^ 32)%N -> getIndex (c_obj c wp i) = i) by (apply (bs_index hash hf w wp height seed fmt HS)).
  assert (E4 : forall m, sig_index (ref_sig hf wp height seed 0 m) = 0%N) by (intros m; apply (bs_sg_index hf wp height seed Hh 0%N m); lia).
  split; [|split].
  - intros t fo m1 m2 Ht. destruct (E2 t m1 Ht) as (Q1 & Q2). destruct (E2 t m2 Ht) as (_ & Q3).
    do 3 eexists. split; [|split; [|split; [apply E4|apply E4]]].
    + cbn [bapp_run]. rewrite E1. cbn [bind]. cbn [bapp_step b_live bapp_start b_saved end_check b_out store_first]. rewrite Q1. cbn [bind]. rewrite Q2. cbn [bind].
      rewrite (bs_new hash hf w wp height seed fmt HS). cbn [bind]. rewrite (bh_setIndex _ wp). fold c. cbn [b_live b_saved b_out]. rewrite Q1. cbn [bind]. rewrite Q3. cbn [bind]. reflexivity.
    + reflexivity.
  - intros t sf m1 m2 Ht. destruct (E2 t m1 Ht) as (Q1 & Q2). destruct (E2 t m2 Ht) as (_ & Q3).
    do 3 eexists. split; [|split; [|split; [apply E4|apply E4]]].
    + cbn [bapp_run]. rewrite E1. cbn [bind]. cbn [bapp_step b_live bapp_start b_saved end_check b_out store_first forward_only]. rewrite Q1. cbn [bind]. rewrite Q2. cbn [bind b_live b_saved b_out andb].
      rewrite (bh_setIndex _ wp). fold c. cbn [b_live b_saved b_out]. rewrite Q1. cbn [bind]. rewrite Q3. cbn [bind]. reflexivity.
    + reflexivity.
  - intros i m cr Hi. cbn [bapp_run]. rewrite E1. cbn [bind]. cbn [bapp_step b_live bapp_start b_saved end_check b_out store_first forward_only andb].
    rewrite E3 by lia. assert (Ei : (i <? 0)%N = false) by (apply N.ltb_ge; lia). rewrite Ei. cbn [bind b_live]. rewrite (bh_setIndex _ wp). fold c.
    cbn [is_spent]. unfold getRemainingSignatures. rewrite (bs_number hash hf w wp height seed fmt Hh). cbn [bind]. rewrite E3 by lia.
    unfold u32. rewrite N.mod_small by lia. assert (Er : (2 ^ N.of_nat height + 2 ^ 32 - i =? 0)%N = false) by (apply N.eqb_neq; lia). rewrite Er. cbn [bind].
    unfold c. rewrite (bs_outside hash hf w wp height seed fmt HS Hh) by lia. reflexivity.
Qed.

(** From height 26 on no precaution helps: the first signature is undefined. *)
Theorem C100_tall_keys : forall junk seed height hash hf fmt w wp, supported hash hf w wp height seed -> 26 <= height ->
  exists x, XmssBasic_new junk seed (N.of_nat height) hash fmt w = Ok x /\
    forall p m cr, bapp_run p (mkBB seed (N.of_nat height) hash fmt w) bapp_start [BStart junk; BSign junk m cr] = UB.
Proof.
  intros junk seed height hash hf fmt w wp HS Hh. pose proof (cfg_of _ _ _ _ _ _ fmt HS) as HC. set (c := mkCfg hf hash w fmt height seed) in *.
  assert (Hm : height <= 30) by (pose proof HS as (_ & _ & G & _); lia).
  assert (Hp : (0 < 2 ^ N.of_nat height)%N) by (apply N.neq_0_lt_0, N.pow_nonzero; lia).
  exists (c_obj c wp 0). split; [apply (XmssBasic_new_spec c wp HC)|]. intros p m cr.
  cbn [bapp_run]. cbn [bapp_step b_seed b_height b_hash b_fmt b_w]. rewrite (XmssBasic_new_spec c wp HC junk : XmssBasic_new junk seed (N.of_nat height) hash fmt w = _). cbn [bind b_saved b_out bapp_start b_live].
  rewrite (bh_setIndex c wp). assert (Es : is_spent (end_check p) (c_obj c wp 0) = Ok false).
  { assert (En : getNumberSignatures (c_obj c wp 0) = Ok (2 ^ N.of_nat height)%N).
    { unfold getNumberSignatures. cbn [c_obj xb_height c c_height]. assert (E : (32 <=? N.of_nat height)%N = false) by (apply N.leb_gt; lia). now rewrite E. }
    assert (Hq : (2 ^ N.of_nat height < 2 ^ 32)%N) by (apply N.pow_lt_mono_r; lia).
    destruct (end_check p); cbn [is_spent]; [reflexivity| |].
    - rewrite En. cbn [bind]. rewrite (bh_getIndex c wp HC) by reflexivity. f_equal. apply N.leb_gt. exact Hp.
    - unfold getRemainingSignatures. rewrite En. cbn [bind]. rewrite (bh_getIndex c wp HC) by reflexivity. f_equal. apply N.eqb_neq.
      unfold u32. rewrite N.sub_0_r. replace (2 ^ N.of_nat height + 2 ^ 32)%N with (2 ^ N.of_nat height + 1 * 2 ^ 32)%N by lia. rewrite N.mod_add by discriminate.
      rewrite N.mod_small by exact Hq. lia. }
  rewrite Es. cbn [bind]. rewrite (bh_sign_high c wp HC) by exact Hh. reflexivity.
Qed.

Example C100_hypotheses :
  supported 2 SHAKE_256 256 (8, 32, 2) 24 (repeat 7%N 48) /\ supported 0 SHA2_256 4 (2, 128, 5) 28 (repeat 7%N 48) /\
  Forall bevent_ok [BStart []; BSkip (2 ^ 32 - 1); BSign [] [1%N] NoCrash; BCrash; BStart []; BSkip 16777216; BSign [] [1%N] NoCrash].
Proof.
  split; [|split]; [unfold supported; repeat split; cbn; lia|unfold supported; repeat split; cbn; lia|].
  repeat constructor.
Qed.

(** The safe policy hands signatures out: two, with a crash and a skip between them. *)
Theorem C100_safe_life : forall junk seed height hash hf fmt w wp t, supported hash hf w wp height seed -> height <= 24 -> t <> NoTest ->
  forall m1 m2, exists a s1 s2,
    bapp_run (mkPolicy true t true) (mkBB seed (N.of_nat height) hash fmt w) bapp_start
      [BStart junk; BSign junk m1 NoCrash; BCrash; BStart junk; BSkip 5; BSign junk m2 NoCrash; BCrash] = Ok a /\
    b_out a = [(m1, s1); (m2, s2)] /\ sig_index s1 = 0%N /\ sig_index s2 = 5%N /\ b_saved a = 6%N /\ b_live a = None.
Proof.
  intros junk seed height hash hf fmt w wp t HS Hh Ht m1 m2. pose proof (bs_top height Hh) as Hb.
  assert (Hp : (8 < 2 ^ N.of_nat height)%N).
  { assert (4 <= height) by (pose proof HS as (_ & _ & G & _); lia). change 8%N with (2 ^ 3)%N. apply N.pow_lt_mono_r; lia. }
  set (c := mkCfg hf hash w fmt height seed).
  assert (E1 : XmssBasic_new junk seed (N.of_nat height) hash fmt w = Ok (c_obj c wp 0)) by apply (bs_new hash hf w wp height seed fmt HS).
  assert (E2 : forall i m, (i < 8)%N -> is_spent t (c_obj c wp i) = Ok false /\
    XmssBasic_sign junk (c_obj c wp i) m = Ok (c_obj c wp (i + 1), ref_sig hf wp height seed (N.to_nat i) m)).
  { intros i m Hi. split.
    - unfold c. rewrite (bs_spent hash hf w wp height seed fmt HS Hh) by (auto; lia). f_equal. apply N.leb_gt. lia.
    - apply (bs_sign hash hf w wp height seed fmt HS Hh junk i m). lia. }
  assert (E3 : forall i, (i < 2 ^ 32)%N -> getIndex (c_obj c wp i) = i) by (apply (bs_index hash hf w wp height seed fmt HS)).
  destruct (E2 0%N m1 ltac:(lia)) as (A1 & A2). destruct (E2 5%N m2 ltac:(lia)) as (B1 & B2).
  change (0 + 1)%N with 1%N in A2. change (5 + 1)%N with 6%N in B2.
  do 3 eexists. split; [|split; [|split; [|split; [|split]]]].
  - unfold bapp_start. cbn [bapp_run bapp_step b_seed b_height b_hash b_fmt b_w b_saved b_out b_live end_check store_first forward_only andb]. rewrite E1. cbn [bind b_live b_saved b_out].
    rewrite (bh_setIndex _ wp). fold c. rewrite A1. cbn [bind]. rewrite A2. cbn [bind b_live b_saved b_out]. rewrite (E3 1%N) by reflexivity. rewrite (bh_setIndex _ wp). fold c.
    rewrite (E3 1%N) by reflexivity. cbn [N.ltb N.compare Pos.compare Pos.compare_cont b_live b_saved b_out bind]. rewrite (bh_setIndex _ wp). fold c.
    rewrite B1. cbn [bind]. rewrite B2. cbn [bind b_live b_saved b_out app]. rewrite (E3 6%N) by reflexivity. reflexivity.
  - reflexivity.
  - apply (bs_sg_index hf wp height seed Hh 0%N m1). lia.
  - apply (bs_sg_index hf wp height seed Hh 5%N m2). lia.
  - reflexivity.
  - reflexivity.
Qed.

Example C100_safe_policy_case := C100_safe_policy [170%N] _ _ _ _ 0%N _ _ IndexTest (proj1 C100_hypotheses) (le_n 24) ltac:(discriminate).
Example C100_safe_life_case := C100_safe_life [170%N] _ _ _ _ 0%N _ _ RemainingTest (proj1 C100_hypotheses) (le_n 24) ltac:(discriminate).
Example C100_spent_key_case := C100_spent_key [170%N] _ _ _ _ 0%N _ _ (proj1 C100_hypotheses) (le_n 24).
Example C100_careless_policies_case := C100_careless_policies [170%N] _ _ _ _ 0%N _ _ (proj1 C100_hypotheses) (le_n 24).
Example C100_tall_keys_case := C100_tall_keys [170%N] _ _ _ _ 0%N _ _ (proj1 (proj2 C100_hypotheses)) ltac:(lia).

(** A crash after the index was stored costs one one-time key and hands nothing out; a
    crash before that costs nothing: the next run signs with the same index, and the
    first signature never left. *)
Theorem C100_lost_signature : forall junk seed height hash hf fmt w wp t, supported hash hf w wp height seed -> height <= 24 -> t <> NoTest ->
  forall i out m1, (i < 2 ^ N.of_nat height)%N ->
    let k := mkBB seed (N.of_nat height) hash fmt w in
    bapp_run (mkPolicy true t true) k (mkBA i out None) [BStart junk; BSign junk m1 BetweenActions] = Ok (mkBA (i + 1) out None) /\
    bapp_run (mkPolicy true t true) k (mkBA i out None) [BStart junk; BSign junk m1 AfterSign] = Ok (mkBA i out None).
Proof.
  intros junk seed height hash hf fmt w wp t HS Hh Ht i out m1 Hi k. pose proof (bs_top height Hh) as Hb.
  set (c := mkCfg hf hash w fmt height seed).
  assert (E1 : XmssBasic_new junk seed (N.of_nat height) hash fmt w = Ok (c_obj c wp 0)) by apply (bs_new hash hf w wp height seed fmt HS).
  assert (E2 : is_spent t (c_obj c wp i) = Ok false).
  { unfold c. rewrite (bs_spent hash hf w wp height seed fmt HS Hh) by (auto; lia). f_equal. apply N.leb_gt. lia. }
  assert (E3 : XmssBasic_sign junk (c_obj c wp i) m1 = Ok (c_obj c wp (i + 1), ref_sig hf wp height seed (N.to_nat i) m1)).
  { apply (bs_sign hash hf w wp height seed fmt HS Hh junk i m1). exact Hi. }
  assert (E4 : getIndex (c_obj c wp (i + 1)) = (i + 1)%N) by (apply (bs_index hash hf w wp height seed fmt HS); lia).
  unfold k. split; cbn [bapp_run bapp_step b_seed b_height b_hash b_fmt b_w b_saved b_out b_live end_check store_first]; rewrite E1; cbn [bind b_live b_saved b_out];
    rewrite (bh_setIndex _ wp); fold c; rewrite E2; cbn [bind]; rewrite E3; cbn [bind]; [now rewrite E4|reflexivity].
Qed.
Example C100_lost_signature_case := C100_lost_signature [170%N] _ _ _ _ 0%N _ _ IndexTest (proj1 C100_hypotheses) (le_n 24) ltac:(discriminate) 5%N.
