(** C91: the pseudorandom function is called with the secret seeds as keys only, on inputs
    that say what is derived, and the message hash is called once per signature. *)
From Coq Require Import List NArith Arith Lia Bool Permutation.
From Verif Require Import Base Bytes Keccak HashAddress Wots XmssCommon AlgsXmss AlgsXmssFast Descriptor SpecXmss SpecApi
  SpecDomain SpecForge XmssObj XmssRefine WotsProofs TreeProofs BasicProofs BdsProofs FastProofs PropObj PropDomain
  Trace VerifyTrace SpecTweak SpecPrf TraceErase TraceProofs TraceProofs2 TraceProofs3 PropTweak TracePrf PropForge PropForge2 CasesXmss.
Import ListNotations.
Open Scope nat_scope.

Lemma word_slice : forall ws k, k < length ws -> slice (4 * k) 4 (concat (map (to_byte 4) ws)) = to_byte 4 (nth k ws 0%N).
Proof.
  induction ws as [|w ws IH]; intros k Hk; [cbn in Hk; lia|]. cbn [map concat]. destruct k as [|k]; unfold slice in *.
  - cbn [nth]. rewrite Nat.mul_0_r. change (skipn 0 ?l) with l. rewrite firstn_app, (firstn_all2 (n := 4)) by (rewrite to_byte_length; lia).
    rewrite to_byte_length. cbn [Nat.sub firstn]. apply app_nil_r.
  - replace (4 * S k) with (4 + 4 * k) by lia. rewrite skipn_app, skipn_all2 by (rewrite to_byte_length; lia). rewrite to_byte_length.
    replace (4 + 4 * k - 4) with (4 * k) by lia. cbn [app nth]. apply IH. cbn [length] in Hk. lia.
Qed.
Lemma zero_word : forall n, n < 2 ^ 20 -> to_byte 4 (N.of_nat n) = to_byte 4 0 -> n = 0.
Proof.
  intros n Hn E. apply to_byte_inj in E; [lia| |reflexivity]. change (256 ^ N.of_nat 4)%N with 4294967296%N.
  assert (2 ^ 20 <= N.to_nat 4294967296). { replace (Nat.pow 2 20) with (N.to_nat (2 ^ 20)) by (rewrite N2Nat.inj_pow; reflexivity). lia. }
  lia.
Qed.

Lemma ots_place : forall A wp h pl, ots_bytes A -> 2 ^ fst (fst wp) <= 2 ^ 20 -> snd (fst wp) + snd wp <= 2 ^ 20 -> In pl (key_places wp h) ->
  A = place_adr pl 0 -> (exists o c i, pl = Step o c i) -> exists o, o < 2 ^ h /\ A = adr 0 (N.of_nat o) 0 0 0.
Proof.
  intros A wp h pl (a & E5 & E6 & E7 & EA) B1 B2 Hin E (o & c & i & ->). cbn [place_adr] in E. exists o.
  assert (HB : o < 2 ^ h /\ c < snd (fst wp) + snd wp /\ i < 2 ^ fst (fst wp) - 1).
  { unfold key_places, tree_places in Hin. apply in_app_iff in Hin. destruct Hin as [Hin|Hin].
    - apply in_flat_map in Hin. destruct Hin as (o' & Ho & Hin). apply in_seq in Ho. unfold leaf_places in Hin. apply in_app_iff in Hin. destruct Hin as [Hin|Hin].
      + apply in_flat_map in Hin. destruct Hin as (c' & Hc & Hin). apply in_seq in Hc. apply in_map_iff in Hin. destruct Hin as (i' & Ei & Hi). apply in_seq in Hi.
        injection Ei as -> -> ->. lia.
      + exfalso. revert Hin. generalize (snd (fst wp) + snd wp) at 1 as f. generalize (snd (fst wp) + snd wp) as n. generalize 0 as j. 
        intros j n f. revert j n. induction f as [|f IH]; intros j n; cbn [lplaces]; destruct (n <=? 1); try (intros []).
        intros Hin. apply in_app_iff in Hin. destruct Hin as [Hin|Hin]; [|now apply IH in Hin]. apply in_map_iff in Hin. destruct Hin as (? & ? & _). discriminate.
    - apply in_flat_map in Hin. destruct Hin as (j & _ & Hin). apply in_map_iff in Hin. destruct Hin as (? & ? & _). discriminate. }
  destruct HB as (Ho & Hc & Hi). split; [exact Ho|].
  assert (ES : forall k, k < 8 -> to_byte 4 (nth k [0; 0; 0; 0; N.of_nat o; N.of_nat c; N.of_nat i; 0]%N 0%N) =
    to_byte 4 (nth k [HashAddress.a0 a; HashAddress.a1 a; HashAddress.a2 a; a3 a; a4 a; a5 a; a6 a; a7 a] 0%N)).
  { intros k Hk. rewrite <- !word_slice by (cbn [length]; lia). f_equal. unfold adr in E. rewrite <- E, EA. reflexivity. }
  pose proof (ES 5 ltac:(lia)) as S5. pose proof (ES 6 ltac:(lia)) as S6. cbn [nth] in S5, S6. rewrite E5 in S5. rewrite E6 in S6.
  apply zero_word in S5; [|lia]. apply zero_word in S6; [|lia]. subst c i. exact E.
Qed.

Lemma alw_ok : forall A B P (a : A) (k : A -> tres B), alw P (k a) -> alw P (tbind (tlift (Ok a)) k).
Proof. intros A B P a k. unfold tlift, tbind. cbn [bind]. destruct (k a) as [[b l]|e|]; auto. Qed.

Section Key.
  Variables (c : key_cfg) (wp : nat * nat * nat).
  Hypothesis HC : cfg_ok c wp.
  Local Notation p := (c_params c).
  Local Notation hf := (c_hf c).
  Local Notation H := (c_height c).
  Local Notation ssd := (key_seed (c_seed c)).
  Local Notation ps := (key_pub (c_seed c)).
  Local Notation len := (w_len (x_wots p)).
  Local Notation der := (derives hf wp H (c_seed c)).

  Lemma len_wp : len = snd (fst wp) + snd wp.
  Proof. destruct (wparams_ok _ _ (co_w _ _ HC)) as (_ & _ & E1 & E2 & _ & _ & _ & _ & E7). cbn [c_params x_wots]. exact E7. Qed.

  Lemma derives_at_adr : forall o e, o < 2 ^ H -> derives_at hf ssd len (adr 0 (N.of_nat o) 0 0 0) e -> der e.
  Proof.
    intros o e Ho [->|(k & Hk & ->)]; exists o; (split; [exact Ho|]); [now left|right]. exists k. rewrite <- len_wp. split; [exact Hk|].
    rewrite prf_PRF. reflexivity.
  Qed.
  Lemma linked_derives : forall l A x e, placed c wp (tweaks l) -> ots_bytes A -> In (EvF A x) l -> derives_at hf ssd len A e -> der e.
  Proof.
    intros l A x e HP HA Hin HD. unfold placed in HP. rewrite Forall_forall in HP.
    destruct (HP (EvF A x)) as (pl & Hpl & E). { unfold tweaks. apply filter_In. split; [exact Hin|reflexivity]. }
    assert (B : 2 ^ fst (fst wp) <= 2 ^ 20 /\ snd (fst wp) + snd wp <= 2 ^ 20).
    { assert (512 <= 2 ^ 20) by (change 512 with (2 ^ 9); apply Nat.pow_le_mono_r; lia).
      pose proof (co_w _ _ HC) as Hw. apply winternitz_cases in Hw. destruct Hw as [(_ & ->)|[(_ & ->)|[(_ & ->)|(_ & ->)]]]; cbn [fst snd]; (split; (etransitivity; [|eassumption]; apply Nat.leb_le; reflexivity)). }
    destruct pl as [o k i|o j i|j i]; cbn [key_call] in E; try discriminate.
    assert (EA : A = place_adr (Step o k i) 0) by congruence.
    destruct (ots_place A wp H _ HA (proj1 B) (proj2 B) Hpl EA) as (o' & Ho & EA'); [eauto|]. rewrite EA' in HD. now apply derives_at_adr in HD.
  Qed.
  Lemma linked_all : forall l, placed c wp (tweaks l) -> linked hf ssd len l -> msg_calls l = [] /\ forall e, In e (prf_calls l) -> der e.
  Proof.
    intros l HP (H1 & H2). split; [exact H1|]. intros e He. destruct (H2 e He) as (A & x & HA & Hin & HD). eapply linked_derives; eauto.
  Qed.

  Lemma wl : (2 <= w_w (x_wots p))%N /\ 1 <= len.
  Proof.
    destruct (wots_ok_facts _ (cfg_wots c wp HC)) as (Hw & _ & _ & Hlen & _). split; [|lia].
    pose proof (co_w _ _ HC) as Ew. destruct (wparams_ok _ _ Ew) as (_ & _ & E1 & _). cbn [c_params x_wots].
    apply winternitz_cases in Ew. destruct Ew as [(-> & ->)|[(-> & ->)|[(-> & ->)|(-> & ->)]]]; vm_compute; discriminate.
  Qed.

  Lemma initialize_prf : forall junk o l, initialize_tree_t junk (c_seed c) (N.of_nat H) (c_hash c) (c_fmt c) (c_w c) = Ok (o, l) ->
    msg_calls l = [] /\ forall e, In e (prf_calls l) -> der e.
  Proof.
    intros junk o l E. destruct (initialize_tree_t_spec c wp HC junk) as (o' & l' & E' & _ & HP). rewrite E in E'. apply Ok_inj in E'. apply pair_equal_spec in E'. destruct E' as (<- & <-).
    apply linked_all; [now apply perm_placed|].
    assert (L : alw (linked hf ssd len) (initialize_tree_t junk (c_seed c) (N.of_nat H) (c_hash c) (c_fmt c) (c_w c))).
    { pose proof (co_h _ _ HC) as Hb. destruct wl as (Hw & Hlen). unfold initialize_tree_t. rewrite (cfg_height_ok c wp HC), Nat2N.id, (cfg_set_params c wp HC).
      rewrite (proj2 (N.leb_gt _ _)) by lia. unfold with_hash. rewrite (co_hash _ _ HC).
      unfold xmssfast_Genkeypair_t. rewrite (firstn_all2 (n := 48)) by (rewrite (co_seed _ _ HC); lia).
      change (shake256 96 (c_seed c)) with (key_stream (c_seed c)).
      change (slice 0 32 (key_stream (c_seed c))) with ssd. change (slice 64 32 (key_stream (c_seed c))) with ps.
      apply alw_ok. apply linked_bind; [apply linked_bind|].
      - now apply lk_setup.
      - intros [rt st]. apply linked_nil.
      - intros [sk st]. apply linked_nil. }
    rewrite E in L. exact L.
  Qed.

  (** The log of one signature with index [i]. *)
  Lemma signs_derives : forall l l0 i msg, i < 2 ^ H -> placed c wp (tweaks l) ->
    (forall e, In e l0 -> In e l) ->
    signs hf ssd (key_prf (c_seed c)) (ref_root hf wp H (c_seed c)) msg len (N.of_nat i)
      (addr_to_byte (setKeyAndMask (setHashADRS (setChainADRS (setOTSADRS (setType zero_adrs 0) (N.of_nat i)) 0) 0) 0)) l0 ->
    msg_calls l0 = [message_call hf wp H (c_seed c) msg (c_sig c wp i msg)] /\
    In (EvPrf (key_prf (c_seed c)) (to_byte 32 (sig_index (c_sig c wp i msg)))) l0 /\
    forall e, In e (prf_calls l0) -> der e \/ e = EvPrf (key_prf (c_seed c)) (to_byte 32 (sig_index (c_sig c wp i msg))).
  Proof.
    intros l l0 i msg Hi HP Hsub (l' & El & M' & P').
    assert (Hi32 : (N.of_nat i < 2 ^ 32)%N).
    { pose proof (pow_H_bound c wp HC) as HPW. change (2 ^ 32)%N with 4294967296%N. change (2 ^ 30)%N with 1073741824%N in *.
      assert (N.of_nat i < 2 ^ N.of_nat H)%N by (rewrite <- pow_N_nat in Hi; lia). lia. }
    destruct (owner_parts hf (c_w c) wp H (c_seed c) i (randomizer hf (key_prf (c_seed c)) i) msg (co_w _ _ HC) (keyed_length _ _ _ _) Hi32) as (Q1 & Q2 & _).
    rewrite <- ref_sig_owner in Q1, Q2. change (ref_sig hf wp H (c_seed c) i msg) with (c_sig c wp i msg) in Q1, Q2.
    rewrite Q1. split; [|split].
    - rewrite El. cbn [msg_calls filter]. fold (msg_calls l'). rewrite M'. unfold message_call. fold (sig_R (c_sig c wp i msg)) (sig_index (c_sig c wp i msg)). rewrite Q1, Q2.
      unfold randomizer. now rewrite prf_PRF.
    - rewrite El. now left.
    - intros e He. rewrite El in He. cbn [prf_calls filter] in He. fold (prf_calls l') in He. destruct He as [<-|He]; [now right|left].
      destruct (P' e He) as [HD|(A & x & HA & Hin & HD)].
      + destruct (ots_adrs_init i) as (R0 & R1). eapply (derives_at_adr i); [exact Hi|].
        match type of HD with derives_at _ _ _ ?A _ => assert (EA : A = adr 0 (N.of_nat i) 0 0 0) end.
        { apply adr_bytes. unfold adrs_is. split; [repeat split|]. destruct R1 as (R1 & R2). repeat split; try reflexivity; exact R2. }
        now rewrite EA in HD.
      + eapply linked_derives; [exact HP|exact HA| |exact HD]. apply Hsub. rewrite El. right. right. exact Hin.
  Qed.

  Lemma setIndex_prf : forall o i j o' x l, fast_inv c wp i o -> xfast_setIndex_t o j = Ok ((o', x), l) -> linked hf ssd len l.
  Proof.
    intros [b st] i j o' x l (Eb & Hi & HB) E. cbn [xf_base xf_state] in *. subst b. destruct wl as (Hw & Hlen).
    assert (L : alw (linked hf ssd len) (xfast_setIndex_t (mkXF (c_obj c wp i) st) j)).
    { unfold xfast_setIndex_t. cbn [xf_base xf_state c_obj xb_hash xb_params xb_sk]. unfold with_hash. rewrite (co_hash _ _ HC).
      apply linked_bind.
      - destruct (sk_parts c wp HC i) as (P1 & _). rewrite <- P1. now apply update_linked.
      - intros [[sk st'] r]. destruct r; apply linked_nil. }
    rewrite E in L. exact L.
  Qed.

  Definition step_calls (a : op) (x : obs) : list hcall :=
    match a, x with OpSign m, ObsSig s => [message_call hf wp H (c_seed c) m s] | _, _ => [] end.

  Lemma step_prf : forall o i a o' x l, fast_inv c wp i o -> step_t o a = Ok ((o', x), l) ->
    msg_calls l = step_calls a x /\
    (forall m s, a = OpSign m -> x = ObsSig s -> In (EvPrf (key_prf (c_seed c)) (to_byte 32 (sig_index s))) l) /\
    forall e, In e (prf_calls l) -> der e \/ exists m s, a = OpSign m /\ x = ObsSig s /\ e = EvPrf (key_prf (c_seed c)) (to_byte 32 (sig_index s)).
  Proof.
    intros o i a o' x l HI E. destruct (step_t_spec c wp HC o i a HI) as (o2 & x2 & l2 & E2 & _ & _ & HP).
    rewrite E in E2. apply Ok_inj in E2. apply pair_equal_spec in E2. destruct E2 as (E2 & <-). clear o2 x2 E2.
    destruct a as [m|j]; unfold step_t in E.
    - unfold xfast_sign_t in E.
      assert (EI : getIndex (xf_base o) = i).
      { destruct HI as (Eb & Hi & _). rewrite Eb. unfold getIndex. cbn [c_obj xb_sk]. rewrite (sk_index c wp HC) by auto.
        unfold u32. apply N.mod_small. pose proof (pow_H_bound c wp HC) as HPW. change (2 ^ 32)%N with 4294967296%N.
        change (2 ^ 30)%N with 1073741824%N in *. lia. }
      rewrite EI in E. destruct (setIndex_spec c wp HC o i i HI) as (o1 & E1 & H1).
      rewrite <- setIndex_erase in E1. destruct (xfast_setIndex_t o i) as [[[o1' r] la]|e|] eqn:Ea; [|discriminate|discriminate].
      cbn [forget] in E1. apply Ok_inj in E1. apply pair_equal_spec in E1. destruct E1 as (-> & ->).
      pose proof (setIndex_prf _ _ _ _ _ _ HI Ea) as La. unfold tbind at 2 in E. cbn [bind] in E.
      rewrite N.leb_refl, andb_true_r in *.
      destruct (i <? 2 ^ N.of_nat H)%N eqn:El.
      + apply N.ltb_lt in El. pose proof H1 as (Eb1 & Hi1 & HB1). rewrite Eb1 in E.
        cbn [c_obj xb_hash xb_params xb_sk] in E. unfold with_hash in E. rewrite (co_hash _ _ HC) in E.
        destruct (sk_parts c wp HC i) as (P1 & P2 & P3 & P4 & P5). destruct wl as (Hw & Hlen).
        pose proof (Signmsg_signs hf p (c_sk c wp i) (xf_state o1) m Hw Hlen) as SG.
        rewrite (sk_index c wp HC i Hi1), P1, P2, P4 in SG. cbv zeta in SG.
        destruct (xmssfast_Signmsg_t hf p (c_sk c wp i) (xf_state o1) m) as [[[[sk st] sg] lb]|e|] eqn:Eb; [|discriminate|discriminate].
        unfold tbind, tret in E. cbn [bind] in E. rewrite !app_nil_r in E. apply Ok_inj in E. apply pair_equal_spec in E. destruct E as (E & <-). apply pair_equal_spec in E. destruct E as (<- & <-).
        cbn [alw] in SG.
        assert (ES : sg = c_sig c wp (N.to_nat i) m).
        { destruct (step_spec c wp HC o i (OpSign m) HI) as (o3 & E3 & _). cbn [ref_step] in E3. rewrite (proj2 (N.ltb_lt _ _) El) in E3. cbn [snd] in E3.
          rewrite <- step_erase in E3. unfold step_t, xfast_sign_t in E3. rewrite EI, Ea in E3. unfold tbind at 2 in E3. cbn [bind] in E3. rewrite Eb1 in E3.
          cbn [c_obj xb_hash xb_params xb_sk] in E3. unfold with_hash in E3. rewrite (co_hash _ _ HC), Eb in E3.
          unfold tbind, tret, forget in E3. cbn [bind] in E3. apply Ok_inj in E3. apply pair_equal_spec in E3. destruct E3 as (_ & E3). congruence. }
        assert (Hi' : N.to_nat i < 2 ^ H) by (rewrite <- pow_N_nat; lia).
        rewrite <- (N2Nat.id i) in SG.
        destruct (signs_derives (la ++ lb) lb (N.to_nat i) m Hi' HP) as (S1 & S2 & S3); [intros e He; apply in_app_iff; now right|exact SG|].
        destruct La as (A1 & A2). rewrite <- ES in S1, S2, S3. split; [|split].
        * rewrite msg_app, A1, S1. reflexivity.
        * intros m' s' Em Es. injection Es as <-. apply in_app_iff. now right.
        * intros e He. rewrite prf_app in He. apply in_app_iff in He. destruct He as [He|He].
          -- left. destruct (A2 e He) as (A & x & HA & Hin & HD). eapply linked_derives; [exact HP|exact HA| |exact HD]. apply in_app_iff. left. exact Hin.
          -- destruct (S3 e He) as [HD|HD]; [now left|right]. exists m, sg. auto.
      + unfold tbind, tret in E. cbn [bind] in E. rewrite !app_nil_r in E. apply Ok_inj in E. apply pair_equal_spec in E. destruct E as (E & <-). apply pair_equal_spec in E. destruct E as (<- & <-).
        destruct (linked_all la HP La) as (S1 & S2). split; [exact S1|]. split; [discriminate|]. intros e He. left. auto.
    - destruct (xfast_setIndex_t o j) as [[[o1' r] la]|e|] eqn:Ea; [|discriminate|discriminate].
      pose proof (setIndex_prf _ _ _ _ _ _ HI Ea) as La. unfold tbind, tret in E. cbn [bind] in E. rewrite !app_nil_r in E. apply Ok_inj in E. apply pair_equal_spec in E. destruct E as (E & <-).
      destruct (linked_all la HP La) as (S1 & S2). split; [exact S1|]. split; [discriminate|]. intros e He. left. auto.
  Qed.

  Lemma run_prf : forall cs o i o' os l, fast_inv c wp i o -> run_t o cs = Ok ((o', os), l) ->
    msg_calls l = history_message_calls hf wp H (c_seed c) cs os /\
    (forall m s, issued cs os m s -> In (EvPrf (key_prf (c_seed c)) (to_byte 32 (sig_index s))) l) /\
    forall e, In e (prf_calls l) -> der e \/ exists m s, issued cs os m s /\ e = EvPrf (key_prf (c_seed c)) (to_byte 32 (sig_index s)).
  Proof.
    induction cs as [|a cs IH]; intros o i o' os l HI E; cbn [run_t] in E.
    - unfold tret in E. apply Ok_inj in E. apply pair_equal_spec in E. destruct E as (E & <-). apply pair_equal_spec in E. destruct E as (<- & <-).
      split; [reflexivity|]. split; [intros m s (n & Hn & _); destruct n; discriminate|]. intros e [].
    - destruct (step_t_spec c wp HC o i a HI) as (o1 & x & la & E1 & _ & HI1 & _). rewrite E1 in E. unfold tbind at 1 in E. cbn [bind] in E.
      destruct (run_t o1 cs) as [[[o2 xs] lb]|e|] eqn:E2; [|discriminate|discriminate]. unfold tbind, tret in E. cbn [bind] in E. rewrite !app_nil_r in E.
      apply Ok_inj in E. apply pair_equal_spec in E. destruct E as (E & <-). apply pair_equal_spec in E. destruct E as (<- & <-).
      destruct (step_prf _ _ _ _ _ _ HI E1) as (S1 & S2 & S3). destruct (IH _ _ _ _ _ HI1 E2) as (R1 & R2 & R3). split; [|split].
      + rewrite msg_app, S1, R1. unfold history_message_calls. cbn [combine flat_map]. unfold step_calls. now destruct a, x.
      + intros m s (n & Hc & Ho). apply in_app_iff. destruct n as [|n]; cbn [nth_error] in Hc, Ho.
        * left. apply (S2 m s); congruence.
        * right. apply (R2 m s). exists n. auto.
      + intros e He. rewrite prf_app in He. apply in_app_iff in He. destruct He as [He|He].
        * destruct (S3 e He) as [HD|(m & s & -> & -> & ->)]; [now left|right]. exists m, s. split; [exists 0; auto|reflexivity].
        * destruct (R3 e He) as [HD|(m & s & (n & Hc & Ho) & ->)]; [now left|right]. exists m, s. split; [exists (S n); auto|reflexivity].
  Qed.
End Key.

(** Constructing an XmssFast object calls the pseudorandom function only to derive the secrets
    of the one-time keys of its tree from the secret seed and their chain starts from these,
    and hashes no message.  Any history of sign and setIndex calls then makes one message hash
    for each signature it hands out, keyed with the signature's own randomiser and index, and
    nothing else; the pseudorandom function is called to derive, as above, and keyed with the
    second secret on the indices of the signatures handed out. *)
Theorem C91_fast_prf_and_message_calls : forall junk seed height hash hf fmt,
  supported hash hf 16 w16 height seed ->
  exists o log0, XmssFast_new_t junk seed (N.of_nat height) hash fmt = Ok (o, log0) /\
    msg_calls log0 = [] /\ (forall e, In e (prf_calls log0) -> derives hf w16 height seed e) /\
    forall cs, exists y os log1, run_t o cs = Ok ((y, os), log1) /\ run o cs = Ok (y, os) /\
      msg_calls log1 = history_message_calls hf w16 height seed cs os /\
      (forall m s, issued cs os m s -> In (EvPrf (key_prf seed) (to_byte 32 (sig_index s))) log1) /\
      forall e, In e (prf_calls log1) -> derives hf w16 height seed e \/
        exists m s, issued cs os m s /\ e = EvPrf (key_prf seed) (to_byte 32 (sig_index s)).
Proof.
  intros junk seed height hash hf fmt HS. pose proof (cfg_of _ _ _ _ _ _ fmt HS) as HC.
  destruct (initialize_tree_t_spec _ _ HC junk) as (o & l & E & HI & _). exists o, l.
  split. { unfold XmssFast_new_t, check_seed. destruct HS as (_ & _ & Hh & _ & Hl). rewrite Hl. cbn [Nat.eqb negb].
    rewrite (proj2 (N.ltb_ge _ _)) by lia. unfold tlift, tbind at 1. cbn [bind]. cbn [c_seed c_height c_hash c_fmt c_w] in E. rewrite E. reflexivity. }
  destruct (initialize_prf _ _ HC junk o l E) as (M & P). split; [exact M|]. split; [exact P|]. intros cs.
  destruct (run_t_spec _ _ HC cs o 0 HI) as (o' & l1 & E1 & _). exists o', (snd (ref_run height (ref_sig hf w16 height seed) 0 cs)), l1.
  split; [exact E1|]. split. { rewrite <- run_erase. cbn [c_height c_sig] in E1. rewrite E1. reflexivity. }
  exact (run_prf _ _ HC cs o 0%N o' _ l1 HI E1).
Qed.

(** The same for XmssBasic, for every Winternitz parameter; a signature needs height 24 or
    less (C25). *)
Theorem C91_basic_prf_and_message_calls : forall junk seed height hash hf fmt w wp,
  supported hash hf w wp height seed ->
  exists o log0, XmssBasic_new_t junk seed (N.of_nat height) hash fmt w = Ok (o, log0) /\
    msg_calls log0 = [] /\ (forall e, In e (prf_calls log0) -> derives hf wp height seed e) /\
    forall junk' idx msg, height <= 24 -> (idx < 2 ^ N.of_nat height)%N ->
      exists o' sig log1, XmssBasic_sign_t junk' (fst (base_setIndex o idx)) msg = Ok ((o', sig), log1) /\
        msg_calls log1 = [message_call hf wp height seed msg sig] /\
        In (EvPrf (key_prf seed) (to_byte 32 idx)) log1 /\
        forall e, In e (prf_calls log1) -> derives hf wp height seed e \/ e = EvPrf (key_prf seed) (to_byte 32 idx).
Proof.
  intros junk seed height hash hf fmt w wp HS. pose proof (cfg_of _ _ _ _ _ _ fmt HS) as HC.
  destruct (basic_new_t_spec _ _ HC junk) as (l & E & HP). eexists; exists l. split; [exact E|].
  set (c := mkCfg hf hash w fmt height seed) in *.
  assert (HL : linked hf (key_seed seed) (w_len (x_wots (c_params c))) l).
  { assert (L : alw (linked hf (key_seed seed) (w_len (x_wots (c_params c)))) (XmssBasic_new_t junk (c_seed c) (N.of_nat (c_height c)) (c_hash c) (c_fmt c) (c_w c))).
    { pose proof (co_h _ _ HC) as Hb. destruct (wl c wp HC) as (Hw & Hlen). unfold XmssBasic_new_t.
      unfold check_seed. rewrite (co_seed _ _ HC). cbn [Nat.eqb negb]. rewrite (proj2 (N.ltb_ge _ _)) by lia. apply alw_ok.
      rewrite (cfg_height_ok c wp HC), Nat2N.id, (cfg_set_params c wp HC).
      rewrite (proj2 (N.leb_gt _ _)) by lia. unfold with_hash. rewrite (co_hash _ _ HC).
      unfold xmss_Genkeypair_t. rewrite (firstn_all2 (n := 48)) by (rewrite (co_seed _ _ HC); lia).
      change (shake256 96 (c_seed c)) with (key_stream (c_seed c)).
      change (slice 0 32 (key_stream (c_seed c))) with (key_seed seed). change (slice 64 32 (key_stream (c_seed c))) with (key_pub seed).
      apply alw_ok. apply linked_bind; [apply linked_bind|].
      - now apply lk_treehash.
      - intros rt. apply linked_nil.
      - intros sk. apply linked_nil. }
    rewrite E in L. exact L. }
  destruct (linked_all c wp HC l (perm_placed c wp _ HP) HL) as (M & P). split; [exact M|]. split; [exact P|].
  intros j idx msg Hh Hi. destruct (basic_sign_t_spec _ _ HC j idx msg) as (l1 & E1 & HP1); [cbn [c c_height]; lia|exact Hi|].
  eexists; eexists; exists l1. split; [exact E1|].
  assert (SG : alw (signs hf (key_seed seed) (key_prf seed) (ref_root hf wp height seed) msg (w_len (x_wots (c_params c))) idx
        (addr_to_byte (setKeyAndMask (setHashADRS (setChainADRS (setOTSADRS (setType zero_adrs 0) idx) 0) 0) 0))) (XmssBasic_sign_t j (c_obj c wp idx) msg)).
  { destruct (wl c wp HC) as (Hw & Hlen). unfold XmssBasic_sign_t. cbn [c_obj xb_hash xb_params xb_sk]. unfold with_hash. rewrite (co_hash _ _ HC).
    pose proof (basic_Signmsg_signs hf j (c_params c) (c_sk c wp idx) msg Hw Hlen) as SG. cbv zeta in SG.
    destruct (sk_parts c wp HC idx) as (P1 & P2 & P3 & P4 & P5). rewrite (sk_index c wp HC idx), P1, P2, P4 in SG by (cbn [c c_height]; lia).
    cbn [c c_hf]. destruct (xmss_Signmsg_t hf j (c_params c) (c_sk c wp idx) msg) as [[[sk sg] lb]|e|]; [|exact I|exact I].
    unfold tbind, tret. cbn [bind alw]. rewrite app_nil_r. exact SG. }
  rewrite E1 in SG. cbn [alw] in SG. rewrite <- (N2Nat.id idx) in SG.
  assert (Hi' : N.to_nat idx < 2 ^ c_height c) by (cbn [c c_height]; rewrite <- pow_N_nat; lia).
  destruct (signs_derives c wp HC l1 l1 (N.to_nat idx) msg Hi' HP1 (fun e He => He) SG) as (S1 & S2 & S3).
  assert (Hi32 : (N.of_nat (N.to_nat idx) < 2 ^ 32)%N).
  { rewrite N2Nat.id. eapply N.lt_le_trans; [exact Hi|]. apply N.pow_le_mono_r; lia. }
  destruct (owner_parts hf w wp height seed (N.to_nat idx) (randomizer hf (key_prf seed) (N.to_nat idx)) msg (proj1 (proj2 HS)) (keyed_length _ _ _ _) Hi32) as (Q1 & _).
  rewrite <- ref_sig_owner, N2Nat.id in Q1. change (ref_sig hf wp height seed (N.to_nat idx) msg) with (c_sig c wp (N.to_nat idx) msg) in Q1.
  rewrite Q1 in S2, S3. split; [exact S1|]. split; [exact S2|exact S3].
Qed.

(** Verifying a signature calls no pseudorandom function but the ones inside the tweakable
    hashes, and hashes at most one message: the given one, keyed with the signature's
    randomiser, the root in the public key and the signature's index. *)
Theorem C91_verify_message_calls : forall msg sig epk w b log, verify_t msg sig epk w = Ok (b, log) ->
  prf_calls log = [] /\
  (msg_calls log = [] \/
   msg_calls log = [EvMsg (sig_R sig ++ firstn 32 (skipn 3 epk) ++ to_byte 32 (sig_index sig)) msg]).
Proof. intros msg sig epk w b log E. pose proof (verify_log msg sig epk w) as L. rewrite E in L. exact L. Qed.

(** A history with a reused argument, a refused setIndex and two signatures meets the
    hypotheses: exactly two messages are hashed, each with its own index. *)
Example C91_case_hypotheses : supported 2 SHAKE_256 16 w16 10 seed_c /\
  exists o log0 y s1 s2 log1, XmssFast_new_t [] seed_c 10 2 0 = Ok (o, log0) /\
    run_t o [OpSign [1%N]; OpSetIndex 5; OpSetIndex 4; OpSign [1%N]] = Ok ((y, [ObsSig s1; ObsIdx 5; ObsExn InvalidArgument; ObsSig s2]), log1) /\
    sig_index s1 = 0%N /\ sig_index s2 = 5%N /\
    msg_calls log1 = [message_call SHAKE_256 w16 10 seed_c [1%N] s1; message_call SHAKE_256 w16 10 seed_c [1%N] s2] /\
    message_call SHAKE_256 w16 10 seed_c [1%N] s1 <> message_call SHAKE_256 w16 10 seed_c [1%N] s2.
Proof.
  split; [exact sup16|]. destruct (C91_fast_prf_and_message_calls [] seed_c 10 2 SHAKE_256 0 sup16) as (o & l & E & _ & _ & HR).
  set (cs := [OpSign [1%N]; OpSetIndex 5; OpSetIndex 4; OpSign [1%N]]). destruct (HR cs) as (y & os & l1 & E1 & Er & M & _).
  destruct (fast_history [] seed_c 10 2 SHAKE_256 0 sup16) as (o' & E' & HH).
  assert (Ex : XmssFast_new [] seed_c (N.of_nat 10) 2 0 = Ok o) by (rewrite <- XmssFast_new_erase, E; reflexivity).
  rewrite Ex in E'. apply Ok_inj in E'. subst o'. destruct (HH cs) as (y' & Er' & _). rewrite Er in Er'. apply Ok_inj in Er'. apply pair_equal_spec in Er'. destruct Er' as (_ & Eo).
  set (sg := ref_sig SHAKE_256 w16 10 seed_c) in *.
  assert (Eo' : os = [ObsSig (sg 0 [1%N]); ObsIdx 5; ObsExn InvalidArgument; ObsSig (sg 5 [1%N])]) by exact Eo. clear Eo.
  assert (I : forall i, i < 10 -> sig_index (sg i [1%N]) = N.of_nat i).
  { intros i Hi. destruct (owner_parts SHAKE_256 16 w16 10 seed_c i (randomizer SHAKE_256 (key_prf seed_c) i) [1%N] eq_refl (keyed_length _ _ _ _)) as (Q1 & _); [lia|].
    rewrite <- ref_sig_owner in Q1. exact Q1. }
  subst os. exists o, l, y, (sg 0 [1%N]), (sg 5 [1%N]), l1. split; [exact E|]. split; [exact E1|]. split; [exact (I 0 ltac:(lia))|]. split; [exact (I 5 ltac:(lia))|].
  split; [exact M|]. unfold message_call. fold (sig_index (sg 0 [1%N])) (sig_index (sg 5 [1%N])). rewrite (I 0), (I 5) by lia. intros X.
  assert (K : forall a b c d, EvMsg a b = EvMsg c d -> skipn (length a - 32) a = skipn (length c - 32) c) by (intros; congruence). apply K in X.
  assert (T : forall a n, skipn (length (a ++ to_byte 32 n) - 32) (a ++ to_byte 32 n) = to_byte 32 n).
  { intros a n. rewrite app_length, to_byte_length, Nat.add_sub, skipn_app, Nat.sub_diag, skipn_all. reflexivity. }
  rewrite !app_assoc, !T in X. vm_compute in X. discriminate.
Qed.
