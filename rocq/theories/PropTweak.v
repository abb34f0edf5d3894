(** C89: every tweakable hash call made with a key is the call of a place of the key's tree,
    so no address is ever hashed with two inputs. *)
From Coq Require Import List NArith Arith Lia Bool Permutation.
From Verif Require Import Base Bytes Keccak HashAddress Wots XmssCommon AlgsXmss AlgsXmssFast Descriptor SpecXmss SpecApi
  SpecDomain XmssObj XmssRefine WotsProofs TreeProofs BasicProofs BdsProofs FastProofs PropObj PropDomain
  Trace SpecTweak TraceErase TraceProofs TraceProofs2 TraceProofs3 CasesXmss.
From Verif Require Export SpecTerms2.
Import ListNotations.
Open Scope nat_scope.

(** Forgetting the log gives the model without it back, for every input and every object. *)
Theorem C89_erasure : forall junk seed height hash fmt w es o b msg i cs,
  forget (XmssFast_new_t junk seed height hash fmt) = XmssFast_new junk seed height hash fmt /\
  forget (XmssFast_from_extended_seed_t junk es) = XmssFast_from_extended_seed junk es /\
  forget (xfast_initialize_tree_t junk o w) = xfast_initialize_tree junk o w /\
  forget (xfast_setIndex_t o i) = xfast_setIndex o i /\
  forget (xfast_sign_t o msg) = xfast_sign o msg /\
  forget (run_t o cs) = run o cs /\
  forget (XmssBasic_new_t junk seed height hash fmt w) = XmssBasic_new junk seed height hash fmt w /\
  forget (XmssBasic_sign_t junk b msg) = XmssBasic_sign junk b msg.
Proof.
  intros. split; [apply XmssFast_new_erase|]. split; [apply XmssFast_from_erase|]. split; [apply initialize_tree_erase|].
  split; [apply setIndex_erase|]. split; [apply sign_erase|]. split; [apply run_erase|]. split; [apply XmssBasic_new_erase|apply XmssBasic_sign_erase].
Qed.

Section Key.
  Variables (c : key_cfg) (wp : nat * nat * nat).
  Hypothesis HC : cfg_ok c wp.
  Local Notation p := (c_params c).
  Local Notation hf := (c_hf c).
  Local Notation H := (c_height c).
  Local Notation ssd := (key_seed (c_seed c)).
  Local Notation ps := (key_pub (c_seed c)).

  Lemma call_at_key : forall pl, call_at hf ssd ps (x_wots p) pl = key_call hf wp (c_seed c) pl.
  Proof.
    intros pl. unfold call_at, key_call. destruct (wparams_ok _ _ (co_w _ _ HC)) as (_ & _ & E1 & E2 & _ & _ & _ & _ & E7).
    cbn [c_params x_wots]. rewrite E1, E2, E7. reflexivity.
  Qed.
  Lemma places_key : forall h, tree_places (N.to_nat (w_w (x_wots p))) (w_len (x_wots p)) h = key_places wp h.
  Proof.
    intros h. unfold key_places. destruct (wparams_ok _ _ (co_w _ _ HC)) as (_ & _ & E1 & E2 & _ & _ & _ & _ & E7).
    cbn [c_params x_wots]. now rewrite E1, E2, E7.
  Qed.
  Lemma map_call_key : forall l, map (call_at hf ssd ps (x_wots p)) l = map (key_call hf wp (c_seed c)) l.
  Proof. intros l. apply map_ext. apply call_at_key. Qed.

  Definition placed (lg : list hcall) : Prop := Forall (fun e => exists pl, In pl (key_places wp H) /\ e = key_call hf wp (c_seed c) pl) lg.
  Lemma key_calls_placed : forall lg, key_calls c lg -> placed lg.
  Proof.
    intros lg HL. eapply Forall_impl; [|exact HL]. cbv beta. intros e (pl & Hin & ->). exists pl. rewrite <- places_key. split; [exact Hin|apply call_at_key].
  Qed.
  Lemma perm_placed : forall lg, Permutation lg (map (key_call hf wp (c_seed c)) (key_places wp H)) -> placed lg.
  Proof.
    intros lg HP. apply Forall_forall. intros e He. apply (Permutation_in _ HP) in He. apply in_map_iff in He.
    destruct He as (pl & <- & Hin). eauto.
  Qed.

  Lemma initialize_tree_t_spec : forall junk,
    exists o l, initialize_tree_t junk (c_seed c) (N.of_nat H) (c_hash c) (c_fmt c) (c_w c) = Ok (o, l) /\ fast_inv c wp 0 o /\
      Permutation (tweaks l) (map (key_call hf wp (c_seed c)) (key_places wp H)).
  Proof.
    intros junk. destruct (initialize_tree_spec c wp HC junk) as (o & E & HI).
    assert (L : logs (initialize_tree_t junk (c_seed c) (N.of_nat H) (c_hash c) (c_fmt c) (c_w c))
      (initialize_tree junk (c_seed c) (N.of_nat H) (c_hash c) (c_fmt c) (c_w c))
      (fun _ lg => Permutation lg (map (key_call hf wp (c_seed c)) (key_places wp H)))).
    { pose proof (co_h _ _ HC) as Hb. destruct (wots_ok_facts _ (cfg_wots c wp HC)) as (Hw & _ & _ & Hlen & _).
      unfold initialize_tree_t, initialize_tree. rewrite (cfg_height_ok c wp HC).
      apply logs_bind_lift. intros p' Ep. rewrite Nat2N.id, (cfg_set_params c wp HC) in Ep. apply Ok_inj in Ep. subst p'.
      rewrite (proj2 (N.leb_gt _ _)) by lia. unfold with_hash. rewrite (co_hash _ _ HC).
      unfold xmssfast_Genkeypair_t, xmssfast_Genkeypair. rewrite (firstn_all2 (n := 48)) by (rewrite (co_seed _ _ HC); lia).
      change (shake256 96 (c_seed c)) with (key_stream (c_seed c)).
      change (slice 0 32 (key_stream (c_seed c))) with ssd. change (slice 64 32 (key_stream (c_seed c))) with ps.
      eapply logs_bind with (Q1 := fun _ lg => lg = map (call_at hf ssd ps (x_wots p)) (treehash_places (N.to_nat (w_w (x_wots p))) (w_len (x_wots p)) (x_h p))).
      - eapply logs_bind; [apply (treehash_setup_t_spec hf ssd ps p Hw Hlen junk (fresh_bds (x_h p) (x_k p)) zero_adrs); repeat split|].
        cbv beta. intros [rt st] lg _ ->. apply logs_ret. now rewrite app_nil_r.
      - cbv beta. intros [sk st] lg _ ->. apply logs_ret. rewrite app_nil_r, <- map_call_key. apply Permutation_map. rewrite <- places_key. apply treehash_places_perm. }
    rewrite E in L. destruct L as (l & El & HP). exists o, l. auto.
  Qed.

  Lemma step_t_spec : forall o i a, fast_inv c wp i o -> exists o' x l, step_t o a = Ok ((o', x), l) /\ step o a = Ok (o', x) /\
    fast_inv c wp (fst (ref_step H (c_sig c wp) i a)) o' /\ placed (tweaks l).
  Proof.
    intros o i a HI. destruct (step_spec c wp HC o i a HI) as (o' & E & HI' & _).
    exists o', (snd (ref_step H (c_sig c wp) i a)).
    assert (L : logs (step_t o a) (step o a) (fun _ lg => key_calls c lg)).
    { destruct a as [m|j]; unfold step_t, step.
      - eapply logs_bind; [apply (sign_t_spec c wp HC o i m HI)|]. cbv beta. intros [o1 r] lg _ HL. apply logs_ret. now rewrite app_nil_r.
      - eapply logs_bind; [apply (setIndex_t_spec c wp HC o i j HI)|]. cbv beta. intros [o1 r] lg _ HL. apply logs_ret. now rewrite app_nil_r. }
    destruct (logs_ok _ _ _ _ _ L E) as (l & El & HL). exists l. split; [exact El|]. split; [exact E|]. split; [exact HI'|]. now apply key_calls_placed.
  Qed.
  Lemma run_t_spec : forall cs o i, fast_inv c wp i o -> exists o' l, run_t o cs = Ok ((o', snd (ref_run H (c_sig c wp) i cs)), l) /\ placed (tweaks l).
  Proof.
    induction cs as [|a cs IH]; intros o i HI; cbn [run_t ref_run].
    - exists o, []. split; [reflexivity|constructor].
    - destruct (step_t_spec o i a HI) as (o1 & x1 & l1 & E1 & S1 & HI1 & HL1).
      destruct (step_spec c wp HC o i a HI) as (o1' & S1' & _). rewrite S1 in S1'. apply Ok_inj in S1'. apply pair_equal_spec in S1'. destruct S1' as (_ & Ex).
      rewrite E1. destruct (ref_step H (c_sig c wp) i a) as [i1 x]. cbn [fst snd] in *. subst x1.
      destruct (IH o1 i1 HI1) as (o2 & l2 & E2 & HL2). destruct (ref_run H (c_sig c wp) i1 cs) as [i2 xs]. cbn [snd] in *.
      unfold tbind at 1. cbn [bind]. rewrite E2. unfold tbind. cbn [bind]. exists o2, (l1 ++ (l2 ++ [])). split; [reflexivity|].
      rewrite app_nil_r. unfold tweaks. rewrite filter_app. apply Forall_app. split; assumption.
  Qed.

  Lemma basic_new_t_spec : forall junk,
    exists l, XmssBasic_new_t junk (c_seed c) (N.of_nat H) (c_hash c) (c_fmt c) (c_w c) = Ok (c_obj c wp 0, l) /\
      Permutation (tweaks l) (map (key_call hf wp (c_seed c)) (key_places wp H)).
  Proof.
    intros junk. pose proof (XmssBasic_new_spec c wp HC junk) as E.
    assert (L : logs (XmssBasic_new_t junk (c_seed c) (N.of_nat H) (c_hash c) (c_fmt c) (c_w c))
      (XmssBasic_new junk (c_seed c) (N.of_nat H) (c_hash c) (c_fmt c) (c_w c))
      (fun _ lg => Permutation lg (map (key_call hf wp (c_seed c)) (key_places wp H)))).
    { pose proof (co_h _ _ HC) as Hb. destruct (wots_ok_facts _ (cfg_wots c wp HC)) as (Hw & _ & _ & Hlen & _).
      unfold XmssBasic_new_t, XmssBasic_new. apply logs_bind_lift. intros [] _. rewrite (cfg_height_ok c wp HC).
      apply logs_bind_lift. intros p' Ep. rewrite Nat2N.id, (cfg_set_params c wp HC) in Ep. apply Ok_inj in Ep. subst p'.
      rewrite (proj2 (N.leb_gt _ _)) by lia. unfold with_hash. rewrite (co_hash _ _ HC).
      unfold xmss_Genkeypair_t, xmss_Genkeypair. rewrite (firstn_all2 (n := 48)) by (rewrite (co_seed _ _ HC); lia).
      change (shake256 96 (c_seed c)) with (key_stream (c_seed c)).
      change (slice 0 32 (key_stream (c_seed c))) with ssd. change (slice 64 32 (key_stream (c_seed c))) with ps.
      eapply logs_bind with (Q1 := fun _ lg => lg = map (call_at hf ssd ps (x_wots p)) (treehash_places (N.to_nat (w_w (x_wots p))) (w_len (x_wots p)) (x_h p))).
      - eapply logs_bind; [apply (treehash_t_spec hf ssd ps p Hw Hlen junk (x_h p) zero_adrs); repeat split|].
        cbv beta. intros rt lg _ ->. apply logs_ret. now rewrite app_nil_r.
      - cbv beta. intros sk lg _ ->. apply logs_ret. rewrite app_nil_r, <- map_call_key. apply Permutation_map. rewrite <- places_key. apply treehash_places_perm. }
    rewrite E in L. destruct L as (l & El & HP). exists l. auto.
  Qed.

  Lemma basic_sign_t_spec : forall junk i msg, H < 26 -> (i < 2 ^ N.of_nat H)%N ->
    exists l, XmssBasic_sign_t junk (c_obj c wp i) msg = Ok ((c_obj c wp (i + 1), c_sig c wp (N.to_nat i) msg), l) /\ placed (tweaks l).
  Proof.
    intros junk i msg Hh Hi. pose proof (XmssBasic_sign_spec c wp HC junk i msg Hh Hi) as E.
    assert (L : logs (XmssBasic_sign_t junk (c_obj c wp i) msg) (XmssBasic_sign junk (c_obj c wp i) msg) (fun _ lg => key_calls c lg)).
    { pose proof (cfg_wots c wp HC) as HP. destruct (wots_ok_facts _ HP) as (Hw & _ & _ & Hlen & _).
      unfold XmssBasic_sign_t, XmssBasic_sign. cbn [c_obj xb_hash xb_params xb_sk]. unfold with_hash. rewrite (co_hash _ _ HC).
      eapply logs_bind with (Q1 := fun _ lg => key_calls c lg).
      2:{ cbv beta. intros [sk sg] lg _ HL. apply logs_ret. now rewrite app_nil_r. }
      unfold xmss_Signmsg_t, xmss_Signmsg. rewrite (sk_index c wp HC) by lia.
      destruct (sk_parts c wp HC i) as (P1 & P2 & P3 & P4 & P5). rewrite P1, P2, P3, P4.
      set (idx := N.to_nat i). assert (Ei : i = N.of_nat idx) by (unfold idx; now rewrite N2Nat.id). rewrite Ei.
      unfold prf_t at 1. apply logs_call. unfold h_msg_t. apply logs_call.
      set (R := prf hf (to_byte 32 (N.of_nat idx)) (key_prf (c_seed c))).
      set (dg := h_msg hf msg (R ++ ref_root hf wp H (c_seed c) ++ to_byte 32 (N.of_nat idx))).
      destruct (digits_of_ok (x_wots p) dg HP) as (D1 & D2 & D3). { unfold dg, h_msg. rewrite core_hash_keyed. apply keyed_length. }
      destruct (get_seed_spec hf ssd _ idx (ots_adrs_init idx)) as (a1 & G1 & A1).
      destruct (get_seed_t_eq hf ssd (setOTSADRS (setType zero_adrs 0) (N.of_nat idx))) as (l1 & T1 & L1). rewrite T1, G1.
      apply logs_call. rewrite L1.
      assert (D3' : Forall (fun d => d < w_w (x_wots p))%N (digits_of (x_wots p) dg)).
      { eapply Forall_impl; [|exact D3]. cbv beta. intros d Hd. lia. }
      destruct (wots_sign_t_spec hf ssd ps (x_wots p) Hw Hlen a1 idx dg (digits_of (x_wots p) dg) A1 D1 D2 D3') as (l2 & r2 & T2 & S2 & L2).
      destruct (wots_sign_spec hf (x_wots p) dg (ots_seed hf ssd idx) ps a1 idx ssd (digits_of (x_wots p) dg) A1 eq_refl D1 D2 D3)
        as (a2 & G2 & A2).
      rewrite S2 in G2. apply Ok_inj in G2. subst r2. rewrite T2, S2. apply logs_call. cbn [bind]. rewrite L2.
      assert (Hidx : idx < 2 ^ H) by (rewrite <- pow_N_nat; unfold idx; lia).
      assert (HS : key_calls c (map (call_at hf ssd ps (x_wots p)) (flat_map (fun k => map (Step idx k) (seq 0 (N.to_nat (nth k (digits_of (x_wots p) dg) 0%N)))) (seq 0 (w_len (x_wots p)))))).
      { apply (steps_key_calls c idx (fun k => N.to_nat (nth k (digits_of (x_wots p) dg) 0%N))); auto.
        intros k. destruct (nth_in_or_default k (digits_of (x_wots p) dg) 0%N) as [Hin| ->]; [|lia].
        rewrite Forall_forall in D3. specialize (D3 _ Hin). cbv beta in D3. lia. }
      eapply logs_bind; [apply (compute_authpath_t_spec hf ssd ps p Hw Hlen junk idx a2); apply A2|].
      cbv beta. intros [rt ap] lg _ ->. apply logs_ret. cbn [tw filter is_tweak app]. rewrite app_nil_r. apply Forall_app. split; [exact HS|].
      apply Forall_forall. intros e He. apply in_map_iff in He. destruct He as (pl & <- & Hin). exists pl. split; [exact Hin|reflexivity]. }
    rewrite E in L. destruct L as (l & El & HL). exists l. split; [exact El|]. now apply key_calls_placed.
  Qed.
End Key.

(** Constructing an XmssFast object makes the call of each place of its tree exactly once.
    Any history of sign and setIndex calls on the object then makes only calls of places of
    the same tree, each with the input that belongs to the place. *)
Theorem C89_fast_calls_are_tree_calls : forall junk seed height hash hf fmt,
  supported hash hf 16 w16 height seed ->
  exists o log0, XmssFast_new_t junk seed (N.of_nat height) hash fmt = Ok (o, log0) /\
    Permutation (tweaks log0) (map (key_call hf w16 seed) (key_places w16 height)) /\
    forall cs, exists o' xs log1, run_t o cs = Ok ((o', xs), log1) /\ run o cs = Ok (o', xs) /\
      forall e, In e (tweaks log1) -> exists pl, In pl (key_places w16 height) /\ e = key_call hf w16 seed pl.
Proof.
  intros junk seed height hash hf fmt HS. pose proof (cfg_of _ _ _ _ _ _ fmt HS) as HC.
  destruct (initialize_tree_t_spec _ _ HC junk) as (o & l & E & HI & HP). exists o, l.
  split. { unfold XmssFast_new_t, check_seed. destruct HS as (_ & _ & Hh & _ & Hl). rewrite Hl. cbn [Nat.eqb negb].
    rewrite (proj2 (N.ltb_ge _ _)) by lia. unfold tlift, tbind at 1. cbn [bind]. cbn [c_seed c_height c_hash c_fmt c_w] in E. rewrite E. reflexivity. }
  split; [exact HP|]. intros cs. destruct (run_t_spec _ _ HC cs o 0 HI) as (o' & l1 & E1 & HL). exists o', (snd (ref_run height (ref_sig hf w16 height seed) 0 cs)), l1.
  split; [exact E1|]. split. { rewrite <- run_erase. cbn [c_height c_sig] in E1. rewrite E1. reflexivity. }
  intros e He. unfold placed in HL. rewrite Forall_forall in HL. apply (HL e He).
Qed.

(** The same for XmssBasic, for every Winternitz parameter; a signature needs height 24 or
    less (C25). *)
Theorem C89_basic_calls_are_tree_calls : forall junk seed height hash hf fmt w wp,
  supported hash hf w wp height seed ->
  exists o log0, XmssBasic_new_t junk seed (N.of_nat height) hash fmt w = Ok (o, log0) /\
    Permutation (tweaks log0) (map (key_call hf wp seed) (key_places wp height)) /\
    forall junk' idx msg, height <= 24 -> (idx < 2 ^ N.of_nat height)%N ->
      exists o' sig log1, XmssBasic_sign_t junk' (fst (base_setIndex o idx)) msg = Ok ((o', sig), log1) /\
        forall e, In e (tweaks log1) -> exists pl, In pl (key_places wp height) /\ e = key_call hf wp seed pl.
Proof.
  intros junk seed height hash hf fmt w wp HS. pose proof (cfg_of _ _ _ _ _ _ fmt HS) as HC.
  destruct (basic_new_t_spec _ _ HC junk) as (l & E & HP). eexists; exists l. split; [exact E|]. split; [exact HP|].
  intros j idx msg Hh Hi. destruct (basic_sign_t_spec _ _ HC j idx msg) as (l1 & E1 & HL); [cbn [c_height]; lia|exact Hi|].
  eexists; eexists; exists l1. split; [exact E1|]. intros e He. unfold placed in HL. rewrite Forall_forall in HL. apply (HL e He).
Qed.



Lemma key_log_placed : forall hash hf w wp seed height log, supported hash hf w wp height seed -> key_log hash w seed height log ->
  forall e, In e (tweaks log) -> exists pl, In pl (key_places wp height) /\ e = key_call hf wp seed pl.
Proof.
  intros hash hf w wp seed height log HS HL e He. destruct HL as [junk height fmt o log0 cs o' xs log1 -> E0 E1|junk height fmt o log E0|junk junk' height fmt o log0 idx msg o' sig log Hh Hi E0 E1].
  - assert (wp = w16). { destruct HS as (_ & Hw & _). change (winternitz 16) with (Some w16) in Hw. congruence. } subst wp.
    destruct (C89_fast_calls_are_tree_calls junk seed height hash hf fmt HS) as (o2 & l2 & E2 & HP & HR). rewrite E0 in E2. apply Ok_inj in E2. apply pair_equal_spec in E2. destruct E2 as (<- & <-).
    destruct (HR cs) as (o3 & xs3 & l3 & E3 & _ & H3). rewrite E1 in E3. apply Ok_inj in E3. apply pair_equal_spec in E3. destruct E3 as (_ & <-).
    unfold tweaks in He. rewrite filter_app in He. apply in_app_iff in He. destruct He as [He|He]; [|now apply H3].
    apply (Permutation_in _ HP) in He. apply in_map_iff in He. destruct He as (pl & <- & Hin). eauto.
  - destruct (C89_basic_calls_are_tree_calls junk seed height hash hf fmt w wp HS) as (o2 & l2 & E2 & HP & _). rewrite E0 in E2. apply Ok_inj in E2. apply pair_equal_spec in E2. destruct E2 as (<- & <-).
    apply (Permutation_in _ HP) in He. apply in_map_iff in He. destruct He as (pl & <- & Hin). eauto.
  - destruct (C89_basic_calls_are_tree_calls junk seed height hash hf fmt w wp HS) as (o2 & l2 & E2 & _ & HR). rewrite E0 in E2. apply Ok_inj in E2. apply pair_equal_spec in E2. destruct E2 as (<- & <-).
    destruct (HR junk' idx msg Hh Hi) as (o3 & s3 & l3 & E3 & H3). rewrite E1 in E3. apply Ok_inj in E3. apply pair_equal_spec in E3. destruct E3 as (_ & <-).
    now apply H3.
Qed.

Lemma key_places_ok : forall w wp height, winternitz w = Some wp -> height <= 30 -> forall pl, In pl (key_places wp height) -> place_ok pl.
Proof.
  intros w wp height Hw Hh. apply tree_places_ok; [lia| |]; apply winternitz_cases in Hw;
    destruct Hw as [(_ & ->)|[(_ & ->)|[(_ & ->)|(_ & ->)]]]; apply Nat.leb_le; vm_compute; reflexivity.
Qed.
Lemma key_call_adr : forall hf wp seed pl, call_adr (key_call hf wp seed pl) = place_adr pl 0.
Proof. intros hf wp seed [o c i|o j i|j i]; reflexivity. Qed.

(** Whatever is done with a key, with one object or with several, XmssFast or XmssBasic,
    even with trees of different height: two tweakable calls with the same address are the
    same call.  No address is hashed with two inputs. *)
Theorem C89_one_input_per_address : forall hash hf w wp seed h1 h2 log1 log2,
  supported hash hf w wp h1 seed -> supported hash hf w wp h2 seed ->
  key_log hash w seed h1 log1 -> key_log hash w seed h2 log2 ->
  forall e1 e2, In e1 (tweaks log1) -> In e2 (tweaks log2) -> call_adr e1 = call_adr e2 -> e1 = e2.
Proof.
  intros hash hf w wp seed h1 h2 log1 log2 S1 S2 L1 L2 e1 e2 I1 I2 E.
  destruct (key_log_placed _ _ _ _ _ _ _ S1 L1 e1 I1) as (p1 & P1 & ->). destruct (key_log_placed _ _ _ _ _ _ _ S2 L2 e2 I2) as (p2 & P2 & ->).
  rewrite !key_call_adr in E. destruct S1 as (_ & Hw & Hh1 & _). destruct S2 as (_ & _ & Hh2 & _).
  apply C34_places_separated in E; [destruct E as (-> & _); reflexivity| | |reflexivity|reflexivity].
  - eapply key_places_ok; [exact Hw|apply Hh1|exact P1].
  - eapply key_places_ok; [exact Hw|apply Hh2|exact P2].
Qed.

Lemma adr_NoDup : forall hf wp seed l, (forall pl, In pl l -> place_ok pl) -> NoDup l -> NoDup (map (fun pl => call_adr (key_call hf wp seed pl)) l).
Proof.
  induction l as [|a t IH]; intros HK ND; cbn [map]; [constructor|]. inversion ND as [|? ? N1 N2]; subst. constructor.
  - rewrite in_map_iff. intros (b & Eb & Hb). rewrite !key_call_adr in Eb.
    apply C34_places_separated in Eb; [destruct Eb as (-> & _); contradiction|apply HK; now right|apply HK; now left|reflexivity|reflexivity].
  - apply IH; [|exact N2]. intros pl Hin. apply HK. now right.
Qed.

(** Key generation makes each call once: the addresses of its log are pairwise different. *)
Theorem C89_key_generation_calls_once : forall junk seed height hash hf fmt,
  supported hash hf 16 w16 height seed ->
  exists o log, XmssFast_new_t junk seed (N.of_nat height) hash fmt = Ok (o, log) /\ NoDup (map call_adr (tweaks log)) /\
    length (tweaks log) = length (key_places w16 height).
Proof.
  intros junk seed height hash hf fmt HS. destruct (C89_fast_calls_are_tree_calls junk seed height hash hf fmt HS) as (o & l & E & HP & _).
  exists o, l. split; [exact E|]. split.
  - eapply Permutation_NoDup; [apply Permutation_sym, Permutation_map, HP|]. rewrite map_map.
    assert (HK : forall pl, In pl (key_places w16 height) -> place_ok pl) by (apply (key_places_ok 16); [reflexivity|apply HS]).
    pose proof (tree_places_NoDup (2 ^ fst (fst w16)) (snd (fst w16) + snd w16) height) as ND. fold (key_places w16 height) in ND.
    now apply adr_NoDup.
  - rewrite (Permutation_length HP). apply map_length.
Qed.

(** The hypotheses are met by a key of height 10 and a history with two signatures, and the
    log is not empty: it has the call that makes the root. *)
Example C89_case_hypotheses : supported 2 SHAKE_256 16 w16 10 seed_c /\
  exists log, key_log 2 16 seed_c 10 log /\ In (key_call SHAKE_256 w16 seed_c (TNode 9 0)) (tweaks log).
Proof.
  split; [exact sup16|]. destruct (C89_fast_calls_are_tree_calls [] seed_c 10 2 SHAKE_256 0 sup16) as (o & l & E & HP & HR).
  destruct (HR [OpSign [1%N]; OpSetIndex 5; OpSign []]) as (o' & xs & l1 & E1 & _). exists (l ++ l1). split.
  - econstructor; [reflexivity|exact E|exact E1].
  - unfold tweaks. rewrite filter_app. apply in_app_iff. left. apply (Permutation_in _ (Permutation_sym HP)). apply in_map.
    unfold key_places, tree_places. apply in_app_iff. right. apply in_flat_map. exists 9. split; [apply in_seq; lia|]. left. reflexivity.
Qed.
