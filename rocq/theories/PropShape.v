(** C92: the sequence of hash calls reveals nothing about the secrets. *)
From Coq Require Import List NArith Arith Lia Bool.
From Verif Require Import Base Bytes Keccak HashAddress Wots XmssCommon AlgsXmss AlgsXmssFast Descriptor SpecXmss SpecApi
  SpecForge XmssObj KeccakLemmas XmssRefine WotsProofs TreeProofs BasicProofs BdsProofs FastProofs PropObj PropForge
  Trace SpecTweak SpecShape TraceErase TraceProofs TraceProofs2 PropTweak TraceShape CasesXmss.
Import ListNotations.
Open Scope nat_scope.

Section TwoKeys.
  Variables (c c' : key_cfg) (wp : nat * nat * nat).
  Hypothesis HC : cfg_ok c wp.
  Hypothesis HC' : cfg_ok c' wp.
  Hypothesis EW : c_w c = c_w c'.
  Hypothesis EH : c_height c = c_height c'.
  Local Notation H := (c_height c).

  Lemma params_eq : c_params c = c_params c'.
  Proof. unfold c_params. now rewrite EW, EH. Qed.

  Lemma sk_len : forall d i, cfg_ok d wp -> length (c_sk d wp i) = 132 /\ slice 0 4 (c_sk d wp i) = to_byte 4 i.
  Proof.
    intros d i HD. destruct (key_lengths (c_seed d)) as (L1 & L2 & L3). destruct (sk_parts d wp HD i) as (_ & _ & _ & _ & P5).
    assert (E0 : slice 0 4 (c_sk d wp i) = to_byte 4 i).
    { rewrite cfg_sk. destruct (sk_at_slices _ _ _ _ (c_params d) L1 L2 L3 (cfg_root_len d wp HD) i) as (E0 & _). exact E0. }
    split; [|exact E0]. rewrite <- (firstn_skipn 4 (c_sk d wp i)), app_length, P5, !app_length, L1, L2, L3, (cfg_root_len d wp HD).
    unfold slice in E0. change (skipn 0 ?l) with l in E0. rewrite E0, to_byte_length. reflexivity.
  Qed.
  Lemma sk_skr : forall i, skr (c_sk c wp i) (c_sk c' wp i).
  Proof. intros i. destruct (sk_len c i HC) as (A1 & A2), (sk_len c' i HC') as (B1 & B2). split; [unfold dl; congruence|congruence]. Qed.

  (** The same index and bookkeeping. *)
  Definition pair_inv (i : N) (o o' : xfast) : Prop := fast_inv c wp i o /\ fast_inv c' wp i o' /\ bdr (xf_state o) (xf_state o').

  Lemma rel_initialize : forall junk junk', length junk = length junk' ->
    exists o o' l l', initialize_tree_t junk (c_seed c) (N.of_nat (c_height c)) (c_hash c) (c_fmt c) (c_w c) = Ok (o, l) /\
      initialize_tree_t junk' (c_seed c') (N.of_nat (c_height c')) (c_hash c') (c_fmt c') (c_w c') = Ok (o', l') /\
      pair_inv 0 o o' /\ map shape l = map shape l'.
  Proof.
    intros junk junk' Hj. destruct (initialize_tree_t_spec c wp HC junk) as (o & l & E & HI & _). destruct (initialize_tree_t_spec c' wp HC' junk') as (o' & l' & E' & HI' & _).
    exists o, o', l, l'. split; [exact E|]. split; [exact E'|].
    assert (R : rel (fun x y => bdr (xf_state x) (xf_state y)) (initialize_tree_t junk (c_seed c) (N.of_nat (c_height c)) (c_hash c) (c_fmt c) (c_w c))
      (initialize_tree_t junk' (c_seed c') (N.of_nat (c_height c')) (c_hash c') (c_fmt c') (c_w c'))).
    { unfold initialize_tree_t. rewrite (cfg_height_ok c wp HC), (cfg_height_ok c' wp HC'), !Nat2N.id, (cfg_set_params c wp HC), (cfg_set_params c' wp HC').
      pose proof (co_h _ _ HC) as Hb. pose proof (co_h _ _ HC') as Hb'. 
      rewrite <- params_eq. eapply rel_bind; [apply rel_lift, rr_eq|]. intros q ? <-.
      rewrite !(proj2 (N.leb_gt _ _)) by lia. unfold with_hash. rewrite (co_hash _ _ HC), (co_hash _ _ HC').
      eapply rel_bind with (R := pr (fun _ _ => True) bdr).
      - unfold xmssfast_Genkeypair_t. eapply rel_bind; [apply rel_setup|].
        + apply dl_slice. unfold dl. rewrite !shake256_length. reflexivity.
        + exact Hj.
        + unfold fresh_bds. repeat split; cbn [b_stack b_auth b_keep b_treehash b_retain]; apply Forall2_repeat; repeat split.
        + intros [rt st] [rt' st'] (_ & G). apply rel_ret. split; [exact I|exact G].
      - intros [sk st] [sk' st'] (_ & G). apply rel_ret. exact G. }
    rewrite E, E' in R. destruct R as (R1 & R2). split; [split; [exact HI|split; [exact HI'|exact R1]]|exact R2].
  Qed.

  Lemma rel_setIndex : forall o o' i j, pair_inv i o o' ->
    rel (fun x y => snd x = snd y /\ bdr (xf_state (fst x)) (xf_state (fst y))) (xfast_setIndex_t o j) (xfast_setIndex_t o' j).
  Proof.
    intros [b st] [b' st'] i j ((Eb & _) & (Eb' & _) & HB). cbn [xf_base xf_state] in *. subst b b'. unfold xfast_setIndex_t.
    cbn [xf_base xf_state c_obj xb_hash xb_params xb_sk]. unfold with_hash. rewrite (co_hash _ _ HC), (co_hash _ _ HC'), <- params_eq.
    eapply rel_bind; [apply rel_update_idx; [apply sk_skr|exact HB]|]. intros [[sk s] r] [[sk' s'] r'] ((G1 & G2) & G3). cbn [fst snd] in *.
    destruct r, r'; cbn [sumr] in G3; try contradiction; subst; apply rel_ret; (split; [reflexivity|exact G2]).
  Qed.

  Definition digits_agree (a a' : op) (x x' : obs) : Prop :=
    forall m m' s s', a = OpSign m -> a' = OpSign m' -> x = ObsSig s -> x' = ObsSig s' ->
      sig_digits (c_hf c) wp H (c_seed c) m s = sig_digits (c_hf c') wp (c_height c') (c_seed c') m' s'.

  Lemma own_digits : forall d i m, cfg_ok d wp -> i < 2 ^ c_height d ->
    let k := N.of_nat i in
    wots_digits (h_msg (c_hf d) m (prf (c_hf d) (to_byte 32 k) (slice 36 32 (c_sk d wp k)) ++ slice 100 32 (c_sk d wp k) ++ to_byte 32 k)) (x_wots (c_params d)) =
    Ok (sig_digits (c_hf d) wp (c_height d) (c_seed d) m (c_sig d wp i m)).
  Proof.
    intros d i m HD Hi k. destruct (sk_parts d wp HD k) as (P1 & P2 & P3 & P4 & P5). rewrite P2, P4.
    set (dg := h_msg _ _ _). assert (L : length dg = 32) by apply ch_len.
    destruct (digits_of_ok (x_wots (c_params d)) dg (cfg_wots d wp HD) L) as (D1 & _). rewrite D1. f_equal.
    change (x_wots (c_params d)) with (wparams (c_w d)). rewrite (digits_of_msg (c_w d) wp dg (co_w _ _ HD) L). unfold sig_digits. f_equal.
    assert (Hi32 : (N.of_nat i < 2 ^ 32)%N).
    { pose proof (pow_H_bound d wp HD) as HPW. change (2 ^ 32)%N with 4294967296%N. change (2 ^ 30)%N with 1073741824%N in *.
      assert (N.of_nat i < 2 ^ N.of_nat (c_height d))%N by (rewrite <- pow_N_nat in Hi; lia). lia. }
    destruct (owner_parts (c_hf d) (c_w d) wp (c_height d) (c_seed d) i (randomizer (c_hf d) (key_prf (c_seed d)) i) m (co_w _ _ HD) (keyed_length _ _ _ _) Hi32) as (Q1 & Q2 & _).
    rewrite <- ref_sig_owner in Q1, Q2. change (ref_sig (c_hf d) wp (c_height d) (c_seed d) i m) with (c_sig d wp i m) in Q1, Q2.
    rewrite Q1, Q2, Nat2N.id. unfold dg, digest, randomizer, h_msg. rewrite core_hash_keyed, prf_PRF. reflexivity.
  Qed.

  Lemma rel_one : forall a a' o o' i, op_like a a' -> pair_inv i o o' ->
    exists o1 x l o1' x' l' k, step_t o a = Ok ((o1, x), l) /\ step_t o' a' = Ok ((o1', x'), l') /\
      (digits_agree a a' x x' -> map shape l = map shape l' /\ pair_inv k o1 o1').
  Proof.
    intros a a' o o' i HA HI. pose proof HI as (I1 & I2 & HB).
    destruct (step_t_spec c wp HC o i a I1) as (o1 & x & l & E & E0 & J1 & _). destruct (step_t_spec c' wp HC' o' i a' I2) as (o1' & x' & l' & E' & E0' & J2 & _).
    exists o1, x, l, o1', x', l', (fst (ref_step H (c_sig c wp) i a)). split; [exact E|]. split; [exact E'|]. intros HD.
    assert (EK : fst (ref_step (c_height c') (c_sig c' wp) i a') = fst (ref_step H (c_sig c wp) i a)).
    { rewrite <- EH. destruct a, a'; cbn [op_like] in HA; try contradiction; cbn [ref_step].
      - now destruct (_ <? _)%N.
      - subst. now destruct (_ && _). }
    rewrite EK in J2.
    assert (R : rel (fun y z => bdr (xf_state (fst y)) (xf_state (fst z))) (step_t o a) (step_t o' a')).
    { destruct a as [m|j], a' as [m'|j']; cbn [op_like] in HA; try contradiction; unfold step_t.
      - eapply rel_bind with (R := fun y z => bdr (xf_state (fst y)) (xf_state (fst z))); [|intros [? ?] [? ?] G; apply rel_ret; exact G].
        unfold xfast_sign_t.
        assert (EI : forall d q, cfg_ok d wp -> fast_inv d wp i q -> getIndex (xf_base q) = i).
        { intros d q Hd (Eb & Hi & _). rewrite Eb. unfold getIndex. cbn [c_obj xb_sk]. rewrite (sk_index d wp Hd) by auto.
          unfold u32. apply N.mod_small. pose proof (pow_H_bound d wp Hd) as HPW. change (2 ^ 32)%N with 4294967296%N.
          change (2 ^ 30)%N with 1073741824%N in *. lia. }
        rewrite (EI c o HC I1), (EI c' o' HC' I2).
        destruct (setIndex_spec c wp HC o i i I1) as (q & S1 & H1). destruct (setIndex_spec c' wp HC' o' i i I2) as (q' & S1' & H1').
        pose proof (rel_setIndex o o' i i HI) as RS. rewrite <- setIndex_erase in S1, S1'.
        destruct (xfast_setIndex_t o i) as [[[p1 r1] la]|e|] eqn:Ea; [|discriminate|discriminate].
        destruct (xfast_setIndex_t o' i) as [[[p1' r1'] la']|e|] eqn:Ea'; [|discriminate|discriminate].
        cbn [forget] in S1, S1'. apply Ok_inj in S1. apply pair_equal_spec in S1. destruct S1 as (-> & ->). apply Ok_inj in S1'. apply pair_equal_spec in S1'. destruct S1' as (-> & ->).
        rewrite <- EH in *. rewrite N.leb_refl, andb_true_r in *. destruct RS as ((_ & RB) & RL). cbn [fst] in RB.
        eapply rel_bind with (R := fun y z => y = (q, if (i <? 2 ^ N.of_nat H)%N then inr i else inl InvalidArgument) /\ z = (q', if (i <? 2 ^ N.of_nat H)%N then inr i else inl InvalidArgument)); [split; [split; reflexivity|exact RL]|].
        intros ? ? (-> & ->). destruct (i <? 2 ^ N.of_nat H)%N eqn:El; [|apply rel_ret; exact RB].
        apply N.ltb_lt in El. pose proof H1 as (Eb1 & Hi1 & _). pose proof H1' as (Eb1' & Hi1' & _). rewrite Eb1, Eb1'.
        cbn [c_obj xb_hash xb_params xb_sk]. unfold with_hash. rewrite (co_hash _ _ HC), (co_hash _ _ HC'), <- params_eq.
        eapply rel_bind; [apply rel_Signmsg; [apply sk_skr|exact RB|exact HA|]|intros [[? ?] ?] [[? ?] ?] ((_ & G) & _); apply rel_ret; exact G].
        rewrite (sk_index c wp HC i Hi1). assert (Hn : N.to_nat i < 2 ^ H) by (rewrite <- pow_N_nat; lia).
        pose proof (own_digits c (N.to_nat i) m HC Hn) as D1. rewrite N2Nat.id in D1. cbv zeta in D1. rewrite D1.
        rewrite params_eq. rewrite EH in Hn. pose proof (own_digits c' (N.to_nat i) m' HC' Hn) as D2. rewrite N2Nat.id in D2. cbv zeta in D2. rewrite D2. f_equal.
        apply HD; try reflexivity.
        + destruct (step_spec c wp HC o i (OpSign m) I1) as (o3 & E3 & _). rewrite E0 in E3. cbn [ref_step] in E3. rewrite (proj2 (N.ltb_lt _ _) El) in E3. cbn [snd] in E3. congruence.
        + destruct (step_spec c' wp HC' o' i (OpSign m') I2) as (o3 & E3 & _). rewrite E0' in E3. cbn [ref_step] in E3. rewrite <- EH, (proj2 (N.ltb_lt _ _) El) in E3. cbn [snd] in E3. congruence.
      - subst j'. eapply rel_bind; [apply (rel_setIndex o o' i j HI)|]. intros [? ?] [? ?] (_ & G). apply rel_ret. exact G. }
    rewrite E, E' in R. destruct R as (R1 & R2). split; [exact R2|]. split; [exact J1|]. split; [exact J2|exact R1].
  Qed.

  Lemma rel_run : forall cs cs', Forall2 op_like cs cs' -> forall o o' i y os l y' os' l', pair_inv i o o' ->
    run_t o cs = Ok ((y, os), l) -> run_t o' cs' = Ok ((y', os'), l') ->
    (forall n m m' s s', nth_error cs n = Some (OpSign m) -> nth_error cs' n = Some (OpSign m') ->
       nth_error os n = Some (ObsSig s) -> nth_error os' n = Some (ObsSig s') ->
       sig_digits (c_hf c) wp H (c_seed c) m s = sig_digits (c_hf c') wp (c_height c') (c_seed c') m' s') ->
    map shape l = map shape l'.
  Proof.
    induction 1 as [|a a' cs cs' Ha Hcs IH]; intros o o' i y os l y' os' l' HI E E' HD; cbn [run_t] in E, E'.
    - unfold tret in E, E'. apply Ok_inj in E. apply Ok_inj in E'. apply pair_equal_spec in E. apply pair_equal_spec in E'. destruct E as (_ & <-). destruct E' as (_ & <-). reflexivity.
    - destruct (rel_one a a' o o' i Ha HI) as (o1 & x & la & o1' & x' & la' & k & S1 & S1' & HR).
      rewrite S1 in E. rewrite S1' in E'. unfold tbind at 1 in E. unfold tbind at 1 in E'. cbn [bind] in E, E'.
      destruct (run_t o1 cs) as [[[y1 xs] lb]|e|] eqn:R1; [|discriminate|discriminate]. destruct (run_t o1' cs') as [[[y1' xs'] lb']|e|] eqn:R1'; [|discriminate|discriminate].
      unfold tbind, tret in E, E'. cbn [bind] in E, E'. rewrite !app_nil_r in E, E'.
      apply Ok_inj in E. apply Ok_inj in E'. apply pair_equal_spec in E. apply pair_equal_spec in E'. destruct E as (E & <-). destruct E' as (E' & <-).
      apply pair_equal_spec in E. apply pair_equal_spec in E'. destruct E as (<- & <-). destruct E' as (<- & <-).
      destruct HR as (M & HI1). { intros m m' s s' -> -> -> ->. apply (HD 0); reflexivity. }
      rewrite !map_app, M. f_equal. apply (IH o1 o1' k y1 xs lb y1' xs' lb' HI1 R1 R1'). intros n m m' s s' A1 A2 A3 A4. apply (HD (S n)); assumption.
  Qed.
End TwoKeys.

(** Take any two keys of the same height: different secrets, also different hash functions or
    address formats.  Constructing their objects makes hash calls of the same shape, one by
    one.  Do to both objects the same kind of calls: then the two sequences of hash calls have
    the same shape, provided signatures at the same position have the same message digits,
    which everyone can compute from message, signature and public key.  So nothing the secret
    seeds determine, beyond what the signatures show, decides which hash calls are made. *)
Theorem C92_fast_hash_calls_reveal_only_digits : forall junk junk' seed seed' height hash hash' hf hf' fmt fmt',
  length junk = length junk' -> supported hash hf 16 w16 height seed -> supported hash' hf' 16 w16 height seed' ->
  exists o log0 o' log0', XmssFast_new_t junk seed (N.of_nat height) hash fmt = Ok (o, log0) /\
    XmssFast_new_t junk' seed' (N.of_nat height) hash' fmt' = Ok (o', log0') /\ map shape log0 = map shape log0' /\
    forall cs cs', Forall2 op_like cs cs' ->
      exists y os log1 y' os' log1', run_t o cs = Ok ((y, os), log1) /\ run_t o' cs' = Ok ((y', os'), log1') /\
        ((forall n m m' s s', nth_error cs n = Some (OpSign m) -> nth_error cs' n = Some (OpSign m') ->
            nth_error os n = Some (ObsSig s) -> nth_error os' n = Some (ObsSig s') ->
            sig_digits hf w16 height seed m s = sig_digits hf' w16 height seed' m' s') ->
         map shape log1 = map shape log1').
Proof.
  intros junk junk' seed seed' height hash hash' hf hf' fmt fmt' Hj HS HS'. pose proof (cfg_of _ _ _ _ _ _ fmt HS) as HC. pose proof (cfg_of _ _ _ _ _ _ fmt' HS') as HC'.
  destruct (rel_initialize _ _ _ HC HC' eq_refl eq_refl junk junk' Hj) as (o & o' & l & l' & E & E' & HI & HL). exists o, l, o', l'.
  assert (N1 : forall j sd hs h f x, supported hs h 16 w16 height sd -> initialize_tree_t j sd (N.of_nat height) hs f 16 = Ok x -> XmssFast_new_t j sd (N.of_nat height) hs f = Ok x).
  { intros j sd hs h f [x lx] (_ & _ & Hh & _ & Hl) Ex. unfold XmssFast_new_t, check_seed. rewrite Hl. cbn [Nat.eqb negb].
    rewrite (proj2 (N.ltb_ge _ _)) by lia. unfold tlift, tbind at 1. cbn [bind]. rewrite Ex. reflexivity. }
  split; [exact (N1 _ _ _ _ _ _ HS E)|]. split; [exact (N1 _ _ _ _ _ _ HS' E')|]. split; [exact HL|]. intros cs cs' Hcs.
  pose proof HI as (I1 & I2 & _). destruct (run_t_spec _ _ HC cs o 0 I1) as (y & l1 & R & _). destruct (run_t_spec _ _ HC' cs' o' 0 I2) as (y' & l1' & R' & _).
  eexists; eexists; exists l1; eexists; eexists; exists l1'. split; [exact R|]. split; [exact R'|]. intros HD.
  exact (rel_run _ _ _ HC HC' eq_refl eq_refl cs cs' Hcs o o' 0%N _ _ _ _ _ _ HI R R' HD).
Qed.

(** Without signatures there is no condition: key generation and setIndex make the same
    sequence of hash calls for every key of the height. *)
Corollary C92_setIndex_calls_reveal_nothing : forall junk seed seed' height hash hash' hf hf' fmt fmt' js,
  supported hash hf 16 w16 height seed -> supported hash' hf' 16 w16 height seed' ->
  exists o log0 o' log0' y os log1 y' os' log1', XmssFast_new_t junk seed (N.of_nat height) hash fmt = Ok (o, log0) /\
    XmssFast_new_t junk seed' (N.of_nat height) hash' fmt' = Ok (o', log0') /\ map shape log0 = map shape log0' /\
    run_t o (map OpSetIndex js) = Ok ((y, os), log1) /\ run_t o' (map OpSetIndex js) = Ok ((y', os'), log1') /\ map shape log1 = map shape log1'.
Proof.
  intros junk seed seed' height hash hash' hf hf' fmt fmt' js HS HS'.
  destruct (C92_fast_hash_calls_reveal_only_digits junk junk seed seed' height hash hash' hf hf' fmt fmt' eq_refl HS HS') as (o & l & o' & l' & E & E' & HL & HR).
  destruct (HR (map OpSetIndex js) (map OpSetIndex js)) as (y & os & l1 & y' & os' & l1' & R & R' & HM).
  { clear. induction js; cbn [map]; constructor; [reflexivity|assumption]. }
  exists o, l, o', l', y, os, l1, y', os', l1'. repeat (split; [assumption|]). apply HM. intros n m m' s s' A. exfalso.
  apply nth_error_In, in_map_iff in A. destruct A as (j & Ej & _). discriminate.
Qed.

(** The same for XmssBasic, for every Winternitz parameter, key generation and a signature at
    any index of a tree of height 24 or less (C25). *)
Theorem C92_basic_hash_calls_reveal_only_digits : forall junk junk' seed seed' height hash hash' hf hf' fmt fmt' w wp,
  length junk = length junk' -> supported hash hf w wp height seed -> supported hash' hf' w wp height seed' ->
  exists o log0 o' log0', XmssBasic_new_t junk seed (N.of_nat height) hash fmt w = Ok (o, log0) /\
    XmssBasic_new_t junk' seed' (N.of_nat height) hash' fmt' w = Ok (o', log0') /\ map shape log0 = map shape log0' /\
    forall j j' idx msg msg', height <= 24 -> (idx < 2 ^ N.of_nat height)%N -> length j = length j' -> length msg = length msg' ->
      exists y sig log1 y' sig' log1', XmssBasic_sign_t j (fst (base_setIndex o idx)) msg = Ok ((y, sig), log1) /\
        XmssBasic_sign_t j' (fst (base_setIndex o' idx)) msg' = Ok ((y', sig'), log1') /\
        (sig_digits hf wp height seed msg sig = sig_digits hf' wp height seed' msg' sig' -> map shape log1 = map shape log1').
Proof.
  intros junk junk' seed seed' height hash hash' hf hf' fmt fmt' w wp Hj HS HS'. pose proof (cfg_of _ _ _ _ _ _ fmt HS) as HC. pose proof (cfg_of _ _ _ _ _ _ fmt' HS') as HC'.
  destruct (basic_new_t_spec _ _ HC junk) as (l & E & _). destruct (basic_new_t_spec _ _ HC' junk') as (l' & E' & _).
  set (c := mkCfg hf hash w fmt height seed) in *. set (c' := mkCfg hf' hash' w fmt' height seed') in *.
  exists (c_obj c wp 0), l, (c_obj c' wp 0), l'. split; [exact E|]. split; [exact E'|]. split.
  - assert (R : rel (fun _ _ => True) (XmssBasic_new_t junk (c_seed c) (N.of_nat (c_height c)) (c_hash c) (c_fmt c) (c_w c))
      (XmssBasic_new_t junk' (c_seed c') (N.of_nat (c_height c')) (c_hash c') (c_fmt c') (c_w c'))).
    { pose proof (co_h _ _ HC) as Hb. pose proof (co_h _ _ HC') as Hb'. unfold XmssBasic_new_t.
      unfold check_seed. rewrite (co_seed _ _ HC), (co_seed _ _ HC'). cbn [Nat.eqb negb]. rewrite !(proj2 (N.ltb_ge _ _)) by lia.
      eapply rel_bind; [apply rel_lift, rr_eq|]. intros _ _ _.
      rewrite (cfg_height_ok c wp HC), (cfg_height_ok c' wp HC'), !Nat2N.id, (cfg_set_params c wp HC), (cfg_set_params c' wp HC').
      change (c_params c') with (c_params c). eapply rel_bind; [apply rel_lift, rr_eq|]. intros q ? <-.
      rewrite !(proj2 (N.leb_gt _ _)) by lia. unfold with_hash. rewrite (co_hash _ _ HC), (co_hash _ _ HC').
      eapply rel_bind with (R := fun _ _ => True); [|intros; now apply rel_ret].
      unfold xmss_Genkeypair_t. eapply rel_bind; [apply rel_treehash; [|exact Hj]|intros; now apply rel_ret].
      apply dl_slice. unfold dl. rewrite !shake256_length. reflexivity. }
    rewrite E, E' in R. apply R.
  - intros j j' idx msg msg' Hh Hi Hjj Hm. 
    destruct (basic_sign_t_spec _ _ HC j idx msg) as (l1 & E1 & _); [cbn [c c_height]; lia|exact Hi|].
    destruct (basic_sign_t_spec _ _ HC' j' idx msg') as (l1' & E1' & _); [cbn [c' c_height]; lia|exact Hi|].
    eexists; eexists; exists l1; eexists; eexists; exists l1'. split; [exact E1|]. split; [exact E1'|]. intros HD.
    assert (R : rel (fun _ _ => True) (XmssBasic_sign_t j (c_obj c wp idx) msg) (XmssBasic_sign_t j' (c_obj c' wp idx) msg')).
    { unfold XmssBasic_sign_t. cbn [c_obj xb_hash xb_params xb_sk]. unfold with_hash. rewrite (co_hash _ _ HC), (co_hash _ _ HC').
      change (c_params c') with (c_params c). eapply rel_bind with (R := fun _ _ => True); [|intros [? ?] [? ?] _; now apply rel_ret].
      apply rel_basic_Signmsg; [exact Hjj|apply (sk_skr c c' wp HC HC')|exact Hm|].
      rewrite (sk_index c wp HC idx) by (cbn [c c_height]; lia).
      assert (Hn : N.to_nat idx < 2 ^ height) by (rewrite <- pow_N_nat; lia).
      pose proof (own_digits c c' wp eq_refl eq_refl c (N.to_nat idx) msg HC Hn) as D1. rewrite N2Nat.id in D1. cbv zeta in D1. rewrite D1.
      pose proof (own_digits c c' wp eq_refl eq_refl c' (N.to_nat idx) msg' HC' Hn) as D2. rewrite N2Nat.id in D2. cbv zeta in D2. change (x_wots (c_params c')) with (x_wots (c_params c)) in D2. rewrite D2.
      f_equal. exact HD. }
    rewrite E1, E1' in R. apply R.
Qed.

(** Two different keys, of different hash functions, meet the hypotheses, and the logs are
    not empty. *)
Definition seed_d : list N := map N.of_nat (seq 100 48).
Example C92_case_hypotheses : supported 2 SHAKE_256 16 w16 10 seed_c /\ supported 0 SHA2_256 16 w16 10 seed_d /\ seed_c <> seed_d /\
  Forall2 op_like [OpSign [1%N]; OpSetIndex 5] [OpSign [2%N]; OpSetIndex 5] /\
  (exists o log0, XmssFast_new_t [] seed_d (N.of_nat 10) 0 0 = Ok (o, log0) /\ log0 <> []) /\
  shape (EvF [1%N] [2%N]) <> shape (EvF [3%N] [2%N]).
Proof.
  assert (SD : supported 0 SHA2_256 16 w16 10 seed_d).
  { split; [reflexivity|]. split; [reflexivity|]. split; [lia|]. split; [reflexivity|reflexivity]. }
  split; [exact sup16|]. split; [exact SD|]. split; [vm_compute; discriminate|]. split; [repeat constructor|]. split; [|discriminate].
  destruct (C89_fast_calls_are_tree_calls [] seed_d 10 0 SHA2_256 0 SD) as (o & l & E & HP & _). exists o, l. split; [exact E|]. intros ->.
  apply Permutation.Permutation_nil in HP. apply map_eq_nil in HP.
  assert (X : In (SpecDomain.TNode 9 0) (key_places w16 10)).
  { unfold key_places, SpecDomain.tree_places. apply in_app_iff. right. apply in_flat_map. exists 9. split; [apply in_seq; lia|]. left. reflexivity. }
  rewrite HP in X. destruct X.
Qed.
