(** The log of a verification: VerifyTrace.v against [sig_calls] of SpecPlace.v. *)
From Coq Require Import List NArith Arith Lia Bool.
From Verif Require Import Base Bytes Keccak HashAddress Wots XmssCommon AlgsXmss AlgsXmssFast Descriptor SpecXmss SpecApi
  SpecDomain XmssObj XmssRefine WotsProofs TreeProofs BasicProofs FastProofs DescrProofs VerifyProofs Trace SpecTweak SpecPlace TraceErase TraceProofs TraceProofs2 VerifyTrace.
Import ListNotations.
Open Scope nat_scope.

(** ** Erasure *)
Lemma pkFromSig_erase : forall hf sg m p ps a, forget (wots_pkFromSig_t hf sg m p ps a) = wots_pkFromSig hf sg m p ps a.
Proof. intros. unfold wots_pkFromSig_t, wots_pkFromSig. er. apply bind_ext. intros ds. apply gen_chains_erase. Qed.
Lemma validate_loop_erase : forall hf n i li bl br ap pos ps a, forget (validate_loop_t hf n i li bl br ap pos ps a) = validate_loop hf n i li bl br ap pos ps a.
Proof.
  intros hf. induction n; intros; cbn [validate_loop_t validate_loop]; [reflexivity|]. er.
  destruct (hash_h hf (bl ++ br) ps _) as [o a']. er. apply bind_ext. intros x. destruct (N.odd (N.shiftr li 1)); apply IHn.
Qed.
Lemma validate_authpath_erase : forall hf lf li ap h ps a, forget (validate_authpath_t hf lf li ap h ps a) = validate_authpath hf lf li ap h ps a.
Proof.
  intros. unfold validate_authpath_t, validate_authpath. er. apply bind_ext. intros x. er.
  assert (E : forget (if N.odd li then validate_loop_t hf (h - 1) 0 li x lf ap 1 ps a else validate_loop_t hf (h - 1) 0 li lf x ap 1 ps a) =
    (if N.odd li then validate_loop hf (h - 1) 0 li x lf ap 1 ps a else validate_loop hf (h - 1) 0 li lf x ap 1 ps a)).
  { destruct (N.odd li); apply validate_loop_erase. }
  rewrite E. apply bind_ext. intros [[[li' bl] br] a']. er. destruct (hash_h hf (bl ++ br) ps _) as [o a'']. reflexivity.
Qed.
Lemma Verifysig_erase : forall hf wp m s pk h, forget (xmss_Verifysig_t hf wp m s pk h) = xmss_Verifysig hf wp m s pk h.
Proof.
  intros. unfold xmss_Verifysig_t, xmss_Verifysig. er. rewrite pkFromSig_erase. apply bind_ext. intros [wpk a]. er. rewrite l_tree_erase. apply bind_ext. intros [ph a'].
  er. rewrite validate_authpath_erase. apply bind_ext. reflexivity.
Qed.
Lemma verify_body_erase : forall m s pk w, forget (verify_body_t m s pk w) = verify_body m s pk w.
Proof.
  intros. unfold verify_body_t, verify_body. destruct (negb _); [reflexivity|]. er. apply bind_ext. intros b. destruct (_ <? _)%N; [reflexivity|].
  er. apply bind_ext. intros d. destruct (negb _); [reflexivity|]. er. apply bind_ext. intros h. destruct (_ || _); [reflexivity|].
  destruct (bad_height h); [reflexivity|]. er. apply bind_ext. intros p. apply with_hash_erase. intros hf. apply Verifysig_erase.
Qed.
Lemma verify_erase : forall m s pk w, forget (verify_t m s pk w) = verify m s pk w.
Proof.
  intros. unfold verify_t, verify. rewrite <- verify_body_erase. destruct (verify_body_t m s pk w) as [[b l]|[]|]; reflexivity.
Qed.

(** ** The log *)
Section Log.
  Variables (hf : hashfn) (ps : list N) (wp : wots_params).
  Local Notation w := (N.to_nat (w_w wp)).

  Lemma chain_loop_log : forall steps k i0 x a o c, chain_adrs a o c -> (N.of_nat (i0 + k) + N.of_nat steps <= w_w wp)%N ->
    exists l, gen_chain_loop_t hf steps (N.of_nat (i0 + k)) (chain hf ps o c i0 k x) wp ps a =
        Ok (gen_chain_loop hf steps (N.of_nat (i0 + k)) (chain hf ps o c i0 k x) wp ps a, l) /\
      tw l = map (fun k => EvF (place_adr (Step o c (i0 + k)) 0) (chain hf ps o c i0 k x)) (seq k steps).
  Proof.
    induction steps; intros k i0 x a o c Ha Hs; cbn [gen_chain_loop_t gen_chain_loop].
    - exists []. split; reflexivity.
    - rewrite (proj2 (N.ltb_lt (N.of_nat (i0 + k)) (w_w wp))) by lia. destruct Ha as ((R & E3 & E4) & E5).
      assert (HA : adrs_is (setHashADRS a (N.of_nat (i0 + k))) 0 (N.of_nat o) (N.of_nat c) (N.of_nat (i0 + k))).
      { unfold adrs_is; cbn. rewrite u32_u32. repeat split; auto; apply R || now rewrite E3. }
      unfold hash_f_t. rewrite (adr_bytes _ _ _ _ _ HA). rewrite (hash_f_spec hf _ ps _ o c (i0 + k) HA).
      unfold tbind. cbn [bind]. replace (N.of_nat (i0 + k) + 1)%N with (N.of_nat (i0 + S k)) by lia.
      destruct (IHsteps (S k) i0 x (setKeyAndMask (setHashADRS a (N.of_nat (i0 + k))) 1) o c) as (l & E & El).
      { repeat split; auto; apply R. } { lia. }
      change (F_at hf ps o c (i0 + k) (chain hf ps o c i0 k x)) with (chain hf ps o c i0 (S k) x).
      rewrite E. cbn [bind]. eexists. split; [reflexivity|]. cbn [app tw filter is_tweak seq map].
      change (filter is_tweak l) with (tw l). now rewrite El.
  Qed.

  Lemma chains_log : forall jobs c a o, ots_adrs a o -> (forall x s n, In (x, s, n) jobs -> s + n <= w_w wp)%N ->
    exists l, gen_chains_t hf (N.of_nat c) jobs wp ps a = Ok (gen_chains hf (N.of_nat c) jobs wp ps a, l) /\
      tw l = flat_map (fun cj => let '(k, (x, s, n)) := cj in
         map (fun i => EvF (place_adr (Step o k (N.to_nat s + i)) 0) (chain hf ps o k (N.to_nat s) i x)) (seq 0 (N.to_nat n)))
         (combine (seq c (length jobs)) jobs).
  Proof.
    induction jobs as [|[[x s] n] t IH]; intros c a o Ha Hn; cbn [gen_chains_t gen_chains length seq combine flat_map].
    - exists []. split; reflexivity.
    - unfold gen_chain_t, gen_chain. pose proof (Hn x s n (or_introl eq_refl)) as Hb.
      assert (Hc : chain_adrs (setChainADRS a (N.of_nat c)) o c).
      { destruct Ha as (R & E3 & E4). unfold chain_adrs, ots_adrs; cbn. rewrite u32_u32. split; auto. }
      destruct (chain_loop_log (N.to_nat n) 0 (N.to_nat s) x (setChainADRS a (N.of_nat c)) o c Hc) as (l1 & E1 & L1). { lia. }
      destruct (gen_chain_loop_spec hf (N.to_nat n) (N.to_nat s) x wp ps (setChainADRS a (N.of_nat c)) o c Hc) as (a1 & G1 & A1). { lia. }
      rewrite Nat.add_0_r, N2Nat.id in E1. cbn [chain] in E1. rewrite N2Nat.id in G1. rewrite G1 in E1 |- *. rewrite E1. unfold tbind. cbn [bind].
      replace (N.of_nat c + 1)%N with (N.of_nat (S c)) by lia.
      destruct (IH (S c) a1 o (proj1 A1)) as (l2 & E2 & L2). { intros; apply Hn with x0; now right. } rewrite E2. cbn [bind].
      destruct (gen_chains hf (N.of_nat (S c)) t wp ps a1) as [outs a2].
      cbn [bind]. eexists. split; [reflexivity|]. cbn [app]. rewrite !app_nil_r, tw_app, L1, L2. reflexivity.
  Qed.

  Lemma pkFromSig_log : forall a o sg msg ds, ots_adrs a o -> (1 <= w_w wp)%N -> wots_digits msg wp = Ok ds -> length ds = w_len wp ->
    Forall (fun d => d <= w_w wp - 1)%N ds -> length sg = w_len wp ->
    exists l r, wots_pkFromSig_t hf sg msg wp ps a = Ok (r, l) /\ wots_pkFromSig hf sg msg wp ps a = Ok r /\ tw l = chain_calls hf ps w o ds sg.
  Proof.
    intros a o sg msg ds Ha Hw Ed Hd Hb Hs. unfold wots_pkFromSig_t, wots_pkFromSig. rewrite Ed. unfold tlift, tbind. cbn [bind].
    destruct (chains_log (map (fun cd => (fst cd, snd cd, (w_w wp - 1 - snd cd)%N)) (combine sg ds)) 0 a o Ha) as (l & E & L).
    { intros x st n Hin. apply in_map_iff in Hin. destruct Hin as ([y d] & E & Hin). cbn in E. injection E as <- <- <-.
      apply in_combine_r in Hin. rewrite Forall_forall in Hb. specialize (Hb _ Hin). cbv beta in Hb. lia. }
    change (N.of_nat 0) with 0%N in E. rewrite E. cbn [bind]. eexists. eexists. split; [reflexivity|]. split; [reflexivity|]. cbn [app]. rewrite L.
    rewrite map_length, combine_length, Hs, Hd, Nat.min_id.
    rewrite (combine_as_map _ _ sg ds [] 0%N) by congruence. rewrite Hs, map_map, combine_seq_map. unfold chain_calls. rewrite Hs.
    rewrite !flat_map_concat_map, map_map. f_equal. apply map_ext. intros c. cbn [fst snd]. f_equal. f_equal. lia.
  Qed.

  (** L-tree *)
  Lemma l_pass_log : forall o j l pk bound a,
    lt_adrs a o -> u32 (a5 a) = u32 (N.of_nat j) -> (length l <= length pk) ->
    firstn (length l) pk = l -> bound = length l / 2 ->
    logs (l_tree_pass_t hf bound ps (pk, a)) (l_tree_pass hf bound ps (pk, a))
      (fun _ lg => lg = map (fun k => EvH (place_adr (LNode o j k) 0) (nth (2 * k) l [] ++ nth (2 * k + 1) l [])) (seq 0 bound)).
  Proof.
    intros o j l pk bound a Ha Hh Hl Hf Hb. unfold l_tree_pass_t, l_tree_pass, tfor_up, for_up.
    assert (Hnth : forall i d, i < length l -> nth i pk d = nth i l d).
    { intros. rewrite <- Hf at 1. rewrite <- (firstn_skipn (length l) pk) at 1. rewrite app_nth1; auto. rewrite firstn_length. lia. }
    assert (H2 : 2 * bound <= length l) by (subst bound; apply Nat.mul_div_le; lia).
    eapply logs_mono; [eapply (logs_for _ (fun i (s : list (list N) * adrs) lg => let '(pk', a') := s in
        lt_adrs a' o /\ u32 (a5 a') = u32 (N.of_nat j) /\ length pk' = length pk /\
        (forall d k, i <= k -> nth k pk' d = nth k pk d) /\
        lg = map (fun k => EvH (place_adr (LNode o j k) 0) (nth (2 * k) l [] ++ nth (2 * k + 1) l [])) (seq 0 i)))|].
    - repeat split; auto; apply Ha.
    - cbn [plus]. intros i [pk1 a1] lg Hi ((R & E3 & E4) & E5 & HL & Hhi & Elg).
      apply logs_bind_lift. intros x Ex. apply logs_bind_lift. intros y Ey.
      rewrite (get_nth _ pk1 (2 * i) []) in Ex by lia. rewrite (get_nth _ pk1 (2 * i + 1) []) in Ey by lia.
      apply Ok_inj in Ex. apply Ok_inj in Ey. rewrite Hhi, Hnth in Ex, Ey by lia.
      assert (HA : adrs_is (setTreeIndex a1 (N.of_nat i)) 1 (N.of_nat o) (N.of_nat j) (N.of_nat i)).
      { unfold adrs_is; cbn. rewrite u32_u32, E3. repeat split; auto; apply R. }
      unfold hash_h_t. rewrite (adr_bytes _ _ _ _ _ HA). rewrite (hash_h_spec hf _ _ ps _ 1 o j i HA).
      apply logs_call. apply logs_bind_lift. intros pk2 Epk. rewrite set_ok in Epk by lia. apply Ok_inj in Epk. subst pk2.
      apply logs_ret. cbn [a5 setKeyAndMask setTreeIndex]. repeat split; auto; try apply R.
      + now rewrite upd_length.
      + intros d k Hk. rewrite nth_upd_other by lia. apply Hhi. lia.
      + rewrite Elg, seq_S, map_app. cbn [plus map]. f_equal. cbn [tw filter is_tweak]. f_equal. now rewrite Ex, Ey.
    - cbv beta. intros [pk' a'] lg _ (_ & _ & _ & _ & E). exact E.
  Qed.

  Lemma l_loop_log : forall fuel o j l pk a,
    lt_adrs a o -> u32 (a5 a) = u32 (N.of_nat j) -> 1 <= length l <= length pk ->
    firstn (length l) pk = l -> length l <= fuel ->
    logs (l_tree_loop_t hf fuel (length l) (N.of_nat j) ps (pk, a)) (l_tree_loop hf fuel (length l) (N.of_nat j) ps (pk, a))
      (fun _ lg => lg = ltree_calls hf ps fuel o j l).
  Proof.
    induction fuel; intros o j r pk a Ha Hh Hl Hf Hfu; [lia|].
    cbn [l_tree_loop_t l_tree_loop ltree_calls]. destruct (length r <=? 1) eqn:E1; [now apply logs_ret|].
    apply Nat.leb_gt in E1.
    eapply logs_bind; [apply (l_pass_log o j r pk _ a Ha Hh (proj2 Hl) Hf eq_refl)|].
    cbv beta. intros [pk1 a1] lg EP Elg.
    destruct (l_tree_pass_spec hf ps o j pk r (length r / 2) a Ha Hh (proj2 Hl) Hf eq_refl)
      as (pk1' & a1' & EP' & Ha1 & HL1 & Hlo & Hhi). rewrite EP in EP'. apply Ok_inj in EP'. apply pair_equal_spec in EP'. destruct EP' as (<- & <-).
    set (r' := l_level hf ps o j 0 r) in *.
    assert (HLL : length r' = (length r + 1) / 2) by apply l_level_length. set (L := length r) in *.
    assert (Hdiv2 : L = 2 * (L / 2) + L mod 2) by (apply Nat.div_mod; lia).
    assert (Hmod : L mod 2 < 2) by (apply Nat.mod_upper_bound; lia).
    assert (Hnth : forall i d, i < L -> nth i pk d = nth i r d).
    { intros. rewrite <- Hf at 1. rewrite <- (firstn_skipn L pk) at 1. rewrite app_nth1; auto. rewrite firstn_length. lia. }
    apply logs_bind_lift. intros [pk2 l'] E2.
    assert (Hnext : l' = length r' /\ length pk2 = length pk /\ firstn l' pk2 = r').
    { destruct (Nat.odd L) eqn:EO.
      - assert (HM : L mod 2 = 1). { rewrite <- Nat.bit0_odd, Nat.bit0_eqb in EO. now apply Nat.eqb_eq. }
        rewrite (get_nth _ pk1 (L - 1) []) in E2 by lia. cbn [bind] in E2. rewrite set_ok in E2 by lia. cbn [bind] in E2.
        apply Ok_inj in E2. apply pair_equal_spec in E2. destruct E2 as (<- & <-).
        assert (HLL2 : length r' = L / 2 + 1).
        { rewrite HLL. replace (L + 1) with (0 + (L / 2 + 1) * 2) by lia. rewrite Nat.div_add by lia. reflexivity. }
        split; [now rewrite HLL2|]. split; [now rewrite upd_length|].
        apply firstn_nth_ext; auto.
        + rewrite upd_length. lia.
        + intros d i Hi. destruct (Nat.eq_dec (L / 2) i) as [<-|Hne].
          * rewrite nth_upd_same by lia. unfold r', L. rewrite l_level_nth_last by exact EO. fold L.
            rewrite Hhi by lia. rewrite Hnth by lia. apply nth_indep. unfold L in *. lia.
          * rewrite nth_upd_other by auto. apply Hlo. lia.
      - assert (HM : L mod 2 = 0). { rewrite <- Nat.bit0_odd, Nat.bit0_eqb in EO. apply Nat.eqb_neq in EO. lia. }
        apply Ok_inj in E2. apply pair_equal_spec in E2. destruct E2 as (<- & <-).
        assert (HLL2 : length r' = L / 2).
        { rewrite HLL. replace (L + 1) with (1 + (L / 2) * 2) by lia. rewrite Nat.div_add by lia. reflexivity. }
        split; [now rewrite HLL2|]. split; [exact HL1|].
        apply firstn_nth_ext; [lia|exact HLL2|]. intros. apply Hlo. lia. }
    destruct Hnext as (-> & Lpk2 & Hf2). replace (N.of_nat j + 1)%N with (N.of_nat (S j)) by lia.
    assert (Hdd : (L + 1) / 2 < L).
    { apply Nat.div_lt_upper_bound; lia. }
    eapply logs_mono; [apply (IHfuel o (S j) r')|].
    - destruct Ha1 as (R & E3 & E4). repeat split; auto; apply R.
    - cbn. apply u32_u32.
    - rewrite HLL. split; [|lia]. apply Nat.div_le_lower_bound; lia.
    - exact Hf2.
    - rewrite HLL. lia.
    - cbv beta. intros _ lg2 _ ->. rewrite Elg. reflexivity.
  Qed.

  Lemma l_tree_log : forall a o pk, lt_adrs a o -> length pk = w_len wp -> 1 <= w_len wp ->
    logs (l_tree_t hf wp pk ps a) (l_tree hf wp pk ps a) (fun _ lg => lg = ltree_calls hf ps (length pk) o 0 pk).
  Proof.
    intros a o pk Ha HL Hlen. unfold l_tree_t, l_tree. eapply logs_bind.
    - pose proof (l_loop_log (w_len wp) o 0 pk pk (setTreeHeight a 0)) as G. rewrite HL in G.
      change (N.of_nat 0) with 0%N in G. apply G; [|reflexivity|lia| |lia].
      + destruct Ha as (R & E3 & E4). repeat split; auto; apply R.
      + rewrite <- HL. apply firstn_all.
    - cbv beta. intros [r b] l _ ->. apply logs_bind_lift. intros lf _. apply logs_ret. now rewrite app_nil_r, HL.
  Qed.

  Lemma validate_loop_log : forall n i idx bl br path pos a, nd_adrs a -> length (skipn pos path) = n ->
    logs (validate_loop_t hf n (N.of_nat i) (N.of_nat idx) bl br path pos ps a) (validate_loop hf n (N.of_nat i) (N.of_nat idx) bl br path pos ps a)
      (fun r lg => exists li bl' br' a', r = (N.of_nat li, bl', br', a') /\ nd_adrs a' /\
         lg ++ [EvH (place_adr (TNode (i + n) (li / 2)) 0) (bl' ++ br')] =
         EvH (place_adr (TNode i (idx / 2)) 0) (bl ++ br) ::
         path_calls hf ps (S i) (idx / 2) (rand_hash hf ps 2 0 i (idx / 2) bl br) (skipn pos path)).
  Proof.
    induction n; intros i idx bl br path pos a Ha Hn; cbn [validate_loop_t validate_loop].
    - apply logs_ret. exists idx, bl, br, a. split; [reflexivity|]. split; [exact Ha|]. apply length_zero_iff_nil in Hn. rewrite Hn. cbn [path_calls app]. now rewrite Nat.add_0_r.
    - rewrite shiftr1_of_nat. unfold hash_h_t. rewrite (nd_adr a i (idx / 2) Ha).
      destruct (hash_node hf ps a i (idx / 2) bl br Ha) as (a1 & E1 & Ha1). rewrite E1. apply logs_call.
      destruct (skipn pos path) as [|c rest] eqn:Es; [discriminate|].
      assert (Hp : pos < length path).
      { destruct (Nat.lt_ge_cases pos (length path)); auto. rewrite skipn_all2 in Es by auto. discriminate. }
      assert (Eg : get path pos = Ok c).
      { apply get_ok. rewrite <- (firstn_skipn pos path), Es.
        rewrite nth_error_app2 by (rewrite firstn_length_le; lia).
        rewrite firstn_length_le by lia. now rewrite Nat.sub_diag. }
      assert (Er : skipn (S pos) path = rest).
      { clear - Es. revert path Es. induction pos; intros [|x path] Es; try discriminate.
        - cbn in Es. injection Es as -> ->. reflexivity.
        - cbn [skipn] in Es. exact (IHpos path Es). }
      rewrite Eg. unfold tlift. cbn [bind]. rewrite odd_of_nat. replace (N.of_nat i + 1)%N with (N.of_nat (S i)) by lia.
      assert (Hr : length (skipn (S pos) path) = n) by (rewrite Er; now injection Hn).
      set (nx := rand_hash hf ps 2 0 i (idx / 2) bl br) in *.
      cbn [path_calls].
      match goal with |- logs (tbind (Ok (c, [])) ?k) ?r ?Q => assert (G : logs (k c) r Q) end.
      2:{ unfold tbind. cbn [bind]. destruct (Nat.odd (idx / 2)) eqn:Eo;
          [destruct (validate_loop_t hf n (N.of_nat (S i)) (N.of_nat (idx / 2)) c nx path (S pos) ps a1) as [[? ?]|?|] |
           destruct (validate_loop_t hf n (N.of_nat (S i)) (N.of_nat (idx / 2)) nx c path (S pos) ps a1) as [[? ?]|?|]]; exact G. }
      destruct (Nat.odd (idx / 2)) eqn:Eo.
      + eapply logs_mono; [apply (IHn (S i) (idx / 2) c nx path (S pos) a1 Ha1 Hr)|].
        cbv beta. intros r lg _ (li & bl' & br' & a' & -> & Ha' & EL). exists li, bl', br', a'. split; [reflexivity|]. split; [exact Ha'|].
        cbn [tw filter is_tweak app]. f_equal. replace (i + S n) with (S i + n) by lia. rewrite EL, Er. reflexivity.
      + eapply logs_mono; [apply (IHn (S i) (idx / 2) nx c path (S pos) a1 Ha1 Hr)|].
        cbv beta. intros r lg _ (li & bl' & br' & a' & -> & Ha' & EL). exists li, bl', br', a'. split; [reflexivity|]. split; [exact Ha'|].
        cbn [tw filter is_tweak app]. f_equal. replace (i + S n) with (S i + n) by lia. rewrite EL, Er. reflexivity.
  Qed.

  Lemma validate_log : forall lf idx path h a, nd_adrs a -> length path = h -> 1 <= h ->
    logs (validate_authpath_t hf lf (N.of_nat idx) path h ps a) (validate_authpath hf lf (N.of_nat idx) path h ps a)
      (fun _ lg => lg = path_calls hf ps 0 idx lf path).
  Proof.
    intros lf idx path h a Ha HL Hh. unfold validate_authpath_t, validate_authpath.
    destruct path as [|c rest]; [cbn in HL; lia|].
    apply logs_bind_lift. intros x Ex. change (get (c :: rest) 0) with (Ok c) in Ex. apply Ok_inj in Ex. subst x. rewrite odd_of_nat.
    cbn [length] in HL. assert (Hs : length (skipn 1 (c :: rest)) = h - 1) by (cbn; lia).
    eapply logs_bind with (Q1 := fun r lg => exists li bl' br' a', r = (N.of_nat li, bl', br', a') /\ nd_adrs a' /\
         lg ++ [EvH (place_adr (TNode (h - 1) (li / 2)) 0) (bl' ++ br')] = path_calls hf ps 0 idx lf (c :: rest)).
    - cbn [path_calls]. destruct (Nat.odd idx).
      + eapply logs_mono; [apply (validate_loop_log (h - 1) 0 idx c lf (c :: rest) 1 a Ha Hs)|]. cbv beta. intros r lg _ G. exact G.
      + eapply logs_mono; [apply (validate_loop_log (h - 1) 0 idx lf c (c :: rest) 1 a Ha Hs)|]. cbv beta. intros r lg _ G. exact G.
    - cbv beta. intros r lg _ (li & bl & br & a' & -> & Ha' & EL). cbv iota beta. rewrite shiftr1_of_nat.
      unfold hash_h_t. rewrite (nd_adr a' (h - 1) (li / 2) Ha').
      destruct (hash_node hf ps a' (h - 1) (li / 2) bl br Ha') as (a2 & E2 & _). rewrite E2. apply logs_call. apply logs_ret.
      cbn [tw filter is_tweak app fst]. exact EL.
  Qed.
End Log.

(** What xmss_Verifysig hashes. *)
Lemma Verifysig_log : forall hf wp msg sig pk h, wots_ok wp -> 1 <= h ->
  let idx := N.to_nat (from_be (slice 0 4 sig)) in
  let dg := digest hf (slice 4 32 sig) (slice 0 32 pk) idx msg in
  logs (xmss_Verifysig_t hf wp msg sig pk h) (xmss_Verifysig hf wp msg sig pk h)
    (fun _ lg => lg = sig_calls hf (slice 32 32 pk) (N.to_nat (w_w wp)) idx (digits_of wp dg)
       (chunks (w_len wp) 32 (skipn 36 sig)) (chunks h 32 (skipn (36 + w_keysize wp) sig))).
Proof.
  intros hf wp msg sig pk h HP Hh idx dg. unfold xmss_Verifysig_t, xmss_Verifysig.
  destruct (wots_ok_facts wp HP) as (Hw & _ & _ & Hlen & _).
  set (ps := slice 32 32 pk). set (root := slice 0 32 pk) in *. set (R := slice 4 32 sig) in *.
  assert (Ei : from_be (slice 0 4 sig) = N.of_nat idx) by (unfold idx; now rewrite N2Nat.id). rewrite Ei.
  assert (Ed : h_msg hf msg (R ++ root ++ to_byte 32 (N.of_nat idx)) = dg).
  { unfold dg, h_msg, digest. now rewrite core_hash_keyed. }
  unfold h_msg_t. rewrite Ed. apply logs_call. cbn [tw filter is_tweak app].
  set (cs := chunks (w_len wp) 32 (skipn 36 sig)). set (ap := chunks h 32 (skipn (36 + w_keysize wp) sig)).
  destruct (digits_of_ok wp dg HP) as (E1 & L1 & F1). { apply keyed_length. }
  assert (Lcs : length cs = w_len wp) by apply chunks_length.
  destruct (pkFromSig_log hf ps wp (setOTSADRS (setType zero_adrs 0) (N.of_nat idx)) idx cs dg (digits_of wp dg) (ots_adrs_init idx) Hw E1 L1 F1 Lcs) as (l2 & r2 & T2 & S2 & L2).
  destruct (wots_pkFromSig_spec hf wp dg cs ps (setOTSADRS (setType zero_adrs 0) (N.of_nat idx)) idx (digits_of wp dg)) as (a1 & E2 & _); auto.
  { apply ots_adrs_init. }
  rewrite S2 in E2. apply Ok_inj in E2. subst r2. rewrite T2, S2. apply logs_call. cbn [bind]. rewrite L2.
  unfold sig_calls. set (pkr := pk_of_sig hf (N.to_nat (w_w wp)) ps idx (digits_of wp dg) cs).
  assert (Lpk : length pkr = w_len wp) by (unfold pkr; now rewrite pk_of_sig_length).
  destruct (l_tree_spec hf wp ps pkr (setLtreeADRS (setType zero_adrs 1) (N.of_nat idx)) idx (lt_adrs_init idx) Lpk Hlen) as (a2 & E3 & _).
  eapply logs_bind; [apply (l_tree_log hf ps wp _ idx pkr (lt_adrs_init idx) Lpk Hlen)|].
  cbv beta. intros [ph a3] lg EL ->. rewrite E3 in EL. apply Ok_inj in EL. apply pair_equal_spec in EL. destruct EL as (<- & _). cbv iota beta.
  eapply logs_bind; [apply (validate_log hf ps _ idx ap h _ nd_adrs_init (chunks_length _ _ _) Hh)|].
  cbv beta. intros rt lg _ ->. apply logs_ret. rewrite app_nil_r. reflexivity.
Qed.

(** What verify hashes, for inputs of the right sizes. *)
Lemma verify_log : forall w wp hf msg sig pk, winternitz w = Some wp -> all_bytes pk -> length pk = 67 ->
  hash_of_id (nth 0 pk 0 mod 16)%N = Some hf ->
  let h := 2 * N.to_nat (nth 1 pk 0 mod 16)%N in
  let len := snd (fst wp) + snd wp in
  4 <= h -> length sig = 36 + 32 * len + 32 * h ->
  let i := N.to_nat (from_be (firstn 4 sig)) in
  let dg := digest hf (firstn 32 (skipn 4 sig)) (firstn 32 (skipn 3 pk)) i msg in
  exists b l, verify_t msg sig pk w = Ok (b, l) /\ verify msg sig pk w = Ok b /\
    tweaks l = sig_calls hf (firstn 32 (skipn 35 pk)) (2 ^ fst (fst wp)) i
      (msg_digits (fst (fst wp)) (snd (fst wp)) (snd wp) dg) (cells len (skipn 36 sig)) (cells h (skipn (36 + 32 * len) sig)).
Proof.
  intros w wp hf msg sig pk Hw Hpk EL Hhf h len Hh Hs i dg.
  destruct (wparams_ok w wp Hw) as (Ewp & HP & E1 & E2 & E3 & E4 & E5 & E6 & E7).
  pose proof (base_size_bound w wp Hw) as HB. set (hh := (nth 1 pk 0 mod 16)%N) in *.
  assert (Hhh : (hh < 16)%N) by (apply N.mod_upper_bound; lia).
  assert (EB : base_size wp = 36 + 32 * len) by reflexivity.
  assert (G : logs (verify_body_t msg sig pk w) (verify_body msg sig pk w) (fun _ lg => lg =
    sig_calls hf (firstn 32 (skipn 35 pk)) (2 ^ fst (fst wp)) i
      (msg_digits (fst (fst wp)) (snd (fst wp)) (snd wp) dg) (cells len (skipn 36 sig)) (cells h (skipn (36 + 32 * len) sig)))).
  { unfold verify_body_t, verify_body. rewrite EL. cbn [Nat.eqb negb]. apply logs_bind_lift. intros base Eb.
    rewrite (sig_base_size w _ Hw) in Eb. apply Ok_inj in Eb. subst base.
    rewrite (proj2 (N.ltb_ge _ _)) by lia. apply logs_bind_lift. intros d Ed.
    unfold descr_fromExtendedPK in Ed. rewrite EL in Ed. cbn [Nat.eqb negb] in Ed. unfold descr_getSize in Ed.
    rewrite firstn_3 in Ed by lia. rewrite fromBytes_arith in Ed by (now apply all_bytes_nth). apply Ok_inj in Ed. subst d. cbn [d_sig d_hash d_height].
    change (negb (0 =? 0)%N) with false. cbn iota. apply logs_bind_lift. intros ht Eh.
    rewrite (height_from_size w _ _ Hw) in Eh. fold hh in Eh |- *.
    assert (Ed : length sig - base_size wp = h * 32) by lia. rewrite Ed, Nat.mod_mul, Nat.div_mul in Eh by lia.
    rewrite (proj2 (Nat.ltb_ge _ _)) in Eh by lia. cbn [orb negb Nat.eqb] in Eh. apply Ok_inj in Eh. subst ht.
    assert (E8 : u8 (N.of_nat h) = (2 * hh)%N). { unfold u8. rewrite N.mod_small by lia. lia. } rewrite E8.
    rewrite (proj2 (N.eqb_neq (2 * hh) 0)) by lia. rewrite N.eqb_refl. cbn [orb negb]. rewrite bad_height_even.
    rewrite (proj2 (N.leb_gt hh 1)) by lia. apply logs_bind_lift. intros p Ep.
    assert (EH : N.to_nat (2 * hh) = h) by lia. rewrite EH in Ep |- *. unfold xmss_set_params in Ep.
    assert (EG : ((h <=? 2) || (2 <? 2) || negb ((h - 2) mod 2 =? 0))%bool = false).
    { rewrite (proj2 (Nat.leb_gt h 2)) by lia. change (2 <? 2) with false. cbn [orb].
      apply negb_false_iff, Nat.eqb_eq. replace (h - 2) with ((N.to_nat hh - 1) * 2) by (unfold h; lia). apply Nat.mod_mul. lia. }
    rewrite EG, Ewp in Ep. cbn [bind] in Ep. apply Ok_inj in Ep. subst p. cbn [x_wots]. unfold with_hash. rewrite Hhf.
    eapply logs_mono; [apply (Verifysig_log hf (wparams w) msg sig (skipn descr_getSize pk) h HP); lia|].
    cbv beta. intros _ lg _ ->. unfold descr_getSize, slice. rewrite skipn_add. change (3 + 32) with 35. change (skipn 0 sig) with sig.
    rewrite skipn_add. change (3 + 0) with 3. fold i. fold dg. rewrite E1, E2, E7. unfold w_keysize. rewrite E7, !cells_chunks.
    rewrite (digits_of_msg w _ _ Hw) by apply keyed_length. fold len. replace (len * 32) with (32 * len) by lia. reflexivity. }
  pose proof (verify_spec w wp hf msg sig pk Hw Hpk Hhf) as EV.
  unfold verify in EV. destruct (verify_body msg sig pk w) as [b|e|] eqn:Eb.
  - destruct G as (l & El & Hl). exists b, l. unfold verify_t, verify. rewrite El, Eb. split; [reflexivity|]. split; [reflexivity|]. exact Hl.
  - exfalso. destruct e; [|discriminate].
    assert (HN : verify_body msg sig pk w <> Exn InvalidArgument).
    { unfold verify_body. rewrite EL. cbn [Nat.eqb negb]. rewrite (sig_base_size w _ Hw). cbn [bind].
      rewrite (proj2 (N.ltb_ge _ _)) by lia. unfold descr_fromExtendedPK. rewrite EL. cbn [Nat.eqb negb]. unfold descr_getSize.
      rewrite firstn_3 by lia. rewrite fromBytes_arith by (now apply all_bytes_nth). cbn [bind d_sig d_hash d_height].
      change (negb (0 =? 0)%N) with false. cbn iota. rewrite (height_from_size w _ _ Hw). fold hh.
      assert (Ed : length sig - base_size wp = h * 32) by lia. rewrite Ed, Nat.mod_mul, Nat.div_mul by lia.
      rewrite (proj2 (Nat.ltb_ge _ _)) by lia. cbn [orb negb Nat.eqb bind].
      assert (E8 : u8 (N.of_nat h) = (2 * hh)%N). { unfold u8. rewrite N.mod_small by lia. lia. } rewrite E8.
      rewrite (proj2 (N.eqb_neq (2 * hh) 0)) by lia. rewrite N.eqb_refl. cbn [orb negb]. rewrite bad_height_even.
      rewrite (proj2 (N.leb_gt hh 1)) by lia. assert (EH : N.to_nat (2 * hh) = h) by lia. rewrite EH. unfold xmss_set_params.
      assert (EG : ((h <=? 2) || (2 <? 2) || negb ((h - 2) mod 2 =? 0))%bool = false).
      { rewrite (proj2 (Nat.leb_gt h 2)) by lia. change (2 <? 2) with false. cbn [orb].
        apply negb_false_iff, Nat.eqb_eq. replace (h - 2) with ((N.to_nat hh - 1) * 2) by (unfold h; lia). apply Nat.mod_mul. lia. }
      rewrite EG, Ewp. cbn [bind x_wots]. unfold with_hash. rewrite Hhf. rewrite Verifysig_spec by (auto; lia). discriminate. }
    now apply HN.
  - discriminate.
Qed.
