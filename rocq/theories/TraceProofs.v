(** Proofs about Trace.v: the log of leaf generation. *)
From Coq Require Import List NArith Arith Lia Bool.
From Verif Require Import Base Bytes Keccak HashAddress Wots XmssCommon AlgsXmss AlgsXmssFast Descriptor XmssObj
  SpecXmss SpecDomain SpecTweak XmssRefine WotsProofs TreeProofs Trace.
Import ListNotations.
Open Scope nat_scope.

Lemma Ok_inj : forall A (a b : A), Ok a = Ok b -> a = b.
Proof. intros A a b H. congruence. Qed.

(** The tweakable calls of a log. *)
Definition is_tweak (e : hcall) : bool := match e with EvF _ _ | EvH _ _ => true | _ => false end.
Definition tw (l : list hcall) : list hcall := filter is_tweak l.
Lemma tw_app : forall a b, tw (a ++ b) = tw a ++ tw b.
Proof. apply filter_app. Qed.

(** [m] is [r] with a log; [Q] holds of the result and the tweakable calls. *)
Definition logs {A} (m : tres A) (r : res A) (Q : A -> list hcall -> Prop) : Prop :=
  match r with
  | Ok a => exists l, m = Ok (a, l) /\ Q a (tw l)
  | Exn e => m = Exn e
  | UB => m = UB
  end.
Lemma logs_ok : forall A (m : tres A) r a Q, logs m r Q -> r = Ok a -> exists l, m = Ok (a, l) /\ Q a (tw l).
Proof. intros A m r a Q H ->. exact H. Qed.
Lemma logs_ret : forall A (a : A) (Q : A -> list hcall -> Prop), Q a [] -> logs (tret a) (Ok a) Q.
Proof. intros. exists []. split; [reflexivity|exact H]. Qed.
Lemma logs_lift : forall A (r : res A) (Q : A -> list hcall -> Prop), (forall a, r = Ok a -> Q a []) -> logs (tlift r) r Q.
Proof. intros A [a|e|] Q H; try reflexivity. exists []. split; [reflexivity|]. now apply H. Qed.
Lemma logs_mono : forall A (m : tres A) r (Q Q' : A -> list hcall -> Prop), logs m r Q -> (forall a l, r = Ok a -> Q a l -> Q' a l) -> logs m r Q'.
Proof. intros A m [a|e|] Q Q' H HQ; try exact H. destruct H as (l & E & H). exists l. auto. Qed.
Lemma logs_bind : forall A B (m : tres A) r (k : A -> tres B) s Q1 Q,
  logs m r Q1 -> (forall a l, r = Ok a -> Q1 a l -> logs (k a) (s a) (fun b l' => Q b (l ++ l'))) -> logs (tbind m k) (bind r s) Q.
Proof.
  intros A B m [a|e|] k s Q1 Q H HK; cbn [logs bind] in *.
  - destruct H as (l & -> & H1). specialize (HK a (tw l) eq_refl H1). unfold tbind. cbn [bind].
    destruct (s a) as [b|e|]; cbn [logs] in *.
    + destruct HK as (l' & -> & H2). exists (l ++ l'). split; [reflexivity|]. now rewrite tw_app.
    + now rewrite HK.
    + now rewrite HK.
  - now subst.
  - now subst.
Qed.
Lemma logs_bind_lift : forall A B (r : res A) (k : A -> tres B) s Q,
  (forall a, r = Ok a -> logs (k a) (s a) Q) -> logs (tbind (tlift r) k) (bind r s) Q.
Proof.
  intros. eapply logs_bind; [apply (logs_lift _ r (fun _ l => l = [])); auto|]. cbv beta. intros a l E ->. now apply H.
Qed.
Lemma logs_call : forall A B (v : A) l (k : A -> tres B) r (Q : B -> list hcall -> Prop),
  logs (k v) r (fun b l' => Q b (tw l ++ l')) -> logs (tbind (Ok (v, l)) k) r Q.
Proof.
  intros A B v l k r Q H. unfold tbind. cbn [bind]. destruct r as [b|e|]; cbn [logs] in *.
  - destruct H as (l' & -> & H). exists (l ++ l'). split; [reflexivity|]. now rewrite tw_app.
  - now rewrite H.
  - now rewrite H.
Qed.
Lemma logs_for : forall S (I : nat -> S -> list hcall -> Prop) f g n a s,
  I a s [] ->
  (forall i s' l, a <= i < a + n -> I i s' l -> logs (f i s') (g i s') (fun s'' l' => I (Datatypes.S i) s'' (l ++ l'))) ->
  logs (tfor_from n a f s) (for_from n a g s) (fun s' l => I (a + n) s' l).
Proof.
  intros S I f g n a s HI Hstep.
  assert (G : forall n a s l, I a s l ->
    (forall i s' l, a <= i < a + n -> I i s' l -> logs (f i s') (g i s') (fun s'' l' => I (Datatypes.S i) s'' (l ++ l'))) ->
    logs (tfor_from n a f s) (for_from n a g s) (fun s' l' => I (a + n) s' (l ++ l'))).
  { clear. induction n; intros a s l HI Hstep; cbn [tfor_from for_from].
    - apply logs_ret. now rewrite Nat.add_0_r, app_nil_r.
    - eapply logs_bind; [apply (Hstep a s l); [lia|exact HI]|]. cbv beta. intros s1 l1 _ HI1.
      eapply logs_mono; [apply (IHn (Datatypes.S a) s1 (l ++ l1) HI1)|].
      + intros i s' l' Hi. apply Hstep. lia.
      + cbv beta. intros s2 l2 _ H2. rewrite app_assoc. now replace (a + Datatypes.S n) with (Datatypes.S a + n) by lia. }
  exact (G n a s [] HI Hstep).
Qed.

Lemma adr_bytes : forall a t x y z, adrs_is a t x y z -> addr_to_byte (setKeyAndMask a 0) = adr t x y z 0.
Proof.
  intros a t x y z (R & E3 & E4 & E5 & E6). rewrite addr_to_byte_adr by exact R. cbn [a3 a4 a5 a6 a7 setKeyAndMask].
  now apply adr_ext.
Qed.

Section Leaf.
  Variables (hf : hashfn) (ssd ps : list N) (wp : wots_params).
  Hypothesis Hw : (1 <= w_w wp)%N.
  Hypothesis Hlen : 1 <= w_len wp.
  Local Notation w := (N.to_nat (w_w wp)).
  Local Notation len := (w_len wp).

  (** The call the specification has at a place. *)
  Definition call_at (pl : place) : hcall :=
    match pl with
    | Step _ _ _ => EvF (place_adr pl 0) (content hf w len ssd ps pl)
    | _ => EvH (place_adr pl 0) (content hf w len ssd ps pl)
    end.

  Lemma gen_chain_loop_t_spec : forall steps i out a o c,
    chain_adrs a o c -> (N.of_nat i + N.of_nat steps <= w_w wp)%N -> out = chain hf ps o c 0 i (chain_start hf ssd o c) ->
    exists l, gen_chain_loop_t hf steps (N.of_nat i) out wp ps a = Ok (gen_chain_loop hf steps (N.of_nat i) out wp ps a, l) /\
      tw l = map (fun k => call_at (Step o c k)) (seq i steps).
  Proof.
    induction steps; intros i out a o c Ha Hs Eo; cbn [gen_chain_loop_t gen_chain_loop].
    - exists []. split; reflexivity.
    - rewrite (proj2 (N.ltb_lt (N.of_nat i) (w_w wp))) by lia. destruct Ha as ((R & E3 & E4) & E5).
      assert (HA : adrs_is (setHashADRS a (N.of_nat i)) 0 (N.of_nat o) (N.of_nat c) (N.of_nat i)).
      { unfold adrs_is; cbn. rewrite u32_u32. repeat split; auto; apply R || now rewrite E3. }
      unfold hash_f_t. rewrite (adr_bytes _ _ _ _ _ HA). rewrite (hash_f_spec hf out ps _ o c i HA).
      unfold tbind. cbn [bind]. replace (N.of_nat i + 1)%N with (N.of_nat (S i)) by lia.
      destruct (IHsteps (S i) (F_at hf ps o c i out) (setKeyAndMask (setHashADRS a (N.of_nat i)) 1) o c) as (l & E & El).
      { repeat split; auto; apply R. } { lia. } { cbn [chain]. now rewrite Eo. }
      rewrite E. cbn [bind]. eexists. split; [reflexivity|]. cbn [app tw filter is_tweak seq map].
      change (filter is_tweak l) with (tw l). rewrite El. f_equal. cbn [call_at content place_adr]. now rewrite <- Eo.
  Qed.

  (** Chains [c], [c+1], ... from their starts, the [k]-th advanced by [n k] steps. *)
  Lemma gen_chains_t_spec : forall m c a o (n : nat -> N), ots_adrs a o -> (forall k, n k <= w_w wp)%N ->
    let jobs := map (fun k => (chain_start hf ssd o k, 0%N, n k)) (seq c m) in
    exists l, gen_chains_t hf (N.of_nat c) jobs wp ps a = Ok (gen_chains hf (N.of_nat c) jobs wp ps a, l) /\
      tw l = flat_map (fun k => map (fun i => call_at (Step o k i)) (seq 0 (N.to_nat (n k)))) (seq c m).
  Proof.
    induction m; intros c a o n Ha Hn jobs; subst jobs; cbn [seq map gen_chains_t gen_chains flat_map].
    - exists []. split; reflexivity.
    - unfold gen_chain_t, gen_chain.
      assert (Hc : chain_adrs (setChainADRS a (N.of_nat c)) o c).
      { destruct Ha as (R & E3 & E4). unfold chain_adrs, ots_adrs; cbn. rewrite u32_u32. split; auto. }
      destruct (gen_chain_loop_t_spec (N.to_nat (n c)) 0 (chain_start hf ssd o c) (setChainADRS a (N.of_nat c)) o c Hc) as (l1 & E1 & L1).
      { specialize (Hn c). lia. } { reflexivity. }
      destruct (gen_chain_loop_spec hf (N.to_nat (n c)) 0 (chain_start hf ssd o c) wp ps (setChainADRS a (N.of_nat c)) o c Hc) as (a1 & G1 & A1).
      { specialize (Hn c). lia. }
      change (N.of_nat 0) with 0%N in E1, G1. rewrite G1 in E1 |- *. rewrite E1. unfold tbind. cbn [bind].
      replace (N.of_nat c + 1)%N with (N.of_nat (S c)) by lia.
      destruct (IHm (S c) a1 o n (proj1 A1) Hn) as (l2 & E2 & L2). cbv zeta in E2. rewrite E2. cbn [bind].
      destruct (gen_chains hf (N.of_nat (S c)) (map (fun k => (chain_start hf ssd o k, 0%N, n k)) (seq (S c) m)) wp ps a1) as [outs a2].
      cbn [bind]. eexists. split; [reflexivity|]. cbn [app]. rewrite !app_nil_r, tw_app, L1, L2. reflexivity.
  Qed.

  Lemma expand_seed_t_spec : forall o, exists l,
    expand_seed_t hf (ots_seed hf ssd o) len = Ok (map (chain_start hf ssd o) (seq 0 len), l) /\ tw l = [].
  Proof.
    intros o. unfold expand_seed_t.
    assert (G : forall n a, exists l, tmap (fun i => prf_t hf (to_byte 32 (N.of_nat i)) (ots_seed hf ssd o)) (seq a n)
      = Ok (map (chain_start hf ssd o) (seq a n), l) /\ tw l = []); [|apply G].
    induction n; intros a; cbn [seq tmap map].
    - exists []. split; reflexivity.
    - destruct (IHn (S a)) as (l & E & L). rewrite E. unfold prf_t, tbind. cbn [bind].
      eexists. split; [rewrite prf_PRF; reflexivity|]. cbn [app tw filter is_tweak]. rewrite app_nil_r. exact L.
  Qed.
  Lemma expand_seed_eq : forall o, expand_seed hf (ots_seed hf ssd o) len = map (chain_start hf ssd o) (seq 0 len).
  Proof. intros o. unfold expand_seed. apply map_ext. intros c. now rewrite prf_PRF. Qed.

  Lemma wots_pkgen_t_spec : forall a o, ots_adrs a o ->
    exists l, wots_pkgen_t hf (ots_seed hf ssd o) wp ps a = Ok (wots_pkgen hf (ots_seed hf ssd o) wp ps a, l) /\
      tw l = map call_at (flat_map (fun c => map (Step o c) (seq 0 (w - 1))) (seq 0 len)).
  Proof.
    intros a o Ha. unfold wots_pkgen_t, wots_pkgen. destruct (expand_seed_t_spec o) as (l0 & E0 & L0). rewrite E0, expand_seed_eq.
    unfold tbind at 1. cbn [bind]. rewrite map_map.
    destruct (gen_chains_t_spec len 0 a o (fun _ => w_w wp - 1)%N Ha) as (l1 & E1 & L1). { intros; lia. }
    cbv zeta in E1. change (N.of_nat 0) with 0%N in E1. rewrite E1. cbn [bind]. eexists. split; [reflexivity|].
    rewrite tw_app, L0, L1. cbn [app]. rewrite !flat_map_concat_map, concat_map, map_map. f_equal. apply map_ext. intros c.
    rewrite map_map. f_equal. f_equal. lia.
  Qed.

  Lemma wots_sign_t_spec : forall a o msg ds, ots_adrs a o -> wots_digits msg wp = Ok ds -> length ds = len ->
    Forall (fun d => d < w_w wp)%N ds ->
    exists l r, wots_sign_t hf msg (ots_seed hf ssd o) wp ps a = Ok (r, l) /\ wots_sign hf msg (ots_seed hf ssd o) wp ps a = Ok r /\
      tw l = map call_at (flat_map (fun c => map (Step o c) (seq 0 (N.to_nat (nth c ds 0%N)))) (seq 0 len)).
  Proof.
    intros a o msg ds Ha Ed Hd Hb. unfold wots_sign_t, wots_sign. rewrite Ed. cbn [bind tlift].
    destruct (expand_seed_t_spec o) as (l0 & E0 & L0). rewrite expand_seed_eq.
    unfold tlift. cbn [bind]. unfold tbind at 1. cbn [bind]. rewrite E0. unfold tbind at 1. cbn [bind].
    assert (Ej : map (fun cd : list N * N => (fst cd, 0%N, snd cd)) (combine (map (chain_start hf ssd o) (seq 0 len)) ds) =
      map (fun k => (chain_start hf ssd o k, 0%N, nth k ds 0%N)) (seq 0 len)).
    { rewrite <- Hd. clear. rewrite <- (map_id ds) at 2. generalize dependent ds. intros ds.
      assert (G : forall b, map (fun cd : list N * N => (fst cd, 0%N, snd cd)) (combine (map (chain_start hf ssd o) (seq b (length ds))) ds)
        = map (fun k => (chain_start hf ssd o k, 0%N, nth (k - b) ds 0%N)) (seq b (length ds))).
      { induction ds as [|d ds IH]; intros b; [reflexivity|]. cbn [length seq map combine fst snd]. rewrite Nat.sub_diag. cbn [nth]. f_equal.
        rewrite IH. apply map_ext_in. intros k Hk. apply in_seq in Hk. replace (k - b) with (S (k - S b)) by lia. reflexivity. }
      rewrite map_id, G. apply map_ext. intros k. now rewrite Nat.sub_0_r. }
    rewrite Ej.
    destruct (gen_chains_t_spec len 0 a o (fun k => nth k ds 0%N) Ha) as (l1 & E1 & L1).
    { intros k. destruct (nth_in_or_default k ds 0%N) as [Hin| ->]; [|lia]. rewrite Forall_forall in Hb. specialize (Hb _ Hin). cbv beta in Hb. lia. }
    cbv zeta in E1. change (N.of_nat 0) with 0%N in E1. rewrite E1. cbn [bind].
    eexists. eexists. split; [reflexivity|]. split; [reflexivity|]. rewrite !app_nil_l, tw_app, L0, L1. cbn [app].
    rewrite !flat_map_concat_map, concat_map, map_map. f_equal. apply map_ext. intros c. now rewrite map_map.
  Qed.

  (** ** L-tree *)
  Local Notation row := (l_row hf w len ssd ps).

  Lemma l_tree_pass_t_spec : forall o j pk bound a,
    lt_adrs a o -> u32 (a5 a) = u32 (N.of_nat j) -> (length (row o j) <= length pk) ->
    firstn (length (row o j)) pk = row o j -> bound = length (row o j) / 2 ->
    logs (l_tree_pass_t hf bound ps (pk, a)) (l_tree_pass hf bound ps (pk, a))
      (fun _ l => l = map call_at (map (LNode o j) (seq 0 bound))).
  Proof.
    intros o j pk bound a Ha Hh Hl Hf Hb. unfold l_tree_pass_t, l_tree_pass, tfor_up, for_up.
    set (l := row o j) in *.
    assert (Hnth : forall i d, i < length l -> nth i pk d = nth i l d).
    { intros. rewrite <- Hf at 1. rewrite <- (firstn_skipn (length l) pk) at 1. rewrite app_nth1; auto. rewrite firstn_length. lia. }
    assert (H2 : 2 * bound <= length l) by (subst bound; apply Nat.mul_div_le; lia).
    eapply logs_mono; [eapply (logs_for _ (fun i (s : list (list N) * adrs) lg => let '(pk', a') := s in
        lt_adrs a' o /\ u32 (a5 a') = u32 (N.of_nat j) /\ length pk' = length pk /\
        (forall d k, i <= k -> nth k pk' d = nth k pk d) /\ lg = map call_at (map (LNode o j) (seq 0 i))))|].
    - repeat split; auto; apply Ha.
    - cbn [plus]. intros i [pk1 a1] lg Hi ((R & E3 & E4) & E5 & HL & Hhi & Elg).
      apply logs_bind_lift. intros x Ex. apply logs_bind_lift. intros y Ey.
      rewrite (get_nth _ pk1 (2 * i) []) in Ex by lia. rewrite (get_nth _ pk1 (2 * i + 1) []) in Ey by lia.
      apply Ok_inj in Ex. apply Ok_inj in Ey. rewrite Hhi, Hnth in Ex, Ey by lia.
      assert (HA : adrs_is (setTreeIndex a1 (N.of_nat i)) 1 (N.of_nat o) (N.of_nat j) (N.of_nat i)).
      { unfold adrs_is; cbn. rewrite u32_u32, E3. repeat split; auto; apply R. }
      unfold hash_h_t. rewrite (adr_bytes _ _ _ _ _ HA). rewrite (hash_h_spec hf _ _ ps _ 1 o j i HA).
      apply logs_call. apply logs_bind_lift. intros pk2 Epk. rewrite set_ok in Epk by lia. apply Ok_inj in Epk. subst pk2.
      apply logs_ret. cbn [a5 setKeyAndMask setTreeIndex]. repeat split; auto; try apply R.
      + now rewrite upd_length.
      + intros d k Hk. rewrite nth_upd_other by lia. apply Hhi. lia.
      + rewrite Elg, seq_S, !map_app. cbn [plus map]. f_equal. cbn [tw filter is_tweak]. f_equal.
        cbn [call_at place_adr content]. fold l. now rewrite Ex, Ey.
    - cbv beta. intros [pk' a'] lg _ (_ & _ & _ & _ & E). exact E.
  Qed.

  Lemma row_length_S : forall o j, length (row o (S j)) = (length (row o j) + 1) / 2.
  Proof. intros. cbn [l_row]. apply l_level_length. Qed.

  Lemma l_tree_loop_t_spec : forall fuel o j pk a,
    lt_adrs a o -> u32 (a5 a) = u32 (N.of_nat j) -> 1 <= length (row o j) <= length pk ->
    firstn (length (row o j)) pk = row o j -> length (row o j) <= fuel ->
    logs (l_tree_loop_t hf fuel (length (row o j)) (N.of_nat j) ps (pk, a)) (l_tree_loop hf fuel (length (row o j)) (N.of_nat j) ps (pk, a))
      (fun _ l => l = map call_at (lplaces fuel o j (length (row o j)))).
  Proof.
    induction fuel; intros o j pk a Ha Hh Hl Hf Hfu; [lia|].
    cbn [l_tree_loop_t l_tree_loop lplaces]. destruct (length (row o j) <=? 1) eqn:E1; [now apply logs_ret|].
    apply Nat.leb_gt in E1.
    eapply logs_bind; [apply (l_tree_pass_t_spec o j pk _ a Ha Hh (proj2 Hl) Hf eq_refl)|].
    cbv beta. intros [pk1 a1] lg EP Elg.
    destruct (l_tree_pass_spec hf ps o j pk (row o j) (length (row o j) / 2) a Ha Hh (proj2 Hl) Hf eq_refl)
      as (pk1' & a1' & EP' & Ha1 & HL1 & Hlo & Hhi). rewrite EP in EP'. apply Ok_inj in EP'. apply pair_equal_spec in EP'. destruct EP' as (<- & <-).
    pose proof (row_length_S o j) as HLL. set (L := length (row o j)) in *.
    assert (Hdiv2 : L = 2 * (L / 2) + L mod 2) by (apply Nat.div_mod; lia).
    assert (Hmod : L mod 2 < 2) by (apply Nat.mod_upper_bound; lia).
    assert (Hnth : forall i d, i < L -> nth i pk d = nth i (row o j) d).
    { intros. rewrite <- Hf at 1. rewrite <- (firstn_skipn L pk) at 1. rewrite app_nth1; auto. rewrite firstn_length. lia. }
    apply logs_bind_lift. intros [pk2 l'] E2.
    assert (Hnext : l' = length (row o (S j)) /\ length pk2 = length pk /\ firstn l' pk2 = row o (S j)).
    { destruct (Nat.odd L) eqn:EO.
      - assert (HM : L mod 2 = 1). { rewrite <- Nat.bit0_odd, Nat.bit0_eqb in EO. now apply Nat.eqb_eq. }
        rewrite (get_nth _ pk1 (L - 1) []) in E2 by lia. cbn [bind] in E2. rewrite set_ok in E2 by lia. cbn [bind] in E2.
        apply Ok_inj in E2. apply pair_equal_spec in E2. destruct E2 as (<- & <-).
        assert (HLL2 : length (row o (S j)) = L / 2 + 1).
        { rewrite HLL. replace (L + 1) with (0 + (L / 2 + 1) * 2) by lia. rewrite Nat.div_add by lia. reflexivity. }
        split; [now rewrite HLL2|]. split; [now rewrite upd_length|].
        apply firstn_nth_ext; auto.
        + rewrite upd_length. lia.
        + intros d i Hi. destruct (Nat.eq_dec (L / 2) i) as [<-|Hne].
          * rewrite nth_upd_same by lia. cbn [l_row]. unfold L. rewrite l_level_nth_last by exact EO. fold L.
            rewrite Hhi by lia. rewrite Hnth by lia. apply nth_indep. unfold L in *. lia.
          * rewrite nth_upd_other by auto. apply Hlo. lia.
      - assert (HM : L mod 2 = 0). { rewrite <- Nat.bit0_odd, Nat.bit0_eqb in EO. apply Nat.eqb_neq in EO. lia. }
        apply Ok_inj in E2. apply pair_equal_spec in E2. destruct E2 as (<- & <-).
        assert (HLL2 : length (row o (S j)) = L / 2).
        { rewrite HLL. replace (L + 1) with (1 + (L / 2) * 2) by lia. rewrite Nat.div_add by lia. reflexivity. }
        split; [now rewrite HLL2|]. split; [exact HL1|].
        apply firstn_nth_ext; [lia|exact HLL2|]. intros. apply Hlo. lia. }
    destruct Hnext as (-> & Lpk2 & Hf2). replace (N.of_nat j + 1)%N with (N.of_nat (S j)) by lia.
    assert (Hdd : (L + 1) / 2 < L).
    { apply Nat.div_lt_upper_bound; lia. }
    eapply logs_mono; [apply IHfuel|].
    - destruct Ha1 as (R & E3 & E4). repeat split; auto; apply R.
    - cbn. apply u32_u32.
    - rewrite HLL. split; [|lia]. apply Nat.div_le_lower_bound; lia.
    - exact Hf2.
    - rewrite HLL. lia.
    - cbv beta. intros _ lg2 _ ->. rewrite Elg, map_app, HLL. reflexivity.
  Qed.

  Lemma l_tree_t_spec : forall a o, lt_adrs a o ->
    exists r l, l_tree_t hf wp (ots_pk hf w len ssd ps o) ps a = Ok (r, l) /\ l_tree hf wp (ots_pk hf w len ssd ps o) ps a = Ok r /\
      tw l = map call_at (lplaces len o 0 len).
  Proof.
    intros a o Ha. pose proof (ots_pk_length hf w len ssd ps o) as HL.
    destruct (l_tree_spec hf wp ps (ots_pk hf w len ssd ps o) a o Ha HL Hlen) as (a' & E & _).
    assert (G : logs (l_tree_t hf wp (ots_pk hf w len ssd ps o) ps a) (l_tree hf wp (ots_pk hf w len ssd ps o) ps a)
      (fun _ l => l = map call_at (lplaces len o 0 len))).
    { unfold l_tree_t, l_tree. eapply logs_bind.
      - pose proof (l_tree_loop_t_spec len o 0 (ots_pk hf w len ssd ps o) (setTreeHeight a 0)) as G. cbn [l_row] in G. rewrite HL in G.
        change (N.of_nat 0) with 0%N in G. apply G; [|reflexivity|lia| |lia].
        + destruct Ha as (R & E3 & E4). repeat split; auto; apply R.
        + rewrite <- HL at 1. apply firstn_all.
      - cbv beta. intros [pk b] l _ ->. apply logs_bind_lift. intros lf _. apply logs_ret. now rewrite app_nil_r. }
    destruct (logs_ok _ _ _ _ _ G E) as (l & El & Hl). exists (compress hf ps o (ots_pk hf w len ssd ps o), a'), l. auto.
  Qed.
End Leaf.

Lemma get_seed_t_eq : forall hf s a, exists l, get_seed_t hf s a = Ok (get_seed hf s a, l) /\ tw l = [].
Proof. intros. eexists. split; [reflexivity|]. reflexivity. Qed.

Lemma gen_leaf_wots_t_spec : forall hf ssd p ps lta ota o,
  lt_adrs lta o -> ots_adrs ota o -> (1 <= w_w (x_wots p))%N -> 1 <= w_len (x_wots p) ->
  exists r l, gen_leaf_wots_t hf ssd p ps lta ota = Ok (r, l) /\ gen_leaf_wots hf ssd p ps lta ota = Ok r /\
    tw l = map (call_at hf ssd ps (x_wots p)) (leaf_places (N.to_nat (w_w (x_wots p))) (w_len (x_wots p)) o).
Proof.
  intros hf ssd p ps lta ota o Hl Ho Hw Hlen. unfold gen_leaf_wots_t, gen_leaf_wots.
  destruct (get_seed_t_eq hf ssd ota) as (l1 & E1 & L1). destruct (get_seed_spec hf ssd ota o Ho) as (a1 & G1 & H1).
  rewrite E1, G1. unfold tbind at 1. cbn [bind].
  destruct (wots_pkgen_t_spec hf ssd ps (x_wots p) Hw Hlen a1 o H1) as (l2 & E2 & L2). rewrite E2. unfold tbind at 1. cbn [bind].
  destruct (wots_pkgen_spec hf (ots_seed hf ssd o) (x_wots p) ps a1 o ssd H1 Hw eq_refl) as (a2 & G2 & H2). rewrite G2.
  destruct (l_tree_t_spec hf ssd ps (x_wots p) Hw Hlen lta o Hl) as ([lf a3'] & l3 & E3 & G3 & L3). rewrite E3, G3. unfold tbind at 1. cbn [bind tret].
  eexists. eexists. split; [reflexivity|]. split; [reflexivity|].
  unfold leaf_places. rewrite map_app, <- L2, <- L3. rewrite !app_nil_r, !tw_app, L1. reflexivity.
Qed.
