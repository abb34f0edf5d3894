(** C80: memory exhaustion and damaged traversal states never lead to the reuse of a
    one-time key. *)
(** Concrete cases for the hypotheses below: CasesXmss.v and CasesMisc.v. *)
From Coq Require Import List NArith Arith Lia Bool.
From Verif Require Import Base Bytes Keccak KeccakLemmas Sha256 HashAddress Wots XmssCommon AlgsXmss AlgsXmssFast Descriptor
  SpecXmss SpecApi SpecForge SpecAlloc XmssObj XmssRefine WotsProofs TreeProofs BasicProofs BdsSched BdsProofs BdsSetup FastProofs DescrProofs
  VerifyProofs PropObj PropKeys PropDomain PropWots PropVerify PropForge PropRust2 CopyProofs FastCopy FastAlloc.
Import ListNotations.
Open Scope nat_scope.

Section Alloc.
  Variables (c : key_cfg) (wp : nat * nat * nat).
  Hypothesis HC : cfg_ok c wp.
  Local Notation H := (c_height c).
  Local Notation sg := (c_sig c wp).

  Definition wiped_base : xbase := with_sk (c_obj c wp 0) (repeat 0%N 132).
  Definition astate_ok (s : astate) (a : aobj) : Prop :=
    match s with
    | Signer i => fast_inv c wp i (a_obj a) /\ a_intact a = true
    | Wiped => xf_base (a_obj a) = wiped_base
    end.

  (** An allocation that fails late enough changes nothing. *)
  Lemma sign_alloc_late : forall fail x i msg, fast_inv c wp i x ->
    sign_alloc true fail x msg =
      if fails_at fail 0 then Ok (x, inr tt)
      else if (2 ^ N.of_nat H <=? i)%N then Ok (x, inl (inl InvalidArgument))
      else if fails_at fail 1 && negb (length msg =? 0) then Ok (x, inr tt)
      else '(o, r) <- xfast_sign x msg ;; Ok (o, inl r).
  Proof.
    intros fail x i msg HI. pose proof HI as (Eb & Hi & _). unfold sign_alloc, xfast_sign. destruct (fails_at fail 0); [reflexivity|].
    assert (Hidx : from_be (slice 0 4 (xb_sk (xf_base x))) = i) by (rewrite Eb; cbn [c_obj xb_sk]; apply (sk_index c wp HC); exact Hi).
    assert (Hgi : getIndex (xf_base x) = i).
    { unfold getIndex. rewrite Hidx. unfold u32. apply N.mod_small. pose proof (pow_H_bound c wp HC) as Hp.
      change (2 ^ 32)%N with 4294967296%N. change (2 ^ 30)%N with 1073741824%N in *. lia. }
    rewrite Hgi. destruct (2 ^ N.of_nat H <=? i)%N eqn:E1.
    - assert (Es : xfast_setIndex x i = Ok (x, inl InvalidArgument)).
      { unfold xfast_setIndex. rewrite Eb. cbn [c_obj xb_hash xb_params xb_sk]. unfold with_hash. rewrite (co_hash _ _ HC).
        unfold xmssfast_update. change (x_h (c_params c)) with H. rewrite E1. cbn [bind]. destruct x as [b st]. cbn [xf_base xf_state] in *. subst b. reflexivity. }
      rewrite Es. reflexivity.
    - apply N.leb_gt in E1.
      assert (Es : xfast_setIndex x i = Ok (x, inr i)).
      { unfold xfast_setIndex. rewrite Eb. cbn [c_obj xb_hash xb_params xb_sk]. unfold with_hash. rewrite (co_hash _ _ HC).
        unfold xmssfast_update. rewrite (sk_index c wp HC) by lia. change (x_h (c_params c)) with H.
        rewrite (proj2 (N.leb_gt _ _) E1), N.ltb_irrefl, Nat.sub_diag. cbn [for_from bind].
        destruct (sk_parts c wp HC i) as (_ & _ & _ & _ & P5). rewrite P5. destruct x as [b st]. cbn [xf_base xf_state] in *. subst b. reflexivity. }
      rewrite Es. cbn [bind]. destruct (fails_at fail 1 && negb (length msg =? 0)); [reflexivity|]. cbn [negb].
      rewrite Eb. cbn [c_obj xb_hash xb_params xb_sk]. unfold with_hash. rewrite (co_hash _ _ HC).
      destruct (xmssfast_Signmsg _ _ _ _ _) as [[[sk st] s]|e|]; reflexivity.
  Qed.

  Lemma with_sk_twice : forall b sk, with_sk (with_sk b sk) sk = with_sk b sk.
  Proof. reflexivity. Qed.
  Lemma with_sk_obj : forall i sk, with_sk (c_obj c wp i) sk = mkXB (c_params c) (c_hash c) (c_fmt c) (N.of_nat H) sk (c_seed c).
  Proof. reflexivity. Qed.
  Lemma wiped_eq : wiped_base = mkXB (c_params c) (c_hash c) (c_fmt c) (N.of_nat H) (repeat 0%N 132) (c_seed c).
  Proof. reflexivity. Qed.
  Lemma alloc_sign_ok : forall s a m fail s' o, astate_ok s a -> spec_step H sg s (MSign m fail) = Some (s', o) ->
    exists a', alloc_step a (MSign m fail) = Ok (a', o) /\ astate_ok s' a'.
  Proof.
    intros s a m fail s' o HA E. cbn [spec_step] in E.
    destruct s as [i|]; [|discriminate]. destruct HA as (HI & Ha). pose proof HI as (_ & Hi & _). cbn [alloc_step]. rewrite Ha.
      rewrite (sign_alloc_late fail (a_obj a) i m HI).
      destruct (fails_at fail 0); [injection E as <- <-; cbn [bind]; eexists; split; [reflexivity|]; split; auto|].
      destruct (2 ^ N.of_nat H <=? i)%N eqn:E1; [injection E as <- <-; cbn [bind]; eexists; split; [reflexivity|]; split; auto|].
      destruct (fails_at fail 1 && negb (length m =? 0)); [injection E as <- <-; cbn [bind]; eexists; split; [reflexivity|]; split; auto|].
      injection E as <- <-. apply N.leb_gt in E1.
      destruct (step_spec c wp HC (a_obj a) i (OpSign m) HI) as (y & Ey & HI' & _). cbn [step ref_step] in Ey, HI'.
      rewrite (proj2 (N.ltb_lt _ _) E1) in Ey, HI'. cbn [fst snd] in Ey, HI'.
      destruct (xfast_sign (a_obj a) m) as [[o r]|e|]; cbn [bind] in Ey |- *; try discriminate.
      apply Ok_inj, pair_equal_spec in Ey. destruct Ey as [-> Ey]. destruct r as [e|z]; [discriminate|].
      assert (z = sg (N.to_nat i) m) by congruence. subst z. eexists. split; [reflexivity|]. split; [exact HI'|reflexivity].
  Qed.
  Lemma alloc_set_ok : forall s a j s' o, astate_ok s a -> spec_step H sg s (MSetIndex j) = Some (s', o) ->
    exists a', alloc_step a (MSetIndex j) = Ok (a', o) /\ astate_ok s' a'.
  Proof.
    intros s a j s' o HA E. cbn [spec_step] in E.
    destruct s as [i|]; [|discriminate]. destruct HA as (HI & Ha). cbn [alloc_step]. rewrite Ha. cbn [negb andb].
      destruct (step_spec c wp HC (a_obj a) i (OpSetIndex j) HI) as (y & Ey & HI' & _). unfold step in Ey.
      destruct (ref_step H sg i (OpSetIndex j)) as [i' o']. cbn [fst snd] in *. injection E as <- <-.
      destruct (xfast_setIndex (a_obj a) j) as [[o r]|e|]; cbn [bind] in Ey |- *; try discriminate.
      apply Ok_inj, pair_equal_spec in Ey. destruct Ey as [-> Ey]. rewrite Ey. eexists. split; [reflexivity|]. split; [exact HI'|reflexivity].
  Qed.
  Lemma alloc_init_ok : c_w c = 16%N -> forall s a junk fail s' o, astate_ok s a -> spec_step H sg s (MInit junk fail) = Some (s', o) ->
    exists a', alloc_step a (MInit junk fail) = Ok (a', o) /\ astate_ok s' a'.
  Proof.
    intros Hw16 s a junk fail s' o HA E. cbn [spec_step] in E.
    assert (E' : Some (s', o) = if fails_at fail 0 then Some (s, ABadAlloc) else if fails_below fail 9 then Some (Wiped, ABadAlloc) else Some (Signer 0, ADone))
        by (destruct s; symmetry; exact E). clear E.
      cbn [alloc_step]. unfold init_alloc. destruct (fails_at fail 0) eqn:F0.
      { injection E' as -> ->. cbn [bind]. eauto. }
      (* the object's members other than the key *)
      assert (HB : with_sk (xf_base (a_obj a)) (repeat 0%N 132) = wiped_base).
      { destruct s as [i|].
        - destruct HA as ((Eb & _) & _). rewrite Eb, wiped_eq. apply with_sk_obj.
        - cbn [astate_ok] in HA. rewrite HA. apply (with_sk_twice (c_obj c wp 0)). }
      rewrite HB. destruct (fails_at fail 1) eqn:F1.
      { assert (F9 : fails_below fail 9 = true).
        { destruct fail as [k|]; [|discriminate]. cbn in F1 |- *. apply Nat.eqb_eq in F1. subst k. reflexivity. }
        rewrite F9 in E'. injection E' as -> ->. cbn [bind]. eexists. split; [reflexivity|]. cbn [astate_ok a_obj xf_base]. reflexivity. }
      rewrite wiped_eq. cbn [xb_height xb_hash xb_fmt xb_sk xb_seed xb_params].
      assert (Eh : bad_height (N.of_nat H) = false) by apply (cfg_height_ok c wp HC). rewrite Eh.
      assert (Ep : xmss_set_params (N.to_nat (N.of_nat H)) 16 2 = Ok (c_params c)).
      { rewrite Nat2N.id, <- Hw16. apply (cfg_set_params c wp HC). }
      rewrite Ep. cbn [bind]. destruct (fails_below fail 9) eqn:F9.
      { injection E' as -> ->. cbn [bind]. eexists. split; [reflexivity|]. cbn [astate_ok a_obj xf_base]. symmetry. exact wiped_eq. }
      injection E' as -> ->. destruct (initialize_tree_spec c wp HC junk) as (z & Ez & HIz). rewrite Hw16 in Ez. rewrite Ez. cbn [bind].
      eexists. split; [reflexivity|]. split; [exact HIz|reflexivity].
  Qed.
  Lemma alloc_step_ok : c_w c = 16%N -> forall s a x s' o, astate_ok s a -> spec_step H sg s x = Some (s', o) ->
    exists a', alloc_step a x = Ok (a', o) /\ astate_ok s' a'.
  Proof.
    intros Hw s a [m fail|j|junk fail] s' o.
    - apply alloc_sign_ok. - apply alloc_set_ok. - now apply alloc_init_ok.
  Qed.

  Lemma alloc_run_ok : c_w c = 16%N -> forall l s0 a0 s os, astate_ok s0 a0 -> spec_run H sg s0 l = Some (s, os) ->
     exists a, alloc_run a0 l = Ok (a, os) /\ astate_ok s a.
  Proof.
    intros Hw. induction l as [|y l IH]; intros s0 a0 s os HA Er; cbn [spec_run alloc_run] in *.
    - injection Er as <- <-. eauto.
    - destruct (spec_step H sg s0 y) as [[s1 o1]|] eqn:E1; [|discriminate].
      destruct (spec_run H sg s1 l) as [[s2 os2]|] eqn:E2; [|discriminate]. injection Er as <- <-.
      destruct (alloc_step_ok Hw s0 a0 y s1 o1 HA E1) as (a1 & R1 & HA1).
      destruct (IH s1 a1 s2 os2 HA1 E2) as (a2 & R2 & HA2). exists a2. rewrite R1. cbn [bind]. rewrite R2. auto.
  Qed.

  (** One call on an object with an arbitrary traversal state. *)
  Lemma update_any : forall i j st z r, (i <= 2 ^ N.of_nat H)%N -> xfast_setIndex (mkXF (c_obj c wp i) st) j = Ok (z, r) ->
    (r = inr j /\ (i <= j < 2 ^ N.of_nat H)%N /\ xf_base z = c_obj c wp j) \/ (exists e, r = inl e) /\ xf_base z = c_obj c wp i.
  Proof.
    intros i j st z r Hi E. unfold xfast_setIndex in E. cbn [xf_base xf_state c_obj xb_hash xb_params xb_sk] in E. unfold with_hash in E.
    rewrite (co_hash _ _ HC) in E. unfold xmssfast_update in E. rewrite (sk_index c wp HC) in E by lia. change (x_h (c_params c)) with H in E.
    destruct (2 ^ N.of_nat H <=? j)%N eqn:E1.
    { cbn [bind] in E. apply Ok_inj, pair_equal_spec in E. destruct E as [<- <-]. right. split; [eauto|reflexivity]. }
    destruct (j <? i)%N eqn:E2.
    { cbn [bind] in E. apply Ok_inj, pair_equal_spec in E. destruct E as [<- <-]. right. split; [eauto|reflexivity]. }
    match type of E with context [for_from ?a ?b ?f ?s] => destruct (for_from a b f s) as [st'|e|]; cbn [bind] in E; try discriminate end.
    apply Ok_inj, pair_equal_spec in E. destruct E as [<- <-]. left. apply N.leb_gt in E1. apply N.ltb_ge in E2.
    split; [reflexivity|]. split; [lia|]. reflexivity.
  Qed.
  Lemma sign_keeps_index : forall i msg st z o, (i <= 2 ^ N.of_nat H)%N -> step (mkXF (c_obj c wp i) st) (OpSign msg) = Ok (z, o) ->
    (exists s, o = ObsSig s /\ (i < 2 ^ N.of_nat H)%N /\ sig_index s = i /\ xf_base z = c_obj c wp (i + 1)) \/
    (exists e, o = ObsExn e) /\ xf_base z = c_obj c wp i.
  Proof.
    intros i msg st z o Hi E. destruct (N.eq_dec i (2 ^ N.of_nat H)) as [->|Hne].
    - rewrite (sign_spent c wp HC) in E. apply Ok_inj, pair_equal_spec in E. destruct E as [<- <-]. right. split; [eauto|reflexivity].
    - assert (Hlt : (i < 2 ^ N.of_nat H)%N) by lia. destruct (sign_any c wp HC i msg st Hlt) as (a2 & _ & Es). rewrite Es in E.
      match type of E with bind ?q _ = _ => destruct q as [st'|e|]; cbn [bind] in E; try discriminate end.
      apply Ok_inj, pair_equal_spec in E. destruct E as [<- <-]. left. eexists. split; [reflexivity|]. split; [exact Hlt|]. split; [|reflexivity].
      unfold sig_index, front. rewrite <- !app_assoc, (firstn_app_exact _ 4) by apply to_byte_length. rewrite N2Nat.id. apply from_be_to_byte4.
      pose proof (pow_H_bound c wp HC). change (2 ^ 32)%N with 4294967296%N. change (2 ^ 30)%N with 1073741824%N in *. lia.
  Qed.
End Alloc.
Lemma alloc_run_snoc : forall l a0 a os x a' o, alloc_run a0 l = Ok (a, os) -> alloc_step a x = Ok (a', o) ->
  alloc_run a0 (l ++ [x]) = Ok (a', os ++ [o]).
Proof.
  induction l as [|y l IH]; intros a0 a os x a' o R Es; cbn [alloc_run app] in *.
  - apply Ok_inj, pair_equal_spec in R. destruct R as [<- <-]. rewrite Es. reflexivity.
  - destruct (alloc_step a0 y) as [[a1 o1]|e|]; cbn [bind] in *; try discriminate.
    destruct (alloc_run a1 l) as [[a2 os2]|e|] eqn:E2; cbn [bind] in *; try discriminate.
    apply Ok_inj, pair_equal_spec in R. destruct R as [<- <-]. rewrite (IH _ _ _ _ _ _ E2 Es). reflexivity.
Qed.

(** However often allocations fail, and wherever: a failed sign leaves the object exactly
    as it was, a failed initialize_tree at worst wipes the secret key, and the next
    initialize_tree that succeeds repairs the object. *)
Theorem C80_out_of_memory : forall junk seed height hash hf fmt, supported hash hf 16 w16 height seed ->
  exists x, XmssFast_new junk seed (N.of_nat height) hash fmt = Ok x /\
    forall l s os, spec_run height (ref_sig hf w16 height seed) (Signer 0) l = Some (s, os) ->
      exists a, alloc_run (mkA x true) l = Ok (a, os) /\
        match s with
        | Signer i => getSK (xf_base (a_obj a)) = ref_sk hf w16 height seed i /\ getIndex (xf_base (a_obj a)) = i /\
                      getPK (xf_base (a_obj a)) = getPK (xf_base x)
        | Wiped => getSK (xf_base (a_obj a)) = repeat 0%N 132 /\ getIndex (xf_base (a_obj a)) = 0%N /\
                   getPK (xf_base (a_obj a)) = firstn 3 (getPK (xf_base x)) ++ repeat 0%N 64 /\
                   getExtendedSeed (xf_base (a_obj a)) = getExtendedSeed (xf_base x)
        end.
Proof.
  intros junk seed height hash hf fmt HS. pose proof (cfg_of _ _ _ _ _ _ fmt HS) as HC.
  destruct (XmssFast_new_spec junk seed height hash hf fmt HS) as (x & E & HI). exists x. split; auto.
  set (c := mkCfg hf hash 16 fmt height seed) in *.
  pose proof (alloc_run_ok c w16 HC eq_refl) as G.
  intros l s os Er. destruct (G l (Signer 0) (mkA x true) s os) as (a & R & HA); [split; [exact HI|reflexivity]|exact Er|].
  exists a. split; [exact R|].
  assert (Epk : forall i z, fast_inv c w16 i z -> getPK (xf_base z) = c_pk c w16 0).
  { intros i z (Eb & _). rewrite Eb. fold (c_pk c w16 i). now rewrite !(getPK_shape c w16 HC). }
  destruct s as [i|]; cbn [astate_ok] in HA.
  - destruct HA as (HA & _). split; [|split].
    + destruct HA as (-> & _). reflexivity.
    + exact (inv_getIndex hash hf height seed fmt HS _ _ HA).
    + now rewrite (Epk _ _ HA), (Epk _ _ HI).
  - rewrite HA. destruct HI as (-> & _).
    assert (E1 : getExtendedSeed (c_obj c w16 0) = descr_getBytes (mkDescr hash 0 (N.of_nat height) fmt) ++ seed) by reflexivity.
    assert (E2 : firstn 3 (getPK (c_obj c w16 0)) = descr_getBytes (mkDescr hash 0 (N.of_nat height) fmt)).
    { unfold getPK. rewrite (firstn_app_exact _ 3) by reflexivity. reflexivity. }
    rewrite E1, E2, (wiped_eq c w16). split; [reflexivity|]. split; [reflexivity|]. split; reflexivity.
Qed.

(** An interrupted initialize_tree, and then the object is used all the same.  If it was
    interrupted before its vectors were replaced (allocations 1 and 2) sign, when it
    returns, has signed with the all-zero secret key under index 0; if later (3 to 8)
    every call that has to follow the pointers is undefined and the others are answered
    as for index 0. *)
Theorem C80_wiped_object : forall junk seed height hash hf fmt, supported hash hf 16 w16 height seed ->
  exists x, XmssFast_new junk seed (N.of_nat height) hash fmt = Ok x /\
    forall l i os junk' k, spec_run height (ref_sig hf w16 height seed) (Signer 0) l = Some (Signer i, os) -> 1 <= k <= 8 ->
      exists a, alloc_run (mkA x true) (l ++ [MInit junk' (Some k)]) = Ok (a, os ++ [ABadAlloc]) /\
        (k <= 2 -> forall msg a' o, alloc_step a (MSign msg None) = Ok (a', o) ->
           let zero := repeat 0%N 32 in
           let R := randomizer hf zero 0 in
           exists path, o = AObs (ObsSig (to_byte 4 0 ++ R ++ concat (ots_sig hf 67 zero zero 0 (msg_digits 4 64 3 (digest hf R zero 0 msg))) ++ path)) /\
             getIndex (xf_base (a_obj a')) = 1%N) /\
        (3 <= k -> (forall msg, alloc_step a (MSign msg None) = UB) /\
                   (forall j, (0 < j < 2 ^ N.of_nat height)%N -> alloc_step a (MSetIndex j) = UB) /\
                   (exists a', alloc_step a (MSetIndex 0) = Ok (a', AObs (ObsIdx 0))) /\
                   (forall j, (2 ^ N.of_nat height <= j)%N -> alloc_step a (MSetIndex j) = Ok (a, AObs (ObsExn InvalidArgument)))).
Proof.
  intros junk seed height hash hf fmt HS. pose proof (cfg_of _ _ _ _ _ _ fmt HS) as HC.
  destruct (XmssFast_new_spec junk seed height hash hf fmt HS) as (x & E & HI). exists x. split; auto.
  set (c := mkCfg hf hash 16 fmt height seed) in *.
  intros l i os junk' k Er Hk.
  destruct (alloc_run_ok c w16 HC eq_refl l (Signer 0) (mkA x true) (Signer i) os) as (a & R & HA); [split; [exact HI|reflexivity]|exact Er|].
  destruct HA as (HIa & Ha). pose proof HIa as (Eb & Hi & _).
  set (a2 := mkA (mkXF (wiped_base c w16) (xf_state (a_obj a))) (k <=? 2)).
  assert (Es : alloc_step a (MInit junk' (Some k)) = Ok (a2, ABadAlloc)).
  { cbn [alloc_step]. unfold init_alloc. rewrite Eb. rewrite with_sk_obj. cbn [fails_at fails_below].
    rewrite (proj2 (Nat.eqb_neq k 0)) by lia. rewrite Ha. unfold a2. rewrite wiped_eq.
    destruct (k =? 1) eqn:K1. { apply Nat.eqb_eq in K1. subst k. reflexivity. }
    cbn [xb_height xb_hash xb_fmt xb_sk xb_seed xb_params].
    assert (Eh : bad_height (N.of_nat (c_height c)) = false) by apply (cfg_height_ok c w16 HC). rewrite Eh.
    assert (Ep : xmss_set_params (N.to_nat (N.of_nat (c_height c))) 16 2 = Ok (c_params c)).
    { rewrite Nat2N.id. apply (cfg_set_params c w16 HC). }
    rewrite Ep. cbn [bind]. rewrite (proj2 (Nat.ltb_lt k 9)) by lia. cbn [bind andb]. apply Nat.eqb_neq in K1.
    replace (k =? 2) with (k <=? 2); [reflexivity|]. destruct (k <=? 2) eqn:K2, (k =? 2) eqn:K3; auto.
    - apply Nat.leb_le in K2. apply Nat.eqb_neq in K3. lia.
    - apply Nat.leb_gt in K2. apply Nat.eqb_eq in K3. lia. }
  exists a2. split; [exact (alloc_run_snoc _ _ _ _ _ _ _ R Es)|].
  assert (Ez : from_be (slice 0 4 (repeat 0%N 132)) = 0%N) by reflexivity.
  assert (Hp : (0 < 2 ^ N.of_nat height)%N) by (apply N.neq_0_lt_0, N.pow_nonzero; lia).
  assert (ES : forall st, xfast_setIndex (mkXF (wiped_base c w16) st) 0 = Ok (mkXF (wiped_base c w16) st, inr 0%N)).
  { intros st. unfold xfast_setIndex. rewrite wiped_eq. cbn [xf_base xf_state xb_hash xb_params xb_sk]. unfold with_hash. rewrite (co_hash _ _ HC).
    unfold xmssfast_update. rewrite Ez. change (x_h (c_params c)) with height. rewrite (proj2 (N.leb_gt _ _) Hp). reflexivity. }
  split.
  - intros K2 msg a' o Eo. cbn zeta. cbn [alloc_step] in Eo. unfold sign_alloc in Eo. cbn [fails_at] in Eo.
    assert (Ei : a_intact a2 = true) by (apply Nat.leb_le; exact K2). rewrite Ei in Eo.
    change (a_obj a2) with (mkXF (wiped_base c w16) (xf_state (a_obj a))) in Eo. cbn [xf_base] in Eo.
    assert (Eg : getIndex (wiped_base c w16) = 0%N) by reflexivity. rewrite Eg, ES in Eo. cbn [bind andb negb xf_base xf_state] in Eo.
    rewrite wiped_eq in Eo. cbn [xb_hash xb_params xb_sk] in Eo. unfold with_hash in Eo. rewrite (co_hash _ _ HC) in Eo.
    unfold xmssfast_Signmsg in Eo. rewrite Ez in Eo.
    assert (Z1 : slice 4 32 (repeat 0%N 132) = repeat 0%N 32) by reflexivity.
    assert (Z2 : slice 36 32 (repeat 0%N 132) = repeat 0%N 32) by reflexivity.
    assert (Z3 : slice 68 32 (repeat 0%N 132) = repeat 0%N 32) by reflexivity.
    assert (Z4 : slice 100 32 (repeat 0%N 132) = repeat 0%N 32) by reflexivity.
    assert (Z5 : skipn 4 (repeat 0%N 132) = repeat 0%N 128) by reflexivity.
    rewrite Z1, Z2, Z3, Z4, Z5 in Eo. clear Z1 Z2 Z3 Z4 Z5. set (zero := repeat 0%N 32) in *. cbn [c_hf c] in Eo.
    assert (ER : prf hf (to_byte 32 0) zero = randomizer hf zero 0) by (change 0%N with (N.of_nat 0) at 1; apply prf_PRF).
    rewrite ER in Eo. set (Rz := randomizer hf zero 0) in *.
    assert (Ed : h_msg hf msg (Rz ++ zero ++ to_byte 32 0) = digest hf Rz zero 0 msg) by (unfold h_msg, digest; now rewrite core_hash_keyed).
    rewrite Ed in Eo. set (dg := digest hf Rz zero 0 msg) in *.
    destruct (digits_of_ok (x_wots (c_params c)) dg (cfg_wots c w16 HC)) as (D1 & D2 & D3). { apply keyed_length. }
    change (setOTSADRS (setType zero_adrs 0) 0) with (setOTSADRS (setType zero_adrs 0) (N.of_nat 0)) in Eo.
    destruct (get_seed_spec hf zero _ 0 (ots_adrs_init 0)) as (a1 & G1 & A1). rewrite G1 in Eo.
    destruct (wots_sign_spec hf (x_wots (c_params c)) dg (ots_seed hf zero 0) zero a1 0 zero (digits_of (x_wots (c_params c)) dg) A1 eq_refl D1 D2 D3) as (a3 & G2 & _).
    rewrite G2 in Eo. cbn [bind] in Eo.
    match type of Eo with context [if ?b then ?p else ?q] => destruct (if b then p else q) as [st'|e|]; cbn [bind] in Eo; try discriminate end.
    apply Ok_inj, pair_equal_spec in Eo. destruct Eo as [<- <-]. eexists. split; [|reflexivity].
    f_equal. f_equal. f_equal. f_equal. f_equal.
    change (msg_digits 4 64 3 dg) with (msg_digits (fst (fst w16)) (snd (fst w16)) (snd w16) dg). rewrite <- (digits_of_msg 16 w16 dg eq_refl) by apply keyed_length. reflexivity.
  - intros K2. assert (Ei : a_intact a2 = false) by (apply Nat.leb_gt; lia).
    assert (Eo2 : a_obj a2 = mkXF (wiped_base c w16) (xf_state (a_obj a))) by reflexivity.
    assert (Eg : getIndex (wiped_base c w16) = 0%N) by reflexivity.
    split; [|split; [|split]].
    + intros msg. cbn [alloc_step]. unfold sign_alloc. cbn [fails_at]. rewrite Ei, Eo2. cbn [xf_base]. rewrite Eg, ES. reflexivity.
    + intros j Hj. cbn [alloc_step]. rewrite Ei, Eo2. cbn [negb andb xf_base]. unfold follows. rewrite wiped_eq. cbn [xb_sk xb_params]. rewrite Ez.
      change (x_h (c_params c)) with height. rewrite (proj2 (N.ltb_lt _ _) (proj2 Hj)), (proj2 (N.ltb_lt _ _) (proj1 Hj)). reflexivity.
    + eexists. cbn [alloc_step]. rewrite Ei, Eo2. cbn [negb andb xf_base]. unfold follows. rewrite wiped_eq. cbn [xb_sk xb_params]. rewrite Ez.
      change (x_h (c_params c)) with height. rewrite (proj2 (N.ltb_lt _ _) Hp), N.ltb_irrefl. cbn [andb]. rewrite <- (wiped_eq c w16), ES. reflexivity.
    + intros j Hj. cbn [alloc_step]. rewrite Ei, Eo2. cbn [negb andb xf_base]. unfold follows. rewrite wiped_eq. cbn [xb_sk xb_params].
      change (x_h (c_params c)) with height. rewrite (proj2 (N.ltb_ge _ _) Hj). cbn [andb].
      unfold xfast_setIndex. cbn [xf_base xf_state xb_hash xb_params xb_sk]. unfold with_hash. rewrite (co_hash _ _ HC).
      unfold xmssfast_update. change (x_h (c_params c)) with height. rewrite (proj2 (N.leb_le _ _) Hj). cbn [bind].
      rewrite <- Ei. unfold a2. rewrite wiped_eq. reflexivity.
Qed.

(** Whatever happens to the traversal state between calls: if the calls return at all,
    the indices of the signatures they return increase strictly, so no one-time key
    signs twice. *)
Theorem C80_no_reuse_with_any_traversal_state : forall junk seed height hash hf fmt, supported hash hf 16 w16 height seed ->
  exists x, XmssFast_new junk seed (N.of_nat height) hash fmt = Ok x /\
    forall l y os, upset_run x l = Ok (y, os) ->
      (forall n1 n2 s1 s2, n1 < n2 -> nth_error os n1 = Some (ObsSig s1) -> nth_error os n2 = Some (ObsSig s2) ->
         (sig_index s1 < sig_index s2)%N) /\
      (forall n s, nth_error os n = Some (ObsSig s) -> (sig_index s < getIndex (xf_base y))%N) /\
      (getIndex (xf_base y) <= 2 ^ N.of_nat height)%N.
Proof.
  intros junk seed height hash hf fmt HS. pose proof (cfg_of _ _ _ _ _ _ fmt HS) as HC.
  destruct (XmssFast_new_spec junk seed height hash hf fmt HS) as (x & E & HI). exists x. split; auto.
  set (c := mkCfg hf hash 16 fmt height seed) in *.
  assert (G : forall l x0 i y os, xf_base x0 = c_obj c w16 i -> (i <= 2 ^ N.of_nat height)%N -> upset_run x0 l = Ok (y, os) ->
     exists j, xf_base y = c_obj c w16 j /\ (i <= j <= 2 ^ N.of_nat height)%N /\
       (forall n s, nth_error os n = Some (ObsSig s) -> (i <= sig_index s < j)%N) /\
       (forall n1 n2 s1 s2, n1 < n2 -> nth_error os n1 = Some (ObsSig s1) -> nth_error os n2 = Some (ObsSig s2) -> (sig_index s1 < sig_index s2)%N)).
  { induction l as [|[st a] l IH]; intros x0 i y os Eb Hi Er; cbn [upset_run] in Er.
    - apply Ok_inj, pair_equal_spec in Er. destruct Er as [<- <-]. exists i. split; [exact Eb|]. split; [lia|]. split; [intros [|n] s F; discriminate F|intros n1 [|n2] s1 s2 _ _ F; discriminate F].
    - rewrite Eb in Er. destruct (step (mkXF (c_obj c w16 i) st) a) as [[x1 o]|e|] eqn:E1; cbn [bind] in Er; try discriminate.
      destruct (upset_run x1 l) as [[y1 os1]|e|] eqn:E2; cbn [bind] in Er; try discriminate.
      apply Ok_inj, pair_equal_spec in Er. destruct Er as [<- <-].
      assert (HK : exists k, xf_base x1 = c_obj c w16 k /\ (i <= k <= 2 ^ N.of_nat height)%N /\ (forall s, o = ObsSig s -> sig_index s = i /\ k = (i + 1)%N)).
      { destruct a as [m|j].
        - destruct (sign_keeps_index c w16 HC i m st x1 o Hi E1) as [(s & -> & Hlt & Hs & Hz)|((e & ->) & Hz)].
          + exists (i + 1)%N. split; [exact Hz|]. change (c_height c) with height in *. split; [lia|]. intros s' F. injection F as <-. auto.
          + exists i. split; [exact Hz|]. split; [lia|]. intros s' F. discriminate F.
        - cbn [step] in E1. destruct (xfast_setIndex (mkXF (c_obj c w16 i) st) j) as [[x2 r]|e|] eqn:E3; cbn [bind] in E1; try discriminate.
          apply Ok_inj, pair_equal_spec in E1. destruct E1 as [<- <-].
          destruct (update_any c w16 HC i j st x2 r Hi E3) as [(-> & Hj & Hz)|((e & ->) & Hz)].
          + exists j. split; [exact Hz|]. change (c_height c) with height in *. split; [lia|]. intros s' F. discriminate F.
          + exists i. split; [exact Hz|]. split; [lia|]. intros s' F. discriminate F. }
      destruct HK as (k & Hk & Hik & Ho). destruct (IH x1 k y1 os1 Hk ltac:(lia) E2) as (j & Hj & Hkj & H1 & H2).
      exists j. split; [exact Hj|]. split; [lia|]. split.
      + intros [|n] s F; cbn [nth_error] in F.
        * injection F as F. destruct (Ho s F) as (-> & ->). lia.
        * specialize (H1 n s F). lia.
      + intros [|n1] [|n2] s1 s2 Hlt F1 F2; cbn [nth_error] in F1, F2; try lia.
        * injection F1 as F1. destruct (Ho s1 F1) as (-> & ->). specialize (H1 n2 s2 F2). lia.
        * apply (H2 n1 n2 s1 s2); auto. lia. }
  intros l y os Er. destruct HI as (Eb & Hi & _).
  destruct (G l x 0%N y os Eb Hi Er) as (j & Hj & Hle & H1 & H2).
  assert (Ej : getIndex (xf_base y) = j).
  { rewrite Hj. unfold getIndex. cbn [c_obj xb_sk]. rewrite (sk_index c w16 HC) by (change (c_height c) with height; lia).
    unfold u32. apply N.mod_small. pose proof (pow_H_bound c w16 HC) as Hp. cbn [c c_height] in Hp.
    change (2 ^ 32)%N with 4294967296%N. change (2 ^ 30)%N with 1073741824%N in *. lia. }
  rewrite Ej. split; [exact H2|]. split; [|lia]. intros n s F. specialize (H1 n s F). lia.
Qed.

(** Cases: a failed copy of the message, an interrupted initialize_tree, a repair. *)
Example C80_case : forall sg, exists os,
  spec_run 4 sg (Signer 0) [MSign [1%N] None; MSign [2%N] (Some 1); MSign [] (Some 1); MInit [] (Some 5); MInit [] (Some 0); MInit [] None; MSetIndex 9] = Some (Signer 9, os) /\
  nth 1 os ADone = ABadAlloc /\ nth 2 os ADone = AObs (ObsSig (sg 1 [])).
Proof. intros sg. eexists. split; [reflexivity|]. split; reflexivity. Qed.
