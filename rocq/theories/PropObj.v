(** Properties of XmssFast and XmssBasic objects: C13-C25, C35, C44, C46. *)
(** Concrete cases for the hypotheses below: CasesXmss.v and CasesMisc.v. *)
From Coq Require Import List NArith Arith Lia Bool.
From Verif Require Import Base Bytes Keccak KeccakLemmas HashAddress Wots XmssCommon AlgsXmss AlgsXmssFast Descriptor
  SpecXmss SpecApi XmssObj XmssRefine WotsProofs TreeProofs BasicProofs BdsProofs FastProofs DescrProofs VerifyProofs.
From Verif Require Export SpecTerms.
Import ListNotations.
Open Scope nat_scope.

(** ** The reference machine *)
Lemma ref_run_app : forall h sig a b i,
  ref_run h sig i (a ++ b) =
  (fst (ref_run h sig (fst (ref_run h sig i a)) b),
   snd (ref_run h sig i a) ++ snd (ref_run h sig (fst (ref_run h sig i a)) b)).
Proof.
  induction a as [|c a IH]; intros b i; cbn [app ref_run].
  - cbn [fst snd]. now destruct (ref_run h sig i b).
  - destruct (ref_step h sig i c) as [i1 x1]. rewrite IH.
    destruct (ref_run h sig i1 a) as [i2 xs]. cbn [fst snd]. now destruct (ref_run h sig i2 b).
Qed.
Lemma ref_run_length : forall h sig cs i, length (snd (ref_run h sig i cs)) = length cs.
Proof.
  induction cs as [|c cs IH]; intros i; cbn [ref_run]; auto.
  destruct (ref_step h sig i c) as [i1 x1]. specialize (IH i1). destruct (ref_run h sig i1 cs). cbn [fst snd length] in *. lia.
Qed.
Lemma ref_run_nth : forall h sig cs i n c, nth_error cs n = Some c ->
  nth_error (snd (ref_run h sig i cs)) n = Some (snd (ref_step h sig (fst (ref_run h sig i (firstn n cs))) c)).
Proof.
  induction cs as [|c0 cs IH]; intros i n c E; [destruct n; discriminate|]. cbn [ref_run].
  destruct n; cbn [nth_error firstn ref_run] in *.
  - injection E as <-. cbn [fst]. destruct (ref_step h sig i c0) as [i1 x1]. now destruct (ref_run h sig i1 cs).
  - destruct (ref_step h sig i c0) as [i1 x1]. specialize (IH i1 n c E).
    destruct (ref_run h sig i1 cs) as [i2 xs]. destruct (ref_run h sig i1 (firstn n cs)) as [i3 ys].
    cbn [fst snd nth_error] in *. exact IH.
Qed.
Lemma ref_step_mono : forall h sig i c, (i <= fst (ref_step h sig i c))%N.
Proof.
  intros. destruct c as [m|j]; cbn [ref_step].
  - destruct (i <? 2 ^ N.of_nat h)%N; cbn [fst]; lia.
  - destruct ((j <? 2 ^ N.of_nat h)%N && (i <=? j)%N) eqn:E; cbn [fst]; [|lia].
    apply andb_true_iff in E. destruct E as [_ E]. now apply N.leb_le in E.
Qed.
Lemma ref_step_bound : forall h sig i c, (i <= 2 ^ N.of_nat h)%N -> (fst (ref_step h sig i c) <= 2 ^ N.of_nat h)%N.
Proof.
  intros h sig i c Hi. destruct c as [m|j]; cbn [ref_step].
  - destruct (i <? 2 ^ N.of_nat h)%N eqn:E; cbn [fst]; [apply N.ltb_lt in E|]; lia.
  - destruct ((j <? 2 ^ N.of_nat h)%N && (i <=? j)%N) eqn:E; cbn [fst]; [|lia].
    apply andb_true_iff in E. destruct E as [E _]. apply N.ltb_lt in E. lia.
Qed.
Lemma ref_run_mono : forall h sig cs i, (i <= fst (ref_run h sig i cs))%N.
Proof.
  induction cs as [|c cs IH]; intros i; cbn [ref_run fst]; [lia|].
  pose proof (ref_step_mono h sig i c). destruct (ref_step h sig i c) as [i1 x1]. specialize (IH i1).
  destruct (ref_run h sig i1 cs). cbn [fst] in *. lia.
Qed.
Lemma ref_run_bound : forall h sig cs i, (i <= 2 ^ N.of_nat h)%N -> (fst (ref_run h sig i cs) <= 2 ^ N.of_nat h)%N.
Proof.
  induction cs as [|c cs IH]; intros i Hi; cbn [ref_run fst]; [lia|].
  pose proof (ref_step_bound h sig i c Hi) as Hs. destruct (ref_step h sig i c) as [i1 x1]. specialize (IH i1 Hs).
  destruct (ref_run h sig i1 cs). cbn [fst] in *. exact IH.
Qed.
Lemma ref_run_count : forall h sig cs i,
  (i + N.of_nat (length (filter is_sig (snd (ref_run h sig i cs)))) <= N.max i (fst (ref_run h sig i cs)))%N.
Proof.
  induction cs as [|c cs IH]; intros i; cbn [ref_run fst snd filter length]; [lia|].
  pose proof (ref_step_mono h sig i c) as M.
  assert (S1 : is_sig (snd (ref_step h sig i c)) = true -> (i + 1 <= fst (ref_step h sig i c))%N).
  { destruct c as [m|j]; cbn [ref_step].
    - destruct (i <? 2 ^ N.of_nat h)%N; cbn; [lia|discriminate].
    - destruct ((j <? 2 ^ N.of_nat h)%N && (i <=? j)%N); cbn; discriminate. }
  destruct (ref_step h sig i c) as [i1 x1]. specialize (IH i1). pose proof (ref_run_mono h sig cs i1).
  destruct (ref_run h sig i1 cs) as [i2 xs]. cbn [fst snd filter] in *.
  destruct (is_sig x1); cbn [length]; [specialize (S1 eq_refl)|]; lia.
Qed.

(** ** Bridging *)
Lemma cfg_of : forall hash hf w wp height seed fmt, supported hash hf w wp height seed ->
  cfg_ok (mkCfg hf hash w fmt height seed) wp.
Proof. intros hash hf w wp height seed fmt (H1 & H2 & H3 & H4 & H5). constructor; auto. Qed.



Lemma XmssFast_new_spec : forall junk seed height hash hf fmt, supported hash hf 16 w16 height seed ->
  exists x, XmssFast_new junk seed (N.of_nat height) hash fmt = Ok x /\
            fast_inv (mkCfg hf hash 16 fmt height seed) w16 0 x.
Proof.
  intros junk seed height hash hf fmt HS. pose proof (cfg_of _ _ _ _ _ _ fmt HS) as HC.
  destruct (initialize_tree_spec _ _ HC junk) as (x & E & HI). exists x. split; auto.
  unfold XmssFast_new, check_seed. destruct HS as (_ & _ & Hh & _ & Hl). rewrite Hl. cbn [Nat.eqb negb].
  rewrite (proj2 (N.ltb_ge _ _)) by lia. exact E.
Qed.

Section Props.
  Variables (hash : N) (hf : hashfn) (height : nat) (seed : list N) (fmt : N).
  Hypothesis HS : supported hash hf 16 w16 height seed.
  Let c := mkCfg hf hash 16 fmt height seed.
  Let HC : cfg_ok c w16 := cfg_of _ _ _ _ _ _ fmt HS.
  Local Notation sg := (ref_sig hf w16 height seed).

  Lemma new_run : forall junk, exists x, XmssFast_new junk seed (N.of_nat height) hash fmt = Ok x /\
    forall cs, exists y, run x cs = Ok (y, snd (ref_run height sg 0 cs)) /\
      fast_inv c w16 (fst (ref_run height sg 0 cs)) y.
  Proof.
    intros junk. destruct (XmssFast_new_spec junk seed height hash hf fmt HS) as (x & E & HI).
    exists x. split; auto. intros cs. apply (run_spec c w16 HC cs x 0 HI).
  Qed.
  Lemma inv_getIndex : forall i y, fast_inv c w16 i y -> getIndex (xf_base y) = i.
  Proof.
    intros i y (Eb & Hi & _). rewrite Eb. unfold getIndex. cbn [c_obj xb_sk]. rewrite (sk_index c w16 HC) by auto.
    unfold u32. apply N.mod_small. pose proof (pow_H_bound c w16 HC). change (2 ^ 32)%N with 4294967296%N.
    change (2 ^ 30)%N with 1073741824%N in *. lia.
  Qed.
End Props.

(** Every history of calls has exactly the observations of the reference machine
    (the building block of the theorems below, and a property by itself: the
    observable behaviour of the object is a function of the seed, the parameters
    and the calls). *)
Theorem fast_history : forall junk seed height hash hf fmt, supported hash hf 16 w16 height seed ->
  exists x, XmssFast_new junk seed (N.of_nat height) hash fmt = Ok x /\
    forall cs, exists y, run x cs = Ok (y, snd (ref_run height (ref_sig hf w16 height seed) 0 cs)) /\
      getIndex (xf_base y) = fst (ref_run height (ref_sig hf w16 height seed) 0 cs) /\
      getSK (xf_base y) = ref_sk hf w16 height seed (fst (ref_run height (ref_sig hf w16 height seed) 0 cs)).
Proof.
  intros junk seed height hash hf fmt HS. destruct (new_run _ _ _ _ fmt HS junk) as (x & E & HR). exists x. split; auto.
  intros cs. destruct (HR cs) as (y & Er & HI). exists y. split; auto.
  split; [eapply inv_getIndex; eauto|]. destruct HI as (Eb & _). unfold getSK. now rewrite Eb.
Qed.

(** ** C18: every signature of every history verifies under the public key. *)
Theorem C18_fast_signatures_verify : forall junk seed height hash hf fmt, supported hash hf 16 w16 height seed ->
  exists x, XmssFast_new junk seed (N.of_nat height) hash fmt = Ok x /\
    forall cs, exists y os, run x cs = Ok (y, os) /\ length os = length cs /\
      getPK (xf_base y) = getPK (xf_base x) /\
      forall n msg sig, nth_error cs n = Some (OpSign msg) -> nth_error os n = Some (ObsSig sig) ->
        verify msg sig (getPK (xf_base x)) 16 = Ok true.
Proof.
  intros junk seed height hash hf fmt HS. pose proof (cfg_of _ _ _ _ _ _ fmt HS) as HC.
  destruct (new_run _ _ _ _ fmt HS junk) as (x & E & HR). exists x. split; auto.
  intros cs. destruct (HR cs) as (y & Er & HI). exists y. eexists. split; [exact Er|]. split; [apply ref_run_length|].
  destruct (HR []) as (x' & Er0 & HI0). injection Er0 as <-.
  assert (Epk : forall i z, fast_inv (mkCfg hf hash 16 fmt height seed) w16 i z ->
     getPK (xf_base z) = c_pk (mkCfg hf hash 16 fmt height seed) w16 0).
  { intros i z (Eb & _). rewrite Eb. fold (c_pk (mkCfg hf hash 16 fmt height seed) w16 i). now rewrite !(getPK_shape _ _ HC). }
  rewrite (Epk _ _ HI), (Epk _ _ HI0). split; auto.
  intros n msg sig Hn Ho. rewrite (ref_run_nth _ _ _ _ _ _ Hn) in Ho. injection Ho as Ho.
  set (i := fst (ref_run height (ref_sig hf w16 height seed) 0 (firstn n cs))) in *.
  cbn [ref_step] in Ho. destruct (i <? 2 ^ N.of_nat height)%N eqn:El; [|discriminate]. apply N.ltb_lt in El.
  cbn [snd] in Ho. injection Ho as <-.
  apply (c_sig_verifies (mkCfg hf hash 16 fmt height seed) w16 HC (N.to_nat i) 0%N msg).
  cbn [c_height]. rewrite <- pow_N_nat. lia.
Qed.

(** ** C17: XmssBasic. *)
Theorem C17_basic_signatures_verify : forall junk seed height hash hf fmt w wp,
  supported hash hf w wp height seed -> height <= 24 ->
  exists x, XmssBasic_new junk seed (N.of_nat height) hash fmt w = Ok x /\
    forall j idx msg, (idx < 2 ^ N.of_nat height)%N ->
      exists y sig, XmssBasic_sign j (fst (base_setIndex x idx)) msg = Ok (y, sig) /\
        verify msg sig (getPK x) w = Ok true /\
        getSignatureSize (N.of_nat height) w = Ok (N.of_nat (length sig)) /\
        sig_index sig = idx /\ getPK y = getPK x.
Proof.
  intros junk seed height hash hf fmt w wp HS Hh. pose proof (cfg_of _ _ _ _ _ _ fmt HS) as HC.
  set (c := mkCfg hf hash w fmt height seed) in *.
  exists (c_obj c wp 0). split; [apply (XmssBasic_new_spec c wp HC)|].
  intros j idx msg Hi.
  assert (Es : fst (base_setIndex (c_obj c wp 0) idx) = c_obj c wp idx).
  { unfold base_setIndex. cbn [fst]. unfold with_sk, c_obj. cbn [xb_params xb_hash xb_fmt xb_height xb_sk xb_seed]. reflexivity. }
  rewrite Es. exists (c_obj c wp (idx + 1)), (c_sig c wp (N.to_nat idx) msg).
  split; [apply (XmssBasic_sign_spec c wp HC); cbn [c_height c]; [lia|exact Hi]|].
  fold (c_pk c wp 0). fold (c_pk c wp (idx + 1)).
  split. { apply (c_sig_verifies c wp HC). cbn [c_height c]. rewrite <- pow_N_nat. lia. }
  split.
  { rewrite (c_sig_length c wp HC). unfold getSignatureSize. rewrite (sig_base_size w wp) by (apply HS). cbn [bind].
    cbn [c_height c]. pose proof (base_size_bound w wp (proj1 (proj2 HS))).
    apply f_equal. unfold u32. rewrite N.mod_small; [lia|]. change (2 ^ 32)%N with 4294967296%N. lia. }
  split; [|now rewrite !(getPK_shape c wp HC)].
  unfold sig_index, c_sig, ref_sig, signature. rewrite N2Nat.id.
  change (firstn 4 ?x) with (slice 0 4 x). rewrite slice_app_l by (now rewrite to_byte_length).
  apply from_be_to_byte4. pose proof (pow_H_bound c wp HC) as Hp. cbn [c_height c] in Hp.
  change (2 ^ 32)%N with 4294967296%N. change (2 ^ 30)%N with 1073741824%N in *. lia.
Qed.

(** ** C19: XmssFast and XmssBasic agree. *)
Theorem C19_fast_equals_basic : forall junk junk' seed height hash hf fmt,
  supported hash hf 16 w16 height seed -> height <= 24 ->
  exists xf xb, XmssFast_new junk seed (N.of_nat height) hash fmt = Ok xf /\
    XmssBasic_new junk' seed (N.of_nat height) hash fmt 16 = Ok xb /\
    xf_base xf = xb /\
    forall cs y os msg y' sig j, run xf cs = Ok (y, os) -> step y (OpSign msg) = Ok (y', ObsSig sig) ->
      exists b, XmssBasic_sign j (fst (base_setIndex xb (getIndex (xf_base y)))) msg = Ok (b, sig) /\
                b = xf_base y'.
Proof.
  intros junk junk' seed height hash hf fmt HS Hh. pose proof (cfg_of _ _ _ _ _ _ fmt HS) as HC.
  set (c := mkCfg hf hash 16 fmt height seed) in *.
  destruct (new_run _ _ _ _ fmt HS junk) as (x & E & HR). exists x, (c_obj c w16 0). split; auto.
  split; [apply (XmssBasic_new_spec c w16 HC)|]. split.
  { destruct (HR []) as (x' & Er0 & (HI0 & _)). injection Er0 as <-. exact HI0. }
  intros cs y os msg y' sig j Er Est. destruct (HR cs) as (y1 & Er1 & HI). rewrite Er in Er1. injection Er1 as <- ->.
  set (i := fst (ref_run height (ref_sig hf w16 height seed) 0 cs)) in *.
  rewrite (inv_getIndex _ _ _ _ _ HS _ _ HI).
  destruct (step_spec c w16 HC y i (OpSign msg) HI) as (y2 & E2 & HI2 & _). rewrite Est in E2.
  cbn [ref_step] in *. change (c_height c) with height in *.
  destruct (i <? 2 ^ N.of_nat height)%N eqn:El; cbn [fst snd] in *; [|discriminate].
  injection E2 as <- ->. apply N.ltb_lt in El.
  assert (Es : fst (base_setIndex (c_obj c w16 0) i) = c_obj c w16 i).
  { unfold base_setIndex. cbn [fst]. unfold with_sk, c_obj. cbn [xb_params xb_hash xb_fmt xb_height xb_sk xb_seed]. reflexivity. }
  rewrite Es, (XmssBasic_sign_spec c w16 HC) by (cbn [c_height c]; auto; lia).
  eexists. split; [reflexivity|]. symmetry. apply HI2.
Qed.

(** ** C20: skipping ahead equals signing ahead. *)
Theorem C20_skip_equals_sign : forall junk seed height hash hf fmt, supported hash hf 16 w16 height seed ->
  exists x, XmssFast_new junk seed (N.of_nat height) hash fmt = Ok x /\
    forall before y os j msgs, run x before = Ok (y, os) ->
      (getIndex (xf_base y) <= j < 2 ^ N.of_nat height)%N ->
      N.of_nat (length msgs) = (j - getIndex (xf_base y))%N ->
      exists y1 y2 o1 o2, run y [OpSetIndex j] = Ok (y1, o1) /\ run y (map OpSign msgs) = Ok (y2, o2) /\
        xf_base y1 = xf_base y2 /\
        forall cs, exists z1 z2 obs, run y1 cs = Ok (z1, obs) /\ run y2 cs = Ok (z2, obs).
Proof.
  intros junk seed height hash hf fmt HS. pose proof (cfg_of _ _ _ _ _ _ fmt HS) as HC.
  set (c := mkCfg hf hash 16 fmt height seed) in *.
  destruct (new_run _ _ _ _ fmt HS junk) as (x & E & HR). exists x. split; auto.
  intros before y os j msgs Er Hj Hlen. destruct (HR before) as (y0 & Er0 & HI). rewrite Er in Er0. injection Er0 as <- ->.
  pose proof (inv_getIndex _ _ _ _ _ HS _ _ HI) as Ei. rewrite Ei in *.
  set (i := fst (ref_run height (ref_sig hf w16 height seed) 0 before)) in *.
  destruct (run_spec c w16 HC [OpSetIndex j] y i HI) as (y1 & E1 & HI1).
  destruct (run_spec c w16 HC (map OpSign msgs) y i HI) as (y2 & E2 & HI2).
  change (c_height c) with height in *.
  assert (F1 : fst (ref_run height (c_sig c w16) i [OpSetIndex j]) = j).
  { cbn [ref_run ref_step]. rewrite (proj2 (N.ltb_lt _ _)) by lia. rewrite (proj2 (N.leb_le i j)) by lia. reflexivity. }
  assert (F2 : fst (ref_run height (c_sig c w16) i (map OpSign msgs)) = j).
  { clear - Hj Hlen. clearbody i. revert i Hj Hlen. induction msgs as [|m ms IH]; intros i Hj Hlen; cbn [map ref_run fst length] in *.
    - lia.
    - cbn [ref_step]. rewrite (proj2 (N.ltb_lt _ _)) by lia.
      specialize (IH (i + 1)%N ltac:(lia) ltac:(lia)). destruct (ref_run height (c_sig c w16) (i + 1) (map OpSign ms)). exact IH. }
  rewrite F1 in HI1. rewrite F2 in HI2.
  exists y1, y2. do 2 eexists. split; [exact E1|]. split; [exact E2|]. split.
  { destruct HI1 as (-> & _). destruct HI2 as (-> & _). reflexivity. }
  intros cs. destruct (run_spec c w16 HC cs y1 j HI1) as (z1 & G1 & _). destruct (run_spec c w16 HC cs y2 j HI2) as (z2 & G2 & _).
  eauto 6.
Qed.

(** ** C21: no one-time key is used twice. *)
Theorem C21_indices_strictly_increase : forall junk seed height hash hf fmt, supported hash hf 16 w16 height seed ->
  exists x, XmssFast_new junk seed (N.of_nat height) hash fmt = Ok x /\
    forall cs y os, run x cs = Ok (y, os) ->
      forall n1 n2 s1 s2, n1 < n2 -> nth_error os n1 = Some (ObsSig s1) -> nth_error os n2 = Some (ObsSig s2) ->
        (sig_index s1 < sig_index s2 < 2 ^ N.of_nat height)%N.
Proof.
  intros junk seed height hash hf fmt HS. pose proof (cfg_of _ _ _ _ _ _ fmt HS) as HC.
  set (c := mkCfg hf hash 16 fmt height seed) in *.
  destruct (new_run _ _ _ _ fmt HS junk) as (x & E & HR). exists x. split; auto.
  intros cs y os Er n1 n2 s1 s2 Hlt O1 O2. destruct (HR cs) as (y0 & Er0 & HI). rewrite Er in Er0. injection Er0 as <- ->.
  set (sg := ref_sig hf w16 height seed) in *.
  assert (Hobs : forall n s, nth_error (snd (ref_run height sg 0 cs)) n = Some (ObsSig s) ->
     let i := fst (ref_run height sg 0 (firstn n cs)) in
     (i < 2 ^ N.of_nat height)%N /\ sig_index s = i /\ (i < fst (ref_run height sg 0 (firstn (S n) cs)))%N).
  { intros n s Hn. destruct (nth_error cs n) as [op|] eqn:Ec.
    2:{ apply nth_error_None in Ec. assert (nth_error (snd (ref_run height sg 0 cs)) n = None) by (apply nth_error_None; rewrite ref_run_length; auto). congruence. }
    rewrite (ref_run_nth _ _ _ _ _ _ Ec) in Hn. intros i. fold i in Hn. injection Hn as Hn.
    assert (Ef : firstn (S n) cs = firstn n cs ++ [op]) by (now apply firstn_S_nth_error).
    rewrite Ef, ref_run_app. cbn [fst]. fold i. cbn [ref_run].
    destruct op as [m|j]; cbn [ref_step] in *.
    - destruct (i <? 2 ^ N.of_nat height)%N eqn:El; cbn [snd fst] in *; [|discriminate]. apply N.ltb_lt in El.
      injection Hn as <-. split; auto. split; [|lia].
      unfold sig_index, sg, ref_sig, signature. rewrite N2Nat.id.
      change (firstn 4 ?x) with (slice 0 4 x). rewrite slice_app_l by (now rewrite to_byte_length).
      apply from_be_to_byte4. pose proof (pow_H_bound c w16 HC) as Hp. cbn [c_height c] in Hp.
      change (2 ^ 32)%N with 4294967296%N. change (2 ^ 30)%N with 1073741824%N in *. lia.
    - destruct ((j <? 2 ^ N.of_nat height)%N && (i <=? j)%N); cbn [snd] in Hn; discriminate. }
  destruct (Hobs n1 s1 O1) as (B1 & E1 & M1). destruct (Hobs n2 s2 O2) as (B2 & E2 & _).
  rewrite E1, E2. split; auto. eapply N.lt_le_trans; [exact M1|].
  assert (Ef : firstn n2 cs = firstn (S n1) cs ++ firstn (n2 - S n1) (skipn (S n1) cs)).
  { replace n2 with (S n1 + (n2 - S n1)) at 1 by lia. rewrite <- (firstn_skipn (S n1) cs) at 1.
    rewrite firstn_app. rewrite firstn_firstn, Nat.min_r by lia.
    destruct (Nat.le_gt_cases (S n1) (length cs)) as [Hl|Hl].
    - rewrite firstn_length, Nat.min_l by lia. now replace (S n1 + (n2 - S n1) - S n1) with (n2 - S n1) by lia.
    - rewrite (skipn_all2 cs) by lia. now rewrite !firstn_nil. }
  rewrite Ef, ref_run_app. cbn [fst]. apply ref_run_mono.
Qed.

(** ** C22: exhaustion. *)
Theorem C22_exhaustion : forall junk seed height hash hf fmt, supported hash hf 16 w16 height seed ->
  exists x, XmssFast_new junk seed (N.of_nat height) hash fmt = Ok x /\
    forall cs y os, run x cs = Ok (y, os) ->
      (N.of_nat (length (filter is_sig os)) <= 2 ^ N.of_nat height)%N /\
      getRemainingSignatures (xf_base y) = Ok (2 ^ N.of_nat height - getIndex (xf_base y))%N /\
      (getIndex (xf_base y) <= 2 ^ N.of_nat height)%N /\
      ((getIndex (xf_base y) < 2 ^ N.of_nat height)%N ->
         forall msg, exists y' sig, step y (OpSign msg) = Ok (y', ObsSig sig) /\
           getIndex (xf_base y') = (getIndex (xf_base y) + 1)%N) /\
      (getRemainingSignatures (xf_base y) = Ok 0%N -> forall op, step y op = Ok (y, ObsExn InvalidArgument)).
Proof.
  intros junk seed height hash hf fmt HS. pose proof (cfg_of _ _ _ _ _ _ fmt HS) as HC.
  set (c := mkCfg hf hash 16 fmt height seed) in *.
  destruct (new_run _ _ _ _ fmt HS junk) as (x & E & HR). exists x. split; auto.
  intros cs y os Er. destruct (HR cs) as (y0 & Er0 & HI). rewrite Er in Er0. injection Er0 as <- ->.
  set (sg := ref_sig hf w16 height seed) in *.
  pose proof (inv_getIndex _ _ _ _ _ HS _ _ HI) as Ei. rewrite Ei in *.
  set (i := fst (ref_run height sg 0 cs)) in *.
  assert (Hi : (i <= 2 ^ N.of_nat height)%N) by (apply ref_run_bound; lia).
  pose proof (pow_H_bound c w16 HC) as Hp. cbn [c_height c] in Hp.
  assert (Erem : getRemainingSignatures (xf_base y) = Ok (2 ^ N.of_nat height - i)%N).
  { unfold getRemainingSignatures, getNumberSignatures. rewrite Ei. destruct HI as (-> & _). cbn [c_obj xb_height].
    destruct HS as (_ & _ & Hh & _). cbn [c_height c]. rewrite (proj2 (N.leb_gt _ _)) by lia. cbn [bind]. f_equal. unfold u32.
    symmetry. apply (N.mod_unique _ _ 1).
    - change (2 ^ 32)%N with 4294967296%N. change (2 ^ 30)%N with 1073741824%N in *. lia.
    - change (2 ^ 32)%N with 4294967296%N in *. change (2 ^ 30)%N with 1073741824%N in *. lia. }
  split. { pose proof (ref_run_count height sg cs 0). fold i in H. lia. }
  split; [exact Erem|]. split; [exact Hi|]. split.
  - intros Hlt msg. destruct (step_spec c w16 HC y i (OpSign msg) HI) as (y' & E' & HI' & _).
    change (c_height c) with height in *. cbn [ref_step] in *. rewrite (proj2 (N.ltb_lt _ _) Hlt) in *. cbn [fst snd] in *.
    eexists y', _. split; [exact E'|]. eapply inv_getIndex; eauto.
  - rewrite Erem. intros H0 op. injection H0 as H0. assert (E0 : i = (2 ^ N.of_nat height)%N) by lia.
    destruct (step_spec c w16 HC y i op HI) as (y' & E' & HI' & HX).
    change (c_height c) with height in *.
    assert (Es : snd (ref_step height (c_sig c w16) i op) = ObsExn InvalidArgument).
    { destruct op as [m|j]; cbn [ref_step].
      - rewrite (proj2 (N.ltb_ge _ _)) by lia. reflexivity.
      - destruct ((j <? 2 ^ N.of_nat height)%N && (i <=? j)%N) eqn:Ec; auto. exfalso.
        apply andb_true_iff in Ec. destruct Ec as [Ec1 Ec2]. apply N.ltb_lt in Ec1. apply N.leb_le in Ec2. lia. }
    rewrite Es in E', HX. rewrite E'. now rewrite (HX _ eq_refl).
Qed.

(** ** C23: failed calls change nothing; when setIndex and sign fail. *)
Theorem C23_failed_calls : forall junk seed height hash hf fmt, supported hash hf 16 w16 height seed ->
  exists x, XmssFast_new junk seed (N.of_nat height) hash fmt = Ok x /\
    forall cs y os, run x cs = Ok (y, os) ->
      (forall op y' e, step y op = Ok (y', ObsExn e) -> y' = y /\ e = InvalidArgument) /\
      (forall j y' r, step y (OpSetIndex j) = Ok (y', r) ->
         (r = ObsExn InvalidArgument <-> (j < getIndex (xf_base y) \/ 2 ^ N.of_nat height <= j)%N) /\
         (r <> ObsExn InvalidArgument -> r = ObsIdx j /\ getIndex (xf_base y') = j)) /\
      (forall msg y' r, step y (OpSign msg) = Ok (y', r) ->
         (r = ObsExn InvalidArgument <-> (2 ^ N.of_nat height <= getIndex (xf_base y))%N)).
Proof.
  intros junk seed height hash hf fmt HS. pose proof (cfg_of _ _ _ _ _ _ fmt HS) as HC.
  set (c := mkCfg hf hash 16 fmt height seed) in *.
  destruct (new_run _ _ _ _ fmt HS junk) as (x & E & HR). exists x. split; auto.
  intros cs y os Er. destruct (HR cs) as (y0 & Er0 & HI). rewrite Er in Er0. injection Er0 as <- ->.
  pose proof (inv_getIndex _ _ _ _ _ HS _ _ HI) as Ei. rewrite Ei in *.
  set (i := fst (ref_run height (ref_sig hf w16 height seed) 0 cs)) in *.
  split; [|split].
  - intros op y' e Est. destruct (step_spec c w16 HC y i op HI) as (y1 & E' & HI' & HX). rewrite E' in Est.
    injection Est as <- Ee. split; [eapply HX; eauto|].
    change (c_height c) with height in *. destruct op as [m|j]; cbn [ref_step] in Ee.
    + destruct (i <? 2 ^ N.of_nat height)%N; cbn [snd] in Ee; congruence.
    + destruct ((j <? 2 ^ N.of_nat height)%N && (i <=? j)%N); cbn [snd] in Ee; congruence.
  - intros j y' r Est. destruct (step_spec c w16 HC y i (OpSetIndex j) HI) as (y1 & E' & HI' & HX). rewrite E' in Est.
    injection Est as <- <-. change (c_height c) with height in *. cbn [ref_step] in *.
    destruct ((j <? 2 ^ N.of_nat height)%N && (i <=? j)%N) eqn:Ec; cbn [fst snd] in *.
    + apply andb_true_iff in Ec. destruct Ec as [Ec1 Ec2]. apply N.ltb_lt in Ec1. apply N.leb_le in Ec2.
      split; [split; [discriminate|lia]|]. intros _. split; auto. eapply inv_getIndex; eauto.
    + split; [|congruence]. split; auto. intros _. apply andb_false_iff in Ec. destruct Ec as [Ec|Ec].
      * apply N.ltb_ge in Ec. auto. * apply N.leb_gt in Ec. auto.
  - intros m y' r Est. destruct (step_spec c w16 HC y i (OpSign m) HI) as (y1 & E' & HI' & HX). rewrite E' in Est.
    injection Est as <- <-. change (c_height c) with height in *. cbn [ref_step].
    destruct (i <? 2 ^ N.of_nat height)%N eqn:El; cbn [snd].
    + apply N.ltb_lt in El. split; [discriminate|lia].
    + apply N.ltb_ge in El. split; auto.
Qed.

(** ** C24: no out-of-bounds access and no use of uninitialised data, for every
    history; [junk1], [junk2] are the contents of the uninitialised buffers. *)
Theorem C24_traversal_safe : forall junk1 junk2 seed height hash hf fmt, supported hash hf 16 w16 height seed ->
  exists x1 x2, XmssFast_new junk1 seed (N.of_nat height) hash fmt = Ok x1 /\
    XmssFast_new junk2 seed (N.of_nat height) hash fmt = Ok x2 /\
    forall cs, exists y1 y2 os, run x1 cs = Ok (y1, os) /\ run x2 cs = Ok (y2, os) /\ xf_base y1 = xf_base y2.
Proof.
  intros junk1 junk2 seed height hash hf fmt HS.
  destruct (new_run _ _ _ _ fmt HS junk1) as (x1 & E1 & HR1). destruct (new_run _ _ _ _ fmt HS junk2) as (x2 & E2 & HR2).
  exists x1, x2. repeat (split; auto). intros cs. destruct (HR1 cs) as (y1 & R1 & I1). destruct (HR2 cs) as (y2 & R2 & I2).
  exists y1, y2. eexists. repeat (split; eauto). destruct I1 as (-> & _). destruct I2 as (-> & _). reflexivity.
Qed.

(** ** C25: XmssBasic uses the index it is told; no exhaustion check. *)
Theorem C25_basic_index : forall junk seed height hash hf fmt w wp,
  supported hash hf w wp height seed -> height <= 24 ->
  exists x, XmssBasic_new junk seed (N.of_nat height) hash fmt w = Ok x /\
    (forall j i msg, (i < 2 ^ N.of_nat height)%N ->
       snd (base_setIndex x i) = i /\
       exists y sig, XmssBasic_sign j (fst (base_setIndex x i)) msg = Ok (y, sig) /\
         sig_index sig = i /\ getIndex y = (i + 1)%N /\
         (* rewinding: any index is accepted again, and used again *)
         forall k msg', (k < 2 ^ N.of_nat height)%N ->
           exists y' sig', XmssBasic_sign j (fst (base_setIndex y k)) msg' = Ok (y', sig') /\ sig_index sig' = k) /\
    (forall j i msg, (2 ^ N.of_nat height <= i < 2 ^ 32)%N ->
       XmssBasic_sign j (fst (base_setIndex x i)) msg = UB).
Proof.
  intros junk seed height hash hf fmt w wp HS Hh. pose proof (cfg_of _ _ _ _ _ _ fmt HS) as HC.
  set (c := mkCfg hf hash w fmt height seed) in *.
  exists (c_obj c wp 0). split; [apply (XmssBasic_new_spec c wp HC)|].
  assert (Es : forall k i, fst (base_setIndex (c_obj c wp k) i) = c_obj c wp i).
  { intros k i. unfold base_setIndex. cbn [fst]. unfold with_sk, c_obj. cbn [xb_params xb_hash xb_fmt xb_height xb_sk xb_seed]. reflexivity. }
  pose proof (pow_H_bound c wp HC) as Hp. cbn [c_height c] in Hp.
  assert (Eg : forall i, (i <= 2 ^ N.of_nat height)%N -> getIndex (c_obj c wp i) = i).
  { intros i Hi. unfold getIndex. cbn [c_obj xb_sk]. rewrite (sk_index c wp HC) by auto. unfold u32. apply N.mod_small.
    change (2 ^ 32)%N with 4294967296%N. change (2 ^ 30)%N with 1073741824%N in *. lia. }
  assert (Ex : forall i msg, (i < 2 ^ N.of_nat height)%N -> sig_index (c_sig c wp (N.to_nat i) msg) = i).
  { intros i msg Hi. unfold sig_index, c_sig, ref_sig, signature. rewrite N2Nat.id.
    change (firstn 4 ?x) with (slice 0 4 x). rewrite slice_app_l by (now rewrite to_byte_length).
    apply from_be_to_byte4. change (2 ^ 32)%N with 4294967296%N. change (2 ^ 30)%N with 1073741824%N in *. lia. }
  split.
  - intros j i msg Hi. split.
    { transitivity (getIndex (fst (base_setIndex (c_obj c wp 0) i))); [reflexivity|]. rewrite Es. apply Eg. lia. }
    rewrite Es, (XmssBasic_sign_spec c wp HC) by (cbn [c_height c]; auto; lia).
    do 2 eexists. split; [reflexivity|]. split; [auto|]. split; [apply Eg; lia|].
    intros k msg' Hk. rewrite Es, (XmssBasic_sign_spec c wp HC) by (cbn [c_height c]; auto; lia). eauto.
  - intros j i msg Hi. rewrite Es. unfold XmssBasic_sign. cbn [c_obj xb_hash xb_params xb_sk].
    unfold with_hash. rewrite (co_hash _ _ HC). unfold xmss_Signmsg.
    assert (Ei : from_be (slice 0 4 (c_sk c wp i)) = i).
    { destruct (key_lengths seed) as (L1 & L2 & L3).
      rewrite cfg_sk. destruct (sk_at_slices (key_seed seed) (key_prf seed) (key_pub seed) _ (c_params c) L1 L2 L3 (cfg_root_len c wp HC) i) as (E0 & _).
      match goal with |- ?L = _ => match type of E0 with ?L' = _ => change L with (from_be L') end end.
      rewrite E0. apply from_be_to_byte4. apply Hi. }
    rewrite Ei.
    assert (HU : forall ss ps a, root_adrs a -> compute_authpath_wots hf j (N.to_nat i) ss (c_params c) ps a = UB).
    { intros ss ps a Ra. unfold compute_authpath_wots. change (x_h (c_params c)) with height. destruct HS as (_ & _ & Hb & _).
      rewrite (proj2 (Nat.leb_gt _ _)) by lia.
      destruct (wots_ok_facts _ (cfg_wots c wp HC)) as (Hw & _ & _ & Hlen & _).
      destruct (copy_adrs a Ra) as (Ho & Hl & Hn).
      match goal with |- (bind (for_up ?n ?f ?s0) _) = _ =>
        destruct (for_up_inv _ (fun i '(tree, oa, la) => (exists o, ots_adrs oa o) /\ (exists o, lt_adrs la o) /\ length tree = 2 * 2 ^ height) f n s0)
          as (s1 & E1 & HI1) end.
      { repeat split; eauto. apply repeat_length. }
      { intros k [[tree oa] la] Hk ((o1 & Ho1) & (o2 & Ho2) & HL).
        destruct (gen_leaf_wots_spec hf ss (c_params c) ps (setLtreeADRS la (N.of_nat k)) (setOTSADRS oa (N.of_nat k)) k)
          as (la' & oa' & E & Hla & Hoa); auto.
        { eapply lt_adrs_set; eauto. } { eapply ots_adrs_set; eauto. }
        rewrite E. cbn [bind]. rewrite set_ok by lia. cbn [bind]. eexists. split; [reflexivity|].
        repeat split; eauto. now rewrite upd_length. }
      destruct s1 as [[tree1 oa1] la1]. rewrite E1. cbn [bind]. destruct HI1 as (_ & _ & HL1). clear E1.
      match goal with |- (bind (for_up ?n ?f ?s0) _) = _ =>
        destruct (for_up_inv _ (fun lev '(tree, na) => length tree = 2 * 2 ^ height) f n s0) as (s2 & E2 & HI2) end.
      { exact HL1. }
      { intros lev [tree na] Hlev HL. set (i2 := 2 ^ (height - lev)).
        assert (Ele : i2 <= 2 ^ height) by (unfold i2; apply Nat.pow_le_mono_r; lia).
        assert (Hev : 2 * (i2 / 2) <= i2) by (apply Nat.mul_div_le; lia).
        match goal with |- exists s'', for_up ?n ?g ?t0 = _ /\ _ =>
          destruct (for_up_inv _ (fun j2 '(tree', na') => length tree' = 2 * 2 ^ height) g n t0) as (t' & Et & HIt) end.
        - exact HL.
        - intros j2 [tree' na'] Hj2 HL'.
          destruct (get_in_range _ tree' (i2 + 2 * j2)) as (v1 & G1); [lia|]. rewrite G1. cbn [bind].
          destruct (get_in_range _ tree' (i2 + 2 * j2 + 1)) as (v2 & G2); [lia|]. rewrite G2. cbn [bind].
          destruct (hash_h hf (v1 ++ v2) ps _) as [o a']. rewrite set_ok by lia. cbn [bind].
          eexists. split; [reflexivity|]. cbv beta iota. rewrite upd_length. exact HL'.
        - exists t'. split; auto. }
      destruct s2 as [tree2 na2]. rewrite E2. cbn [bind].
      destruct height as [|h']; [lia|]. unfold for_up. cbn [for_from].
      assert (Hbig : nth_error tree2 (2 ^ S h' / 2 ^ 0 + Nat.lxor (N.to_nat i / 2 ^ 0) 1) = None).
      { apply nth_error_None. change (2 ^ 0) with 1. rewrite !Nat.div_1_r, HI2, lxor_1.
        assert (2 ^ S h' <= N.to_nat i) by (rewrite <- pow_N_nat; lia).
        destruct (Nat.odd (N.to_nat i)) eqn:Eo; [|lia].
        assert (N.to_nat i <> 2 ^ S h').
        { intros Eq. rewrite Eq in Eo. cbn [Nat.pow] in Eo. replace (2 ^ h' + (2 ^ h' + 0)) with (2 * 2 ^ h') in Eo by lia.
          rewrite <- Nat.negb_even in Eo. rewrite Nat.even_mul in Eo. discriminate. }
        lia. }
      unfold get at 1. rewrite Hbig. reflexivity. }
    destruct (get_seed_spec hf (slice 4 32 (c_sk c wp i)) _ (N.to_nat i) (ots_adrs_init (N.to_nat i))) as (a1 & G1 & A1).
    rewrite N2Nat.id in G1. cbv zeta. change (c_hf c) with hf. rewrite G1.
    match goal with |- context [wots_sign hf ?dg _ _ _ _] => set (dgst := dg) end.
    destruct (digits_of_ok (x_wots (c_params c)) dgst (cfg_wots c wp HC)) as (D1 & D2 & D3).
    { unfold dgst, h_msg. rewrite core_hash_keyed. apply keyed_length. }
    destruct (wots_sign_spec hf (x_wots (c_params c)) dgst (ots_seed hf (slice 4 32 (c_sk c wp i)) (N.to_nat i)) (slice 68 32 (c_sk c wp i)) a1 (N.to_nat i)
       (slice 4 32 (c_sk c wp i)) (digits_of (x_wots (c_params c)) dgst) A1 eq_refl D1 D2 D3) as (a2 & G2 & A2).
    rewrite G2. cbn [bind]. rewrite HU by (apply A2). reflexivity.
Qed.
