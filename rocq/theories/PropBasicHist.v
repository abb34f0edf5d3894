(** C25: every history of calls on an XmssBasic object. *)
From Coq Require Import List NArith Arith Lia Bool.
From Verif Require Import Base Bytes Keccak HashAddress Wots XmssCommon AlgsXmss AlgsXmssFast Descriptor
  SpecXmss SpecApi SpecBasic XmssObj XmssRefine WotsProofs TreeProofs BasicProofs FastProofs PropMisc PropObj.
From Verif Require Export SpecTerms2.
Import ListNotations.
Open Scope nat_scope.




Section Hist.
  Variables (c : key_cfg) (wp : nat * nat * nat).
  Hypothesis HC : cfg_ok c wp.
  Local Notation H := (c_height c).

  Lemma bh_getIndex : forall i, (i < 2 ^ 32)%N -> getIndex (c_obj c wp i) = i.
  Proof.
    intros i Hi. unfold getIndex. cbn [c_obj xb_sk]. destruct (key_lengths (c_seed c)) as (L1 & L2 & L3).
    rewrite cfg_sk. destruct (sk_at_slices _ _ _ _ (c_params c) L1 L2 L3 (cfg_root_len c wp HC) i) as (E0 & _).
    rewrite E0, from_be_to_byte4 by auto. unfold u32. now apply N.mod_small.
  Qed.
  Lemma bh_setIndex : forall k i, fst (base_setIndex (c_obj c wp k) i) = c_obj c wp i.
  Proof. reflexivity. Qed.

  Lemma bh_sign_high : forall junk i msg, 26 <= H -> XmssBasic_sign junk (c_obj c wp i) msg = UB.
  Proof.
    intros junk i msg Hh. unfold XmssBasic_sign. cbn [c_obj xb_hash xb_params xb_sk]. unfold with_hash.
    rewrite (co_hash _ _ HC). unfold xmss_Signmsg. cbv zeta. destruct (get_seed _ _ _) as [os a].
    destruct (wots_sign _ _ _ _ _ _) as [[cs a2]|e|] eqn:E; cbn [bind]; [| |reflexivity].
    - unfold compute_authpath_wots. cbn [c_params x_h]. rewrite (proj2 (Nat.leb_le _ _) Hh). reflexivity.
    - exfalso. unfold wots_sign in E.
      match type of E with context [wots_digits ?m _] => destruct (digits_of_ok _ m (cfg_wots c wp HC)) as (D1 & _) end.
      { unfold h_msg. rewrite core_hash_keyed. apply keyed_length. }
      rewrite D1 in E. discriminate E.
  Qed.

  Lemma bh_sign_outside : forall junk i msg, H <= 24 -> (2 ^ N.of_nat H <= i < 2 ^ 32)%N ->
    XmssBasic_sign junk (c_obj c wp i) msg = UB.
  Proof.
    intros junk i msg Hh Hi. destruct HC as [C1 C2 C3 C4 C5].
    destruct (C25_basic_index [] (c_seed c) H (c_hash c) (c_hf c) (c_fmt c) (c_w c) wp) as (x & Ex & _ & HU); auto.
    { repeat split; auto; apply C3. }
    rewrite (XmssBasic_new_spec c wp HC []) in Ex. apply Ok_inj in Ex. subst x.
    apply (HU junk i msg Hi).
  Qed.

  Lemma bh_step : forall i a, (i < 2 ^ 32)%N -> u32_op (snd a) ->
    match basic_ref_step H (c_sig c wp) i (snd a) with
    | Some (i', x) => basic_step (c_obj c wp i) a = Ok (c_obj c wp i', x) /\ (i' < 2 ^ 32)%N
    | None => basic_step (c_obj c wp i) a = UB
    end.
  Proof.
    intros i [junk [m|j]] Hi Ha; cbn [snd basic_ref_step basic_step] in *.
    - destruct (i <? 2 ^ N.of_nat H)%N eqn:E1; cbn [andb].
      + apply N.ltb_lt in E1. destruct (H <=? 24) eqn:E2.
        * apply Nat.leb_le in E2. rewrite (XmssBasic_sign_spec c wp HC) by (auto; lia). cbn [bind]. split; [reflexivity|].
          pose proof (pow_H_bound c wp HC). change (2 ^ 32)%N with 4294967296%N. change (2 ^ 30)%N with 1073741824%N in *. lia.
        * apply Nat.leb_gt in E2. rewrite bh_sign_high; [reflexivity|].
          pose proof (co_even _ _ HC) as He. apply Nat.even_spec in He. destruct He as [y Ey]. lia.
      + apply N.ltb_ge in E1. destruct (Nat.le_gt_cases H 24).
        * rewrite bh_sign_outside by (auto; lia). reflexivity.
        * rewrite bh_sign_high; [reflexivity|].
          pose proof (co_even _ _ HC) as He. apply Nat.even_spec in He. destruct He as [y Ey]. lia.
    - split; [|exact Ha].
      change (base_setIndex (c_obj c wp i) j) with (c_obj c wp j, getIndex (c_obj c wp j)).
      cbv iota. rewrite bh_getIndex by auto. reflexivity.
  Qed.

  Lemma bh_run : forall cs i, (i < 2 ^ 32)%N -> Forall u32_op (map snd cs) ->
    match basic_ref_run H (c_sig c wp) i (map snd cs) with
    | Some (i', xs) => basic_run (c_obj c wp i) cs = Ok (c_obj c wp i', xs) /\ (i' < 2 ^ 32)%N
    | None => basic_run (c_obj c wp i) cs = UB
    end.
  Proof.
    induction cs as [|a cs IH]; intros i Hi Hcs; cbn [map basic_ref_run basic_run]; [auto|].
    inversion Hcs as [|? ? Ha Hr]; subst. pose proof (bh_step i a Hi Ha) as S1.
    destruct (basic_ref_step H (c_sig c wp) i (snd a)) as [[i1 x1]|]; [|now rewrite S1].
    destruct S1 as [S1 Hi1]. rewrite S1. cbn [bind]. specialize (IH i1 Hi1 Hr).
    destruct (basic_ref_run H (c_sig c wp) i1 (map snd cs)) as [[i2 xs]|]; [|now rewrite IH].
    destruct IH as [IH Hi2]. rewrite IH. cbn [bind]. auto.
  Qed.
End Hist.

(** Every finite sequence of sign and setIndex calls, for every supported key:
    exactly the observations of the reference machine; undefined exactly when the
    reference machine is stuck (signing with an index outside the tree, or with a
    tree of height 26 or more).  Key, address material and sizes never change. *)
Theorem C25_basic_history : forall junk seed height hash hf fmt w wp, supported hash hf w wp height seed ->
  exists x, XmssBasic_new junk seed (N.of_nat height) hash fmt w = Ok x /\
    forall cs, Forall u32_op (map snd cs) ->
      match basic_ref_run height (ref_sig hf wp height seed) 0 (map snd cs) with
      | Some (i, obs) =>
          exists y, basic_run x cs = Ok (y, obs) /\ getIndex y = i /\ getPK y = getPK x /\
                    getSK y = ref_sk hf wp height seed i
      | None => basic_run x cs = UB
      end.
Proof.
  intros junk seed height hash hf fmt w wp HS. pose proof (cfg_of _ _ _ _ _ _ fmt HS) as HC.
  set (c := mkCfg hf hash w fmt height seed) in *.
  exists (c_obj c wp 0). split; [apply (XmssBasic_new_spec c wp HC)|].
  intros cs Hcs. pose proof (bh_run c wp HC cs 0%N ltac:(reflexivity) Hcs) as R.
  change (c_sig c wp) with (ref_sig hf wp height seed) in R. change (c_height c) with height in R.
  destruct (basic_ref_run height (ref_sig hf wp height seed) 0 (map snd cs)) as [[i obs]|]; [|exact R].
  destruct R as [R Hi]. exists (c_obj c wp i). split; [exact R|]. split; [apply (bh_getIndex c wp HC); auto|].
  split; [|reflexivity]. fold (c_pk c wp i) (c_pk c wp 0). now rewrite !(getPK_shape c wp HC).
Qed.

(** An XmssBasic object follows an XmssFast object with the same key through every
    history in which the XmssFast object throws nothing. *)
Lemma basic_follows : forall h sig cs i, h <= 24 -> Forall no_exn (snd (ref_run h sig i cs)) ->
  basic_ref_run h sig i cs = Some (ref_run h sig i cs).
Proof.
  induction cs as [|a cs IH]; intros i Hh HN; [reflexivity|].
  cbn [basic_ref_run ref_run] in *.
  assert (S1 : no_exn (snd (ref_step h sig i a)) -> basic_ref_step h sig i a = Some (ref_step h sig i a)).
  { destruct a as [m|j]; cbn [ref_step basic_ref_step].
    - rewrite (proj2 (Nat.leb_le _ _) Hh), andb_true_r. destruct (i <? 2 ^ N.of_nat h)%N; [reflexivity|intros []].
    - destruct ((j <? 2 ^ N.of_nat h)%N && (i <=? j)%N); [reflexivity|intros []]. }
  destruct (ref_step h sig i a) as [i1 x1]. specialize (IH i1 Hh).
  destruct (ref_run h sig i1 cs) as [i2 xs]. cbn [snd] in *. inversion HN as [|? ? N1 N2]; subst.
  rewrite S1 by exact N1. now rewrite IH by exact N2.
Qed.
Theorem C19_basic_follows_fast : forall junk junk' seed height hash hf fmt, supported hash hf 16 w16 height seed -> height <= 24 ->
  exists xf xb, XmssFast_new junk seed (N.of_nat height) hash fmt = Ok xf /\
    XmssBasic_new junk' seed (N.of_nat height) hash fmt 16 = Ok xb /\
    forall cs y os, Forall u32_op (map snd cs) -> run xf (map snd cs) = Ok (y, os) -> Forall no_exn os ->
      basic_run xb cs = Ok (xf_base y, os).
Proof.
  intros junk junk' seed height hash hf fmt HS Hh. pose proof (cfg_of _ _ _ _ _ _ fmt HS) as HC.
  destruct (new_run _ _ _ _ fmt HS junk) as (xf & Ef & HR).
  exists xf, (c_obj (mkCfg hf hash 16 fmt height seed) w16 0). split; [exact Ef|].
  split; [apply (XmssBasic_new_spec _ _ HC)|].
  intros cs y os Hcs Er HN. destruct (HR (map snd cs)) as (y' & Er' & HI). rewrite Er in Er'. apply Ok_inj in Er'.
  apply pair_equal_spec in Er'. destruct Er' as [<- ->].
  pose proof (bh_run _ _ HC cs 0%N ltac:(reflexivity) Hcs) as R.
  change (c_sig (mkCfg hf hash 16 fmt height seed) w16) with (ref_sig hf w16 height seed) in R. cbn [c_height] in R.
  rewrite (basic_follows _ _ _ _ Hh HN) in R.
  destruct (ref_run height (ref_sig hf w16 height seed) 0 (map snd cs)) as [i obs]. cbn [fst snd] in *.
  destruct R as [R _]. rewrite R. destruct HI as (Eb & _). now rewrite Eb.
Qed.

Example C25_history_hypotheses :
  supported 1 SHAKE_128 16 w16 4 (repeat 7%N 48) /\
  Forall u32_op [OpSign [1%N]; OpSetIndex 15; OpSign [2%N]; OpSetIndex 3; OpSign [3%N]; OpSetIndex (2 ^ 32 - 1)] /\
  basic_ref_run 4 (fun i m => N.of_nat i :: m) 0 [OpSign [1%N]; OpSetIndex 15; OpSign [2%N]; OpSetIndex 3; OpSign [3%N]]
    = Some (4%N, [ObsSig [0%N; 1%N]; ObsIdx 15; ObsSig [15%N; 2%N]; ObsIdx 3; ObsSig [3%N; 3%N]]) /\
  basic_ref_run 4 (fun i m => N.of_nat i :: m) 0 [OpSetIndex 16; OpSign []] = None.
Proof. split; [unfold supported; repeat split; cbn; lia|]. split; [repeat constructor|]. split; reflexivity. Qed.
