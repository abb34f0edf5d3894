(** C95: copy assignment of XmssFast objects. *)
From Coq Require Import List NArith Arith Lia Bool.
From Verif Require Import Base Bytes Keccak KeccakLemmas HashAddress Wots XmssCommon AlgsXmss AlgsXmssFast Descriptor
  SpecXmss SpecApi SpecForge SpecReuse SpecCopy XmssObj XmssRefine WotsProofs TreeProofs BasicProofs BdsSched BdsProofs BdsSetup FastProofs DescrProofs
  VerifyProofs PropObj PropVerify PropForge FastCopy CopyProofs PropCopy PropReuse FastAssign CasesXmss.
Import ListNotations.
Open Scope nat_scope.

(** ** The number of nodes of the authentication path never changes *)
Lemma for_from_pres : forall S (P : S -> Prop) f n a s s', (forall i x y, f i x = Ok y -> P x -> P y) ->
  for_from n a f s = Ok s' -> P s -> P s'.
Proof.
  induction n as [|n IH]; intros a s s' Hf E HP; cbn [for_from] in E.
  - apply Ok_inj in E. now subst.
  - destruct (f a s) as [s1| |] eqn:E1; try discriminate. cbn [bind] in E. eapply IH; eauto.
Qed.
Lemma set_len : forall A (l : list A) i a l', set l i a = Ok l' -> length l' = length l.
Proof. intros A l i a l' E. unfold set in E. destruct (i <? length l); [|discriminate]. apply Ok_inj in E. subst. apply upd_length. Qed.

Ltac unb E := apply bind_ok in E; let a := fresh "a" in let F := fresh "F" in destruct E as (a & F & E).

Lemma treehash_update_auth : forall hf lvl st ss p ps ad st', treehash_update hf lvl st ss p ps ad = Ok st' -> b_auth st' = b_auth st.
Proof.
  intros hf lvl st ss p ps ad st' E. unfold treehash_update in E. cbv zeta in E. unb E. unb E. destruct a0 as [[lf u] v].
  unb E. destruct a0 as [[[nd nh] us] off].
  destruct (nh =? th_h a).
  - unb E. apply Ok_inj in E. now subst.
  - unb E. unb E. unb E. apply Ok_inj in E. now subst.
Qed.
Lemma treehash_updates_auth : forall hf u st ss p ps ad st', bds_treehash_update hf u st ss p ps ad = Ok st' -> b_auth st' = b_auth st.
Proof.
  induction u as [|u IH]; intros st ss p ps ad st' E; cbn [bds_treehash_update] in E.
  - apply Ok_inj in E. now subst.
  - unb E. destruct a as [lv lm]. destruct (lv =? x_h p - x_k p); [apply Ok_inj in E; now subst|].
    unb E. apply IH in E. apply treehash_update_auth in F0. congruence.
Qed.
Lemma bds_round_auth : forall hf st j ss p ps ad st', bds_round hf st j ss p ps ad = Ok st' -> length (b_auth st') = length (b_auth st).
Proof.
  intros hf st j ss p ps ad st' E. unfold bds_round in E. cbv zeta in E. unb E. unb E.
  destruct (find_tau (x_h p) 0 (x_h p) j =? 0).
  - unb E. destruct a1 as [[lf u] v]. unb E. apply Ok_inj in E. subst. cbn [b_auth]. eapply set_len; eauto.
  - destruct (hash_h hf a ps _) as [out u]. unb E. unb E. unb E. apply Ok_inj in E. subst. cbn [b_auth].
    apply set_len in F1. rewrite <- F1. unfold for_up in F2.
    eapply (for_from_pres _ (fun l => length l = length a1)); [|exact F2|reflexivity].
    intros i x y Ex <-. cbv beta in Ex. destruct (i <? x_h p - x_k p).
    + unb Ex. eapply set_len; eauto.
    + destruct ((_ || _ || _)%bool); [discriminate|]. unb Ex. eapply set_len; eauto.
Qed.
Lemma bds_step_auth : forall hf p ss ps ad j st st', bds_step hf p ss ps ad j st = Ok st' -> length (b_auth st') = length (b_auth st).
Proof. intros hf p ss ps ad j st st' E. unfold bds_step in E. unb E. apply treehash_updates_auth in E. rewrite E. eapply bds_round_auth; eauto. Qed.

Lemma setIndex_auth : forall o i o' r, xfast_setIndex o i = Ok (o', r) -> length (b_auth (xf_state o')) = length (b_auth (xf_state o)).
Proof.
  intros o i o' r E. unfold xfast_setIndex, with_hash in E. destruct (hash_of_id (xb_hash (xf_base o))) as [hf|]; [|discriminate].
  unb E. destruct a as [[sk st] q].
  assert (G : length (b_auth st) = length (b_auth (xf_state o))).
  { unfold xmssfast_update in F. cbv zeta in F.
    destruct (_ <=? i)%N; [apply Ok_inj in F; congruence|]. destruct (i <? _)%N; [apply Ok_inj in F; congruence|].
    unb F. assert (st = a) by congruence. subst a.
    eapply (for_from_pres _ (fun s => length (b_auth s) = length (b_auth (xf_state o)))); [|exact F0|reflexivity].
    intros j x y Ex <-. eapply bds_step_auth; eauto. }
  destruct q; apply Ok_inj, pair_equal_spec in E; destruct E as (<- & _); exact G.
Qed.
Lemma step_auth : forall o c o' x, step o c = Ok (o', x) -> length (b_auth (xf_state o')) = length (b_auth (xf_state o)).
Proof.
  intros o [m|i] o' x E; cbn [step] in E; unb E; destruct a as [o1 r]; apply Ok_inj, pair_equal_spec in E; destruct E as (<- & _).
  - unfold xfast_sign in F. unb F. destruct a as [o2 q]. apply setIndex_auth in F0. destruct q; [apply Ok_inj in F; congruence|].
    unfold with_hash in F. destruct (hash_of_id (xb_hash (xf_base o2))) as [hf|]; [|discriminate]. unb F. destruct a as [[sk st] sg].
    apply Ok_inj, pair_equal_spec in F. destruct F as (<- & _). cbn [xf_state]. rewrite <- F0.
    unfold xmssfast_Signmsg in F1. cbv zeta in F1.
    destruct (get_seed hf _ _) as [os oa]. unb F1. destruct a as [ws oa2]. unb F1.
    assert (a = st) by congruence. subst a. destruct (_ <? _)%N; [|apply Ok_inj in F2; congruence]. eapply bds_step_auth; eauto.
  - eapply setIndex_auth; eauto.
Qed.
Lemma run_auth : forall cs o o' xs, run o cs = Ok (o', xs) -> length (b_auth (xf_state o')) = length (b_auth (xf_state o)).
Proof.
  induction cs as [|c cs IH]; intros o o' xs E; cbn [run] in E.
  - apply Ok_inj in E. congruence.
  - unb E. destruct a as [o1 x]. unb E. destruct a as [o2 ys]. assert (o2 = o') by congruence. subst o2.
    apply IH in F0. apply step_auth in F. congruence.
Qed.

(** ** Programs *)
Lemma world_run2_old : forall l w, world_run2 w (map A1 l) = world_run w l.
Proof. induction l as [|a l IH]; intros w; cbn [map world_run2 world_run world_step2]; [reflexivity|]. destruct (world_step w a) as [[w1 x]| |]; cbn [bind]; auto. now rewrite IH. Qed.
Lemma world_run2_app : forall a b w, world_run2 w (a ++ b) =
  ('(w1, xs) <- world_run2 w a ;; '(w2, ys) <- world_run2 w1 b ;; Ok (w2, xs ++ ys)).
Proof.
  induction a as [|x a IH]; intros b w; cbn [app world_run2 bind].
  - destruct (world_run2 w b) as [[w2 ys]| |]; reflexivity.
  - destruct (world_step2 w x) as [[w1 o]| |]; cbn [bind]; auto. rewrite IH.
    destruct (world_run2 w1 a) as [[w2 xs]| |]; cbn [bind]; auto.
    destruct (world_run2 w2 b) as [[w3 ys]| |]; cbn [bind]; auto. now rewrite app_assoc.
Qed.

(** Calls on object [n]. *)
Definition calls (n : nat) (cs : list op) : list act2 := map (fun c => A1 (ACall n c)) cs.
Lemma calls_old : forall n cs, calls n cs = map A1 (map (ACall n) cs).
Proof. intros. unfold calls. now rewrite map_map. Qed.
(** [new] constructs an object. *)
Definition new (junk seed : list N) (height : nat) (hash fmt : N) : act2 := A1 (ANew junk seed (N.of_nat height) hash fmt).

(** A program keeps a copy of its XmssFast object and puts it back by assignment, any
    number of times: [XmssFast x(...); cs1; XmssFast backup(x); cs; x = backup; cs'; x = backup; ...].
    After every assignment the object answers as at the time of the copy: index and
    traversal state go back, the next calls sign with the same one-time keys again. *)
Fixpoint rounds (css : list (list op)) : list act2 :=
  match css with
  | [] => []
  | cs :: r => calls 0 cs ++ ACopyAssign 0 1 :: rounds r
  end.

Lemma restore_rounds : forall hash hf height seed fmt, supported hash hf 16 w16 height seed ->
  let c := mkCfg hf hash 16 fmt height seed in
  forall i b h1 x1, fast_inv c w16 i x1 -> h_ptr h1 = 0 -> h_own h1 = 1 -> x1 = mkXF (h_base h1) (with_off b (h_off h1)) ->
  forall css b0 h0, h_ptr h0 = 0 -> h_own h0 = 0 -> mkXF (h_base h0) (with_off b0 (h_off h0)) = x1 -> length (b_auth b0) = length (b_auth b) ->
  exists b' h', world_run2 (mkW [Some b0; Some b] [Some h0; Some h1]) (rounds css) =
      Ok (mkW [Some b'; Some b] [Some h'; Some h1], concat (map (fun cs => snd (ref_run height (ref_sig hf w16 height seed) i cs)) css)) /\
    h_ptr h' = 0 /\ h_own h' = 0 /\ mkXF (h_base h') (with_off b' (h_off h')) = x1 /\ length (b_auth b') = length (b_auth b).
Proof.
  intros hash hf height seed fmt HS c i b h1 x1 HI Hp Ho Ex. pose proof (cfg_of _ _ _ _ _ _ fmt HS) as HC.
  induction css as [|cs css IH]; intros b0 h0 P0 O0 E0 L0; cbn [rounds map concat].
  - exists b0, h0. cbn [world_run2]. auto.
  - destruct (run_spec c w16 HC cs x1 i HI) as (x2 & R & _). rewrite <- E0 in R.
    pose proof (run_auth _ _ _ _ R) as LA. cbn [xf_state with_off b_auth] in LA.
    destruct (run0 cs b0 h0 [Some b] [Some h1] x2 _ P0 R) as (b2 & R2 & W2).
    assert (L2 : length (b_auth b2) = length (b_auth b)) by (apply (f_equal b_auth) in W2; cbn [with_off b_auth] in W2; congruence).
    rewrite world_run2_app, calls_old, world_run2_old, R2. cbn [bind world_run2].
    cbn [world_step2 w_objs w_bufs nth_error h_own h_ptr h_base h_off Nat.eqb]. rewrite O0, Ho, Hp. cbn [nth_error Nat.eqb].
    rewrite L2, Nat.eqb_refl. cbn [bind upd app].
    destruct (IH b (mkH (h_base h1) (h_off h1) 0 0)) as (b' & h' & R3 & Q1 & Q2 & Q3 & Q4); auto.
    change (firstn 0 [Some b2; Some b] ++ Some b :: skipn 1 [Some b2; Some b]) with [Some b; Some b].
    rewrite R3. cbn [bind]. exists b', h'. auto.
Qed.

Theorem C95_restore_rewinds : forall junk seed height hash hf fmt, supported hash hf 16 w16 height seed ->
  forall cs1 css cs3,
    let sg := ref_sig hf w16 height seed in
    let i := fst (ref_run height sg 0 cs1) in
    exists w, world_run2 (mkW [] []) (new junk seed height hash fmt :: calls 0 cs1 ++ A1 (ACopy 0) :: rounds css ++ calls 0 cs3) =
      Ok (w, snd (ref_run height sg 0 cs1) ++ concat (map (fun cs => snd (ref_run height sg i cs)) css) ++ snd (ref_run height sg i cs3)).
Proof.
  intros junk seed height hash hf fmt HS cs1 css cs3 sg i. pose proof (cfg_of _ _ _ _ _ _ fmt HS) as HC.
  destruct (XmssFast_new_spec junk seed height hash hf fmt HS) as (x & E & HI).
  set (c := mkCfg hf hash 16 fmt height seed) in *.
  destruct (run_spec c w16 HC cs1 x 0 HI) as (x1 & R1 & HI1). change (c_height c) with height in *. change (c_sig c w16) with sg in *. fold i in HI1.
  destruct (run0 cs1 (xf_state x) (mkH (xf_base x) (b_stackoffset (xf_state x)) 0 0) [] [] x1 (snd (ref_run height sg 0 cs1)) eq_refl) as (b1 & E1 & W1).
  { cbn [h_base h_off]. rewrite with_off_self. destruct x. exact R1. }
  assert (X1 : x1 = mkXF (xf_base x1) (with_off b1 (b_stackoffset (xf_state x1)))) by (rewrite W1; now destruct x1).
  set (h1 := mkH (xf_base x1) (b_stackoffset (xf_state x1)) 0 1).
  destruct (restore_rounds hash hf height seed fmt HS i b1 h1 x1 HI1 eq_refl eq_refl X1 css b1 (mkH (xf_base x1) (b_stackoffset (xf_state x1)) 0 0))
    as (b' & h' & R2 & Q1 & Q2 & Q3 & Q4); auto. fold sg in R2.
  destruct (run_spec c w16 HC cs3 x1 i HI1) as (x3 & R3 & _). change (c_height c) with height in *. change (c_sig c w16) with sg in *.
  rewrite <- Q3 in R3. destruct (run0 cs3 b' h' [Some b1] [Some h1] x3 _ Q1 R3) as (b3 & R4 & _).
  eexists. cbn [world_run2 world_step2 new world_step]. rewrite E. cbn [bind app w_bufs w_objs length].
  rewrite world_run2_app, calls_old, world_run2_old, E1. cbn [bind world_run2].
  cbn [world_step2 world_step w_objs w_bufs nth_error h_own h_ptr h_base h_off app length bind]. fold h1.
  rewrite world_run2_app, R2. cbn [bind]. rewrite calls_old, world_run2_old, R4. cbn [bind app]. reflexivity.
Qed.

(** So two different messages are signed with the same one-time key, both signatures are
    accepted, and C94 applies to them. *)
Theorem C95_restore_reuses_key : forall junk seed height hash hf fmt, supported hash hf 16 w16 height seed ->
  exists x, XmssFast_new junk seed (N.of_nat height) hash fmt = Ok x /\
  forall cs1 m1 m2,
    let i := fst (ref_run height (ref_sig hf w16 height seed) 0 cs1) in
    (i < 2 ^ N.of_nat height)%N ->
    exists w os s1 s2, world_run2 (mkW [] []) (new junk seed height hash fmt :: calls 0 cs1 ++
          [A1 (ACopy 0); A1 (ACall 0 (OpSign m1)); ACopyAssign 0 1; A1 (ACall 0 (OpSign m2))]) = Ok (w, os ++ [ObsSig s1; ObsSig s2]) /\
      length os = length cs1 /\
      sig_index s1 = i /\ sig_index s2 = i /\
      verify m1 s1 (getPK (xf_base x)) 16 = Ok true /\ verify m2 s2 (getPK (xf_base x)) 16 = Ok true /\
      signed hash hf 16 w16 seed i height (getPK (xf_base x), m1, s1) /\ signed hash hf 16 w16 seed i height (getPK (xf_base x), m2, s2).
Proof.
  intros junk seed height hash hf fmt HS. destruct (XmssFast_new_spec junk seed height hash hf fmt HS) as (x & E & HI). exists x. split; [exact E|].
  intros cs1 m1 m2 i Hi. set (sg := ref_sig hf w16 height seed) in *.
  destruct (C95_restore_rewinds junk seed height hash hf fmt HS cs1 [[OpSign m1]] [OpSign m2]) as (w & R). fold sg in R. fold i in R.
  assert (Es : forall m, snd (ref_run height sg i [OpSign m]) = [ObsSig (sg (N.to_nat i) m)]).
  { intros m. cbn [ref_run ref_step]. rewrite (proj2 (N.ltb_lt _ _) Hi). reflexivity. }
  cbn [map concat] in R. rewrite !Es in R. cbn [app] in R.
  exists w, (snd (ref_run height sg 0 cs1)), (sg (N.to_nat i) m1), (sg (N.to_nat i) m2).
  assert (Lr : length (snd (ref_run height sg 0 cs1)) = length cs1).
  { clear. generalize 0%N. induction cs1 as [|a l IH]; intros j; cbn [ref_run]; [reflexivity|]. destruct (ref_step height sg j a) as [j1 o].
    specialize (IH j1). destruct (ref_run height sg j1 l). cbn [snd length] in *. lia. }
  assert (HX : forall m, sig_index (sg (N.to_nat i) m) = i).
  { intros m. unfold sg. rewrite ref_sig_owner.
    destruct (owner_parts hf 16 w16 height seed (N.to_nat i) (randomizer hf (key_prf seed) (N.to_nat i)) m eq_refl (keyed_length _ _ _ _)) as (Q1 & _).
    { eapply idx_small; eauto. } rewrite Q1. apply N2Nat.id. }
  assert (HG : forall m, signed hash hf 16 w16 seed i height (getPK (xf_base x), m, sg (N.to_nat i) m)).
  { intros m. destruct (fast_history junk seed height hash hf fmt HS) as (x' & E' & HR). assert (x' = x) by congruence. subst x'.
    destruct (HR (cs1 ++ [OpSign m])) as (y & Ey & _).
    eapply (signed_fast hash hf 16 w16 seed i junk height fmt x (cs1 ++ [OpSign m]) y _ (length cs1) m); auto.
    - exact Ey.
    - rewrite nth_error_app2, Nat.sub_diag by lia. reflexivity.
    - rewrite ref_run_app. cbn [snd]. fold sg. fold i. rewrite nth_error_app2 by lia. rewrite Lr, Nat.sub_diag, Es. reflexivity. }
  split. { etransitivity; [|exact R]. cbn [rounds calls map app]. reflexivity. }
  split; [exact Lr|]. split; [apply HX|]. split; [apply HX|].
  assert (HV : forall m, verify m (sg (N.to_nat i) m) (getPK (xf_base x)) 16 = Ok true).
  { intros m. destruct (C48_accepted_genuine_or_collision junk seed height hash hf fmt 16 w16 HS) as (x' & E' & HE & _).
    destruct (HE eq_refl junk) as (y' & Ey & EPK). assert (y' = x) by congruence. subst y'.
    destruct (C48_owner_sig_accepted junk seed height hash hf fmt 16 w16 HS) as (x2 & E2 & HA). assert (x2 = x') by congruence. subst x2.
    rewrite EPK. unfold sg. rewrite ref_sig_owner. apply HA; [|apply keyed_length].
    rewrite <- pow_N_nat. lia. }
  auto.
Qed.

(** ** Assigning one constructed object to another *)
Lemma obj_call : forall w n x c y o, obj_at w n = Some x -> step x c = Ok (y, o) ->
  exists w', world_step w (ACall n c) = Ok (w', [o]) /\ obj_at w' n = Some y.
Proof.
  intros w n x c y o HO E. unfold obj_at in HO. destruct (nth_error (w_objs w) n) as [[h|]|] eqn:En; try discriminate.
  destruct (nth_error (w_bufs w) (h_ptr h)) as [[b|]|] eqn:Eb; try discriminate. injection HO as <-.
  eexists. cbn [world_step]. rewrite En, Eb, E. cbn [bind]. split; [reflexivity|]. unfold obj_at. cbn [w_objs w_bufs].
  rewrite nth_error_upd_same by (apply nth_error_Some; congruence). cbn [h_ptr h_base h_off].
  rewrite nth_error_upd_same by (apply nth_error_Some; congruence). rewrite with_off_self. now destruct y.
Qed.
Lemma obj_run : forall cs w n x y os, obj_at w n = Some x -> run x cs = Ok (y, os) ->
  exists w', world_run2 w (calls n cs) = Ok (w', os) /\ obj_at w' n = Some y.
Proof.
  induction cs as [|c cs IH]; intros w n x y os HO E; cbn [run] in E; unfold calls in *; cbn [map world_run2 world_step2].
  - apply Ok_inj, pair_equal_spec in E. destruct E as (<- & <-). exists w. auto.
  - unb E. destruct a as [x1 o]. unb E. destruct a as [x2 os2]. apply Ok_inj, pair_equal_spec in E. destruct E as (<- & <-).
    destruct (obj_call _ _ _ _ _ _ HO F) as (w1 & E1 & O1). rewrite E1. cbn [bind].
    destruct (IH w1 n x1 x2 os2 O1 F0) as (w2 & E2 & O2). rewrite E2. cbn [bind app]. exists w2. auto.
Qed.
Lemma run1 : forall cs b0 h0 b h y os, h_ptr h = 1 -> run (mkXF (h_base h) (with_off b (h_off h))) cs = Ok (y, os) ->
  exists b', world_run2 (mkW [b0; Some b] [h0; Some h]) (calls 1 cs) =
    Ok (mkW [b0; Some b'] [h0; Some (mkH (xf_base y) (b_stackoffset (xf_state y)) 1 (h_own h))], os) /\
    with_off b' (b_stackoffset (xf_state y)) = xf_state y.
Proof.
  induction cs as [|c cs IH]; intros b0 h0 b h y os Hp E; cbn [run] in E; unfold calls in *; cbn [map world_run2 world_step2].
  - apply Ok_inj, pair_equal_spec in E. destruct E as [<- <-]. exists b. cbn [xf_base xf_state with_off b_stackoffset].
    split; [|reflexivity]. destruct h. cbn in *. now subst.
  - unb E. destruct a as [x1 o]. unb E. destruct a as [x2 os2]. apply Ok_inj, pair_equal_spec in E. destruct E as (<- & <-).
    cbn [world_step w_objs w_bufs nth_error]. rewrite Hp. cbn [nth_error]. rewrite F. cbn [bind].
    change (upd [b0; Some b] 1 (Some (xf_state x1))) with [b0; Some (xf_state x1)].
    set (h2 := mkH (xf_base x1) (b_stackoffset (xf_state x1)) 1 (h_own h)). change (upd [h0; Some h] 1 (Some h2)) with [h0; Some h2].
    destruct (IH b0 h0 (xf_state x1) h2 x2 os2 eq_refl) as (b' & E3 & W).
    { unfold h2. cbn [h_base h_off]. rewrite with_off_self. now destruct x1. }
    rewrite E3. cbn [bind app]. exists b'. auto.
Qed.
Lemma follows_advances : forall c i a, cfg_ok c w16 -> (i <= 2 ^ N.of_nat (c_height c))%N -> follows (c_obj c w16 i) a = advances (c_height c) i a.
Proof.
  intros c i a HC Hle. assert (H30 := pow_H_bound c w16 HC).
  assert (Hidx : from_be (slice 0 4 (xb_sk (c_obj c w16 i))) = i) by (cbn [c_obj xb_sk]; apply (sk_index c w16 HC); exact Hle).
  assert (Hgi : getIndex (c_obj c w16 i) = i).
  { unfold getIndex. rewrite Hidx. unfold u32. apply N.mod_small.
    change (2 ^ 32)%N with 4294967296%N. change (2 ^ 30)%N with 1073741824%N in *. lia. }
  destruct a as [m|j]; unfold follows, advances; rewrite ?Hgi, Hidx; change (x_h (xb_params (c_obj c w16 i))) with (c_height c).
  - rewrite N.leb_refl. apply andb_true_r.
  - apply andb_comm.
Qed.

(** [XmssFast x(seed1, ...), y(seed2, ...); cs1 on x; cs2 on y; x = y;]: the key of [x] is gone,
    [x] is [y] from now on.  But it works with the memory of [y]: once [y] is destroyed,
    every call on [x] that has to advance is a use after free; destroying [x] is harmless. *)
Theorem C95_assigned_object : forall junk1 seed1 height1 hash1 hf1 fmt1 junk2 seed2 height2 hash2 hf2 fmt2,
  supported hash1 hf1 16 w16 height1 seed1 -> supported hash2 hf2 16 w16 height2 seed2 ->
  exists y, XmssFast_new junk2 seed2 (N.of_nat height2) hash2 fmt2 = Ok y /\
  forall cs1 cs2,
    let sg1 := ref_sig hf1 w16 height1 seed1 in
    let sg2 := ref_sig hf2 w16 height2 seed2 in
    let i := fst (ref_run height2 sg2 0 cs2) in
    exists w x, world_run2 (mkW [] []) (new junk1 seed1 height1 hash1 fmt1 :: new junk2 seed2 height2 hash2 fmt2 ::
          calls 0 cs1 ++ calls 1 cs2 ++ [ACopyAssign 0 1]) =
        Ok (w, snd (ref_run height1 sg1 0 cs1) ++ snd (ref_run height2 sg2 0 cs2)) /\
      (* both objects now have the second key and its index *)
      obj_at w 0 = Some x /\ obj_at w 1 = Some x /\ getPK (xf_base x) = getPK (xf_base y) /\ getIndex (xf_base x) = i /\
      (* either goes on correctly if the other is left alone *)
      (forall n cs, n <= 1 -> exists w', world_run2 w (calls n cs) = Ok (w', snd (ref_run height2 sg2 i cs))) /\
      (* the target depends on the source, not the other way round *)
      (exists w', world_run2 w [A1 (ADestroy 1)] = Ok (w', []) /\ forall c, advances height2 i c = true -> world_run2 w' [A1 (ACall 0 c)] = UB) /\
      (forall cs, exists w', world_run2 w (A1 (ADestroy 0) :: calls 1 cs) = Ok (w', snd (ref_run height2 sg2 i cs))).
Proof.
  intros junk1 seed1 height1 hash1 hf1 fmt1 junk2 seed2 height2 hash2 hf2 fmt2 HS1 HS2.
  pose proof (cfg_of _ _ _ _ _ _ fmt1 HS1) as HC1. pose proof (cfg_of _ _ _ _ _ _ fmt2 HS2) as HC2.
  destruct (XmssFast_new_spec junk1 seed1 height1 hash1 hf1 fmt1 HS1) as (x0 & Ex & HI1).
  destruct (XmssFast_new_spec junk2 seed2 height2 hash2 hf2 fmt2 HS2) as (y & Ey & HI2). exists y. split; [exact Ey|].
  intros cs1 cs2 sg1 sg2 i. set (c1 := mkCfg hf1 hash1 16 fmt1 height1 seed1) in *. set (c2 := mkCfg hf2 hash2 16 fmt2 height2 seed2) in *.
  destruct (run_spec c1 w16 HC1 cs1 x0 0 HI1) as (x1 & R1 & HJ1). change (c_height c1) with height1 in *. change (c_sig c1 w16) with sg1 in *.
  destruct (run_spec c2 w16 HC2 cs2 y 0 HI2) as (y1 & R2 & HJ2). change (c_height c2) with height2 in *. change (c_sig c2 w16) with sg2 in *. fold i in HJ2.
  set (hx := mkH (xf_base x0) (b_stackoffset (xf_state x0)) 0 0). set (hy := mkH (xf_base y) (b_stackoffset (xf_state y)) 1 1).
  destruct (run0 cs1 (xf_state x0) hx [Some (xf_state y)] [Some hy] x1 (snd (ref_run height1 sg1 0 cs1)) eq_refl) as (b1 & E1 & W1).
  { unfold hx. cbn [h_base h_off]. rewrite with_off_self. destruct x0. exact R1. }
  set (hx1 := mkH (xf_base x1) (b_stackoffset (xf_state x1)) 0 (h_own hx)) in *.
  destruct (run1 cs2 (Some b1) (Some hx1) (xf_state y) hy y1 (snd (ref_run height2 sg2 0 cs2)) eq_refl) as (b2 & E2 & W2).
  { unfold hy. cbn [h_base h_off]. rewrite with_off_self. destruct y. exact R2. }
  cbn [hy h_own] in E2.
  set (w := mkW [Some b2; Some b2] [Some (mkH (xf_base y1) (b_stackoffset (xf_state y1)) 1 0); Some (mkH (xf_base y1) (b_stackoffset (xf_state y1)) 1 1)]).
  assert (O0 : obj_at w 0 = Some y1) by (unfold obj_at, w; cbn [w_objs w_bufs nth_error h_ptr h_base h_off]; rewrite W2; now destruct y1).
  assert (O1 : obj_at w 1 = Some y1) by (unfold obj_at, w; cbn [w_objs w_bufs nth_error h_ptr h_base h_off]; rewrite W2; now destruct y1).
  exists w, y1. split.
  { cbn [world_run2 world_step2 new world_step]. rewrite Ex. cbn [bind app w_bufs w_objs length]. rewrite Ey. cbn [bind app w_bufs w_objs length].
    fold hx hy. rewrite world_run2_app, calls_old, world_run2_old, E1. cbn [bind]. rewrite world_run2_app, E2. cbn [bind].
    cbn [world_run2 world_step2 w_objs w_bufs nth_error Nat.eqb h_own h_ptr h_base h_off hx1 hx].
    cbn [pointed h_ptr Nat.eqb negb andb orb bind upd firstn skipn app]. rewrite app_nil_r. reflexivity. }
  split; [exact O0|]. split; [exact O1|]. split.
  { destruct HJ2 as (Eb & _). destruct HI2 as (Eb0 & _). rewrite Eb, Eb0. fold (c_pk c2 w16 i). fold (c_pk c2 w16 0). now rewrite !(getPK_shape c2 w16 HC2). }
  split. { exact (inv_getIndex hash2 hf2 height2 seed2 fmt2 HS2 _ y1 HJ2). }
  split.
  { intros n cs Hn. destruct (run_spec c2 w16 HC2 cs y1 i HJ2) as (y2 & R3 & _). change (c_height c2) with height2 in *. change (c_sig c2 w16) with sg2 in *.
    assert (On : obj_at w n = Some y1) by (destruct n as [|[|n]]; [exact O0|exact O1|lia]).
    destruct (obj_run cs w n y1 y2 _ On R3) as (w' & E3 & _). exists w'. exact E3. }
  split.
  { exists (mkW [Some b2; None] [Some (mkH (xf_base y1) (b_stackoffset (xf_state y1)) 1 0); None]). split; [reflexivity|].
    intros a Ha. cbn [world_run2 world_step2 world_step w_objs w_bufs nth_error h_ptr h_base]. destruct HJ2 as (Eb & Hle & _). rewrite Eb.
    rewrite (follows_advances c2 i a HC2 Hle). change (c_height c2) with height2. rewrite Ha. reflexivity. }
  intros cs. destruct (run_spec c2 w16 HC2 cs y1 i HJ2) as (y2 & R3 & _). change (c_height c2) with height2 in *. change (c_sig c2 w16) with sg2 in *.
  cbn [world_run2 world_step2 world_step w w_objs w_bufs nth_error h_own bind upd firstn skipn app].
  destruct (obj_run cs (mkW [None; Some b2] [None; Some (mkH (xf_base y1) (b_stackoffset (xf_state y1)) 1 1)]) 1 y1 y2 _ O1 R3) as (w' & E3 & _).
  exists w'. rewrite E3. reflexivity.
Qed.

(** Assigning an object to itself changes nothing. *)
Theorem C95_self_assignment : forall junk seed height hash hf fmt, supported hash hf 16 w16 height seed ->
  forall cs1 cs2, let sg := ref_sig hf w16 height seed in
  exists w, world_run2 (mkW [] []) (new junk seed height hash fmt :: calls 0 cs1 ++ ACopyAssign 0 0 :: calls 0 cs2) =
    Ok (w, snd (ref_run height sg 0 (cs1 ++ cs2))).
Proof.
  intros junk seed height hash hf fmt HS cs1 cs2 sg. pose proof (cfg_of _ _ _ _ _ _ fmt HS) as HC.
  destruct (XmssFast_new_spec junk seed height hash hf fmt HS) as (x & E & HI). set (c := mkCfg hf hash 16 fmt height seed) in *.
  destruct (run_spec c w16 HC cs1 x 0 HI) as (x1 & R1 & HI1). destruct (run_spec c w16 HC cs2 x1 _ HI1) as (x2 & R2 & _).
  change (c_height c) with height in *. change (c_sig c w16) with sg in *.
  assert (O0 : obj_at (world_of x) 0 = Some x) by (unfold obj_at, world_of; cbn; rewrite with_off_self; now destruct x).
  destruct (obj_run cs1 _ 0 x x1 _ O0 R1) as (w1 & E1 & O1). destruct (obj_run cs2 w1 0 x1 x2 _ O1 R2) as (w2 & E2 & _).
  exists w2. cbn [world_run2 world_step2 new world_step]. rewrite E. cbn [bind app w_bufs w_objs length].
  fold (world_of x). rewrite world_run2_app, E1. cbn [bind world_run2 world_step2]. unfold obj_at in O1.
  destruct (nth_error (w_objs w1) 0) as [[h|]|]; try discriminate. cbn [Nat.eqb bind]. rewrite E2. cbn [bind app]. now rewrite ref_run_app.
Qed.

(** Concrete programs and keys the theorems apply to. *)
Example C95_case : supported 2 SHAKE_256 16 w16 10 seed_c /\ supported 1 SHAKE_128 16 w16 4 (repeat 7%N 48) /\
  (fst (ref_run 10 (ref_sig SHAKE_256 w16 10 seed_c) 0 [OpSetIndex 5; OpSign [1%N]]) < 2 ^ N.of_nat 10)%N /\
  advances 4 3 (OpSign []) = true /\
  rounds [[OpSign [1%N]]; [OpSetIndex 9]] = [A1 (ACall 0 (OpSign [1%N])); ACopyAssign 0 1; A1 (ACall 0 (OpSetIndex 9)); ACopyAssign 0 1].
Proof. split; [exact sup16|]. split; [unfold supported; repeat split; cbn; lia|]. repeat split. Qed.
