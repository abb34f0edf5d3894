(** C82: the number of hash evaluations. *)
(** Concrete cases for the hypotheses below: CasesXmss.v and CasesMisc.v. *)
From Coq Require Import List NArith Arith Lia Bool.
From Verif Require Import Base Bytes Keccak KeccakLemmas HashAddress Wots XmssCommon AlgsXmss AlgsXmssFast Descriptor
  SpecXmss SpecApi SpecCost XmssObj XmssRefine WotsProofs TreeProofs BasicProofs BdsProofs FastProofs DescrProofs VerifyProofs PropObj PropKeys
  Cost CostProofs CostProofs2.
Import ListNotations.
Open Scope nat_scope.

(** ** The shape after construction *)
Lemma for_inv_ok : forall S (I : nat -> S -> Prop) f n a s s', I a s ->
  (forall i x y, a <= i < a + n -> I i x -> f i x = Ok y -> I (Datatypes.S i) y) -> for_from n a f s = Ok s' -> I (a + n) s'.
Proof.
  induction n; intros a s s' H HF E; cbn [for_from] in E.
  - assert (s = s') by congruence. subst. now rewrite Nat.add_0_r.
  - apply bind_ok in E. destruct E as (s1 & E1 & E). replace (a + Datatypes.S n) with (Datatypes.S a + n) by lia.
    apply (IHn (Datatypes.S a) s1); auto.
    + apply (HF a s s1); auto. lia.
    + intros i x y Hi. apply HF. lia.
Qed.
Lemma set_th_node_shape : forall l i cc l', set_th_node l i cc = Ok l' -> sh_ths l' l.
Proof.
  intros l i cc l' E. unfold set_th_node in E. apply bind_ok in E. destruct E as (t & Et & E).
  unfold set in E. destruct (i <? length l); [|discriminate]. apply Ok_inj in E. subst l'. unfold sh_ths. rewrite map_upd.
  apply get_ok in Et. pose proof (f_equal (option_map th_shape) Et) as Es. rewrite <- nth_error_map in Es. cbn [option_map] in Es.
  change (th_shape {| th_h := th_h t; th_next_idx := th_next_idx t; th_stackusage := th_stackusage t; th_completed := th_completed t; th_node := cc |}) with (th_shape t).
  revert Es. generalize (th_shape t). generalize (map th_shape l). clear. intros l x. revert i. induction l; destruct i; cbn; intros E; try discriminate; auto.
  - congruence.
  - now rewrite IHl.
Qed.
Lemma setup_while_shape : forall hf fuel h k i ps stk lv off na auth ths ret stk' lv' off' na' auth' ths' ret',
  setup_while hf fuel h k i ps stk lv off na auth ths ret = Ok (stk', lv', off', na', auth', ths', ret') ->
  length auth' = length auth /\ sh_ths ths' ths /\ length ret' = length ret.
Proof.
  intros hf. induction fuel; intros h k i ps stk lv off na auth ths ret stk' lv' off' na' auth' ths' ret' E; cbn [setup_while] in E.
  - destruct (off <=? 1). { apply Ok_inj in E. assert (auth = auth' /\ ths = ths' /\ ret = ret') as (-> & -> & ->) by (repeat split; congruence). repeat split. }
    destruct (get lv (off - 1)) as [l1| |]; cbn [bind] in E; try discriminate. destruct (get lv (off - 2)) as [l2| |]; cbn [bind] in E; try discriminate.
    destruct (negb (l1 =? l2)); [|discriminate]. apply Ok_inj in E. assert (auth = auth' /\ ths = ths' /\ ret = ret') as (-> & -> & ->) by (repeat split; congruence). repeat split.
  - destruct (off <=? 1). { apply Ok_inj in E. assert (auth = auth' /\ ths = ths' /\ ret = ret') as (-> & -> & ->) by (repeat split; congruence). repeat split. }
    destruct (get lv (off - 1)) as [l1| |]; cbn [bind] in E; try discriminate. destruct (get lv (off - 2)) as [l2| |]; cbn [bind] in E; try discriminate.
    destruct (negb (l1 =? l2)). { apply Ok_inj in E. assert (auth = auth' /\ ths = ths' /\ ret = ret') as (-> & -> & ->) by (repeat split; congruence). repeat split. }
    apply bind_ok in E. destruct E as (top & Et & E). apply bind_ok in E. destruct E as ([[au1 th1] re1] & E1 & E).
    assert (G : length au1 = length auth /\ sh_ths th1 ths /\ length re1 = length ret).
    { destruct (i / 2 ^ l1 =? 1).
      { apply bind_ok in E1. destruct E1 as (x & Ex & E1). apply Ok_inj in E1. apply set_len in Ex. assert (x = au1 /\ ths = th1 /\ ret = re1) as (-> & -> & ->) by (repeat split; congruence). now repeat split. }
      destruct ((l1 <? h - k) && (i / 2 ^ l1 =? 3)).
      { apply bind_ok in E1. destruct E1 as (x & Ex & E1). apply Ok_inj in E1. apply set_th_node_shape in Ex. assert (auth = au1 /\ x = th1 /\ ret = re1) as (-> & -> & ->) by (repeat split; congruence). now repeat split. }
      destruct (h - k <=? l1).
      { destruct ((h <? 1 + l1) || (2 ^ (h - 1 - l1) + l1 <? h) || (i / 2 ^ l1 <? 3)); [discriminate|].
        apply bind_ok in E1. destruct E1 as (x & Ex & E1). apply Ok_inj in E1. apply set_len in Ex. assert (auth = au1 /\ ths = th1 /\ x = re1) as (-> & -> & ->) by (repeat split; congruence). now repeat split. }
      apply Ok_inj in E1. assert (auth = au1 /\ ths = th1 /\ ret = re1) as (-> & -> & ->) by (repeat split; congruence). now repeat split. }
    apply bind_ok in E. destruct E as (x & Ex & E).
    destruct (hash_h hf (x ++ top) ps (setTreeIndex (setTreeHeight na (N.of_nat l1)) (N.of_nat (i / 2 ^ (l1 + 1))))) as [o a'].
    apply bind_ok in E. destruct E as (y & Ey & E). apply bind_ok in E. destruct E as (z & Ez & E). apply IHfuel in E. destruct G as (G1 & G2 & G3). destruct E as (F1 & F2 & F3).
    split; [congruence|]. split; [unfold sh_ths in *; congruence|congruence].
Qed.

(** The parameters of every XmssFast object, and the shape of the traversal state after
    [n] steps: that of a run with empty keys. *)
Definition cp (h : nat) : xmss_params := mkXP (wparams 16) h 2.
Definition canon0 (h : nat) : bds_state :=
  mkBDS (repeat [] (h + 1)) 0 (repeat 0 (h + 1)) (repeat [] h) (repeat [] (h / 2)) (map (fun i => mkTH i 0 0 true []) (seq 0 (h - 2))) (repeat [] (2 ^ 2 - 2 - 1)).
Lemma setup_shape : forall hf junk h ss ps a root st,
  treehash_setup hf junk (fresh_bds h 2) ss (cp h) ps a = Ok (root, st) -> sh st (canon0 h).
Proof.
  intros hf junk h ss ps a root st E. unfold treehash_setup in E. cbn [cp x_h x_k] in E.
  apply bind_ok in E. destruct E as (ths & E1 & E).
  assert (H1 : map th_shape ths = map (fun i => (i, 0, 0, true)) (seq 0 (h - 2))).
  { assert (G : map th_shape ths = map (fun i => (i, 0, 0, true)) (seq 0 (h - 2)) ++ repeat (0, 0, 0, false) (h - 2 - (h - 2))).
    2:{ rewrite Nat.sub_diag in G. cbn [repeat] in G. rewrite app_nil_r in G. exact G. }
    revert E1. apply (for_inv_ok _ (fun j l => map th_shape l = map (fun i => (i, 0, 0, true)) (seq 0 j) ++ repeat (0, 0, 0, false) (h - 2 - j)) _ (h - 2) 0).
    { cbn [seq map app fresh_bds b_treehash]. rewrite Nat.sub_0_r. generalize (repeat 0%N 32). intros z. generalize (h - 2). clear. induction n; cbn [repeat map]; [reflexivity|]. f_equal. exact IHn. }
    intros i x y Hi HI Ey. apply bind_ok in Ey. destruct Ey as (t & Et & Ey). unfold set in Ey. destruct (i <? length x); [|discriminate]. apply Ok_inj in Ey. subst y.
    rewrite map_upd. apply get_ok in Et. pose proof (f_equal (option_map th_shape) Et) as Es. rewrite <- nth_error_map, HI in Es. cbn [option_map] in Es.
    rewrite nth_error_app2 in Es by (rewrite map_length, seq_length; lia). rewrite map_length, seq_length, Nat.sub_diag in Es.
    destruct (h - 2 - i) as [|r] eqn:Er; [lia|]. cbn [repeat nth_error] in Es. unfold th_shape in Es. assert (th_next_idx t = 0) as -> by congruence.
    rewrite HI. replace (h - 2 - S i) with r by lia. rewrite seq_S, map_app. cbn [map]. change (0 + i) with i. rewrite <- app_assoc. cbn [app].
    assert (Q : forall (A : Type) (l r : list A) x y, upd (l ++ x :: r) (length l) y = l ++ y :: r) by (clear; induction l; cbn; intros; [reflexivity|now rewrite IHl]).
    pose proof (Q _ (map (fun i => (i, 0, 0, true)) (seq 0 i)) (repeat (0, 0, 0, false) r) (0, 0, 0, false) (i, 0, 0, true)) as Q'. rewrite map_length, seq_length in Q'. cbn [repeat]. exact Q'. }
  apply bind_ok in E. destruct E as ([[[[[[[[stk lv] off] oa] la] na] auth] ths'] ret] & E2 & E). apply bind_ok in E. destruct E as (rt & Er & E). apply Ok_inj in E.
  assert (Est : st = mkBDS (b_stack (fresh_bds h 2)) (b_stackoffset (fresh_bds h 2)) (b_stacklevels (fresh_bds h 2)) auth (b_keep (fresh_bds h 2)) ths' ret) by congruence.
  unfold for_up in E2.
  assert (G : length auth = length (b_auth (fresh_bds h 2)) /\ sh_ths ths' ths /\ length ret = length (b_retain (fresh_bds h 2))).
  2: { destruct G as (G1 & G2 & G3). subst st. unfold sh, same_len, canon0. cbn [b_stack b_stackoffset b_stacklevels b_auth b_keep b_treehash b_retain fresh_bds] in *. rewrite ?repeat_length in *.
    repeat split; try congruence. unfold sh_ths in *. rewrite G2, H1, map_map. reflexivity. }
  set (I0 := fun (j : nat) '((stk, lv, off, oa, la, na, auth, ths', ret) : list (list N) * list nat * nat * adrs * adrs * adrs * list (list N) * list treehash_inst * list (list N)) =>
    length auth = length (b_auth (fresh_bds h 2)) /\ sh_ths ths' ths /\ length ret = length (b_retain (fresh_bds h 2))).
  change (I0 (0 + 2 ^ h) (stk, lv, off, oa, la, na, auth, ths', ret)). eapply (for_inv_ok _ I0); [| |exact E2].
  - now repeat split.
  - intros i [[[[[[[[stk1 lv1] off1] oa1] la1] na1] auth1] ths1] ret1] [[[[[[[[stk2 lv2] off2] oa2] la2] na2] auth2] ths2] ret2] _ (F1 & F2 & F3) Ey.
    apply bind_ok in Ey. destruct Ey as ([[lf la3] oa3] & _ & Ey). apply bind_ok in Ey. destruct Ey as (stk3 & _ & Ey). apply bind_ok in Ey. destruct Ey as (lv3 & _ & Ey).
    apply bind_ok in Ey. destruct Ey as (ths3 & Et & Ey). apply bind_ok in Ey. destruct Ey as ([[[[[[stk4 lv4] off4] na4] auth4] ths4] ret4] & Es & Ey). apply setup_while_shape in Es.
    assert (sh_ths ths3 ths1). { destruct ((0 <? h - 2) && (i =? 3)); [|apply Ok_inj in Et; now subst]. apply bind_ok in Et. destruct Et as (x & _ & Et). now apply set_th_node_shape in Et. }
    apply Ok_inj in Ey. assert (auth4 = auth2 /\ ths4 = ths2 /\ ret4 = ret2) as (-> & -> & ->) by (repeat split; congruence). destruct Es as (Q1 & Q2 & Q3). unfold sh_ths in *. repeat split; congruence.
Qed.

Definition canon (h n : nat) : res bds_state := for_from n 0 (fun j st => bds_step SHAKE_128 (cp h) [] [] zero_adrs j st) (canon0 h).
(** Hash evaluations of traversal step [i] at height [h]. *)
Definition cost_at (h i : nat) : N :=
  match canon h i with
  | Ok st => match bds_step_c SHAKE_128 (cp h) [] [] zero_adrs i st with Ok (_, n) => n | _ => 0%N end
  | _ => 0%N
  end.
Definition shaped (h i : nat) (st : bds_state) : Prop := exists st', canon h i = Ok st' /\ sh st st'.

Lemma canon_S : forall h n, canon h (S n) = bind (canon h n) (fun st => bds_step SHAKE_128 (cp h) [] [] zero_adrs n st).
Proof.
  intros. unfold canon. rewrite <- Nat.add_1_r, for_from_split. apply bind_ext. intros st. cbn [for_from]. change (0 + n) with n. destruct (bds_step SHAKE_128 (cp h) [] [] zero_adrs n st); reflexivity.
Qed.
Lemma erase_ok : forall A (m : cres A) a, erase m = Ok a -> exists n, m = Ok (a, n).
Proof. intros A [[x n]|e|] a E; cbn in E; try discriminate. assert (x = a) by congruence. subst. eauto. Qed.
Lemma shaped_step : forall h i st hf ss ps a st' n, shaped h i st -> bds_step_c hf (cp h) ss ps a i st = Ok (st', n) -> shaped h (S i) st' /\ n = cost_at h i.
Proof.
  intros h i st hf ss ps a st' n (s & Ec & Hs) E.
  pose proof (bds_step_crel hf SHAKE_128 (cp h) ss [] ps [] a zero_adrs i st s Hs) as G. rewrite E in G.
  destruct (bds_step_c SHAKE_128 (cp h) [] [] zero_adrs i s) as [[s1 n1]|e|] eqn:E1; cbn in G; try contradiction. destruct G as (G1 & G2). cbn [fst snd] in *. split.
  - exists s1. split; [|exact G1]. rewrite canon_S, Ec. cbn [bind]. rewrite <- bds_step_erase, E1. reflexivity.
  - unfold cost_at. rewrite Ec, E1. exact G2.
Qed.
Definition span_cost (h a d : nat) : N := fold_right N.add 0%N (map (cost_at h) (seq a d)).
Lemma shaped_span : forall h d a st hf ss ps st' n, shaped h a st ->
  cfor_from d a (fun j st => bds_step_c hf (cp h) ss ps zero_adrs j st) st = Ok (st', n) -> shaped h (a + d) st' /\ n = span_cost h a d.
Proof.
  intros h. induction d; intros a st hf ss ps st' n HS E; cbn [cfor_from] in E.
  - apply cret_ok in E. destruct E as (<- & ->). rewrite Nat.add_0_r. split; [exact HS|reflexivity].
  - apply cbind_ok in E. destruct E as (s1 & n1 & n2 & E1 & E & ->). destruct (shaped_step _ _ _ _ _ _ _ _ _ HS E1) as (H1 & ->).
    destruct (IHd _ _ _ _ _ _ _ H1 E) as (H2 & ->). replace (a + S d) with (S a + d) by lia. split; [exact H2|]. reflexivity.
Qed.

Lemma walks_sign : forall p cs ds, length cs = length ds -> Forall (fun d => d <= w_w p - 1)%N ds ->
  walks p (map (fun cd => (fst cd, 0%N, snd cd)) (combine cs ds)) = (3 * digit_sum ds)%N.
Proof.
  intros p. induction cs as [|c cs IH]; intros [|d ds] HL HF; cbn [length] in HL; try discriminate; [reflexivity|].
  cbn [combine map walks fold_right fst snd digit_sum]. fold (walks p (map (fun cd => (fst cd, 0%N, snd cd)) (combine cs ds))). fold (digit_sum ds).
  inversion HF as [|? ? H1 H2]; subst. rewrite IH by (auto; lia). unfold walk. rewrite N.sub_0_r, N.min_l by lia. lia.
Qed.
Lemma expand_len : forall hf s n, length (expand_seed hf s n) = n.
Proof. intros. unfold expand_seed. now rewrite map_length, seq_length. Qed.
Lemma core_hash_len : forall hf t k i, length (core_hash hf t k i) = 32.
Proof. intros. rewrite core_hash_keyed. apply keyed_length. Qed.

(** One-time part of both signing functions. *)
Lemma ots_sign_cost : forall hf m sk w wp ps a r n, winternitz w = Some wp -> length m = 32 -> wots_sign_c hf m sk (wparams w) ps a = Ok (r, n) ->
  n = (N.of_nat (snd (fst wp) + snd wp) + 3 * digit_sum (msg_digits (fst (fst wp)) (snd (fst wp)) (snd wp) m))%N.
Proof.
  intros hf m sk w wp ps a r n Hw Hm E. destruct (wparams_ok w wp Hw) as (_ & HP & _ & _ & _ & _ & _ & _ & EL).
  destruct (digits_of_ok (wparams w) m HP Hm) as (D1 & D2 & D3). rewrite wots_sign_c_eq, D1 in E. cbn [bind] in E.
  rewrite walks_sign in E; [|rewrite expand_len; congruence|exact D3]. rewrite (digits_of_msg w wp m Hw Hm) in E. rewrite EL in E. congruence.
Qed.
Lemma signmsg_cost : forall hf p sk st m wp r n, winternitz 16 = Some wp -> x_wots p = wparams 16 ->
  xmssfast_Signmsg_c hf p sk st m = Ok (r, n) ->
  let i := from_be (slice 0 4 sk) in
  let dg := h_msg hf m (prf hf (to_byte 32 i) (slice 36 32 sk) ++ slice 100 32 sk ++ to_byte 32 i) in
  exists a st' n', (if (i <? 2 ^ N.of_nat (x_h p) - 1)%N then bds_step_c hf p (slice 4 32 sk) (slice 68 32 sk) a (N.to_nat i) st else cret st) = Ok (st', n') /\
    st' = snd (fst r) /\
    n = (ots_sign_calls (N.of_nat (snd (fst wp) + snd wp)) (msg_digits (fst (fst wp)) (snd (fst wp)) (snd wp) dg) + n')%N.
Proof.
  intros hf p sk st m wp r n Hw Hp E i dg. unfold i in dg. unfold i. clear i. unfold xmssfast_Signmsg_c in E.
  apply cbind_ok in E. destruct E as (R & n1 & n2 & E1 & E & ->). unfold prf_c, core_hash_c in E1. assert (HR : R = prf hf (to_byte 32 (from_be (slice 0 4 sk))) (slice 36 32 sk) /\ n1 = 1%N) by (split; unfold prf; congruence). destruct HR as (-> & ->). clear E1.
  apply cbind_ok in E. destruct E as (d & n3 & n4 & E1 & E & ->). unfold h_msg_c, core_hash_c in E1. assert (HD : d = dg /\ n3 = 1%N) by (split; unfold dg, h_msg; congruence). destruct HD as (-> & ->). clear E1.
  apply cbind_ok in E. destruct E as ([os oa] & n5 & n6 & E1 & E & ->). rewrite get_seed_c_eq in E1. assert (n5 = 1%N) by congruence. subst n5. clear E1.
  apply cbind_ok in E. destruct E as ([ws oa'] & n7 & n8 & E1 & E & ->). rewrite Hp in E1. apply (ots_sign_cost hf dg os 16 wp) in E1; [|exact Hw|apply core_hash_len]. subst n7.
  apply cbind_ok in E. destruct E as (st' & n9 & n10 & E1 & E & ->). apply cret_ok in E. destruct E as (<- & ->).
  exists oa', st', n9. split; [exact E1|]. cbn [fst snd]. split; [reflexivity|]. unfold ots_sign_calls. lia.
Qed.

Section Hist.
  Variables (hash : N) (hf : hashfn) (height : nat) (seed : list N) (fmt : N).
  Hypothesis HS : supported hash hf 16 w16 height seed.
  Let c := mkCfg hf hash 16 fmt height seed.
  Let HC : cfg_ok c w16 := cfg_of _ _ _ _ _ _ fmt HS.
  Local Notation top := (2 ^ N.of_nat height)%N.
  Local Notation sg := (ref_sig hf w16 height seed).
  Definition inv2 (i : N) (o : xfast) : Prop := fast_inv c w16 i o /\ ((i < top)%N -> shaped height (N.to_nat i) (xf_state o)).

  Lemma init_inv2 : forall junk, exists x, XmssFast_new junk seed (N.of_nat height) hash fmt = Ok x /\ inv2 0 x.
  Proof.
    intros junk. destruct (XmssFast_new_spec junk seed height hash hf fmt HS) as (x & E & HI). exists x. split; [exact E|]. split; [exact HI|]. intros _.
    unfold XmssFast_new in E. apply bind_ok in E. destruct E as (u & _ & E). unfold initialize_tree in E. destruct (bad_height (N.of_nat height)); [discriminate|].
    pose proof (cfg_set_params c w16 HC) as Hp. change (xmss_set_params height 16 2 = Ok (cp height)) in Hp. rewrite Nat2N.id, Hp in E. cbn [bind] in E. destruct (31 <=? N.of_nat height)%N; [discriminate|]. unfold with_hash in E. destruct (hash_of_id hash) as [hf0|]; [|discriminate].
    apply bind_ok in E. destruct E as ([sk st] & E1 & E). apply Ok_inj in E. subst x. cbn [xf_state]. unfold xmssfast_Genkeypair in E1. apply bind_ok in E1. destruct E1 as ([rt st1] & E1 & E2). apply Ok_inj in E2.
    assert (st1 = st) by congruence. subst st1. apply setup_shape in E1. exists (canon0 height). split; [reflexivity|exact E1].
  Qed.
  Lemma setIndex_inv2 : forall i j o, inv2 i o -> (j < top)%N -> (i <= j)%N -> exists o',
    xfast_setIndex_c o j = Ok ((o', inr j), span_cost height (N.to_nat i) (N.to_nat j - N.to_nat i)) /\ inv2 j o'.
  Proof.
    intros i j o (HI & HSh) Hj Hij. destruct (setIndex_spec c w16 HC o i j HI) as (o' & E & HI').
    assert (Hc : ((j <? 2 ^ N.of_nat (c_height c)) && (i <=? j))%N = true) by (apply andb_true_intro; split; [apply N.ltb_lt|apply N.leb_le]; assumption).
    rewrite Hc in *. rewrite <- setIndex_erase in E. apply erase_ok in E. destruct E as (n & E). exists o'.
    assert (G : shaped height (N.to_nat j) (xf_state o') /\ n = span_cost height (N.to_nat i) (N.to_nat j - N.to_nat i)).
    { pose proof HI as (Eb & Hi & _). unfold xfast_setIndex_c in E. rewrite Eb in E. unfold c_obj at 1 2 3 in E. cbn [xb_hash xb_params xb_sk] in E. unfold with_hash in E. rewrite (co_hash _ _ HC) in E. cbn [c c_hf] in E.
      apply cbind_ok in E. destruct E as ([[sk st] r] & n1 & n2 & E1 & E & ->). unfold xmssfast_update_c in E1. rewrite (sk_index c w16 HC i Hi) in E1. cbn [c_params c c_w c_height x_h] in E1.
      rewrite (proj2 (N.leb_gt _ _)) in E1 by exact Hj. rewrite (proj2 (N.ltb_ge _ _)) in E1 by exact Hij.
      apply cbind_ok in E1. destruct E1 as (st1 & n3 & n4 & E1 & E2 & ->). apply cret_ok in E2. destruct E2 as (E2 & ->). assert (st1 = st /\ r = inr tt) as (-> & ->) by (split; congruence).
      apply cret_ok in E. destruct E as (E & ->). assert (Eo : xf_state o' = st) by (assert (X := f_equal (fun x => xf_state (fst x)) E); cbn [fst xf_state] in X; congruence).
      change (mkXP (wparams 16) height 2) with (cp height) in E1. apply (shaped_span height) in E1; [|apply HSh; lia]. destruct E1 as (F1 & ->). rewrite Eo. split; [|lia].
      now replace (N.to_nat j) with (N.to_nat i + (N.to_nat j - N.to_nat i)) by lia. }
    destruct G as (G1 & ->). split; [exact E|]. split; [exact HI'|]. intros _. exact G1.
  Qed.
  Lemma setIndex_fail2 : forall i j o, inv2 i o -> ((j <? top) && (i <=? j))%N = false -> xfast_setIndex_c o j = Ok ((o, inl InvalidArgument), 0%N).
  Proof.
    intros i j o (HI & HSh) Hc. destruct (setIndex_spec c w16 HC o i j HI) as (o' & E & HI'). change (c_height c) with height in *. rewrite Hc in *. subst o'.
    rewrite <- setIndex_erase in E. apply erase_ok in E. destruct E as (n & E). rewrite E. f_equal. f_equal.
    pose proof HI as (Eb & Hi & _). unfold xfast_setIndex_c in E. rewrite Eb in E. unfold c_obj at 1 2 3 in E. cbn [xb_hash xb_params xb_sk] in E. unfold with_hash in E. rewrite (co_hash _ _ HC) in E. cbn [c c_hf] in E.
    apply cbind_ok in E. destruct E as ([[sk st] r] & n1 & n2 & E1 & E & ->). unfold xmssfast_update_c in E1. rewrite (sk_index c w16 HC i Hi) in E1. cbn [c_params c c_w c_height x_h] in E1.
    assert (n1 = 0%N /\ r = inl InvalidArgument) as (-> & ->).
    { destruct (top <=? j)%N eqn:E3. { apply cret_ok in E1. destruct E1 as (E1 & ->). split; congruence. }
      destruct (j <? i)%N eqn:E4. { apply cret_ok in E1. destruct E1 as (E1 & ->). split; congruence. }
      apply N.leb_gt in E3. apply N.ltb_ge in E4. rewrite (proj2 (N.ltb_lt _ _) E3), (proj2 (N.leb_le _ _) E4) in Hc. discriminate. }
    apply cret_ok in E. destruct E as (_ & ->). reflexivity.
  Qed.
  Definition tcost (i : N) : N := if (i <? top - 1)%N then cost_at height (N.to_nat i) else 0%N.
  Lemma sign_inv2 : forall i o m, inv2 i o -> (i < top)%N -> exists o',
    xfast_sign_c o m = Ok ((o', inr (sg (N.to_nat i) m)), (ots_sign_calls 67 (msg_digits 4 64 3
       (digest hf (firstn 32 (skipn 4 (sg (N.to_nat i) m))) (ref_root hf w16 height seed) (N.to_nat i) m)) + tcost i)%N) /\ inv2 (i + 1) o'.
  Proof.
    intros i o m HI2 Hlt. pose proof HI2 as (HI & HSh). pose proof HI as (Eb & Hi & _).
    assert (EI : getIndex (xf_base o) = i) by exact (inv_getIndex hash hf height seed fmt HS _ _ HI).
    destruct (step_spec c w16 HC o i (OpSign m) HI) as (o2 & Es & HI' & _). cbn [step ref_step] in Es, HI'. change (c_height c) with height in *. rewrite (proj2 (N.ltb_lt _ _) Hlt) in *. cbn [fst snd] in *.
    apply bind_ok in Es. destruct Es as ([o3 r] & Es & Ey). apply Ok_inj in Ey. assert (o3 = o2) by congruence. subst o3.
    assert (r = inr (sg (N.to_nat i) m)). { destruct r as [e|s]; [discriminate|]. f_equal. change (c_sig c w16) with sg in Ey. congruence. } subst r. clear Ey.
    rewrite <- sign_erase in Es. apply erase_ok in Es. destruct Es as (n & Es). exists o2. rewrite Es.
    destruct (setIndex_inv2 i i o HI2 Hlt (N.le_refl _)) as (o1 & E1 & HI1). rewrite Nat.sub_diag in E1.
    unfold xfast_sign_c in Es. rewrite EI in Es. apply cbind_ok in Es. destruct Es as ([o1' r1] & n1 & n2 & Ea & Es & ->). rewrite E1 in Ea.
    assert (Hx : o1 = o1' /\ inr i = r1 /\ n1 = span_cost height (N.to_nat i) 0) by (repeat split; congruence). destruct Hx as (<- & <- & ->). clear Ea.
    pose proof HI1 as ((Eb1 & _ & _) & HSh1). rewrite Eb1 in Es. unfold c_obj at 1 2 3 in Es. cbn [xb_hash xb_params xb_sk] in Es. unfold with_hash in Es. rewrite (co_hash _ _ HC) in Es. cbn [c c_hf] in Es.
    apply cbind_ok in Es. destruct Es as ([[sk st] sg'] & n3 & n4 & Eb2 & Es & ->). apply cret_ok in Es. destruct Es as (Es & ->).
    assert (Est : xf_state o2 = st) by (assert (X := f_equal (fun x => xf_state (fst x)) Es); cbn [fst xf_state] in X; congruence). clear Es.
    apply (signmsg_cost hf (c_params c) _ _ m w16) in Eb2; [|reflexivity|reflexivity]. cbn zeta in Eb2. rewrite (sk_index c w16 HC i Hi) in Eb2.
    destruct (sk_parts c w16 HC i) as (P1 & P2 & P3 & P4 & _). rewrite P1, P2, P3, P4 in Eb2. cbn [c c_seed c_height c_hf] in Eb2. change (x_h (c_params c)) with height in Eb2.
    destruct Eb2 as (a & st' & n' & Ec & Ed & ->). cbn [fst snd] in Ed. subst st'.
    assert (Q : n' = tcost i /\ ((i + 1 < top)%N -> shaped height (N.to_nat (i + 1)) st)).
    { unfold tcost. destruct (i <? top - 1)%N eqn:El.
      - change (c_params c) with (cp height) in Ec. apply shaped_step in Ec; [|apply HSh1; exact Hlt]. destruct Ec as (F1 & F2). split; [exact F2|]. intros _. now replace (N.to_nat (i + 1)) with (S (N.to_nat i)) by lia.
      - apply N.ltb_ge in El. apply cret_ok in Ec. destruct Ec as (_ & ->). split; [reflexivity|]. intros; lia. }
    destruct Q as (-> & Q). split; [|split; [exact HI'|rewrite Est; exact Q]].
    f_equal. f_equal. cbn [span_cost seq map fold_right w16 fst snd].
    assert (ER : firstn 32 (skipn 4 (sg (N.to_nat i) m)) = randomizer hf (key_prf seed) (N.to_nat i)).
    { unfold ref_sig, signature. rewrite skipn_app_exact by apply to_byte_length. apply firstn_app_exact. apply keyed_length. }
    rewrite ER. unfold digest. rewrite <- core_hash_keyed. unfold h_msg, randomizer. rewrite <- prf_PRF. rewrite N2Nat.id. unfold w16 at 1. cbn [fst snd].
    change (N.of_nat (64 + 3)) with 67%N. unfold span_cost. cbn [seq map fold_right]. rewrite N.add_0_l, N.add_0_r. reflexivity.
  Qed.
  Lemma sign_fail2 : forall i o m, inv2 i o -> i = top -> xfast_sign_c o m = Ok ((o, inl InvalidArgument), 0%N).
  Proof.
    intros i o m HI2 ->. pose proof HI2 as (HI & _). assert (EI : getIndex (xf_base o) = top) by exact (inv_getIndex hash hf height seed fmt HS _ _ HI).
    unfold xfast_sign_c. rewrite EI. rewrite (setIndex_fail2 top top o HI2) by (rewrite N.ltb_irrefl; reflexivity). reflexivity.
  Qed.
  Lemma run_inv2 : forall cs i o, inv2 i o -> exists o', run o cs = Ok (o', snd (ref_run height sg i cs)) /\ inv2 (fst (ref_run height sg i cs)) o'.
  Proof.
    assert (G : forall a i o, inv2 i o -> exists o', step o a = Ok (o', snd (ref_step height sg i a)) /\ inv2 (fst (ref_step height sg i a)) o').
    { intros a i o HI2. pose proof HI2 as (HI & HSh). destruct (step_spec c w16 HC o i a HI) as (o' & Es & HI' & He). change (c_height c) with height in *. change (c_sig c w16) with sg in *.
      exists o'. split; [exact Es|]. destruct a as [m|j]; cbn [step ref_step] in *.
      - destruct (i <? top)%N eqn:El; cbn [fst snd] in *.
        + apply N.ltb_lt in El. destruct (sign_inv2 i o m HI2 El) as (o2 & E2 & H2). assert (E3 : xfast_sign o m = Ok (o2, inr (sg (N.to_nat i) m))) by (rewrite <- sign_erase, E2; reflexivity).
          rewrite E3 in Es. cbn [bind] in Es. assert (o2 = o') by congruence. now subst o2.
        + rewrite (He InvalidArgument eq_refl). exact HI2.
      - destruct ((j <? top) && (i <=? j))%N eqn:El; cbn [fst snd] in *.
        + apply andb_prop in El. destruct El as (L1 & L2). apply N.ltb_lt in L1. apply N.leb_le in L2. destruct (setIndex_inv2 i j o HI2 L1 L2) as (o2 & E2 & H2).
          assert (E3 : xfast_setIndex o j = Ok (o2, inr j)) by (rewrite <- setIndex_erase, E2; reflexivity).
          rewrite E3 in Es. cbn [bind] in Es. assert (o2 = o') by congruence. now subst o2.
        + rewrite (He InvalidArgument eq_refl). exact HI2. }
    induction cs as [|a cs IH]; intros i o HI2; cbn [run ref_run]; [exists o; auto|].
    destruct (G a i o HI2) as (o1 & E1 & H1). rewrite E1. cbn [bind]. destruct (ref_step height sg i a) as [i1 x1]. cbn [fst snd] in *.
    destruct (IH i1 o1 H1) as (o2 & E2 & H2). rewrite E2. cbn [bind]. destruct (ref_run height sg i1 cs) as [i2 xs]. cbn [fst snd] in *. exists o2. auto.
  Qed.
End Hist.

Lemma leaf_cost16 : leaf_cost (wparams 16) = leaf_calls 16 67.
Proof. reflexivity. Qed.
Lemma cost_at_bound : forall h i, (cost_at h i <= traversal_calls 16 67 (N.of_nat h))%N.
Proof.
  intros h i. unfold cost_at. destruct (canon h i) as [st| |] eqn:E; try (cbn; lia).
  assert (HL : length (b_stacklevels st) = h + 1).
  { revert st E. induction i; intros st E.
    - assert (canon0 h = st) by (unfold canon in E; cbn [for_from] in E; congruence). subst st. cbn [canon0 b_stacklevels]. apply repeat_length.
    - rewrite canon_S in E. apply bind_ok in E. destruct E as (s1 & E1 & E). rewrite <- bds_step_erase in E. apply erase_ok in E. destruct E as (n & E). apply bds_step_bound in E. destruct E as (E & _). rewrite E. now apply IHi. }
  destruct (bds_step_c SHAKE_128 (cp h) [] [] zero_adrs i st) as [[st' n]| |] eqn:E1; try lia. apply bds_step_bound in E1. destruct E1 as (_ & E1).
  unfold step_bound in E1. rewrite HL in E1. cbn [cp x_wots x_h x_k] in E1. rewrite leaf_cost16 in E1.
  unfold traversal_calls. replace ((N.of_nat h - 2) / 2)%N with (N.of_nat ((h - 2) / 2)).
  2:{ rewrite Nat2N.inj_div, Nat2N.inj_sub. reflexivity. }
  replace (N.of_nat h + 1)%N with (N.of_nat (h + 1)) by lia. rewrite N.max_r in E1 by (vm_compute; discriminate). exact E1.
Qed.

(** ** verify *)
Lemma digit_sum_le : forall p ds, Forall (fun d => d <= w_w p - 1)%N ds -> (digit_sum ds <= N.of_nat (length ds) * (w_w p - 1))%N.
Proof. intros p. induction ds as [|d ds IH]; intros HF; [reflexivity|]. inversion HF as [|? ? H1 H2]; subst. specialize (IH H2). cbn [digit_sum fold_right length]. fold (digit_sum ds). lia. Qed.
Lemma walks_verify : forall p cs ds, length cs = length ds -> Forall (fun d => d <= w_w p - 1)%N ds ->
  walks p (map (fun cd => (fst cd, snd cd, w_w p - 1 - snd cd)%N) (combine cs ds)) = (3 * (N.of_nat (length ds) * (w_w p - 1) - digit_sum ds))%N.
Proof.
  intros p. induction cs as [|c cs IH]; intros [|d ds] HL HF; cbn [length] in HL; try discriminate; [reflexivity|].
  cbn [combine map walks fold_right fst snd digit_sum length]. fold (walks p (map (fun cd => (fst cd, snd cd, w_w p - 1 - snd cd)%N) (combine cs ds))). fold (digit_sum ds).
  inversion HF as [|? ? H1 H2]; subst. rewrite IH by (auto; lia). pose proof (digit_sum_le p ds H2). unfold walk. rewrite N.min_l by lia. lia.
Qed.
Lemma wots_pkFromSig_c_eq : forall hf sg m p ps a, wots_pkFromSig_c hf sg m p ps a =
  (ds <- wots_digits m p ;; Ok (gen_chains hf 0 (map (fun cd => (fst cd, snd cd, w_w p - 1 - snd cd)%N) (combine sg ds)) p ps a,
    walks p (map (fun cd => (fst cd, snd cd, w_w p - 1 - snd cd)%N) (combine sg ds)))).
Proof.
  intros. unfold wots_pkFromSig_c. unfold cbind, clift. destruct (wots_digits m p) as [ds|e|]; cbn [bind]; auto. rewrite gen_chains_c_eq. cbn [bind]. reflexivity.
Qed.
Lemma l_tree_erase : forall hf p pk ps a, erase (l_tree_c hf p pk ps a) = l_tree hf p pk ps a.
Proof. intros. eapply costs_erase, l_tree_costs. Qed.
Lemma validate_loop_erase : forall hf n i li bl br ap pos ps a, erase (validate_loop_c hf n i li bl br ap pos ps a) = validate_loop hf n i li bl br ap pos ps a.
Proof. intros. eapply costs_erase, validate_loop_costs. Qed.
Lemma validate_authpath_erase : forall hf lf li ap h ps a, erase (validate_authpath_c hf lf li ap h ps a) = validate_authpath hf lf li ap h ps a.
Proof.
  intros. unfold validate_authpath_c, validate_authpath. er. apply bind_ext. intros x. er.
  assert (G : erase (if N.odd li then validate_loop_c hf (h - 1) 0 li x lf ap 1 ps a else validate_loop_c hf (h - 1) 0 li lf x ap 1 ps a) =
    (if N.odd li then validate_loop hf (h - 1) 0 li x lf ap 1 ps a else validate_loop hf (h - 1) 0 li lf x ap 1 ps a)) by (destruct (N.odd li); apply validate_loop_erase).
  rewrite G. apply bind_ext. intros [[[li' bl] br] a']. rewrite hash_h_c_eq.
  destruct (hash_h hf (bl ++ br) ps (setTreeIndex (setTreeHeight a' (N.of_nat (h - 1))) (N.shiftr li' 1))). reflexivity.
Qed.
Lemma Verifysig_erase : forall hf p m s pk h, erase (xmss_Verifysig_c hf p m s pk h) = xmss_Verifysig hf p m s pk h.
Proof.
  intros. unfold xmss_Verifysig_c, xmss_Verifysig. unfold h_msg_c, core_hash_c. er. unfold erase at 1. cbn [bind]. er.
  rewrite wots_pkFromSig_c_eq. unfold wots_pkFromSig, h_msg.
  match goal with |- context [wots_digits ?d p] => destruct (wots_digits d p) as [ds|e|]; [|reflexivity|reflexivity] end. unfold erase at 1. cbn [bind].
  match goal with |- context [gen_chains ?x1 ?x2 ?x3 ?x4 ?x5 ?x6] => destruct (gen_chains x1 x2 x3 x4 x5 x6) as [wpk a1] end.
  er. rewrite l_tree_erase. apply bind_ext. intros [ph a2]. er. rewrite validate_authpath_erase. apply bind_ext. reflexivity.
Qed.
Lemma verify_body_erase : forall m s pk w, erase (verify_body_c m s pk w) = verify_body m s pk w.
Proof.
  intros. unfold verify_body_c, verify_body. destruct (negb (length pk =? 67)); [reflexivity|]. er. apply bind_ext. intros base.
  destruct (base + 254 * 32 <? N.of_nat (length s))%N; [reflexivity|]. er. apply bind_ext. intros d. destruct (negb (d_sig d =? 0)%N); [reflexivity|].
  er. apply bind_ext. intros h. destruct ((h =? 0)%N || negb (d_height d =? h)%N); [reflexivity|]. destruct (bad_height h); [reflexivity|].
  er. apply bind_ext. intros p. rewrite with_hash_erase. apply with_hash_ext. intros; apply Verifysig_erase.
Qed.
Lemma verify_erase : forall m s pk w, erase (verify_c m s pk w) = verify m s pk w.
Proof.
  intros. unfold verify_c, verify. rewrite <- verify_body_erase. destruct (verify_body_c m s pk w) as [[b n]|[|]|]; reflexivity.
Qed.
Lemma chunks_length : forall n k (l : list N), length (chunks n k l) = n.
Proof. induction n; intros; cbn [chunks length]; auto. Qed.
Lemma Verifysig_cost : forall hf w wp m s pk h b n, winternitz w = Some wp -> 1 <= h -> xmss_Verifysig_c hf (wparams w) m s pk h = Ok (b, n) ->
  n = verify_calls w (N.of_nat (snd (fst wp) + snd wp)) (N.of_nat h) (msg_digits (fst (fst wp)) (snd (fst wp)) (snd wp)
        (h_msg hf m (slice 4 32 s ++ slice 0 32 pk ++ to_byte 32 (from_be (slice 0 4 s))))).
Proof.
  intros hf w wp m s pk h b n Hw Hh E. destruct (wparams_ok w wp Hw) as (_ & HP & Eww & _ & _ & _ & _ & _ & EL). unfold xmss_Verifysig_c in E.
  apply cbind_ok in E. destruct E as (d & n1 & n2 & E1 & E & ->). unfold h_msg_c, core_hash_c in E1.
  set (dg := h_msg hf m (slice 4 32 s ++ slice 0 32 pk ++ to_byte 32 (from_be (slice 0 4 s)))).
  assert (HD : d = dg /\ n1 = 1%N) by (split; unfold dg, h_msg; congruence). destruct HD as (-> & ->). clear E1.
  assert (HL : length dg = 32) by apply core_hash_len. destruct (digits_of_ok (wparams w) dg HP HL) as (D1 & D2 & D3).
  apply cbind_ok in E. destruct E as ([wpk a1] & n3 & n4 & E1 & E & ->). rewrite wots_pkFromSig_c_eq, D1 in E1. cbn [bind] in E1.
  rewrite walks_verify in E1; [|rewrite chunks_length; congruence|exact D3]. rewrite D2, EL, Eww, (digits_of_msg w wp dg Hw HL) in E1.
  match type of E1 with Ok (_, ?x) = _ => assert (Hn3 : n3 = x) by congruence end. clear E1. subst n3.
  apply cbind_ok in E. destruct E as ([ph a2] & n5 & n6 & E1 & E & ->).
  assert (Hn5 : n5 = (4 * N.of_nat (snd (fst wp) + snd wp - 1))%N).
  { rewrite (l_tree_costs hf (wparams w) wpk) in E1. rewrite EL in E1. match type of E1 with bind ?r _ = _ => destruct r; cbn [bind] in E1; try discriminate end. congruence. }
  subst n5. clear E1.
  apply cbind_ok in E. destruct E as (rt & n7 & n8 & E1 & E & ->). apply cret_ok in E. destruct E as (_ & ->).
  rewrite validate_authpath_costs in E1 by exact Hh. match type of E1 with bind ?r _ = _ => destruct r; cbn [bind] in E1; try discriminate end.
  assert (n7 = (4 * N.of_nat h)%N) by congruence. subst n7. unfold verify_calls. lia.
Qed.

(** ** Theorems *)

(** Forgetting the counts gives the model of the code. *)
Theorem C82_erasure : forall x b junk m i s pk w,
  erase (xfast_sign_c x m) = xfast_sign x m /\ erase (xfast_setIndex_c x i) = xfast_setIndex x i /\
  erase (verify_c m s pk w) = verify m s pk w /\ erase (XmssBasic_sign_c junk b m) = XmssBasic_sign junk b m.
Proof.
  intros. split; [apply sign_erase|]. split; [apply setIndex_erase|]. split; [apply verify_erase|].
  unfold XmssBasic_sign_c, XmssBasic_sign. rewrite with_hash_erase. apply with_hash_ext. intros hf. er. unfold xmss_Signmsg_c, xmss_Signmsg, prf_c, h_msg_c, core_hash_c.
  er. unfold erase at 1. cbn [bind]. er. unfold erase at 1. cbn [bind]. er. rewrite get_seed_c_eq. unfold erase at 1. cbn [bind].
  change (core_hash hf 3 (slice 36 32 (xb_sk b)) (to_byte 32 (from_be (slice 0 4 (xb_sk b))))) with (prf hf (to_byte 32 (from_be (slice 0 4 (xb_sk b)))) (slice 36 32 (xb_sk b))).
  destruct (get_seed hf (slice 4 32 (xb_sk b)) (setOTSADRS (setType zero_adrs 0) (from_be (slice 0 4 (xb_sk b))))) as [os oa].
  er. rewrite wots_sign_erase. unfold h_msg. rewrite !bind_assoc. apply bind_ext. intros [ws oa']. er. rewrite (costs_erase _ _ _ _ (compute_authpath_costs hf junk _ _ (xb_params b) _ oa')). rewrite !bind_assoc. apply bind_ext. intros [rt ap]. reflexivity.
Qed.

(** There is one table [f] of traversal costs, by height and index, for all keys: after
    any history, sign costs the one-time signature of the digest plus the table's entry,
    whatever the seed and the hash function; setIndex costs the sum of the entries it
    skips; a call that throws costs nothing.  The entries are bounded. *)
Theorem C82_sign_calls : exists f : nat -> N -> N,
  (forall h i, f h i <= traversal_calls 16 67 (N.of_nat h))%N /\
  forall junk seed height hash hf fmt, supported hash hf 16 w16 height seed ->
  exists x, XmssFast_new junk seed (N.of_nat height) hash fmt = Ok x /\
    forall cs, exists y os, run x cs = Ok (y, os) /\
      let i := getIndex (xf_base y) in
      (forall m, (i < 2 ^ N.of_nat height)%N -> exists z sig,
         xfast_sign_c y m = Ok ((z, inr sig), (ots_sign_calls 67 (msg_digits 4 64 3
           (digest hf (firstn 32 (skipn 4 sig)) (getRoot (xf_base x)) (N.to_nat i) m)) + f height i)%N)) /\
      (forall m, (i = 2 ^ N.of_nat height)%N -> xfast_sign_c y m = Ok ((y, inl InvalidArgument), 0%N)) /\
      (forall j, (i <= j < 2 ^ N.of_nat height)%N -> exists z,
         xfast_setIndex_c y j = Ok ((z, inr j), fold_right N.add 0%N (map (fun k => f height (N.of_nat k)) (seq (N.to_nat i) (N.to_nat (j - i)))))) /\
      (forall j, (j < i \/ 2 ^ N.of_nat height <= j)%N -> xfast_setIndex_c y j = Ok ((y, inl InvalidArgument), 0%N)) /\
      (i <= 2 ^ N.of_nat height)%N.
Proof.
  exists (fun h i => tcost h i). split.
  { intros h i. unfold tcost. destruct (i <? 2 ^ N.of_nat h - 1)%N; [apply cost_at_bound|lia]. }
  intros junk seed height hash hf fmt HS. destruct (init_inv2 hash hf height seed fmt HS junk) as (x & Ex & HI0). exists x. split; [exact Ex|].
  assert (Er : getRoot (xf_base x) = ref_root hf w16 height seed).
  { destruct HI0 as ((Eb & _) & _). rewrite Eb. destruct (sk_parts (mkCfg hf hash 16 fmt height seed) w16 (cfg_of _ _ _ _ _ _ fmt HS) 0) as (_ & _ & _ & P4 & _). exact P4. }
  intros cs. destruct (run_inv2 hash hf height seed fmt HS cs 0 x HI0) as (y & Ey & HI). set (i := fst (ref_run height (ref_sig hf w16 height seed) 0 cs)) in *.
  exists y, (snd (ref_run height (ref_sig hf w16 height seed) 0 cs)). split; [exact Ey|].
  assert (EI : getIndex (xf_base y) = i) by (apply (inv_getIndex hash hf height seed fmt HS); apply HI). rewrite EI. cbn zeta.
  split; [|split; [|split; [|split]]].
  - intros m Hi. destruct (sign_inv2 hash hf height seed fmt HS i y m HI Hi) as (z & Ez & _). rewrite Er. eauto.
  - intros m Hi. exact (sign_fail2 hash hf height seed fmt HS i y m HI Hi).
  - intros j (Hij & Hj). destruct (setIndex_inv2 hash hf height seed fmt HS i j y HI Hj Hij) as (z & Ez & _). exists z. rewrite Ez. f_equal. f_equal.
    unfold span_cost. replace (N.to_nat j - N.to_nat i) with (N.to_nat (j - i)) by lia. f_equal. apply map_ext_in. intros k Hk. apply in_seq in Hk. unfold tcost. rewrite (proj2 (N.ltb_lt _ _)) by lia. now rewrite Nat2N.id.
  - intros j Hj. apply (setIndex_fail2 hash hf height seed fmt HS i j y HI). destruct Hj as [Hj|Hj].
    + apply andb_false_intro2, N.leb_gt. exact Hj.
    + apply andb_false_intro1, N.ltb_ge. exact Hj.
  - apply HI.
Qed.

(** XmssBasic::sign builds the whole tree each time. *)
Theorem C82_basic_sign_calls : forall junk seed height hash hf fmt w wp, supported hash hf w wp height seed -> height <= 24 ->
  exists x, XmssBasic_new junk seed (N.of_nat height) hash fmt w = Ok x /\
    forall j idx msg, (idx < 2 ^ N.of_nat height)%N -> exists y sig,
      XmssBasic_sign_c j (fst (base_setIndex x idx)) msg = Ok ((y, sig),
        (ots_sign_calls (N.of_nat (snd (fst wp) + snd wp)) (msg_digits (fst (fst wp)) (snd (fst wp)) (snd wp)
           (digest hf (firstn 32 (skipn 4 sig)) (getRoot x) (N.to_nat idx) msg))
         + tree_calls w (N.of_nat (snd (fst wp) + snd wp)) (N.of_nat height))%N).
Proof.
  intros junk seed height hash hf fmt w wp HS Hh. pose proof (cfg_of _ _ _ _ _ _ fmt HS) as HC.
  set (c := mkCfg hf hash w fmt height seed) in *. exists (c_obj c wp 0). split; [apply (XmssBasic_new_spec c wp HC)|].
  intros j idx msg Hi.
  assert (Es : fst (base_setIndex (c_obj c wp 0) idx) = c_obj c wp idx) by reflexivity. rewrite Es. clear Es.
  pose proof (XmssBasic_sign_spec c wp HC j idx msg ltac:(cbn [c c_height]; lia) Hi) as E.
  destruct (C82_erasure (mkXF (c_obj c wp idx) (fresh_bds 4 2)) (c_obj c wp idx) j msg 0 [] [] w) as (_ & _ & _ & E'). rewrite E in E'. apply erase_ok in E'. destruct E' as (n & E').
  exists (c_obj c wp (idx + 1)), (c_sig c wp (N.to_nat idx) msg). rewrite E'. f_equal. f_equal.
  unfold XmssBasic_sign_c in E'. unfold c_obj at 1 2 3 in E'. cbn [xb_hash xb_params xb_sk] in E'. unfold with_hash in E'. rewrite (co_hash _ _ HC) in E'.
  apply cbind_ok in E'. destruct E' as ([sk sg] & n1 & n2 & E1 & E2 & ->). apply cret_ok in E2. destruct E2 as (_ & ->). unfold xmss_Signmsg_c in E1.
  rewrite (sk_index c wp HC idx) in E1 by (cbn [c c_height]; lia). destruct (sk_parts c wp HC idx) as (P1 & P2 & P3 & P4 & _). rewrite P1, P2, P3, P4 in E1.
  assert (P4' : getRoot (c_obj c wp 0) = ref_root (c_hf c) wp (c_height c) (c_seed c)) by (destruct (sk_parts c wp HC 0) as (_ & _ & _ & Q4 & _); exact Q4). rewrite P4'.
  assert (ER : firstn 32 (skipn 4 (c_sig c wp (N.to_nat idx) msg)) = randomizer hf (key_prf seed) (N.to_nat idx)).
  { unfold c_sig, ref_sig, signature. rewrite skipn_app_exact by apply to_byte_length. apply firstn_app_exact. apply keyed_length. }
  rewrite ER. cbn [c c_hf c_seed c_height] in *.
  apply cbind_ok in E1. destruct E1 as (R & k1 & k2 & E2 & E1 & ->). unfold prf_c, core_hash_c in E2. assert (HR : R = prf hf (to_byte 32 idx) (key_prf seed) /\ k1 = 1%N) by (split; unfold prf; congruence). destruct HR as (-> & ->). clear E2.
  apply cbind_ok in E1. destruct E1 as (d & k1 & k3 & E2 & E1 & ->). unfold h_msg_c, core_hash_c in E2.
  assert (HD : d = digest hf (randomizer hf (key_prf seed) (N.to_nat idx)) (ref_root hf wp height seed) (N.to_nat idx) msg /\ k1 = 1%N).
  { split; [|congruence]. unfold digest. rewrite <- core_hash_keyed. unfold randomizer. rewrite <- prf_PRF, N2Nat.id. congruence. }
  destruct HD as (-> & ->). clear E2. set (dg := digest hf (randomizer hf (key_prf seed) (N.to_nat idx)) (ref_root hf wp height seed) (N.to_nat idx) msg) in *.
  apply cbind_ok in E1. destruct E1 as ([os oa] & k4 & k5 & E2 & E1 & ->). rewrite get_seed_c_eq in E2. assert (k4 = 1%N) by congruence. subst k4. clear E2.
  apply cbind_ok in E1. destruct E1 as ([ws oa'] & k4 & k6 & E2 & E1 & ->). cbn [c_params c c_w x_wots] in E2.
  pose proof HS as (_ & Hw & _). apply (ots_sign_cost hf dg os w wp) in E2; [|exact Hw|apply keyed_length]. subst k4.
  apply cbind_ok in E1. destruct E1 as ([rt ap] & k4 & k7 & E2 & E1 & ->). apply cret_ok in E1. destruct E1 as (_ & ->).
  rewrite (compute_authpath_costs hf j) in E2. match type of E2 with bind ?r _ = _ => destruct r; cbn [bind] in E2; try discriminate end. cbn [c_params c c_w c_height x_wots x_h] in E2.
  destruct (wparams_ok w wp Hw) as (_ & HP & Eww & _ & _ & _ & _ & _ & EL). destruct (wots_ok_facts _ HP) as (_ & _ & _ & Hlen & _). rewrite EL in Hlen.
  assert (ELC : leaf_cost (wparams w) = leaf_calls w (N.of_nat (snd (fst wp) + snd wp))).
  { unfold leaf_cost, pkgen_cost, leaf_calls. rewrite EL, Eww. lia. }
  rewrite ELC in E2. match type of E2 with Ok (_, ?x) = _ => assert (Hk : k4 = x) by congruence end. subst k4. unfold ots_sign_calls, tree_calls. lia.
Qed.

(** verify either rejects a malformed input without hashing, or takes the stated number
    of evaluations; so no input, however made, costs more than the bound. *)
Theorem C82_verify_calls : forall w wp msg sig pk b n, winternitz w = Some wp -> all_bytes pk -> verify_c msg sig pk w = Ok (b, n) ->
  let len := N.of_nat (snd (fst wp) + snd wp) in
  let h := (2 * (nth 1 pk 0%N mod 16))%N in
  ((n = 0%N /\ b = false) \/
   exists hf, hash_of_id (nth 0 pk 0%N mod 16)%N = Some hf /\
     n = verify_calls w len h (msg_digits (fst (fst wp)) (snd (fst wp)) (snd wp)
           (digest hf (firstn 32 (skipn 4 sig)) (firstn 32 (skipn 3 pk)) (N.to_nat (sig_index sig)) msg))) /\
  (n <= 3 * len * (w - 1) + 4 * len + 120)%N.
Proof.
  intros w wp msg sig pk b n Hw Hpk E len h.
  destruct (wparams_ok w wp Hw) as (Ewp & HP & Eww & _ & _ & _ & _ & _ & EL). destruct (wots_ok_facts _ HP) as (_ & _ & _ & Hlen & _). rewrite EL in Hlen.
  assert (Hh : (h <= 30)%N) by (unfold h; pose proof (N.mod_upper_bound (nth 1 pk 0%N) 16 ltac:(lia)); lia).
  assert (G : (n = 0%N /\ b = false) \/
   exists hf, hash_of_id (nth 0 pk 0%N mod 16)%N = Some hf /\
     n = verify_calls w len h (msg_digits (fst (fst wp)) (snd (fst wp)) (snd wp)
           (digest hf (firstn 32 (skipn 4 sig)) (firstn 32 (skipn 3 pk)) (N.to_nat (sig_index sig)) msg))).
  { unfold verify_c in E. destruct (verify_body_c msg sig pk w) as [[b' n']|[|]|] eqn:Eb; try discriminate.
    2:{ apply cret_ok in E. destruct E as (E1 & E2). left. auto. }
    assert (b' = b /\ n' = n) as (-> & ->) by (split; congruence). clear E. unfold verify_body_c in Eb.
    destruct (negb (length pk =? 67)) eqn:Elk; [discriminate|]. apply negb_false_iff, Nat.eqb_eq in Elk.
    apply cbind_ok in Eb. destruct Eb as (base & n1 & n2 & E1 & Eb & ->). apply clift_ok in E1. destruct E1 as (_ & ->).
    destruct (base + 254 * 32 <? N.of_nat (length sig))%N; [discriminate|].
    apply cbind_ok in Eb. destruct Eb as (d & n1 & n3 & E1 & Eb & ->). apply clift_ok in E1. destruct E1 as (Ed & ->).
    assert (HDd : d_hash d = (nth 0 pk 0%N mod 16)%N /\ d_height d = h).
    { unfold descr_fromExtendedPK in Ed. rewrite Elk in Ed. cbn [Nat.eqb negb] in Ed. change descr_getSize with 3 in Ed.
      destruct pk as [|p0 [|p1 [|p2 pk]]]; try discriminate. cbn [firstn descr_fromBytes] in Ed. apply Ok_inj in Ed. subst d. cbn [d_hash d_height nth]. split.
      - change 0x0F%N with (N.ones 4). apply N.land_ones.
      - change 0x0F%N with (N.ones 4). rewrite N.land_ones. change (2 ^ 4)%N with 16%N. rewrite N.shiftl_mul_pow2. change (2 ^ 1)%N with 2%N. unfold u8. rewrite N.mod_small; [unfold h; cbn [nth]; lia|].
        pose proof (N.mod_upper_bound p1 16 ltac:(lia)). lia. }
    destruct HDd as (Hdh & Hdt).
    destruct (negb (d_sig d =? 0)%N). { apply cret_ok in Eb. destruct Eb as (<- & ->). left. auto. }
    apply cbind_ok in Eb. destruct Eb as (ht & n1 & n4 & E1 & Eb & ->). apply clift_ok in E1. destruct E1 as (_ & ->).
    destruct ((ht =? 0)%N || negb (d_height d =? ht)%N) eqn:Eh. { apply cret_ok in Eb. destruct Eb as (<- & ->). left. auto. }
    apply orb_false_iff in Eh. destruct Eh as (Eh0 & Eh1). apply N.eqb_neq in Eh0. apply negb_false_iff, N.eqb_eq in Eh1. subst ht. rewrite Hdt in *.
    destruct (bad_height h); [discriminate|].
    apply cbind_ok in Eb. destruct Eb as (p & n1 & n5 & E1 & Eb & ->). apply clift_ok in E1. destruct E1 as (Ep & ->). rewrite Hdh in Eb.
    unfold with_hash in Eb. destruct (hash_of_id (nth 0 pk 0%N mod 16)%N) as [hf|]; [|discriminate]. right. exists hf. split; [reflexivity|].
    assert (Epw : x_wots p = wparams w). { unfold xmss_set_params in Ep. match type of Ep with (if ?q then _ else _) = _ => destruct q; [discriminate|] end. rewrite Ewp in Ep. cbn [bind] in Ep. apply Ok_inj in Ep. now subst p. }
    rewrite Epw in Eb. apply (Verifysig_cost hf w wp) in Eb; [|exact Hw|lia]. rewrite N2Nat.id in Eb. rewrite !N.add_0_l. rewrite Eb. unfold digest. rewrite <- core_hash_keyed. unfold h_msg, slice, sig_index. change descr_getSize with 3.
    rewrite N2Nat.id, !skipn_O. reflexivity. }
  split; [exact G|]. destruct G as [(-> & _)|(hf & _ & ->)]; [lia|]. unfold verify_calls. rewrite <- (N.mul_assoc 3 len). assert (1 <= len)%N by (subst len; lia). set (q := (len * (w - 1))%N) in *. lia.
Qed.

(** The numbers for XmssFast: 3347 evaluations per leaf; signing costs at most 55026
    at the largest height, verifying at most 3403 and XmssBasic's tree at height 10
    alone 3431420. *)
Example C82_numbers : leaf_calls 16 67 = 3347%N /\ tree_calls 16 67 10 = 3431420%N /\
  (ots_sign_calls 67 (repeat 15 67) + traversal_calls 16 67 30 = 55026)%N /\ (3 * 67 * (16 - 1) + 4 * 67 + 120 = 3403)%N.
Proof. vm_compute. auto. Qed.
