(** Lemmas for C78: the traversal code on states whose authentication path or
    [keep] nodes are not the right ones. *)
From Coq Require Import List NArith Arith Lia Bool.
From Verif Require Import Base Bytes Keccak KeccakLemmas HashAddress Wots XmssCommon AlgsXmss AlgsXmssFast Descriptor
  SpecXmss SpecApi XmssObj XmssRefine WotsProofs TreeProofs BasicProofs BdsSched BdsProofs BdsSetup FastProofs.
Import ListNotations.
Open Scope nat_scope.

Section Weak.
  Variables (hf : hashfn) (ssd ps : list N) (p : xmss_params).
  Variables (m q : nat).
  Hypothesis Hmq : m = 2 * q.
  Hypothesis Hq : 1 <= q.
  Hypothesis Hh : x_h p = m + 2.
  Hypothesis Hk : x_k p = 2.
  Hypothesis Hw : (1 <= w_w (x_wots p))%N.
  Hypothesis Hlen : 1 <= w_len (x_wots p).
  Local Notation h := (m + 2).
  Local Notation nd := (tnode hf ssd ps p).

  (** Everything of [bds_ok] but the contents of [auth] and [keep]. *)
  Record weak_ok (t : nat) (st : bds_state) : Prop := {
    wo_auth : length (b_auth st) = h;
    wo_keep : length (b_keep st) = h / 2;
    wo_retain : nth_error (b_retain st) 0 = Some (nd m 3);
    wo_th : exists r P, th_ok hf ssd ps p m t r P st /\ sched m q t q r }.

  Lemma bds_weak : forall t st, bds_ok hf ssd ps p m q t st -> weak_ok t st.
  Proof. intros t st HB. constructor; apply HB. Qed.

  (** The node stored at [tau]: hashed from whatever [auth] and [keep] hold. *)
  Definition joined (s tau : nat) (auth keep : list (list N)) : list N :=
    if tau =? 0 then nd 0 s
    else rand_hash hf ps 2 0 (tau - 1) (s / 2 ^ tau) (nth (tau - 1) auth []) (nth ((tau - 1) / 2) keep []).

  Lemma bds_step_weak : forall s tau x st addr, root_adrs addr -> s + 1 < 2 ^ h -> s + 1 = (2 * x + 1) * 2 ^ tau -> weak_ok s st ->
    exists st', bds_step hf p ssd ps addr s st = Ok st' /\ weak_ok (s + 1) st' /\
      forall i, i < h -> nth_error (b_auth st') i =
        Some (if i <? tau then nd i (Nat.lxor ((s + 1) / 2 ^ i) 1)
              else if i =? tau then joined s tau (b_auth st) (b_keep st) else nth i (b_auth st) []).
  Proof.
    intros s tau0 x0 st addr HR Hs E0 HB. destruct (wo_th _ _ HB) as (r & P & HT & HS).
    destruct (find_tau_spec s h Hs) as (tau & x & Etau & Htau & E).
    assert (tau0 = tau).
    { assert (U : forall a b y z, (2 * y + 1) * 2 ^ a = (2 * z + 1) * 2 ^ b -> a <= b).
      { intros a b y z Eq. destruct (Nat.le_gt_cases a b) as [|G]; auto. exfalso. rewrite (pow2_split (S b) a) in Eq by lia.
        rewrite pow2_S in Eq. pose proof (pow2_pos b). assert ((2 * y + 1) * 2 ^ (a - S b) * 2 = 2 * z + 1) by nia. lia. }
      apply Nat.le_antisymm; [eapply (U _ _ x0 x)|eapply (U _ _ x x0)]; congruence. }
    subst tau0. clear x0 E0.
    destruct (tau_facts s tau x E) as (F1 & F2 & F3 & F4 & F5).
    unfold bds_step, bds_round. rewrite Hh, Hk, Etau. clear Etau.
    destruct (copy_adrs addr HR) as (Ho & Hl & Hn).
    replace (h - 2) with m by lia.
    assert (Hhalf : forall i, i < h - 1 -> i / 2 < h / 2).
    { intros i Hi. replace h with (2 * (q + 1)) by lia. rewrite (Nat.mul_comm 2), Nat.div_mul by lia.
      apply Nat.div_lt_upper_bound; lia. }
    pose proof (wo_auth _ _ HB) as La. pose proof (wo_keep _ _ HB) as Lk.
    assert (Ebuf : exists buf, (if 0 <? tau then
              a <- get (b_auth st) (tau - 1) ;; c <- get (b_keep st) ((tau - 1) / 2) ;; Ok (a ++ c)
            else Ok []) = Ok buf /\
            (0 < tau -> buf = nth (tau - 1) (b_auth st) [] ++ nth ((tau - 1) / 2) (b_keep st) [])).
    { destruct (0 <? tau) eqn:Et.
      - apply Nat.ltb_lt in Et.
        rewrite (proj2 (get_ok _ _ _ _) (nth_error_nth' (b_auth st) [] (n := tau - 1) ltac:(lia))). cbn [bind].
        assert (Hb : (tau - 1) / 2 < length (b_keep st)) by (rewrite Lk; apply Hhalf; lia).
        rewrite (proj2 (get_ok _ _ _ _) (nth_error_nth' (b_keep st) [] Hb)). cbn [bind]. eexists. split; [reflexivity|auto].
      - eexists. split; [reflexivity|]. apply Nat.ltb_ge in Et. lia. }
    destruct Ebuf as (buf & Ebuf & Hbuf). rewrite Ebuf. cbn [bind]. clear Ebuf.
    assert (Ekeep : exists keep, (if negb (Nat.testbit s (tau + 1)) && (tau <? h - 1) then
             a <- get (b_auth st) tau ;; set (b_keep st) (tau / 2) a else Ok (b_keep st)) = Ok keep /\ length keep = h / 2).
    { destruct (negb (Nat.testbit s (tau + 1)) && (tau <? h - 1)) eqn:Ec; [|eauto].
      apply andb_true_iff in Ec. destruct Ec as [_ Ec]. apply Nat.ltb_lt in Ec.
      rewrite (proj2 (get_ok _ _ _ _) (nth_error_nth' (b_auth st) [] (n := tau) ltac:(lia))). cbn [bind].
      rewrite set_ok by (rewrite Lk; auto). eexists. split; [reflexivity|]. now rewrite upd_length. }
    destruct Ekeep as (keep & Ekeep & Lkeep). rewrite Ekeep. cbn [bind]. clear Ekeep.
    (* the treehash part, common to both cases *)
    assert (Htail : forall st1, (exists r P, th_ok hf ssd ps p m (S s) (restart m h (S s) r) P st1 /\ sched m q s q r) ->
       length (b_auth st1) = h -> length (b_keep st1) = h / 2 -> nth_error (b_retain st1) 0 = Some (nd m 3) ->
       exists st', bds_treehash_update hf (m / 2) st1 ssd p ps addr = Ok st' /\ weak_ok (s + 1) st' /\ b_auth st' = b_auth st1).
    { intros st1 (r1 & P1 & HT1 & HS1) A1 A2 A3. replace (m / 2) with q by (rewrite Hmq, Nat.mul_comm, Nat.div_mul; lia).
      destruct (bds_treehash_update_spec hf ssd ps p m q Hmq Hq Hh Hk Hw Hlen q (S s) 0 _ _ _ addr HR HT1) as (st2 & r2 & P2 & E2 & HT2 & HS2 & (R1 & R2 & R3)).
      { now apply sched_restart. }
      exists st2. split; [exact E2|]. split; [|congruence]. rewrite Nat.add_1_r. constructor; rewrite ?R1, ?R2, ?R3; auto. exists r2, P2. auto. }
    destruct (tau =? 0) eqn:E0.
    - apply Nat.eqb_eq in E0. subst tau. change (2 ^ 0) with 1 in *. rewrite Nat.div_1_r in F1, F2.
      destruct (gen_leaf_wots_spec hf ssd p ps (setLtreeADRS (copy_layer_tree addr 1) (N.of_nat s)) (setOTSADRS (copy_layer_tree addr 0) (N.of_nat s)) s)
        as (la' & oa' & El & _ & _); auto.
      { eapply lt_adrs_set; eauto. } { eapply ots_adrs_set; eauto. }
      rewrite El. cbn [bind]. rewrite set_ok by (rewrite La; lia). cbn [bind].
      match goal with |- exists st', bds_treehash_update _ _ ?s1 _ _ _ _ = _ /\ _ => destruct (Htail s1) as (st' & E' & W' & A') end;
        cbn [b_auth b_keep b_retain]; auto.
      { exists r, P. split; [|exact HS]. apply (round_th hf ssd ps p m q Hmq Hq Hh Hk Hw Hlen s 0 x r P (b_treehash st) st Hs); auto; try apply HT. }
      { now rewrite upd_length. } { apply HB. }
      exists st'. split; [exact E'|]. split; [exact W'|]. intros i Hi. rewrite A'. cbn [b_auth].
      destruct (Nat.eq_dec i 0) as [->|Hn0].
      + rewrite nth_error_upd_same by lia. reflexivity.
      + rewrite nth_error_upd_other by lia. rewrite (proj2 (Nat.eqb_neq i 0)) by lia. cbn [Nat.ltb Nat.leb].
        apply nth_error_nth'. lia.
    - apply Nat.eqb_neq in E0. rewrite Hbuf by lia.
      destruct (hash_node hf ps (copy_layer_tree addr 2) (tau - 1) (s / 2 ^ tau)
                 (nth (tau - 1) (b_auth st) []) (nth ((tau - 1) / 2) (b_keep st) []) Hn) as (a' & Eh & _).
      rewrite Eh. rewrite set_ok by lia. cbn [bind].
      assert (EJ : rand_hash hf ps 2 0 (tau - 1) (s / 2 ^ tau) (nth (tau - 1) (b_auth st) []) (nth ((tau - 1) / 2) (b_keep st) [])
                   = joined s tau (b_auth st) (b_keep st)) by (unfold joined; now rewrite (proj2 (Nat.eqb_neq _ _) E0)).
      rewrite EJ.
      match goal with |- context [for_up tau ?f ?s0] =>
        destruct (for_up_inv _ (fun n auth => length auth = h /\
          forall i, i < h -> nth_error auth i =
            Some (if i <? n then nd i (Nat.lxor ((s + 1) / 2 ^ i) 1)
                  else if i =? tau then joined s tau (b_auth st) (b_keep st) else nth i (b_auth st) [])) f tau s0) as (auth & Ea & Lau & Ha) end.
      { split; [rewrite upd_length; apply La|]. intros i Hi. cbn [Nat.ltb Nat.leb].
        destruct (Nat.eq_dec i tau) as [->|].
        - rewrite nth_error_upd_same by lia. now rewrite Nat.eqb_refl.
        - rewrite nth_error_upd_other by lia. rewrite (proj2 (Nat.eqb_neq i tau)) by lia. apply nth_error_nth'. lia. }
      { intros i auth Hi (Lau & Ha).
        assert (Hv : (if i <? m then t <- get (b_treehash st) i ;; set auth i (th_node t)
                      else if (h <? 1 + i) || (2 ^ (h - 1 - i) + i <? h) || (s / 2 ^ i <? 1) then UB
                      else c <- get (b_retain st) (2 ^ (h - 1 - i) + i - h + (s / 2 ^ i - 1) / 2) ;; set auth i c)
                     = Ok (upd auth i (nd i (Nat.lxor ((s + 1) / 2 ^ i) 1)))).
        { destruct (F3 i Hi) as (y & Y1 & Y2 & Y3 & Y4 & Y5). pose proof (pow2_pos i).
          rewrite Y2, lxor_1. replace (2 * y + 2) with (2 * (y + 1)) by lia. rewrite odd_double.
          destruct (i <? m) eqn:Em.
          - apply Nat.ltb_lt in Em. destruct (to_inst _ _ _ _ _ _ _ _ _ HT i Em) as (th & En & H1 & H2 & H3 & H4).
            assert (Hr0 : r i = 0).
            { apply (sched_deadline m q Hmq s r i HS); [lia|]. replace (S s) with (s + 1) by lia. now apply F5. }
            destruct (H3 Hr0) as (_ & _ & C3).
            rewrite (proj2 (get_ok _ _ _ _) En). cbn [bind]. rewrite set_ok by lia. rewrite C3.
            + unfold Jt. rewrite Y4. do 3 f_equal. lia.
            + unfold base, Jt. rewrite Y4.
              rewrite Y5 in Hs. rewrite (pow2_split (S i) h) in Hs |- * by lia.
              set (K := 2 ^ (h - S i)) in *. apply Nat.mul_lt_mono_pos_r in Hs; [|apply pow2_pos].
              rewrite pow2_S. nia.
          - apply Nat.ltb_ge in Em. assert (i = m) by lia. subst i.
            assert (Hy0 : y = 0).
            { rewrite Y5 in Hs. replace h with (S (S m)) in Hs by lia. rewrite (pow2_S (S m)) in Hs. nia. }
            rewrite Y1, Hy0. replace (h - 1 - m) with 1 by lia.
            rewrite (proj2 (Nat.ltb_ge h (1 + m))) by lia. rewrite (proj2 (Nat.ltb_ge (2 ^ 1 + m) h)) by (change (2 ^ 1) with 2; lia).
            change (2 * 0 + 1 <? 1) with false. cbn [orb].
            replace (2 ^ 1 + m - h + (2 * 0 + 1 - 1) / 2) with 0 by (rewrite Nat.mul_0_r; cbn [plus Nat.sub]; change (0 / 2) with 0; change (2 ^ 1) with 2; lia).
            rewrite (proj2 (get_ok _ _ _ _) (wo_retain _ _ HB)). cbn [bind]. now rewrite set_ok by lia. }
        rewrite Hv. eexists. split; [reflexivity|]. split; [now rewrite upd_length|].
        intros j Hj. destruct (Nat.eq_dec j i) as [->|].
        - rewrite nth_error_upd_same by lia. now rewrite (proj2 (Nat.ltb_lt i (S i))) by lia.
        - rewrite nth_error_upd_other by lia. rewrite Ha by auto.
          replace (j <? S i) with (j <? i); auto.
          destruct (j <? i) eqn:Ej; symmetry; [apply Nat.ltb_lt in Ej; apply Nat.ltb_lt; lia|apply Nat.ltb_ge in Ej; apply Nat.ltb_ge; lia]. }
      rewrite Ea. cbn [bind].
      set (tm := if tau <? m then tau else m).
      assert (Htm : tm <= m /\ forall i, i < m -> (i < tm <-> i < tau)).
      { unfold tm. destruct (tau <? m) eqn:Em; [apply Nat.ltb_lt in Em|apply Nat.ltb_ge in Em]; split; lia. }
      match goal with |- context [for_up tm ?f ?s0] =>
        destruct (for_up_inv _ (fun n ths => length ths = m /\
          forall i t, i < m -> nth_error (b_treehash st) i = Some t ->
            nth_error ths i = Some (if (i <? n) && (s + 1 + 3 * 2 ^ i <? 2 ^ h)
                                    then mkTH i (s + 1 + 3 * 2 ^ i) 0 false (th_node t) else t)) f tm s0) as (ths & Et & Lt & Ht) end.
      { split; [apply HT|]. intros i t Hi Hn1. exact Hn1. }
      { intros i ths Hi (Lt & Ht). destruct (to_inst _ _ _ _ _ _ _ _ _ HT i ltac:(lia)) as (th & En & _).
        pose proof (Ht i th ltac:(lia) En) as Hti. rewrite Nat.ltb_irrefl in Hti. cbn [andb] in Hti.
        assert (Hsm : forall j, j <> i -> (j <? S i) = (j <? i)).
        { intros j Hj. destruct (j <? i) eqn:Ej; [apply Nat.ltb_lt in Ej; apply Nat.ltb_lt; lia|apply Nat.ltb_ge in Ej; apply Nat.ltb_ge; lia]. }
        destruct (s + 1 + 3 * 2 ^ i <? 2 ^ h) eqn:El.
        - rewrite (proj2 (get_ok _ _ _ _) Hti). cbn [bind]. rewrite set_ok by lia. eexists. split; [reflexivity|].
          split; [now rewrite upd_length|]. intros j t Hj Hn1. destruct (Nat.eq_dec j i) as [->|].
          + rewrite nth_error_upd_same by lia. rewrite (proj2 (Nat.ltb_lt i (S i))) by lia. rewrite El. cbn [andb]. congruence.
          + rewrite nth_error_upd_other by lia. rewrite Hsm by auto. now apply Ht.
        - eexists. split; [reflexivity|]. split; auto. intros j t Hj Hn1. destruct (Nat.eq_dec j i) as [->|].
          + rewrite El, andb_false_r. congruence.
          + rewrite Hsm by auto. now apply Ht. }
      rewrite Et. cbn [bind].
      match goal with |- exists st', bds_treehash_update _ _ ?s1 _ _ _ _ = _ /\ _ => destruct (Htail s1) as (st' & E' & W' & A') end;
        cbn [b_auth b_keep b_retain]; auto.
      { exists r, P. split; [|exact HS]. eapply (round_th hf ssd ps p m q Hmq Hq Hh Hk Hw Hlen s tau x); eauto. intros i t Hi Hn1. rewrite (Ht i t Hi Hn1).
        replace (i <? tm) with (i <? tau); auto. destruct Htm as [_ Htm]. specialize (Htm i Hi).
        destruct (i <? tau) eqn:Ej; symmetry; [apply Nat.ltb_lt in Ej; apply Nat.ltb_lt; tauto|apply Nat.ltb_ge in Ej; apply Nat.ltb_ge; lia]. }
      { apply HB. }
      exists st'. split; [exact E'|]. split; [exact W'|]. rewrite A'. cbn [b_auth]. exact Ha.
  Qed.

  (** A round at leaf 0 with idle treehash instances. *)
  Lemma bds_step_idle0 : forall st addr P, root_adrs addr -> length (b_auth st) = h -> length (b_keep st) = h / 2 ->
    th_ok hf ssd ps p m 0 (fun _ => 0) P st ->
    bds_step hf p ssd ps addr 0 st =
    Ok (mkBDS (b_stack st) (b_stackoffset st) (b_stacklevels st) (upd (b_auth st) 0 (nd 0 0))
              (upd (b_keep st) 0 (nth 0 (b_auth st) [])) (b_treehash st) (b_retain st)).
  Proof.
    intros st addr P HR La Lk HT. unfold bds_step, bds_round. rewrite Hh, Hk.
    destruct (copy_adrs addr HR) as (Ho & Hl & Hn).
    assert (Et : find_tau h 0 h 0 = 0) by (replace h with (S (m + 1)) by lia; reflexivity).
    rewrite Et. change (0 <? 0) with false. cbn [bind]. change (Nat.testbit 0 (0 + 1)) with false. cbn [negb andb].
    rewrite (proj2 (Nat.ltb_lt 0 (h - 1))) by lia.
    rewrite (proj2 (get_ok _ _ _ _) (nth_error_nth' (b_auth st) [] (n := 0) ltac:(lia))). cbn [bind].
    assert (Hk0 : 0 / 2 < length (b_keep st)).
    { rewrite Lk. change (0 / 2) with 0. apply Nat.div_str_pos. lia. }
    rewrite set_ok by exact Hk0. change (0 / 2) with 0 in *. cbn [bind]. change (0 =? 0) with true. cbv iota.
    destruct (gen_leaf_wots_spec hf ssd p ps (setLtreeADRS (copy_layer_tree addr 1) (N.of_nat 0)) (setOTSADRS (copy_layer_tree addr 0) (N.of_nat 0)) 0)
      as (la' & oa' & El & _ & _); [eapply lt_adrs_set; eauto|eapply ots_adrs_set; eauto|exact Hw|exact Hlen|].
    rewrite El. cbn [bind]. rewrite set_ok by lia. cbn [bind].
    set (st1 := mkBDS _ _ _ _ _ _ _).
    assert (HT1 : th_ok hf ssd ps p m 0 (fun _ => 0) P st1).
    { destruct HT. constructor; auto. }
    assert (Hid : forall n, bds_treehash_update hf n st1 ssd p ps addr = Ok st1).
    { intros [|n]; [reflexivity|]. cbn [bds_treehash_update].
      destruct (choose_spec hf ssd ps p m q Hmq Hq Hh Hk Hw Hlen 0 _ _ _ HT1) as [(E & _)|(pk & lmin & _ & _ & Hr & _)]; [|lia].
      rewrite E. cbn [bind]. rewrite Hh, Hk. replace (m + 2 - 2) with m by lia. now rewrite Nat.eqb_refl. }
    cbn [bind]. apply Hid.
  Qed.
End Weak.

(** ** Signing with an arbitrary traversal state *)
Section Any.
  Variables (c : key_cfg) (wp : nat * nat * nat).
  Hypothesis HC : cfg_ok c wp.
  Local Notation p := (c_params c).
  Local Notation hf := (c_hf c).
  Local Notation H := (c_height c).
  Local Notation ssd := (key_seed (c_seed c)).
  Local Notation prf := (key_prf (c_seed c)).
  Local Notation ps := (key_pub (c_seed c)).
  Local Notation root := (ref_root hf wp H (c_seed c)).
  Local Notation w := (2 ^ fst (fst wp)).
  Local Notation len := (snd (fst wp) + snd wp).

  (** Index, randomiser and one-time signature. *)
  Definition front (i : nat) (msg : list N) : list N :=
    to_byte 4 (N.of_nat i) ++ randomizer hf prf i ++
    concat (ots_sig hf len ssd ps i
      (msg_digits (fst (fst wp)) (snd (fst wp)) (snd wp) (digest hf (randomizer hf prf i) root i msg))).

  Lemma front_length : forall i msg, length (front i msg) = 36 + 32 * len.
  Proof.
    intros. unfold front. rewrite !app_length, to_byte_length. unfold randomizer, PRF. rewrite keyed_length.
    rewrite (concat_cells_length _ 32) by apply ots_sig_cells. rewrite ots_sig_length. lia.
  Qed.
  Lemma c_sig_front : forall i msg, c_sig c wp i msg = front i msg ++ concat (auth_path hf w len ssd ps H i).
  Proof. intros. unfold c_sig, ref_sig, signature, front. now rewrite <- !app_assoc. Qed.

  Lemma sign_any : forall i msg st, (i < 2 ^ N.of_nat H)%N -> exists a2, root_adrs a2 /\
    step (mkXF (c_obj c wp i) st) (OpSign msg) =
      (st' <- (if (i <? 2 ^ N.of_nat H - 1)%N then bds_step hf p ssd ps a2 (N.to_nat i) st else Ok st) ;;
       Ok (mkXF (c_obj c wp (i + 1)) st', ObsSig (front (N.to_nat i) msg ++ concat (firstn H (b_auth st))))).
  Proof.
    intros i msg st Hlt. pose proof (cfg_wots c wp HC) as HP.
    cbn [step]. unfold xfast_sign.
    assert (EI : getIndex (xf_base (mkXF (c_obj c wp i) st)) = i).
    { unfold getIndex. cbn [xf_base c_obj xb_sk]. rewrite (sk_index c wp HC) by lia. unfold u32. apply N.mod_small.
      pose proof (pow_H_bound c wp HC). change (2 ^ 32)%N with 4294967296%N. change (2 ^ 30)%N with 1073741824%N in *. lia. }
    rewrite EI.
    assert (ES : xfast_setIndex (mkXF (c_obj c wp i) st) i = Ok (mkXF (c_obj c wp i) st, inr i)).
    { unfold xfast_setIndex. cbn [xf_base xf_state c_obj xb_hash xb_params xb_sk]. unfold with_hash. rewrite (co_hash _ _ HC).
      unfold xmssfast_update. rewrite (sk_index c wp HC) by lia. change (x_h p) with H.
      rewrite (proj2 (N.leb_gt _ _) Hlt), N.ltb_irrefl, Nat.sub_diag. cbn [for_from bind].
      destruct (sk_parts c wp HC i) as (_ & _ & _ & _ & P5). rewrite P5. reflexivity. }
    rewrite ES. cbn [bind]. cbn [xf_base xf_state c_obj xb_hash xb_params xb_sk]. unfold with_hash. rewrite (co_hash _ _ HC).
    unfold xmssfast_Signmsg. rewrite (sk_index c wp HC) by lia. change (x_h p) with H.
    destruct (sk_parts c wp HC i) as (P1 & P2 & P3 & P4 & P5). rewrite P1, P2, P3, P4, P5.
    set (idx := N.to_nat i). assert (Ei : i = N.of_nat idx) by (unfold idx; now rewrite N2Nat.id). rewrite Ei.
    assert (ER : HashAddress.prf hf (to_byte 32 (N.of_nat idx)) prf = randomizer hf prf idx) by apply prf_PRF.
    rewrite ER. set (R := randomizer hf prf idx).
    assert (Ed : h_msg hf msg (R ++ root ++ to_byte 32 (N.of_nat idx)) = digest hf R root idx msg).
    { unfold h_msg, digest. now rewrite core_hash_keyed. }
    rewrite Ed. set (dg := digest hf R root idx msg).
    destruct (digits_of_ok (x_wots p) dg HP) as (D1 & D2 & D3). { apply keyed_length. }
    destruct (get_seed_spec hf ssd _ idx (ots_adrs_init idx)) as (a1 & G1 & A1). rewrite G1.
    destruct (wots_sign_spec hf (x_wots p) dg (ots_seed hf ssd idx) ps a1 idx ssd (digits_of (x_wots p) dg) A1 eq_refl D1 D2 D3)
      as (a2 & G2 & A2).
    exists a2. split; [apply A2|]. rewrite G2. cbn [bind].
    destruct (N.of_nat idx <? 2 ^ N.of_nat H - 1)%N; [destruct (bds_step hf p ssd ps a2 idx st) as [st'|e|]|]; cbn [bind]; try reflexivity;
      destruct (wparams_ok _ _ (co_w _ _ HC)) as (_ & _ & E1 & E2 & _ & _ & _ & _ & E7); cbn [c_params x_wots] in *;
      unfold front; fold R; fold dg; rewrite <- (digits_of_msg _ _ _ (co_w _ _ HC)) by apply keyed_length;
      rewrite E7; rewrite <- !app_assoc; reflexivity.
  Qed.

  (** A setIndex call that does not advance leaves the traversal state alone. *)
  Lemma setIndex_any : forall i j st, (i <= 2 ^ N.of_nat H)%N -> ~ (i < j < 2 ^ N.of_nat H)%N ->
    step (mkXF (c_obj c wp i) st) (OpSetIndex j) =
      Ok (mkXF (c_obj c wp (fst (ref_step H (c_sig c wp) i (OpSetIndex j)))) st, snd (ref_step H (c_sig c wp) i (OpSetIndex j))).
  Proof.
    intros i j st Hi Hn. cbn [step ref_step]. unfold xfast_setIndex.
    cbn [xf_base xf_state c_obj xb_hash xb_params xb_sk]. unfold with_hash. rewrite (co_hash _ _ HC).
    unfold xmssfast_update. rewrite (sk_index c wp HC) by lia. change (x_h p) with H.
    destruct (2 ^ N.of_nat H <=? j)%N eqn:E1.
    { apply N.leb_le in E1. rewrite (proj2 (N.ltb_ge _ _) E1). reflexivity. }
    apply N.leb_gt in E1. rewrite (proj2 (N.ltb_lt _ _) E1). cbn [andb].
    destruct (j <? i)%N eqn:E2.
    { apply N.ltb_lt in E2. rewrite (proj2 (N.leb_gt _ _) E2). reflexivity. }
    apply N.ltb_ge in E2. rewrite (proj2 (N.leb_le _ _) E2). assert (j = i) by lia. subst j.
    rewrite Nat.sub_diag. cbn [for_from bind fst snd].
    destruct (sk_parts c wp HC i) as (_ & _ & _ & _ & P5). rewrite P5. reflexivity.
  Qed.
  Lemma sign_spent : forall msg st, step (mkXF (c_obj c wp (2 ^ N.of_nat H)) st) (OpSign msg) =
    Ok (mkXF (c_obj c wp (2 ^ N.of_nat H)) st, ObsExn InvalidArgument).
  Proof.
    intros msg st. cbn [step]. unfold xfast_sign.
    assert (EI : getIndex (xf_base (mkXF (c_obj c wp (2 ^ N.of_nat H)) st)) = (2 ^ N.of_nat H)%N).
    { unfold getIndex. cbn [xf_base c_obj xb_sk]. rewrite (sk_index c wp HC) by lia. unfold u32. apply N.mod_small.
      pose proof (pow_H_bound c wp HC). change (2 ^ 32)%N with 4294967296%N. change (2 ^ 30)%N with 1073741824%N in *. lia. }
    rewrite EI. unfold xfast_setIndex. cbn [xf_base xf_state c_obj xb_hash xb_params xb_sk]. unfold with_hash. rewrite (co_hash _ _ HC).
    unfold xmssfast_update. rewrite (sk_index c wp HC) by lia. change (x_h p) with H. rewrite N.leb_refl. reflexivity.
  Qed.

  (** The constructor leaves every treehash instance idle. *)
  Lemma initialize_tree_full : forall junk,
    exists o, initialize_tree junk (c_seed c) (N.of_nat H) (c_hash c) (c_fmt c) (c_w c) = Ok o /\ fast_inv c wp 0 o /\
      th_ok hf ssd ps p (H - 2) 0 (fun _ => 0) (fun _ => []) (xf_state o).
  Proof.
    intros junk. pose proof (co_h _ _ HC) as Hb. destruct (cfg_mq c wp HC) as (M1 & M2 & M3 & M4).
    unfold initialize_tree. rewrite (cfg_height_ok c wp HC), Nat2N.id, (cfg_set_params c wp HC). cbn [bind].
    rewrite (proj2 (N.leb_gt _ _)) by lia. unfold with_hash. rewrite (co_hash _ _ HC).
    unfold xmssfast_Genkeypair. rewrite (firstn_all2 (n := 48)) by (rewrite (co_seed _ _ HC); lia).
    change (shake256 96 (c_seed c)) with (key_stream (c_seed c)).
    change (slice 0 32 (key_stream (c_seed c))) with ssd. change (slice 64 32 (key_stream (c_seed c))) with ps.
    destruct (wots_ok_facts _ (cfg_wots c wp HC)) as (Hw & _ & _ & Hlen & _).
    destruct (treehash_setup_full hf ssd ps p (H - 2) ((H - 2) / 2) M1 M2 M3 eq_refl Hw Hlen junk (fresh_bds (x_h p) (x_k p)) zero_adrs)
      as (st & E & HB & HT); cbn [fresh_bds b_stackoffset b_stack b_stacklevels b_auth b_keep b_treehash b_retain];
      rewrite ?repeat_length; cbn [c_params x_h x_k]; try (rewrite M4; reflexivity); try reflexivity.
    { repeat split. }
    change (x_h p) with H. change (x_k p) with 2. cbn [x_h x_k c_params] in E. rewrite E. cbn [bind].
    eexists. split; [reflexivity|]. split; [|exact HT]. split; [|split; [lia|]].
    - cbn [xf_base]. unfold c_obj. f_equal. unfold c_sk, ref_sk. rewrite key_stream_split, <- !app_assoc.
      change (to_byte 4 0) with [0;0;0;0]%N. rewrite (cfg_root c wp HC), M4. reflexivity.
    - intros _. exact HB.
  Qed.
End Any.
