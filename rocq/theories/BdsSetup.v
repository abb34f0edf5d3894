(** treehash_setup (algsxmss_fast.c:104-182) establishes the traversal invariant. *)
From Coq Require Import List NArith Arith Lia Bool.
From Verif Require Import Base Bytes Keccak HashAddress Wots XmssCommon AlgsXmss AlgsXmssFast
  SpecXmss XmssRefine WotsProofs TreeProofs BasicProofs BdsSched BdsProofs.
Import ListNotations.
Open Scope nat_scope.

(* node with [k] * 2^l' leaves up to its end has been completed when [n] leaves
   are processed and the top of the stack is at level [l] *)
Definition done (n l l' k : nat) : Prop := k * 2 ^ l' < n \/ (k * 2 ^ l' = n /\ l' < l).

Lemma done_S : forall n l l' k, done n (S l) l' k -> done n l l' k \/ (l' = l /\ k * 2 ^ l = n).
Proof.
  unfold done. intros n l l' k [H|[H1 H2]]; [left; auto|].
  destruct (Nat.eq_dec l' l) as [->|]; [now right|left; right; lia].
Qed.
Lemma done_exit : forall n l x l' k, n = (2 * x + 1) * 2 ^ l -> Nat.even k = true ->
  k * 2 ^ l' <= n -> done n l l' k.
Proof.
  intros n l x l' k E He H. unfold done. destruct (Nat.eq_dec (k * 2 ^ l') n) as [E1|]; [|lia]. right. split; auto.
  destruct (Nat.lt_ge_cases l' l) as [|Hg]; auto. exfalso.
  apply Nat.even_spec in He. destruct He as [y ->].
  rewrite (pow2_split l l') in E1 by lia. rewrite E in E1.
  assert (E2 : 2 * (y * 2 ^ (l' - l)) * 2 ^ l = (2 * x + 1) * 2 ^ l) by (rewrite <- E1; ring).
  pose proof (pow2_pos l). apply Nat.mul_cancel_r in E2; lia.
Qed.
Lemma done_start : forall n l' k, 1 < k -> done (S n) 0 l' k -> k * 2 ^ l' <= n.
Proof. unfold done. intros n l' k Hk [H|[_ H]]; lia. Qed.

Section Setup.
  Variables (hf : hashfn) (ssd ps : list N) (p : xmss_params).
  Variables (m q : nat).
  Hypothesis Hmq : m = 2 * q.
  Hypothesis Hq : 1 <= q.
  Hypothesis Hh : x_h p = m + 2.
  Hypothesis Hk : x_k p = 2.
  Hypothesis Hw : (1 <= w_w (x_wots p))%N.
  Hypothesis Hlen : 1 <= w_len (x_wots p).
  Local Notation h := (m + 2).
  Local Notation nd := (tnode hf ssd ps p).
  Local Notation rep := (stack_rep hf ssd ps p).

  Definition idle_th (i : nat) (t : treehash_inst) : Prop :=
    th_h t = i /\ th_stackusage t = 0 /\ th_completed t = true.

  Record aux_ok (G : nat -> nat -> Prop) (auth : list (list N)) (ths : list treehash_inst) (retain : list (list N)) : Prop := {
    ax_la : length auth = h;
    ax_lt : length ths = m;
    ax_lr : length retain = 1;
    ax_a : forall l, l < h -> G l 2 -> nth_error auth l = Some (nd l 1);
    ax_t : forall l, l < m -> exists t, nth_error ths l = Some t /\ idle_th l t /\ (G l 4 -> th_node t = nd l 3);
    ax_r : G m 4 -> nth_error retain 0 = Some (nd m 3) }.

  Lemma aux_weaken : forall (G G' : nat -> nat -> Prop) a t r, aux_ok G a t r ->
    (forall l, l < h -> G' l 2 -> G l 2) -> (forall l, l <= m -> G' l 4 -> G l 4) -> aux_ok G' a t r.
  Proof.
    intros G G' a t r [A1 A2 A3 A4 A5 A6] H2 H4. constructor; auto.
    - intros l Hl. destruct (A5 l Hl) as (th & E & I & N0). exists th. split; auto. split; auto. intros HG. apply N0. apply H4; auto. lia.
  Qed.

  Lemma setup_while_spec : forall fuel idx st l i stack levels off a auth ths retain,
    nd_adrs a -> rep ((l, i) :: st) stack levels off -> covers 0 st (i * 2 ^ l) ->
    idx + 1 = (i + 1) * 2 ^ l -> idx + 1 <= 2 ^ h ->
    (forall l' i' r', st = (l', i') :: r' -> l <= l') -> length st < fuel ->
    aux_ok (done (idx + 1) l) auth ths retain ->
    exists st' stack' levels' off' a' auth' ths' retain',
      setup_while hf fuel h 2 idx ps stack levels off a auth ths retain
        = Ok (stack', levels', off', a', auth', ths', retain') /\
      nd_adrs a' /\ rep st' stack' levels' off' /\ covers 0 st' (idx + 1) /\
      length stack' = length stack /\ length levels' = length levels /\
      aux_ok (fun l' k => k * 2 ^ l' <= idx + 1) auth' ths' retain'.
  Proof.
    induction fuel; intros idx st l i stack levels off a auth ths retain Ha Hr Hc Hn Hmax Hle Hf Hax; [lia|].
    cbn [setup_while].
    assert (P : 2 ^ l <> 0) by (apply Nat.pow_nonzero; lia).
    destruct st as [|[l' i'] st].
    - assert (off = 1) by (apply (sr_off _ _ _ _ _ _ _ _ Hr)). subst off. cbn [Nat.leb].
      inversion Hc. assert (Hi0 : i = 0) by nia. subst i.
      exists [(l, 0)], stack, levels, 1, a, auth, ths, retain.
      repeat (split; [solve [auto]|]). split.
      { rewrite Hn. constructor; auto. intros; discriminate. }
      repeat (split; [reflexivity|]).
      eapply aux_weaken; [exact Hax| |]; intros l2 _ HG; (eapply (done_exit _ _ 0); [rewrite Hn; reflexivity|reflexivity|exact HG]).
    - destruct (stack_rep_top2 _ _ _ _ _ _ _ _ _ _ Hr) as (O2 & G1 & G2 & G3 & G4 & Hr' & L1 & L2).
      rewrite (proj2 (Nat.leb_gt _ _)) by lia.
      rewrite G3, G4. cbn [bind lvl fst].
      specialize (Hle l' i' st eq_refl) as Hll.
      inversion Hc as [|? ? ? Hc' Hev Hdec E1 E2]; subst l0 i0 rest.
      destruct (l =? l') eqn:El; cbn [negb].
      + apply Nat.eqb_eq in El. subst l'.
        assert (i = i' + 1) by nia. subst i.
        assert (Ei : exists m, i' = 2 * m) by (apply Nat.even_spec in Hev; exact Hev).
        destruct Ei as [x ->].
        assert (Eidx : idx / 2 ^ (l + 1) = x).
        { rewrite Nat.add_1_r. rewrite pow2_S. symmetry.
          apply (Nat.div_unique _ _ _ (2 * 2 ^ l - 1)); [lia|]. nia. }
        assert (Eidx0 : idx / 2 ^ l = 2 * x + 1).
        { symmetry. apply (Nat.div_unique _ _ _ (2 ^ l - 1)); [lia|]. nia. }
        assert (Hlh : l <= h - 1).
        { destruct (Nat.le_gt_cases l (h - 1)) as [|Hg]; auto. exfalso.
          assert (2 ^ h <= 2 ^ l) by (apply Nat.pow_le_mono_r; lia). nia. }
        assert (Haux : exists auth' ths' retain',
          (if idx / 2 ^ l =? 1 then auth <- set auth l (val hf ssd ps p (l, 2 * x + 1)) ;; Ok (auth, ths, retain)
           else if (l <? h - 2) && (idx / 2 ^ l =? 3) then
             ths <- set_th_node ths l (val hf ssd ps p (l, 2 * x + 1)) ;; Ok (auth, ths, retain)
           else if h - 2 <=? l then
             if (h <? 1 + l) || (2 ^ (h - 1 - l) + l <? h) || (idx / 2 ^ l <? 3) then UB else
             retain <- set retain (2 ^ (h - 1 - l) + l - h + (idx / 2 ^ l - 3) / 2) (val hf ssd ps p (l, 2 * x + 1)) ;;
             Ok (auth, ths, retain)
           else Ok (auth, ths, retain)) = Ok (auth', ths', retain') /\ aux_ok (done (idx + 1) (S l)) auth' ths' retain').
        { clear Eidx. rewrite Eidx0. unfold val; cbn [fst snd]. destruct Hax as [A1 A2 A3 A4 A5 A6].
          assert (H2 : forall l', l' < h -> done (idx + 1) (S l) l' 2 -> done (idx + 1) l l' 2 \/ (l' = l /\ x = 0)).
          { intros l' Hl' HD. apply done_S in HD. destruct HD as [HD|[-> HD]]; auto. right. split; auto. nia. }
          assert (H4 : forall l', done (idx + 1) (S l) l' 4 -> done (idx + 1) l l' 4 \/ (l' = l /\ x = 1)).
          { intros l' HD. apply done_S in HD. destruct HD as [HD|[-> HD]]; auto. right. split; auto. nia. }
          destruct (Nat.eq_dec x 0) as [->|Hx0].
          - cbn [Nat.mul plus Nat.eqb]. rewrite set_ok by lia. cbn [bind]. do 3 eexists. split; [reflexivity|].
            constructor; auto.
            + now rewrite upd_length.
            + intros l2 Hl2 HD. destruct (Nat.eq_dec l2 l) as [->|].
              * now rewrite nth_error_upd_same by lia.
              * rewrite nth_error_upd_other by lia. apply A4; auto. destruct (H2 l2 Hl2 HD) as [|[-> _]]; auto; congruence.
            + intros l2 Hl2. destruct (A5 l2 Hl2) as (th & E & I & N0). exists th. split; auto. split; auto.
              intros HD. apply N0. destruct (H4 l2 HD) as [|[_ ?]]; auto; lia.
            + intros HD. apply A6. destruct (H4 m HD) as [|[_ ?]]; auto; lia.
          - rewrite (proj2 (Nat.eqb_neq (2 * x + 1) 1)) by lia.
            replace (h - 2) with m by lia.
            destruct ((l <? m) && (2 * x + 1 =? 3)) eqn:Ec.
            + apply andb_true_iff in Ec. destruct Ec as [Ec1 Ec2]. apply Nat.ltb_lt in Ec1. apply Nat.eqb_eq in Ec2.
              assert (x = 1) by lia. subst x. destruct (A5 l Ec1) as (th & E & I & N0).
              unfold set_th_node. rewrite (proj2 (get_ok _ _ _ _) E). cbn [bind]. rewrite set_ok by lia. cbn [bind].
              do 3 eexists. split; [reflexivity|]. constructor; auto.
              * now rewrite upd_length.
              * intros l2 Hl2 HD. apply A4; auto. destruct (H2 l2 Hl2 HD) as [|[_ ?]]; auto; lia.
              * intros l2 Hl2. destruct (Nat.eq_dec l2 l) as [->|].
                -- eexists. split; [apply nth_error_upd_same; lia|]. split; [exact I|]. intros _. reflexivity.
                -- destruct (A5 l2 Hl2) as (th2 & F & I2 & N2). exists th2. rewrite nth_error_upd_other by lia.
                   split; auto. split; auto. intros HD. apply N2. destruct (H4 l2 HD) as [|[? _]]; auto; congruence.
              * intros HD. apply A6. destruct (H4 m HD) as [|[? _]]; auto; lia.
            + destruct (m <=? l) eqn:Em.
              * apply Nat.leb_le in Em.
                assert (Hxl : x = 1 /\ l = m).
                { destruct (Nat.eq_dec l m) as [->|].
                  - split; auto. replace h with (S (S m)) in Hmax by lia. rewrite !pow2_S in Hmax. nia.
                  - exfalso. assert (l = S m) by lia. subst l. replace h with (S (S m)) in Hmax by lia.
                    rewrite (pow2_S (S m)) in Hmax. nia. }
                destruct Hxl as [-> ->]. replace (h - 1 - m) with 1 by lia.
                rewrite (proj2 (Nat.ltb_ge h (1 + m))) by lia. rewrite (proj2 (Nat.ltb_ge (2 ^ 1 + m) h)) by (change (2 ^ 1) with 2; lia).
                change (2 * 1 + 1 <? 3) with false. cbn [orb].
                replace (2 ^ 1 + m - h + (2 * 1 + 1 - 3) / 2) with 0
                  by (change (2 * 1 + 1 - 3) with 0; change (0 / 2) with 0; change (2 ^ 1) with 2; lia).
                rewrite set_ok by lia. cbn [bind]. do 3 eexists. split; [reflexivity|]. constructor; auto.
                -- now rewrite upd_length.
                -- intros l2 Hl2 HD. apply A4; auto. destruct (H2 l2 Hl2 HD) as [|[_ ?]]; auto; lia.
                -- intros l2 Hl2. destruct (A5 l2 Hl2) as (th & E & I & N0). exists th. split; auto. split; auto.
                   intros HD. apply N0. destruct (H4 l2 HD) as [|[? _]]; auto; lia.
                -- intros _. rewrite nth_error_upd_same by lia. reflexivity.
              * apply Nat.leb_gt in Em. do 3 eexists. split; [reflexivity|].
                rewrite (proj2 (Nat.ltb_lt _ _) Em) in Ec. cbn [andb] in Ec. apply Nat.eqb_neq in Ec.
                constructor; auto.
                -- intros l2 Hl2 HD. apply A4; auto. destruct (H2 l2 Hl2 HD) as [|[_ ?]]; auto; lia.
                -- intros l2 Hl2. destruct (A5 l2 Hl2) as (th & E & I & N0). exists th. split; auto. split; auto.
                   intros HD. apply N0. destruct (H4 l2 HD) as [|[_ ?]]; auto; lia.
                -- intros HD. apply A6. destruct (H4 m HD) as [|[? _]]; auto; lia. }
        destruct Haux as (auth' & ths' & retain' & Eaux & Hax').
        rewrite G1. cbn [bind]. rewrite Eaux. cbn [bind].
        rewrite Eidx. rewrite G2. cbn [bind].
        destruct (hash_node hf ps a l x (val hf ssd ps p (l, 2 * x)) (val hf ssd ps p (l, 2 * x + 1)) Ha) as (a1 & Eh & Ha1).
        rewrite Eh. rewrite (set_ok _ stack) by lia. cbn [bind].
        rewrite (set_ok _ levels) by lia. cbn [bind].
        change (rand_hash hf ps 2 0 l x (val hf ssd ps p (l, 2 * x)) (val hf ssd ps p (l, 2 * x + 1))) with (nd (S l) x).
        rewrite Nat.add_1_r.
        destruct (IHfuel idx st (S l) x (upd stack (off - 2) (nd (S l) x))
                    (upd levels (off - 2) (S l)) (off - 1) a1 auth' ths' retain' Ha1)
          as (st' & s' & lv' & o' & a' & au' & th' & re' & E & R1 & R2 & R3 & R4 & R5 & R6).
        * replace (off - 1) with (S (off - 2)) by lia. apply stack_rep_push; auto.
        * replace (x * 2 ^ S l) with (2 * x * 2 ^ l) by (rewrite pow2_S; nia). exact Hc'.
        * rewrite pow2_S. nia.
        * exact Hmax.
        * intros l'' i'' r'' ->. specialize (Hdec l'' i'' r'' eq_refl). lia.
        * cbn in Hf. lia.
        * exact Hax'.
        * rewrite E. exists st', s', lv', o', a', au', th', re'. rewrite upd_length in R4, R5. split; [reflexivity|tauto].
      + apply Nat.eqb_neq in El.
        assert (Hevi : exists y, i = 2 * y).
        { assert (Hi : i * 2 ^ l = (i' + 1) * 2 ^ l') by nia.
          replace l' with (S (l' - l - 1) + l) in Hi by lia.
          rewrite Nat.pow_add_r in Hi. cbn [Nat.pow] in Hi.
          exists ((i' + 1) * 2 ^ (l' - l - 1)). nia. }
        destruct Hevi as [y ->].
        exists ((l, 2 * y) :: (l', i') :: st), stack, levels, off, a, auth, ths, retain.
        repeat (split; [solve [auto]|]). split.
        { rewrite Hn. constructor; auto.
          * apply Nat.even_spec. now exists y.
          * intros l0 i0 r0 E. injection E as <- <- <-. lia. }
        repeat (split; [reflexivity|]).
        eapply aux_weaken; [exact Hax| |]; intros l2 _ HG; (eapply (done_exit _ _ y); [rewrite Hn; reflexivity|reflexivity|exact HG]).
  Qed.

  (** With the remark that every treehash instance is idle afterwards. *)
  Theorem treehash_setup_full : forall junk st addr, root_adrs addr ->
    b_stackoffset st = 0 -> length (b_stack st) = h + 1 -> length (b_stacklevels st) = h + 1 ->
    length (b_auth st) = h -> length (b_keep st) = h / 2 -> length (b_treehash st) = m -> length (b_retain st) = 1 ->
    exists st', treehash_setup hf junk st ssd p ps addr = Ok (nd h 0, st') /\ bds_ok hf ssd ps p m q 0 st' /\
      th_ok hf ssd ps p m 0 (fun _ => 0) (fun _ => []) st'.
  Proof.
    intros junk st addr R S0 S1 S2 S3 S4 S5 S6. unfold treehash_setup. rewrite Hh, Hk.
    destruct (copy_adrs addr R) as (Ho & Hl & Hn). replace (h - 2) with m by lia.
    match goal with |- context [for_up m ?f ?s0] =>
      destruct (for_up_inv _ (fun n ths => length ths = m /\
        forall l, l < n -> exists t, nth_error ths l = Some t /\ idle_th l t) f m s0) as (ths & Et & Lt & Ht) end.
    { split; auto. intros; lia. }
    { intros i ths Hi (Lt & Ht). destruct (get_in_range _ ths i ltac:(lia)) as (t & Eg). rewrite Eg. cbn [bind].
      rewrite set_ok by lia. eexists. split; [reflexivity|]. split; [now rewrite upd_length|].
      intros l Hl2. destruct (Nat.eq_dec l i) as [->|].
      - eexists. split; [apply nth_error_upd_same; lia|]. repeat split.
      - rewrite nth_error_upd_other by lia. apply Ht. lia. }
    rewrite Et. cbn [bind]. clear Et.
    match goal with |- (bind (for_up _ ?f ?s0) _) = _ /\ _ => idtac | |- exists st', bind (for_up ?nn ?f ?s0) _ = _ /\ _ =>
      destruct (for_up_inv _ (fun idx '(stack, levels, off, oa, la, na, auth, ths, retain) =>
        (exists st, rep st stack levels off /\ covers 0 st idx) /\
        (exists o, ots_adrs oa o) /\ (exists o, lt_adrs la o) /\ nd_adrs na /\
        length stack = h + 1 /\ length levels = h + 1 /\
        aux_ok (fun l' k => k * 2 ^ l' <= idx) auth ths retain) f nn s0) as (s' & E & HI) end.
    - split. { exists []. split; [constructor; auto|constructor]. }
      split; [eauto|]. split; [eauto|]. split; [exact Hn|]. split; [apply repeat_length|]. split; [apply repeat_length|].
      constructor; auto.
      + intros l _ HG. pose proof (pow2_pos l). lia.
      + intros l Hl2. destruct (Ht l Hl2) as (t & E & I). exists t. split; auto. split; auto. intros HG. pose proof (pow2_pos l). lia.
      + intros HG. pose proof (pow2_pos m). lia.
    - intros idx [[[[[[[[stack levels] off] oa] la] na] auth] ths1] retain] Hidx
        ((sl & Hr & Hc) & (o1 & Ho1) & (o2 & Ho2) & Hna & L1 & L2 & Hax).
      destruct (gen_leaf_wots_spec hf ssd p ps (setLtreeADRS la (N.of_nat idx)) (setOTSADRS oa (N.of_nat idx)) idx)
        as (la' & oa' & E & Hla & Hoa); auto.
      { eapply lt_adrs_set; eauto. } { eapply ots_adrs_set; eauto. }
      rewrite E. cbn [bind].
      assert (HB : forall l i, In (l, i) sl -> l < h).
      { intros l i Hin. pose proof (covers_levels _ _ _ Hc l i Hin).
        destruct (Nat.lt_ge_cases l h); auto.
        assert (2 ^ h <= 2 ^ l) by (apply Nat.pow_le_mono_r; lia). lia. }
      assert (Hoff : off < h + 1).
      { rewrite (sr_off _ _ _ _ _ _ _ _ Hr).
        pose proof (covers_length _ _ _ Hc h HB) as HLn. destruct sl as [|[l i] sl]; cbn in *; lia. }
      rewrite (set_ok _ stack) by lia. cbn [bind]. rewrite (set_ok _ levels) by lia. cbn [bind].
      set (stack1 := upd stack off _).
      assert (Hth : exists ths2, (if (0 <? m) && (idx =? 3) then c <- get stack1 (S off) ;; set_th_node ths1 0 c else Ok ths1) = Ok ths2
                 /\ aux_ok (done (idx + 1) 0) auth ths2 retain).
      { assert (Hax0 : aux_ok (done (idx + 1) 0) auth ths1 retain).
        { eapply aux_weaken; [exact Hax| |]; intros l _ HD; rewrite Nat.add_1_r in HD; cbv beta; apply done_start in HD; lia. }
        destruct ((0 <? m) && (idx =? 3)) eqn:Ec.
        - apply andb_true_iff in Ec. destruct Ec as [Ec1 Ec2]. apply Nat.ltb_lt in Ec1. apply Nat.eqb_eq in Ec2.
          assert (Ho3 : S off < length stack1).
          { unfold stack1. rewrite upd_length, L1. rewrite (sr_off _ _ _ _ _ _ _ _ Hr).
            pose proof (covers_length _ _ _ Hc 2) as HLn. subst idx.
            assert (HB2 : forall l i, In (l, i) sl -> l < 2).
            { intros l i Hin. pose proof (covers_levels _ _ _ Hc l i Hin).
              destruct (Nat.lt_ge_cases l 2); auto. assert (2 ^ 2 <= 2 ^ l) by (apply Nat.pow_le_mono_r; lia). cbn in *. lia. }
            specialize (HLn HB2). destruct sl as [|[l i] sl]; cbn [length] in *; lia. }
          destruct (get_in_range _ stack1 (S off) Ho3) as (c & Ecg). rewrite Ecg. cbn [bind].
          destruct Hax0 as [A1 A2 A3 A4 A5 A6]. destruct (A5 0 Ec1) as (t & Eg & I & N0).
          unfold set_th_node. rewrite (proj2 (get_ok _ _ _ _) Eg). cbn [bind]. rewrite set_ok by lia.
          eexists. split; [reflexivity|]. constructor; auto.
          + now rewrite upd_length.
          + intros l Hl2. destruct (Nat.eq_dec l 0) as [->|].
            * eexists. split; [apply nth_error_upd_same; lia|]. split; [exact I|].
              intros [HD|[_ HD]]; [subst idx; cbn in HD; lia|lia].
            * rewrite nth_error_upd_other by lia. apply A5; auto.
        - eexists. split; [reflexivity|]. exact Hax0. }
      destruct Hth as (ths2 & Eth & Hax2). rewrite Eth. cbn [bind].
      destruct (setup_while_spec (S off) idx sl 0 idx stack1 (upd levels off 0) (S off) na auth ths2 retain Hna)
        as (st' & s' & lv' & o' & a' & au' & th' & re' & E' & R1 & R2 & R3 & R4 & R5 & R6).
      + unfold stack1. apply (stack_rep_push hf ssd ps p sl stack levels off 0 idx Hr); lia.
      + rewrite Nat.pow_0_r, Nat.mul_1_r. exact Hc.
      + cbn. lia. + lia. + intros; lia. + rewrite <- (sr_off _ _ _ _ _ _ _ _ Hr). lia.
      + exact Hax2.
      + rewrite E'. cbn [bind]. eexists. split; [reflexivity|]. rewrite <- Nat.add_1_r.
        unfold stack1 in R4. rewrite upd_length in R4, R5.
        split; [eauto|]. split; [eauto|]. split; [eauto|]. split; [exact R1|]. split; [lia|]. split; [lia|]. exact R6.
    - destruct s' as [[[[[[[[stack levels] off] oa] la] na] auth] ths1] retain].
      destruct HI as ((sl & Hr & Hc) & _ & _ & _ & _ & _ & Hax). rewrite E. cbn [bind].
      assert (sl = [(h, 0)]).
      { inversion Hc as [E0|l i rest Hc' Hev Hdec E1 E2].
        - pose proof (pow2_pos h). lia.
        - assert (Hi : i = 0 /\ l = h).
          { destruct (Nat.lt_trichotomy l h) as [Hlt|[->|Hgt]].
            - rewrite (pow2_split (S l) h) in E2 by lia. rewrite pow2_S in E2. pose proof (pow2_pos l).
              apply Nat.even_spec in Hev. destruct Hev as [x ->].
              assert (2 * x + 1 = 2 * 2 ^ (h - S l)) by nia. lia.
            - pose proof (pow2_pos h). nia.
            - rewrite (pow2_split (S h) l) in E2 by lia. rewrite pow2_S in E2. pose proof (pow2_pos h).
              pose proof (pow2_pos (l - S h)). nia. }
          destruct Hi as [-> ->]. cbn [Nat.mul] in Hc'. inversion Hc' as [|l2 i2 r2 Hc2 _ _ E3 E4]; auto.
          pose proof (pow2_pos l2). nia. }
      subst sl. pose proof (sr_off _ _ _ _ _ _ _ _ Hr) as Eo. cbn in Eo. subst off.
      pose proof (sr_stack _ _ _ _ _ _ _ _ Hr) as Es. cbn in Es. destruct stack; [discriminate|].
      cbn in Es. injection Es as ->. cbn [get nth_error bind].
      unfold val. cbn [fst snd]. eexists. split; [reflexivity|].
      destruct Hax as [A1 A2 A3 A4 A5 A6].
      assert (HT0 : th_ok hf ssd ps p m 0 (fun _ => 0) (fun _ => [])
                      (mkBDS (b_stack st) (b_stackoffset st) (b_stacklevels st) auth (b_keep st) ths1 retain)).
      { constructor; cbn [b_treehash b_stack b_stackoffset b_stacklevels]; auto.
        * intros i Hi. destruct (A5 i Hi) as (t & Et & (I1 & I2 & I3) & N0). exists t. split; auto.
          split; auto. split; [pose proof (pow2_pos i); lia|]. split; [|intro; lia].
          intros _. split; auto. split; auto. intros _. unfold Jt.
          rewrite Nat.div_0_l by (pose proof (pow2_pos (S i)); lia). apply N0.
          change 4 with (2 ^ 2). rewrite <- Nat.pow_add_r. apply Nat.pow_le_mono_r; lia.
        * constructor; [constructor| |]; intros; contradiction.
        * rewrite stk_from_nil by auto. rewrite S0. constructor; reflexivity.
        * intros i _ Hr0. lia. }
      split; [|exact HT0].
      constructor; cbn [b_auth b_keep b_retain]; auto.
      + intros i Hi. rewrite A4; auto.
        * rewrite Nat.div_0_l by (pose proof (pow2_pos i); lia). reflexivity.
        * rewrite <- pow2_S. apply Nat.pow_le_mono_r; lia.
      + intros i Hi Hodd. rewrite Nat.div_0_l in Hodd by (pose proof (pow2_pos i); lia). discriminate.
      + apply A6. change 4 with (2 ^ 2). rewrite <- Nat.pow_add_r. apply Nat.pow_le_mono_r; lia.
      + exists (fun _ => 0), (fun _ => []). split; [exact HT0|apply (sched_init m q Hmq)].
  Qed.

  Corollary treehash_setup_spec : forall junk st addr, root_adrs addr ->
    b_stackoffset st = 0 -> length (b_stack st) = h + 1 -> length (b_stacklevels st) = h + 1 ->
    length (b_auth st) = h -> length (b_keep st) = h / 2 -> length (b_treehash st) = m -> length (b_retain st) = 1 ->
    exists st', treehash_setup hf junk st ssd p ps addr = Ok (nd h 0, st') /\ bds_ok hf ssd ps p m q 0 st'.
  Proof.
    intros junk st addr R S0 S1 S2 S3 S4 S5 S6.
    destruct (treehash_setup_full junk st addr R S0 S1 S2 S3 S4 S5 S6) as (st' & E & HB & _). eauto.
  Qed.
End Setup.
