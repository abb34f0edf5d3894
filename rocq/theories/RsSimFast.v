(** Simulation of algsxmss_fast.rs (RsFast.v) by the C++ model (AlgsXmssFast.v). *)
From Coq Require Import List NArith Arith Lia Bool.
From Verif Require Import Base Bytes Keccak KeccakLemmas Sha256 HashAddress Wots XmssCommon AlgsXmss AlgsXmssFast XmssRefine WotsProofs TreeProofs
  RsBase RsKeccak RsShake RsHash RsSim RsWots RsSimWots RsAlgs DescrProofs SpecRust RsSimTree RsSimAlgs RsFast.
Import ListNotations.
Open Scope nat_scope.

Definition flat_bds (st : bds_state) : rs_bds :=
  mkRB (concat (b_stack st)) (b_stackoffset st) (b_stacklevels st) (concat (b_auth st)) (concat (b_keep st)) (b_treehash st) (concat (b_retain st)).
Definition thok (ths : list treehash_inst) : Prop := Forall (fun t => length (th_node t) = 32) ths.
(** All buffers consist of 32-byte cells. *)
Definition bds_cells (st : bds_state) : Prop :=
  cellsok (b_stack st) /\ cellsok (b_auth st) /\ cellsok (b_keep st) /\ cellsok (b_retain st) /\ thok (b_treehash st) /\
  length (b_stacklevels st) <= 255.

Lemma thok_get : forall ths i t, thok ths -> get ths i = Ok t -> length (th_node t) = 32.
Proof. intros ths i t H G. apply get_ok in G. apply nth_error_In in G. unfold thok in H. rewrite Forall_forall in H. auto. Qed.
Lemma thok_set : forall ths ths' i t, thok ths -> length (th_node t) = 32 -> set ths i t = Ok ths' -> thok ths'.
Proof.
  intros ths ths' i t H L S. apply set_split in S. destruct S as [_ ->]. unfold thok in *.
  revert i. induction H; intros [|i]; cbn [upd]; constructor; auto.
Qed.
Lemma cellsok_set : forall l l' i c, cellsok l -> length c = 32 -> set l i c = Ok l' -> cellsok l'.
Proof. intros l l' i c H L S. apply set_split in S. destruct S as [_ ->]. now apply cellsok_upd. Qed.

Lemma rs_put_cell : forall l l' i j c, cellsok l -> length c = 32 -> set l i c = Ok l' -> j = i * 32 -> rs_put (concat l) j c = ROk (concat l').
Proof.
  intros l l' i j c H L S ->. pose proof (set_split _ _ _ _ _ S) as [S1 _]. pose proof (flat_length l H).
  unfold rs_put. rewrite (proj2 (Nat.leb_le _ _)) by lia. now apply rwith_copy_cell.
Qed.
Lemma rcopy_node : forall (n c : list N), length n = 32 -> length c = 32 -> rwith 0 32 n (fun d => rcopy c d) = ROk c.
Proof.
  intros n c L1 L2. rewrite (rwith_ok _ 0 32 n _ c); [|lia|lia|apply rcopy_ok; rewrite firstn_length; change (skipn 0 n) with n; lia].
  change (firstn 0 n) with (@nil N). rewrite (skipn_all2 n) by lia. now rewrite app_nil_r.
Qed.
Lemma rs_put_node_eq : forall ths ths' i c, thok ths -> length c = 32 -> set_th_node ths i c = Ok ths' ->
  rs_put_node ths i c = ROk ths' /\ thok ths'.
Proof.
  intros ths ths' i c H L S. unfold set_th_node in S. apply bind_ok in S. destruct S as (t & G & S).
  unfold rs_put_node. rewrite (rget_get _ _ _ _ G). cbn [rbind]. unfold rs_put. pose proof (thok_get _ _ _ H G) as Lt.
  rewrite Lt. change (0 + 32 <=? 32) with true. cbv iota. change (0 + 32) with 32. rewrite rcopy_node by auto. cbn [rbind].
  rewrite (rset_set _ _ _ _ _ S). split; [reflexivity|]. apply (thok_set _ _ _ _ H) in S; auto.
Qed.

(** ** Choosing an instance *)
Lemma rs_minheight_eq : forall st p th r, treehash_minheight_on_stack st p th = Ok r -> rs_minheight (flat_bds st) p th = ROk r.
Proof.
  intros st p th r H. unfold treehash_minheight_on_stack in H. unfold rs_minheight. cbn [flat_bds rb_stackoffset rb_stacklevels].
  match type of H with for_up ?n ?f ?s0 = _ => match goal with |- context [rfor n ?g ?t0] =>
    destruct (rfor_sim _ _ (fun s t => s = t) f g n s0 t0 _ H eq_refl) as (t' & E & ->) end end; [|exact E].
  intros i s t s1 Hi -> F. destruct (b_stackoffset st <? i + 1); [discriminate|].
  apply bind_ok in F. destruct F as (l & G & F). apply Ok_inj' in F. subst s1. rewrite (rget_get _ _ _ _ G). cbn [rbind]. eexists. split; reflexivity.
Qed.
Lemma rs_bds_choose_eq : forall st p r, bds_choose st p = Ok r -> rs_bds_choose (flat_bds st) p = ROk r.
Proof.
  intros st p r H. unfold bds_choose in H. unfold rs_bds_choose. change (rb_treehash (flat_bds st)) with (b_treehash st).
  match type of H with for_up ?n ?f ?s0 = _ => match goal with |- context [rfor n ?g ?t0] =>
    destruct (rfor_sim _ _ (fun s t => s = t) f g n s0 t0 _ H eq_refl) as (t' & E & ->) end end; [|exact E].
  intros i s [lv lm] s1 Hi -> F. apply bind_ok in F. destruct F as (th & G & F). rewrite (rget_get _ _ _ _ G). cbn [rbind].
  apply bind_ok in F. destruct F as (low & L & F). apply Ok_inj' in F. subst s1.
  assert (RL : (if th_completed th then ROk (x_h p) else if th_stackusage th =? 0 then ROk i else rs_minheight (flat_bds st) p th) = ROk low).
  { destruct (th_completed th); [congruence|]. destruct (th_stackusage th =? 0); [congruence|]. now apply rs_minheight_eq. }
  rewrite RL. cbn [rbind]. eexists. split; reflexivity.
Qed.

(** ** treehash_setup *)
Lemma rs_setup_while_eq : forall hf ps, 32 <= length ps -> forall fuel h k i stack levels off na auth ths retain stack' levels' off' na' auth' ths' retain',
  cellsok stack -> cellsok auth -> thok ths -> cellsok retain ->
  setup_while hf fuel h k i (firstn 32 ps) stack levels off na auth ths retain = Ok (stack', levels', off', na', auth', ths', retain') ->
  rs_setup_while hf fuel h k i ps (concat stack) levels off na (concat auth) ths (concat retain) =
    ROk (concat stack', levels', off', na', concat auth', ths', concat retain') /\
  cellsok stack' /\ cellsok auth' /\ thok ths' /\ cellsok retain'.
Proof.
  intros hf ps Hp. induction fuel; intros h k i stack levels off na auth ths retain stack' levels' off' na' auth' ths' retain' C1 C2 C3 C4 H;
  cbn [setup_while rs_setup_while] in *;
  (destruct (off <=? 1) eqn:EO; [apply Ok_inj' in H; injection H as <- <- <- <- <- <- <-; auto|]);
  apply bind_ok in H; destruct H as (l1 & G1 & H); apply bind_ok in H; destruct H as (l2 & G2 & H);
  rewrite (rget_get _ _ _ _ G1), (rget_get _ _ _ _ G2); cbn [rbind];
  (destruct (negb (l1 =? l2)); [apply Ok_inj' in H; injection H as <- <- <- <- <- <- <-; auto|]); [discriminate|].
  cpp_adrs. apply Nat.leb_gt in EO.
  apply bind_ok in H. destruct H as (top & Gt & H). rewrite (rslice_cell stack (off - 1) top) by auto. cbn [rbind].
  pose proof (cellsok_get _ _ _ C1 Gt) as Lt.
  apply bind_ok in H. destruct H as ([[auth1 ths1] retain1] & E1 & H).
  assert (X : (if i / 2 ^ l1 =? 1 then
           auth <~ rs_put (concat auth) (l1 * 32) top ;; ROk (auth, ths, concat retain)
         else if (l1 <? h - k) && (i / 2 ^ l1 =? 3) then
           ths <~ rs_put_node ths l1 top ;; ROk (concat auth, ths, concat retain)
         else if h - k <=? l1 then
           if (h <? 1 + l1) || (2 ^ (h - 1 - l1) + l1 <? h) || (i / 2 ^ l1 <? 3) then RPanic else
           retain <~ rs_put (concat retain) ((2 ^ (h - 1 - l1) + l1 - h + (i / 2 ^ l1 - 3) / 2) * 32) top ;;
           ROk (concat auth, ths, retain)
         else ROk (concat auth, ths, concat retain)) = ROk (concat auth1, ths1, concat retain1) /\ cellsok auth1 /\ thok ths1 /\ cellsok retain1).
  { destruct (i / 2 ^ l1 =? 1).
    - apply bind_ok in E1. destruct E1 as (a1 & S1 & E1). apply Ok_inj' in E1. injection E1 as <- <- <-.
      rewrite (rs_put_cell auth a1 l1 _ top C2 Lt S1 eq_refl). cbn [rbind]. repeat split; auto. now apply (cellsok_set _ _ _ _ C2 Lt S1).
    - destruct ((l1 <? h - k) && (i / 2 ^ l1 =? 3)).
      + apply bind_ok in E1. destruct E1 as (t1 & S1 & E1). apply Ok_inj' in E1. injection E1 as <- <- <-.
        destruct (rs_put_node_eq _ _ _ _ C3 Lt S1) as [RP T1]. rewrite RP. cbn [rbind]. repeat split; auto.
      + destruct (h - k <=? l1); [|apply Ok_inj' in E1; injection E1 as <- <- <-; auto].
        destruct ((h <? 1 + l1) || (2 ^ (h - 1 - l1) + l1 <? h) || (i / 2 ^ l1 <? 3)); [discriminate|].
        apply bind_ok in E1. destruct E1 as (r1 & S1 & E1). apply Ok_inj' in E1. injection E1 as <- <- <-.
        rewrite (rs_put_cell retain r1 _ _ top C4 Lt S1 eq_refl). cbn [rbind]. repeat split; auto. now apply (cellsok_set _ _ _ _ C4 Lt S1). }
  destruct X as (X & C2' & C3' & C4'). rewrite X. clear X E1. cbn [rbind].
  cbv zeta in *. apply bind_ok in H. destruct H as (a & Ga & H).
  replace (off - 1) with (S (off - 2)) in Gt by lia.
  destruct (tail_two _ _ _ _ C1 Ga Gt) as [T1 T2]. pose proof (get_lt _ _ _ _ Ga).
  rewrite rslice_cells by (auto; lia). cbn [rbind].
  set (na1 := setTreeIndex _ _) in *.
  destruct (hash_h hf (a ++ top) (firstn 32 ps) na1) as [out na2] eqn:Eh.
  apply bind_ok in H. destruct H as (stack1 & S1 & H). apply bind_ok in H. destruct H as (levels1 & S2 & H).
  destruct (rs_hash_cell hf stack stack1 (off - 2) ((off - 2) * 32) a top ps na1 out na2 (concat (skipn (off - 2) stack)) C1 Hp T1 T2 Eh S1 eq_refl) as (W & C1' & _).
  rewrite W. cbn [rbind]. rewrite (rset_set _ _ _ _ _ S2). cbn [rbind]. now apply IHfuel.
Qed.

Lemma rs_treehash_setup_eq : forall hf node st sks p ps a root st', 32 <= length node -> 32 <= length sks -> 32 <= length ps -> x_h p < 32 -> bds_cells st ->
  treehash_setup hf (repeat 0%N 32) st (firstn 32 sks) p (firstn 32 ps) a = Ok (root, st') ->
  rs_treehash_setup hf node (flat_bds st) sks p ps a = ROk (root ++ skipn 32 node, flat_bds st') /\ length root = 32 /\ bds_cells st'.
Proof.
  intros hf node st sks p ps a root st' Ln Ls Lp Hh (CS & CA & CK & CR & CT & CL) H. unfold treehash_setup in H. unfold rs_treehash_setup.
  rewrite (proj2 (Nat.leb_gt 32 (x_h p))) by lia. rewrite flat_zero. cpp_adrs2. set (h := x_h p) in *. set (k := x_k p) in *.
  change (rb_treehash (flat_bds st)) with (b_treehash st). change (rb_auth (flat_bds st)) with (concat (b_auth st)).
  change (rb_retain (flat_bds st)) with (concat (b_retain st)).
  apply bind_ok in H. destruct H as (ths0 & H1 & H).
  apply bind_ok in H. destruct H as ([[[[[[[[stack levels] off] oa] la] na] auth] ths] retain] & H2 & H).
  apply bind_ok in H. destruct H as (r & G & H). apply Ok_inj' in H. injection H as <- <-.
  match type of H1 with for_up ?n ?f ?s0 = _ => match goal with |- context [rfor n ?g ?t0] =>
    destruct (rfor_sim _ _ (fun s t => s = t /\ thok s) f g n s0 t0 _ H1 (conj eq_refl CT)) as (t' & E & <- & CT0) end end.
  { clear. intros i s t s1 Hi [-> C] F. apply bind_ok in F. destruct F as (th & G & F). rewrite (rget_get _ _ _ _ G). cbn [rbind].
    rewrite (rset_set _ _ _ _ _ F). eexists. split; [reflexivity|]. split; [reflexivity|].
    apply (thok_set _ _ _ _ C) in F; auto. cbn [th_node]. now apply (thok_get _ _ _ C G). }
  rewrite E. clear E H1. cbn [rbind].
  match type of H2 with for_up ?n ?f ?s0 = _ => match goal with |- context [rfor n ?g ?t0] =>
    destruct (rfor_sim _ _ (fun s t => exists s1 s2 s3 s4 s5 s6 s7 s8 s9, s = (s1, s2, s3, s4, s5, s6, s7, s8, s9) /\
       t = (concat s1, s2, s3, s4, s5, s6, concat s7, s8, concat s9) /\ cellsok s1 /\ cellsok s7 /\ thok s8 /\ cellsok s9) f g n s0 t0 _ H2)
      as (t' & E & s1 & s2 & s3 & s4 & s5 & s6 & s7 & s8 & s9 & E1 & E2 & C1 & C7 & C8 & C9) end end.
  - do 9 eexists. split; [reflexivity|]. split; [reflexivity|]. split; [apply cellsok_zero|auto].
  - clear - Ls Lp. intros i s t sx Hi (s1 & s2 & s3 & s4 & s5 & s6 & s7 & s8 & s9 & -> & -> & C1 & C7 & C8 & C9) F. cbv zeta in F.
    apply bind_ok in F. destruct F as ([[leaf la1] oa1] & E1 & F). apply bind_ok in F. destruct F as (st1 & S1 & F).
    apply bind_ok in F. destruct F as (lv1 & S2 & F). apply bind_ok in F. destruct F as (ths1 & E3 & F).
    apply bind_ok in F. destruct F as ([[[[[[st2 lv2] o2] na2] au2] th2] re2] & E2 & F). apply Ok_inj' in F. subst sx.
    cbv beta iota zeta.
    destruct (rs_leaf_at_eq hf s3 (s3 * 32) s1 st1 sks p ps _ _ _ _ _ Ls Lp C1 E1 S1 eq_refl) as (R1 & C1' & _). rewrite R1. cbn [rbind].
    rewrite (rset_set _ _ _ _ _ S2). cbn [rbind].
    assert (X : (if (0 <? h - k) && (i =? 3) then c <~ rslice (S s3 * 32) (S s3 * 32 + 32) (concat st1) ;; rs_put_node s8 0 c else ROk s8) = ROk ths1 /\ thok ths1).
    { destruct ((0 <? h - k) && (i =? 3)); [|apply Ok_inj' in E3; subst; auto].
      apply bind_ok in E3. destruct E3 as (c & Gc & E3). rewrite (rslice_cell st1 (S s3) c) by auto. cbn [rbind].
      apply rs_put_node_eq; auto. now apply (cellsok_get _ _ _ C1' Gc). }
    destruct X as [X C8']. rewrite X. cbn [rbind].
    destruct (rs_setup_while_eq hf ps Lp _ _ _ _ _ _ _ _ _ _ _ _ _ _ _ _ _ _ C1' C7 C8' C9 E2) as (R2 & D1 & D2 & D3 & D4). rewrite R2. cbn [rbind].
    eexists. split; [reflexivity|]. do 9 eexists. split; [reflexivity|]. split; [reflexivity|auto].
  - rewrite E. subst t'. cbn [rbind]. injection E1 as -> -> -> -> -> -> -> -> ->.
    pose proof (cellsok_get _ _ _ C1 G) as Lr. destruct s1 as [|c s1]; [discriminate|]. assert (c = r) by (cbv in G; congruence). subst c.
    cbn [concat]. rewrite rcopy_loop_ok by (rewrite ?app_length; lia). change (skipn 0 (r ++ concat s1)) with (r ++ concat s1).
    rewrite firstn_app_at by auto. change (firstn 0 node) with (@nil N). cbn [app rbind]. change (0 + 32) with 32.
    split; [reflexivity|]. split; [exact Lr|]. repeat split; auto.
Qed.

(** ** treehash_update *)
Lemma rcopy_within_two : forall n t : list N, length n = 32 -> length t = 32 -> rcopy_within 0 32 32 (n ++ t) = ROk (n ++ n).
Proof.
  intros n t L1 L2. unfold rcopy_within. rewrite rslice_ok by (rewrite ?app_length; lia). cbn [rbind].
  change (skipn 0 (n ++ t)) with (n ++ t). change (0 + 32 - 0) with 32. rewrite firstn_app_at by auto.
  rewrite app_length, L1, L2. change (32 + 32 <=? 32 + 32) with true. cbv iota.
  rewrite (skipn_all2 (n ++ t)) by (rewrite app_length; lia). now rewrite app_nil_r.
Qed.
Lemma rput_left : forall c n t : list N, length c = 32 -> length n = 32 -> rwith 0 32 (n ++ t) (fun d => rcopy c d) = ROk (c ++ t).
Proof.
  intros c n t L1 L2. rewrite (rwith_ok _ 0 32 _ _ c); [|lia|rewrite app_length; lia|].
  - change (firstn 0 (n ++ t)) with (@nil N). cbn [app]. now rewrite skipn_app_at.
  - apply rcopy_ok. change (skipn 0 (n ++ t)) with (n ++ t). change (32 - 0) with 32. rewrite firstn_app_at by auto. lia.
Qed.
Lemma rput_right : forall c n t : list N, length c = 32 -> length n = 32 -> length t = 32 -> rwith 32 64 (n ++ t) (fun d => rcopy c d) = ROk (n ++ c).
Proof.
  intros c n t L1 L2 L3. rewrite (rwith_ok _ 32 64 _ _ c); [|lia|rewrite app_length; lia|].
  - rewrite firstn_app_at by auto. rewrite (skipn_all2 (n ++ t)) by (rewrite app_length; lia). now rewrite app_nil_r.
  - apply rcopy_ok. rewrite skipn_app_at by auto. change (64 - 32) with 32. rewrite firstn_length. lia.
Qed.
Lemma rs_update_while_eq : forall hf ps, 32 <= length ps -> forall usage next stack levels off node tail nh na node' nh' u' off',
  cellsok stack -> length node = 32 -> length tail = 32 ->
  update_while hf usage next (firstn 32 ps) stack levels off node nh na = Ok (node', nh', u', off') ->
  exists tail', rs_update_while hf usage next ps (concat stack) levels off (node ++ tail) nh na = ROk (node' ++ tail', nh', u', off') /\
    length node' = 32 /\ length tail' = 32 /\ nh' + off' = nh + off /\ (nh' = nh \/ off <= length levels).
Proof.
  intros hf ps Hp. induction usage; intros next stack levels off node tail nh na node' nh' u' off' C L1 L2 H; cbn [update_while rs_update_while] in *.
  - apply Ok_inj' in H. injection H as <- <- <- <-. exists tail. repeat split; auto.
  - destruct (off =? 0) eqn:EO; [discriminate|]. apply Nat.eqb_neq in EO.
    apply bind_ok in H. destruct H as (l & G & H). rewrite (rget_get _ _ _ _ G). cbn [rbind].
    destruct (negb (l =? nh)). { apply Ok_inj' in H. injection H as <- <- <- <-. exists tail. repeat split; auto. }
    apply bind_ok in H. destruct H as (c & Gc & H). cpp_adrs. cbv zeta in *.
    rewrite rcopy_within_two by auto. cbn [rbind]. rewrite (rslice_cell stack (off - 1) c) by auto. cbn [rbind].
    pose proof (cellsok_get _ _ _ C Gc) as Lc. rewrite rput_left by auto. cbn [rbind].
    set (na1 := setTreeIndex _ _) in *.
    rewrite rs_hash_h_eq by (rewrite ?app_length; lia). rewrite (firstn_all2 (c ++ node)) by (rewrite app_length; lia).
    pose proof (hash_h_length hf (c ++ node) (firstn 32 ps) na1) as Lo.
    destruct (hash_h hf (c ++ node) (firstn 32 ps) na1) as [out na2] eqn:Eh. cbn [fst snd rbind] in *.
    rewrite skipn_app_at by auto.
    destruct (IHusage _ _ _ _ _ node _ _ _ _ _ _ C Lo L1 H) as (tail' & E & A1 & A2 & A3 & A4).
    exists tail'. rewrite E. pose proof (get_lt _ _ _ _ G). repeat split; auto; lia.
Qed.

Lemma rs_treehash_update_eq : forall hf lvl st sks p ps ad st', 32 <= length sks -> 32 <= length ps -> bds_cells st ->
  treehash_update hf lvl st (firstn 32 sks) p (firstn 32 ps) ad = Ok st' ->
  rs_treehash_update hf lvl (flat_bds st) sks p ps ad = ROk (flat_bds st') /\ bds_cells st'.
Proof.
  intros hf lvl st sks p ps ad st' Ls Lp (C1 & C2 & C3 & C4 & C5 & C6) H. unfold treehash_update in H. unfold rs_treehash_update.
  cpp_adrs2. cbv zeta in *. cbn [flat_bds rb_treehash rb_stack rb_stacklevels rb_stackoffset rb_auth rb_keep rb_retain].
  apply bind_ok in H. destruct H as (th & G & H). rewrite (rget_get _ _ _ _ G). cbn [rbind].
  apply bind_ok in H. destruct H as ([[leaf la] oa] & E1 & H).
  destruct (rs_gen_leaf_wots_eq hf (repeat 0%N 64) sks p ps _ _ _ _ _ ltac:(rewrite repeat_length; lia) Ls Lp E1) as [R1 L1]. rewrite R1. cbn [rbind].
  apply bind_ok in H. destruct H as ([[[node nh] u] off] & E2 & H).
  assert (L64 : length (skipn 32 (repeat 0%N 64)) = 32) by (rewrite skipn_length, repeat_length; lia).
  destruct (rs_update_while_eq hf ps Lp _ _ _ _ _ _ _ _ _ _ _ _ _ C1 L1 L64 E2) as (tl & R2 & A1 & A2 & A3 & A4). rewrite R2. cbn [rbind].
  rewrite rslice_ok by (rewrite ?app_length; lia). cbn [rbind]. change (skipn 0 (node ++ tl)) with (node ++ tl). change (32 - 0) with 32. rewrite firstn_app_at by auto.
  pose proof (thok_get _ _ _ C5 G) as Lt.
  destruct (nh =? th_h th).
  - apply bind_ok in H. destruct H as (ths & S1 & H). apply Ok_inj' in H. subst st'.
    rewrite rcopy_node by auto. cbn [rbind]. rewrite (rset_set _ _ _ _ _ S1). cbn [rbind].
    split; [reflexivity|]. apply (thok_set _ _ _ _ C5) in S1; [|auto]. repeat split; auto.
  - apply bind_ok in H. destruct H as (stk & S0 & H). apply bind_ok in H. destruct H as (lvs & S1 & H). apply bind_ok in H. destruct H as (ths & S2 & H).
    apply Ok_inj' in H. subst st'. rewrite (rwith_copy_cell _ _ _ _ C1 A1 S0). cbn [rbind].
    assert (nh < 256) by lia. rewrite (Nat.mod_small nh) by lia.
    rewrite (rset_set _ _ _ _ _ S1). cbn [rbind]. rewrite (rset_set _ _ _ _ _ S2). cbn [rbind]. split; [reflexivity|].
    apply (thok_set _ _ _ _ C5) in S2; [|auto]. apply (cellsok_set _ _ _ _ C1 A1) in S0.
    apply set_split in S1. destruct S1 as [S1 ->]. unfold bds_cells. cbn [b_stack b_auth b_keep b_retain b_treehash b_stacklevels]. rewrite upd_length. repeat split; auto.
Qed.

Lemma rs_bds_treehash_update_eq : forall hf sks p ps ad, 32 <= length sks -> 32 <= length ps -> forall n st st', bds_cells st ->
  bds_treehash_update hf n st (firstn 32 sks) p (firstn 32 ps) ad = Ok st' ->
  rs_bds_treehash_update hf n (flat_bds st) sks p ps ad = ROk (flat_bds st') /\ bds_cells st'.
Proof.
  intros hf sks p ps ad Ls Lp. induction n; intros st st' C H; cbn [bds_treehash_update rs_bds_treehash_update] in *.
  - apply Ok_inj' in H. subst. auto.
  - apply bind_ok in H. destruct H as ([lv lm] & E & H). rewrite (rs_bds_choose_eq _ _ _ E). cbn [rbind].
    destruct (lv =? x_h p - x_k p). { apply Ok_inj' in H. subst. auto. }
    apply bind_ok in H. destruct H as (st1 & E1 & H). destruct (rs_treehash_update_eq _ _ _ _ _ _ _ _ Ls Lp C E1) as [R C1].
    rewrite R. cbn [rbind]. now apply IHn.
Qed.

(** ** bds_round *)
Lemma setLtreeADRS_u32 : forall a v, setLtreeADRS a (u32 v) = setLtreeADRS a v.
Proof. intros. unfold setLtreeADRS. now rewrite u32_u32. Qed.
Lemma setOTSADRS_u32 : forall a v, setOTSADRS a (u32 v) = setOTSADRS a v.
Proof. intros. unfold setOTSADRS. now rewrite u32_u32. Qed.
Lemma find_tau_eq : forall n i h x, rs_find_tau n i h x = find_tau n i h x.
Proof. induction n; intros; cbn [rs_find_tau find_tau]; [reflexivity|]. now rewrite IHn. Qed.

Lemma rs_bds_round_eq : forall hf st x sks p ps ad st', 32 <= length sks -> 32 <= length ps -> bds_cells st ->
  bds_round hf st x (firstn 32 sks) p (firstn 32 ps) ad = Ok st' ->
  rs_bds_round hf (flat_bds st) x sks p ps ad = ROk (flat_bds st') /\ bds_cells st'.
Proof.
  intros hf st x sks p ps ad st' Ls Lp (C1 & C2 & C3 & C4 & C5 & C6) H. unfold bds_round in H. unfold rs_bds_round.
  cpp_adrs2. cbv zeta in *. cbn [flat_bds rb_treehash rb_stack rb_stacklevels rb_stackoffset rb_auth rb_keep rb_retain].
  rewrite find_tau_eq. set (tau := find_tau (x_h p) 0 (x_h p) x) in *. clearbody tau.
  apply bind_ok in H. destruct H as (buf & EB & H).
  assert (XB : exists rbuf, (if 0 <? tau then
            src <~ rslice ((tau - 1) * 32) ((tau - 1) * 32 + 32) (concat (b_auth st)) ;;
            buf <~ rwith 0 32 (repeat 0%N 64) (fun d => rcopy src d) ;;
            src <~ rslice ((tau - 1) / 2 * 32) ((tau - 1) / 2 * 32 + 32) (concat (b_keep st)) ;;
            rwith 32 64 buf (fun d => rcopy src d)
          else ROk (repeat 0%N 64)) = ROk rbuf /\ (tau <> 0 -> rbuf = buf /\ length buf = 64)).
  { destruct (0 <? tau) eqn:ET.
    - apply bind_ok in EB. destruct EB as (a & Ga & EB). apply bind_ok in EB. destruct EB as (c & Gc & EB). apply Ok_inj' in EB. subst buf.
      pose proof (cellsok_get _ _ _ C2 Ga). pose proof (cellsok_get _ _ _ C3 Gc).
      rewrite (rslice_cell (b_auth st) (tau - 1) a), (rslice_cell (b_keep st) _ c) by auto. cbn [rbind].
      change (repeat 0%N 64) with (repeat 0%N 32 ++ repeat 0%N 32). rewrite rput_left by (rewrite ?repeat_length; auto). cbn [rbind].
      rewrite rput_right by (rewrite ?repeat_length; auto). eexists. split; [reflexivity|]. intros _. split; [reflexivity|]. rewrite app_length. lia.
    - apply Nat.ltb_ge in ET. eexists. split; [reflexivity|]. lia. }
  destruct XB as (rbuf & XB & XT). rewrite XB. cbn [rbind]. clear XB EB.
  apply bind_ok in H. destruct H as (keep & EK & H).
  assert (XK : (if negb (Nat.testbit x (tau + 1)) && (tau <? x_h p - 1) then
             src <~ rslice (tau * 32) (tau * 32 + 32) (concat (b_auth st)) ;;
             rwith (tau / 2 * 32) (tau / 2 * 32 + 32) (concat (b_keep st)) (fun d => rcopy src d)
           else ROk (concat (b_keep st))) = ROk (concat keep) /\ cellsok keep).
  { destruct (negb (Nat.testbit x (tau + 1)) && (tau <? x_h p - 1)).
    - apply bind_ok in EK. destruct EK as (a & Ga & EK). pose proof (cellsok_get _ _ _ C2 Ga).
      rewrite (rslice_cell (b_auth st) tau a) by auto. cbn [rbind]. split; [now apply rwith_copy_cell|]. apply (cellsok_set _ _ _ _ C3) in EK; auto.
    - apply Ok_inj' in EK. subst. auto. }
  destruct XK as [XK CK]. rewrite XK. cbn [rbind]. clear XK EK.
  destruct (tau =? 0) eqn:ET.
  - rewrite setLtreeADRS_u32, setOTSADRS_u32.
    apply bind_ok in H. destruct H as ([[leaf la] oa] & E1 & H). apply bind_ok in H. destruct H as (auth & S1 & H). apply Ok_inj' in H. subst st'.
    pose proof (set_split _ _ _ _ _ S1) as [SL SE]. pose proof (flat_length _ C2) as LF.
    destruct (rs_gen_leaf_wots_eq hf (concat (b_auth st)) sks p ps _ _ _ _ _ ltac:(lia) Ls Lp E1) as [R1 L1]. rewrite R1. cbn [rbind].
    assert (EA : leaf ++ skipn 32 (concat (b_auth st)) = concat auth).
    { rewrite SE. destruct (b_auth st) as [|a0 au]; [cbn in SL; lia|]. cbn [upd concat]. inversion C2; subst. now rewrite skipn_app_at. }
    rewrite EA. split; [reflexivity|]. apply (cellsok_set _ _ _ _ C2 L1) in S1. repeat split; auto.
  - apply Nat.eqb_neq in ET. destruct (XT ET) as [-> LB]. rewrite setTreeIndex_u32. set (na := setTreeIndex _ _) in *.
    destruct (hash_h hf buf (firstn 32 ps) na) as [out na2] eqn:Eh.
    apply bind_ok in H. destruct H as (auth1 & S1 & H).
    apply bind_ok in H. destruct H as (auth2 & E2 & H). apply bind_ok in H. destruct H as (ths & E3 & H). apply Ok_inj' in H. subst st'.
    assert (EB : buf = firstn 32 buf ++ skipn 32 buf) by now rewrite firstn_skipn.
    destruct (rs_hash_cell hf (b_auth st) auth1 tau (tau * 32) (firstn 32 buf) (skipn 32 buf) ps na out na2 buf C2 Lp
      ltac:(rewrite <- EB; apply firstn_all2; lia) ltac:(lia) ltac:(rewrite <- EB; exact Eh) S1 eq_refl) as (W & CA & _).
    rewrite W. cbn [rbind]. clear W Eh S1.
    match type of E2 with for_up ?n ?f ?s0 = _ => match goal with |- context [rfor n ?g (concat auth1)] =>
      destruct (rfor_sim _ _ (fun s t => t = concat s /\ cellsok s) f g n s0 (concat auth1) _ E2 (conj eq_refl CA)) as (t' & E & -> & CA2) end end.
    { intros i s t s1 Hi [-> C] F. destruct (i <? x_h p - x_k p).
      - apply bind_ok in F. destruct F as (th & G & F). rewrite (rget_get _ _ _ _ G). cbn [rbind]. pose proof (thok_get _ _ _ C5 G) as Lt.
        rewrite rslice_ok by lia. cbn [rbind]. change (skipn 0 (th_node th)) with (th_node th). rewrite (firstn_all2 (th_node th)) by lia.
        rewrite (rwith_copy_cell _ _ _ _ C Lt F). eexists. split; [reflexivity|]. split; [reflexivity|]. apply (cellsok_set _ _ _ _ C) in F; auto.
      - destruct ((x_h p <? 1 + i) || (2 ^ (x_h p - 1 - i) + i <? x_h p) || (x / 2 ^ i <? 1)); [discriminate|].
        apply bind_ok in F. destruct F as (c & G & F). pose proof (cellsok_get _ _ _ C4 G) as Lt.
        rewrite (rslice_cell (b_retain st) _ c) by auto. cbn [rbind].
        rewrite (rwith_copy_cell _ _ _ _ C Lt F). eexists. split; [reflexivity|]. split; [reflexivity|]. apply (cellsok_set _ _ _ _ C) in F; auto. }
    rewrite E. cbn [rbind]. clear E E2.
    match type of E3 with for_up ?n ?f ?s0 = _ => match goal with |- context [rfor n ?g (b_treehash st)] =>
      destruct (rfor_sim _ _ (fun s t => s = t /\ thok s) f g n s0 (b_treehash st) _ E3 (conj eq_refl C5)) as (t' & E & <- & CT) end end.
    { intros i s t s1 Hi [<- C] F. destruct (x + 1 + 3 * 2 ^ i <? 2 ^ x_h p).
      - apply bind_ok in F. destruct F as (th & G & F). rewrite (rget_get _ _ _ _ G). cbn [rbind]. rewrite (rset_set _ _ _ _ _ F).
        eexists. split; [reflexivity|]. split; [reflexivity|]. apply (thok_set _ _ _ _ C) in F; auto. apply (thok_get _ _ _ C G).
      - apply Ok_inj' in F. subst. eexists. split; [reflexivity|]. auto. }
    rewrite E. cbn [rbind]. split; [reflexivity|]. repeat split; auto.
Qed.

Lemma rs_bds_step_eq : forall hf p sks ps ad j st st', 32 <= length sks -> 32 <= length ps -> bds_cells st ->
  bds_step hf p (firstn 32 sks) (firstn 32 ps) ad j st = Ok st' ->
  rs_bds_step hf p sks ps ad j (flat_bds st) = ROk (flat_bds st') /\ bds_cells st'.
Proof.
  intros hf p sks ps ad j st st' Ls Lp C H. unfold bds_step in H. unfold rs_bds_step.
  apply bind_ok in H. destruct H as (st1 & E1 & H). destruct (rs_bds_round_eq _ _ _ _ _ _ _ _ Ls Lp C E1) as [R C1]. rewrite R. cbn [rbind].
  now apply rs_bds_treehash_update_eq.
Qed.

(** ** Key generation *)
Definition rs_fast_keygen_back (hf : hashfn) (p : xmss_params) (st : rs_bds) (sk pk sk_seed pub_seed : list N) : rs (list N * rs_bds) :=
  '(pk, st) <~ rs_treehash_setup hf pk st sk_seed p pub_seed zero_adrs ;;
  src <~ rslice 0 32 pk ;;
  sk <~ rwith 100 132 sk (fun d => rcopy src d) ;;
  ROk (sk, st).
Lemma rs_fast_keygen_back_eq : forall hf p st st' (pk rb T root : list N), length pk = 64 -> length rb = 96 -> length T = 32 -> x_h p < 32 -> bds_cells st ->
  treehash_setup hf (repeat 0%N 32) st (slice 0 32 rb) p (slice 64 32 rb) zero_adrs = Ok (root, st') ->
  rs_fast_keygen_back hf p (flat_bds st) ([0; 0; 0; 0]%N ++ rb ++ T) pk (rb ++ T) (slice 64 32 rb ++ T) = ROk ([0; 0; 0; 0]%N ++ rb ++ root, flat_bds st') /\ bds_cells st'.
Proof.
  intros hf p st st' pk rb T root Lp LR LT Hh C E. unfold rs_fast_keygen_back.
  assert (LS : length (slice 64 32 rb) = 32) by (apply slice_length; lia).
  destruct (rs_treehash_setup_eq hf pk st (rb ++ T) p (slice 64 32 rb ++ T) zero_adrs root st') as (R & LRt & C'); auto.
  - lia.
  - rewrite app_length; lia.
  - rewrite app_length; lia.
  - rewrite (firstn_app_at _ 32 (slice 64 32 rb)) by auto.
    replace (firstn 32 (rb ++ T)) with (slice 0 32 rb); [exact E|].
    rewrite firstn_app. replace (32 - length rb) with 0 by lia. change (firstn 0 T) with (@nil N). rewrite app_nil_r. reflexivity.
  - rewrite R. cbn [rbind]. pose proof (rs_store_root rb T (skipn 32 pk) root LR LT LRt) as SR. split; [|exact C'].
    set (q := root ++ skipn 32 pk) in *. clearbody q.
    destruct (rslice 0 32 q) as [src| |]; cbn [rbind] in *; try discriminate. rewrite SR. reflexivity.
Qed.
Lemma rs_fast_gen_keypair_split : forall hf p pk sk st seed rb, rb = shake256 96 (firstn 48 seed) -> length pk = 64 -> length sk = 132 -> length seed = 48 ->
  Nat.odd (x_h p) = false ->
  rs_fast_gen_keypair hf p pk sk st seed = rs_fast_keygen_back hf p st ([0; 0; 0; 0]%N ++ rb ++ skipn 100 sk) (firstn 32 pk ++ slice 64 32 rb) (rb ++ skipn 100 sk) (slice 64 32 rb ++ skipn 100 sk).
Proof.
  intros hf p pk sk st seed rb Erb Lp Lk Ls HO. unfold rs_fast_gen_keypair. rewrite HO.
  exact (rs_keygen_front pk sk seed rb _ (rs_fast_keygen_back hf p st) Erb Lp Lk Ls).
Qed.
Lemma fast_Genkeypair_split : forall hf j p st seed k st' rb, rb = shake256 96 (firstn 48 seed) -> xmssfast_Genkeypair hf j p st seed = Ok (k, st') ->
  exists root, treehash_setup hf j st (slice 0 32 rb) p (slice 64 32 rb) zero_adrs = Ok (root, st') /\ k = [0; 0; 0; 0]%N ++ rb ++ root.
Proof.
  intros hf j p st seed k st' rb Erb H. unfold xmssfast_Genkeypair in H. cbv zeta in H. rewrite <- Erb in H. clear Erb.
  apply bind_ok in H. destruct H as ([root st1] & E & H). apply Ok_inj' in H. apply pair_equal_spec in H. destruct H as [<- <-]. exists root. auto.
Qed.
Lemma rs_fast_gen_keypair_eq : forall hf p pk sk st seed k st', length pk = 64 -> length sk = 132 -> length seed = 48 -> x_h p < 32 -> Nat.odd (x_h p) = false -> bds_cells st ->
  xmssfast_Genkeypair hf (repeat 0%N 32) p st seed = Ok (k, st') ->
  rs_fast_gen_keypair hf p pk sk (flat_bds st) seed = ROk (k, flat_bds st') /\ bds_cells st'.
Proof.
  intros hf p pk sk st seed k st' Lp Lk Ls Hh HO C H.
  assert (X : exists rb, rb = shake256 96 (firstn 48 seed) /\ length rb = 96) by (eexists; split; [reflexivity|apply shake256_length]).
  destruct X as (rb & Erb & LR). destruct (fast_Genkeypair_split _ _ _ _ _ _ _ _ Erb H) as (root & E & ->).
  rewrite (rs_fast_gen_keypair_split hf p pk sk (flat_bds st) seed rb Erb Lp Lk Ls HO). clear Erb H.
  assert (LS : length (slice 64 32 rb) = 32) by (apply slice_length; lia).
  apply rs_fast_keygen_back_eq; auto; rewrite ?app_length, ?firstn_length, ?skipn_length; lia.
Qed.

(** ** Moving the index *)
Lemma rs_fast_update_eq : forall hf p sk st j sk' st' r, length sk = 132 -> all_bytes sk -> x_h p < 32 -> bds_cells st ->
  xmssfast_update hf p sk st j = Ok (sk', st', r) ->
  rs_fast_update hf p sk (flat_bds st) j = ROk (sk', flat_bds st', match r with inl _ => inl RInvalidArgument | inr u => inr u end) /\ bds_cells st'.
Proof.
  intros hf p sk st j sk' st' r Lk Hb Hh C H. unfold xmssfast_update in H. unfold rs_fast_update. cbv zeta in H.
  rewrite (proj2 (Nat.leb_gt 32 (x_h p))) by lia. rewrite rs_be32_eq by (auto; lia). cbn [rbind]. cbv zeta.
  destruct (2 ^ N.of_nat (x_h p) <=? j)%N. { apply Ok_inj' in H. injection H as <- <- <-. auto. }
  destruct (j <? from_be (slice 0 4 sk))%N. { apply Ok_inj' in H. injection H as <- <- <-. auto. }
  apply bind_ok in H. destruct H as (st1 & E & H). apply Ok_inj' in H. apply pair_equal_spec in H. destruct H as [H <-]. apply pair_equal_spec in H. destruct H as [<- <-].
  assert (LZ : length (repeat 0%N 32) = 32) by apply repeat_length.
  rewrite (rslice_ok _ 4 36), (rslice_ok _ 68 100) by lia. cbn [rbind].
  change (firstn (36 - 4) (skipn 4 sk)) with (slice 4 32 sk). change (firstn (100 - 68) (skipn 68 sk)) with (slice 68 32 sk).
  assert (L4 : length (slice 4 32 sk) = 32) by (apply slice_length; lia).
  assert (L68 : length (slice 68 32 sk) = 32) by (apply slice_length; lia).
  rewrite !rcopy_ok by lia. cbn [rbind].
  match type of E with for_from ?n ?a ?f ?s0 = _ => match goal with |- context [rfor_from n a ?g ?t0] =>
    destruct (rfor_from_sim _ _ (fun s t => t = flat_bds s /\ bds_cells s) f g n a s0 t0 _ E (conj eq_refl C)) as (t' & E1 & -> & C') end end.
  { intros i s t s1 Hi [-> Cs] F. destruct (rs_bds_step_eq hf p (slice 4 32 sk) (slice 68 32 sk) zero_adrs i s s1) as [R Cs1]; try lia; auto.
    - rewrite (firstn_all2 (slice 4 32 sk)), (firstn_all2 (slice 68 32 sk)) by lia. exact F.
    - rewrite R. eexists. split; [reflexivity|]. auto. }
  rewrite E1. cbn [rbind]. rewrite rs_store_be32_eq by lia. cbn [rbind]. auto.
Qed.

(** ** Signing *)
Lemma rs_fast_sign_msg_eq : forall hf p sk st sig msg sk' st' s, wots_ok (x_wots p) -> length sk = 132 -> all_bytes sk -> x_h p < 32 -> bds_cells st ->
  length (b_auth st) = x_h p ->
  length sig = 36 + w_keysize (x_wots p) + x_h p * 32 -> (from_be (slice 0 4 sk) + 1 < 2 ^ 32)%N -> signable hf msg ->
  xmssfast_Signmsg hf p sk st (sk_seen hf sk msg) = Ok (sk', st', s) ->
  rs_fast_sign_msg hf p sk (flat_bds st) sig msg = ROk (sk', flat_bds st', s) /\ bds_cells st'.
Proof.
  intros hf p sk st sig msg sk' st' s HP Lk Hb Hh C LAu Ls Hi HS H. unfold w_keysize in *. unfold xmssfast_Signmsg in H. unfold rs_fast_sign_msg.
  rewrite rs_sign_front_ok by (auto; lia). cbn [rbind]. fold (sk_seen hf sk msg). cpp_adrs. cbv zeta in *.
  set (idx := from_be (slice 0 4 sk)) in *. set (R := prf hf (to_byte 32 idx) (slice 36 32 sk)) in *.
  set (mh := h_msg hf _ _) in *. assert (Lm : length mh = 32) by apply core_hash_length. clearbody mh.
  assert (L4 : length (slice 4 32 sk) = 32) by (apply slice_length; lia).
  assert (L68 : length (slice 68 32 sk) = 32) by (apply slice_length; lia).
  destruct (rs_get_seed_eq hf (repeat 0%N 32) (slice 4 32 sk) (setOTSADRS (setType zero_adrs 0) idx) (repeat_length _ _) ltac:(lia)) as [E L].
  rewrite (firstn_all2 (slice 4 32 sk)) in E, L by lia. rewrite E. clear E.
  destruct (get_seed hf (slice 4 32 sk) (setOTSADRS (setType zero_adrs 0) idx)) as [os oa]. cbn [fst] in L. cbn [rbind].
  apply bind_ok in H. destruct H as ([ws oa'] & E1 & H). apply bind_ok in H. destruct H as (st1 & E2 & H). apply Ok_inj' in H.
  apply pair_equal_spec in H. destruct H as [H <-]. apply pair_equal_spec in H. destruct H as [<- <-].
  set (head := to_byte 4 idx ++ R).
  assert (LH : length head = 36) by (unfold head, R; rewrite app_length, to_byte_length, prf_length; reflexivity).
  assert (L36 : length (skipn 36 sig) = w_len (x_wots p) * 32 + x_h p * 32) by (rewrite skipn_length; lia).
  rewrite (app_assoc _ R). fold head.
  destruct (rs_wots_sign_eq hf (skipn 36 sig) mh os (x_wots p) (slice 68 32 sk) oa ws oa' HP Lm ltac:(lia) ltac:(lia) ltac:(lia)
    ltac:(rewrite (firstn_all2 os), (firstn_all2 (slice 68 32 sk)) by lia; exact E1)) as (W & CW & LW).
  rewrite (rwith_adr_ok 36 (head ++ skipn 36 sig) _ (concat ws ++ skipn (w_len (x_wots p) * 32) (skipn 36 sig)) oa').
  2: rewrite app_length; lia.
  2: rewrite skipn_app_at by auto; exact W.
  cbn [rbind]. rewrite firstn_app_at by auto.
  pose proof (flat_length ws CW) as LF. rewrite LW in LF. unfold w_keysize.
  assert (LA : length (head ++ concat ws) = 36 + w_len (x_wots p) * 32) by (rewrite app_length; lia).
  rewrite (app_assoc head).
  assert (LT : length (skipn (w_len (x_wots p) * 32) (skipn 36 sig)) = x_h p * 32) by (rewrite skipn_length; lia).
  set (T := skipn (w_len (x_wots p) * 32) (skipn 36 sig)) in *. clearbody T.
  destruct C as (C1 & C2 & C3 & C4 & C5 & C6). pose proof (flat_length _ C2) as LFA.
  change (rb_auth (flat_bds st)) with (concat (b_auth st)).
  rewrite rslice_ok by lia. cbn [rbind]. change (skipn 0 (concat (b_auth st))) with (concat (b_auth st)).
  rewrite Nat.sub_0_r. rewrite (firstn_all2 (concat (b_auth st))) by lia.
  rewrite (firstn_all2 (b_auth st)) in * by lia.
  rewrite (rwith_tail _ (36 + w_len (x_wots p) * 32) _ _ (concat (b_auth st))).
  2: rewrite app_length; lia.
  2:{ rewrite skipn_app_at by auto. rewrite (rwith_ok _ 0 (x_h p * 32) T _ (concat (b_auth st))); [|lia|lia|].
      - change (firstn 0 T) with (@nil N). rewrite (skipn_all2 T) by lia. now rewrite app_nil_r.
      - apply rcopy_ok. change (skipn 0 T) with T. rewrite firstn_length. lia. }
  cbn [rbind]. rewrite firstn_app_at by auto. rewrite (proj2 (Nat.leb_gt 32 (x_h p))) by lia.
  assert (CB : bds_cells st) by (repeat split; auto).
  assert (XS : (if (idx <? 2 ^ N.of_nat (x_h p) - 1)%N then rs_bds_step hf p (slice 4 32 sk) (slice 68 32 sk) oa' (N.to_nat idx) (flat_bds st) else ROk (flat_bds st)) = ROk (flat_bds st1) /\ bds_cells st1).
  { destruct (idx <? 2 ^ N.of_nat (x_h p) - 1)%N.
    - apply rs_bds_step_eq; auto; try lia. rewrite (firstn_all2 (slice 4 32 sk)), (firstn_all2 (slice 68 32 sk)) by lia. exact E2.
    - apply Ok_inj' in E2. subst. auto. }
  destruct XS as [XS CS]. rewrite XS. cbn [rbind]. split; [|exact CS].
  unfold head. rewrite <- !app_assoc. reflexivity.
Qed.
Lemma rs_fast_sign_msg_panic : forall hf p sk st sig msg, length sk = 132 -> all_bytes sk ->
  36 <= length sig -> (from_be (slice 0 4 sk) + 1 < 2 ^ 32)%N -> ~ signable hf msg ->
  rs_fast_sign_msg hf p sk st sig msg = RPanic.
Proof. intros. unfold rs_fast_sign_msg. now rewrite rs_sign_front_panic. Qed.
