(** Simulation of algsxmss.rs (RsAlgs.v) by the C++ model (AlgsXmss.v). *)
From Coq Require Import List NArith Arith Lia Bool.
From Verif Require Import Base Bytes Keccak KeccakLemmas Sha256 HashAddress Wots XmssCommon AlgsXmss XmssRefine WotsProofs TreeProofs
  RsBase RsKeccak RsShake RsHash RsSim RsWots RsSimWots RsAlgs DescrProofs SpecRust RsSimTree.
Import ListNotations.
Open Scope nat_scope.

(** Loops related step by step by a relation that may mention the counter. *)
Lemma rfor_from_simi : forall S T (R : nat -> S -> T -> Prop) f g n a s t s',
  for_from n a f s = Ok s' -> R a s t ->
  (forall i s t s1, a <= i < a + n -> R i s t -> f i s = Ok s1 -> exists t1, g i t = ROk t1 /\ R (Datatypes.S i) s1 t1) ->
  exists t', rfor_from n a g t = ROk t' /\ R (a + n) s' t'.
Proof.
  induction n; intros a s t s' H HR Hs; cbn [for_from rfor_from] in *.
  - apply Ok_inj' in H. subst. rewrite Nat.add_0_r. now exists t.
  - apply bind_ok in H. destruct H as (s1 & E1 & E2).
    destruct (Hs a s t s1) as (t1 & F1 & R1); [lia|auto|auto|]. rewrite F1. cbn [rbind].
    destruct (IHn (Datatypes.S a) s1 t1 s' E2 R1) as (t' & G & R2). { intros. apply (Hs i s0); auto; lia. }
    exists t'. split; auto. now replace (a + Datatypes.S n) with (Datatypes.S a + n) by lia.
Qed.
Lemma rfor_simi : forall S T (R : nat -> S -> T -> Prop) f g n s t s',
  for_up n f s = Ok s' -> R 0 s t ->
  (forall i s t s1, i < n -> R i s t -> f i s = Ok s1 -> exists t1, g i t = ROk t1 /\ R (Datatypes.S i) s1 t1) ->
  exists t', rfor n g t = ROk t' /\ R n s' t'.
Proof. intros. apply (rfor_from_simi S T R f g n 0 s t s'); auto. intros. apply (H1 i s0); auto; lia. Qed.

Ltac cpp_adrs2 := cpp_adrs; change rs_sub_addr with copy_layer_tree in *.

(** ** Leaves *)
Lemma rs_get_seed_eq : forall hf buf sks a, length buf = 32 -> 32 <= length sks ->
  rs_get_seed hf buf sks a = ROk (get_seed hf (firstn 32 sks) a) /\ length (fst (get_seed hf (firstn 32 sks) a)) = 32.
Proof.
  intros hf buf sks a Lb Ls. unfold rs_get_seed, get_seed. cpp_adrs. split; [|apply prf_length].
  rewrite rs_addr_to_byte_eq by apply repeat_length. cbn [rbind].
  rewrite rs_prf_eq by (rewrite ?addr_to_byte_length; lia). cbn [rbind].
  rewrite (firstn_all2 (addr_to_byte _)) by (rewrite addr_to_byte_length; lia).
  rewrite (skipn_all2 buf) by lia. now rewrite app_nil_r.
Qed.

Lemma rs_gen_leaf_wots_eq : forall hf buf sks p ps la oa leaf la' oa', 32 <= length buf -> 32 <= length sks -> 32 <= length ps ->
  gen_leaf_wots hf (firstn 32 sks) p (firstn 32 ps) la oa = Ok (leaf, la', oa') ->
  rs_gen_leaf_wots hf buf sks p ps la oa = ROk (leaf ++ skipn 32 buf, la', oa') /\ length leaf = 32.
Proof.
  intros hf buf sks p ps la oa leaf la' oa' Lb Ls Lp H. unfold gen_leaf_wots in H. unfold rs_gen_leaf_wots.
  destruct (rs_get_seed_eq hf (repeat 0%N 32) sks oa (repeat_length _ _) Ls) as [E L].
  rewrite E. clear E. destruct (get_seed hf (firstn 32 sks) oa) as [seed oa1]. cbn [fst] in L. cbn [rbind].
  rewrite rs_wots_pkgen_eq by (rewrite ?repeat_length; auto; lia). rewrite (firstn_all2 seed) by lia.
  pose proof (wots_pkgen_cells hf seed (x_wots p) (firstn 32 ps) oa1) as C.
  destruct (wots_pkgen hf seed (x_wots p) (firstn 32 ps) oa1) as [pk oa2]. cbn [fst snd rbind] in *.
  apply bind_ok in H. destruct H as ([leaf1 la1] & E & H). apply Ok_inj' in H. injection H as <- <- <-.
  destruct (rs_l_tree_eq hf (x_wots p) buf pk ps la leaf1 la1 Lp C Lb E) as [R LL]. rewrite R. cbn [rbind]. auto.
Qed.

Lemma rs_leaf_at_eq : forall hf i j l l' sks p ps la oa leaf la' oa', 32 <= length sks -> 32 <= length ps -> cellsok l ->
  gen_leaf_wots hf (firstn 32 sks) p (firstn 32 ps) la oa = Ok (leaf, la', oa') -> set l i leaf = Ok l' -> j = i * 32 ->
  rs_leaf_at hf j (concat l) sks p ps la oa = ROk (concat l', la', oa') /\ cellsok l' /\ length l' = length l.
Proof.
  intros hf i j l l' sks p ps la oa leaf la' oa' Ls Lp C H S ->. apply set_split in S. destruct S as [S ->].
  pose proof (flat_length l C) as LF. unfold rs_leaf_at. rewrite rslice_tail by lia. cbn [rbind].
  destruct (rs_gen_leaf_wots_eq hf (skipn (i * 32) (concat l)) sks p ps la oa leaf la' oa') as [R L]; auto.
  { rewrite skipn_length. lia. }
  rewrite R. cbn [rbind]. split; [|split; [now apply cellsok_upd|apply upd_length]].
  rewrite flat_upd by auto. now rewrite skipn_skipn_add.
Qed.

(** ** treehash *)
Lemma rs_treehash_while_eq : forall hf ps, 32 <= length ps -> forall fuel idx stack levels off na stack' levels' off' na', cellsok stack ->
  treehash_while hf fuel idx (firstn 32 ps) stack levels off na = Ok (stack', levels', off', na') ->
  rs_treehash_while hf fuel idx ps (concat stack) levels off na = ROk (concat stack', levels', off', na') /\ cellsok stack'.
Proof.
  intros hf ps Hp. induction fuel; intros idx stack levels off na stack' levels' off' na' C H; cbn [treehash_while rs_treehash_while] in *;
  (destruct (off <=? 1) eqn:EO; [apply Ok_inj' in H; injection H as <- <- <- <-; auto|]);
  apply bind_ok in H; destruct H as (l1 & G1 & H); apply bind_ok in H; destruct H as (l2 & G2 & H);
  rewrite (rget_get _ _ _ _ G1), (rget_get _ _ _ _ G2); cbn [rbind];
  (destruct (negb (l1 =? l2)); [apply Ok_inj' in H; injection H as <- <- <- <-; auto|]); [discriminate|].
  cpp_adrs. cbv zeta in *. apply Nat.leb_gt in EO.
  apply bind_ok in H. destruct H as (a & Ga & H). apply bind_ok in H. destruct H as (b & Gb & H).
  replace (off - 1) with (S (off - 2)) in Gb by lia.
  destruct (tail_two _ _ _ _ C Ga Gb) as [T1 T2]. pose proof (get_lt _ _ _ _ Ga).
  rewrite rslice_cells by (auto; lia). cbn [rbind].
  set (na1 := setTreeIndex _ _) in *.
  destruct (hash_h hf (a ++ b) (firstn 32 ps) na1) as [out na2] eqn:Eh.
  apply bind_ok in H. destruct H as (stack1 & S1 & H). apply bind_ok in H. destruct H as (levels1 & S2 & H).
  destruct (rs_hash_cell hf stack stack1 (off - 2) ((off - 2) * 32) a b ps na1 out na2 (concat (skipn (off - 2) stack)) C Hp T1 T2 Eh S1 eq_refl) as (W & C1 & _).
  rewrite W. cbn [rbind]. rewrite (rset_set _ _ _ _ _ S2). cbn [rbind]. now apply IHfuel.
Qed.

Lemma flat_zero : forall n, repeat 0%N (n * 32) = concat (repeat (repeat 0%N 32) n).
Proof. induction n; [reflexivity|]. cbn [mult]. rewrite repeat_app, IHn. reflexivity. Qed.
Lemma cellsok_zero : forall n, cellsok (repeat (repeat 0%N 32) n).
Proof. intros. apply cellsok_repeat. apply repeat_length. Qed.

Lemma rs_treehash_eq : forall hf node h sks p ps a r, 32 <= length node -> 32 <= length sks -> 32 <= length ps -> h < 32 ->
  treehash hf (repeat 0%N 32) h (firstn 32 sks) p (firstn 32 ps) a = Ok r ->
  rs_treehash hf node h sks p ps a = ROk (r ++ skipn 32 node) /\ length r = 32.
Proof.
  intros hf node h sks p ps a r Ln Ls Lp Hh H. unfold treehash in H. unfold rs_treehash.
  rewrite (proj2 (Nat.leb_gt 32 h)) by lia. rewrite flat_zero. cpp_adrs2.
  apply bind_ok in H. destruct H as ([[[[[stack levels] off] oa] la] na] & H & G).
  match type of H with for_up ?n ?f ?s0 = _ => match goal with |- context [rfor ?n' ?g ?t0] =>
    destruct (rfor_sim _ _ (fun s t => exists st lv o x y z, s = (st, lv, o, x, y, z) /\ t = (concat st, lv, o, x, y, z) /\ cellsok st) f g n s0 t0 _ H) as (t' & E & st & lv & o & x & y & z & E1 & E2 & C) end end.
  - do 6 eexists. split; [reflexivity|]. split; [reflexivity|apply cellsok_zero].
  - clear - Ls Lp. intros i s t s1 Hi (st & lv & o & x & y & z & -> & -> & C) F. cbv zeta in F.
    apply bind_ok in F. destruct F as ([[leaf la1] oa1] & E1 & F). apply bind_ok in F. destruct F as (st1 & S1 & F).
    apply bind_ok in F. destruct F as (lv1 & S2 & F). apply bind_ok in F. destruct F as ([[[st2 lv2] o2] na2] & E2 & F). apply Ok_inj' in F. subst s1.
    cbv beta iota zeta.
    destruct (rs_leaf_at_eq hf o (o * 32) st st1 sks p ps _ _ _ _ _ Ls Lp C E1 S1 eq_refl) as (R1 & C1 & _). rewrite R1. cbn [rbind].
    rewrite (rset_set _ _ _ _ _ S2). cbn [rbind].
    destruct (rs_treehash_while_eq hf ps Lp _ _ _ _ _ _ _ _ _ _ C1 E2) as (R2 & C2). rewrite R2. cbn [rbind].
    eexists. split; [reflexivity|]. do 6 eexists. split; [reflexivity|]. split; [reflexivity|exact C2].
  - rewrite E. subst t'. cbn [rbind]. injection E1 as -> -> -> -> -> ->.
    pose proof (cellsok_get _ _ _ C G) as Lr. destruct st as [|c st]; [discriminate|]. assert (c = r) by (cbv in G; congruence). subst c.
    cbn [concat]. rewrite rcopy_loop_ok by (rewrite ?app_length; lia). change (skipn 0 (r ++ concat st)) with (r ++ concat st).
    rewrite firstn_app_at by auto. change (firstn 0 node) with (@nil N). cbn [app]. change (0 + 32) with 32. auto.
Qed.

(** ** compute_authpath_wots *)
Lemma N_shiftr_nat : forall n i, N.shiftr (N.of_nat n) (N.of_nat i) = N.of_nat (n / 2 ^ i).
Proof. intros. rewrite N.shiftr_div_pow2. rewrite Nat2N.inj_div, Nat2N.inj_pow. reflexivity. Qed.
Lemma N_of_nat_lxor : forall a b, N.of_nat (Nat.lxor a b) = N.lxor (N.of_nat a) (N.of_nat b).
Proof.
  intros a b. apply N.bits_inj. intros k. rewrite N.lxor_spec.
  assert (T : forall n, N.testbit (N.of_nat n) k = Nat.testbit n (N.to_nat k)).
  { intros n. rewrite N.testbit_odd, Nat.testbit_odd. rewrite <- (N2Nat.id k) at 1. rewrite N_shiftr_nat, Nat.shiftr_div_pow2. apply odd_of_nat. }
  rewrite !T. now rewrite Nat.lxor_spec.
Qed.
Lemma rs_compute_authpath_eq : forall hf root ap idx sks p ps a r path, length root = 32 -> length ap = x_h p * 32 -> 32 <= length sks -> 32 <= length ps ->
  compute_authpath_wots hf (repeat 0%N 32) (N.to_nat idx) (firstn 32 sks) p (firstn 32 ps) a = Ok (r, path) ->
  rs_compute_authpath hf root ap idx sks p ps a = ROk (r, concat path).
Proof.
  intros hf root ap idx sks p ps a r path Lr La Ls Lp H. unfold compute_authpath_wots in H. unfold rs_compute_authpath.
  destruct (26 <=? x_h p) eqn:EH; [discriminate|]. apply Nat.leb_gt in EH. set (h := x_h p) in *. clearbody h.
  rewrite flat_zero. cpp_adrs2.
  apply bind_ok in H. destruct H as ([[tree1 oa] la] & H1 & H). apply bind_ok in H. destruct H as ([tree2 na] & H2 & H).
  apply bind_ok in H. destruct H as (path' & H3 & H). apply bind_ok in H. destruct H as (rr & G & H).
  apply Ok_inj' in H. injection H as -> ->.
  (* leaves *)
  match type of H1 with for_up ?n ?f ?s0 = _ => match goal with |- context [rfor ?n' ?g ?t0] =>
    destruct (rfor_sim _ _ (fun s t => exists st x y, s = (st, x, y) /\ t = (concat st, x, y) /\ cellsok st /\ length st = 2 * 2 ^ h) f g n s0 t0 _ H1) as (t' & E & st & x & y & E1 & E2 & C & LT) end end.
  { do 3 eexists. split; [reflexivity|]. split; [reflexivity|]. split; [apply cellsok_zero|apply repeat_length]. }
  { clear - Ls Lp. intros i s t s1 Hi (st & x & y & -> & -> & C & LT) F. cbv zeta in F.
    apply bind_ok in F. destruct F as ([[leaf la1] oa1] & E1 & F). apply bind_ok in F. destruct F as (st1 & S1 & F). apply Ok_inj' in F. subst s1.
    cbv beta iota zeta.
    destruct (rs_leaf_at_eq hf (2 ^ h + i) (2 ^ h * 32 + i * 32) st st1 sks p ps _ _ _ _ _ Ls Lp C E1 S1 ltac:(lia)) as (R1 & C1 & L1). rewrite R1. cbn [rbind].
    eexists. split; [reflexivity|]. do 3 eexists. split; [reflexivity|]. split; [reflexivity|]. split; [exact C1|lia]. }
  rewrite E. clear E H1. subst t'. injection E1 as <- <- <-. cbn [rbind].
  (* inner nodes *)
  match type of H2 with for_up ?n ?f ?s0 = _ => match goal with |- context [rfor n ?g (concat tree1, ?t1)] =>
    destruct (rfor_sim _ _ (fun s t => exists st x, s = (st, x) /\ t = (concat st, x) /\ cellsok st /\ length st = 2 * 2 ^ h) f g n s0 (concat tree1, t1) _ H2) as (t' & E & st & z & E1 & E2 & C2 & LT2) end end.
  { do 2 eexists. split; [reflexivity|]. split; [reflexivity|]. auto. }
  { clear - Lp. intros lv s t s1 Hi (st & x & -> & -> & C & LT) F. cbv zeta in F. cbv beta iota zeta.
    match type of F with for_up ?n ?f ?s0 = _ => match goal with |- context [rfor n ?g ?t0] =>
      destruct (rfor_sim _ _ (fun s t => exists st x, s = (st, x) /\ t = (concat st, x) /\ cellsok st /\ length st = 2 * 2 ^ h) f g n s0 t0 _ F) as (t' & E & st2 & z & E1 & E2 & C2 & LT2) end end.
    { do 2 eexists. split; [reflexivity|]. split; [reflexivity|]. auto. }
    { clear - Lp. set (i := 2 ^ (h - lv)). clearbody i. intros j s t s1 Hi (st & x & -> & -> & C & LT) F. cbv zeta in F. cbv beta iota zeta.
      replace (2 * j / 2) with j by (rewrite Nat.mul_comm; symmetry; apply Nat.div_mul; lia).
      apply bind_ok in F. destruct F as (u & Gu & F). apply bind_ok in F. destruct F as (v & Gv & F).
      set (na1 := setTreeIndex _ _) in *. destruct (hash_h hf (u ++ v) (firstn 32 ps) na1) as [out na2] eqn:Eh.
      apply bind_ok in F. destruct F as (st1 & S1 & F). apply Ok_inj' in F. subst s1.
      replace (i + 2 * j + 1) with (S (i + 2 * j)) in Gv by lia.
      destruct (tail_two _ _ _ _ C Gu Gv) as [T1 T2]. pose proof (get_lt _ _ _ _ Gu).
      replace (i * 32 + 2 * j * 32) with ((i + 2 * j) * 32) by lia. rewrite rslice_cells by (auto; lia). cbn [rbind].
      assert (EJ : i / 2 * 32 + j * 32 = (i / 2 + j) * 32) by (generalize (i / 2); intros; lia).
      destruct (rs_hash_cell hf st st1 (i / 2 + j) _ u v ps na1 out na2 _ C Lp T1 T2 Eh S1 EJ) as (W & C1 & L1).
      rewrite W. eexists. split; [reflexivity|]. do 2 eexists. split; [reflexivity|]. split; [reflexivity|]. split; [exact C1|lia]. }
    rewrite E. subst t'. subst s1. eexists. split; [reflexivity|]. do 2 eexists. split; [reflexivity|]. split; [reflexivity|]. auto. }
  rewrite E. clear E H2. subst t'. injection E1 as <- <-. cbn [rbind].
  (* path *)
  match type of H3 with for_up ?n ?f ?s0 = _ => match goal with |- context [rfor n ?g ap] =>
    destruct (rfor_simi _ _ (fun i s t => t = concat s ++ skipn (i * 32) ap /\ cellsok s /\ length s = i) f g n s0 ap _ H3) as (t' & E & E1 & C3 & L3) end end.
  { split; [reflexivity|]. split; [constructor|reflexivity]. }
  { intros i s t s1 Hi (-> & Cs & Lsn) F. apply bind_ok in F. destruct F as (c & Gc & F). apply Ok_inj' in F. subst s1.
    cbv beta iota zeta. pose proof (get_lt _ _ _ _ Gc) as B. rewrite LT2 in B.
    assert (P26 : 2 ^ h <= 2 ^ 25) by (apply Nat.pow_le_mono_r; lia).
    assert (P32 : 2 ^ 32 = 128 * 2 ^ 25) by (change 32 with (7 + 25) at 1; rewrite Nat.pow_add_r; reflexivity).
    assert (EC : u32 (N.lxor (N.shiftr idx (N.of_nat i)) 1) = N.of_nat (Nat.lxor (N.to_nat idx / 2 ^ i) 1)).
    { rewrite N_of_nat_lxor. rewrite <- N_shiftr_nat, N2Nat.id. change (N.of_nat 1) with 1%N.
      unfold u32. apply N.mod_small. rewrite <- (N2Nat.id idx), N_shiftr_nat. change 1%N with (N.of_nat 1). rewrite <- N_of_nat_lxor.
      apply N.lt_le_trans with (N.of_nat (2 * 2 ^ h)); [lia|]. change (2 ^ 32)%N with (N.of_nat 2 ^ N.of_nat 32)%N. rewrite <- Nat2N.inj_pow.
      rewrite P32. clear P32. generalize dependent (2 ^ 25). intros. lia. }
    rewrite EC. set (c0 := Nat.lxor (N.to_nat idx / 2 ^ i) 1) in *. set (d := 2 ^ h / 2 ^ i) in *.
    replace (N.of_nat d * 32 + N.of_nat c0 * 32)%N with (N.of_nat ((d + c0) * 32)) by lia.
    assert (B2 : (N.of_nat ((d + c0) * 32) < 2 ^ 32)%N).
    { change (2 ^ 32)%N with (N.of_nat 2 ^ N.of_nat 32)%N. rewrite <- Nat2N.inj_pow.
      rewrite P32. clear P32. generalize dependent (2 ^ 25). intros. lia. }
    destruct (2 ^ 32 <=? N.of_nat ((d + c0) * 32))%N eqn:EB; [apply N.leb_le in EB; lia|].
    rewrite Nat2N.id. rewrite (rslice_cell tree2 (d + c0) c) by auto. cbn [rbind].
    pose proof (cellsok_get _ _ _ C2 Gc) as Lc. pose proof (flat_length s Cs) as LF. rewrite Lsn in LF.
    rewrite (rwith_ok _ _ _ _ _ c); [|lia|rewrite app_length, skipn_length; lia|].
    2:{ apply rcopy_ok. rewrite skipn_app_at by auto. rewrite firstn_length, skipn_length. lia. }
    eexists. split; [reflexivity|]. split; [|split; [apply Forall_app; auto|rewrite app_length; cbn [length]; lia]].
    rewrite firstn_app_at by auto. rewrite concat_app. cbn [concat]. rewrite app_nil_r, <- app_assoc. do 2 f_equal.
    rewrite <- skipn_skipn_add, skipn_app_at by auto. rewrite skipn_skipn_add. f_equal. lia. }
  rewrite E. subst t'. cbn [rbind]. pose proof (rslice_cell tree2 1 r C2 G) as RS. change (1 * 32) with 32 in RS. change (32 + 32) with 64 in RS.
  rewrite RS. cbn [rbind]. rewrite rcopy_ok by (rewrite Lr; apply (cellsok_get _ _ _ C2 G)). cbn [rbind].
  rewrite (skipn_all2 ap) by lia. now rewrite app_nil_r.
Qed.

(** ** Key generation *)
Lemma rs_store_be32_eq : forall l v, 4 <= length l -> rs_store_be32 l v = ROk (to_byte 4 v ++ skipn 4 l).
Proof.
  intros l v H. destruct l as [|x0 [|x1 [|x2 [|x3 l]]]]; cbn [length] in H; try lia.
  unfold rs_store_be32. rewrite !rset_ok by (cbn [length]; lia). cbn [rbind firstn skipn app].
  repeat (rewrite rset_ok by (cbn [length]; lia); cbn [rbind firstn skipn app]).
  f_equal. cbn [to_byte app]. unfold u8. rewrite !N.shiftr_div_pow2.
  change (2 ^ 24)%N with (256 * 256 * 256)%N. change (2 ^ 16)%N with (256 * 256)%N. change (2 ^ 8)%N with 256%N.
  rewrite !N.div_div by discriminate. rewrite !N.mul_assoc. reflexivity.
Qed.
Lemma rs_zero4 : forall l A (k : list N -> rs A), 4 <= length l ->
  (l <~ rset l 0 0%N ;; l <~ rset l 1 0%N ;; l <~ rset l 2 0%N ;; l <~ rset l 3 0%N ;; k l) = k ([0; 0; 0; 0]%N ++ skipn 4 l).
Proof.
  intros l A k H. destruct l as [|x0 [|x1 [|x2 [|x3 l]]]]; cbn [length] in H; try lia.
  repeat (rewrite rset_ok by (cbn [length]; lia); cbn [rbind firstn skipn app]). reflexivity.
Qed.
Lemma rs_keystream : forall seed, length seed = 48 -> rs_fips_shake256 (repeat 0%N 96) 96 seed 48 = ROk (shake256 96 (firstn 48 seed)).
Proof.
  intros seed L. unfold rs_fips_shake256. rewrite (firstn_all2 seed) by lia. rewrite shake256_unfold.
  replace (rs_shake 136 (repeat 0%N 96) 96 seed 48) with (rs_shake 136 (repeat 0%N 96) 96 seed (length seed)) by (now rewrite L).
  rewrite rs_shake_eq by (rewrite ?repeat_length; lia). rewrite (skipn_all2 (repeat 0%N 96)) by (rewrite repeat_length; lia).
  rewrite app_nil_r. unfold rs_wrap. now rewrite (proj2 (Nat.ltb_lt (length seed) 136)) by lia.
Qed.

(** The part of key generation before the tree. *)
Lemma rs_keygen_front : forall pk sk seed rb A (k : list N -> list N -> list N -> list N -> rs A),
  rb = shake256 96 (firstn 48 seed) -> length pk = 64 -> length sk = 132 -> length seed = 48 ->
  (sk <~ rset sk 0 0%N ;; sk <~ rset sk 1 0%N ;; sk <~ rset sk 2 0%N ;; sk <~ rset sk 3 0%N ;;
  randombits <~ rs_fips_shake256 (repeat 0%N 96) 96 seed 48 ;;
  src <~ rslice 0 96 randombits ;;
  sk <~ rwith 4 100 sk (fun d => rcopy src d) ;;
  src <~ rslice 68 100 sk ;;
  pk <~ rwith 32 64 pk (fun d => rcopy src d) ;;
  sk_seed <~ rslice 4 (length sk) sk ;;
  pub_seed <~ rslice 68 (length sk) sk ;;
  k sk pk sk_seed pub_seed) =
  k ([0; 0; 0; 0]%N ++ rb ++ skipn 100 sk) (firstn 32 pk ++ slice 64 32 rb) (rb ++ skipn 100 sk) (slice 64 32 rb ++ skipn 100 sk).
Proof.
  intros pk sk seed rb A k Erb Lp Lk Ls. assert (LR : length rb = 96) by (rewrite Erb; apply shake256_length).
  rewrite rs_zero4 by lia. rewrite rs_keystream by auto. rewrite <- Erb. clear Erb. cbn [rbind].
  rewrite rslice_ok by lia. cbn [rbind]. change (skipn 0 rb) with rb. rewrite (firstn_all2 rb) by lia.
  assert (L4 : length [0; 0; 0; 0]%N = 4) by reflexivity. set (z4 := [0; 0; 0; 0]%N) in *. clearbody z4.
  rewrite (rwith_ok _ 4 100 _ _ rb); [|lia|rewrite app_length, skipn_length; lia|].
  2:{ apply rcopy_ok. rewrite skipn_app_at by auto. rewrite firstn_length, skipn_length. lia. }
  cbn [rbind]. rewrite firstn_app_at by auto.
  replace (skipn 100 (z4 ++ skipn 4 sk)) with (skipn 100 sk).
  2:{ change 100 with (4 + 96) at 2. rewrite <- skipn_skipn_add. rewrite skipn_app_at by auto. now rewrite skipn_skipn_add. }
  assert (LT : length (skipn 100 sk) = 32) by (rewrite skipn_length; lia).
  set (T := skipn 100 sk) in *. clearbody T.
  assert (E68 : skipn 68 (z4 ++ rb ++ T) = slice 64 32 rb ++ T).
  { change 68 with (4 + 64) at 1. rewrite <- skipn_skipn_add. rewrite skipn_app_at by auto. rewrite skipn_app.
    replace (64 - length rb) with 0 by lia. change (skipn 0 T) with T. unfold slice. rewrite (firstn_all2 (skipn 64 rb)) by (rewrite skipn_length; lia). reflexivity. }
  assert (LS : length (slice 64 32 rb) = 32) by (apply slice_length; lia).
  rewrite (rslice_ok _ 68 100) by (rewrite ?app_length; lia). cbn [rbind]. rewrite E68.
  change (100 - 68) with 32. rewrite firstn_app_at by auto.
  rewrite (rwith_ok _ 32 64 pk _ (slice 64 32 rb)); [|lia|lia|].
  2:{ apply rcopy_ok. rewrite LS, firstn_length, skipn_length. lia. }
  cbn [rbind]. rewrite (rslice_tail _ 4) by (rewrite !app_length; lia). cbn [rbind]. rewrite skipn_app_at by auto.
  rewrite (rslice_tail _ 68) by (rewrite !app_length; lia). cbn [rbind]. rewrite E68.
  rewrite (skipn_all2 pk) by lia. rewrite app_nil_r. reflexivity.
Qed.
Lemma rs_store_root : forall rb T pk root, length rb = 96 -> length T = 32 -> length root = 32 ->
  (src <~ rslice 0 32 (root ++ pk) ;; rwith 100 132 ([0; 0; 0; 0]%N ++ rb ++ T) (fun d => rcopy src d)) = ROk ([0; 0; 0; 0]%N ++ rb ++ root).
Proof.
  intros rb T pk root L1 L2 L3. rewrite rslice_ok by (rewrite ?app_length; lia). cbn [rbind]. change (skipn 0 (root ++ pk)) with (root ++ pk).
  change (32 - 0) with 32. rewrite firstn_app_at by auto. rewrite app_assoc.
  assert (L : length ([0; 0; 0; 0]%N ++ rb) = 100) by (rewrite app_length, L1; reflexivity).
  rewrite (rwith_ok _ 100 132 _ _ root); [|lia|rewrite app_length; lia|].
  2:{ apply rcopy_ok. rewrite skipn_app_at by auto. rewrite firstn_length. lia. }
  rewrite firstn_app_at by auto. rewrite (skipn_all2 ((_ ++ rb) ++ T)) by (rewrite app_length; lia).
  rewrite app_nil_r, <- app_assoc. reflexivity.
Qed.

Definition rs_keygen_back (hf : hashfn) (p : xmss_params) (sk pk sk_seed pub_seed : list N) : rs (list N * list N) :=
  pk <~ rs_treehash hf pk (x_h p) sk_seed p pub_seed zero_adrs ;;
  src <~ rslice 0 32 pk ;;
  sk <~ rwith 100 132 sk (fun d => rcopy src d) ;;
  ROk (pk, sk).
Lemma rs_keygen_back_eq : forall hf p (pk rb T root : list N), length pk = 64 -> length rb = 96 -> length T = 32 -> x_h p < 32 ->
  treehash hf (repeat 0%N 32) (x_h p) (slice 0 32 rb) p (slice 64 32 rb) zero_adrs = Ok root ->
  exists pk', rs_keygen_back hf p ([0; 0; 0; 0]%N ++ rb ++ T) pk (rb ++ T) (slice 64 32 rb ++ T) = ROk (pk', [0; 0; 0; 0]%N ++ rb ++ root).
Proof.
  intros hf p pk rb T root Lp LR LT Hh E. unfold rs_keygen_back.
  assert (LS : length (slice 64 32 rb) = 32) by (apply slice_length; lia).
  destruct (rs_treehash_eq hf pk (x_h p) (rb ++ T) p (slice 64 32 rb ++ T) zero_adrs root) as [R LRt].
  - lia.
  - rewrite app_length; lia.
  - rewrite app_length; lia.
  - auto.
  - rewrite (firstn_app_at _ 32 (slice 64 32 rb)) by auto.
    replace (firstn 32 (rb ++ T)) with (slice 0 32 rb); [exact E|].
    rewrite firstn_app. replace (32 - length rb) with 0 by lia. change (firstn 0 T) with (@nil N). rewrite app_nil_r. reflexivity.
  - rewrite R. cbn [rbind]. pose proof (rs_store_root rb T (skipn 32 pk) root LR LT LRt) as SR.
    set (q := root ++ skipn 32 pk) in *. clearbody q. exists q.
    destruct (rslice 0 32 q) as [src| |]; cbn [rbind] in *; try discriminate. rewrite SR. reflexivity.
Qed.
Lemma rs_gen_keypair_split : forall hf p pk sk seed rb, rb = shake256 96 (firstn 48 seed) -> length pk = 64 -> length sk = 132 -> length seed = 48 ->
  rs_gen_keypair hf p pk sk seed = rs_keygen_back hf p ([0; 0; 0; 0]%N ++ rb ++ skipn 100 sk) (firstn 32 pk ++ slice 64 32 rb) (rb ++ skipn 100 sk) (slice 64 32 rb ++ skipn 100 sk).
Proof. intros hf p pk sk seed rb Erb Lp Lk Ls. exact (rs_keygen_front pk sk seed rb _ (rs_keygen_back hf p) Erb Lp Lk Ls). Qed.
Lemma Genkeypair_split : forall hf j p seed k rb, rb = shake256 96 (firstn 48 seed) -> xmss_Genkeypair hf j p seed = Ok k ->
  exists root, treehash hf j (x_h p) (slice 0 32 rb) p (slice 64 32 rb) zero_adrs = Ok root /\ k = [0; 0; 0; 0]%N ++ rb ++ root.
Proof.
  intros hf j p seed k rb Erb H. unfold xmss_Genkeypair in H. cbv zeta in H. rewrite <- Erb in H. clear Erb.
  apply bind_ok in H. destruct H as (root & E & H). apply Ok_inj' in H. exists root. auto.
Qed.
Lemma rs_gen_keypair_eq : forall hf p pk sk seed k, length pk = 64 -> length sk = 132 -> length seed = 48 -> x_h p < 32 ->
  xmss_Genkeypair hf (repeat 0%N 32) p seed = Ok k ->
  exists pk', rs_gen_keypair hf p pk sk seed = ROk (pk', k).
Proof.
  intros hf p pk sk seed k Lp Lk Ls Hh H.
  assert (X : exists rb, rb = shake256 96 (firstn 48 seed) /\ length rb = 96) by (eexists; split; [reflexivity|apply shake256_length]).
  destruct X as (rb & Erb & LR). destruct (Genkeypair_split _ _ _ _ _ _ Erb H) as (root & E & ->).
  rewrite (rs_gen_keypair_split hf p pk sk seed rb Erb Lp Lk Ls). clear Erb H.
  assert (LS : length (slice 64 32 rb) = 32) by (apply slice_length; lia).
  apply rs_keygen_back_eq; auto; rewrite ?app_length, ?firstn_length, ?skipn_length; lia.
Qed.

(** ** Signing *)
Section Front.
  Variables (hf : hashfn) (sk sig msg : list N).
  Hypotheses (Lk : length sk = 132) (Hb : all_bytes sk) (Ls : 36 <= length sig).
  Let idx := from_be (slice 0 4 sk).
  Let R := prf hf (to_byte 32 idx) (slice 36 32 sk).
  Let root := slice 100 32 sk.
  Hypothesis (Hi : (idx + 1 < 2 ^ 32)%N).

  Lemma rs_sign_front_gen : rs_sign_front hf sk sig msg =
    msg_h <~ rs_h_msg hf (repeat 0%N 32) msg (length msg) (R ++ root ++ to_byte 32 idx) ;;
    ROk (idx, slice 4 32 sk, slice 68 32 sk, to_byte 4 (idx + 1) ++ skipn 4 sk, msg_h, to_byte 4 idx ++ R ++ skipn 36 sig).
  Proof.
    unfold rs_sign_front. rewrite rs_be32_eq by (auto; lia). cbn [rbind]. fold idx.
    assert (LZ : length (repeat 0%N 32) = 32) by apply repeat_length.
    rewrite (rslice_ok _ 4 36), (rslice_ok _ 36 68), (rslice_ok _ 68 100) by lia. cbn [rbind].
    change (firstn (36 - 4) (skipn 4 sk)) with (slice 4 32 sk). change (firstn (68 - 36) (skipn 36 sk)) with (slice 36 32 sk).
    change (firstn (100 - 68) (skipn 68 sk)) with (slice 68 32 sk).
    rewrite !rcopy_ok by (rewrite LZ; apply slice_length; lia). cbn [rbind].
    rewrite rs_to_byte_eq by lia. cbn [rbind]. rewrite (skipn_all2 (repeat 0%N 32)) by lia. rewrite app_nil_r.
    destruct (2 ^ 32 <=? idx + 1)%N eqn:E; [apply N.leb_le in E; lia|]. clear E.
    rewrite rs_store_be32_eq by lia. cbn [rbind].
    assert (L36 : length (slice 36 32 sk) = 32) by (apply slice_length; lia).
    rewrite rs_prf_eq by (rewrite ?to_byte_length; lia). cbn [rbind]. rewrite (skipn_all2 (repeat 0%N 32)) by lia. rewrite app_nil_r.
    rewrite (firstn_all2 (to_byte 32 idx)) by (rewrite to_byte_length; lia). rewrite (firstn_all2 (slice 36 32 sk)) by lia. fold R.
    assert (LR : length R = 32) by apply prf_length.
    assert (Lrt : length root = 32) by (apply slice_length; lia).
    assert (L4 : length (to_byte 4 (idx + 1)) = 4) by apply to_byte_length.
    rewrite (rslice_ok _ 100 132) by (rewrite ?app_length, ?skipn_length; lia). cbn [rbind].
    replace (firstn (132 - 100) (skipn 100 (to_byte 4 (idx + 1) ++ skipn 4 sk))) with root.
    2:{ change (132 - 100) with 32. change 100 with (4 + 96) at 1. rewrite <- skipn_skipn_add. rewrite skipn_app_at by auto. rewrite skipn_skipn_add. reflexivity. }
    rewrite (hash_key_eq R root idx LR Lrt).
    destruct (rs_h_msg hf (repeat 0%N 32) msg (length msg) (R ++ root ++ to_byte 32 idx)) as [mh|e|]; cbn [rbind]; auto.
    rewrite rs_store_be32_eq by lia. cbn [rbind].
    assert (L4' : length (to_byte 4 idx) = 4) by apply to_byte_length.
    rewrite (rwith_tail _ 4 _ _ (R ++ skipn 36 sig)).
    - cbn [rbind]. rewrite firstn_app_at by auto. reflexivity.
    - rewrite app_length. lia.
    - rewrite skipn_app_at by auto. rewrite rcopy_loop_ok by (rewrite ?skipn_length; lia).
      change (skipn 0 R) with R. rewrite (firstn_all2 R) by lia. change (firstn 0 (skipn 4 sig)) with (@nil N). cbn [app].
      rewrite skipn_skipn_add. reflexivity.
  Qed.
  Lemma rs_sign_front_ok : signable hf msg -> rs_sign_front hf sk sig msg =
    ROk (idx, slice 4 32 sk, slice 68 32 sk, to_byte 4 (idx + 1) ++ skipn 4 sk,
       h_msg hf (seen_message hf R root idx msg) (R ++ root ++ to_byte 32 idx), to_byte 4 idx ++ R ++ skipn 36 sig).
  Proof.
    intros HS. rewrite rs_sign_front_gen. rewrite rs_h_msg_eq; auto; [apply prf_length|apply slice_length; lia].
  Qed.
  Lemma rs_sign_front_panic : ~ signable hf msg -> rs_sign_front hf sk sig msg = RPanic.
  Proof.
    intros HS. rewrite rs_sign_front_gen. rewrite rs_h_msg_panic; auto.
    rewrite !app_length, to_byte_length. unfold R. rewrite prf_length. unfold root. rewrite slice_length by lia. reflexivity.
  Qed.
End Front.

(** The message hashed by a key at its current index. *)
Definition sk_seen (hf : hashfn) (sk msg : list N) : list N :=
  seen_message hf (prf hf (to_byte 32 (from_be (slice 0 4 sk))) (slice 36 32 sk)) (slice 100 32 sk) (from_be (slice 0 4 sk)) msg.

Lemma rs_sign_msg_eq : forall hf p sk sig msg sk' s, wots_ok (x_wots p) -> length sk = 132 -> all_bytes sk ->
  length sig = 36 + w_keysize (x_wots p) + x_h p * 32 -> (from_be (slice 0 4 sk) + 1 < 2 ^ 32)%N -> signable hf msg ->
  xmss_Signmsg hf (repeat 0%N 32) p sk (sk_seen hf sk msg) = Ok (sk', s) ->
  rs_sign_msg hf p sk sig msg = ROk (sk', s).
Proof.
  intros hf p sk sig msg sk' s HP Lk Hb Ls Hi HS H. unfold w_keysize in *. unfold xmss_Signmsg in H. unfold rs_sign_msg.
  rewrite rs_sign_front_ok by (auto; lia). cbn [rbind]. fold (sk_seen hf sk msg). cpp_adrs.
  set (idx := from_be (slice 0 4 sk)) in *. set (R := prf hf (to_byte 32 idx) (slice 36 32 sk)) in *.
  set (mh := h_msg hf _ _) in *. assert (Lm : length mh = 32) by apply core_hash_length. clearbody mh.
  assert (L4 : length (slice 4 32 sk) = 32) by (apply slice_length; lia).
  assert (L68 : length (slice 68 32 sk) = 32) by (apply slice_length; lia).
  destruct (rs_get_seed_eq hf (repeat 0%N 32) (slice 4 32 sk) (setOTSADRS (setType zero_adrs 0) idx) (repeat_length _ _) ltac:(lia)) as [E L].
  rewrite (firstn_all2 (slice 4 32 sk)) in E, L by lia. rewrite E. clear E.
  destruct (get_seed hf (slice 4 32 sk) (setOTSADRS (setType zero_adrs 0) idx)) as [os oa]. cbn [fst] in L. cbn [rbind].
  apply bind_ok in H. destruct H as ([ws oa'] & E1 & H). apply bind_ok in H. destruct H as ([r path] & E2 & H). apply Ok_inj' in H. apply pair_equal_spec in H. destruct H as [<- <-].
  set (head := to_byte 4 idx ++ R).
  assert (LH : length head = 36) by (unfold head, R; rewrite app_length, to_byte_length, prf_length; reflexivity).
  assert (L36 : length (skipn 36 sig) = w_len (x_wots p) * 32 + x_h p * 32) by (rewrite skipn_length; lia).
  rewrite (app_assoc _ R). fold head.
  destruct (rs_wots_sign_eq hf (skipn 36 sig) mh os (x_wots p) (slice 68 32 sk) oa ws oa' HP Lm ltac:(lia) ltac:(lia) ltac:(lia)
    ltac:(rewrite (firstn_all2 os), (firstn_all2 (slice 68 32 sk)) by lia; exact E1)) as (W & CW & LW).
  rewrite (rwith_adr_ok 36 (head ++ skipn 36 sig) _ (concat ws ++ skipn (w_len (x_wots p) * 32) (skipn 36 sig)) oa').
  2: rewrite app_length; lia.
  2: rewrite skipn_app_at by auto; exact W.
  cbn [rbind]. rewrite firstn_app_at by auto.
  pose proof (flat_length ws CW) as LF. rewrite LW in LF. unfold w_keysize.
  assert (LA : length (head ++ concat ws) = 36 + w_len (x_wots p) * 32) by (rewrite app_length; lia).
  rewrite (app_assoc head).
  assert (LT : length (skipn (w_len (x_wots p) * 32) (skipn 36 sig)) = x_h p * 32) by (rewrite skipn_length; lia).
  set (T := skipn (w_len (x_wots p) * 32) (skipn 36 sig)) in *. clearbody T.
  rewrite (rwith_tail _ (36 + w_len (x_wots p) * 32) _ _ (concat path)).
  - cbn [rbind]. rewrite firstn_app_at by auto. unfold head. rewrite <- !app_assoc. do 3 f_equal.
    unfold u32. now rewrite N.mod_small.
  - rewrite app_length. lia.
  - rewrite skipn_app_at by auto.
    rewrite (rs_compute_authpath_eq hf (repeat 0%N 32) T idx (slice 4 32 sk) p (slice 68 32 sk) oa' r path); auto; try lia.
    + rewrite (firstn_all2 (slice 4 32 sk)), (firstn_all2 (slice 68 32 sk)) by lia. exact E2.
Qed.
Lemma rs_sign_msg_panic : forall hf p sk sig msg, length sk = 132 -> all_bytes sk ->
  36 <= length sig -> (from_be (slice 0 4 sk) + 1 < 2 ^ 32)%N -> ~ signable hf msg ->
  rs_sign_msg hf p sk sig msg = RPanic.
Proof. intros. unfold rs_sign_msg. now rewrite rs_sign_front_panic. Qed.
