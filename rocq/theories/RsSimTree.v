(** Simulation of the Rust L-tree, authentication path and verifier (RsWots.v) and of
    algsxmss.rs (RsAlgs.v) by the C++ model. *)
From Coq Require Import List NArith Arith Lia Bool.
From Verif Require Import Base Bytes Keccak KeccakLemmas Sha256 HashAddress Wots XmssCommon AlgsXmss XmssRefine WotsProofs
  RsBase RsKeccak RsShake RsHash RsSim RsWots RsSimWots RsAlgs DescrProofs SpecRust.
Import ListNotations.
Open Scope nat_scope.

(** ** L-tree *)
Lemma rs_hash_cell : forall hf l l' i j a b ps ad out ad' inp,
  cellsok l -> 32 <= length ps ->
  firstn 64 inp = a ++ b -> 64 <= length inp ->
  hash_h hf (a ++ b) (firstn 32 ps) ad = (out, ad') -> set l i out = Ok l' -> j = i * 32 ->
  rwith_adr j (concat l) (fun o => rs_hash_h hf o inp ps ad) = ROk (concat l', ad') /\ cellsok l' /\ length l' = length l.
Proof.
  intros hf l l' i j a b ps ad out ad' inp H Hp Hi Li Eh Hs ->.
  assert (Lo : length out = 32) by (change out with (fst (out, ad')); rewrite <- Eh; apply hash_h_length).
  pose proof (set_split _ _ _ _ _ Hs) as [HL ->].
  split; [|split; [now apply cellsok_upd|apply upd_length]].
  apply (rwith_adr_cell l (upd l i out) i out ad'); auto.
  pose proof (cellsok_skipn i l H) as HC. pose proof (flat_length _ HC) as LF. rewrite skipn_length in LF.
  rewrite rs_hash_h_eq by lia. rewrite Hi, Eh. reflexivity.
Qed.

Lemma rs_l_tree_pass_eq : forall hf bound ps pk a pk' a', 32 <= length ps -> cellsok pk ->
  l_tree_pass hf bound (firstn 32 ps) (pk, a) = Ok (pk', a') ->
  rs_l_tree_pass hf bound ps (concat pk, a) = ROk (concat pk', a') /\ cellsok pk' /\ length pk' = length pk.
Proof.
  intros hf bound ps pk a pk' a' Hp Hc H. unfold l_tree_pass in H. unfold rs_l_tree_pass.
  destruct (rfor_sim _ _ (fun s t => t = (concat (fst s), snd s) /\ cellsok (fst s) /\ length (fst s) = length pk)
     _ (fun i '(pk, addr) =>
    let addr := rs_set_tree_index addr (N.of_nat i) in
    input <~ rslice (i * 2 * 32) (length pk) pk ;;
    rwith_adr (i * 32) pk (fun out => rs_hash_h hf out input ps addr)) bound (pk, a) (concat pk, a) (pk', a') H) as (t' & E & E1 & E2 & E3).
  - cbn [fst snd]. auto.
  - intros i [pk1 a1] t [pk2 a2] Hi (-> & C1 & L1) F. cbn [fst snd] in *. cpp_adrs. cbv zeta in *.
    apply bind_ok in F. destruct F as (x & Gx & F). apply bind_ok in F. destruct F as (y & Gy & F).
    destruct (hash_h hf (x ++ y) (firstn 32 ps) (setTreeIndex a1 (N.of_nat i))) as [out ad'] eqn:Eh.
    apply bind_ok in F. destruct F as (pk3 & Hs & F). apply Ok_inj' in F. injection F as <- <-.
    replace (2 * i) with (i * 2) in Gx by lia. replace (2 * i + 1) with (S (i * 2)) in Gy by lia.
    destruct (tail_two _ _ _ _ C1 Gx Gy) as [T1 T2].
    pose proof (get_lt _ _ _ _ Gx).
    rewrite rslice_cells by (auto; lia). cbn [rbind].
    destruct (rs_hash_cell hf pk1 pk3 i (i * 32) x y ps _ out ad' (concat (skipn (i * 2) pk1)) C1 Hp T1 T2 Eh Hs eq_refl) as (W & C & L).
    rewrite W. eexists. split; [reflexivity|]. cbn [fst snd]. repeat split; auto. congruence.
  - split; [|auto]. cbn [fst snd] in E1. subst t'. exact E.
Qed.

Lemma rcopy_within_cell : forall l l' i j x, cellsok l -> get l i = Ok x -> set l j x = Ok l' ->
  rcopy_within (i * 32) 32 (j * 32) (concat l) = ROk (concat l').
Proof.
  intros l l' i j x H G S. unfold rcopy_within. rewrite (rslice_cell l i x) by auto. cbn [rbind].
  apply set_split in S. destruct S as [S ->]. pose proof (flat_length l H).
  rewrite (proj2 (Nat.leb_le _ _)) by lia. now rewrite flat_upd.
Qed.

Lemma rs_l_tree_loop_eq : forall hf ps, 32 <= length ps -> forall fuel l height pk a pk' a', cellsok pk ->
  l_tree_loop hf fuel l height (firstn 32 ps) (pk, a) = Ok (pk', a') ->
  rs_l_tree_loop hf fuel l height ps (concat pk, a) = ROk (concat pk', a') /\ cellsok pk'.
Proof.
  intros hf ps Hp. induction fuel; intros l height pk a pk' a' Hc H; cbn [l_tree_loop rs_l_tree_loop] in *; destruct (l <=? 1).
  - apply Ok_inj' in H. injection H as <- <-. auto.
  - discriminate.
  - apply Ok_inj' in H. injection H as <- <-. auto.
  - apply bind_ok in H. destruct H as ([pk1 a1] & E1 & H).
    destruct (rs_l_tree_pass_eq hf (l / 2) ps pk a pk1 a1 Hp Hc E1) as (R1 & C1 & _). rewrite R1. cbn [rbind].
    apply bind_ok in H. destruct H as ([pk2 l2] & E2 & H). cpp_adrs.
    assert (X : (if Nat.odd l then pk0 <~ rcopy_within ((l - 1) * 32) 32 (l / 2 * 32) (concat pk1) ;; ROk (pk0, l / 2 + 1)
                 else ROk (concat pk1, l / 2)) = ROk (concat pk2, l2) /\ cellsok pk2).
    { destruct (Nat.odd l).
      - apply bind_ok in E2. destruct E2 as (x & Gx & E2). apply bind_ok in E2. destruct E2 as (pk3 & Hs & E2).
        apply Ok_inj' in E2. injection E2 as <- <-. rewrite (rcopy_within_cell pk1 pk3 (l - 1) (l / 2) x) by auto. split; [reflexivity|].
        pose proof (set_split _ _ _ _ _ Hs) as [_ ->]. apply cellsok_upd; auto. now apply (cellsok_get _ _ _ C1 Gx).
      - apply Ok_inj' in E2. injection E2 as <- <-. auto. }
    destruct X as [X C2]. rewrite X. cbn [rbind]. now apply IHfuel.
Qed.

Lemma rs_l_tree_eq : forall hf p leaf pk ps a c a', 32 <= length ps -> cellsok pk -> 32 <= length leaf ->
  l_tree hf p pk (firstn 32 ps) a = Ok (c, a') ->
  rs_l_tree hf p leaf (concat pk) ps a = ROk (c ++ skipn 32 leaf, a') /\ length c = 32.
Proof.
  intros hf p leaf pk ps a c a' Hp Hc Hl H. unfold l_tree in H. unfold rs_l_tree. cpp_adrs.
  apply bind_ok in H. destruct H as ([pk1 a1] & E1 & H). apply bind_ok in H. destruct H as (c1 & G & H).
  apply Ok_inj' in H. injection H as <- <-.
  destruct (rs_l_tree_loop_eq hf ps Hp _ _ _ _ _ _ _ Hc E1) as (R & C). rewrite R. cbn [rbind].
  pose proof (rslice_cell pk1 0 c1 C G) as RS. change (0 * 32) with 0 in RS. change (0 + 32) with 32 in RS. rewrite RS. cbn [rbind].
  pose proof (cellsok_get _ _ _ C G) as Lc.
  rewrite (rwith_ok _ 0 32 leaf _ c1); [|lia|lia|apply rcopy_ok; change (skipn 0 leaf) with leaf; rewrite firstn_length; lia].
  cbn [rbind]. auto.
Qed.

(** ** Authentication path *)
Lemma u32_u32 : forall x, u32 (u32 x) = u32 x.
Proof. intros. unfold u32. apply N.mod_mod. discriminate. Qed.
Lemma setTreeIndex_u32 : forall a v, setTreeIndex a (u32 v) = setTreeIndex a v.
Proof. intros. unfold setTreeIndex. now rewrite u32_u32. Qed.

(** Copying one cell into half of a two-cell buffer. *)
Lemma rcopy_left : forall (c s bl br : list N), length c = 32 -> length bl = 32 -> length br = 32 ->
  rcopy_loop 32 (c ++ s) 0 (bl ++ br) 0 = ROk (c ++ br).
Proof.
  intros. rewrite rcopy_loop_ok by (rewrite app_length; lia). change (skipn 0 (c ++ s)) with (c ++ s). change (firstn 0 (bl ++ br)) with (@nil N).
  change (0 + 32) with 32. rewrite firstn_app_at, skipn_app_at by auto. reflexivity.
Qed.
Lemma rcopy_right : forall (c s bl br : list N), length c = 32 -> length bl = 32 -> length br = 32 ->
  rcopy_loop 32 (c ++ s) 0 (bl ++ br) 32 = ROk (bl ++ c).
Proof.
  intros. rewrite rcopy_loop_ok by (rewrite app_length; lia). change (skipn 0 (c ++ s)) with (c ++ s).
  rewrite !firstn_app_at by auto. rewrite skipn_all2 by (rewrite app_length; lia). now rewrite app_nil_r.
Qed.

Lemma rs_validate_loop_eq : forall hf ps, 32 <= length ps -> forall n i leafidx bl br path pos ad l2 bl2 br2 ad2,
  length bl = 32 -> length br = 32 -> cellsok path -> pos <= length path ->
  validate_loop hf n (N.of_nat i) leafidx bl br path pos (firstn 32 ps) ad = Ok (l2, bl2, br2, ad2) ->
  rfor_from n i (fun i '(buffer, leafidx, authpath, addr) =>
      let addr := rs_set_tree_height addr (N.of_nat i) in
      let leafidx := N.shiftr leafidx 1 in
      let addr := rs_set_tree_index addr (u32 leafidx) in
      '(buffer, addr) <~
        (if N.odd leafidx then
           '(b, addr) <~ rwith_adr 32 buffer (fun o => rs_hash_h hf o buffer ps addr) ;;
           b <~ rcopy_loop 32 authpath 0 b 0 ;; ROk (b, addr)
         else
           '(b, addr) <~ rs_hash_h hf buffer buffer ps addr ;;
           b <~ rcopy_loop 32 authpath 0 b 32 ;; ROk (b, addr)) ;;
      authpath <~ rslice 32 (length authpath) authpath ;;
      ROk (buffer, leafidx, authpath, addr)) (bl ++ br, leafidx, concat (skipn pos path), ad)
  = ROk (bl2 ++ br2, l2, concat (skipn (pos + n) path), ad2) /\ length bl2 = 32 /\ length br2 = 32 /\ pos + n <= length path.
Proof.
  intros hf ps Hp. induction n; intros i leafidx bl br path pos ad l2 bl2 br2 ad2 Lb Lr Hc Hpos H; cbn [validate_loop rfor_from] in *.
  - apply Ok_inj' in H. injection H as <- <- <- <-. rewrite Nat.add_0_r. auto.
  - cpp_adrs. cbv zeta in *. rewrite setTreeIndex_u32.
    set (a1 := setTreeIndex (setTreeHeight ad (N.of_nat i)) (N.shiftr leafidx 1)) in *.
    destruct (hash_h hf (bl ++ br) (firstn 32 ps) a1) as [out a2] eqn:Eh.
    assert (Lo : length out = 32) by (change out with (fst (out, a2)); rewrite <- Eh; apply hash_h_length).
    apply bind_ok in H. destruct H as (c & G & H).
    pose proof (get_lt _ _ _ _ G). pose proof (cellsok_get _ _ _ Hc G) as Lc.
    rewrite (get_skipn_cons _ _ _ _ G). cbn [concat].
    assert (LB : length (bl ++ br) = 64) by (rewrite app_length; lia).
    assert (FB : firstn 64 (bl ++ br) = bl ++ br) by (apply firstn_all2; lia).
    assert (SA : rslice 32 (length (c ++ concat (skipn (S pos) path))) (c ++ concat (skipn (S pos) path)) = ROk (concat (skipn (S pos) path))).
    { rewrite rslice_tail by (rewrite app_length; lia). now rewrite skipn_app_at. }
    replace (N.of_nat i + 1)%N with (N.of_nat (S i)) in H by lia. replace (pos + S n) with (S pos + n) by lia.
    destruct (N.odd (N.shiftr leafidx 1)).
    + rewrite (rwith_adr_ok 32 (bl ++ br) _ out a2); [|lia|].
      2:{ rewrite skipn_app_at by auto. rewrite rs_hash_h_eq by lia. rewrite FB, Eh. cbn [fst snd]. rewrite skipn_all2 by lia. now rewrite app_nil_r. }
      cbn [rbind]. rewrite firstn_app_at by auto. rewrite rcopy_left by auto. cbn [rbind]. rewrite SA. cbn [rbind]. apply IHn; auto.
    + rewrite rs_hash_h_eq by lia. rewrite FB, Eh. cbn [fst snd rbind]. rewrite skipn_app_at by auto.
      rewrite rcopy_right by auto. cbn [rbind]. rewrite SA. cbn [rbind]. apply IHn; auto.
Qed.

Lemma rs_validate_authpath_eq : forall hf root leaf idx path h ps ad r, 32 <= length ps -> length leaf = 32 -> length root = 32 ->
  cellsok path -> 1 <= h ->
  validate_authpath hf leaf idx path h (firstn 32 ps) ad = Ok r ->
  exists ad', rs_validate_authpath hf root leaf idx (concat path) h ps ad = ROk (r, ad') /\ h <= length path.
Proof.
  intros hf root leaf idx path h ps ad r Hp Hl Hr Hc Hh H. unfold validate_authpath in H. unfold rs_validate_authpath.
  apply bind_ok in H. destruct H as (c & G & H). apply bind_ok in H. destruct H as ([[[l2 bl2] br2] ad2] & E & H).
  apply Ok_inj' in H. pose proof (cellsok_get _ _ _ Hc G) as Lc. pose proof (get_lt _ _ _ _ G) as Lp.
  destruct path as [|c0 path0]; [cbn in Lp; lia|].
  assert (c0 = c) by (cbv in G; congruence). subst c0. clear G Lp. set (path := c :: path0) in *.
  assert (EP : concat path = c ++ concat path0) by reflexivity.
  assert (Z : repeat 0%N 64 = repeat 0%N 32 ++ repeat 0%N 32) by reflexivity.
  assert (LZ : length (repeat 0%N 32) = 32) by apply repeat_length.
  assert (EL : leaf = leaf ++ []) by (now rewrite app_nil_r).
  rewrite Z. rewrite EP.
  assert (B : (if N.odd idx then b <~ rcopy_loop 32 leaf 0 (repeat 0%N 32 ++ repeat 0%N 32) 32 ;; rcopy_loop 32 (c ++ concat path0) 0 b 0
     else b <~ rcopy_loop 32 leaf 0 (repeat 0%N 32 ++ repeat 0%N 32) 0 ;; rcopy_loop 32 (c ++ concat path0) 0 b 32)
     = ROk (if N.odd idx then c ++ leaf else leaf ++ c)).
  { set (z := repeat 0%N 32) in *. clearbody z. destruct (N.odd idx).
    - rewrite EL at 1. rewrite rcopy_right by auto. cbn [rbind]. now rewrite rcopy_left.
    - rewrite EL at 1. rewrite rcopy_left by auto. cbn [rbind]. now rewrite rcopy_right. }
  rewrite B. cbn [rbind]. rewrite rslice_tail by (rewrite app_length; lia). rewrite skipn_app_at by auto. cbn [rbind].
  rewrite (proj2 (Nat.eqb_neq h 0)) by lia.
  set (bl := if N.odd idx then c else leaf). set (br := if N.odd idx then leaf else c).
  replace (if N.odd idx then c ++ leaf else leaf ++ c) with (bl ++ br) by (unfold bl, br; now destruct (N.odd idx)).
  assert (E' : validate_loop hf (h - 1) (N.of_nat 0) idx bl br path 1 (firstn 32 ps) ad = Ok (l2, bl2, br2, ad2)).
  { unfold bl, br. change (N.of_nat 0) with 0%N. now destruct (N.odd idx). }
  assert (Lbl : length bl = 32) by (unfold bl; now destruct (N.odd idx)).
  assert (Lbr : length br = 32) by (unfold br; now destruct (N.odd idx)).
  assert (P1 : 1 <= length path) by (cbn; lia).
  destruct (rs_validate_loop_eq hf ps Hp (h - 1) 0 idx bl br path 1 ad l2 bl2 br2 ad2 Lbl Lbr Hc P1 E') as (R & L1 & L2 & LL).
  change (concat (skipn 1 path)) with (concat path0) in R.
  unfold rfor. cpp_adrs. cbv zeta in R. rewrite R. cbn [rbind]. rewrite setTreeIndex_u32.
  rewrite rs_hash_h_eq by (rewrite ?app_length; lia). rewrite (firstn_all2 (bl2 ++ br2)) by (rewrite app_length; lia).
  rewrite H. rewrite (skipn_all2 root) by lia. rewrite app_nil_r. eexists. split; [reflexivity|lia].
Qed.

(** ** The message hash *)
Lemma eff_message : forall hf R root idx msg, length R = 32 -> length root = 32 ->
  eff hf (to_byte 32 2 ++ (R ++ root ++ to_byte 32 idx) ++ msg) =
  to_byte 32 2 ++ (R ++ root ++ to_byte 32 idx) ++ seen_message hf R root idx msg.
Proof.
  intros hf R root idx msg LR Lr. unfold seen_message.
  assert (L1 : length (to_byte 32 2) = 32) by apply to_byte_length.
  assert (L2 : length (to_byte 32 idx) = 32) by apply to_byte_length.
  set (t := to_byte 32 2) in *. set (b := to_byte 32 idx) in *. clearbody t b.
  assert (EA : forall x, t ++ (R ++ root ++ b) ++ x = (t ++ R ++ root ++ b) ++ x) by (intros; now rewrite <- !app_assoc).
  assert (EB : forall x, t ++ R ++ root ++ b ++ x = (t ++ R ++ root ++ b) ++ x) by (intros; now rewrite <- !app_assoc).
  rewrite EA, EB, EA. assert (LP : length (t ++ R ++ root ++ b) = 128) by (rewrite !app_length; lia).
  set (P := t ++ R ++ root ++ b) in *. clearbody P. clear - LP.
  assert (G : forall k, rs_wrap (128 + k) (P ++ msg) =
    P ++ (if length msg <? k then msg else firstn k msg ++ firstn (length msg - k) (P ++ msg))).
  { intros k. unfold rs_wrap. rewrite app_length, LP.
    destruct (length msg <? k) eqn:E.
    - apply Nat.ltb_lt in E. now rewrite (proj2 (Nat.ltb_lt _ _)) by lia.
    - apply Nat.ltb_ge in E. rewrite (proj2 (Nat.ltb_ge _ _)) by lia.
      rewrite firstn_app, LP. rewrite (firstn_all2 P) by lia. replace (128 + k - 128) with k by lia.
      rewrite <- app_assoc. reflexivity. }
  destruct hf; cbn [eff seen_bytes]; auto; [apply (G 40)|apply (G 8)].
Qed.
Lemma signable_limit : forall hf msg, signable hf msg <->
  (N.of_nat (length msg) + 128 < 2 ^ 32)%N /\ hash_limit hf (32 + 96 + length msg).
Proof.
  intros hf msg. assert (E : (2 ^ 32 = 4294967296)%N) by reflexivity.
  destruct hf; cbn [signable hash_limit]; rewrite ?E; lia.
Qed.

Lemma rs_h_msg_eq : forall hf R root idx msg, length R = 32 -> length root = 32 -> signable hf msg ->
  rs_h_msg hf (repeat 0%N 32) msg (length msg) (R ++ root ++ to_byte 32 idx) =
  ROk (h_msg hf (seen_message hf R root idx msg) (R ++ root ++ to_byte 32 idx)).
Proof.
  intros hf R root idx msg LR Lr HS. apply signable_limit in HS. destruct HS as [HS HL]. unfold rs_h_msg.
  destruct (2 ^ 32 <=? N.of_nat (length msg))%N eqn:E; [apply N.leb_le in E; lia|].
  assert (LK : length (R ++ root ++ to_byte 32 idx) = 96) by (rewrite !app_length, to_byte_length; lia).
  rewrite rs_core_hash_eq by (auto; try lia; rewrite repeat_length; lia).
  rewrite (firstn_all2 (R ++ _)) by lia. rewrite (firstn_all2 msg) by lia.
  rewrite (skipn_all2 (repeat 0%N 32)) by (rewrite repeat_length; lia). rewrite app_nil_r.
  rewrite eff_message by auto. unfold h_msg. now rewrite core_hash_hash32.
Qed.
Lemma rs_h_msg_panic : forall hf key msg, length key = 96 -> ~ signable hf msg ->
  rs_h_msg hf (repeat 0%N 32) msg (length msg) key = RPanic.
Proof.
  intros hf key msg LK HS. unfold rs_h_msg.
  destruct (2 ^ 32 <=? N.of_nat (length msg))%N eqn:E; [reflexivity|].
  destruct (N.lt_ge_cases (N.of_nat (length msg) + 128) (2 ^ 32)) as [H|H].
  - apply rs_core_hash_panic; [lia|auto|rewrite repeat_length; lia|]. intros HL. apply HS. apply signable_limit. auto.
  - Transparent rs_core_hash. unfold rs_core_hash. Opaque rs_core_hash.
    replace (2 ^ 32 <=? N.of_nat (length msg + 32 + 96))%N with true; [reflexivity|]. symmetry. apply N.leb_le. lia.
Qed.

(** ** Verification *)
Lemma rs_be32_eq : forall l, all_bytes l -> 4 <= length l -> rs_be32 l = ROk (from_be (slice 0 4 l)).
Proof.
  intros l Hb Hl. destruct l as [|b0 [|b1 [|b2 [|b3 l]]]]; cbn [length] in Hl; try lia.
  unfold rs_be32, slice. cbn [rget nth_error rbind firstn skipn]. f_equal.
  assert (B0 := Forall_inv Hb). assert (T0 := Forall_inv_tail Hb). assert (B1 := Forall_inv T0). assert (T1 := Forall_inv_tail T0).
  assert (B2 := Forall_inv T1). assert (T2 := Forall_inv_tail T1). assert (B3 := Forall_inv T2). clear Hb T0 T1 T2.
  unfold is_byte in *. change (from_be [b0; b1; b2; b3]) with ((((0 * 256 + b0) * 256 + b1) * 256 + b2) * 256 + b3)%N.
  assert (P24 : (2 ^ 24 = 16777216)%N) by reflexivity. assert (P16 : (2 ^ 16 = 65536)%N) by reflexivity. assert (P8 : (2 ^ 8 = 256)%N) by reflexivity.
  assert (E1 : N.lor (N.shiftl b0 24) (N.shiftl b1 16) = N.shiftl (b0 * 256 + b1) 16).
  { rewrite lor_shift; rewrite !N.shiftl_mul_pow2, ?P24, ?P16, ?P8; lia. }
  rewrite E1.
  assert (E2 : N.lor (N.shiftl (b0 * 256 + b1) 16) (N.shiftl b2 8) = N.shiftl ((b0 * 256 + b1) * 256 + b2) 8).
  { rewrite lor_shift; rewrite !N.shiftl_mul_pow2, ?P24, ?P16, ?P8; lia. }
  rewrite E2. rewrite lor_shift by (rewrite P8; lia). rewrite P8. lia.
Qed.

Lemma chunks_cellsok : forall k l, k * 32 <= length l -> cellsok (chunks k 32 l).
Proof.
  induction k; intros l H; cbn [chunks]; constructor.
  - rewrite firstn_length. lia.
  - apply IHk. rewrite skipn_length. lia.
Qed.
Lemma chunks_flat : forall k l, k * 32 <= length l -> concat (chunks k 32 l) = firstn (k * 32) l.
Proof.
  intros. rewrite <- (firstn_skipn (k * 32) l) at 1.
  assert (L : length (firstn (k * 32) l) = k * 32) by (rewrite firstn_length; lia).
  rewrite chunks_app by auto. now rewrite concat_chunks.
Qed.

(** The three pieces of the H_msg key. *)
Lemma hash_key_eq : forall r rt idx, length r = 32 -> length rt = 32 -> forall A (k : list N -> rs A),
  (hash_key <~ rwith 0 32 (repeat 0%N 96) (fun d => rcopy r d) ;;
   hash_key <~ rwith 32 64 hash_key (fun d => rcopy rt d) ;;
   hash_key <~ rwith 64 (length hash_key) hash_key (fun d => rs_to_byte d idx 32) ;;
   k hash_key) = k (r ++ rt ++ to_byte 32 idx).
Proof.
  intros r rt idx Lr Lt A k.
  assert (LZ : length (repeat 0%N 96) = 96) by apply repeat_length. set (z := repeat 0%N 96) in *. clearbody z.
  rewrite (rwith_ok _ 0 32 z _ r); [|lia|lia|apply rcopy_ok; rewrite firstn_length; change (skipn 0 z) with z; lia].
  cbn [rbind]. change (firstn 0 z) with (@nil N). cbn [app].
  rewrite (rwith_ok _ 32 64 _ _ rt); [|lia|rewrite app_length, skipn_length; lia|apply rcopy_ok; rewrite firstn_length, skipn_length, app_length, skipn_length; lia].
  cbn [rbind]. rewrite firstn_app_at by auto.
  replace (skipn 64 (r ++ skipn 32 z)) with (skipn 64 z).
  2:{ change 64 with (32 + 32) at 2. rewrite <- skipn_skipn_add. rewrite skipn_app_at by auto. now rewrite skipn_skipn_add. }
  assert (L64 : length (r ++ rt) = 64) by (rewrite app_length; lia).
  assert (LS : length (skipn 64 z) = 32) by (rewrite skipn_length; lia).
  set (y := skipn 64 z) in *. clearbody y. rewrite (app_assoc r).
  rewrite (rwith_tail _ 64 _ _ (to_byte 32 idx)).
  - cbn [rbind]. rewrite firstn_app_at by auto. now rewrite <- app_assoc.
  - rewrite app_length. lia.
  - rewrite skipn_app_at by auto. rewrite rs_to_byte_eq by lia. rewrite (skipn_all2 y) by lia. now rewrite app_nil_r.
Qed.

Lemma rs_root_compare : forall root pk, length root = 32 -> 32 <= length pk ->
  rfor 32 (fun i same => a <~ rget root i ;; b <~ rget pk i ;; ROk (same && (a =? b)%N)) true = ROk (bytes_eqb root (slice 0 32 pk)).
Proof.
  intros root pk Lr Lp.
  destruct (rfor_inv _ (fun i b => b = bytes_eqb (firstn i root) (firstn i pk))
    (fun i same => a <~ rget root i ;; b <~ rget pk i ;; ROk (same && (a =? b)%N)) 32 true) as [b [E E1]].
  - reflexivity.
  - intros i b Hi ->. rewrite (rget_nth _ root _ 0%N), (rget_nth _ pk _ 0%N) by lia. cbn [rbind]. eexists. split; [reflexivity|].
    rewrite (firstn_S_nth_error _ root i (nth i root 0%N)) by (apply nth_error_nth'; lia).
    rewrite (firstn_S_nth_error _ pk i (nth i pk 0%N)) by (apply nth_error_nth'; lia).
    unfold bytes_eqb. destruct (list_eq_dec N.eq_dec (firstn i root ++ [nth i root 0%N]) (firstn i pk ++ [nth i pk 0%N])) as [e|e].
    + apply app_inj_tail in e. destruct e as [e1 e2]. destruct (list_eq_dec N.eq_dec (firstn i root) (firstn i pk)); [|contradiction].
      rewrite e2, N.eqb_refl. reflexivity.
    + destruct (list_eq_dec N.eq_dec (firstn i root) (firstn i pk)) as [e1|e1]; [|reflexivity].
      cbn [andb]. apply N.eqb_neq. intros e2. apply e. congruence.
  - rewrite E, E1. unfold slice. change (skipn 0 pk) with pk. rewrite (firstn_all2 root) by lia. reflexivity.
Qed.

Definition sig_key (sig pk : list N) : list N := slice 4 32 sig ++ slice 0 32 pk ++ to_byte 32 (from_be (slice 0 4 sig)).

Lemma rs_xmss_verify_sig_eq : forall hf wp msg sig pk h b, wots_ok wp -> 1 <= h -> length pk = 64 -> all_bytes sig ->
  length sig = 36 + w_keysize wp + h * 32 -> signable hf msg ->
  xmss_Verifysig hf wp (seen_message hf (slice 4 32 sig) (slice 0 32 pk) (from_be (slice 0 4 sig)) msg) sig pk h = Ok b ->
  rs_xmss_verify_sig hf wp msg sig pk h = ROk b.
Proof.
  intros hf wp msg sig pk h b HP Hh Lp Hb Ls HS H. unfold w_keysize in *.
  unfold xmss_Verifysig in H. unfold rs_xmss_verify_sig. cpp_adrs.
  assert (LP2 : length (slice 32 32 pk) = 32) by (apply slice_length; lia).
  rewrite (rslice_ok _ 32 64) by lia. cbn [rbind]. change (firstn (64 - 32) (skipn 32 pk)) with (slice 32 32 pk).
  rewrite rcopy_ok by (rewrite repeat_length; auto). cbn [rbind].
  rewrite rs_be32_eq by (auto; lia). cbn [rbind]. set (idx := from_be (slice 0 4 sig)) in *.
  rewrite (rslice_ok _ 4 36) by lia. cbn [rbind]. change (firstn (36 - 4) (skipn 4 sig)) with (slice 4 32 sig).
  rewrite (rslice_ok _ 0 32) by lia. cbn [rbind]. change (firstn (32 - 0) (skipn 0 pk)) with (slice 0 32 pk).
  assert (LR : length (slice 4 32 sig) = 32) by (apply slice_length; lia).
  assert (Lrt : length (slice 0 32 pk) = 32) by (apply slice_length; lia).
  rewrite (rslice_tail _ 36 sig) by lia. cbn [rbind].
  rewrite (hash_key_eq (slice 4 32 sig) (slice 0 32 pk) idx LR Lrt).
  rewrite rs_h_msg_eq by auto. cbn [rbind].
  set (mh := h_msg hf _ _) in *. assert (Lm : length mh = 32) by apply core_hash_length. clearbody mh.
  apply bind_ok in H. destruct H as ([wpk aa] & E1 & H). apply bind_ok in H. destruct H as ([pkh ab] & E2 & H).
  apply bind_ok in H. destruct H as (root & E3 & H). apply Ok_inj' in H.
  set (T := skipn 36 sig) in *. assert (LT : length T = w_len wp * 32 + h * 32) by (unfold T; rewrite skipn_length; lia).
  set (cs := chunks (w_len wp) 32 T) in *.
  assert (CS : cellsok cs) by (apply chunks_cellsok; lia). assert (LC : length cs = w_len wp) by apply chunks_length.
  assert (ET : T = concat cs ++ skipn (w_len wp * 32) T) by (unfold cs; rewrite chunks_flat by lia; now rewrite firstn_skipn).
  assert (F32 : firstn 32 (slice 32 32 pk) = slice 32 32 pk) by (apply firstn_all2; lia).
  set (ps := slice 32 32 pk) in *.
  destruct (rs_wots_pk_from_sig_eq hf (repeat 0%N (w_keysize wp)) cs (skipn (w_len wp * 32) T) mh wp ps _ wpk aa HP Lm ltac:(lia) (repeat_length _ _) CS LC ltac:(rewrite F32; exact E1)) as (W & CW & LW).
  rewrite <- ET in W. rewrite W. cbn [rbind]. unfold w_keysize.
  rewrite rslice_tail by lia. cbn [rbind].
  assert (LZ : length (repeat 0%N 32) = 32) by apply repeat_length.
  destruct (rs_l_tree_eq hf wp (repeat 0%N 32) wpk ps _ pkh ab ltac:(lia) CW ltac:(lia) ltac:(rewrite F32; exact E2)) as (L & LH).
  rewrite L. cbn [rbind]. rewrite (skipn_all2 (repeat 0%N 32)) by lia. rewrite app_nil_r.
  assert (EA : skipn (w_len wp * 32) T = concat (chunks h 32 (skipn (36 + w_len wp * 32) sig))).
  { unfold T. rewrite skipn_skipn_add. rewrite concat_chunks; [reflexivity|]. rewrite skipn_length. lia. }
  rewrite EA.
  assert (CP : cellsok (chunks h 32 (skipn (36 + w_len wp * 32) sig))) by (apply chunks_cellsok; rewrite skipn_length; lia).
  destruct (rs_validate_authpath_eq hf (repeat 0%N 32) pkh idx _ h ps (setType zero_adrs 2) root ltac:(lia) LH LZ CP Hh ltac:(rewrite F32; exact E3)) as (ad' & V & _).
  rewrite V. cbn [rbind]. rewrite rslice_tail by (rewrite flat_length by auto; rewrite chunks_length; lia). cbn [rbind].
  rewrite <- H. apply rs_root_compare; [|lia].
  unfold validate_authpath in E3. apply bind_ok in E3. destruct E3 as (? & _ & E3). apply bind_ok in E3. destruct E3 as ([[[? ?] ?] ?] & _ & E3).
  apply Ok_inj' in E3. rewrite <- E3. apply hash_h_length.
Qed.

Lemma rs_xmss_verify_sig_panic : forall hf wp msg sig pk h, length pk = 64 -> all_bytes sig -> 36 <= length sig -> ~ signable hf msg ->
  rs_xmss_verify_sig hf wp msg sig pk h = RPanic.
Proof.
  intros hf wp msg sig pk h Lp Hb Ls HS. unfold rs_xmss_verify_sig.
  assert (LP2 : length (slice 32 32 pk) = 32) by (apply slice_length; lia).
  rewrite (rslice_ok _ 32 64) by lia. cbn [rbind]. change (firstn (64 - 32) (skipn 32 pk)) with (slice 32 32 pk).
  rewrite rcopy_ok by (rewrite repeat_length; auto). cbn [rbind].
  rewrite rs_be32_eq by (auto; lia). cbn [rbind].
  rewrite (rslice_ok _ 4 36) by lia. cbn [rbind]. change (firstn (36 - 4) (skipn 4 sig)) with (slice 4 32 sig).
  rewrite (rslice_ok _ 0 32) by lia. cbn [rbind]. change (firstn (32 - 0) (skipn 0 pk)) with (slice 0 32 pk).
  assert (LR : length (slice 4 32 sig) = 32) by (apply slice_length; lia).
  assert (Lrt : length (slice 0 32 pk) = 32) by (apply slice_length; lia).
  rewrite (rslice_tail _ 36 sig) by lia. cbn [rbind].
  rewrite (hash_key_eq (slice 4 32 sig) (slice 0 32 pk) _ LR Lrt).
  rewrite rs_h_msg_panic; [reflexivity| |auto]. rewrite !app_length, to_byte_length. lia.
Qed.
