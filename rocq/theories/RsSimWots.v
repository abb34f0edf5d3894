(** Simulation of the Rust WOTS, L-tree and verifier (RsWots.v) by the C++ model. *)
From Coq Require Import List NArith Arith Lia Bool.
From Verif Require Import Base Bytes Keccak KeccakLemmas Sha256 HashAddress Wots XmssCommon XmssRefine WotsProofs RsBase RsKeccak RsShake RsHash RsSim RsWots.
Import ListNotations.
Open Scope nat_scope.

(** Loops related step by step. *)
Lemma rfor_from_sim : forall S T (R : S -> T -> Prop) f g n a s t s',
  for_from n a f s = Ok s' -> R s t ->
  (forall i s t s1, a <= i < a + n -> R s t -> f i s = Ok s1 -> exists t1, g i t = ROk t1 /\ R s1 t1) ->
  exists t', rfor_from n a g t = ROk t' /\ R s' t'.
Proof.
  induction n; intros a s t s' H HR Hs; cbn [for_from rfor_from] in *.
  - injection H as <-. now exists t.
  - apply bind_ok in H. destruct H as (s1 & E1 & E2).
    destruct (Hs a s t s1) as (t1 & F1 & R1); [lia|auto|auto|]. rewrite F1. cbn [rbind].
    apply (IHn (Datatypes.S a) s1 t1 s' E2 R1). intros. apply (Hs i s0); auto; lia.
Qed.
Lemma rfor_sim : forall S T (R : S -> T -> Prop) f g n s t s',
  for_up n f s = Ok s' -> R s t ->
  (forall i s t s1, i < n -> R s t -> f i s = Ok s1 -> exists t1, g i t = ROk t1 /\ R s1 t1) ->
  exists t', rfor n g t = ROk t' /\ R s' t'.
Proof. intros. apply (rfor_from_sim S T R f g n 0 s t s'); auto. intros. apply (H1 i s0); auto; lia. Qed.

Lemma rwith_adr_ok : forall a l f c ad, a <= length l -> f (skipn a l) = ROk (c, ad) ->
  rwith_adr a l f = ROk (firstn a l ++ c, ad).
Proof. intros. unfold rwith_adr. rewrite rslice_tail by auto. cbn [rbind]. now rewrite H0. Qed.

(** Overwriting 32 bytes of a flat buffer. *)
Lemma rwith_adr_cell : forall l l' i c ad f, cellsok l -> length c = 32 -> set l i c = Ok l' ->
  f (concat (skipn i l)) = ROk (c ++ skipn 32 (concat (skipn i l)), ad) ->
  rwith_adr (i * 32) (concat l) f = ROk (concat l', ad).
Proof.
  intros l l' i c ad f H Hc Hs Hf. apply set_split in Hs. destruct Hs as [Hs ->]. pose proof (flat_length l H).
  rewrite (rwith_adr_ok _ _ _ (c ++ skipn 32 (concat (skipn i l))) ad); [|lia|now rewrite flat_skipn].
  rewrite flat_upd by auto. do 4 f_equal. rewrite <- flat_skipn by auto. now rewrite skipn_skipn_add.
Qed.

(** ** WOTS *)
Lemma cellsok_expand : forall hf sk n, cellsok (expand_seed hf sk n).
Proof. intros. unfold expand_seed. apply Forall_forall. intros c Hc. apply in_map_iff in Hc. destruct Hc as (i & <- & _). apply prf_length. Qed.

Lemma rs_expand_seed_eq : forall hf out sk n, 32 <= length sk -> n * 32 <= length out ->
  rs_expand_seed hf out sk n = ROk (concat (expand_seed hf (firstn 32 sk) n) ++ skipn (n * 32) out).
Proof.
  intros hf out sk n Hs Ho. unfold rs_expand_seed.
  destruct (rfor_inv _ (fun i '(o, c) => o = concat (expand_seed hf (firstn 32 sk) i) ++ skipn (i * 32) out /\ length c = 32)
    (fun i '(outseeds, ctr) =>
      ctr <~ rs_to_byte ctr (N.of_nat i) 32 ;;
      outseeds <~ rwith (i * 32) (length outseeds) outseeds (fun o => rs_prf hf o ctr sk) ;;
      ROk (outseeds, ctr)) n (out, repeat 0%N 32)) as [[o c] [E [E1 E2]]].
  - split; [reflexivity|apply repeat_length].
  - intros i [o c] Hi [-> Hc].
    rewrite rs_to_byte_eq by lia. cbn [rbind]. rewrite (skipn_all2 c) by lia. rewrite app_nil_r.
    pose proof (flat_length _ (cellsok_expand hf (firstn 32 sk) i)) as L. rewrite expand_seed_length in L.
    set (E0 := concat (expand_seed hf (firstn 32 sk) i)) in *.
    assert (LA : length (E0 ++ skipn (i * 32) out) = length out) by (rewrite app_length, skipn_length; lia).
    rewrite (rwith_tail _ (i * 32) _ _ (prf hf (to_byte 32 (N.of_nat i)) (firstn 32 sk) ++ skipn 32 (skipn (i * 32) out))).
    + cbn [rbind]. eexists. split; [reflexivity|]. split; [|apply to_byte_length].
      rewrite firstn_app_at by auto. unfold expand_seed. rewrite seq_S, map_app, concat_app. cbn [map concat]. rewrite app_nil_r.
      rewrite <- app_assoc. rewrite skipn_skipn_add. unfold E0, expand_seed. do 3 f_equal. lia.
    + lia.
    + rewrite skipn_app_at by auto. rewrite rs_prf_eq by (rewrite ?to_byte_length, ?skipn_length; lia).
      rewrite (firstn_all2 (to_byte 32 _)) by (rewrite to_byte_length; lia). reflexivity.
  - rewrite E. cbn [rbind]. now rewrite E1.
Qed.

Lemma gen_chain_loop_length : forall hf steps i out p ps a, length out = 32 -> length (fst (gen_chain_loop hf steps i out p ps a)) = 32.
Proof.
  induction steps; intros; cbn [gen_chain_loop]; auto. destruct (i <? w_w p)%N; auto.
  destruct (hash_f hf out ps (setHashADRS a i)) as [o a'] eqn:E. apply IHsteps.
  change o with (fst (o, a')). rewrite <- E. apply hash_f_length.
Qed.
Lemma rs_gen_chain_eq : forall hf out inp start steps p ps a, 32 <= length out -> 32 <= length inp -> 32 <= length ps ->
  rs_gen_chain hf out inp start steps p ps a =
  ROk (fst (gen_chain hf (firstn 32 inp) start steps p (firstn 32 ps) a) ++ skipn 32 out,
       snd (gen_chain hf (firstn 32 inp) start steps p (firstn 32 ps) a)).
Proof.
  intros hf out inp start steps p ps a Ho Hi Hp. unfold rs_gen_chain.
  rewrite rcopy_loop_ok by lia. cbn [rbind plus]. change (skipn 0 inp) with inp. change (firstn 0 out) with (@nil N). cbn [app].
  unfold gen_chain. assert (Lc : length (firstn 32 inp) = 32) by (rewrite firstn_length; lia).
  set (c := firstn 32 inp) in *. clearbody c. set (tl := skipn 32 out). clearbody tl. cpp_adrs.
  assert (G : forall k i c a, length c = 32 ->
    rfor_from (N.to_nat (N.min (i + N.of_nat k) (w_w p)) - N.to_nat i) (N.to_nat i)
      (fun i '(out, addr) => rs_hash_f hf out out ps (setHashADRS addr (N.of_nat i))) (c ++ tl, a) =
    ROk (fst (gen_chain_loop hf k i c p (firstn 32 ps) a) ++ tl, snd (gen_chain_loop hf k i c p (firstn 32 ps) a))).
  { clear - Hp. induction k; intros i c a Hc.
    - replace (N.to_nat (N.min (i + N.of_nat 0) (w_w p)) - N.to_nat i) with 0 by lia. reflexivity.
    - cbn [gen_chain_loop]. destruct (i <? w_w p)%N eqn:E.
      + apply N.ltb_lt in E.
        replace (N.to_nat (N.min (i + N.of_nat (S k)) (w_w p)) - N.to_nat i)
          with (S (N.to_nat (N.min (i + 1 + N.of_nat k) (w_w p)) - N.to_nat (i + 1))) by lia.
        cbn [rfor_from]. rewrite N2Nat.id.
        rewrite rs_hash_f_eq by (rewrite ?app_length; lia). rewrite firstn_app_at, skipn_app_at by auto. cbn [rbind].
        pose proof (hash_f_length hf c (firstn 32 ps) (setHashADRS a i)) as L.
        destruct (hash_f hf c (firstn 32 ps) (setHashADRS a i)) as [o a']. cbn [fst snd] in *.
        replace (S (N.to_nat i)) with (N.to_nat (i + 1)) by lia. now apply IHk.
      + apply N.ltb_ge in E. replace (N.to_nat (N.min (i + N.of_nat (S k)) (w_w p)) - N.to_nat i) with 0 by lia. reflexivity. }
  rewrite <- (G (N.to_nat steps) start c a Lc). now rewrite N2Nat.id.
Qed.

Lemma gen_chain_length : forall hf c st n p ps a, length c = 32 -> length (fst (gen_chain hf c st n p ps a)) = 32.
Proof. intros. now apply gen_chain_loop_length. Qed.

(** The loop over the chains; [body] is one iteration. *)
Lemma rs_chains_eq : forall hf p ps, 32 <= length ps -> forall jobs i out a (body : nat -> list N * adrs -> rs (list N * adrs)),
  (i + length jobs) * 32 <= length out ->
  (forall j c st n, nth_error jobs j = Some (c, st, n) -> forall buf a, length buf = length out ->
     skipn ((i + j) * 32) buf = skipn ((i + j) * 32) out ->
     exists inp, 32 <= length inp /\ firstn 32 inp = c /\
       body (i + j) (buf, a) = rwith_adr ((i + j) * 32) buf (fun o => rs_gen_chain hf o inp st n p ps (setChainADRS a (N.of_nat (i + j))))) ->
  rfor_from (length jobs) i body (out, a) =
  ROk (firstn (i * 32) out ++ concat (fst (gen_chains hf (N.of_nat i) jobs p (firstn 32 ps) a)) ++ skipn ((i + length jobs) * 32) out,
       snd (gen_chains hf (N.of_nat i) jobs p (firstn 32 ps) a)).
Proof.
  intros hf p ps Hp. induction jobs as [|[[c st] n] jobs IH]; intros i out a body Hl Hb; cbn [length rfor_from gen_chains] in *.
  - cbn [fst snd concat app]. rewrite Nat.add_0_r. now rewrite firstn_skipn.
  - destruct (Hb 0 c st n eq_refl out a eq_refl eq_refl) as (inp & Li & Fi & E).
    rewrite Nat.add_0_r in E. rewrite E. clear E.
    assert (Lc : length c = 32) by (rewrite <- Fi, firstn_length; lia).
    rewrite (rwith_adr_ok _ _ _ (fst (gen_chain hf c st n p (firstn 32 ps) (setChainADRS a (N.of_nat i))) ++ skipn 32 (skipn (i * 32) out))
      (snd (gen_chain hf c st n p (firstn 32 ps) (setChainADRS a (N.of_nat i))))).
    2: lia.
    2:{ rewrite rs_gen_chain_eq by (rewrite ?skipn_length; lia). now rewrite Fi. }
    cbn [rbind]. pose proof (gen_chain_length hf c st n p (firstn 32 ps) (setChainADRS a (N.of_nat i)) Lc) as Lo.
    destruct (gen_chain hf c st n p (firstn 32 ps) (setChainADRS a (N.of_nat i))) as [o a1]. cbn [fst snd] in *.
    rewrite skipn_skipn_add.
    set (out1 := firstn (i * 32) out ++ o ++ skipn (i * 32 + 32) out).
    assert (L0 : length (firstn (i * 32) out) = i * 32) by (rewrite firstn_length; lia).
    assert (L1 : length out1 = length out) by (unfold out1; rewrite !app_length, L0, skipn_length; lia).
    assert (S1 : forall k, S i <= k -> skipn (k * 32) out1 = skipn (k * 32) out).
    { intros k Hk. unfold out1. rewrite app_assoc. replace (k * 32) with ((i * 32 + 32) + (k * 32 - (i * 32 + 32))) by lia.
      rewrite <- (skipn_skipn_add _ (k * 32 - (i * 32 + 32)) (i * 32 + 32) ((firstn (i * 32) out ++ o) ++ _)).
      rewrite (skipn_app_at _ (i * 32 + 32) (firstn (i * 32) out ++ o)) by (rewrite app_length; lia). now rewrite skipn_skipn_add. }
    assert (IH' := IH (S i) out1 a1 body). rewrite IH'.
    + replace (N.of_nat (S i)) with (N.of_nat i + 1)%N by lia.
      destruct (gen_chains hf (N.of_nat i + 1) jobs p (firstn 32 ps) a1) as [os a2]. cbn [fst snd concat].
      rewrite S1 by lia. replace (S i + length jobs) with (i + S (length jobs)) by lia.
      assert (F1 : firstn (S i * 32) out1 = firstn (i * 32) out ++ o).
      { unfold out1. rewrite app_assoc. apply firstn_app_at. rewrite app_length. lia. }
      rewrite F1. now rewrite <- !app_assoc.
    + lia.
    + intros j c' st' n' Hj buf a' Lb Sb. rewrite S1 in Sb by lia.
      destruct (Hb (S j) c' st' n' Hj buf a') as (inp' & A & B & C); [lia|now replace (i + S j) with (S i + j) by lia|].
      exists inp'. replace (S i + j) with (i + S j) by lia. auto.
Qed.

Lemma gen_chains_cells : forall hf p ps jobs i a, (forall c st n, In (c, st, n) jobs -> length c = 32) ->
  cellsok (fst (gen_chains hf i jobs p ps a)).
Proof.
  induction jobs as [|[[c st] n] jobs IH]; intros i a H; cbn [gen_chains]; [constructor|].
  pose proof (gen_chain_length hf c st n p ps (setChainADRS a i)) as L.
  destruct (gen_chain hf c st n p ps (setChainADRS a i)) as [o a1].
  specialize (IH (i + 1)%N a1). destruct (gen_chains hf (i + 1) jobs p ps a1) as [os a2]. cbn [fst] in *.
  constructor; [apply L; apply (H c st n); now left|apply IH; intros; apply (H c0 st0 n0); now right].
Qed.
Lemma gen_chains_len : forall hf p ps jobs i a, length (fst (gen_chains hf i jobs p ps a)) = length jobs.
Proof.
  induction jobs as [|[[c st] n] jobs IH]; intros i a; cbn [gen_chains]; auto.
  destruct (gen_chain hf c st n p ps (setChainADRS a i)) as [o a1].
  specialize (IH (i + 1)%N a1). destruct (gen_chains hf (i + 1) jobs p ps a1) as [os a2]. cbn [fst length] in *. auto.
Qed.

(** pkgen: the output buffer is exactly the key. *)
Lemma flat_tail_cell : forall l j c rest, cellsok l -> nth_error l j = Some c ->
  32 <= length (skipn (j * 32) (concat l ++ rest)) /\ firstn 32 (skipn (j * 32) (concat l ++ rest)) = c.
Proof.
  intros l j c rest H Hn. apply (proj2 (get_ok _ _ _ _)) in Hn. pose proof (get_lt _ _ _ _ Hn) as HL.
  pose proof (cellsok_get _ _ _ H Hn) as Hc. pose proof (flat_length l H).
  rewrite skipn_app. replace (j * 32 - length (concat l)) with 0 by lia. cbn [skipn].
  rewrite flat_skipn by auto. rewrite (get_skipn_cons _ _ _ _ Hn). cbn [concat]. rewrite <- app_assoc.
  split; [rewrite !app_length; lia|]. now apply firstn_app_at.
Qed.

Lemma wots_pkgen_cells : forall hf sk p ps a, cellsok (fst (wots_pkgen hf sk p ps a)).
Proof.
  intros. apply gen_chains_cells. intros c st n H. apply in_map_iff in H. destruct H as (c0 & E & H). injection E as <- <- <-.
  pose proof (cellsok_expand hf sk (w_len p)) as G. unfold cellsok in G. rewrite Forall_forall in G. auto.
Qed.
Lemma wots_pkgen_len : forall hf sk p ps a, length (fst (wots_pkgen hf sk p ps a)) = w_len p.
Proof. intros. unfold wots_pkgen. now rewrite gen_chains_len, map_length, expand_seed_length. Qed.

Lemma rs_wots_pkgen_eq : forall hf pk sk p ps a, 32 <= length sk -> 32 <= length ps -> length pk = w_len p * 32 ->
  rs_wots_pkgen hf pk sk p ps a =
  ROk (concat (fst (wots_pkgen hf (firstn 32 sk) p (firstn 32 ps) a)), snd (wots_pkgen hf (firstn 32 sk) p (firstn 32 ps) a)).
Proof.
  intros hf pk sk p ps a Hs Hp Hl. unfold rs_wots_pkgen. rewrite rs_expand_seed_eq by lia. cbn [rbind].
  rewrite (skipn_all2 pk) by lia. rewrite app_nil_r. cpp_adrs.
  set (E := expand_seed hf (firstn 32 sk) (w_len p)).
  assert (CE : cellsok E) by apply cellsok_expand. assert (LE : length E = w_len p) by apply expand_seed_length.
  pose proof (flat_length E CE) as LF.
  unfold wots_pkgen. fold E. set (jobs := map (fun c => (c, 0%N, (w_w p - 1)%N)) E).
  assert (LJ : length jobs = w_len p) by (unfold jobs; now rewrite map_length).
  unfold rfor. rewrite <- LJ at 1. rewrite (rs_chains_eq hf p ps Hp jobs 0 (concat E) a).
  - cbn [firstn app mult]. change (N.of_nat 0) with 0%N. rewrite (skipn_all2 (concat E)) by lia. now rewrite app_nil_r.
  - lia.
  - intros j c st n Hj buf a' Lb Sb. cbn [plus] in *. unfold jobs in Hj. rewrite nth_error_map in Hj.
    destruct (nth_error E j) as [c0|] eqn:Ej; cbn [option_map] in Hj; [|discriminate]. injection Hj as <- <- <-.
    assert (j < length E) by (apply nth_error_Some; congruence).
    exists (skipn (j * 32) (concat E)). destruct (flat_tail_cell E j c0 [] CE Ej) as [A B]. rewrite app_nil_r in A, B.
    split; auto. split; auto. rewrite Lb. rewrite rslice_tail by lia. reflexivity.
Qed.

(** ** Digits *)
Lemma rs_base_w_eq : forall p out n input ds, base_w n input p = Ok ds -> n <= length out ->
  rs_base_w out n input p = ROk (ds ++ skipn n out) /\ length ds = n.
Proof.
  intros p out n input ds H Hl. unfold rs_base_w, base_w, rfor in *.
  assert (G : forall n a out pre in_ total bits ds, base_w_loop n input in_ total bits p = Ok ds -> length pre = a -> n <= length out ->
    exists x y z, rfor_from n a (fun out '(output, in_, total, bits) =>
      '(total, in_, bits) <~
        (if bits =? 0 then t <~ rget input in_ ;; ROk (t, in_ + 1, bits + 8) else ROk (total, in_, bits)) ;;
      if bits <? w_log_w p then RPanic else
      let bits := bits - w_log_w p in
      output <~ rset output out (N.land (N.shiftr total (N.of_nat bits)) (w_w p - 1)) ;;
      ROk (output, in_, total, bits)) (pre ++ out, in_, total, bits) = ROk (pre ++ ds ++ skipn n out, x, y, z) /\ length ds = n).
  { clear. induction n; intros a out pre in_ total bits ds H Hp Hl; cbn [base_w_loop rfor_from] in *.
    - injection H as <-. cbn [app skipn]. exists in_, total, bits. auto.
    - apply bind_ok in H. destruct H as ([[t1 p1] b1] & E1 & E2).
      assert (R1 : (if bits =? 0 then t <~ rget input in_ ;; ROk (t, in_ + 1, bits + 8) else ROk (total, in_, bits)) = ROk (t1, p1, b1)).
      { destruct (bits =? 0) eqn:Eb.
        - apply Nat.eqb_eq in Eb. apply bind_ok in E1. destruct E1 as (b & G & E). rewrite (rget_get _ _ _ _ G). cbn [rbind].
          injection E as <- <- <-. do 3 f_equal; lia.
        - injection E1 as <- <- <-. reflexivity. }
      rewrite R1. cbn [rbind]. destruct (b1 <? w_log_w p); [discriminate|].
      apply bind_ok in E2. destruct E2 as (rest & E2 & E3). injection E3 as <-.
      destruct out as [|o out]; [cbn in Hl; lia|].
      rewrite rset_ok by (rewrite app_length; cbn [length]; lia). cbn [rbind].
      rewrite firstn_app_at by auto.
      replace (skipn (S a) (pre ++ o :: out)) with out by (replace (S a) with (a + 1) by lia; rewrite <- skipn_skipn_add; now rewrite skipn_app_at).
      set (d := N.land (N.shiftr t1 (N.of_nat (b1 - w_log_w p))) (w_w p - 1)) in *.
      destruct (IHn (S a) out (pre ++ [d]) p1 t1 (b1 - w_log_w p) rest E2) as (x & y & z & E4 & L).
      { rewrite app_length. cbn [length]. lia. }
      { cbn [length] in Hl. lia. }
      exists x, y, z. rewrite <- !app_assoc in E4. cbn [app] in E4. split; [|cbn [length]; lia].
      rewrite E4. cbn [app skipn]. reflexivity. }
  destruct (G n 0 out [] 0 0%N 0 ds H eq_refl Hl) as (x & y & z & E & L). cbn [app] in E. rewrite E. cbn [rbind]. auto.
Qed.

Lemma rs_csum_eq : forall p basew rest n, length basew = n ->
  rfor n (fun i csum => b <~ rget (basew ++ rest) i ;; ROk (csum + (w_w p - 1 - b))%N) 0%N = ROk (csum_of basew p).
Proof.
  intros p basew rest n L. unfold rfor, csum_of.
  assert (G : forall l pre c, rfor_from (length l) (length pre) (fun i csum => b <~ rget ((pre ++ l) ++ rest) i ;; ROk (csum + (w_w p - 1 - b))%N) c
     = ROk (fold_left (fun c d => c + (w_w p - 1 - d))%N l c)).
  { induction l as [|d l IH]; intros pre c; cbn [length rfor_from fold_left]; auto.
    assert (E : rget ((pre ++ d :: l) ++ rest) (length pre) = ROk d).
    { unfold rget. rewrite <- app_assoc. rewrite nth_error_app2 by lia. now rewrite Nat.sub_diag. }
    rewrite E. cbn [rbind]. specialize (IH (pre ++ [d]) (c + (w_w p - 1 - d))%N).
    rewrite app_length in IH. cbn [length] in IH. replace (length pre + 1) with (S (length pre)) in IH by lia.
    replace ((pre ++ [d]) ++ l) with (pre ++ d :: l) in IH by (now rewrite <- app_assoc). exact IH. }
  rewrite <- L. exact (G basew [] 0%N).
Qed.

Lemma rs_digits_eq : forall msg p ds, wots_ok p -> wots_digits msg p = Ok ds -> rs_digits msg p = ROk ds.
Proof.
  intros msg p ds HP H. destruct (wots_ok_facts p HP) as (_ & H1 & H2 & _ & _). unfold wots_digits in H.
  apply bind_ok in H. destruct H as (b1 & E1 & H). apply bind_ok in H. destruct H as (b2 & E2 & H). injection H as <-.
  unfold rs_digits. destruct (rs_base_w_eq p (repeat 0%N (w_len p)) (w_len_1 p) msg b1 E1) as [R1 L1].
  { rewrite repeat_length. unfold w_len. lia. }
  rewrite R1. cbn [rbind]. rewrite rs_csum_eq by auto. cbn [rbind].
  set (k := (w_len_2 p * w_log_w p + 7) / 8) in *.
  assert (Hk : 1 <= k). { apply Nat.div_le_lower_bound; [lia|]. destruct HP as [_ HL]. nia. }
  rewrite rs_to_byte_eq by (rewrite repeat_length; lia). cbn [rbind].
  rewrite (skipn_all2 (repeat 0%N k)) by (rewrite repeat_length; lia). rewrite app_nil_r.
  destruct (rs_base_w_eq p (repeat 0%N (w_len_2 p)) (w_len_2 p) _ b2 E2) as [R2 L2].
  { rewrite repeat_length. lia. }
  rewrite R2. cbn [rbind]. rewrite (skipn_all2 (repeat 0%N (w_len_2 p))) by (rewrite repeat_length; lia). rewrite app_nil_r.
  set (z := skipn (w_len_1 p) (repeat 0%N (w_len p))).
  assert (Lz : length z = w_len_2 p) by (unfold z; rewrite skipn_length, repeat_length; unfold w_len; lia).
  pose proof (rcopy_loop_ok _ (w_len_2 p) b2 0 (b1 ++ z) (w_len_1 p)) as RC. unfold rcopy_loop in RC. cbn [plus] in RC.
  rewrite RC; [|lia|rewrite app_length; lia].
  rewrite firstn_app_at by auto. change (skipn 0 b2) with b2. rewrite firstn_all2 by lia.
  rewrite <- skipn_skipn_add, skipn_app_at by auto. rewrite (skipn_all2 z) by lia. now rewrite app_nil_r.
Qed.

Lemma nth_error_combine : forall A B (l1 : list A) (l2 : list B) j a b, nth_error (combine l1 l2) j = Some (a, b) ->
  nth_error l1 j = Some a /\ nth_error l2 j = Some b.
Proof.
  induction l1; intros [|b0 l2] j a' b H; cbn [combine] in H; try (destruct j; discriminate).
  destruct j; cbn [nth_error] in *; [injection H as <- <-; auto|]. now apply IHl1.
Qed.

(** Signing: the output buffer may be longer than the one-time signature. *)
Lemma rs_wots_sign_eq : forall hf out msg sk p ps a cs a', wots_ok p -> length msg = 32 -> 32 <= length sk -> 32 <= length ps -> w_len p * 32 <= length out ->
  wots_sign hf msg (firstn 32 sk) p (firstn 32 ps) a = Ok (cs, a') ->
  rs_wots_sign hf out msg sk p ps a = ROk (concat cs ++ skipn (w_len p * 32) out, a') /\ cellsok cs /\ length cs = w_len p.
Proof.
  intros hf out msg sk p ps a cs a' HP Hm Hs Hp Ho H. unfold wots_sign in H. apply bind_ok in H. destruct H as (ds & E & H).
  assert (Ld : length ds = w_len p).
  { destruct (wots_digits_ok p msg HP Hm) as (ds' & E' & L & _). congruence. }
  unfold rs_wots_sign. rewrite (rs_digits_eq msg p ds HP E). cbn [rbind]. rewrite rs_expand_seed_eq by lia. cbn [rbind]. cpp_adrs.
  set (X := expand_seed hf (firstn 32 sk) (w_len p)) in *.
  assert (CE : cellsok X) by apply cellsok_expand. assert (LE : length X = w_len p) by apply expand_seed_length.
  pose proof (flat_length X CE) as LF.
  set (jobs := map (fun cd => (fst cd, 0%N, snd cd)) (combine X ds)) in *.
  assert (LJ : length jobs = w_len p) by (unfold jobs; rewrite map_length, combine_length; lia).
  set (buf0 := concat X ++ skipn (w_len p * 32) out).
  assert (LB : length buf0 = length out) by (unfold buf0; rewrite app_length, skipn_length; lia).
  assert (HJ : forall j c st n, nth_error jobs j = Some (c, st, n) -> nth_error X j = Some c /\ st = 0%N /\ nth_error ds j = Some n).
  { intros j c st n Hj. unfold jobs in Hj. rewrite nth_error_map in Hj. destruct (nth_error (combine X ds) j) as [[c0 d0]|] eqn:Ej; cbn [option_map fst snd] in Hj; [|discriminate].
    injection Hj as <- <- <-. apply nth_error_combine in Ej. destruct Ej. auto. }
  assert (CC : cellsok cs /\ length cs = w_len p).
  { apply Ok_inj' in H. assert (Ecs : cs = fst (gen_chains hf 0 jobs p (firstn 32 ps) a)) by (rewrite H; reflexivity). subst cs. split.
    - apply gen_chains_cells. intros c st n Hin. apply In_nth_error in Hin. destruct Hin as (j & Hj). apply HJ in Hj. destruct Hj as (Hj & _).
      apply nth_error_In in Hj. unfold cellsok in CE. rewrite Forall_forall in CE. auto.
    - now rewrite gen_chains_len. }
  split; [|exact CC]. 
  unfold rfor. rewrite <- LJ at 1. rewrite (rs_chains_eq hf p ps Hp jobs 0 buf0 a).
  - change (N.of_nat 0) with 0%N. change (firstn (0 * 32) buf0) with (@nil N). cbn [app]. apply Ok_inj' in H. rewrite H. cbn [fst snd plus].
    rewrite LJ. unfold buf0. rewrite skipn_app_at by lia. reflexivity.
  - cbn [plus]. lia.
  - intros j c st n Hj buf a0 Lb Sb. cbn [plus] in *. destruct (HJ j c st n Hj) as (Hc & -> & Hd).
    assert (j < length X) by (apply nth_error_Some; congruence).
    exists (skipn (j * 32) buf). rewrite Sb. destruct (flat_tail_cell X j c (skipn (w_len p * 32) out) CE Hc) as [A B].
    split; auto. split; auto. rewrite rslice_tail by lia. cbn [rbind]. unfold rget. rewrite Hd. cbn [rbind]. rewrite Sb. reflexivity.
Qed.

Lemma rs_wots_pk_from_sig_eq : forall hf pk sig rest msg p ps a cs a', wots_ok p -> length msg = 32 -> 32 <= length ps -> length pk = w_len p * 32 ->
  cellsok sig -> length sig = w_len p ->
  wots_pkFromSig hf sig msg p (firstn 32 ps) a = Ok (cs, a') ->
  rs_wots_pk_from_sig hf pk (concat sig ++ rest) msg p ps a = ROk (concat cs, a') /\ cellsok cs /\ length cs = w_len p.
Proof.
  intros hf pk sig rest msg p ps a cs a' HP Hm Hp Ho CE LE H. unfold wots_pkFromSig in H. apply bind_ok in H. destruct H as (ds & E & H).
  assert (Ld : length ds = w_len p).
  { destruct (wots_digits_ok p msg HP Hm) as (ds' & E' & L & _). congruence. }
  unfold rs_wots_pk_from_sig. rewrite (rs_digits_eq msg p ds HP E). cbn [rbind]. cpp_adrs.
  pose proof (flat_length sig CE) as LF.
  set (jobs := map (fun cd => (fst cd, snd cd, (w_w p - 1 - snd cd)%N)) (combine sig ds)) in *.
  assert (LJ : length jobs = w_len p) by (unfold jobs; rewrite map_length, combine_length; lia).
  assert (HJ : forall j c st n, nth_error jobs j = Some (c, st, n) -> nth_error sig j = Some c /\ nth_error ds j = Some st /\ n = (w_w p - 1 - st)%N).
  { intros j c st n Hj. unfold jobs in Hj. rewrite nth_error_map in Hj. destruct (nth_error (combine sig ds) j) as [[c0 d0]|] eqn:Ej; cbn [option_map fst snd] in Hj; [|discriminate].
    injection Hj as <- <- <-. apply nth_error_combine in Ej. destruct Ej. auto. }
  assert (CC : cellsok cs /\ length cs = w_len p).
  { apply Ok_inj' in H. assert (Ecs : cs = fst (gen_chains hf 0 jobs p (firstn 32 ps) a)) by (rewrite H; reflexivity). subst cs. split.
    - apply gen_chains_cells. intros c st n Hin. apply In_nth_error in Hin. destruct Hin as (j & Hj). apply HJ in Hj. destruct Hj as (Hj & _).
      apply nth_error_In in Hj. unfold cellsok in CE. rewrite Forall_forall in CE. auto.
    - now rewrite gen_chains_len. }
  split; [|exact CC]. 
  unfold rfor. rewrite <- LJ at 1. rewrite (rs_chains_eq hf p ps Hp jobs 0 pk a).
  - change (N.of_nat 0) with 0%N. change (firstn (0 * 32) pk) with (@nil N). cbn [app]. apply Ok_inj' in H. rewrite H. cbn [fst snd plus].
    rewrite (skipn_all2 pk) by lia. now rewrite app_nil_r.
  - cbn [plus]. lia.
  - intros j c st n Hj buf a0 Lb Sb. cbn [plus] in *. destruct (HJ j c st n Hj) as (Hc & Hd & ->).
    assert (j < length sig) by (apply nth_error_Some; congruence).
    exists (skipn (j * 32) (concat sig ++ rest)). destruct (flat_tail_cell sig j c rest CE Hc) as [A B].
    split; auto. split; auto. rewrite rslice_tail by (rewrite app_length; lia). cbn [rbind]. unfold rget. rewrite Hd. cbn [rbind]. reflexivity.
Qed.
