(** The array code of hash.c, wots.c, xmss_common.c computes the recursive
    specification of SpecXmss.v. *)
From Coq Require Import List NArith Arith Lia Bool.
From Verif Require Import Base Bytes Keccak Sha256 HashAddress Wots XmssCommon AlgsXmss SpecXmss.
Import ListNotations.
Open Scope N_scope.

Lemma to_byte_4_u32 : forall v, to_byte 4 (u32 v) = to_byte 4 v.
Proof.
  intros. unfold u32. cbn [to_byte]. 
  change (2 ^ 32) with 4294967296.
  assert (H : forall a b c, b <> 0 -> c <> 0 -> (a mod (b * c)) / b = (a / b) mod c).
  { intros. rewrite N.mod_mul_r by assumption. rewrite (N.mul_comm b), N.div_add by assumption.
    rewrite N.div_small; [lia|]. now apply N.mod_lt. }
  assert (G : forall a b c, b <> 0 -> c <> 0 -> (a mod (b * c)) mod b = a mod b).
  { intros. rewrite N.mod_mul_r by assumption. rewrite (N.mul_comm b), N.mod_add by assumption.
    apply N.mod_mod. assumption. }
  change 4294967296 with (256 * 16777216).
  rewrite H, G by lia.
  change 16777216 with (256 * 65536). rewrite H, G by lia.
  change 65536 with (256 * 256). rewrite H, G by lia.
  rewrite N.mod_mod by lia. reflexivity.
Qed.

Lemma core_hash_keyed : forall hf t k m, core_hash hf t k m = keyed hf t k m.
Proof. intros hf t k m. unfold core_hash, keyed. cbv zeta. destruct hf; reflexivity. Qed.

Lemma prf_PRF : forall hf m k, prf hf m k = PRF hf k m.
Proof. intros. unfold prf, PRF. apply core_hash_keyed. Qed.

(** An address whose first three words are zero. *)
Definition root_adrs (a : adrs) : Prop := a0 a = 0 /\ a1 a = 0 /\ a2 a = 0.

Lemma addr_to_byte_adr : forall a, root_adrs a ->
  addr_to_byte a = adr (a3 a) (a4 a) (a5 a) (a6 a) (a7 a).
Proof.
  intros [] (E0 & E1 & E2); cbn in E0, E1, E2. subst.
  unfold addr_to_byte, adr. cbn [map concat HashAddress.a0 HashAddress.a1 HashAddress.a2
   HashAddress.a3 HashAddress.a4 HashAddress.a5 HashAddress.a6 HashAddress.a7].
  now rewrite app_nil_r.
Qed.

Lemma adr_u32 : forall t x y z k,
  adr (u32 t) (u32 x) (u32 y) (u32 z) (u32 k) = adr t x y z k.
Proof. intros. unfold adr. cbn [map]. now rewrite !to_byte_4_u32. Qed.
Lemma adr_ext : forall t x y z k t' x' y' z' k',
  u32 t = u32 t' -> u32 x = u32 x' -> u32 y = u32 y' -> u32 z = u32 z' -> u32 k = u32 k' ->
  adr t x y z k = adr t' x' y' z' k'.
Proof. intros. rewrite <- adr_u32, <- (adr_u32 t'). congruence. Qed.
Lemma u32_u32 : forall x, u32 (u32 x) = u32 x.
Proof. intros; unfold u32. apply N.mod_mod. discriminate. Qed.

(** Words 3..6 of an address hold the given values (modulo 2^32). *)
Definition adrs_is (a : adrs) (t x y z : N) : Prop :=
  root_adrs a /\ u32 (a3 a) = u32 t /\ u32 (a4 a) = u32 x /\ u32 (a5 a) = u32 y /\ u32 (a6 a) = u32 z.

Lemma hash_h_spec : forall hf l r ps a t k h i,
  adrs_is a t (N.of_nat k) (N.of_nat h) (N.of_nat i) ->
  hash_h hf (l ++ r) ps a = (rand_hash hf ps t k h i l r, setKeyAndMask a 2).
Proof.
  intros * (R & E3 & E4 & E5 & E6).
  unfold hash_h. rewrite !prf_PRF, core_hash_keyed.
  rewrite !addr_to_byte_adr by exact R. cbn [a3 a4 a5 a6 a7 setKeyAndMask].
  unfold rand_hash. f_equal.
  rewrite !(adr_ext (a3 a) (a4 a) (a5 a) (a6 a) _ t (N.of_nat k) (N.of_nat h) (N.of_nat i) _
            E3 E4 E5 E6 eq_refl).
  reflexivity.
Qed.

Lemma hash_f_spec : forall hf x ps a o c i,
  adrs_is a 0 (N.of_nat o) (N.of_nat c) (N.of_nat i) ->
  hash_f hf x ps a = (F_at hf ps o c i x, setKeyAndMask a 1).
Proof.
  intros * (R & E3 & E4 & E5 & E6).
  unfold hash_f. rewrite !prf_PRF, core_hash_keyed.
  rewrite !addr_to_byte_adr by exact R. cbn [a3 a4 a5 a6 a7 setKeyAndMask].
  unfold F_at. f_equal.
  rewrite !(adr_ext (a3 a) (a4 a) (a5 a) (a6 a) _ 0 (N.of_nat o) (N.of_nat c) (N.of_nat i) _
            E3 E4 E5 E6 eq_refl).
  reflexivity.
Qed.

(** Address of one-time key [o]: words 0..3 zero, word 4 = o. *)
Definition ots_adrs (a : adrs) (o : nat) : Prop :=
  root_adrs a /\ a3 a = 0 /\ u32 (a4 a) = u32 (N.of_nat o).
(** ... and chain c *)
Definition chain_adrs (a : adrs) (o c : nat) : Prop :=
  ots_adrs a o /\ u32 (a5 a) = u32 (N.of_nat c).

Lemma gen_chain_loop_spec : forall hf steps i out p ps a o c,
  chain_adrs a o c -> N.of_nat i + N.of_nat steps <= w_w p ->
  exists a', gen_chain_loop hf steps (N.of_nat i) out p ps a = (chain hf ps o c i steps out, a')
             /\ chain_adrs a' o c.
Proof.
  (* the C loop runs forward, the spec peels the last step: generalise *)
  assert (G : forall hf steps i j out p ps a o c x,
    chain_adrs a o c -> N.of_nat (i + j) + N.of_nat steps <= w_w p ->
    out = chain hf ps o c i j x ->
    exists a', gen_chain_loop hf steps (N.of_nat (i + j)) out p ps a = (chain hf ps o c i (j + steps) x, a')
               /\ chain_adrs a' o c).
  { induction steps; intros i j out p ps a o c x Ha Hw E.
    - exists a. split; auto. cbn [gen_chain_loop]. now rewrite Nat.add_0_r, E.
    - cbn [gen_chain_loop].
      assert (HL : N.of_nat (i + j) <? w_w p = true) by (apply N.ltb_lt; lia).
      rewrite HL. destruct Ha as ((R & E3 & E4) & E5).
      rewrite (hash_f_spec hf out ps (setHashADRS a (N.of_nat (i + j))) o c (i + j)).
      2:{ unfold adrs_is; cbn. rewrite u32_u32. repeat split; auto; apply R || now rewrite E3. }
      replace (N.of_nat (i + j) + 1) with (N.of_nat (i + S j)) by lia.
      destruct (IHsteps i (S j) (F_at hf ps o c (i + j) out) p ps
                  (setKeyAndMask (setHashADRS a (N.of_nat (i + j))) 1) o c x) as [a' [E' Ha']].
      + split; [split|]; auto.
      + lia.
      + cbn [chain]. now rewrite E.
      + exists a'. rewrite E'. split; auto. now replace (S j + steps)%nat with (j + S steps)%nat by lia. }
  intros. destruct (G hf steps i O out p ps a o c out H) as [a' [E Ha]].
  - now rewrite Nat.add_0_r.
  - reflexivity.
  - rewrite Nat.add_0_r in E. exists a'. split; auto.
Qed.

Lemma chain_add : forall hf ps o c i s t x,
  chain hf ps o c i (s + t) x = chain hf ps o c (i + s) t (chain hf ps o c i s x).
Proof.
  induction t; intros.
  - now rewrite Nat.add_0_r.
  - rewrite Nat.add_succ_r. cbn [chain]. rewrite IHt. now replace (i + (s + t))%nat with (i + s + t)%nat by lia.
Qed.

(** The loop over all chains: values of jobs starting with chain number [c]. *)
Lemma gen_chains_spec : forall hf p ps o jobs c a,
  ots_adrs a o ->
  (forall x st n, In (x, st, n) jobs -> st + n <= w_w p) ->
  exists a', gen_chains hf (N.of_nat c) jobs p ps a =
    (map (fun cj => chain hf ps o (fst cj) (N.to_nat (snd (fst (snd cj)))) (N.to_nat (snd (snd cj))) (fst (fst (snd cj))))
         (combine (seq c (length jobs)) jobs), a') /\ ots_adrs a' o.
Proof.
  induction jobs as [|[[x st] n] jobs IH]; intros c a Ha Hj.
  - exists a. split; auto.
  - cbn [gen_chains length seq combine map fst snd]. unfold gen_chain.
    assert (B : st + n <= w_w p) by (eapply Hj; left; reflexivity).
    destruct (gen_chain_loop_spec hf (N.to_nat n) (N.to_nat st) x p ps (setChainADRS a (N.of_nat c)) o c)
      as [a1 [E1 H1]].
    { destruct Ha as (R & E3 & E4). unfold chain_adrs, ots_adrs; cbn. rewrite u32_u32.
      split; auto. }
    { lia. }
    rewrite N2Nat.id in E1. rewrite E1.
    replace (N.of_nat c + 1) with (N.of_nat (S c)) by lia.
    destruct (IH (S c) a1) as [a2 [E2 H2]].
    { apply H1. }
    { intros. eapply Hj. right. eassumption. }
    exists a2. rewrite E2. auto.
Qed.

Lemma expand_seed_length : forall hf s n, length (expand_seed hf s n) = n.
Proof. intros. unfold expand_seed. now rewrite map_length, seq_length. Qed.

Lemma combine_seq_map : forall A (f : nat -> A) n c,
  combine (seq c n) (map f (seq c n)) = map (fun i => (i, f i)) (seq c n).
Proof. induction n; simpl; intros; auto. now rewrite IHn. Qed.

Lemma combine_map_r : forall A B C (f : B -> C) (l1 : list A) l2,
  combine l1 (map f l2) = map (fun p => (fst p, f (snd p))) (combine l1 l2).
Proof. induction l1; destruct l2; simpl; auto. now rewrite IHl1. Qed.

Lemma wots_pkgen_spec : forall hf sk p ps a o ssd,
  ots_adrs a o -> 1 <= w_w p -> sk = ots_seed hf ssd o ->
  exists a', wots_pkgen hf sk p ps a =
             (ots_pk hf (N.to_nat (w_w p)) (w_len p) ssd ps o, a') /\ ots_adrs a' o.
Proof.
  intros hf sk p ps a o ssd Ha Hw Es. unfold wots_pkgen.
  destruct (gen_chains_spec hf p ps o
     (map (fun c => (c, 0, w_w p - 1)) (expand_seed hf sk (w_len p))) 0 a Ha) as [a' [E H]].
  - intros x st n Hin. apply in_map_iff in Hin. destruct Hin as [? [E _]].
    injection E as <- <- <-. lia.
  - exists a'. split; auto. change (N.of_nat 0) with 0 in E. rewrite E. f_equal.
    rewrite map_length, expand_seed_length. unfold expand_seed.
    rewrite map_map, combine_seq_map, map_map. unfold ots_pk. cbn [fst snd].
    apply map_ext. intro c. unfold chain_start. rewrite prf_PRF, Es.
    change (N.to_nat 0) with O. f_equal. lia.
Qed.

Lemma get_seed_spec : forall hf ssd a o, ots_adrs a o ->
  exists a', get_seed hf ssd a = (ots_seed hf ssd o, a') /\ ots_adrs a' o.
Proof.
  intros hf ssd a o (R & E3 & E4). eexists. split.
  - unfold get_seed. rewrite prf_PRF. f_equal.
    rewrite addr_to_byte_adr by exact R. unfold ots_seed. f_equal.
    apply adr_ext; cbn [a3 a4 a5 a6 a7 setKeyAndMask setHashADRS setChainADRS]; auto. now rewrite E3.
  - repeat split; auto; apply R.
Qed.

(** ** L-tree *)

(** Type-1 address of one-time key [o]. *)
Definition lt_adrs (a : adrs) (o : nat) : Prop :=
  root_adrs a /\ a3 a = 1 /\ u32 (a4 a) = u32 (N.of_nat o).

Lemma l_level_length : forall hf ps o h l k, length (l_level hf ps o h k l) = ((length l + 1) / 2)%nat.
Proof.
  intros hf ps o h. fix IH 1. intros [|x [|y t]] k.
  - reflexivity.
  - reflexivity.
  - cbn [l_level length]. rewrite IH.
    replace (S (S (length t)) + 1)%nat with (length t + 1 + 1 * 2)%nat by lia.
    rewrite Nat.div_add by lia. lia.
Qed.

(** Value of position [i] after one level, for a pair. *)
Lemma l_level_nth : forall hf ps o h l k i d, (2 * i + 1 < length l)%nat ->
  nth i (l_level hf ps o h k l) d = rand_hash hf ps 1 o h (k + i) (nth (2 * i) l d) (nth (2 * i + 1) l d).
Proof.
  intros hf ps o h. fix IH 1. intros [|x [|y t]] k i d Hi; cbn [length] in Hi; try lia.
  cbn [l_level]. destruct i.
  - cbn. now rewrite Nat.add_0_r.
  - cbn [nth]. rewrite IH by lia. replace (2 * S i)%nat with (S (S (2 * i))) by lia. cbn [nth plus].
    replace (k + S i)%nat with (S (k + i)) by lia. reflexivity.
Qed.
Lemma l_level_nth_last : forall hf ps o h l k d, Nat.odd (length l) = true ->
  nth (length l / 2) (l_level hf ps o h k l) d = nth (length l - 1) l d.
Proof.
  intros hf ps o h. fix IH 1. intros [|x [|y t]] k d Ho; cbn [length] in *.
  - discriminate.
  - reflexivity.
  - cbn [l_level]. replace (S (S (length t)) / 2)%nat with (S (length t / 2)).
    2:{ replace (S (S (length t))) with (length t + 1 * 2)%nat by lia. rewrite Nat.div_add by lia. lia. }
    cbn [nth]. rewrite IH by exact Ho.
    destruct t; [discriminate|]. cbn [length].
    replace (S (S (S (length t))) - 1)%nat with (S (S (length t))) by lia.
    replace (S (length t) - 1)%nat with (length t) by lia. reflexivity.
Qed.

Lemma l_tree_pass_spec : forall hf ps o h pk l bound a,
  lt_adrs a o -> u32 (a5 a) = u32 (N.of_nat h) -> (length l <= length pk)%nat ->
  firstn (length l) pk = l -> bound = (length l / 2)%nat ->
  exists pk' a', l_tree_pass hf bound ps (pk, a) = Ok (pk', a') /\
    lt_adrs a' o /\ length pk' = length pk /\
    (forall d i, (i < bound)%nat -> nth i pk' d = nth i (l_level hf ps o h 0 l) d) /\
    (forall d i, (bound <= i)%nat -> nth i pk' d = nth i pk d).
Proof.
  intros hf ps o h pk l bound a Ha Hh Hlen Hl Hb. unfold l_tree_pass.
  assert (Hnth : forall i d, (i < length l)%nat -> nth i pk d = nth i l d).
  { intros. rewrite <- Hl at 1. rewrite <- (firstn_skipn (length l) pk) at 1. rewrite app_nth1; auto.
    rewrite firstn_length. lia. }
  assert (H2 : (2 * bound <= length l)%nat) by (subst; apply Nat.mul_div_le; lia).
  destruct (for_up_inv _ (fun i (s : list (list N) * adrs) => let '(pk', a') := s in
      lt_adrs a' o /\ u32 (a5 a') = u32 (N.of_nat h) /\ length pk' = length pk /\
      (forall d j, (j < i)%nat -> nth j pk' d = nth j (l_level hf ps o h 0 l) d) /\
      (forall d j, (i <= j)%nat -> nth j pk' d = nth j pk d))
      (fun i '(pk, addr) =>
    let addr := setTreeIndex addr (N.of_nat i) in
    a <- get pk (2 * i)%nat ;;
    b <- get pk (2 * i + 1)%nat ;;
    let '(out, addr) := hash_h hf (a ++ b) ps addr in
    pk <- set pk i out ;;
    Ok (pk, addr)) bound (pk, a)) as [[pk' a'] [E I]].
  - repeat split; auto; try apply Ha. intros; lia.
  - intros i [pk1 a1] Hi ((R & E3 & E4) & E5 & HL & Hlo & Hhi).
    rewrite (get_nth _ pk1 (2 * i) []) by lia. cbn [bind].
    rewrite (get_nth _ pk1 (2 * i + 1) []) by lia. cbn [bind].
    rewrite (hash_h_spec hf _ _ ps (setTreeIndex a1 (N.of_nat i)) 1 o h i).
    2:{ unfold adrs_is; cbn. rewrite u32_u32, E3. repeat split; auto; apply R. }
    rewrite set_ok by lia. cbn [bind]. eexists; split; [reflexivity|].
    rewrite !Hhi, !Hnth by lia.
    cbn. repeat split; auto; try apply R.
    + now rewrite upd_length.
    + intros d j Hj. destruct (Nat.eq_dec i j) as [<-|Hne].
      * rewrite nth_upd_same by lia. rewrite l_level_nth by lia.
        rewrite (nth_indep l d []) by lia. rewrite (nth_indep l d [] (n := (2 * i + 1)%nat)) by lia. reflexivity.
      * rewrite nth_upd_other by auto. apply Hlo. lia.
    + intros d j Hj. rewrite nth_upd_other by lia. apply Hhi. lia.
  - exists pk', a'. destruct I as (I1 & I2 & I3 & I4 & I5). auto.
Qed.

Lemma firstn_nth_ext : forall A n (l l' : list A),
  (n <= length l)%nat -> length l' = n -> (forall d i, (i < n)%nat -> nth i l d = nth i l' d) -> firstn n l = l'.
Proof.
  intros A n l l' HL HL' H. destruct l' as [|x l'].
  - cbn in HL'. now subst.
  - apply (nth_ext _ _ x x); rewrite firstn_length_le by auto; auto.
    intros i Hi. rewrite <- H by lia.
    rewrite <- (firstn_skipn n l) at 2. rewrite app_nth1; auto. rewrite firstn_length_le; lia.
Qed.

Lemma l_tree_loop_spec : forall hf ps o fuel l h pk a,
  lt_adrs a o -> u32 (a5 a) = u32 (N.of_nat h) -> (1 <= length l <= length pk)%nat ->
  firstn (length l) pk = l -> (length l <= fuel)%nat ->
  exists pk' a', l_tree_loop hf fuel (length l) (N.of_nat h) ps (pk, a) = Ok (pk', a') /\
    lt_adrs a' o /\ nth_error pk' 0 = Some (l_root hf ps fuel o h l) .
Proof.
  induction fuel; intros l h pk a Ha Hh Hlen Hl Hf; [lia|].
  cbn [l_tree_loop]. destruct (length l <=? 1)%nat eqn:E1.
  - apply Nat.leb_le in E1. destruct l as [|x [|]]; cbn [length] in *; try lia.
    exists pk, a. split; [reflexivity|]. split; auto.
    destruct pk; cbn in *; [lia|]. congruence.
  - apply Nat.leb_gt in E1.
    destruct (l_tree_pass_spec hf ps o h pk l (length l / 2) a Ha Hh (proj2 Hlen) Hl eq_refl)
      as (pk1 & a1 & EP & Ha1 & HL1 & Hlo & Hhi).
    rewrite EP. cbn [bind].
    assert (Hnth : forall i d, (i < length l)%nat -> nth i pk d = nth i l d).
    { intros. rewrite <- Hl at 1. rewrite <- (firstn_skipn (length l) pk) at 1. rewrite app_nth1; auto.
      rewrite firstn_length. lia. }
    assert (HR : l_root hf ps (S fuel) o h l = l_root hf ps fuel o (S h) (l_level hf ps o h 0 l)).
    { destruct l as [|x [|y t]]; cbn [length] in E1; try lia. reflexivity. }
    rewrite HR.
    pose proof (l_level_length hf ps o h l 0) as HLL.
    assert (Hdiv : (2 * (length l / 2) <= length l)%nat) by (apply Nat.mul_div_le; lia).
    assert (Hdiv2 : (length l = 2 * (length l / 2) + length l mod 2)%nat) by (apply Nat.div_mod; lia).
    assert (Hmod : (length l mod 2 < 2)%nat) by (apply Nat.mod_upper_bound; lia).
    destruct (Nat.odd (length l)) eqn:EO.
    + assert (HM : (length l mod 2 = 1)%nat).
      { rewrite <- Nat.bit0_odd, Nat.bit0_eqb in EO. now apply Nat.eqb_eq. }
      rewrite (get_nth _ pk1 (length l - 1) []) by lia. cbn [bind].
      rewrite set_ok by lia. cbn [bind].
      set (pk2 := upd pk1 (length l / 2) (nth (length l - 1) pk1 [])).
      replace (length l / 2 + 1)%nat with (length (l_level hf ps o h 0 l)).
      2:{ rewrite HLL. replace (length l + 1)%nat with (0 + (length l / 2 + 1) * 2)%nat by lia.
          rewrite Nat.div_add by lia. reflexivity. }
      replace (N.of_nat h + 1) with (N.of_nat (S h)) by lia.
      assert (HLL2 : length (l_level hf ps o h 0 l) = (length l / 2 + 1)%nat).
      { rewrite HLL. replace (length l + 1)%nat with (0 + (length l / 2 + 1) * 2)%nat by lia.
          rewrite Nat.div_add by lia. reflexivity. }
      apply IHfuel.
      * destruct Ha1 as (R & E3 & E4). repeat split; auto; apply R.
      * cbn. apply u32_u32.
      * unfold pk2. rewrite upd_length. lia.
      * apply firstn_nth_ext; auto.
        -- unfold pk2. rewrite upd_length. lia.
        -- intros d i Hi. unfold pk2. destruct (Nat.eq_dec (length l / 2) i) as [<-|Hne].
           ++ rewrite nth_upd_same by lia. rewrite l_level_nth_last by auto.
              rewrite Hhi by lia. rewrite Hnth by lia. apply nth_indep. lia.
           ++ rewrite nth_upd_other by auto. apply Hlo. lia.
      * lia.
    + assert (HM : (length l mod 2 = 0)%nat).
      { rewrite <- Nat.bit0_odd, Nat.bit0_eqb in EO. apply Nat.eqb_neq in EO. lia. }
      cbn [bind].
      assert (HLL2 : length (l_level hf ps o h 0 l) = (length l / 2)%nat).
      { rewrite HLL. replace (length l + 1)%nat with (1 + (length l / 2) * 2)%nat by lia.
          rewrite Nat.div_add by lia. reflexivity. }
      rewrite <- HLL2.
      replace (N.of_nat h + 1) with (N.of_nat (S h)) by lia.
      apply IHfuel.
      * destruct Ha1 as (R & E3 & E4). repeat split; auto; apply R.
      * cbn. apply u32_u32.
      * lia.
      * apply firstn_nth_ext; auto; [lia|]. intros. apply Hlo. lia.
      * lia.
Qed.

Lemma l_tree_spec : forall hf p ps pk a o,
  lt_adrs a o -> length pk = w_len p -> (1 <= w_len p)%nat ->
  exists a', l_tree hf p pk ps a = Ok (compress hf ps o pk, a') /\ lt_adrs a' o.
Proof.
  intros hf p ps pk a o Ha HL Hpos. unfold l_tree.
  destruct (l_tree_loop_spec hf ps o (w_len p) pk 0 pk (setTreeHeight a 0)) as (pk' & a' & E & Ha' & E0).
  - destruct Ha as (R & E3 & E4). repeat split; auto; apply R.
  - reflexivity.
  - lia.
  - apply firstn_all.
  - lia.
  - rewrite HL in E. change (N.of_nat 0) with 0 in E. rewrite E. cbn [bind].
    unfold get. rewrite E0. cbn [bind]. exists a'. split; auto. unfold compress. now rewrite HL.
Qed.

Lemma ots_pk_length : forall hf w len ss ps o, length (ots_pk hf w len ss ps o) = len.
Proof. intros. unfold ots_pk. now rewrite map_length, seq_length. Qed.

(** Leaf generation with addresses of one-time key [o]. *)
Lemma gen_leaf_wots_spec : forall hf ssd p ps lta ota o,
  lt_adrs lta o -> ots_adrs ota o -> 1 <= w_w (x_wots p) -> (1 <= w_len (x_wots p))%nat ->
  exists lta' ota', gen_leaf_wots hf ssd p ps lta ota =
    Ok (leaf hf (N.to_nat (w_w (x_wots p))) (w_len (x_wots p)) ssd ps o, lta', ota') /\
    lt_adrs lta' o /\ ots_adrs ota' o.
Proof.
  intros hf ssd p ps lta ota o Hl Ho Hw Hlen. unfold gen_leaf_wots.
  destruct (get_seed_spec hf ssd ota o Ho) as [a1 [E1 H1]]. rewrite E1.
  destruct (wots_pkgen_spec hf (ots_seed hf ssd o) (x_wots p) ps a1 o ssd H1 Hw eq_refl) as [a2 [E2 H2]].
  rewrite E2.
  destruct (l_tree_spec hf (x_wots p) ps
     (ots_pk hf (N.to_nat (w_w (x_wots p))) (w_len (x_wots p)) ssd ps o) lta o Hl) as [a3' [E3 H3]]; auto.
  { apply ots_pk_length. }
  rewrite E3. cbn [bind]. eauto.
Qed.
