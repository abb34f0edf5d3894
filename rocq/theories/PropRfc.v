(** C98: keys, signatures and verification are those of RFC 8391. *)
(** Concrete cases for the hypotheses: the Examples at the end. *)
From Coq Require Import List NArith Arith Lia Bool.
From Verif Require Import Base Bytes Keccak KeccakLemmas HashAddress Descriptor SpecXmss SpecApi SpecForge XmssObj XmssRefine
  WotsProofs TreeProofs BasicProofs FastProofs DescrProofs VerifyProofs PropObj PropVerify PropForge SpecReuse PropReuse CasesXmss.
From Verif Require Import SpecRfc.
Import ListNotations.
Open Scope nat_scope.

(** ** Byte strings and addresses *)
Lemma toByte_eq : forall y x, toByte x y = to_byte y x.
Proof. induction y; intros x; cbn [toByte to_byte]; [reflexivity|now rewrite IHy]. Qed.
Lemma xorb_eq : forall a b, xorb a b = xor_bytes a b.
Proof. induction a; intros [|y b]; auto. cbn [xor_bytes]. rewrite <- IHa. reflexivity. Qed.
Lemma xor_app : forall a b c d, length a = length c -> xor_bytes (a ++ b) (c ++ d) = xor_bytes a c ++ xor_bytes b d.
Proof. induction a; intros b [|y c] d L; try discriminate; auto. cbn [app xor_bytes]. f_equal. apply IHa. now injection L. Qed.
Lemma adrs_eq : forall t a b c m, adrs [0; 0; 0; t; a; b; c; m]%N = adr t a b c m.
Proof. intros. unfold adrs, adr. apply (f_equal (@concat N)). apply map_ext. intros v. apply toByte_eq. Qed.

Section R.
  Variable hf : hashfn.
  Local Notation hash := (raw hf).

  Lemma rfc_PRF_eq : forall k m, rfc_PRF hash k m = PRF hf k m.
  Proof. intros. unfold rfc_PRF. rewrite toByte_eq. reflexivity. Qed.

  Lemma RAND_HASH_eq : forall l r ps t k j i m, length l = 32 ->
    RAND_HASH hash l r ps [0; 0; 0; t; N.of_nat k; N.of_nat j; N.of_nat i; m]%N = rand_hash hf ps t k j i l r.
  Proof.
    intros l r ps t k j i m L. unfold RAND_HASH, setKeyAndMask, set_word. cbv zeta. cbn [firstn skipn app].
    rewrite !adrs_eq, !rfc_PRF_eq, !xorb_eq. unfold rfc_H, rand_hash. cbv zeta. rewrite toByte_eq, xor_app by (rewrite PRF_length; exact L).
    reflexivity.
  Qed.

  Variables (lw l1 l2 : nat).
  Hypothesis Hlw : In lw [1; 2; 4; 8].
  Local Notation W := (2 ^ lw).
  Local Notation len := (l1 + l2).

  (** ** Chains *)
  Lemma chain_rfc_eq : forall ps o c i s x m z, i + s <= W - 1 ->
    chain_rfc hash lw x i s ps [0; 0; 0; 0; N.of_nat o; N.of_nat c; m; z]%N = Some (chain hf ps o c i s x).
  Proof.
    induction s as [|s IH]; intros x m z H; [reflexivity|]. cbn [chain_rfc chain]. unfold rfc_w.
    replace (W - 1 <? i + S s) with false by (symmetry; apply Nat.ltb_ge; lia).
    rewrite IH by lia. f_equal. unfold setHashAddress, setKeyAndMask, set_word. cbv zeta. cbn [firstn skipn app].
    rewrite !adrs_eq, !rfc_PRF_eq, xorb_eq. unfold rfc_F, F_at. rewrite toByte_eq. replace (i + S s - 1) with (i + s) by lia. reflexivity.
  Qed.

  Lemma all_of_map : forall A B (f : A -> option B) (g : A -> B) l, (forall a, In a l -> f a = Some (g a)) -> all_of (map f l) = Some (map g l).
  Proof.
    induction l as [|a l IH]; intros H; [reflexivity|]. cbn [map all_of]. rewrite (H a (or_introl eq_refl)), IH by (intros; apply H; now right). reflexivity.
  Qed.

  (** ** Digits *)
  Definition dig (q : nat) (b : N) : list N := map (fun i => (b / 2 ^ N.of_nat (lw * (q - 1 - i))) mod 2 ^ N.of_nat lw)%N (seq 0 q).
  Lemma dig_S : forall q b, dig (S q) b = ((b / 2 ^ N.of_nat (lw * q)) mod 2 ^ N.of_nat lw)%N :: dig q b.
  Proof.
    intros q b. unfold dig. cbn [seq map]. f_equal.
    - do 4 f_equal. lia.
    - rewrite <- seq_shift, map_map. apply map_ext_in. intros a Ha. apply in_seq in Ha. do 4 f_equal. lia.
  Qed.
  Lemma digit_eq : forall total k, N.land (N.shiftr total (N.of_nat k)) (N.of_nat W - 1) = ((total / 2 ^ N.of_nat k) mod 2 ^ N.of_nat lw)%N.
  Proof.
    intros total k. rewrite N.shiftr_div_pow2. rewrite <- (N2Nat.id (N.of_nat W)), Nat2N.id. rewrite <- (pow_N_nat lw), N2Nat.id.
    rewrite <- N.pred_sub, <- N.ones_equiv. apply N.land_ones.
  Qed.
  Lemma base_digits_cons : forall b X, base_digits lw (b :: X) = dig (8 / lw) b ++ base_digits lw X.
  Proof. reflexivity. Qed.

  Lemma base_w_loop_eq : forall X r inn total q, r <= q + (length X - inn) * (8 / lw) ->
    SpecRfc.base_w_loop lw X r inn total (lw * q) = firstn r (dig q total ++ base_digits lw (skipn inn X)).
  Proof.
    assert (P : lw * (8 / lw) = 8 /\ 1 <= lw /\ exists p, 8 / lw = S p).
    { destruct Hlw as [<-|[<-|[<-|[<-|[]]]]]; cbn; split; try lia; split; try lia; eauto. }
    destruct P as (P1 & P2 & p & P3).
    intros X. induction r as [|r IH]; intros inn total q Hr; [reflexivity|]. cbn [SpecRfc.base_w_loop]. unfold rfc_w.
    destruct q as [|q].
    - rewrite Nat.mul_0_r. cbn [Nat.eqb]. rewrite P3 in *. replace (0 + 8 - lw) with (lw * p) by lia.
      destruct (Nat.lt_ge_cases inn (length X)) as [Hi|Hi]; [|replace (length X - inn) with 0 in Hr by lia; lia].
      assert (Es : skipn inn X = nth inn X 0%N :: skipn (S inn) X).
      { clear - Hi. revert inn Hi. induction X as [|a X IHX]; intros [|inn] Hi; cbn [length] in Hi; try lia; [reflexivity|].
        cbn [skipn nth]. rewrite IHX by lia. reflexivity. }
      rewrite Es. change (dig 0 total) with (@nil N). cbn [app]. rewrite base_digits_cons, P3, dig_S, digit_eq. cbn [app firstn]. f_equal.
      rewrite IH; [reflexivity|]. replace (length X - inn) with (S (length X - S inn)) in Hr by lia. lia.
    - replace (lw * S q =? 0) with false by (symmetry; apply Nat.eqb_neq; lia). replace (lw * S q - lw) with (lw * q) by lia.
      rewrite dig_S, digit_eq. cbn [app firstn]. f_equal. apply IH. lia.
  Qed.
  Lemma base_w_eq : forall X r, r <= length X * (8 / lw) -> SpecRfc.base_w lw X r = firstn r (base_digits lw X).
  Proof. intros X r H. unfold SpecRfc.base_w. replace 0 with (lw * 0) at 2 by lia. rewrite base_w_loop_eq by lia. reflexivity. Qed.

  Lemma csum_eq : forall ds a, Forall (fun d => (d <= 2 ^ N.of_nat lw - 1)%N) ds ->
    fold_left (fun c m => (c + N.of_nat W - 1 - m)%N) ds a = (a + checksum (2 ^ N.of_nat lw) ds)%N.
  Proof.
    assert (EW : N.of_nat W = (2 ^ N.of_nat lw)%N) by (rewrite <- (N2Nat.id (2 ^ N.of_nat lw)), pow_N_nat; reflexivity).
    assert (PW : (1 <= 2 ^ N.of_nat lw)%N) by (apply N.lt_pred_le; apply N.neq_0_lt_0, N.pow_nonzero; lia).
    induction ds as [|d ds IH]; intros a HF; cbn [fold_left checksum fold_right]; [lia|]. inversion HF; subst.
    rewrite IH by assumption. unfold checksum. rewrite EW. lia.
  Qed.

  Hypothesis Hl1 : l1 = 32 * (8 / lw).
  Lemma wots_msg_eq : forall M, length M = 32 -> wots_msg lw l1 l2 M = msg_digits lw l1 l2 M.
  Proof.
    intros M HM. unfold wots_msg, msg_digits. cbv zeta. rewrite (base_w_eq M l1) by (rewrite HM; lia).
    set (ds := firstn l1 (base_digits lw M)).
    assert (HF : Forall (fun d => (d <= 2 ^ N.of_nat lw - 1)%N) ds).
    { apply Forall_forall. intros d Hd. unfold ds in Hd. assert (Hin : In d (base_digits lw M)) by (rewrite <- (firstn_skipn l1); apply in_or_app; now left).
      unfold base_digits in Hin. apply in_flat_map in Hin. destruct Hin as (b & _ & Hin). apply in_map_iff in Hin. destruct Hin as (k & <- & _).
      pose proof (N.mod_upper_bound (b / 2 ^ N.of_nat (lw * (8 / lw - 1 - k))) (2 ^ N.of_nat lw)) as U.
      assert ((2 ^ N.of_nat lw <> 0)%N) by (apply N.pow_nonzero; lia). specialize (U H). lia. }
    unfold rfc_w. rewrite csum_eq by exact HF. rewrite N.add_0_l, N.shiftl_mul_pow2. f_equal.
    rewrite toByte_eq. rewrite base_w_eq.
    - do 5 f_equal. assert ((l2 * lw) mod 8 < 8) by (apply Nat.mod_upper_bound; lia). lia.
    - rewrite to_byte_length. assert (P : 8 / lw * lw = 8) by (destruct Hlw as [<-|[<-|[<-|[<-|[]]]]]; reflexivity).
      pose proof (Nat.div_mod (l2 * lw + 7) 8 ltac:(lia)) as D. pose proof (Nat.mod_upper_bound (l2 * lw + 7) 8 ltac:(lia)) as D2.
      set (q := (l2 * lw + 7) / 8) in *. set (z := 8 / lw) in *.
      assert (0 < lw) by (destruct Hlw as [<-|[<-|[<-|[<-|[]]]]]; lia). assert (l2 * lw <= q * z * lw) by nia. nia.
  Qed.

  (** ** L-trees *)
  Lemma nth_skipn : forall A (l : list A) k n d, nth n (skipn k l) d = nth (k + n) l d.
  Proof. induction l; intros [|k] n d; cbn [skipn plus nth]; try reflexivity; [now destruct n|apply IHl]. Qed.

  Lemma ltree_for_eq : forall n len' ps A pk, len' / 2 = n -> 2 * n <= length pk ->
    ltree_for hash len' ps A pk =
    map (fun i => RAND_HASH hash (nth (2 * i) pk []) (nth (2 * i + 1) pk []) ps (SpecRfc.setTreeIndex A (N.of_nat i))) (seq 0 n) ++ skipn n pk.
  Proof.
    intros n len' ps A pk E Hn. unfold ltree_for. rewrite E. clear E. induction n as [|n IH]; [reflexivity|].
    rewrite seq_S, fold_left_app, IH by lia. cbn [fold_left plus].
    set (f := fun i => RAND_HASH hash (nth (2 * i) pk []) (nth (2 * i + 1) pk []) ps (SpecRfc.setTreeIndex A (N.of_nat i))).
    rewrite map_app. cbn [map]. assert (L : length (map f (seq 0 n)) = n) by (now rewrite map_length, seq_length).
    unfold store. rewrite !app_nth2 by lia. rewrite L, !nth_skipn.
    replace (n + (2 * n - n)) with (2 * n) by lia. replace (n + (2 * n + 1 - n)) with (2 * n + 1) by lia.
    rewrite firstn_app, L, Nat.sub_diag, firstn_O, app_nil_r, firstn_all2 by lia.
    rewrite skipn_app, L. rewrite (skipn_all2 (map f (seq 0 n))) by lia. cbn [app]. rewrite <- app_assoc. cbn [app]. f_equal. f_equal.
    replace (S n - n) with 1 by lia. clear. revert n. induction pk as [|a pk IHp]; intros [|n]; try reflexivity. exact (IHp n).
  Qed.

  Lemma l_level_map : forall ps o j l k,
    l_level hf ps o j k l =
    map (fun i => rand_hash hf ps 1 o j (k + i) (nth (2 * i) l []) (nth (2 * i + 1) l [])) (seq 0 (length l / 2)) ++
    (if length l mod 2 =? 1 then [nth (length l - 1) l []] else []).
  Proof.
    intros ps o j. fix IH 1. intros [|a [|b t]] k; [reflexivity|reflexivity|].
    cbn [l_level]. rewrite IH. cbn [length].
    replace (S (S (length t))) with (length t + 1 * 2) by lia. rewrite Nat.div_add, Nat.mod_add by lia.
    rewrite Nat.add_1_r. cbn [seq map]. rewrite Nat.add_0_r. cbn [app]. f_equal. rewrite <- seq_shift, map_map. f_equal.
    - apply map_ext. intros i. replace (k + S i) with (S k + i) by lia. replace (2 * S i) with (S (S (2 * i))) by lia. reflexivity.
    - destruct (length t mod 2 =? 1) eqn:Eo; [|reflexivity]. apply (f_equal (fun v => [v])).
      destruct t as [|x t']; [discriminate Eo|]. cbn [length]. replace (S (length t') + 1 * 2 - 1) with (S (S (length t'))) by lia.
      replace (S (length t') - 1) with (length t') by lia. reflexivity.
  Qed.

  Lemma firstn_nth : forall A (l : list A) n i d, i < n -> nth i (firstn n l) d = nth i l d.
  Proof. induction l; intros [|n] [|i] d H; cbn [firstn nth]; auto; try lia. apply IHl. lia. Qed.

  Lemma ltree_while_eq : forall ps o fuel len' j pk x m, 1 <= len' <= length pk -> len' <= fuel -> cells32 (firstn len' pk) ->
    ltree_while hash fuel len' ps [0; 0; 0; 1; N.of_nat o; N.of_nat j; x; m]%N pk = l_root hf ps fuel o j (firstn len' pk).
  Proof.
    intros ps o. induction fuel as [|fuel IH]; intros len' j pk x m Hl Hf HC; [lia|]. cbn [ltree_while].
    destruct (1 <? len') eqn:E1.
    2:{ apply Nat.ltb_ge in E1. assert (len' = 1) by lia. subst len'. destruct pk as [|a pk]; cbn [length] in Hl; [lia|]. reflexivity. }
    apply Nat.ltb_lt in E1.
    set (A := [0; 0; 0; 1; N.of_nat o; N.of_nat j; x; m]%N).
    assert (HA : SpecRfc.setTreeHeight A (getTreeHeight A + 1) = [0; 0; 0; 1; N.of_nat o; N.of_nat (S j); x; m]%N).
    { unfold A, SpecRfc.setTreeHeight, set_word, getTreeHeight. cbn [firstn skipn app nth]. do 5 f_equal. f_equal. lia. }
    rewrite HA.
    assert (HR : l_root hf ps (S fuel) o j (firstn len' pk) = l_root hf ps fuel o (S j) (l_level hf ps o j 0 (firstn len' pk))).
    { assert (LL : length (firstn len' pk) = len') by (apply firstn_length_le; lia). destruct (firstn len' pk) as [|a [|b t]]; cbn [length] in LL; try lia. reflexivity. }
    rewrite HR.
    pose proof (Nat.div_mod len' 2 ltac:(lia)) as D. pose proof (Nat.mod_upper_bound len' 2 ltac:(lia)) as D2.
    pose proof (Nat.div_mod (len' + 1) 2 ltac:(lia)) as D3. pose proof (Nat.mod_upper_bound (len' + 1) 2 ltac:(lia)) as D4.
    set (n := len' / 2) in *.
    set (pk2 := if len' mod 2 =? 1 then store (ltree_for hash len' ps A pk) n (nth (len' - 1) (ltree_for hash len' ps A pk) []) else ltree_for hash len' ps A pk).
    assert (LF : length (firstn len' pk) = len') by (apply firstn_length_le; lia).
    set (f := fun i => rand_hash hf ps 1 o j (0 + i) (nth (2 * i) (firstn len' pk) []) (nth (2 * i + 1) (firstn len' pk) [])).
    assert (EF : ltree_for hash len' ps A pk = map f (seq 0 n) ++ skipn n pk).
    { rewrite (ltree_for_eq n) by (auto; lia). f_equal. apply map_ext_in. intros i Hi. apply in_seq in Hi. unfold f.
      rewrite !firstn_nth by lia. unfold A, SpecRfc.setTreeIndex, set_word. cbn [firstn skipn app]. cbn [plus]. apply RAND_HASH_eq.
      unfold cells32 in HC. rewrite Forall_forall in HC. apply HC. rewrite <- (firstn_nth _ pk len') by lia. apply nth_In. lia. }
    assert (LM : length (map f (seq 0 n)) = n) by (now rewrite map_length, seq_length).
    assert (EV : firstn ((len' + 1) / 2) pk2 = l_level hf ps o j 0 (firstn len' pk) /\ length pk2 = length pk).
    { rewrite l_level_map, LF. fold f. fold n. unfold pk2. rewrite EF.
      assert (LS : length (skipn n pk) = length pk - n) by apply skipn_length.
      destruct (Nat.eqb_spec (len' mod 2) 1) as [Eo|Eo].
      - assert (En : (len' + 1) / 2 = S n) by lia. rewrite En. unfold store.
        rewrite app_nth2 by lia. rewrite LM, nth_skipn. replace (n + (len' - 1 - n)) with (len' - 1) by lia.
        assert (EQ : firstn n (map f (seq 0 n) ++ skipn n pk) = map f (seq 0 n)).
        { rewrite firstn_app, LM, Nat.sub_diag, firstn_O, app_nil_r. apply firstn_all2. lia. }
        rewrite EQ.
        rewrite firstn_nth by lia. split.
        + rewrite app_assoc. rewrite firstn_app. replace (S n - length (map f (seq 0 n) ++ [nth (len' - 1) pk []])) with 0 by (rewrite app_length, LM; cbn [length]; lia).
          rewrite firstn_O, app_nil_r. apply firstn_all2. rewrite app_length, LM. cbn [length]. lia.
        + rewrite !app_length, skipn_length, app_length, LM, LS. cbn [length]. lia.
      - assert (En : (len' + 1) / 2 = n) by lia. rewrite En. rewrite firstn_app, LM, Nat.sub_diag, firstn_O, !app_nil_r. split; [apply firstn_all2; lia|].
        rewrite app_length, LM, LS. lia. }
    destruct EV as (EV & LP). rewrite <- EV. apply IH; try lia. rewrite EV. apply l_level_cells. exact HC.
  Qed.

  Lemma ltree_eq : forall ps o pk b x m, 1 <= len -> length pk = len -> cells32 pk ->
    ltree hash l1 l2 pk ps [0; 0; 0; 1; N.of_nat o; b; x; m]%N = compress hf ps o pk.
  Proof.
    intros ps o pk b x m H1 HL HC. unfold ltree, rfc_len. change (SpecRfc.setTreeHeight [0; 0; 0; 1; N.of_nat o; b; x; m]%N 0) with [0; 0; 0; 1; N.of_nat o; N.of_nat 0; x; m]%N.
    rewrite ltree_while_eq by (try lia; rewrite firstn_all2 by lia; exact HC). unfold compress. rewrite firstn_all2 by lia. now rewrite HL.
  Qed.

  (** ** One-time keys *)
  Hypothesis Hlen : 1 <= len.

  Lemma digits_small : forall M i, N.to_nat (nth i (msg_digits lw l1 l2 M) 0%N) <= W - 1.
  Proof.
    intros M i. assert (PW : (1 <= 2 ^ N.of_nat lw)%N) by (apply N.lt_pred_le; apply N.neq_0_lt_0, N.pow_nonzero; lia).
    assert (B : forall X d, In d (base_digits lw X) -> (d <= 2 ^ N.of_nat lw - 1)%N).
    { intros X d Hin. unfold base_digits in Hin. apply in_flat_map in Hin. destruct Hin as (b & _ & Hin). apply in_map_iff in Hin. destruct Hin as (k & <- & _).
      pose proof (N.mod_upper_bound (b / 2 ^ N.of_nat (lw * (8 / lw - 1 - k))) (2 ^ N.of_nat lw)) as U.
      assert ((2 ^ N.of_nat lw <> 0)%N) by (apply N.pow_nonzero; lia). specialize (U H). lia. }
    assert (F : forall n X d, In d (firstn n (base_digits lw X)) -> (d <= 2 ^ N.of_nat lw - 1)%N).
    { intros n X d Hd. apply (B X). rewrite <- (firstn_skipn n). apply in_or_app. now left. }
    rewrite <- (pow_N_nat lw). enough (nth i (msg_digits lw l1 l2 M) 0 <= 2 ^ N.of_nat lw - 1)%N by lia.
    destruct (nth_in_or_default i (msg_digits lw l1 l2 M) 0%N) as [Hin|Hz]; [|rewrite Hz; lia].
    unfold msg_digits in Hin. cbv zeta in Hin. apply in_app_or in Hin. destruct Hin; eauto.
  Qed.

  Section Key.
    Variables (wsk : nat -> list (list N)) (ss ps : list N).
    Hypothesis Hwsk : forall o c, c < len -> nth c (wsk o) [] = chain_start hf ss o c.

    Lemma WOTS_genPK_eq : forall o b x m, WOTS_genPK hash lw l1 l2 (wsk o) ps [0; 0; 0; 0; N.of_nat o; b; x; m]%N = Some (ots_pk hf W len ss ps o).
    Proof.
      intros o b x m. unfold WOTS_genPK, ots_pk, rfc_len. apply all_of_map. intros c Hc. apply in_seq in Hc.
      unfold setChainAddress, set_word. cbn [firstn skipn app]. unfold rfc_w. rewrite chain_rfc_eq by lia. now rewrite Hwsk by lia.
    Qed.
    Lemma WOTS_sign_eq : forall M o b x m, length M = 32 ->
      WOTS_sign hash lw l1 l2 M (wsk o) ps [0; 0; 0; 0; N.of_nat o; b; x; m]%N = Some (ots_sig hf len ss ps o (msg_digits lw l1 l2 M)).
    Proof.
      intros M o b x m LM. unfold WOTS_sign, ots_sig, rfc_len. rewrite wots_msg_eq by exact LM. apply all_of_map. intros c Hc. apply in_seq in Hc.
      unfold setChainAddress, set_word. cbn [firstn skipn app]. rewrite chain_rfc_eq by (apply digits_small). now rewrite Hwsk by lia.
    Qed.
    Lemma WOTS_pkFromSig_eq : forall M sig o b x m, length M = 32 -> length sig = len ->
      WOTS_pkFromSig hash lw l1 l2 M sig ps [0; 0; 0; 0; N.of_nat o; b; x; m]%N = Some (pk_of_sig hf W ps o (msg_digits lw l1 l2 M) sig).
    Proof.
      intros M sig o b x m LM LS. unfold WOTS_pkFromSig, pk_of_sig, rfc_len. rewrite wots_msg_eq by exact LM. rewrite LS. apply all_of_map. intros c Hc. cbv zeta.
      unfold setChainAddress, set_word. cbn [firstn skipn app]. unfold rfc_w. pose proof (digits_small M c). apply chain_rfc_eq. lia.
    Qed.

    (** ** Trees *)
    Local Notation nd := (node hf W len ss ps).
    Local Notation A j i := [0; 0; 0; 2; 0; N.of_nat j; N.of_nat i; 0]%N.

    Lemma turn_eq : forall st j, treeHash_turn hash lw l1 l2 wsk ps ADRS0 (Some st) j = Some (merge hash ps st 0 (nd 0 j) (A 0 j)).
    Proof.
      intros st j. unfold treeHash_turn. cbv zeta.
      change (setOTSAddress (SpecRfc.setType ADRS0 0) (N.of_nat j)) with [0; 0; 0; 0; N.of_nat j; 0; 0; 0]%N. rewrite WOTS_genPK_eq.
      change (setLTreeAddress (SpecRfc.setType [0; 0; 0; 0; N.of_nat j; 0; 0; 0]%N 1) (N.of_nat j)) with [0; 0; 0; 1; N.of_nat j; 0; 0; 0]%N.
      rewrite ltree_eq; [reflexivity|exact Hlen|apply ots_pk_length|apply ots_pk_cells].
    Qed.

    Lemma map_seq_add : forall n k s, map (fun i => k + i) (seq s n) = seq (k + s) n.
    Proof. induction n as [|n IHn]; intros k s; [reflexivity|]. cbn [seq map]. f_equal. rewrite IHn. f_equal. lia. Qed.

    Definition top_ok (t : nat) (st : list (nat * list N)) : Prop := match st with [] => True | (k, _) :: _ => t <= k end.
    Lemma merge_small : forall st t x B, top_ok (S t) st -> merge hash ps st t x B = (t, x) :: st.
    Proof. intros [|[k y] st] t x B H; [reflexivity|]. cbn [merge]. cbn [top_ok] in H. now replace (k =? t) with false by (symmetry; apply Nat.eqb_neq; lia). Qed.

    Lemma merge_block : forall t q st, top_ok t st ->
      fold_left (treeHash_turn hash lw l1 l2 wsk ps ADRS0) (map (fun i => q * 2 ^ t + i) (seq 0 (2 ^ t))) (Some st) =
      Some (merge hash ps st t (nd t q) (A t q)).
    Proof.
      induction t as [|t IH]; intros q st HT.
      - change (2 ^ 0) with 1. cbn [seq map fold_left]. replace (q * 1 + 0) with q by lia. apply turn_eq.
      - assert (E2 : 2 ^ S t = 2 ^ t + 2 ^ t) by (cbn [Nat.pow]; lia).
        assert (E : map (fun i => q * 2 ^ S t + i) (seq 0 (2 ^ S t)) =
                    map (fun i => 2 * q * 2 ^ t + i) (seq 0 (2 ^ t)) ++ map (fun i => (2 * q + 1) * 2 ^ t + i) (seq 0 (2 ^ t))).
        { rewrite E2. rewrite seq_app, map_app. f_equal.
          - apply map_ext. intros i. lia.
          - cbn [plus]. replace (seq (2 ^ t) (2 ^ t)) with (map (fun i => 2 ^ t + i) (seq 0 (2 ^ t))).
            + rewrite map_map. apply map_ext. intros i. lia.
            + rewrite map_seq_add. f_equal. lia. }
        rewrite E, fold_left_app, IH by (destruct st as [|[k y] st]; cbn [top_ok] in *; lia).
        rewrite merge_small by exact HT. rewrite IH by (cbn [top_ok]; lia). cbn [merge]. rewrite Nat.eqb_refl. f_equal.
        unfold getTreeIndex, getTreeHeight, SpecRfc.setTreeIndex, SpecRfc.setTreeHeight, set_word. cbv zeta. cbn [firstn skipn app nth].
        assert (EI : ((N.of_nat (2 * q + 1) - 1) / 2)%N = N.of_nat q).
        { replace (N.of_nat (2 * q + 1) - 1)%N with (N.of_nat q * 2)%N by lia. apply N.div_mul. lia. }
        rewrite EI. replace (N.of_nat t + 1)%N with (N.of_nat (S t)) by lia.
        pose proof (RAND_HASH_eq (nd t (2 * q)) (nd t (2 * q + 1)) ps 2 0 t q 0 (node_length _ _ _ _ _ _ _ Hlen)) as EH.
        change (N.of_nat 0) with 0%N in EH. rewrite EH. reflexivity.
    Qed.

    Lemma treeHash_eq : forall t q, treeHash hash lw l1 l2 wsk ps (q * 2 ^ t) t ADRS0 = Some (nd t q).
    Proof.
      intros t q. unfold treeHash. rewrite Nat.mod_mul by (apply Nat.pow_nonzero; lia). cbn [Nat.eqb negb].
      rewrite merge_block by exact I. reflexivity.
    Qed.
    Lemma buildAuth_eq : forall h i, buildAuth hash lw l1 l2 wsk ps h i ADRS0 = Some (auth_path hf W len ss ps h i).
    Proof. intros h i. unfold buildAuth, auth_path. apply all_of_map. intros j _. cbv zeta. apply treeHash_eq. Qed.

    Lemma XMSS_sign_eq : forall h prf root i msg,
      XMSS_sign hash lw l1 l2 wsk ps h prf root i msg = Some (signature hf W len h (msg_digits lw l1 l2) ss prf ps root i msg).
    Proof.
      intros h prf root i msg. unfold XMSS_sign, treeSig, signature. cbv zeta. rewrite buildAuth_eq, rfc_PRF_eq, !toByte_eq.
      change (setOTSAddress (SpecRfc.setType ADRS0 0) (N.of_nat i)) with [0; 0; 0; 0; N.of_nat i; 0; 0; 0]%N.
      assert (EM : forall R, rfc_H_msg hash (R ++ root ++ to_byte 32 (N.of_nat i)) msg = digest hf R root i msg).
      { intros R. unfold rfc_H_msg. rewrite toByte_eq. reflexivity. }
      rewrite EM. rewrite WOTS_sign_eq by (apply keyed_length). reflexivity.
    Qed.
  End Key.

  (** ** Verification *)
  Lemma pk_cells : forall ps o d sig, cells32 sig -> cells32 (pk_of_sig hf W ps o d sig).
  Proof.
    intros ps o d sig HC. apply Forall_forall. intros v Hv. unfold pk_of_sig in Hv. apply in_map_iff in Hv. destruct Hv as (c & <- & Hc).
    apply in_seq in Hc. apply chain_length. apply nth_cells32; auto. lia.
  Qed.
  Lemma root_fold : forall ps idx path j cur x m auth,
    (forall k, k < length path -> nth (j + k) auth [] = nth k path []) -> length cur = 32 -> cells32 path ->
    fst (fold_left (root_turn hash idx auth ps) (seq j (length path)) (cur, [0; 0; 0; 2; 0; x; N.of_nat (idx / 2 ^ j); m]%N)) =
    climb hf ps j (idx / 2 ^ j) cur path.
  Proof.
    intros ps idx. induction path as [|a path IH]; intros j cur x m auth HA HL HC; [reflexivity|].
    cbn [length seq fold_left climb]. unfold root_turn at 2. cbv zeta.
    pose proof (HA 0 ltac:(cbn [length]; lia)) as H0. rewrite Nat.add_0_r in H0. cbn [nth] in H0. rewrite H0. clear H0.
    inversion HC as [|? ? Ha HC']; subst.
    assert (EJ : idx / 2 ^ j / 2 = idx / 2 ^ S j).
    { rewrite Nat.div_div by (try (apply Nat.pow_nonzero); lia). f_equal. cbn [Nat.pow]. lia. }
    set (i := idx / 2 ^ j) in *.
    assert (HA' : forall k, k < length path -> nth (S j + k) auth [] = nth k path []).
    { intros k Hk. replace (S j + k) with (j + S k) by lia. rewrite HA by (cbn [length]; lia). reflexivity. }
    unfold getTreeIndex, SpecRfc.setTreeIndex, SpecRfc.setTreeHeight, set_word. cbn [firstn skipn app nth].
    pose proof (Nat.div_mod i 2 ltac:(lia)) as D. pose proof (Nat.mod_upper_bound i 2 ltac:(lia)) as D2.
    assert (EO : Nat.odd i = negb (i mod 2 =? 0)).
    { rewrite <- Nat.bit0_odd, Nat.bit0_eqb. destruct (i mod 2) as [|[|?]]; try reflexivity; lia. }
    assert (EH : forall l r, length l = 32 -> RAND_HASH hash l r ps [0; 0; 0; 2; 0; N.of_nat j; N.of_nat (i / 2); m]%N = rand_hash hf ps 2 0 j (i / 2) l r).
    { intros l r Hl. exact (RAND_HASH_eq l r ps 2 0 j (i / 2) m Hl). }
    rewrite EO. destruct (i mod 2 =? 0) eqn:Ez; cbn [negb].
    - apply Nat.eqb_eq in Ez. assert (Ed : (N.of_nat i / 2)%N = N.of_nat (i / 2)).
      { change 2%N with (N.of_nat 2). symmetry. apply Nat2N.inj_div. }
      rewrite Ed, EH by assumption. rewrite EJ. apply IH; auto. apply keyed_length.
    - apply Nat.eqb_neq in Ez. assert (Ed : ((N.of_nat i - 1) / 2)%N = N.of_nat (i / 2)).
      { replace (N.of_nat i - 1)%N with (N.of_nat (i / 2) * 2)%N by lia. apply N.div_mul. lia. }
      rewrite Ed, EH by assumption. rewrite EJ. apply IH; auto. apply keyed_length.
  Qed.

  Lemma XMSS_rootFromSig_eq : forall h idx ots auth M ps, length ots = len -> length auth = h -> length M = 32 -> cells32 ots -> cells32 auth ->
    XMSS_rootFromSig hash lw l1 l2 h idx ots auth M ps ADRS0 =
    Some (climb hf ps 0 idx (compress hf ps idx (pk_of_sig hf W ps idx (msg_digits lw l1 l2 M) ots)) auth).
  Proof.
    intros h idx ots auth M ps LO LA LM CO CA. unfold XMSS_rootFromSig. cbv zeta.
    change (setOTSAddress (SpecRfc.setType ADRS0 0) (N.of_nat idx)) with [0; 0; 0; 0; N.of_nat idx; 0; 0; 0]%N.
    rewrite WOTS_pkFromSig_eq by assumption. f_equal.
    change (setLTreeAddress (SpecRfc.setType [0; 0; 0; 0; N.of_nat idx; 0; 0; 0]%N 1) (N.of_nat idx)) with [0; 0; 0; 1; N.of_nat idx; 0; 0; 0]%N.
    change (SpecRfc.setTreeIndex (SpecRfc.setType [0; 0; 0; 1; N.of_nat idx; 0; 0; 0]%N 2) (N.of_nat idx)) with [0; 0; 0; 2; 0; 0; N.of_nat idx; 0]%N.
    rewrite ltree_eq.
    - rewrite <- LA. pose proof (root_fold ps idx auth 0 (compress hf ps idx (pk_of_sig hf W ps idx (msg_digits lw l1 l2 M) ots)) 0%N 0%N auth) as R.
      change (2 ^ 0) with 1 in R. rewrite Nat.div_1_r in R. apply R; auto.
      apply compress_length; [|now apply pk_cells].
      intros E. apply (f_equal (@length (list N))) in E. rewrite pk_of_sig_length in E. cbn [length] in E. lia.
    - exact Hlen.
    - unfold pk_of_sig. now rewrite map_length, seq_length.
    - now apply pk_cells.
  Qed.
End R.

(** The parameters of the four Winternitz parameters of the library. *)
Lemma rfc_params : forall w wp, winternitz w = Some wp ->
  In (fst (fst wp)) [1; 2; 4; 8] /\ snd (fst wp) = 32 * (8 / fst (fst wp)) /\ 1 <= snd (fst wp) + snd wp.
Proof.
  intros w wp Hw. destruct (winternitz_cases w wp Hw) as [(_ & ->)|[(_ & ->)|[(_ & ->)|(_ & ->)]]]; cbn; repeat split; auto; lia.
Qed.

Lemma lib_wots_sk_eq : forall hf len ss o c, c < len -> nth c (lib_wots_sk (raw hf) len ss o) [] = chain_start hf ss o c.
Proof.
  intros hf len ss o c Hc. unfold lib_wots_sk. rewrite nth_map_seq by exact Hc. rewrite !rfc_PRF_eq, toByte_eq.
  change (setOTSAddress ADRS0 (N.of_nat o)) with [0; 0; 0; 0; N.of_nat o; 0; 0; 0]%N. rewrite adrs_eq. reflexivity.
Qed.

(** ** C98 *)

(** The public key of every supported key pair holds the root of Algorithm 9 (treeHash over the
    whole tree) for the one-time keys of the library, and the public seed. *)
Theorem C98_public_key_is_rfc : forall junk seed height hash hf fmt w wp, supported hash hf w wp height seed ->
  exists x, XmssBasic_new junk seed (N.of_nat height) hash fmt w = Ok x /\
    let '(lg_w, len_1, len_2) := wp in
    treeHash (raw hf) lg_w len_1 len_2 (lib_wots_sk (raw hf) (len_1 + len_2) (key_seed seed)) (key_pub seed) 0 height ADRS0
      = Some (pk_root (getPK x)) /\
    pk_seed (getPK x) = key_pub seed.
Proof.
  intros junk seed height hash hf fmt w wp HS. pose proof (cfg_of _ _ _ _ _ _ fmt HS) as HC.
  eexists. split; [exact (XmssBasic_new_spec _ _ HC junk)|]. destruct (pk_parts _ _ 0 HC) as (P1 & P2 & _).
  destruct (rfc_params w wp ltac:(apply HS)) as (Q1 & Q2 & Q3). destruct wp as [[lw l1] l2]. cbn [fst snd] in *.
  split; [|exact P2]. etransitivity; [|apply (f_equal Some); symmetry; exact P1].
  exact (treeHash_eq hf lw l1 l2 Q2 Q3 _ (key_seed seed) (key_pub seed) (lib_wots_sk_eq hf (l1 + l2) (key_seed seed)) height 0).
Qed.

Theorem C98_public_key_is_rfc_fast : forall junk seed height hash hf fmt, supported hash hf 16 w16 height seed ->
  exists x, XmssFast_new junk seed (N.of_nat height) hash fmt = Ok x /\
    treeHash (raw hf) 4 64 3 (lib_wots_sk (raw hf) 67 (key_seed seed)) (key_pub seed) 0 height ADRS0 = Some (pk_root (getPK (xf_base x))) /\
    pk_seed (getPK (xf_base x)) = key_pub seed.
Proof.
  intros junk seed height hash hf fmt HS. destruct (XmssFast_new_spec junk seed height hash hf fmt HS) as (x & E & Eb & _).
  exists x. split; [exact E|]. destruct (C98_public_key_is_rfc junk seed height hash hf fmt 16 w16 HS) as (x' & E' & H1 & H2).
  pose proof (XmssBasic_new_spec _ _ (cfg_of _ _ _ _ _ _ fmt HS) junk) as E2. cbn [c_seed c_height c_hash c_fmt c_w] in E2.
  assert (x' = xf_base x) as Ex by (rewrite Eb; apply Ok_inj; rewrite <- E'; exact E2). rewrite <- Ex. split; assumption.
Qed.

(** Every signature that an object hands out (an XmssFast with any history of sign and setIndex
    calls, an XmssBasic moved to any index) is the output of Algorithm 12 at its index. *)
Theorem C98_signatures_are_rfc : forall hash hf w wp seed idx h pk msg sig, signed hash hf w wp seed idx h (pk, msg, sig) ->
  let '(lg_w, len_1, len_2) := wp in
  XMSS_sign (raw hf) lg_w len_1 len_2 (lib_wots_sk (raw hf) (len_1 + len_2) (key_seed seed)) (pk_seed pk) h (key_prf seed) (pk_root pk) (N.to_nat idx) msg
    = Some sig.
Proof.
  intros hash hf w wp seed idx h pk msg sig H. destruct (signed_owner _ _ _ _ _ _ _ _ _ _ H) as (HS & Hi & Er & Ep & Es).
  destruct (rfc_params w wp ltac:(apply HS)) as (Q1 & Q2 & Q3). rewrite <- ref_sig_owner in Es. rewrite Er, Ep, Es.
  destruct wp as [[lw l1] l2]. cbn [fst snd] in *.
  exact (XMSS_sign_eq hf lw l1 l2 Q1 Q2 Q3 _ (key_seed seed) (key_pub seed) (lib_wots_sk_eq hf (l1 + l2) (key_seed seed)) h _ _ _ _).
Qed.

(** verify is Algorithm 14 on the parts of the signature, with false for other lengths and for
    heights below 4: for every message, signature and public key with a known hash function. *)
Theorem C98_verify_is_rfc : forall w wp hf msg sig pk, winternitz w = Some wp -> all_bytes pk ->
  hash_of_id (nth 0 pk 0 mod 16)%N = Some hf ->
  let '(lg_w, len_1, len_2) := wp in
  let len := len_1 + len_2 in
  let h := 2 * N.to_nat (nth 1 pk 0 mod 16)%N in
  verify msg sig pk w = Ok ((length pk =? 67) && (4 <=? h) && (length sig =? 4 + 32 + 32 * len + 32 * h) &&
    XMSS_verify (raw hf) lg_w len_1 len_2 h (N.to_nat (sig_index sig)) (firstn 32 (skipn 4 sig))
      (cells len (skipn 36 sig)) (cells h (skipn (36 + 32 * len) sig)) msg (pk_root pk) (pk_seed pk)).
Proof.
  intros w wp hf msg sig pk Hw HB Hh. rewrite (verify_spec w wp hf msg sig pk Hw HB Hh). destruct (rfc_params w wp Hw) as (Q1 & Q2 & Q3).
  destruct wp as [[lw l1] l2]. cbn [fst snd] in *. cbv zeta. apply f_equal. unfold ref_verify. cbv zeta.
  set (h := 2 * N.to_nat (nth 1 pk 0 mod 16)%N). change (4 + 32 + 32 * (l1 + l2) + 32 * h) with (36 + 32 * (l1 + l2) + 32 * h).
  destruct (length pk =? 67) eqn:E1; [|reflexivity]. destruct (4 <=? h) eqn:E2; [|reflexivity].
  destruct (length sig =? 36 + 32 * (l1 + l2) + 32 * h) eqn:E3; [|reflexivity]. apply Nat.eqb_eq in E3. cbn [andb].
  unfold XMSS_verify. cbv zeta. rewrite toByte_eq.
  assert (EM : forall R root i, rfc_H_msg (raw hf) (R ++ root ++ to_byte 32 (N.of_nat i)) msg = digest hf R root i msg).
  { intros R root i. unfold rfc_H_msg. rewrite toByte_eq. reflexivity. }
  rewrite EM. rewrite (XMSS_rootFromSig_eq hf lw l1 l2 Q1 Q2 Q3).
  - reflexivity.
  - apply cells_length.
  - apply cells_length.
  - apply keyed_length.
  - apply cells_cells32. rewrite skipn_length. lia.
  - apply cells_cells32. rewrite skipn_length. lia.
Qed.

(** ** Concrete cases *)
Example C98_public_key_is_rfc_case := C98_public_key_is_rfc [170%N] _ _ _ _ 0%N _ _ sup256.
Example C98_public_key_is_rfc_fast_case := C98_public_key_is_rfc_fast [170%N] _ _ _ _ 0%N sup16.
(** A signature of an XmssFast of height 10 and one of an XmssBasic of height 10 with w = 4. *)
Example C98_signatures_are_rfc_case : exists pk sig pk4 sig4,
  signed 2 SHAKE_256 16 w16 seed_c 0 10 (pk, [1%N; 2%N], sig) /\ signed 0 SHA2_256 4 (2, 128, 5) seed_c 700 10 (pk4, [3%N], sig4).
Proof.
  destruct (XmssFast_new_spec [] seed_c 10 2 SHAKE_256 0 sup16) as (x & E & _).
  destruct (fast_history [] seed_c 10 2 SHAKE_256 0 sup16) as (x' & E' & HR). assert (x' = x) by congruence. subst x'. destruct (HR [OpSign [1%N; 2%N]]) as (y & Er & _).
  pose proof (cfg_of _ _ _ _ _ _ 0%N sup4) as HC.
  do 4 eexists. split.
  - eapply (signed_fast 2 SHAKE_256 16 w16 seed_c 0 [] 10 0 x _ y _ 0); [reflexivity|exact sup16|exact E|exact Er|reflexivity|reflexivity|].
    unfold sig_index, ref_sig, signature. change (firstn 4 ?x) with (slice 0 4 x). rewrite slice_app_l by (now rewrite to_byte_length). reflexivity.
  - eapply (signed_basic 0 SHA2_256 4 (2, 128, 5) seed_c 700 [] [] 10 0); [exact sup4|lia|exact (XmssBasic_new_spec _ _ HC [])|reflexivity|].
    change (fst (base_setIndex (c_obj (mkCfg SHA2_256 0 4 0 10 seed_c) (2, 128, 5) 0) 700)) with (c_obj (mkCfg SHA2_256 0 4 0 10 seed_c) (2, 128, 5) 700).
    apply (XmssBasic_sign_spec _ _ HC [] 700%N [3%N]); [cbn; lia|reflexivity].
Qed.
(** A public key, message and signature that verify accepts, and so does Algorithm 14. *)
Example C98_verify_is_rfc_case : exists pk msg sig, winternitz 16 = Some w16 /\ all_bytes pk /\ hash_of_id (nth 0 pk 0 mod 16)%N = Some SHAKE_256 /\
  verify msg sig pk 16 = Ok true /\
  XMSS_verify (raw SHAKE_256) 4 64 3 10 (N.to_nat (sig_index sig)) (firstn 32 (skipn 4 sig))
      (cells 67 (skipn 36 sig)) (cells 10 (skipn 2180 sig)) msg (pk_root pk) (pk_seed pk) = true.
Proof.
  pose proof (cfg_of _ _ _ _ _ _ 0%N sup16) as HC. set (c := mkCfg SHAKE_256 2 16 0 10 seed_c) in *.
  destruct (pk_parts c w16 0 HC) as (P1 & P2 & P3 & P4).
  assert (V : verify [7%N] (c_sig c w16 5 [7%N]) (c_pk c w16 0) 16 = Ok true).
  { apply (c_sig_verifies c w16 HC 5 0%N [7%N]). cbn [c_height c]. change (2 ^ 10) with 1024. lia. }
  assert (B : all_bytes (c_pk c w16 0)) by (apply (c_pk_bytes _ _ HC)).
  assert (Hh : hash_of_id (nth 0 (c_pk c w16 0) 0 mod 16)%N = Some SHAKE_256) by (rewrite P4; reflexivity).
  exists (c_pk c w16 0), [7%N], (c_sig c w16 5 [7%N]). cbn [c_height c] in P3.
  set (pk := c_pk c w16 0) in *. set (sig := c_sig c w16 5 [7%N]) in *. clearbody pk sig. clear P1 P2 P4.
  pose proof (C98_verify_is_rfc 16 w16 SHAKE_256 [7%N] sig pk eq_refl B Hh) as R. unfold w16 in R. cbv zeta in R. rewrite P3, V in R. apply Ok_inj in R.
  symmetry in R. apply andb_prop in R. destruct R as (_ & R). split; [reflexivity|]. split; [exact B|]. split; [exact Hh|]. split; [exact V|]. exact R.
Qed.
