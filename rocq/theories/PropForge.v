(** What an accepted signature looks like: C45, C48, C49. *)
(** Concrete cases for the hypotheses below: CasesXmss.v and CasesMisc.v. *)
From Coq Require Import List NArith Arith Lia Bool.
From Verif Require Import Base Bytes Keccak KeccakLemmas Sha256 HashAddress Wots XmssCommon AlgsXmss AlgsXmssFast Descriptor
  SpecXmss SpecApi SpecForge XmssObj XmssRefine WotsProofs TreeProofs BasicProofs FastProofs DescrProofs VerifyProofs PropObj PropKeys
  PropWots PropVerify.
From Verif Require Export SpecTerms.
Import ListNotations.
Open Scope nat_scope.

Lemma bytes_eqb_spec : forall a b, reflect (a = b) (bytes_eqb a b).
Proof. intros. unfold bytes_eqb. destruct (list_eq_dec N.eq_dec a b); constructor; auto. Qed.

Lemma xor_inj : forall m x y, length x = length m -> length y = length m -> xor_bytes x m = xor_bytes y m -> x = y.
Proof.
  induction m as [|k m IH]; intros [|a x] [|b y] L1 L2 E; try discriminate; auto.
  cbn [xor_bytes] in E. injection E as E1 E2. f_equal; [|apply IH; auto].
  apply (f_equal (fun v => N.lxor v k)) in E1. now rewrite !N.lxor_assoc, !N.lxor_nilpotent, !N.lxor_0_r in E1.
Qed.
Lemma PRF_length : forall hf k m, length (PRF hf k m) = 32.
Proof. intros. apply keyed_length. Qed.

Lemma F_raw : forall hf ps o c i x, F_at hf ps o c i x = raw hf (F_input hf ps o c i x).
Proof. reflexivity. Qed.
Lemma H_raw : forall hf ps t k j i l r, rand_hash hf ps t k j i l r = raw hf (H_input hf ps t k j i l r).
Proof. reflexivity. Qed.
Lemma PRF_raw : forall hf k m, PRF hf k m = raw hf (PRF_input k m).
Proof. reflexivity. Qed.
Lemma msg_raw : forall hf R root i m, digest hf R root i m = raw hf (msg_input R root i m).
Proof. reflexivity. Qed.

Lemma F_input_inj : forall hf ps o c i x y, length x = 32 -> length y = 32 ->
  F_input hf ps o c i x = F_input hf ps o c i y -> x = y.
Proof.
  intros hf ps o c i x y Lx Ly E. unfold F_input in E. apply app_inv_head in E. apply app_inv_head in E.
  eapply xor_inj; [| |exact E]; rewrite PRF_length; auto.
Qed.
Lemma H_input_inj : forall hf ps t k j i l r l' r', length l = 32 -> length r = 32 -> length l' = 32 -> length r' = 32 ->
  H_input hf ps t k j i l r = H_input hf ps t k j i l' r' -> l = l' /\ r = r'.
Proof.
  intros hf ps t k j i l r l' r' L1 L2 L3 L4 E. unfold H_input in E. apply app_inv_head in E. apply app_inv_head in E.
  apply xor_inj in E; [|rewrite !app_length, !PRF_length; lia|rewrite !app_length, !PRF_length; lia].
  split.
  - apply (f_equal (firstn 32)) in E. now rewrite !(firstn_app_exact _ 32) in E by auto.
  - apply (f_equal (skipn 32)) in E. now rewrite !(skipn_app_exact _ 32) in E by auto.
Qed.

Definition cells32 (l : list (list N)) : Prop := Forall (fun c => length c = 32) l.
Definition found (hf : hashfn) (o : option (list N * list N)) : Prop := exists xy, o = Some xy /\ collision hf xy.

Lemma found_orelse_l : forall hf a b, found hf a -> found hf (orelse a b).
Proof. intros hf a b (xy & -> & H). exists xy. auto. Qed.
Lemma found_orelse_r : forall hf a b, a = None -> found hf b -> found hf (orelse a b).
Proof. intros hf a b -> H. exact H. Qed.

(** ** Chains *)
Lemma chain_coll : forall hf ps o c st n x y, length x = 32 -> length y = 32 ->
  chain hf ps o c st n x = chain hf ps o c st n y ->
  found hf (chain_collision hf ps o c st n x y) \/ (chain_collision hf ps o c st n x y = None /\ x = y).
Proof.
  induction n; intros x y Lx Ly E; cbn [chain chain_collision] in *; [now right|].
  destruct (bytes_eqb_spec (chain hf ps o c st n x) (chain hf ps o c st n y)) as [Eq|Ne].
  - apply IHn; auto.
  - left. eexists. split; [reflexivity|]. split; cbn [fst snd].
    + intros EF. apply Ne. eapply F_input_inj; [| |exact EF]; apply chain_length; auto.
    + rewrite <- !F_raw. exact E.
Qed.

(** ** L-trees *)
Lemma level_coll : forall hf ps o j l l' i, length l = length l' -> cells32 l -> cells32 l' ->
  found hf (level_collision hf ps o j i l l') \/
  (level_collision hf ps o j i l l' = None /\ (l_level hf ps o j i l = l_level hf ps o j i l' -> l = l')).
Proof.
  intros hf ps o j. fix IH 1. intros [|a [|b t]] l' i HL HF HF'.
  - right. split; [reflexivity|]. destruct l'; [auto|discriminate].
  - right. destruct l' as [|a' [|b' t']]; try discriminate. split; [reflexivity|]. auto.
  - destruct l' as [|a' [|b' t']]; try discriminate. cbn [level_collision l_level].
    inversion HF as [|? ? Ha HF1]; subst. inversion HF1 as [|? ? Hb HF2]; subst.
    inversion HF' as [|? ? Ha' HF1']; subst. inversion HF1' as [|? ? Hb' HF2']; subst.
    destruct (bytes_eqb_spec (rand_hash hf ps 1 o j i a b) (rand_hash hf ps 1 o j i a' b')) as [Eh|Nh]; cbn [andb].
    + destruct (bytes_eqb_spec a a') as [Ea|Na]; cbn [andb negb];
        [destruct (bytes_eqb_spec b b') as [Eb|Nb]; cbn [negb]|].
      * cbn [length] in HL. destruct (IH t t' (S i) ltac:(lia) HF2 HF2') as [Hf|(Hn & Hi)]; [now left|right].
        split; auto. intros E. injection E as _ E. subst. f_equal. f_equal. auto.
      * left. eexists. split; [reflexivity|]. split; cbn [fst snd]; [|rewrite <- !H_raw; exact Eh].
        intros EH. apply Nb. apply H_input_inj in EH; tauto.
      * left. eexists. split; [reflexivity|]. split; cbn [fst snd]; [|rewrite <- !H_raw; exact Eh].
        intros EH. apply Na. apply H_input_inj in EH; tauto.
    + cbn [length] in HL. destruct (IH t t' (S i) ltac:(lia) HF2 HF2') as [Hf|(Hn & Hi)]; [now left|right].
      split; auto. intros E. exfalso. apply Nh. congruence.
Qed.

Lemma ltree_coll : forall hf ps o fuel j l l', length l = length l' -> length l <= S fuel -> cells32 l -> cells32 l' ->
  l_root hf ps fuel o j l = l_root hf ps fuel o j l' ->
  found hf (ltree_collision hf ps fuel o j l l') \/ (ltree_collision hf ps fuel o j l l' = None /\ l = l').
Proof.
  induction fuel; intros j l l' HL Hle HF HF' E.
  - right. split; [reflexivity|]. destruct l as [|a [|]], l' as [|a' [|]]; try discriminate; auto.
    + cbn in E. congruence. + cbn in Hle. lia.
  - cbn [ltree_collision].
    destruct (level_coll hf ps o j l l' 0 HL HF HF') as [Hf|(Hn & Hi)]; [left; now apply found_orelse_l|].
    rewrite Hn. cbn [orelse].
    destruct (IHfuel (S j) (l_level hf ps o j 0 l) (l_level hf ps o j 0 l')) as [Hf|(Hn2 & Hi2)].
    + now rewrite !l_level_length, HL.
    + rewrite l_level_length. pose proof (Nat.div_mod (length l + 1) 2). lia.
    + now apply l_level_cells. + now apply l_level_cells.
    + destruct l as [|a [|b t]], l' as [|a' [|b' t']]; try discriminate; auto.
      cbn [l_root] in E. cbn in E. subst a'. reflexivity.
    + now left.
    + right. split; auto.
Qed.

(** ** Paths *)
Lemma path_coll : forall hf w len ss ps path j i cur, 1 <= len -> length cur = 32 -> cells32 path ->
  let nd := node hf w len ss ps in
  climb hf ps j i cur path = nd (j + length path) (i / 2 ^ length path) ->
  found hf (path_collision hf ps nd j i cur path) \/
  (path_collision hf ps nd j i cur path = None /\ cur = nd j i /\
   path = map (fun k => nd (j + k) (Nat.lxor (i / 2 ^ k) 1)) (seq 0 (length path))).
Proof.
  intros hf w len ss ps path. induction path as [|a t IH]; intros j i cur Hlen Lc HF nd E.
  - right. split; [reflexivity|]. cbn [climb length] in E. rewrite Nat.add_0_r in E. change (2 ^ 0) with 1 in E.
    rewrite Nat.div_1_r in E. auto.
  - inversion HF as [|? ? La HF']; subst. cbn [climb path_collision length] in *.
    set (l := if Nat.odd i then a else cur). set (r := if Nat.odd i then cur else a).
    assert (Enx : (if Nat.odd i then rand_hash hf ps 2 0 j (i / 2) a cur else rand_hash hf ps 2 0 j (i / 2) cur a)
              = rand_hash hf ps 2 0 j (i / 2) l r) by (unfold l, r; now destruct (Nat.odd i)).
    rewrite Enx in E. set (nxt := rand_hash hf ps 2 0 j (i / 2) l r) in *.
    assert (Ll : length l = 32) by (unfold l; destruct (Nat.odd i); auto).
    assert (Lr : length r = 32) by (unfold r; destruct (Nat.odd i); auto).
    assert (Ln : forall x y, length (nd x y) = 32) by (intros; apply node_length; auto).
    assert (Ed : i / 2 / 2 ^ length t = i / 2 ^ S (length t)) by (rewrite Nat.div_div; [reflexivity|lia|apply Nat.pow_nonzero; lia]).
    destruct (IH (S j) (i / 2) nxt) as [Hf|(Hn & Hc & Hp)]; auto.
    { apply rand_hash_length. }
    { fold nd. rewrite E, Ed. f_equal. lia. }
    + left. fold nd in Hf. destruct (bytes_eqb nxt (nd (S j) (i / 2)) && negb (bytes_eqb l (nd j (2 * (i / 2))) && bytes_eqb r (nd j (2 * (i / 2) + 1)))) eqn:Eb; auto.
      apply andb_true_iff in Eb. destruct Eb as [E1 E2].
      destruct (bytes_eqb_spec nxt (nd (S j) (i / 2))) as [E1'|]; [|discriminate].
      eexists. split; [reflexivity|]. split; cbn [fst snd]; [|rewrite <- !H_raw; exact E1'].
      intros EH. apply H_input_inj in EH; auto. destruct EH as [-> ->].
      apply negb_true_iff, andb_false_iff in E2.
      destruct E2 as [E2|E2]; [destruct (bytes_eqb_spec (nd j (2 * (i / 2))) (nd j (2 * (i / 2))))|
        destruct (bytes_eqb_spec (nd j (2 * (i / 2) + 1)) (nd j (2 * (i / 2) + 1)))]; congruence.
    + fold nd in Hn, Hc, Hp. rewrite Hc. destruct (bytes_eqb_spec (nd (S j) (i / 2)) (nd (S j) (i / 2))) as [_|]; [|congruence]. cbn [andb].
      destruct (bytes_eqb_spec l (nd j (2 * (i / 2)))) as [El|Nl]; cbn [andb negb];
        [destruct (bytes_eqb_spec r (nd j (2 * (i / 2) + 1))) as [Er|Nr]; cbn [negb]|].
      * right. split; [rewrite <- Hc; exact Hn|].
        assert (Hi : i = 2 * (i / 2) + (if Nat.odd i then 1 else 0)).
        { rewrite (Nat.div2_odd i) at 1. rewrite Nat.div2_div. now destruct (Nat.odd i). }
        split.
        { destruct (Nat.odd i) eqn:Eo; unfold l, r in *; rewrite Hi; [exact Er|rewrite Nat.add_0_r; exact El]. }
        cbn [seq map]. rewrite Nat.add_0_r. change (2 ^ 0) with 1. rewrite Nat.div_1_r. f_equal.
        { rewrite lxor_1. destruct (Nat.odd i) eqn:Eo; unfold l, r in *; [rewrite El|rewrite Er]; f_equal; lia. }
        rewrite <- seq_shift, map_map. rewrite Hp at 1. apply map_ext. intros k.
        f_equal; [lia|]. f_equal. rewrite Nat.div_div by (try apply Nat.pow_nonzero; lia). reflexivity.
      * left. eexists. split; [reflexivity|]. split; cbn [fst snd]; [|rewrite <- !H_raw; exact Hc].
        intros EH. apply H_input_inj in EH; auto; tauto.
      * left. eexists. split; [reflexivity|]. split; cbn [fst snd]; [|rewrite <- !H_raw; exact Hc].
        intros EH. apply H_input_inj in EH; auto; tauto.
Qed.

(** ** Indices outside the tree *)
Lemma climb_app : forall hf ps p1 a j i cur,
  climb hf ps j i cur (p1 ++ [a]) =
  (let k := j + length p1 in let top := i / 2 ^ length p1 in let cur' := climb hf ps j i cur p1 in
   rand_hash hf ps 2 0 k (top / 2) (if Nat.odd top then a else cur') (if Nat.odd top then cur' else a)).
Proof.
  induction p1 as [|x p1 IH]; intros a j i cur; cbn [app climb length].
  - rewrite Nat.add_0_r. change (2 ^ 0) with 1. rewrite Nat.div_1_r. cbv zeta. now destruct (Nat.odd i).
  - rewrite IH. cbv zeta. replace (S j + length p1) with (j + S (length p1)) by lia.
    assert (Ed : i / 2 / 2 ^ length p1 = i / 2 ^ S (length p1)) by (rewrite Nat.div_div; [reflexivity|lia|apply Nat.pow_nonzero; lia]).
    rewrite Ed. reflexivity.
Qed.

Lemma adr_index_inj : forall k a b, (N.of_nat a < 2 ^ 32)%N -> (N.of_nat b < 2 ^ 32)%N ->
  adr 2 0 (N.of_nat k) (N.of_nat a) 0 = adr 2 0 (N.of_nat k) (N.of_nat b) 0 -> a = b.
Proof.
  intros k a b Ha Hb E. unfold adr in E. cbn [map concat] in E. rewrite !app_nil_r in E.
  do 6 (apply app_inv_head in E). apply app_inv_tail in E.
  apply (to_byte_inj 4) in E; [lia|exact Ha|exact Hb].
Qed.

Lemma outside_coll : forall hf w len ss ps path i cur, 1 <= len -> path <> [] ->
  let nd := node hf w len ss ps in
  2 ^ length path <= i -> (N.of_nat i < 2 ^ 32)%N ->
  climb hf ps 0 i cur path = nd (length path) 0 ->
  found hf (outside_collision hf ps nd i cur path).
Proof.
  intros hf w len ss ps path i cur Hlen Hne nd Hi H32 E.
  unfold outside_collision. set (k := length path - 1). set (top := i / 2 ^ k).
  pose proof (app_removelast_last [] Hne) as Ep.
  assert (Hpl : length path = S k).
  { unfold k. destruct path; [congruence|]. cbn [length]. lia. }
  assert (Lr : length (removelast path) = k).
  { rewrite Ep in Hpl at 1. rewrite app_length in Hpl. cbn [length] in Hpl. lia. }
  rewrite Ep in E at 1. rewrite climb_app in E. cbv zeta in E. rewrite Lr in E. cbn [plus] in E. fold top in E.
  set (cur' := climb hf ps 0 i cur (removelast path)) in *. set (a := last path []) in *.
  set (l := if Nat.odd top then a else cur') in *. set (r := if Nat.odd top then cur' else a) in *.
  rewrite Hpl in E. unfold nd in E. cbn [node] in E. change (2 * 0) with 0 in E. cbn [plus] in E. fold nd in E.
  assert (Ht : 1 <= top / 2).
  { unfold top. rewrite Nat.div_div by (try apply Nat.pow_nonzero; lia). replace (2 ^ k * 2) with (2 ^ length path) by (rewrite Hpl; cbn [Nat.pow]; lia).
    apply Nat.div_le_lower_bound; [apply Nat.pow_nonzero; lia|lia]. }
  assert (Htl : top / 2 <= i).
  { transitivity top; [apply Nat.div_le_upper_bound; lia|]. unfold top. apply Nat.div_le_upper_bound; [apply Nat.pow_nonzero; lia|].
    pose proof (Nat.pow_nonzero 2 k). nia. }
  assert (Na : adr 2 0 (N.of_nat k) (N.of_nat (top / 2)) 0 <> adr 2 0 (N.of_nat k) (N.of_nat 0) 0).
  { intros EA. apply adr_index_inj in EA; [lia|lia|reflexivity]. }
  destruct (bytes_eqb_spec (PRF hf ps (adr 2 0 (N.of_nat k) (N.of_nat (top / 2)) 0)) (PRF hf ps (adr 2 0 (N.of_nat k) (N.of_nat 0) 0))) as [EP|NP].
  - eexists. split; [reflexivity|]. split; cbn [fst snd]; [|rewrite <- !PRF_raw; exact EP].
    unfold PRF_input. intros EI. do 2 (apply app_inv_head in EI). auto.
  - eexists. split; [reflexivity|]. split; cbn [fst snd]; [|rewrite <- !H_raw; exact E].
    unfold H_input. intros EI. apply app_inv_head in EI. apply (f_equal (firstn 32)) in EI.
    rewrite !(firstn_app_exact _ 32) in EI by apply PRF_length. auto.
Qed.

(** ** All chains *)
Lemma first_some_coll : forall hf (f : nat -> option (list N * list N)) (P : nat -> Prop) l,
  (forall c, In c l -> found hf (f c) \/ (f c = None /\ P c)) ->
  found hf (first_some (map f l)) \/ (first_some (map f l) = None /\ forall c, In c l -> P c).
Proof.
  induction l as [|c l IH]; intros H; [right; split; auto; intros c []|]. cbn [map first_some].
  destruct (H c (or_introl eq_refl)) as [Hf|(Hn & Hp)]; [left; now apply found_orelse_l|].
  rewrite Hn. cbn [orelse]. destruct IH as [Hf|(Hn2 & Hp2)]; [intros; apply H; now right|now left|].
  right. split; auto. intros k [<-|Hk]; auto.
Qed.

Lemma cells_cells32 : forall k l, 32 * k <= length l -> cells32 (cells k l).
Proof.
  induction k; intros l HL; cbn [cells]; constructor.
  - rewrite firstn_length. lia.
  - apply IHk. rewrite skipn_length. lia.
Qed.
Lemma cells_length : forall k l, length (cells k l) = k.
Proof. induction k; intros; cbn [cells length]; auto. Qed.
Lemma concat_cells : forall k l, 32 * k <= length l -> concat (cells k l) = firstn (32 * k) l.
Proof.
  induction k; intros l HL; cbn [cells concat]; [now rewrite Nat.mul_0_r|].
  rewrite IHk by (rewrite skipn_length; lia). replace (32 * S k) with (32 + 32 * k) by lia.
  rewrite <- (firstn_skipn 32 l) at 3. rewrite firstn_app. rewrite firstn_firstn.
  rewrite firstn_length_le by lia. rewrite Nat.min_r by lia. f_equal. f_equal. lia.
Qed.
Lemma nth_cells32 : forall l c, cells32 l -> c < length l -> length (nth c l []) = 32.
Proof. intros l c HF Hc. unfold cells32 in HF. rewrite Forall_forall in HF. apply HF. now apply nth_In. Qed.

Lemma nth_map_seq : forall A (f : nat -> A) n c d, c < n -> nth c (map f (seq 0 n)) d = f c.
Proof. intros. rewrite (nth_indep _ d (f 0)) by (rewrite map_length, seq_length; auto). rewrite map_nth, seq_nth by auto. reflexivity. Qed.

(** ** Assembly *)
Section Accept.
  Variables (hf : hashfn) (w : N) (wp : nat * nat * nat) (h : nat) (seed : list N) (pk : list N).
  Hypothesis Hw : winternitz w = Some wp.
  Hypothesis Hh : 4 <= h.
  Hypothesis Hroot : firstn 32 (skipn 3 pk) = ref_root hf wp h seed.
  Hypothesis Hps : firstn 32 (skipn 35 pk) = key_pub seed.
  Hypothesis Hhp : 2 * N.to_nat (nth 1 pk 0 mod 16)%N = h.

  Lemma accepted : forall msg sig, all_bytes sig -> ref_verify hf wp msg sig pk = true ->
    found hf (extract hf wp h seed msg sig) \/
    (extract hf wp h seed msg sig = None /\ N.to_nat (sig_index sig) < 2 ^ h /\
     sig = owner_sig hf wp h seed (N.to_nat (sig_index sig)) (sig_R sig) msg).
  Proof.
    intros msg sig HB HV.
    assert (G : exists lw l1 l2, wp = (lw, l1, l2) /\ 1 <= l1 + l2 /\ lw_ok lw /\ (exists p, wots_ok p /\ w_log_w p = lw /\ w_w p = (2 ^ N.of_nat lw)%N /\ w_len_1 p = l1 /\ w_len_2 p = l2)).
    { destruct (wparams_ok w wp Hw) as (Ewp & HP & E1 & E2 & E3 & E4 & E5 & E6 & E7). apply winternitz_cases in Hw. unfold lw_ok.
      destruct Hw as [(-> & ->)|[(-> & ->)|[(-> & ->)|(-> & ->)]]]; do 3 eexists; (split; [reflexivity|]; split; [lia|]; split; [auto|]);
        eexists; (split; [exact HP|]); repeat split. }
    destruct G as (lw & l1 & l2 & Ewp & Hlen & Hlw & (p & HP & P1 & P2 & P3 & P4)). 
    unfold ref_verify in HV. rewrite Ewp in HV.
    rewrite Hhp, Hroot, Hps in HV. fold (sig_index sig) in HV.
    apply andb_true_iff in HV. destruct HV as [HV Hrec]. apply andb_true_iff in HV. destruct HV as [HV HL].
    apply Nat.eqb_eq in HL. clear HV.
    destruct (list_eq_dec N.eq_dec _ _) as [Er|]; [|discriminate]. clear Hrec.
    assert (W1 : fst (fst wp) = lw) by (now rewrite Ewp). assert (W2 : snd (fst wp) = l1) by (now rewrite Ewp).
    assert (W3 : snd wp = l2) by (now rewrite Ewp).
    unfold extract, owner_sig, sig_digits, sig_wots, sig_path. rewrite W1, W2, W3.
    set (len := l1 + l2) in *. set (W := 2 ^ lw) in *. set (i := N.to_nat (sig_index sig)) in *.
    set (ss := key_seed seed) in *. set (ps := key_pub seed) in *. set (R := sig_R sig) in *.
    change (firstn 32 (skipn 4 sig)) with R in Er.
    assert (LR : length R = 32). { unfold R, sig_R. rewrite firstn_length, skipn_length. lia. }
    set (dg := digest hf R (ref_root hf wp h seed) i msg) in *.
    assert (Ldg : length dg = 32) by apply keyed_length.
    set (ds := msg_digits lw l1 l2 dg) in *.
    assert (HD : length ds = len /\ Forall (fun d => (d <= 2 ^ N.of_nat lw - 1)%N) ds).
    { destruct (wots_digits_ok p dg HP Ldg) as (ds' & Ed & Ld & Fd).
      rewrite (wots_digits_msg_digits p lw dg HP P1 P2 Ldg), P3, P4 in Ed. apply Ok_inj in Ed. subst ds'.
      split; [transitivity (w_len p); [exact Ld|unfold w_len; rewrite P3, P4; reflexivity]|]. rewrite <- P2. exact Fd. }
    destruct HD as (Lds & Fds).
    assert (WN : N.to_nat (2 ^ N.of_nat lw) = W) by apply pow_N_nat.
    assert (Hd : forall c, N.to_nat (nth c ds 0%N) <= W - 1).
    { intros c. destruct (nth_in_or_default c ds 0%N) as [Hin|E0]; [|rewrite E0; cbn; lia].
      rewrite Forall_forall in Fds. specialize (Fds _ Hin). cbv beta in Fds. rewrite <- WN. lia. }
    set (wots := cells len (skipn 36 sig)) in *. set (path := cells h (skipn (36 + 32 * len) sig)) in *.
    assert (Cw : cells32 wots) by (apply cells_cells32; rewrite skipn_length; lia).
    assert (Cp : cells32 path) by (apply cells_cells32; rewrite skipn_length; lia).
    assert (Lw : length wots = len) by apply cells_length. assert (Lp : length path = h) by apply cells_length.
    unfold recovered_root in Er.
    set (pkr := pk_of_sig hf W ps i ds wots) in *.
    assert (Lpk : length pkr = len) by (unfold pkr; now rewrite pk_of_sig_length).
    assert (Cpk : cells32 pkr).
    { unfold pkr, pk_of_sig. apply Forall_forall. intros v Hv. apply in_map_iff in Hv. destruct Hv as (c & <- & Hc).
      apply in_seq in Hc. apply chain_length. apply nth_cells32; auto. lia. }
    set (cur := compress hf ps i pkr) in *.
    assert (Lc : length cur = 32). { apply compress_length; auto. intros E. rewrite E in Lpk. cbn in Lpk. lia. }
    assert (HI32 : (N.of_nat i < 2 ^ 32)%N).
    { unfold i. rewrite N2Nat.id. unfold sig_index. eapply N.lt_le_trans; [apply from_be_bound; now apply all_bytes_firstn|].
      change (2 ^ 32)%N with (256 ^ N.of_nat 4)%N. apply N.pow_le_mono_r; [lia|]. rewrite firstn_length. lia. }
    assert (EN : ref_root hf wp h seed = node hf W len ss ps h 0) by (unfold ref_root; rewrite Ewp; reflexivity).
    set (nd := node hf W len ss ps) in *.
    assert (Er' : climb hf ps 0 i cur path = nd h 0) by (rewrite <- EN; exact Er). clear Er. rename Er' into Er.
    destruct (2 ^ h <=? i) eqn:Ei.
    { apply Nat.leb_le in Ei. left. apply outside_coll; auto.
      - intros E. rewrite E in Lp. cbn in Lp. lia.
      - now rewrite Lp. - rewrite Lp. exact Er. }
    apply Nat.leb_gt in Ei.
    destruct (path_coll hf W len ss ps path 0 i cur Hlen Lc Cp) as [Hf|(Hn & Hcur & Hpath)].
    { fold nd. rewrite Er. rewrite Lp. cbn [plus]. rewrite Nat.div_small by lia. reflexivity. }
    { left. now apply found_orelse_l. }
    fold nd in Hn, Hcur, Hpath. rewrite Hn. cbn [orelse].
    unfold nd in Hcur. cbn [node] in Hcur. unfold leaf in Hcur. unfold cur, compress in Hcur. rewrite Lpk in Hcur.
    assert (Lg : length (ots_pk hf W len ss ps i) = len) by (unfold ots_pk; now rewrite map_length, seq_length).
    rewrite Lg in Hcur.
    destruct (ltree_coll hf ps i len 0 pkr (ots_pk hf W len ss ps i)) as [Hf|(Hn2 & Epk)]; auto; try lia.
    { apply ots_pk_cells. }
    { left. now apply found_orelse_l. }
    rewrite Hn2. cbn [orelse].
    match goal with |- found hf (first_some (map ?f _)) \/ _ =>
      destruct (first_some_coll hf f (fun c => nth c wots [] = chain hf ps i c 0 (N.to_nat (nth c ds 0%N)) (chain_start hf ss i c)) (seq 0 len)) as [Hf|(Hn3 & Hch)] end.
    { intros c Hc. apply in_seq in Hc. set (d := N.to_nat (nth c ds 0%N)). apply chain_coll.
      - apply nth_cells32; auto. lia.
      - apply chain_length. apply keyed_length.
      - apply (f_equal (fun l => nth c l [])) in Epk. unfold pkr, pk_of_sig, ots_pk in Epk.
        rewrite Lw in Epk.
        rewrite !nth_map_seq in Epk by lia. cbv zeta in Epk. fold d in Epk. rewrite Epk. specialize (Hd c). fold d in Hd.
        replace (W - 1) with (d + (W - 1 - d)) at 1 by lia. apply chain_add. }
    { now left. }
    right. split; [exact Hn3|]. split; [exact Ei|].
    assert (Ewots : wots = ots_sig hf len ss ps i ds).
    { apply nth_ext with (d := []) (d' := []). { rewrite Lw. now rewrite ots_sig_length. }
      intros c Hc. rewrite Lw in Hc. rewrite (Hch c) by (apply in_seq; lia). unfold ots_sig.
      now rewrite nth_map_seq by lia. }
    rewrite <- Ewots.
    assert (Epath : path = auth_path hf W len ss ps h i).
    { rewrite Hpath, Lp. unfold auth_path. reflexivity. }
    rewrite <- Epath. unfold wots, path. rewrite !concat_cells by (rewrite skipn_length; lia).
    assert (E4 : to_byte 4 (N.of_nat i) = firstn 4 sig).
    { unfold i. rewrite N2Nat.id. unfold sig_index. replace 4 with (length (firstn 4 sig)) at 1 by (rewrite firstn_length; lia).
      apply to_byte_from_be. now apply all_bytes_firstn. }
    rewrite E4. unfold R, sig_R.
    rewrite <- (firstn_skipn 4 sig) at 1. f_equal. rewrite <- (firstn_skipn 32 (skipn 4 sig)) at 1. f_equal.
    rewrite <- skipn_plus. change (32 + 4) with 36.
    rewrite <- (firstn_skipn (32 * len) (skipn 36 sig)) at 1. f_equal. rewrite <- skipn_plus.
    replace (32 * len + 36) with (36 + 32 * len) by lia. symmetry. apply firstn_all2. rewrite skipn_length. lia.
  Qed.
End Accept.

Lemma pk_parts : forall c wp j, cfg_ok c wp -> let pk := c_pk c wp j in
  firstn 32 (skipn 3 pk) = ref_root (c_hf c) wp (c_height c) (c_seed c) /\
  firstn 32 (skipn 35 pk) = key_pub (c_seed c) /\
  2 * N.to_nat (nth 1 pk 0 mod 16)%N = c_height c /\ nth 0 pk 0%N = c_hash c.
Proof.
  intros c wp j HC pk. pose proof (co_h _ _ HC) as Hb. pose proof (hash_id_small _ _ (co_hash _ _ HC)) as Hs.
  pose proof (co_even _ _ HC) as He. apply Nat.even_spec in He. destruct He as [y Ey].
  destruct (key_lengths (c_seed c)) as (L1 & L2 & L3). pose proof (cfg_root_len c wp HC) as L4.
  unfold pk. rewrite (getPK_shape c wp HC).
  split. { rewrite (skipn_app_exact _ 3) by reflexivity. now apply firstn_app_exact. }
  split. { rewrite app_assoc, (skipn_app_exact _ 35) by (rewrite app_length, L4; reflexivity). apply firstn_all2. rewrite L3. lia. }
  rewrite getBytes_arith. cbn [app nth d_sig d_hash d_fmt d_height].
  split.
  - rewrite N.add_comm, (N.mul_comm 16), N.mod_add, N.mod_mod by lia. rewrite Ey, Nat2N.inj_mul. change (N.of_nat 2) with 2%N.
    rewrite (N.mul_comm 2), N.div_mul, N.mod_small by lia. lia.
  - rewrite (N.mod_small (c_hash c)) by lia. reflexivity.
Qed.

(** ** C48: an accepted signature is the owner's (up to the randomiser), or the
    verifier's run exhibits a collision of the underlying hash function. *)
Theorem C48_accepted_genuine_or_collision : forall junk seed height hash hf fmt w wp,
  supported hash hf w wp height seed ->
  exists x, XmssBasic_new junk seed (N.of_nat height) hash fmt w = Ok x /\
    (w = 16%N -> forall junk', exists y, XmssFast_new junk' seed (N.of_nat height) hash fmt = Ok y /\ getPK (xf_base y) = getPK x) /\
    forall msg sig, all_bytes sig -> verify msg sig (getPK x) w = Ok true ->
      (exists xy, extract hf wp height seed msg sig = Some xy /\ collision hf xy) \/
      ((sig_index sig < 2 ^ N.of_nat height)%N /\
       sig = owner_sig hf wp height seed (N.to_nat (sig_index sig)) (sig_R sig) msg).
Proof.
  intros junk seed height hash hf fmt w wp HS. pose proof (cfg_of _ _ _ _ _ _ fmt HS) as HC.
  set (c := mkCfg hf hash w fmt height seed) in *.
  exists (c_obj c wp 0). split; [apply (XmssBasic_new_spec c wp HC)|]. split.
  { intros -> junk'. assert (wp = w16) as ->. { destruct HS as (_ & Hw & _). change (winternitz 16) with (Some w16) in Hw. congruence. }
    destruct (XmssFast_new_spec junk' seed height hash hf fmt HS) as (y & Ey & HI). exists y. split; auto.
    destruct HI as (Eb & _). rewrite Eb. reflexivity. }
  intros msg sig HB HV. destruct (pk_parts c wp 0 HC) as (P1 & P2 & P3 & P4).
  fold (c_pk c wp 0) in HV.
  rewrite (verify_spec w wp hf) in HV.
  - apply Ok_inj in HV. destruct HS as (_ & Hw & Hh & _).
    destruct (accepted hf w wp height seed (c_pk c wp 0) Hw (proj1 Hh) P1 P2 P3 msg sig HB HV) as [Hf|(_ & Hi & Hs)]; [now left|right].
    split; [|exact Hs]. rewrite <- pow_N_nat in Hi. lia.
  - apply HS.
  - apply (c_pk_bytes c wp HC).
  - rewrite P4. rewrite N.mod_small by (pose proof (hash_id_small _ _ (co_hash _ _ HC)); lia). apply HS.
Qed.

(** Parts of an owner signature. *)
Lemma owner_parts : forall hf w wp h seed i R msg, winternitz w = Some wp -> length R = 32 -> (N.of_nat i < 2 ^ 32)%N ->
  let s := owner_sig hf wp h seed i R msg in
  let len := snd (fst wp) + snd wp in
  sig_index s = N.of_nat i /\ sig_R s = R /\
  sig_wots wp s = ots_sig hf len (key_seed seed) (key_pub seed) i
     (msg_digits (fst (fst wp)) (snd (fst wp)) (snd wp) (digest hf R (ref_root hf wp h seed) i msg)) /\
  sig_path wp h s = auth_path hf (2 ^ fst (fst wp)) len (key_seed seed) (key_pub seed) h i /\
  length s = base_size wp + 32 * h.
Proof.
  intros hf w wp h seed i R msg Hw LR Hi s len.
  assert (Hlen : 1 <= len). { unfold len. apply winternitz_cases in Hw. destruct Hw as [(-> & ->)|[(-> & ->)|[(-> & ->)|(-> & ->)]]]; cbn; lia. }
  set (X := ots_sig hf len (key_seed seed) (key_pub seed) i
     (msg_digits (fst (fst wp)) (snd (fst wp)) (snd wp) (digest hf R (ref_root hf wp h seed) i msg))).
  set (Y := auth_path hf (2 ^ fst (fst wp)) len (key_seed seed) (key_pub seed) h i).
  assert (Es : s = to_byte 4 (N.of_nat i) ++ R ++ concat X ++ concat Y) by reflexivity.
  assert (CX : forall v, In v X -> length v = 32) by apply ots_sig_cells.
  assert (CY : forall v, In v Y -> length v = 32) by (intros v Hv; eapply auth_path_cells; eauto).
  assert (LX : length X = len) by apply ots_sig_length. assert (LY : length Y = h) by apply auth_path_length.
  assert (LcX : length (concat X) = 32 * len) by (rewrite (concat_cells_length X 32 CX), LX; lia).
  assert (LcY : length (concat Y) = 32 * h) by (rewrite (concat_cells_length Y 32 CY), LY; lia).
  split. { unfold sig_index. rewrite Es, (firstn_app_exact _ 4) by apply to_byte_length. now apply from_be_to_byte4. }
  split. { unfold sig_R. rewrite Es, (skipn_app_exact _ 4) by apply to_byte_length. now apply firstn_app_exact. }
  split.
  { unfold sig_wots. fold len. rewrite Es, app_assoc, (skipn_app_exact _ 36) by (rewrite app_length, to_byte_length, LR; reflexivity).
    rewrite cells_chunks, chunks_app by (rewrite LcX; lia). rewrite <- LX at 1. now apply chunks_concat. }
  split.
  { unfold sig_path. fold len. rewrite Es, !app_assoc, (skipn_app_exact _ (36 + 32 * len)) by (rewrite !app_length, to_byte_length, LR, LcX; lia).
    rewrite cells_chunks. rewrite <- LY at 1. now apply chunks_concat. }
  rewrite Es, !app_length, to_byte_length, LR, LcX, LcY. unfold base_size. fold len. lia.
Qed.

(** ** C45: the authentication path is bound. *)
Theorem C45_authpath_bound : forall junk seed height hash hf fmt w wp,
  supported hash hf w wp height seed ->
  exists x, XmssBasic_new junk seed (N.of_nat height) hash fmt w = Ok x /\
    forall msg sig, all_bytes sig -> verify msg sig (getPK x) w = Ok true ->
      let i := N.to_nat (sig_index sig) in
      let len := snd (fst wp) + snd wp in
      (exists xy, extract hf wp height seed msg sig = Some xy /\ collision hf xy) \/
      (i < 2 ^ height /\
       compress hf (key_pub seed) i
         (pk_of_sig hf (2 ^ fst (fst wp)) (key_pub seed) i (sig_digits hf wp height seed msg sig) (sig_wots wp sig)) =
       leaf hf (2 ^ fst (fst wp)) len (key_seed seed) (key_pub seed) i /\
       sig_path wp height sig = auth_path hf (2 ^ fst (fst wp)) len (key_seed seed) (key_pub seed) height i).
Proof.
  intros junk seed height hash hf fmt w wp HS.
  destruct (C48_accepted_genuine_or_collision junk seed height hash hf fmt w wp HS) as (x & E & _ & HA).
  exists x. split; auto. intros msg sig HB HV i len.
  assert (HL : length sig = 4 + 32 + 32 * (snd (fst wp) + snd wp) + 32 * height).
  { pose proof (cfg_of _ _ _ _ _ _ fmt HS) as HC. set (c := mkCfg hf hash w fmt height seed) in *.
    assert (Ex : x = c_obj c wp 0). { apply Ok_inj. rewrite <- E. apply (XmssBasic_new_spec c wp HC). }
    rewrite Ex in HV. fold (c_pk c wp 0) in HV. destruct (pk_parts c wp 0 HC) as (P1 & P2 & P3 & P4).
    destruct (C26_verify_total w wp msg sig (c_pk c wp 0)) as (b & Eb & Hb).
    - apply HS. - apply (c_pk_bytes c wp HC).
    - left. rewrite P4. pose proof (hash_id_small _ _ (co_hash _ _ HC)). rewrite N.mod_small; lia.
    - rewrite HV in Eb. apply Ok_inj in Eb. destruct (Hb (eq_sym Eb)) as (_ & _ & HL). rewrite P3 in HL. exact HL. }
  destruct (HA msg sig HB HV) as [Hc|(Hi & Hs)]; [now left|right].
  assert (LR : length (sig_R sig) = 32).
  { unfold sig_R. rewrite firstn_length, skipn_length, HL. lia. }
  assert (Hi32 : (N.of_nat i < 2 ^ 32)%N).
  { unfold i. rewrite N2Nat.id. eapply N.lt_le_trans; [exact Hi|]. apply N.pow_le_mono_r; [lia|]. destruct HS as (_ & _ & Hh & _). lia. }
  split. { unfold i. rewrite <- pow_N_nat. lia. }
  destruct (owner_parts hf w wp height seed i (sig_R sig) msg (proj1 (proj2 HS)) LR Hi32) as (_ & _ & Q3 & Q4 & _).
  fold i in Hs. rewrite <- Hs in Q3, Q4. rewrite Q3. split; [|exact Q4].
  unfold leaf. f_equal. unfold sig_digits. fold i.
  destruct (wparams_ok w wp (proj1 (proj2 HS))) as (Ewp & HP & E1 & E2 & E3 & E4 & E5 & E6 & E7).
  set (dg := digest hf (sig_R sig) (ref_root hf wp height seed) i msg).
  assert (Ldg : length dg = 32) by apply keyed_length.
  destruct (digits_of_ok (wparams w) dg HP Ldg) as (_ & D2 & D3).
  pose proof (pk_of_ots_sig hf (wparams w) (key_seed seed) (key_pub seed) i (digits_of (wparams w) dg)) as PK.
  assert (Hw1 : (1 <= w_w (wparams w))%N) by (destruct (wots_ok_facts _ HP); auto).
  specialize (PK Hw1 D2 D3). rewrite (digits_of_msg w wp dg (proj1 (proj2 HS)) Ldg) in PK.
  rewrite E1, E2, E7 in PK. exact PK.
Qed.

(** The one-time public key recomputed from an owner signature is the genuine one. *)
Lemma owner_pk : forall hf w wp seed i dg, winternitz w = Some wp -> length dg = 32 ->
  let len := snd (fst wp) + snd wp in
  let ds := msg_digits (fst (fst wp)) (snd (fst wp)) (snd wp) dg in
  pk_of_sig hf (2 ^ fst (fst wp)) (key_pub seed) i ds (ots_sig hf len (key_seed seed) (key_pub seed) i ds) =
  ots_pk hf (2 ^ fst (fst wp)) len (key_seed seed) (key_pub seed) i.
Proof.
  intros hf w wp seed i dg Hw Ldg len ds.
  destruct (wparams_ok w wp Hw) as (Ewp & HP & E1 & E2 & E3 & E4 & E5 & E6 & E7).
  destruct (digits_of_ok (wparams w) dg HP Ldg) as (_ & D2 & D3).
  pose proof (pk_of_ots_sig hf (wparams w) (key_seed seed) (key_pub seed) i (digits_of (wparams w) dg)) as PK.
  assert (Hw1 : (1 <= w_w (wparams w))%N) by (destruct (wots_ok_facts _ HP); auto).
  specialize (PK Hw1 D2 D3). rewrite (digits_of_msg w wp dg Hw Ldg) in PK.
  rewrite E1, E2, E7 in PK. exact PK.
Qed.

(** Conversely, every owner signature is accepted, whatever the randomiser. *)
Theorem C48_owner_sig_accepted : forall junk seed height hash hf fmt w wp,
  supported hash hf w wp height seed ->
  exists x, XmssBasic_new junk seed (N.of_nat height) hash fmt w = Ok x /\
    forall i R msg, i < 2 ^ height -> length R = 32 ->
      verify msg (owner_sig hf wp height seed i R msg) (getPK x) w = Ok true.
Proof.
  intros junk seed height hash hf fmt w wp HS. pose proof (cfg_of _ _ _ _ _ _ fmt HS) as HC.
  set (c := mkCfg hf hash w fmt height seed) in *.
  exists (c_obj c wp 0). split; [apply (XmssBasic_new_spec c wp HC)|]. fold (c_pk c wp 0).
  intros i R msg Hi LR. destruct (pk_parts c wp 0 HC) as (P1 & P2 & P3 & P4).
  change (c_hf c) with hf in *. change (c_seed c) with seed in *. change (c_height c) with height in *. change (c_hash c) with hash in *.
  rewrite (verify_spec w wp hf).
  2: apply HS. 2: apply (c_pk_bytes c wp HC).
  2:{ rewrite P4. rewrite N.mod_small by (pose proof (hash_id_small _ _ (co_hash _ _ HC)); cbn [c_hash c] in *; lia). apply HS. }
  assert (Hi32 : (N.of_nat i < 2 ^ 32)%N).
  { eapply N.lt_le_trans with (2 ^ N.of_nat height)%N; [rewrite <- (Nat2N.id (2 ^ height)) in Hi; rewrite <- pow_N_nat in Hi; lia|].
    apply N.pow_le_mono_r; [lia|]. destruct HS as (_ & _ & Hh & _). lia. }
  destruct (owner_parts hf w wp height seed i R msg (proj1 (proj2 HS)) LR Hi32) as (Q1 & Q2 & Q3 & Q4 & Q5).
  set (s := owner_sig hf wp height seed i R msg) in *. clearbody s.
  apply f_equal. unfold ref_verify. destruct wp as [[lw l1] l2] eqn:Ewp. rewrite <- Ewp in *.
  rewrite P1, P2, P3. rewrite (c_pk_length c wp HC), Q5. 
  fold (sig_index s). fold (sig_R s). rewrite Q1, Q2, Nat2N.id.
  unfold sig_wots in Q3. unfold sig_path in Q4. unfold base_size.
  rewrite Ewp in Q3, Q4 |- *. cbn [fst snd] in Q3, Q4 |- *. rewrite Q3, Q4. rewrite !Nat.eqb_refl.
  rewrite (proj2 (Nat.leb_le 4 height)) by (destruct HS as (_ & _ & Hh & _); lia). cbn [Nat.eqb andb].
  unfold recovered_root.
  pose proof (owner_pk hf w wp seed i (digest hf R (ref_root hf wp height seed) i msg) (proj1 (proj2 HS)) (keyed_length _ _ _ _)) as PK.
  rewrite Ewp in PK. cbn [fst snd] in PK. cbv zeta in PK. rewrite PK.
  fold (leaf hf (2 ^ lw) (l1 + l2) (key_seed seed) (key_pub seed) i).
  destruct (wparams_ok w wp (proj1 (proj2 HS))) as (_ & HP & E1 & E2 & E3 & E4 & E5 & E6 & E7).
  pose proof (climb_auth_path hf (key_seed seed) (key_pub seed) (c_params c) height i Hi) as CA.
  unfold tnode in CA. change (x_wots (c_params c)) with (wparams w) in CA. rewrite E1, E2, E7 in CA. rewrite Ewp in CA. cbn [fst snd] in CA.
  destruct (list_eq_dec N.eq_dec _ _) as [|ne]; [reflexivity|]. exfalso. apply ne. exact CA.
Qed.

(** ** C49 *)
Lemma ref_sig_owner : forall hf wp h seed i msg,
  ref_sig hf wp h seed i msg = owner_sig hf wp h seed i (randomizer hf (key_prf seed) i) msg.
Proof. reflexivity. Qed.

Lemma not_le_exists : forall a b, length a = length b -> ~ Forall2 N.le a b ->
  exists c, c < length a /\ (nth c b 0 < nth c a 0)%N.
Proof.
  induction a as [|x a IH]; intros [|y b] L H; try discriminate.
  - exfalso. apply H. constructor.
  - destruct (N.lt_ge_cases y x) as [Hl|Hg].
    + exists 0. split; [cbn; lia|exact Hl].
    + destruct (IH b) as (c & Hc & Hn). { now injection L. } { intros F. apply H. constructor; auto. }
      exists (S c). cbn [length nth]. split; [lia|exact Hn].
Qed.

Lemma all_bytes_digest : forall hf R root i m, all_bytes (digest hf R root i m).
Proof. intros. apply keyed_bytes. Qed.

Lemma reuse_core : forall hf w wp h seed i msg0 msg sig, (w = 2 \/ w = 4 \/ w = 16)%N -> winternitz w = Some wp ->
  (N.of_nat i < 2 ^ 32)%N -> length (sig_R sig) = 32 ->
  sig = owner_sig hf wp h seed i (sig_R sig) msg -> 
  let s0 := ref_sig hf wp h seed i msg0 in
  (msg, sig) <> (msg0, s0) ->
  collision hf (msg_input (sig_R sig) (ref_root hf wp h seed) i msg, msg_input (sig_R s0) (ref_root hf wp h seed) i msg0) \/
  exists c, c < snd (fst wp) + snd wp /\
    (nth c (sig_digits hf wp h seed msg sig) 0 < nth c (sig_digits hf wp h seed msg0 s0) 0)%N /\
    nth c (sig_wots wp sig) [] =
      chain hf (key_pub seed) i c 0 (N.to_nat (nth c (sig_digits hf wp h seed msg sig) 0%N)) (chain_start hf (key_seed seed) i c).
Proof.
  intros hf w wp h seed i msg0 msg sig Hw Hwp Hi LR Hs s0 Hne.
  set (R0 := randomizer hf (key_prf seed) i) in *.
  assert (LR0 : length R0 = 32) by apply keyed_length.
  destruct (owner_parts hf w wp h seed i R0 msg0 Hwp LR0 Hi) as (Q1 & Q2 & Q3 & Q4 & Q5).
  change (owner_sig hf wp h seed i R0 msg0) with s0 in Q1, Q2.
  destruct (owner_parts hf w wp h seed i (sig_R sig) msg Hwp LR Hi) as (T1 & _ & T3 & T4 & T5).
  rewrite <- Hs in T1, T3.
  unfold sig_digits. rewrite Q1, Q2, T1, Nat2N.id.
  set (root := ref_root hf wp h seed) in *.
  set (D := digest hf (sig_R sig) root i msg) in *. set (D0 := digest hf R0 root i msg0) in *.
  destruct (list_eq_dec N.eq_dec D D0) as [EqD|NeD].
  - left. split; [|exact EqD]. cbn [fst snd]. intros E. unfold msg_input in E.
    apply app_inv_head in E. rewrite <- !app_assoc in E.
    assert (ER : sig_R sig = R0).
    { apply (f_equal (firstn 32)) in E. now rewrite !firstn_app_exact in E by auto. }
    rewrite ER in E. apply app_inv_head in E. apply app_inv_head in E. apply app_inv_head in E. subst msg0.
    apply Hne. f_equal. rewrite Hs, ER. reflexivity.
  - right.
    assert (LD : length D = 32) by apply keyed_length. assert (LD0 : length D0 = 32) by apply keyed_length.
    destruct (wparams_ok w wp Hwp) as (Ewp & HP & E1 & E2 & E3 & E4 & E5 & E6 & E7).
    destruct (digits_of_ok (wparams w) D HP LD) as (DE & D2 & _).
    destruct (digits_of_ok (wparams w) D0 HP LD0) as (DE0 & D02 & _).
    rewrite (digits_of_msg w wp D Hwp LD) in *. rewrite (digits_of_msg w wp D0 Hwp LD0) in *.
    destruct (not_le_exists (msg_digits (fst (fst wp)) (snd (fst wp)) (snd wp) D0) (msg_digits (fst (fst wp)) (snd (fst wp)) (snd wp) D)) as (c & Hc & Hlt).
    + now rewrite D2, D02.
    + intros Hle. apply NeD. symmetry.
      exact (C30_checksum_no_domination w (wparams w) D0 D _ _ Hw Ewp LD0 LD (all_bytes_digest _ _ _ _ _) (all_bytes_digest _ _ _ _ _) DE0 DE Hle).
    + exists c. rewrite D02, E7 in Hc. split; [exact Hc|]. split; [exact Hlt|].
      rewrite T3. unfold ots_sig. now rewrite nth_map_seq by exact Hc.
Qed.



Lemma forge_core : forall hash hf fmt w wp height seed i msg0 msg sig,
  supported hash hf w wp height seed -> (w = 2 \/ w = 4 \/ w = 16)%N -> i < 2 ^ height -> all_bytes sig ->
  let s0 := ref_sig hf wp height seed i msg0 in
  verify msg sig (c_pk (mkCfg hf hash w fmt height seed) wp 0) w = Ok true ->
  sig_index sig = sig_index s0 -> (msg, sig) <> (msg0, s0) ->
  forged_evidence hf wp height seed msg0 s0 msg sig.
Proof.
  intros hash hf fmt w wp height seed i msg0 msg sig HS Hw Hi HB s0 HV Heq Hne.
  assert (Hi32 : (N.of_nat i < 2 ^ 32)%N).
  { eapply N.lt_le_trans with (2 ^ N.of_nat height)%N; [rewrite <- pow_N_nat in Hi; lia|].
    apply N.pow_le_mono_r; [lia|]. destruct HS as (_ & _ & Hh & _). lia. }
  pose proof (cfg_of _ _ _ _ _ _ fmt HS) as HC. set (c := mkCfg hf hash w fmt height seed) in *.
  destruct (pk_parts c wp 0 HC) as (P1 & P2 & P3 & P4).
  assert (HL : length sig = 4 + 32 + 32 * (snd (fst wp) + snd wp) + 32 * height).
  { destruct (C26_verify_total w wp msg sig (c_pk c wp 0)) as (b & Eb & Hb).
    - apply HS. - apply (c_pk_bytes c wp HC).
    - left. rewrite P4. pose proof (hash_id_small _ _ (co_hash _ _ HC)). rewrite N.mod_small; lia.
    - rewrite HV in Eb. apply Ok_inj in Eb. destruct (Hb (eq_sym Eb)) as (_ & _ & HL). rewrite P3 in HL. exact HL. }
  assert (LR : length (sig_R sig) = 32).
  { unfold sig_R. rewrite firstn_length, skipn_length, HL. lia. }
  assert (LR0 : length (randomizer hf (key_prf seed) i) = 32) by apply keyed_length.
  destruct (owner_parts hf w wp height seed i _ msg0 (proj1 (proj2 HS)) LR0 Hi32) as (Q1 & _).
  change (owner_sig hf wp height seed i (randomizer hf (key_prf seed) i) msg0) with s0 in Q1.
  unfold forged_evidence. rewrite Q1, Nat2N.id.
  rewrite (verify_spec w wp hf) in HV.
  2: apply HS. 2: apply (c_pk_bytes c wp HC).
  2:{ rewrite P4. rewrite N.mod_small by (pose proof (hash_id_small _ _ (co_hash _ _ HC)); lia). apply HS. }
  apply Ok_inj in HV.
  destruct (accepted hf w wp height seed (c_pk c wp 0) (proj1 (proj2 HS)) (proj1 (proj1 (proj2 (proj2 HS)))) P1 P2 P3 msg sig HB HV) as [Hf|(_ & Hi' & Hs)];
    [now left|right].
  rewrite Heq, Q1, Nat2N.id in Hs.
  exact (reuse_core hf w wp height seed i msg0 msg sig Hw (proj1 (proj2 HS)) Hi32 LR Hs Hne).
Qed.

Theorem C49_one_time_forgery : forall junk seed height hash hf fmt, supported hash hf 16 w16 height seed ->
  exists x, XmssFast_new junk seed (N.of_nat height) hash fmt = Ok x /\
    forall cs y os n msg0 s0, run x cs = Ok (y, os) ->
      nth_error cs n = Some (OpSign msg0) -> nth_error os n = Some (ObsSig s0) ->
      forall msg sig, all_bytes sig -> sig_index sig = sig_index s0 -> (msg, sig) <> (msg0, s0) ->
        verify msg sig (getPK (xf_base x)) 16 = Ok true ->
        forged_evidence hf w16 height seed msg0 s0 msg sig.
Proof.
  intros junk seed height hash hf fmt HS. pose proof (cfg_of _ _ _ _ _ _ fmt HS) as HC.
  destruct (XmssFast_new_spec junk seed height hash hf fmt HS) as (x & E & HI). exists x. split; auto.
  intros cs y os n msg0 s0 Er Hc Ho msg sig HB Hx Hne HV.
  destruct (fast_history junk seed height hash hf fmt HS) as (x' & E' & HR). rewrite E in E'. apply Ok_inj in E'. subst x'.
  destruct (HR cs) as (y' & Er' & _). rewrite Er in Er'.
  assert (os = snd (ref_run height (ref_sig hf w16 height seed) 0 cs)) as -> by congruence.
  rewrite (ref_run_nth _ _ cs 0%N n _ Hc) in Ho.
  set (i := fst (ref_run height (ref_sig hf w16 height seed) 0 (firstn n cs))) in *.
  cbn [ref_step] in Ho. destruct (i <? 2 ^ N.of_nat height)%N eqn:El; cbn [snd] in Ho; [|congruence].
  apply N.ltb_lt in El. assert (s0 = ref_sig hf w16 height seed (N.to_nat i) msg0) as -> by congruence.
  destruct HI as (Eb & _). rewrite Eb in HV.
  eapply forge_core; eauto. { rewrite <- pow_N_nat. lia. }
Qed.

Theorem C49_one_time_forgery_basic : forall junk seed height hash hf fmt w wp,
  supported hash hf w wp height seed -> height <= 24 -> (w = 2 \/ w = 4 \/ w = 16)%N ->
  exists x, XmssBasic_new junk seed (N.of_nat height) hash fmt w = Ok x /\
    forall j idx msg0 y s0, (idx < 2 ^ N.of_nat height)%N ->
      XmssBasic_sign j (fst (base_setIndex x idx)) msg0 = Ok (y, s0) ->
      forall msg sig, all_bytes sig -> sig_index sig = idx -> (msg, sig) <> (msg0, s0) ->
        verify msg sig (getPK x) w = Ok true ->
        forged_evidence hf wp height seed msg0 s0 msg sig.
Proof.
  intros junk seed height hash hf fmt w wp HS Hh Hw.
  pose proof (cfg_of _ _ _ _ _ _ fmt HS) as HC. set (c := mkCfg hf hash w fmt height seed) in *.
  exists (c_obj c wp 0). split; [apply (XmssBasic_new_spec c wp HC)|].
  intros j idx msg0 y s0 Hi Es msg sig HB Hx Hne HV.
  destruct (C17_basic_signatures_verify junk seed height hash hf fmt w wp HS Hh) as (x' & E' & H17).
  rewrite (XmssBasic_new_spec c wp HC) in E'. apply Ok_inj in E'. subst x'.
  destruct (H17 j idx msg0 Hi) as (y1 & s1 & Es1 & _ & _ & Hidx & _).
  rewrite Es in Es1. assert (s1 = s0) by congruence. subst s1.
  assert (Eo : fst (base_setIndex (c_obj c wp 0) idx) = c_obj c wp idx).
  { unfold base_setIndex. cbn [fst]. unfold with_sk, c_obj. cbn [xb_params xb_hash xb_fmt xb_height xb_sk xb_seed]. reflexivity. }
  rewrite Eo, (XmssBasic_sign_spec c wp HC) in Es by (cbn [c_height c]; auto; lia).
  assert (Es0 : s0 = ref_sig hf wp height seed (N.to_nat idx) msg0) by (apply Ok_inj in Es; change (c_sig c wp (N.to_nat idx) msg0) with (ref_sig hf wp height seed (N.to_nat idx) msg0) in Es; congruence).
  subst s0. eapply forge_core; eauto. { rewrite <- pow_N_nat. lia. } congruence.
Qed.

(** The hypotheses are met: a released signature, and a different accepted one for
    the same index (another randomiser chosen by somebody who knows the key). *)
Example C49_case : forall junk seed height hash hf fmt msg0, supported hash hf 16 w16 height seed ->
  exists x y s0, XmssFast_new junk seed (N.of_nat height) hash fmt = Ok x /\
    run x [OpSign msg0] = Ok (y, [ObsSig s0]) /\
    forall R msg, length R = 32 -> let sig := owner_sig hf w16 height seed 0 R msg in
      sig_index sig = sig_index s0 /\ verify msg sig (getPK (xf_base x)) 16 = Ok true.
Proof.
  intros junk seed height hash hf fmt msg0 HS.
  destruct (fast_history junk seed height hash hf fmt HS) as (x & E & HR).
  destruct (HR [OpSign msg0]) as (y & Er & _). cbn [ref_run ref_step] in Er.
  rewrite (proj2 (N.ltb_lt 0 (2 ^ N.of_nat height))) in Er by (apply N.neq_0_lt_0; apply N.pow_nonzero; lia).
  cbn [snd] in Er. exists x, y. eexists. split; [exact E|]. split; [exact Er|].
  intros R msg LR sig.
  split.
  - destruct (owner_parts hf 16 w16 height seed 0 R msg eq_refl LR eq_refl) as (Q1 & _).
    destruct (owner_parts hf 16 w16 height seed 0 (randomizer hf (key_prf seed) 0) msg0 eq_refl (keyed_length _ _ _ _) eq_refl) as (Q2 & _).
    transitivity 0%N; [exact Q1|symmetry; exact Q2].
  - destruct (C48_owner_sig_accepted junk seed height hash hf fmt 16 w16 HS) as (b & Eb & HV).
    destruct (C48_accepted_genuine_or_collision junk seed height hash hf fmt 16 w16 HS) as (b' & Eb' & HF & _).
    rewrite Eb in Eb'. apply Ok_inj in Eb'. subst b'.
    destruct (HF eq_refl junk) as (x' & Ex' & Epk). rewrite E in Ex'. apply Ok_inj in Ex'. subst x'.
    rewrite Epk. apply HV; auto. apply Nat.neq_0_lt_0. apply Nat.pow_nonzero. lia.
Qed.
