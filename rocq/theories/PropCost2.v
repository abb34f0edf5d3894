(** C84: the number of hash evaluations of key generation. *)
(** Concrete cases for the hypotheses below: CasesXmss.v. *)
From Coq Require Import List NArith Arith Lia Bool.
From Verif Require Import Base Bytes Keccak KeccakLemmas HashAddress Wots XmssCommon AlgsXmss AlgsXmssFast Descriptor
  SpecXmss SpecApi SpecCost XmssObj XmssRefine WotsProofs TreeProofs BasicProofs BdsProofs FastProofs DescrProofs VerifyProofs PropObj PropKeys
  Cost Cost2 CostProofs CostProofs2 PropCost.
Import ListNotations.
Open Scope nat_scope.

(** ** The levels on the stack *)
Lemma get_firstn : forall A (l : list A) i x, get l i = Ok x -> firstn (S i) l = firstn i l ++ [x].
Proof.
  intros A l i x E. apply get_ok in E. revert i E. induction l as [|a l IH]; intros [|i] E; cbn in E; try discriminate.
  - injection E as ->. reflexivity.
  - change (a :: firstn (S i) l = (a :: firstn i l) ++ [x]). rewrite (IH i E). reflexivity.
Qed.
Lemma set_firstn : forall A (l : list A) i x l', set l i x = Ok l' -> firstn (S i) l' = firstn i l ++ [x].
Proof.
  intros A l i x l' E. unfold set in E. destruct (i <? length l) eqn:EL; [|discriminate]. apply Nat.ltb_lt in EL. apply Ok_inj in E. subst l'.
  revert i EL. induction l as [|a l IH]; intros [|i] EL; cbn [length] in EL; try lia; cbn [upd].
  - reflexivity.
  - change (a :: firstn (S i) (upd l i x) = (a :: firstn i l) ++ [x]). rewrite IH by lia. reflexivity.
Qed.
Definition top_first (lv : list nat) (off : nat) : list nat := rev (firstn off lv).
Lemma view_get : forall lv off x, get lv off = Ok x -> top_first lv (S off) = x :: top_first lv off.
Proof. intros lv off x E. unfold top_first. rewrite (get_firstn _ _ _ _ E), rev_app_distr. reflexivity. Qed.
Lemma view_set : forall lv off x lv', set lv off x = Ok lv' -> top_first lv' (S off) = x :: top_first lv off.
Proof. intros lv off x lv' E. unfold top_first. rewrite (set_firstn _ _ _ _ _ E), rev_app_distr. reflexivity. Qed.

(** Strictly increasing from the head, which is at least [a]. *)
Fixpoint above (a : nat) (l : list nat) : Prop := match l with [] => True | b :: t => a <= b /\ above (S b) t end.
Definition weight (l : list nat) : nat := fold_right (fun a n => 2 ^ a + n) 0 l.
Lemma above_le : forall l a b, a <= b -> above b l -> above a l.
Proof. intros [|x l] a b H; cbn; auto. intros (H1 & H2). split; [lia|exact H2]. Qed.
Lemma weight_div : forall l a, above a l -> Nat.divide (2 ^ a) (weight l).
Proof.
  induction l as [|b l IH]; intros a H; cbn [weight fold_right]; [apply Nat.divide_0_r|]. destruct H as (H1 & H2).
  assert (D : Nat.divide (2 ^ a) (2 ^ b)). { exists (2 ^ (b - a)). rewrite <- Nat.pow_add_r. f_equal. lia. }
  apply Nat.divide_add_r; [exact D|]. apply IH in H2. eapply Nat.divide_trans; [|exact H2]. eapply Nat.divide_trans; [exact D|]. exists 2. cbn [Nat.pow]. lia.
Qed.
Lemma weight_pow : forall l h, above 0 l -> weight l = 2 ^ h -> length l = 1.
Proof.
  intros [|b t] h H E; cbn [weight fold_right] in E. { pose proof (Nat.pow_nonzero 2 h). lia. }
  destruct H as (_ & H2). destruct t as [|c t]; [reflexivity|]. exfalso.
  pose proof (weight_div _ _ H2) as D. unfold weight in D. set (r := fold_right (fun a n => 2 ^ a + n) 0 (c :: t)) in *.
  assert (Hr : 0 < r). { unfold r. cbn [fold_right]. pose proof (Nat.pow_nonzero 2 c). lia. }
  assert (Hlt : b < h). { apply (Nat.pow_lt_mono_r_iff 2); lia. }
  assert (D2 : Nat.divide (2 ^ S b) (2 ^ h)). { exists (2 ^ (h - S b)). rewrite <- Nat.pow_add_r. f_equal. lia. }
  rewrite <- E, Nat.add_comm in D2. apply Nat.divide_add_cancel_r in D2; [|exact D].
  apply Nat.divide_pos_le in D2; [|pose proof (Nat.pow_nonzero 2 b); lia]. cbn [Nat.pow] in D2. pose proof (Nat.pow_nonzero 2 b). lia.
Qed.

(** Before the merging loop, and after it. *)
Definition pushed (lv : list nat) (off : nat) : Prop :=
  length (top_first lv off) = off /\ exists a t, top_first lv off = a :: t /\ above a t.
Definition merged (lv : list nat) (off : nat) : Prop := length (top_first lv off) = off /\ above 0 (top_first lv off).
Lemma pushed_merged1 : forall lv off, pushed lv off -> (off <=? 1) = true -> merged lv off.
Proof.
  intros lv off (HL & a & t & Ev & Ha) H. apply Nat.leb_le in H. split; [exact HL|]. rewrite Ev in *. cbn [length] in HL. destruct t; [|cbn [length] in HL; lia]. cbn. lia.
Qed.
Lemma pushed_two : forall lv off l1 l2, (off <=? 1) = false -> get lv (off - 1) = Ok l1 -> get lv (off - 2) = Ok l2 ->
  top_first lv off = l1 :: l2 :: top_first lv (off - 2).
Proof.
  intros lv off l1 l2 H E1 E2. apply Nat.leb_gt in H. pose proof (view_get _ _ _ E1) as V1. pose proof (view_get _ _ _ E2) as V2.
  replace (S (off - 1)) with off in V1 by lia. replace (S (off - 2)) with (off - 1) in V2 by lia. congruence.
Qed.
Lemma pushed_merged2 : forall lv off l1 l2, pushed lv off -> (off <=? 1) = false -> get lv (off - 1) = Ok l1 -> get lv (off - 2) = Ok l2 ->
  negb (l1 =? l2) = true -> merged lv off.
Proof.
  intros lv off l1 l2 (HL & a & t & Ev & Ha) H E1 E2 En. apply negb_true_iff, Nat.eqb_neq in En.
  pose proof (pushed_two _ _ _ _ H E1 E2) as V. split; [exact HL|]. rewrite V in *. assert (a = l1 /\ t = l2 :: top_first lv (off - 2)) as (-> & ->) by (split; congruence).
  cbn [above] in *. repeat split; try lia. apply Ha.
Qed.
Lemma pushed_merge : forall lv off l1 l2 lv', pushed lv off -> (off <=? 1) = false -> get lv (off - 1) = Ok l1 -> get lv (off - 2) = Ok l2 ->
  negb (l1 =? l2) = false -> set lv (off - 2) (l2 + 1) = Ok lv' ->
  pushed lv' (off - 1) /\ weight (top_first lv' (off - 1)) = weight (top_first lv off).
Proof.
  intros lv off l1 l2 lv' (HL & a & t & Ev & Ha) H E1 E2 En Es. apply negb_false_iff, Nat.eqb_eq in En. subst l2.
  pose proof (pushed_two _ _ _ _ H E1 E2) as V. pose proof (view_set _ _ _ _ Es) as V'. apply Nat.leb_gt in H. replace (S (off - 2)) with (off - 1) in V' by lia.
  rewrite V in *. assert (a = l1 /\ t = l1 :: top_first lv (off - 2)) as (-> & ->) by (split; congruence). destruct Ha as (_ & Ha).
  split; [split|].
  - rewrite V'. cbn [length] in *. lia.
  - exists (l1 + 1), (top_first lv (off - 2)). split; [exact V'|]. now replace (l1 + 1) with (S l1) by lia.
  - rewrite V'. cbn [weight fold_right]. rewrite Nat.pow_add_r. cbn [Nat.pow]. lia.
Qed.

Definition merges (lv : list nat) (off : nat) (lv' : list nat) (off' : nat) (n : N) : Prop :=
  merged lv' off' /\ weight (top_first lv' off') = weight (top_first lv off) /\ (n + 4 * N.of_nat off' = 4 * N.of_nat off)%N.
Lemma treehash_while_merges : forall hf fuel idx ps stk lv off na stk' lv' off' na' n, pushed lv off ->
  treehash_while_c hf fuel idx ps stk lv off na = Ok ((stk', lv', off', na'), n) -> merges lv off lv' off' n.
Proof.
  intros hf. induction fuel; intros idx ps stk lv off na stk' lv' off' na' n HP E; cbn [treehash_while_c] in E.
  - destruct (off <=? 1) eqn:Eo.
    { apply cret_ok in E. destruct E as (E & ->). assert (lv = lv' /\ off = off') as (-> & ->) by (split; congruence). repeat split; try apply pushed_merged1; auto. }
    apply cbind_ok in E. destruct E as (l1 & n1 & n2 & E1 & E & ->). apply clift_ok in E1. destruct E1 as (E1 & ->).
    apply cbind_ok in E. destruct E as (l2 & n1 & n3 & E2 & E & ->). apply clift_ok in E2. destruct E2 as (E2 & ->).
    destruct (negb (l1 =? l2)) eqn:En; [|discriminate].
    apply cret_ok in E. destruct E as (E & ->). assert (lv = lv' /\ off = off') as (-> & ->) by (split; congruence).
    split; [eapply pushed_merged2; eauto|split; [reflexivity|lia]].
  - destruct (off <=? 1) eqn:Eo.
    { apply cret_ok in E. destruct E as (E & ->). assert (lv = lv' /\ off = off') as (-> & ->) by (split; congruence). repeat split; try apply pushed_merged1; auto. }
    apply cbind_ok in E. destruct E as (l1 & n1 & n2 & E1 & E & ->). apply clift_ok in E1. destruct E1 as (E1 & ->).
    apply cbind_ok in E. destruct E as (l2 & n1 & n3 & E2 & E & ->). apply clift_ok in E2. destruct E2 as (E2 & ->).
    destruct (negb (l1 =? l2)) eqn:En.
    { apply cret_ok in E. destruct E as (E & ->). assert (lv = lv' /\ off = off') as (-> & ->) by (split; congruence).
      split; [eapply pushed_merged2; eauto|split; [reflexivity|lia]]. }
    apply cbind_ok in E. destruct E as (x & n1 & n4 & E3 & E & ->). apply clift_ok in E3. destruct E3 as (_ & ->).
    apply cbind_ok in E. destruct E as (y & n1 & n5 & E3 & E & ->). apply clift_ok in E3. destruct E3 as (_ & ->).
    apply cbind_ok in E. destruct E as ([o a'] & n1 & n6 & E3 & E & ->). rewrite hash_h_c_eq in E3. assert (n1 = 4%N) by congruence. subst n1. clear E3.
    apply cbind_ok in E. destruct E as (stk1 & n1 & n7 & E3 & E & ->). apply clift_ok in E3. destruct E3 as (_ & ->).
    apply cbind_ok in E. destruct E as (lv1 & n1 & n8 & E3 & E & ->). apply clift_ok in E3. destruct E3 as (E3 & ->).
    destruct (pushed_merge _ _ _ _ _ HP Eo E1 E2 En E3) as (HP1 & HW). apply IHfuel in E; [|exact HP1]. destruct E as (M1 & M2 & M3).
    apply Nat.leb_gt in Eo. split; [exact M1|]. split; [congruence|]. lia.
Qed.
Lemma setup_while_merges : forall hf fuel h k i ps stk lv off na au ths re stk' lv' off' na' au' ths' re' n, pushed lv off ->
  setup_while_c hf fuel h k i ps stk lv off na au ths re = Ok ((stk', lv', off', na', au', ths', re'), n) -> merges lv off lv' off' n.
Proof.
  intros hf. induction fuel; intros h k i ps stk lv off na au ths re stk' lv' off' na' au' ths' re' n HP E; cbn [setup_while_c] in E.
  - destruct (off <=? 1) eqn:Eo.
    { apply cret_ok in E. destruct E as (E & ->). assert (lv = lv' /\ off = off') as (-> & ->) by (split; congruence). repeat split; try apply pushed_merged1; auto. }
    apply cbind_ok in E. destruct E as (l1 & n1 & n2 & E1 & E & ->). apply clift_ok in E1. destruct E1 as (E1 & ->).
    apply cbind_ok in E. destruct E as (l2 & n1 & n3 & E2 & E & ->). apply clift_ok in E2. destruct E2 as (E2 & ->).
    destruct (negb (l1 =? l2)) eqn:En; [|discriminate].
    apply cret_ok in E. destruct E as (E & ->). assert (lv = lv' /\ off = off') as (-> & ->) by (split; congruence).
    split; [eapply pushed_merged2; eauto|split; [reflexivity|lia]].
  - destruct (off <=? 1) eqn:Eo.
    { apply cret_ok in E. destruct E as (E & ->). assert (lv = lv' /\ off = off') as (-> & ->) by (split; congruence). repeat split; try apply pushed_merged1; auto. }
    apply cbind_ok in E. destruct E as (l1 & n1 & n2 & E1 & E & ->). apply clift_ok in E1. destruct E1 as (E1 & ->).
    apply cbind_ok in E. destruct E as (l2 & n1 & n3 & E2 & E & ->). apply clift_ok in E2. destruct E2 as (E2 & ->).
    destruct (negb (l1 =? l2)) eqn:En.
    { apply cret_ok in E. destruct E as (E & ->). assert (lv = lv' /\ off = off') as (-> & ->) by (split; congruence).
      split; [eapply pushed_merged2; eauto|split; [reflexivity|lia]]. }
    apply cbind_ok in E. destruct E as (x & n1 & n4 & E3 & E & ->). apply clift_ok in E3. destruct E3 as (_ & ->).
    apply cbind_ok in E. destruct E as ([[au1 th1] re1] & n1 & n4' & E3 & E & ->). apply clift_ok in E3. destruct E3 as (_ & ->).
    apply cbind_ok in E. destruct E as (y & n1 & n5 & E3 & E & ->). apply clift_ok in E3. destruct E3 as (_ & ->).
    apply cbind_ok in E. destruct E as ([o a'] & n1 & n6 & E3 & E & ->). rewrite hash_h_c_eq in E3. assert (n1 = 4%N) by congruence. subst n1. clear E3.
    apply cbind_ok in E. destruct E as (stk1 & n1 & n7 & E3 & E & ->). apply clift_ok in E3. destruct E3 as (_ & ->).
    apply cbind_ok in E. destruct E as (lv1 & n1 & n8 & E3 & E & ->). apply clift_ok in E3. destruct E3 as (E3 & ->).
    destruct (pushed_merge _ _ _ _ _ HP Eo E1 E2 En E3) as (HP1 & HW). apply IHfuel in E; [|exact HP1]. destruct E as (M1 & M2 & M3).
    apply Nat.leb_gt in Eo. split; [exact M1|]. split; [congruence|]. lia.
Qed.

(** ** The loop over the leaves *)
Lemma cfor_inv : forall S (I : nat -> S -> N -> Prop) (f : nat -> S -> cres S) n a s s' c m, I a s c ->
  (forall i x c y k, I i x c -> f i x = Ok (y, k) -> I (Datatypes.S i) y (c + k)%N) -> cfor_from n a f s = Ok (s', m) -> I (a + n) s' (c + m)%N.
Proof.
  induction n; intros a s s' c m H HF E; cbn [cfor_from] in E.
  - apply cret_ok in E. destruct E as (<- & ->). now rewrite Nat.add_0_r, N.add_0_r.
  - apply cbind_ok in E. destruct E as (s1 & n1 & n2 & E1 & E & ->). replace (a + Datatypes.S n) with (Datatypes.S a + n) by lia. rewrite N.add_assoc.
    apply (IHn (Datatypes.S a) s1); auto. eapply HF; eauto.
Qed.
Definition counted (L : N) (j : nat) (lv : list nat) (off : nat) (c : N) : Prop :=
  merged lv off /\ weight (top_first lv off) = j /\ (c + 4 * N.of_nat off = N.of_nat j * (L + 4))%N.
Lemma counted_start : forall L lv, counted L 0 lv 0 0.
Proof. intros. repeat split. Qed.
Lemma counted_push : forall L j lv off c lv1 lv2 off2 n, counted L j lv off c -> set lv off 0 = Ok lv1 -> (pushed lv1 (S off) -> merges lv1 (S off) lv2 off2 n) ->
  counted L (S j) lv2 off2 (c + (L + n))%N.
Proof.
  intros L j lv off c lv1 lv2 off2 n ((M1 & M2) & HW & HC) Es HM. pose proof (view_set _ _ _ _ Es) as V.
  destruct HM as (M3 & M4 & M5). { split; [rewrite V; cbn [length]; lia|]. exists 0, (top_first lv off). auto. }
  split; [exact M3|]. split; [rewrite M4, V; cbn [weight fold_right]; fold (weight (top_first lv off)); rewrite HW; reflexivity|]. lia.
Qed.
Lemma counted_end : forall L h lv off c, counted L (2 ^ h) lv off c -> c = (2 ^ N.of_nat h * L + 4 * (2 ^ N.of_nat h - 1))%N.
Proof.
  intros L h lv off c ((M1 & M2) & HW & HC). apply weight_pow in HW; [|exact M2]. assert (off = 1) by lia. subst off.
  rewrite Nat2N.inj_pow in HC. change (N.of_nat 2) with 2%N in HC. assert (2 ^ N.of_nat h <> 0)%N by (apply N.pow_nonzero; lia). nia.
Qed.
Lemma leaf_count : forall hf ss p ps la oa x n, gen_leaf_wots_c hf ss p ps la oa = Ok (x, n) -> n = leaf_cost (x_wots p).
Proof. intros hf ss p ps la oa x n E. rewrite (gen_leaf_wots_costs hf ss p ps la oa) in E. destruct (gen_leaf_wots hf ss p ps la oa); cbn [bind] in E; congruence. Qed.

Definition all_nodes (p : xmss_params) (h : nat) : N := (2 ^ N.of_nat h * leaf_cost (x_wots p) + 4 * (2 ^ N.of_nat h - 1))%N.
Lemma treehash_calls : forall hf junk h ss p ps a r n, treehash_c hf junk h ss p ps a = Ok (r, n) -> n = all_nodes p h.
Proof.
  intros hf junk h ss p ps a r n E. unfold treehash_c in E. apply cbind_ok in E. destruct E as ([[[[[stk lv] off] oa] la] na] & n1 & n2 & E1 & E & ->).
  apply clift_ok in E. destruct E as (_ & ->). rewrite N.add_0_r. unfold cfor_up in E1.
  set (I0 := fun (j : nat) '((stk, lv, off, oa, la, na) : list (list N) * list nat * nat * adrs * adrs * adrs) (c : N) => counted (leaf_cost (x_wots p)) j lv off c).
  apply (cfor_inv _ I0 _ _ _ _ _ 0%N) in E1; [exact (counted_end _ _ _ _ _ E1)|apply counted_start|].
  intros i [[[[[s1 v1] o1] oa1] la1] na1] c [[[[[s2 v2] o2] oa2] la2] na2] k HI Ey.
  apply cbind_ok in Ey. destruct Ey as ([[lf la3] oa3] & m1 & m2 & L1 & Ey & ->). apply leaf_count in L1. subst m1.
  apply cbind_ok in Ey. destruct Ey as (s3 & m1 & m3 & L1 & Ey & ->). apply clift_ok in L1. destruct L1 as (_ & ->).
  apply cbind_ok in Ey. destruct Ey as (v3 & m1 & m4 & L1 & Ey & ->). apply clift_ok in L1. destruct L1 as (Es & ->).
  apply cbind_ok in Ey. destruct Ey as ([[[s4 v4] o4] na4] & m1 & m5 & L1 & Ey & ->). apply cret_ok in Ey. destruct Ey as (Ey & ->).
  assert (v4 = v2 /\ o4 = o2) as (-> & ->) by (split; congruence). unfold I0 in *. rewrite N.add_0_r, !N.add_0_l.
  eapply counted_push; [exact HI|exact Es|]. intros HP. eapply treehash_while_merges; eauto.
Qed.
Lemma treehash_setup_calls : forall hf junk st ss p ps a r n, treehash_setup_c hf junk st ss p ps a = Ok (r, n) -> n = all_nodes p (x_h p).
Proof.
  intros hf junk st ss p ps a r n E. unfold treehash_setup_c in E. apply cbind_ok in E. destruct E as (ths & n1 & n2 & E1 & E & ->). apply clift_ok in E1. destruct E1 as (_ & ->).
  apply cbind_ok in E. destruct E as ([[[[[[[[stk lv] off] oa] la] na] au] th'] re] & n1 & n3 & E1 & E & ->).
  apply cbind_ok in E. destruct E as (rt & m1 & m2 & E2 & E & ->). apply clift_ok in E2. destruct E2 as (_ & ->). apply cret_ok in E. destruct E as (_ & ->).
  rewrite !N.add_0_r, N.add_0_l. unfold cfor_up in E1.
  set (I0 := fun (j : nat) '((stk, lv, off, oa, la, na, au, th', re) : list (list N) * list nat * nat * adrs * adrs * adrs * list (list N) * list treehash_inst * list (list N)) (c : N) => counted (leaf_cost (x_wots p)) j lv off c).
  apply (cfor_inv _ I0 _ _ _ _ _ 0%N) in E1; [exact (counted_end _ _ _ _ _ E1)|apply counted_start|].
  intros i [[[[[[[[s1 v1] o1] oa1] la1] na1] au1] th1] re1] c [[[[[[[[s2 v2] o2] oa2] la2] na2] au2] th2] re2] k HI Ey.
  apply cbind_ok in Ey. destruct Ey as ([[lf la3] oa3] & m1 & m2 & L1 & Ey & ->). apply leaf_count in L1. subst m1.
  apply cbind_ok in Ey. destruct Ey as (s3 & m1 & m3 & L1 & Ey & ->). apply clift_ok in L1. destruct L1 as (_ & ->).
  apply cbind_ok in Ey. destruct Ey as (v3 & m1 & m4 & L1 & Ey & ->). apply clift_ok in L1. destruct L1 as (Es & ->).
  apply cbind_ok in Ey. destruct Ey as (th3 & m1 & m6 & L1 & Ey & ->). apply clift_ok in L1. destruct L1 as (_ & ->).
  apply cbind_ok in Ey. destruct Ey as ([[[[[[s4 v4] o4] na4] au4] th4] re4] & m1 & m5 & L1 & Ey & ->). apply cret_ok in Ey. destruct Ey as (Ey & ->).
  assert (v4 = v2 /\ o4 = o2) as (-> & ->) by (split; congruence). unfold I0 in *. rewrite N.add_0_r, !N.add_0_l.
  eapply counted_push; [exact HI|exact Es|]. intros HP. eapply setup_while_merges; eauto.
Qed.

(** ** Erasure *)
Lemma treehash_while_erase : forall hf fuel idx ps stk lv off na, erase (treehash_while_c hf fuel idx ps stk lv off na) = treehash_while hf fuel idx ps stk lv off na.
Proof.
  intros hf. induction fuel; intros; cbn [treehash_while_c treehash_while]; (destruct (off <=? 1); [reflexivity|]); er; apply bind_ext; intros l1; er; apply bind_ext; intros l2;
    (destruct (negb (l1 =? l2)); [reflexivity|]); [reflexivity|]. er. apply bind_ext. intros x. er. apply bind_ext. intros y. er. rewrite hash_h_c_eq. unfold erase at 1. cbn [bind].
  destruct (hash_h hf (x ++ y) ps (setTreeIndex (setTreeHeight na (N.of_nat l1)) (N.of_nat (idx / 2 ^ (l1 + 1))))) as [o a']. er. apply bind_ext. intros s1. er. apply bind_ext. intros v1. apply IHfuel.
Qed.
Lemma setup_while_erase : forall hf fuel h k i ps stk lv off na au ths re,
  erase (setup_while_c hf fuel h k i ps stk lv off na au ths re) = setup_while hf fuel h k i ps stk lv off na au ths re.
Proof.
  intros hf. induction fuel; intros; cbn [setup_while_c setup_while]; (destruct (off <=? 1); [reflexivity|]); er; apply bind_ext; intros l1; er; apply bind_ext; intros l2;
    (destruct (negb (l1 =? l2)); [reflexivity|]); [reflexivity|]. er. apply bind_ext. intros x. er. apply bind_ext. intros [[au1 th1] re1]. er. apply bind_ext. intros y. er. rewrite hash_h_c_eq. unfold erase at 1. cbn [bind].
  destruct (hash_h hf (y ++ x) ps (setTreeIndex (setTreeHeight na (N.of_nat l1)) (N.of_nat (i / 2 ^ (l1 + 1))))) as [o a']. er. apply bind_ext. intros s1. er. apply bind_ext. intros v1. apply IHfuel.
Qed.
Lemma treehash_erase : forall hf junk h ss p ps a, erase (treehash_c hf junk h ss p ps a) = treehash hf junk h ss p ps a.
Proof.
  intros. unfold treehash_c, treehash. er. unfold cfor_up, for_up.
  rewrite (erase_for _ _ _ _ (fun idx '(stack, levels, off, ots_addr, ltree_addr, node_addr) =>
      let ltree_addr := setLtreeADRS ltree_addr (N.of_nat idx) in
      let ots_addr := setOTSADRS ots_addr (N.of_nat idx) in
      '(leaf, ltree_addr, ots_addr) <- gen_leaf_wots hf ss p ps ltree_addr ots_addr ;;
      stack <- set stack off leaf ;;
      levels <- set levels off 0%nat ;;
      let off := S off in
      '(stack, levels, off, node_addr) <-
        treehash_while hf off idx ps stack levels off node_addr ;;
      Ok (stack, levels, off, ots_addr, ltree_addr, node_addr))).
  - apply bind_ext. intros [[[[[stk lv] off] oa] la] na]. now er.
  - intros i [[[[[stk lv] off] oa] la] na]. cbn zeta. er. rewrite leaf_erase. apply bind_ext. intros [[lf la'] oa']. er. apply bind_ext. intros s1. er. apply bind_ext. intros v1. er.
    rewrite treehash_while_erase. apply bind_ext. intros [[[s2 v2] o2] na2]. reflexivity.
Qed.
Lemma treehash_setup_erase : forall hf junk st ss p ps a, erase (treehash_setup_c hf junk st ss p ps a) = treehash_setup hf junk st ss p ps a.
Proof.
  intros. unfold treehash_setup_c, treehash_setup. er. apply bind_ext. intros ths. er. unfold cfor_up, for_up.
  rewrite (erase_for _ _ _ _ (fun i '(stack, levels, off, ots_addr, ltree_addr, node_addr, auth, ths, retain) =>
      let ltree_addr := setLtreeADRS ltree_addr (N.of_nat i) in
      let ots_addr := setOTSADRS ots_addr (N.of_nat i) in
      '(leaf, ltree_addr, ots_addr) <- gen_leaf_wots hf ss p ps ltree_addr ots_addr ;;
      stack <- set stack off leaf ;;
      levels <- set levels off 0%nat ;;
      let off := S off in
      ths <- (if ((0 <? x_h p - x_k p) && (i =? 3))%nat
              then c <- get stack off ;; set_th_node ths 0 c
              else Ok ths) ;;
      '(stack, levels, off, node_addr, auth, ths, retain) <-
        setup_while hf off (x_h p) (x_k p) i ps stack levels off node_addr auth ths retain ;;
      Ok (stack, levels, off, ots_addr, ltree_addr, node_addr, auth, ths, retain))).
  - apply bind_ext. intros [[[[[[[[stk lv] off] oa] la] na] au] th] re]. er. apply bind_ext. intros x. reflexivity.
  - intros i [[[[[[[[stk lv] off] oa] la] na] au] th] re]. cbn zeta. er. rewrite leaf_erase. apply bind_ext. intros [[lf la'] oa']. er. apply bind_ext. intros s1. er. apply bind_ext. intros v1. er.
    apply bind_ext. intros th1. er. rewrite setup_while_erase. apply bind_ext. intros [[[[[[s2 v2] o2] na2] au2] th2] re2]. reflexivity.
Qed.
Lemma with_hash_erase : forall A hash (f : hashfn -> cres A) g, (forall hf, erase (f hf) = g hf) -> erase (with_hash hash f) = with_hash hash g.
Proof. intros A hash f g H. unfold with_hash. destruct (hash_of_id hash); [apply H|reflexivity]. Qed.
Lemma initialize_tree_erase : forall junk seed height hash fmt w, erase (initialize_tree_c junk seed height hash fmt w) = initialize_tree junk seed height hash fmt w.
Proof.
  intros. unfold initialize_tree_c, initialize_tree. destruct (bad_height height); [reflexivity|]. er. apply bind_ext. intros p. destruct (31 <=? height)%N; [reflexivity|].
  apply with_hash_erase. intros hf. er. unfold xmssfast_Genkeypair_c, xmssfast_Genkeypair. er. rewrite treehash_setup_erase.
  destruct (treehash_setup hf junk _ _ p _ zero_adrs) as [[rt st]|e|]; reflexivity.
Qed.

(** Forgetting the count gives the model of key generation back. *)
Theorem C84_erasure : forall junk seed es height hash fmt w o,
  erase (XmssBasic_new_c junk seed height hash fmt w) = XmssBasic_new junk seed height hash fmt w /\
  erase (XmssFast_new_c junk seed height hash fmt) = XmssFast_new junk seed height hash fmt /\
  erase (XmssFast_from_extended_seed_c junk es) = XmssFast_from_extended_seed junk es /\
  erase (xfast_initialize_tree_c junk o w) = xfast_initialize_tree junk o w.
Proof.
  intros. repeat split.
  - unfold XmssBasic_new_c, XmssBasic_new. er. apply bind_ext. intros []. destruct (bad_height height); [reflexivity|]. er. apply bind_ext. intros p. destruct (31 <=? height)%N; [reflexivity|].
    apply with_hash_erase. intros hf. er. unfold xmss_Genkeypair_c, xmss_Genkeypair. er. rewrite treehash_erase.
    destruct (treehash hf junk (x_h p) _ p _ zero_adrs) as [rt|e|]; reflexivity.
  - unfold XmssFast_new_c, XmssFast_new. er. apply bind_ext. intros []. apply initialize_tree_erase.
  - unfold XmssFast_from_extended_seed_c, XmssFast_from_extended_seed. er. apply bind_ext. intros [[[s h] hs] f]. apply initialize_tree_erase.
  - apply initialize_tree_erase.
Qed.

(** Creating a key evaluates the hash function once per node of the tree, whatever the
    seed, the hash function and the address format: an XmssFast object costs no more than
    an XmssBasic one, and initialize_tree again costs the same once more.  (A constructor
    that throws has evaluated nothing.) *)
Theorem C84_key_generation_calls : forall junk w wp, winternitz w = Some wp ->
  (forall seed height hash fmt x n, XmssBasic_new_c junk seed height hash fmt w = Ok (x, n) ->
     n = tree_calls w (N.of_nat (snd (fst wp) + snd wp)) height) /\
  (forall seed height hash fmt x n, XmssFast_new_c junk seed height hash fmt = Ok (x, n) -> n = tree_calls 16 67 height) /\
  (forall es x n, XmssFast_from_extended_seed_c junk es = Ok (x, n) -> n = tree_calls 16 67 (xb_height (xf_base x))) /\
  (forall o x n, xfast_initialize_tree_c junk o w = Ok (x, n) ->
     n = tree_calls w (N.of_nat (snd (fst wp) + snd wp)) (xb_height (xf_base o)) /\ xb_height (xf_base x) = xb_height (xf_base o)).
Proof.
  assert (HP : forall w wp h p, winternitz w = Some wp -> xmss_set_params h w 2 = Ok p -> x_h p = h /\
    all_nodes p h = tree_calls w (N.of_nat (snd (fst wp) + snd wp)) (N.of_nat h)).
  { intros w wp h p Hw E. unfold xmss_set_params in E. destruct ((h <=? 2) || (2 <? 2) || negb ((h - 2) mod 2 =? 0)); [discriminate|].
    destruct (wparams_ok w wp Hw) as (Ew & Hok & Eww & _ & _ & _ & _ & _ & EL). destruct (wots_ok_facts _ Hok) as (_ & _ & _ & Hlen & _). rewrite EL in Hlen.
    rewrite Ew in E. cbn [bind] in E. apply Ok_inj in E. subst p. split; [reflexivity|]. unfold all_nodes, tree_calls. cbn [x_wots]. f_equal. f_equal.
    unfold leaf_cost, pkgen_cost, leaf_calls. rewrite EL, Eww. lia. }
  assert (HT : forall junk seed height hash fmt w wp x n, winternitz w = Some wp -> initialize_tree_c junk seed height hash fmt w = Ok (x, n) ->
    n = tree_calls w (N.of_nat (snd (fst wp) + snd wp)) height /\ xb_height (xf_base x) = height).
  { intros junk seed height hash fmt w wp x n Hw E. unfold initialize_tree_c in E. destruct (bad_height height); [discriminate|].
    apply cbind_ok in E. destruct E as (p & n1 & n2 & E1 & E & ->). apply clift_ok in E1. destruct E1 as (E1 & ->). destruct (31 <=? height)%N; [discriminate|].
    unfold with_hash in E. destruct (hash_of_id hash) as [hf|]; [|discriminate].
    apply cbind_ok in E. destruct E as ([sk st] & n1 & n3 & E2 & E & ->). apply cret_ok in E. destruct E as (<- & ->). unfold xmssfast_Genkeypair_c in E2.
    apply cbind_ok in E2. destruct E2 as ([rt st'] & n4 & n5 & E2 & E & ->). apply cret_ok in E. destruct E as (_ & ->). apply treehash_setup_calls in E2.
    destruct (HP _ _ _ _ Hw E1) as (Eh & Ea). rewrite Eh, Ea, N2Nat.id in E2. split; [lia|reflexivity]. }
  intros junk w wp Hw. split; [|split; [|split]].
  - intros seed height hash fmt x n E. unfold XmssBasic_new_c in E. apply cbind_ok in E. destruct E as (u & n1 & n2 & E1 & E & ->). apply clift_ok in E1. destruct E1 as (_ & ->).
    destruct (bad_height height); [discriminate|].
    apply cbind_ok in E. destruct E as (p & n1 & n3 & E1 & E & ->). apply clift_ok in E1. destruct E1 as (E1 & ->). destruct (31 <=? height)%N; [discriminate|].
    unfold with_hash in E. destruct (hash_of_id hash) as [hf|]; [|discriminate].
    apply cbind_ok in E. destruct E as (sk & n1 & n4 & E2 & E & ->). apply cret_ok in E. destruct E as (_ & ->). unfold xmss_Genkeypair_c in E2.
    apply cbind_ok in E2. destruct E2 as (rt & n4 & n5 & E2 & E & ->). apply cret_ok in E. destruct E as (_ & ->). apply treehash_calls in E2.
    destruct (HP _ _ _ _ Hw E1) as (Eh & Ea). rewrite Eh, Ea, N2Nat.id in E2. lia.
  - intros seed height hash fmt x n E. unfold XmssFast_new_c in E. apply cbind_ok in E. destruct E as (u & n1 & n2 & E1 & E & ->). apply clift_ok in E1. destruct E1 as (_ & ->).
    apply (HT _ _ _ _ _ 16%N w16) in E; [|reflexivity]. destruct E as (-> & _). reflexivity.
  - intros es x n E. unfold XmssFast_from_extended_seed_c in E. apply cbind_ok in E. destruct E as ([[[s h] hs] f] & n1 & n2 & E1 & E & ->). apply clift_ok in E1. destruct E1 as (_ & ->).
    apply (HT _ _ _ _ _ 16%N w16) in E; [|reflexivity]. destruct E as (-> & ->). reflexivity.
  - intros o x n E. exact (HT _ _ _ _ _ w wp x n Hw E).
Qed.

(** Every supported configuration gets its key at this cost. *)
Theorem C84_supported_keys : forall junk seed height hash hf fmt w wp, supported hash hf w wp height seed ->
  (exists x, XmssBasic_new_c junk seed (N.of_nat height) hash fmt w = Ok (x, tree_calls w (N.of_nat (snd (fst wp) + snd wp)) (N.of_nat height))) /\
  (w = 16%N -> exists x, XmssFast_new_c junk seed (N.of_nat height) hash fmt = Ok (x, tree_calls 16 67 (N.of_nat height))).
Proof.
  intros junk seed height hash hf fmt w wp HS. pose proof (cfg_of _ _ _ _ _ _ fmt HS) as HC. pose proof HS as (_ & Hw & _).
  destruct (C84_key_generation_calls junk w wp Hw) as (K1 & K2 & _).
  destruct (C84_erasure junk seed [] (N.of_nat height) hash fmt w (mkXF (mkXB (mkXP (wparams 16) 4 2) 0 0 0 [] []) (fresh_bds 4 2))) as (R1 & R2 & _). split.
  - pose proof (XmssBasic_new_spec (mkCfg hf hash w fmt height seed) wp HC junk) as E. cbn [c_seed c_height c_hash c_fmt c_w] in E. rewrite E in R1. apply erase_ok in R1. destruct R1 as (n & R1).
    rewrite (K1 _ _ _ _ _ _ R1) in R1. eauto.
  - intros ->. assert (winternitz 16 = Some w16) by reflexivity; assert (wp = w16) by congruence. subst wp. destruct (XmssFast_new_spec junk seed height hash hf fmt HS) as (x & E & _). rewrite E in R2. apply erase_ok in R2. destruct R2 as (n & R2).
    rewrite (K2 _ _ _ _ _ _ R2) in R2. eauto.
Qed.

(** For the smallest tree: 16 leaves of 3347 evaluations and 15 inner nodes. *)
Example C84_height4 : tree_calls 16 67 4 = 53612%N.
Proof. reflexivity. Qed.
