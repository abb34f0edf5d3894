(** Proofs about Cost.v. *)
From Coq Require Import List NArith Arith Lia Bool.
From Verif Require Import Base Bytes Keccak HashAddress Wots XmssCommon AlgsXmss AlgsXmssFast Descriptor XmssObj Cost.
Import ListNotations.
Open Scope N_scope.

Lemma erase_bind : forall A B (m : cres A) (k : A -> cres B), erase (cbind m k) = bind (erase m) (fun a => erase (k a)).
Proof.
  intros A B m k. unfold cbind, erase. destruct m as [[a n]|e|]; cbn [bind]; auto. destruct (k a) as [[b n']|e|]; reflexivity.
Qed.
Lemma erase_lift : forall A (m : res A), erase (clift m) = m.
Proof. intros A [a|e|]; reflexivity. Qed.
Lemma erase_ret : forall A (a : A), erase (cret a) = Ok a.
Proof. reflexivity. Qed.
Lemma bind_ext : forall A B (m : res A) (f g : A -> res B), (forall a, f a = g a) -> bind m f = bind m g.
Proof. intros A B [a|e|] f g H; cbn; auto. Qed.
Lemma erase_for : forall S n a (f : nat -> S -> cres S) (g : nat -> S -> res S) s,
  (forall i s, erase (f i s) = g i s) -> erase (cfor_from n a f s) = for_from n a g s.
Proof.
  induction n; intros a f g s H; cbn [cfor_from for_from]; [reflexivity|]. rewrite erase_bind, H. apply bind_ext. intros; apply IHn; auto.
Qed.

(** The computation [m] is [r] with a fixed number of hash calls. *)
Definition costs {A} (m : cres A) (r : res A) (n : N) : Prop := m = (a <- r ;; Ok (a, n)).
Lemma costs_ret : forall A (a : A), costs (cret a) (Ok a) 0.
Proof. reflexivity. Qed.
Lemma costs_lift : forall A (r : res A), costs (clift r) r 0.
Proof. reflexivity. Qed.
Lemma costs_bind : forall A B (m : cres A) r n (k : A -> cres B) s n',
  costs m r n -> (forall a, r = Ok a -> costs (k a) (s a) n') -> costs (cbind m k) (bind r s) (n + n').
Proof.
  intros A B m r n k s n' -> H. unfold costs, cbind. destruct r as [a|e|]; cbn [bind]; auto. rewrite (H a eq_refl). destruct (s a) as [b|e|]; reflexivity.
Qed.
Lemma costs_bind0 : forall A B (r : res A) (k : A -> cres B) s n,
  (forall a, r = Ok a -> costs (k a) (s a) n) -> costs (cbind (clift r) k) (bind r s) n.
Proof. intros. rewrite <- (N.add_0_l n). apply costs_bind; [apply costs_lift|auto]. Qed.
Lemma costs_pure : forall A B (v : A) n (k : A -> cres B) r n', costs (k v) r n' -> costs (cbind (Ok (v, n)) k) r (n + n').
Proof. intros A B v n k r n' H. unfold costs, cbind in *. cbn [bind]. rewrite H. destruct r as [b|e|]; reflexivity. Qed.
Lemma costs_eq : forall A (m : cres A) r n n', costs m r n -> n = n' -> costs m r n'.
Proof. intros. now subst. Qed.
Lemma costs_erase : forall A (m : cres A) r n, costs m r n -> erase m = r.
Proof. intros A m r n ->. destruct r; reflexivity. Qed.
Lemma costs_for : forall S n a (f : nat -> S -> cres S) (g : nat -> S -> res S) s c,
  (forall i s, costs (f i s) (g i s) c) -> costs (cfor_from n a f s) (for_from n a g s) (N.of_nat n * c).
Proof.
  induction n; intros a f g s c H; cbn [cfor_from for_from]; [reflexivity|].
  eapply costs_eq; [eapply costs_bind; [apply H|intros; apply IHn; apply H]|]. lia.
Qed.

Lemma hash_h_c_eq : forall hf i ps a, hash_h_c hf i ps a = Ok (hash_h hf i ps a, 4).
Proof. reflexivity. Qed.
Lemma hash_f_c_eq : forall hf i ps a, hash_f_c hf i ps a = Ok (hash_f hf i ps a, 3).
Proof. reflexivity. Qed.
Lemma get_seed_c_eq : forall hf s a, get_seed_c hf s a = Ok (get_seed hf s a, 1).
Proof. reflexivity. Qed.
#[global] Opaque hash_h_c hash_f_c get_seed_c.

Lemma expand_seed_c_eq : forall hf s len, expand_seed_c hf s len = Ok (expand_seed hf s len, N.of_nat len).
Proof.
  intros hf s len. unfold expand_seed_c, expand_seed.
  assert (G : forall len a, cmap (fun i => prf_c hf (to_byte 32 (N.of_nat i)) s) (seq a len) =
    Ok (map (fun i => prf hf (to_byte 32 (N.of_nat i)) s) (seq a len), N.of_nat len)); [|apply G].
  clear len. induction len; intros a; cbn [seq cmap map]; [reflexivity|].
  rewrite IHlen. unfold prf_c, core_hash_c, cbind, cret. cbn [bind]. unfold prf. do 2 f_equal. lia.
Qed.

(** Hash calls of one chain walk. *)
Definition walk (p : wots_params) (start steps : N) : N := 3 * N.min steps (w_w p - start).
Lemma gen_chain_loop_c_eq : forall hf steps i out p ps a,
  gen_chain_loop_c hf steps i out p ps a = Ok (gen_chain_loop hf steps i out p ps a, walk p i (N.of_nat steps)).
Proof.
  intros hf. induction steps; intros i out p ps a; cbn [gen_chain_loop_c gen_chain_loop].
  - unfold walk, cret. do 2 f_equal. lia.
  - destruct (i <? w_w p) eqn:E.
    + rewrite hash_f_c_eq. destruct (hash_f hf out ps (setHashADRS a i)) as [o a']. unfold cbind. cbn [bind].
      rewrite IHsteps. cbn [bind]. do 2 f_equal. apply N.ltb_lt in E. unfold walk. lia.
    + apply N.ltb_ge in E. unfold cret, walk. do 2 f_equal. lia.
Qed.
Definition walks (p : wots_params) (jobs : list (list N * N * N)) : N :=
  fold_right (fun '(_, start, steps) n => walk p start steps + n) 0 jobs.
Lemma gen_chains_c_eq : forall hf jobs i p ps a, gen_chains_c hf i jobs p ps a = Ok (gen_chains hf i jobs p ps a, walks p jobs).
Proof.
  intros hf. induction jobs as [|[[c s] n] jobs IH]; intros i p ps a; cbn [gen_chains_c gen_chains walks fold_right]; [reflexivity|].
  unfold gen_chain_c, gen_chain. rewrite gen_chain_loop_c_eq, N2Nat.id.
  destruct (gen_chain_loop hf (N.to_nat n) s c p ps (setChainADRS a i)) as [o a']. unfold cbind. cbn [bind]. rewrite IH.
  destruct (gen_chains hf (i + 1) jobs p ps a') as [os a'']. cbn [bind cret]. fold (walks p jobs). do 2 f_equal. lia.
Qed.

Definition pkgen_cost (p : wots_params) : N := N.of_nat (w_len p) + N.of_nat (w_len p) * (3 * (w_w p - 1)).
Lemma wots_pkgen_c_eq : forall hf sk p ps a, wots_pkgen_c hf sk p ps a = Ok (wots_pkgen hf sk p ps a, pkgen_cost p).
Proof.
  intros. unfold wots_pkgen_c, wots_pkgen. rewrite expand_seed_c_eq. unfold cbind. cbn [bind]. rewrite gen_chains_c_eq. cbn [bind]. do 2 f_equal.
  unfold pkgen_cost. f_equal. assert (H : length (expand_seed hf sk (w_len p)) = w_len p) by (unfold expand_seed; now rewrite map_length, seq_length).
  assert (G : forall l, walks p (map (fun c => (c, 0, w_w p - 1)) l) = N.of_nat (length l) * (3 * (w_w p - 1))); [|now rewrite G, H].
  induction l as [|c l IH]; [reflexivity|]. cbn [map walks fold_right length]. fold (walks p (map (fun c => (c, 0, w_w p - 1)) l)).
  rewrite IH. unfold walk. rewrite N.sub_0_r, N.min_l by lia. lia.
Qed.

Lemma l_tree_pass_costs : forall hf b ps s, costs (l_tree_pass_c hf b ps s) (l_tree_pass hf b ps s) (N.of_nat b * 4).
Proof.
  intros. apply costs_for. intros i [pk a]. apply costs_bind0. intros x _. apply costs_bind0. intros y _. rewrite hash_h_c_eq.
  destruct (hash_h hf (x ++ y) ps (setTreeIndex a (N.of_nat i))) as [o a']. change 4 with (4 + 0). apply costs_pure. apply costs_bind0. intros; apply costs_ret.
Qed.
Lemma l_tree_loop_costs : forall hf fuel l ht ps s, costs (l_tree_loop_c hf fuel l ht ps s) (l_tree_loop hf fuel l ht ps s) (4 * N.of_nat (l - 1)).
Proof.
  intros hf. induction fuel; intros l ht ps s; cbn [l_tree_loop_c l_tree_loop].
  - destruct (l <=? 1)%nat eqn:E; [|reflexivity]. apply Nat.leb_le in E. eapply costs_eq; [apply costs_ret|lia].
  - destruct (l <=? 1)%nat eqn:E. { apply Nat.leb_le in E. eapply costs_eq; [apply costs_ret|lia]. }
    apply Nat.leb_gt in E. pose proof (Nat.div_mod l 2 ltac:(lia)) as HD. pose proof (Nat.mod_upper_bound l 2 ltac:(lia)) as HM.
    assert (HO : Nat.odd l = true -> (l mod 2 = 1)%nat). { intro H. apply Nat.odd_spec in H. destruct H as (z & ->). lia. }
    assert (HE : Nat.odd l = false -> (l mod 2 = 0)%nat). { intro H. rewrite <- Nat.negb_even in H. apply negb_false_iff, Nat.even_spec in H. destruct H as (z & ->). lia. }
    set (l' := if Nat.odd l then (l / 2 + 1)%nat else (l / 2)%nat).
    eapply (costs_eq _ _ _ (N.of_nat (l / 2) * 4 + 4 * N.of_nat (l' - 1))).
    + eapply costs_bind; [apply l_tree_pass_costs|]. intros [pk a] _. apply costs_bind0. intros [pk' l0] Hl.
      assert (l0 = l'). { unfold l'. destruct (Nat.odd l). destruct (get pk (l - 1)); cbn [bind] in Hl; try discriminate. destruct (set pk (l / 2) a0); cbn [bind] in Hl; try discriminate. all: congruence. }
      subst l0. apply IHfuel.
    + unfold l'. destruct (Nat.odd l); [specialize (HO eq_refl)|specialize (HE eq_refl)]; lia.
Qed.
Lemma l_tree_costs : forall hf p pk ps a, costs (l_tree_c hf p pk ps a) (l_tree hf p pk ps a) (4 * N.of_nat (w_len p - 1)).
Proof.
  intros. unfold l_tree_c, l_tree. eapply costs_eq; [eapply costs_bind; [apply l_tree_loop_costs|]|apply N.add_0_r]. intros [x y] _. apply costs_bind0. intros; apply costs_ret.
Qed.
Definition leaf_cost (p : wots_params) : N := 1 + (pkgen_cost p + 4 * N.of_nat (w_len p - 1)).
Lemma gen_leaf_wots_costs : forall hf ss p ps la oa, costs (gen_leaf_wots_c hf ss p ps la oa) (gen_leaf_wots hf ss p ps la oa) (leaf_cost (x_wots p)).
Proof.
  intros. unfold gen_leaf_wots_c, gen_leaf_wots, leaf_cost. rewrite get_seed_c_eq. destruct (get_seed hf ss oa) as [s oa']. apply costs_pure.
  rewrite wots_pkgen_c_eq. destruct (wots_pkgen hf s (x_wots p) ps oa') as [pk oa'']. apply costs_pure.
  eapply costs_eq; [eapply costs_bind; [apply l_tree_costs|]|apply N.add_0_r]. intros [x y] _. apply costs_ret.
Qed.
#[global] Opaque gen_leaf_wots_c.

(** ** verify *)
Lemma validate_loop_costs : forall hf n i li bl br ap pos ps a,
  costs (validate_loop_c hf n i li bl br ap pos ps a) (validate_loop hf n i li bl br ap pos ps a) (4 * N.of_nat n).
Proof.
  intros hf. induction n; intros i li bl br ap pos ps a; cbn [validate_loop_c validate_loop]; [reflexivity|].
  rewrite hash_h_c_eq. destruct (hash_h hf (bl ++ br) ps (setTreeIndex (setTreeHeight a i) (N.shiftr li 1))) as [o a'].
  replace (4 * N.of_nat (S n)) with (4 + 4 * N.of_nat n) by lia. apply costs_pure. apply costs_bind0. intros x _. destruct (N.odd (N.shiftr li 1)); apply IHn.
Qed.
Lemma validate_authpath_costs : forall hf lf li ap h ps a, (1 <= h)%nat ->
  costs (validate_authpath_c hf lf li ap h ps a) (validate_authpath hf lf li ap h ps a) (4 * N.of_nat h).
Proof.
  intros hf lf li ap h ps a Hh. unfold validate_authpath_c, validate_authpath. apply costs_bind0. intros x _.
  apply (costs_eq _ _ _ (4 * N.of_nat (h - 1) + 4)); [|lia]. apply costs_bind.
  - destruct (N.odd li); apply validate_loop_costs.
  - intros [[[li' bl] br] a'] _. rewrite hash_h_c_eq.
    destruct (hash_h hf (bl ++ br) ps (setTreeIndex (setTreeHeight a' (N.of_nat (h - 1))) (N.shiftr li' 1))) as [o a'']. change 4 with (4 + 0). apply costs_pure. apply costs_ret.
Qed.

(** ** XmssBasic *)
Fixpoint sum_levels (h n : nat) (a : nat) : N :=
  match n with O => 0 | S n' => N.of_nat (2 ^ (h - a) / 2) * 4 + sum_levels h n' (S a) end.
Lemma sum_levels_eq : forall n h a, (a + n = h)%nat -> sum_levels h n a = 4 * (2 ^ N.of_nat n - 1).
Proof.
  induction n; intros h a H; cbn [sum_levels]; [reflexivity|]. rewrite IHn by lia. replace (h - a)%nat with (S n) by lia.
  rewrite Nat.pow_succ_r', (Nat.mul_comm 2), Nat.div_mul by lia. rewrite Nat2N.inj_pow, (Nat2N.inj_succ n), N.pow_succ_r'. change (N.of_nat 2) with 2.
  assert (2 ^ N.of_nat n <> 0) by (apply N.pow_nonzero; lia). lia.
Qed.
Lemma costs_levels : forall S h n a (f : nat -> S -> cres S) (g : nat -> S -> res S) s,
  (forall i s, costs (f i s) (g i s) (N.of_nat (2 ^ (h - i) / 2) * 4)) -> costs (cfor_from n a f s) (for_from n a g s) (sum_levels h n a).
Proof.
  induction n; intros a f g s H; cbn [cfor_from for_from sum_levels]; [reflexivity|].
  eapply costs_bind; [apply H|]. intros; apply IHn; apply H.
Qed.
Lemma compute_authpath_costs : forall hf junk i ss p ps a,
  costs (compute_authpath_wots_c hf junk i ss p ps a) (compute_authpath_wots hf junk i ss p ps a)
    (2 ^ N.of_nat (x_h p) * leaf_cost (x_wots p) + 4 * (2 ^ N.of_nat (x_h p) - 1)).
Proof.
  intros. unfold compute_authpath_wots_c, compute_authpath_wots. destruct (26 <=? x_h p)%nat; [reflexivity|].
  apply costs_bind.
  - replace (2 ^ N.of_nat (x_h p)) with (N.of_nat (2 ^ x_h p)) by (rewrite Nat2N.inj_pow; reflexivity).
    apply costs_for. intros j [[t oa] la]. eapply costs_eq; [eapply costs_bind; [apply gen_leaf_wots_costs|]|apply N.add_0_r].
    intros [[lf la'] oa'] _. apply costs_bind0. intros; apply costs_ret.
  - intros [[t oa] la] _. rewrite <- (sum_levels_eq (x_h p) (x_h p) 0) by lia.
    eapply costs_eq; [eapply costs_bind; [|]|apply N.add_0_r].
    + apply costs_levels. intros lv [t' na]. apply costs_for. intros j [t'' na']. apply costs_bind0. intros x _. apply costs_bind0. intros y _.
      rewrite hash_h_c_eq. destruct (hash_h hf (x ++ y) ps (setTreeIndex na' (N.of_nat j))) as [o na'']. change 4 with (4 + 0). apply costs_pure. apply costs_bind0. intros; apply costs_ret.
    + intros [t' na] _. apply costs_bind0. intros ap _. apply costs_bind0. intros; apply costs_ret.
Qed.
