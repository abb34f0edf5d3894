(** Forgetting the log of Trace.v gives the models without it back. *)
From Coq Require Import List NArith Arith Lia Bool.
From Verif Require Import Base Bytes Keccak HashAddress Wots XmssCommon AlgsXmss AlgsXmssFast Descriptor SpecApi XmssObj Trace.
Import ListNotations.
Open Scope nat_scope.

Lemma bind_ext : forall A B (m : res A) (f g : A -> res B), (forall a, f a = g a) -> bind m f = bind m g.
Proof. intros A B [a|e|] f g H; cbn; auto. Qed.
Lemma forget_bind : forall A B (m : tres A) (k : A -> tres B), forget (tbind m k) = (a <- forget m ;; forget (k a)).
Proof.
  intros A B [[a l]|e|] k; try reflexivity. unfold forget, tbind. cbn [bind]. destruct (k a) as [[b l']|e|]; reflexivity.
Qed.
Lemma forget_ret : forall A (a : A), forget (tret a) = Ok a.
Proof. reflexivity. Qed.
Lemma forget_lift : forall A (m : res A), forget (tlift m) = m.
Proof. intros A [a|e|]; reflexivity. Qed.
Lemma forget_for : forall S n a f g (s : S), (forall i s, forget (f i s) = g i s) -> forget (tfor_from n a f s) = for_from n a g s.
Proof.
  induction n; intros a f g s H; cbn [tfor_from for_from]; [reflexivity|]. rewrite forget_bind, H. apply bind_ext. intros; now apply IHn.
Qed.
Lemma forget_ok : forall A (v : A) l, forget (Ok (v, l)) = Ok v.
Proof. reflexivity. Qed.
Lemma forget_prf : forall hf i k, forget (prf_t hf i k) = Ok (prf hf i k).
Proof. reflexivity. Qed.
Lemma forget_msg : forall hf i k, forget (h_msg_t hf i k) = Ok (h_msg hf i k).
Proof. reflexivity. Qed.
Lemma forget_h : forall hf i ps a, forget (hash_h_t hf i ps a) = Ok (hash_h hf i ps a).
Proof. reflexivity. Qed.
Lemma forget_f : forall hf i ps a, forget (hash_f_t hf i ps a) = Ok (hash_f hf i ps a).
Proof. reflexivity. Qed.
Ltac er := repeat first [ rewrite forget_bind | rewrite forget_lift | rewrite forget_ret | rewrite forget_prf | rewrite forget_msg | rewrite forget_h | rewrite forget_f | progress cbn [bind] ].

Lemma tmap_prf : forall hf sk l, forget (tmap (fun i => prf_t hf (to_byte 32 (N.of_nat i)) sk) l) = Ok (map (fun i => prf hf (to_byte 32 (N.of_nat i)) sk) l).
Proof. induction l; cbn [tmap map]; [reflexivity|]. er. rewrite IHl. reflexivity. Qed.
Lemma gen_chain_loop_erase : forall hf n i x p ps a, forget (gen_chain_loop_t hf n i x p ps a) = Ok (gen_chain_loop hf n i x p ps a).
Proof.
  induction n; intros; cbn [gen_chain_loop_t gen_chain_loop]; [reflexivity|]. destruct (i <? w_w p)%N; [|reflexivity].
  er. destruct (hash_f hf x ps (setHashADRS a i)) as [o a']. apply IHn.
Qed.
Lemma gen_chains_erase : forall hf p ps jobs i a, forget (gen_chains_t hf i jobs p ps a) = Ok (gen_chains hf i jobs p ps a).
Proof.
  induction jobs as [|[[c s] n] t IH]; intros; cbn [gen_chains_t gen_chains]; [reflexivity|].
  er. unfold gen_chain_t. rewrite gen_chain_loop_erase. cbn [bind]. unfold gen_chain.
  destruct (gen_chain_loop hf (N.to_nat n) s c p ps (setChainADRS a i)) as [o a']. er. rewrite IH. cbn [bind].
  destruct (gen_chains hf (i + 1) t p ps a'). reflexivity.
Qed.
Lemma get_seed_erase : forall hf ss a, forget (get_seed_t hf ss a) = Ok (get_seed hf ss a).
Proof. reflexivity. Qed.
Lemma pkgen_erase : forall hf sk p ps a, forget (wots_pkgen_t hf sk p ps a) = Ok (wots_pkgen hf sk p ps a).
Proof. intros. unfold wots_pkgen_t, wots_pkgen, expand_seed_t. er. rewrite tmap_prf. cbn [bind]. apply gen_chains_erase. Qed.
Lemma wots_sign_erase : forall hf m sk p ps a, forget (wots_sign_t hf m sk p ps a) = wots_sign hf m sk p ps a.
Proof. intros. unfold wots_sign_t, wots_sign, expand_seed_t. er. apply bind_ext. intros ds. er. rewrite tmap_prf. cbn [bind]. apply gen_chains_erase. Qed.
Lemma l_tree_pass_erase : forall hf n ps s, forget (l_tree_pass_t hf n ps s) = l_tree_pass hf n ps s.
Proof.
  intros. unfold l_tree_pass_t, l_tree_pass, tfor_up, for_up. apply forget_for. intros i [pk a]. er. apply bind_ext. intros x. er. apply bind_ext. intros y.
  er. destruct (hash_h hf (x ++ y) ps (setTreeIndex a (N.of_nat i))) as [o a']. er. apply bind_ext. reflexivity.
Qed.
Lemma l_tree_loop_erase : forall hf ps fuel l h s, forget (l_tree_loop_t hf fuel l h ps s) = l_tree_loop hf fuel l h ps s.
Proof.
  induction fuel; intros; cbn [l_tree_loop_t l_tree_loop]; (destruct (l <=? 1); [reflexivity|]); [reflexivity|].
  er. rewrite l_tree_pass_erase. apply bind_ext. intros [pk a]. er. apply bind_ext. intros [pk' l']. apply IHfuel.
Qed.
Lemma l_tree_erase : forall hf p pk ps a, forget (l_tree_t hf p pk ps a) = l_tree hf p pk ps a.
Proof. intros. unfold l_tree_t, l_tree. er. rewrite l_tree_loop_erase. apply bind_ext. intros [x b]. er. apply bind_ext. reflexivity. Qed.
Lemma leaf_erase : forall hf ss p ps la oa, forget (gen_leaf_wots_t hf ss p ps la oa) = gen_leaf_wots hf ss p ps la oa.
Proof.
  intros. unfold gen_leaf_wots_t, gen_leaf_wots. er. rewrite get_seed_erase. cbn [bind]. destruct (get_seed hf ss oa) as [s oa1].
  er. rewrite pkgen_erase. cbn [bind]. destruct (wots_pkgen hf s (x_wots p) ps oa1) as [pk oa2]. er. rewrite l_tree_erase. apply bind_ext. intros [x b]. reflexivity.
Qed.
Lemma update_while_erase : forall hf u ni ps stk lv off n nh a, forget (update_while_t hf u ni ps stk lv off n nh a) = update_while hf u ni ps stk lv off n nh a.
Proof.
  intros hf. induction u; intros; cbn [update_while_t update_while]; [reflexivity|]. destruct (off =? 0); [reflexivity|]. er. apply bind_ext. intros l. destruct (negb (l =? nh)); [reflexivity|].
  er. apply bind_ext. intros x. er.
  destruct (hash_h hf (x ++ n) ps (setTreeIndex (setTreeHeight a (N.of_nat nh)) (N.of_nat (ni / 2 ^ (nh + 1))))) as [o a']. apply IHu.
Qed.
Lemma treehash_update_erase : forall hf lv st ss p ps a, forget (treehash_update_t hf lv st ss p ps a) = treehash_update hf lv st ss p ps a.
Proof.
  intros. unfold treehash_update_t, treehash_update. er. apply bind_ext. intros th. er. rewrite leaf_erase. apply bind_ext. intros [[lf la] oa].
  er. rewrite update_while_erase. apply bind_ext. intros [[[nd nh] us] off]. destruct (nh =? th_h th).
  - er. apply bind_ext. reflexivity.
  - er. apply bind_ext. intros k. er. apply bind_ext. intros l. er. apply bind_ext. reflexivity.
Qed.
Lemma bds_treehash_update_erase : forall hf n st ss p ps a, forget (bds_treehash_update_t hf n st ss p ps a) = bds_treehash_update hf n st ss p ps a.
Proof.
  intros hf. induction n; intros; cbn [bds_treehash_update_t bds_treehash_update]; [reflexivity|]. er. apply bind_ext. intros [lv lm]. destruct (lv =? x_h p - x_k p); [reflexivity|].
  er. rewrite treehash_update_erase. apply bind_ext. intros; apply IHn.
Qed.
Lemma bds_round_erase : forall hf st i ss p ps a, forget (bds_round_t hf st i ss p ps a) = bds_round hf st i ss p ps a.
Proof.
  intros. unfold bds_round_t, bds_round. set (tau := find_tau (x_h p) 0 (x_h p) i). er. apply bind_ext. intros b. er. apply bind_ext. intros k. destruct (tau =? 0).
  - er. rewrite leaf_erase. apply bind_ext. intros [[lf la] oa]. er. apply bind_ext. reflexivity.
  - er.
    destruct (hash_h hf b ps (setTreeIndex (setTreeHeight (copy_layer_tree a 2) (N.of_nat (tau - 1))) (N.of_nat (i / 2 ^ tau)))) as [o a'].
    er. apply bind_ext. intros x. er. apply bind_ext. intros y. er. apply bind_ext. reflexivity.
Qed.
Lemma bds_step_erase : forall hf p ss ps a j st, forget (bds_step_t hf p ss ps a j st) = bds_step hf p ss ps a j st.
Proof. intros. unfold bds_step_t, bds_step. er. rewrite bds_round_erase. apply bind_ext. intros; apply bds_treehash_update_erase. Qed.
Lemma xmssfast_update_erase : forall hf p sk st i, forget (xmssfast_update_t hf p sk st i) = xmssfast_update hf p sk st i.
Proof.
  intros. unfold xmssfast_update_t, xmssfast_update. destruct (2 ^ N.of_nat (x_h p) <=? i)%N; [reflexivity|]. destruct (i <? from_be (slice 0 4 sk))%N; [reflexivity|].
  er. rewrite (forget_for _ _ _ _ (fun j st => bds_step hf p (slice 4 32 sk) (slice 68 32 sk) zero_adrs j st)); [reflexivity|]. intros; apply bds_step_erase.
Qed.
Lemma xmssfast_Signmsg_erase : forall hf p sk st m, forget (xmssfast_Signmsg_t hf p sk st m) = xmssfast_Signmsg hf p sk st m.
Proof.
  intros. unfold xmssfast_Signmsg_t, xmssfast_Signmsg. er. er. rewrite get_seed_erase. cbn [bind].
  destruct (get_seed hf (slice 4 32 sk) (setOTSADRS (setType zero_adrs 0) (from_be (slice 0 4 sk)))) as [os oa].
  er. rewrite wots_sign_erase. apply bind_ext. intros [ws oa']. er.
  destruct (from_be (slice 0 4 sk) <? 2 ^ N.of_nat (x_h p) - 1)%N.
  - rewrite bds_step_erase. reflexivity.
  - reflexivity.
Qed.
Lemma with_hash_erase : forall A hash (f : hashfn -> tres A) g, (forall hf, forget (f hf) = g hf) -> forget (with_hash hash f) = with_hash hash g.
Proof. intros A hash f g H. unfold with_hash. destruct (hash_of_id hash); [apply H|reflexivity]. Qed.
Lemma setIndex_erase : forall o i, forget (xfast_setIndex_t o i) = xfast_setIndex o i.
Proof.
  intros. unfold xfast_setIndex_t, xfast_setIndex. apply with_hash_erase. intros hf. er. rewrite xmssfast_update_erase. apply bind_ext.
  intros [[sk st] [e|u]]; reflexivity.
Qed.
Lemma sign_erase : forall o m, forget (xfast_sign_t o m) = xfast_sign o m.
Proof.
  intros. unfold xfast_sign_t, xfast_sign. er. rewrite setIndex_erase. apply bind_ext. intros [o' [e|j]]; [reflexivity|].
  apply with_hash_erase. intros hf. er. rewrite xmssfast_Signmsg_erase. apply bind_ext. intros [[sk st] sg]. reflexivity.
Qed.
Lemma step_erase : forall o c, forget (step_t o c) = step o c.
Proof. intros o [m|i]; unfold step_t, step; er; rewrite ?sign_erase, ?setIndex_erase; apply bind_ext; intros [o' r]; reflexivity. Qed.
Lemma run_erase : forall cs o, forget (run_t o cs) = run o cs.
Proof.
  induction cs; intros; cbn [run_t run]; [reflexivity|]. er. rewrite step_erase. apply bind_ext. intros [o' x]. er. rewrite IHcs. apply bind_ext.
  intros [o2 xs]. reflexivity.
Qed.
Lemma authpath_erase : forall hf junk i ss p ps a, forget (compute_authpath_wots_t hf junk i ss p ps a) = compute_authpath_wots hf junk i ss p ps a.
Proof.
  intros. unfold compute_authpath_wots_t, compute_authpath_wots. destruct (26 <=? x_h p); [reflexivity|].
  er. unfold tfor_up, for_up.
  match goal with |- context [for_from (2 ^ x_h p) 0 ?g _] => rewrite (forget_for _ _ _ _ g) end.
  2:{ intros j [[tree oa] la]. er. rewrite leaf_erase. apply bind_ext. intros [[lf la'] oa']. er. apply bind_ext. reflexivity. }
  apply bind_ext. intros [[tree oa] la]. er.
  match goal with |- context [bind (for_from (x_h p) 0 ?g (tree, ?z)) _] => rewrite (forget_for _ (x_h p) 0 _ g) end.
  2:{ intros lev [tr na]. apply forget_for. intros j [tr' na']. er. apply bind_ext. intros x. er. apply bind_ext. intros y. er.
      destruct (hash_h hf (x ++ y) ps (setTreeIndex na' (N.of_nat j))) as [o a']. er. apply bind_ext. reflexivity. }
  apply bind_ext. intros [tr na]. er. apply bind_ext. intros ap. er. apply bind_ext. reflexivity.
Qed.
Lemma xmss_Signmsg_erase : forall hf junk p sk m, forget (xmss_Signmsg_t hf junk p sk m) = xmss_Signmsg hf junk p sk m.
Proof.
  intros. unfold xmss_Signmsg_t, xmss_Signmsg. er. er. rewrite get_seed_erase. cbn [bind].
  destruct (get_seed hf (slice 4 32 sk) (setOTSADRS (setType zero_adrs 0) (from_be (slice 0 4 sk)))) as [os oa].
  er. rewrite wots_sign_erase. apply bind_ext. intros [ws oa']. er. rewrite authpath_erase. apply bind_ext. intros [r ap]. reflexivity.
Qed.
Lemma treehash_while_erase : forall hf fuel idx ps stk lv off na, forget (treehash_while_t hf fuel idx ps stk lv off na) = treehash_while hf fuel idx ps stk lv off na.
Proof.
  intros hf. induction fuel; intros; cbn [treehash_while_t treehash_while]; (destruct (off <=? 1); [reflexivity|]); er; apply bind_ext; intros l1; er; apply bind_ext; intros l2;
    (destruct (negb (l1 =? l2)); [reflexivity|]); [reflexivity|]. er. apply bind_ext. intros x. er. apply bind_ext. intros y. er.
  destruct (hash_h hf (x ++ y) ps (setTreeIndex (setTreeHeight na (N.of_nat l1)) (N.of_nat (idx / 2 ^ (l1 + 1))))) as [o a']. er. apply bind_ext. intros s1. er. apply bind_ext. intros v1. apply IHfuel.
Qed.
Lemma setup_while_erase : forall hf fuel h k i ps stk lv off na au ths re,
  forget (setup_while_t hf fuel h k i ps stk lv off na au ths re) = setup_while hf fuel h k i ps stk lv off na au ths re.
Proof.
  intros hf. induction fuel; intros; cbn [setup_while_t setup_while]; (destruct (off <=? 1); [reflexivity|]); er; apply bind_ext; intros l1; er; apply bind_ext; intros l2;
    (destruct (negb (l1 =? l2)); [reflexivity|]); [reflexivity|]. er. apply bind_ext. intros x. er. apply bind_ext. intros [[au1 th1] re1]. er. apply bind_ext. intros y. er.
  destruct (hash_h hf (y ++ x) ps (setTreeIndex (setTreeHeight na (N.of_nat l1)) (N.of_nat (i / 2 ^ (l1 + 1))))) as [o a']. er. apply bind_ext. intros s1. er. apply bind_ext. intros v1. apply IHfuel.
Qed.
Lemma treehash_erase : forall hf junk h ss p ps a, forget (treehash_t hf junk h ss p ps a) = treehash hf junk h ss p ps a.
Proof.
  intros. unfold treehash_t, treehash. er. unfold tfor_up, for_up.
  match goal with |- context [for_from (2 ^ h) 0 ?g _] => rewrite (forget_for _ _ _ _ g) end.
  - apply bind_ext. intros [[[[[stk lv] off] oa] la] na]. now er.
  - intros i [[[[[stk lv] off] oa] la] na]. er. rewrite leaf_erase. apply bind_ext. intros [[lf la'] oa']. er. apply bind_ext. intros s1. er. apply bind_ext. intros v1. er.
    rewrite treehash_while_erase. apply bind_ext. intros [[[s2 v2] o2] na2]. reflexivity.
Qed.
Lemma treehash_setup_erase : forall hf junk st ss p ps a, forget (treehash_setup_t hf junk st ss p ps a) = treehash_setup hf junk st ss p ps a.
Proof.
  intros. unfold treehash_setup_t, treehash_setup. er. apply bind_ext. intros ths. er. unfold tfor_up, for_up.
  match goal with |- context [for_from (2 ^ x_h p) 0 ?g _] => rewrite (forget_for _ _ _ _ g) end.
  - apply bind_ext. intros [[[[[[[[stk lv] off] oa] la] na] au] th] re]. er. apply bind_ext. intros x. reflexivity.
  - intros i [[[[[[[[stk lv] off] oa] la] na] au] th] re]. er. rewrite leaf_erase. apply bind_ext. intros [[lf la'] oa']. er. apply bind_ext. intros s1. er. apply bind_ext. intros v1. er.
    apply bind_ext. intros th1. er. rewrite setup_while_erase. apply bind_ext. intros [[[[[[s2 v2] o2] na2] au2] th2] re2]. reflexivity.
Qed.
Lemma initialize_tree_erase : forall junk seed height hash fmt w, forget (initialize_tree_t junk seed height hash fmt w) = initialize_tree junk seed height hash fmt w.
Proof.
  intros. unfold initialize_tree_t, initialize_tree. destruct (bad_height height); [reflexivity|]. er. apply bind_ext. intros p. destruct (31 <=? height)%N; [reflexivity|].
  apply with_hash_erase. intros hf. er. unfold xmssfast_Genkeypair_t, xmssfast_Genkeypair. er. rewrite treehash_setup_erase.
  destruct (treehash_setup hf junk _ _ p _ zero_adrs) as [[rt st]|e|]; reflexivity.
Qed.
Lemma XmssFast_new_erase : forall junk seed height hash fmt, forget (XmssFast_new_t junk seed height hash fmt) = XmssFast_new junk seed height hash fmt.
Proof. intros. unfold XmssFast_new_t, XmssFast_new. er. apply bind_ext. intros []. apply initialize_tree_erase. Qed.
Lemma XmssFast_from_erase : forall junk es, forget (XmssFast_from_extended_seed_t junk es) = XmssFast_from_extended_seed junk es.
Proof. intros. unfold XmssFast_from_extended_seed_t, XmssFast_from_extended_seed. er. apply bind_ext. intros [[[s h] hs] f]. apply initialize_tree_erase. Qed.
Lemma XmssBasic_new_erase : forall junk seed height hash fmt w, forget (XmssBasic_new_t junk seed height hash fmt w) = XmssBasic_new junk seed height hash fmt w.
Proof.
  intros. unfold XmssBasic_new_t, XmssBasic_new. er. apply bind_ext. intros []. destruct (bad_height height); [reflexivity|]. er. apply bind_ext. intros p. destruct (31 <=? height)%N; [reflexivity|].
  apply with_hash_erase. intros hf. er. unfold xmss_Genkeypair_t, xmss_Genkeypair. er. rewrite treehash_erase.
  destruct (treehash hf junk (x_h p) _ p _ zero_adrs) as [rt|e|]; reflexivity.
Qed.
Lemma XmssBasic_sign_erase : forall junk o m, forget (XmssBasic_sign_t junk o m) = XmssBasic_sign junk o m.
Proof.
  intros. unfold XmssBasic_sign_t, XmssBasic_sign. apply with_hash_erase. intros hf. er. rewrite xmss_Signmsg_erase. apply bind_ext. intros [sk sg]. reflexivity.
Qed.
