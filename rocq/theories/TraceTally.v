(** No call is missing from the logs of Trace.v and VerifyTrace.v: the log of every call of
    the API accounts for every call of core_hash counted by Cost.v and Cost2.v (which were
    written independently, and whose counts are proved exact by C82 and C84). *)
From Coq Require Import List NArith Arith Lia Bool.
From Verif Require Import Base Bytes Keccak HashAddress Wots XmssCommon AlgsXmss AlgsXmssFast Descriptor SpecApi SpecTweak SpecCost XmssObj Trace TraceErase VerifyTrace Cost Cost2.
Import ListNotations.
Open Scope nat_scope.

(** Calls of core_hash behind one logged call: F derives a key and one mask, H a key and two
    masks (hash.c:113-160). *)
Definition core_calls (e : hcall) : N := match e with EvF _ _ => 3 | EvH _ _ => 4 | EvPrf _ _ | EvMsg _ _ => 1 end.
Definition log_calls (l : list hcall) : N := fold_right (fun e n => (core_calls e + n)%N) 0%N l.
(** A result with its log replaced by the number of calls of core_hash behind it. *)
Definition tally {A} (m : tres A) : cres A :=
  match m with Ok (a, l) => Ok (a, log_calls l) | Exn e => Exn e | UB => UB end.

Lemma log_calls_app : forall a b, log_calls (a ++ b) = (log_calls a + log_calls b)%N.
Proof. induction a as [|e a IH]; intros b; [reflexivity|]. change (core_calls e + log_calls (a ++ b) = (core_calls e + log_calls a) + log_calls b)%N. rewrite IH. lia. Qed.
Lemma cbind_ext : forall A B (m : cres A) (f g : A -> cres B), (forall a, f a = g a) -> cbind m f = cbind m g.
Proof. intros A B [[a n]|e|] f g H; cbn; auto. now rewrite H. Qed.
Lemma cbind_cong : forall A B (m m' : cres A) (f g : A -> cres B), m = m' -> (forall a, f a = g a) -> cbind m f = cbind m' g.
Proof. intros A B m m' f g -> H. now apply cbind_ext. Qed.
Lemma tally_bind : forall A B (m : tres A) (k : A -> tres B), tally (tbind m k) = cbind (tally m) (fun a => tally (k a)).
Proof.
  intros A B [[a l]|e|] k; try reflexivity. unfold tbind, cbind. cbn [bind tally]. destruct (k a) as [[b l']|e|]; try reflexivity.
  cbn [bind tally]. now rewrite log_calls_app.
Qed.
Lemma tally_ret : forall A (a : A), tally (tret a) = cret a.
Proof. reflexivity. Qed.
Lemma tally_lift : forall A (m : res A), tally (tlift m) = clift m.
Proof. intros A [a|e|]; reflexivity. Qed.
Lemma tally_for : forall S n a f g (s : S), (forall i s, tally (f i s) = g i s) -> tally (tfor_from n a f s) = cfor_from n a g s.
Proof.
  induction n; intros a f g s H; cbn [tfor_from cfor_from]; [reflexivity|]. rewrite tally_bind, H. apply cbind_ext. intros; now apply IHn.
Qed.
Lemma tally_prf : forall hf i k, tally (prf_t hf i k) = prf_c hf i k.
Proof. reflexivity. Qed.
Lemma tally_msg : forall hf i k, tally (h_msg_t hf i k) = h_msg_c hf i k.
Proof. reflexivity. Qed.
Lemma tally_h : forall hf i ps a, tally (hash_h_t hf i ps a) = hash_h_c hf i ps a.
Proof. reflexivity. Qed.
Lemma tally_f : forall hf i ps a, tally (hash_f_t hf i ps a) = hash_f_c hf i ps a.
Proof. reflexivity. Qed.
Ltac tl := repeat first [ rewrite tally_bind | rewrite tally_lift | rewrite tally_ret | rewrite tally_prf | rewrite tally_msg | rewrite tally_h | rewrite tally_f ].
Ltac ce := apply cbind_ext; intros; repeat match goal with |- context [match ?p with (_, _) => _ end] => is_var p; destruct p end.

Lemma tally_map : forall hf sk l, tally (tmap (fun i => prf_t hf (to_byte 32 (N.of_nat i)) sk) l) = cmap (fun i => prf_c hf (to_byte 32 (N.of_nat i)) sk) l.
Proof. induction l; cbn [tmap cmap]; [reflexivity|]. tl. ce. tl. rewrite IHl. reflexivity. Qed.
Lemma gen_chain_loop_tally : forall hf n i x p ps a, tally (gen_chain_loop_t hf n i x p ps a) = gen_chain_loop_c hf n i x p ps a.
Proof.
  induction n; intros; cbn [gen_chain_loop_t gen_chain_loop_c]; [reflexivity|]. destruct (i <? w_w p)%N; [|reflexivity].
  tl. ce. apply IHn.
Qed.
Lemma gen_chains_tally : forall hf p ps jobs i a, tally (gen_chains_t hf i jobs p ps a) = gen_chains_c hf i jobs p ps a.
Proof.
  induction jobs as [|[[c s] n] t IH]; intros; cbn [gen_chains_t gen_chains_c]; [reflexivity|].
  tl. unfold gen_chain_t. rewrite gen_chain_loop_tally. ce. tl. rewrite IH. ce. reflexivity.
Qed.
Lemma get_seed_tally : forall hf ss a, tally (get_seed_t hf ss a) = get_seed_c hf ss a.
Proof. reflexivity. Qed.
Lemma pkgen_tally : forall hf sk p ps a, tally (wots_pkgen_t hf sk p ps a) = wots_pkgen_c hf sk p ps a.
Proof. intros. unfold wots_pkgen_t, wots_pkgen_c, expand_seed_t. tl. rewrite tally_map. ce. apply gen_chains_tally. Qed.
Lemma wots_sign_tally : forall hf m sk p ps a, tally (wots_sign_t hf m sk p ps a) = wots_sign_c hf m sk p ps a.
Proof. intros. unfold wots_sign_t, wots_sign_c, expand_seed_t. tl. ce. tl. rewrite tally_map. ce. apply gen_chains_tally. Qed.
Lemma pkFromSig_tally : forall hf s m p ps a, tally (wots_pkFromSig_t hf s m p ps a) = wots_pkFromSig_c hf s m p ps a.
Proof. intros. unfold wots_pkFromSig_t, wots_pkFromSig_c. tl. ce. apply gen_chains_tally. Qed.
Lemma l_tree_pass_tally : forall hf n ps s, tally (l_tree_pass_t hf n ps s) = l_tree_pass_c hf n ps s.
Proof.
  intros. unfold l_tree_pass_t, l_tree_pass_c, tfor_up, cfor_up. apply tally_for. intros i [pk a]. tl. ce. tl. ce. tl. ce. tl. ce. reflexivity.
Qed.
Lemma l_tree_loop_tally : forall hf ps fuel l h s, tally (l_tree_loop_t hf fuel l h ps s) = l_tree_loop_c hf fuel l h ps s.
Proof.
  induction fuel; intros; cbn [l_tree_loop_t l_tree_loop_c]; (destruct (l <=? 1); [reflexivity|]); [reflexivity|].
  tl. rewrite l_tree_pass_tally. ce. tl. ce. apply IHfuel.
Qed.
Lemma l_tree_tally : forall hf p pk ps a, tally (l_tree_t hf p pk ps a) = l_tree_c hf p pk ps a.
Proof. intros. unfold l_tree_t, l_tree_c. tl. rewrite l_tree_loop_tally. ce. tl. ce. reflexivity. Qed.
Lemma leaf_tally : forall hf ss p ps la oa, tally (gen_leaf_wots_t hf ss p ps la oa) = gen_leaf_wots_c hf ss p ps la oa.
Proof.
  intros. unfold gen_leaf_wots_t, gen_leaf_wots_c. tl. rewrite get_seed_tally. ce. tl. rewrite pkgen_tally. ce. tl. rewrite l_tree_tally. ce. reflexivity.
Qed.
Lemma update_while_tally : forall hf u ni ps stk lv off n nh a, tally (update_while_t hf u ni ps stk lv off n nh a) = update_while_c hf u ni ps stk lv off n nh a.
Proof.
  intros hf. induction u; intros; cbn [update_while_t update_while_c]; [reflexivity|]. destruct (off =? 0); [reflexivity|]. tl. ce.
  match goal with |- context [negb (?l =? nh)] => destruct (negb (l =? nh)); [reflexivity|] end.
  tl. ce. tl. ce. apply IHu.
Qed.
Lemma treehash_update_tally : forall hf lv st ss p ps a, tally (treehash_update_t hf lv st ss p ps a) = treehash_update_c hf lv st ss p ps a.
Proof.
  intros. unfold treehash_update_t, treehash_update_c. tl. ce. tl. rewrite leaf_tally. ce.
  tl. rewrite update_while_tally. ce. match goal with |- context [if ?b then _ else _] => destruct b end.
  - tl. ce. reflexivity.
  - tl. ce. tl. ce. tl. ce. reflexivity.
Qed.
Lemma bds_treehash_update_tally : forall hf n st ss p ps a, tally (bds_treehash_update_t hf n st ss p ps a) = bds_treehash_update_c hf n st ss p ps a.
Proof.
  intros hf. induction n; intros; cbn [bds_treehash_update_t bds_treehash_update_c]; [reflexivity|]. tl. ce. match goal with |- context [if ?b then _ else _] => destruct b end; [reflexivity|].
  tl. rewrite treehash_update_tally. ce. apply IHn.
Qed.
Lemma bds_round_tally : forall hf st i ss p ps a, tally (bds_round_t hf st i ss p ps a) = bds_round_c hf st i ss p ps a.
Proof.
  intros. unfold bds_round_t, bds_round_c. set (tau := find_tau (x_h p) 0 (x_h p) i). tl. ce. tl. ce. destruct (tau =? 0).
  - tl. rewrite leaf_tally. ce. tl. ce. reflexivity.
  - tl. ce. tl. ce. tl. ce. tl. ce. reflexivity.
Qed.
Lemma bds_step_tally : forall hf p ss ps a j st, tally (bds_step_t hf p ss ps a j st) = bds_step_c hf p ss ps a j st.
Proof. intros. unfold bds_step_t, bds_step_c. tl. rewrite bds_round_tally. ce. apply bds_treehash_update_tally. Qed.
Lemma xmssfast_update_tally : forall hf p sk st i, tally (xmssfast_update_t hf p sk st i) = xmssfast_update_c hf p sk st i.
Proof.
  intros. unfold xmssfast_update_t, xmssfast_update_c. destruct (2 ^ N.of_nat (x_h p) <=? i)%N; [reflexivity|]. destruct (i <? from_be (slice 0 4 sk))%N; [reflexivity|].
  tl. erewrite tally_for; [ce; reflexivity|]. intros; apply bds_step_tally.
Qed.
Lemma xmssfast_Signmsg_tally : forall hf p sk st m, tally (xmssfast_Signmsg_t hf p sk st m) = xmssfast_Signmsg_c hf p sk st m.
Proof.
  intros. unfold xmssfast_Signmsg_t, xmssfast_Signmsg_c. tl. ce. tl. ce. tl. rewrite get_seed_tally. ce. tl. rewrite wots_sign_tally. ce. tl.
  destruct (from_be (slice 0 4 sk) <? 2 ^ N.of_nat (x_h p) - 1)%N; [rewrite bds_step_tally|]; reflexivity.
Qed.
Lemma with_hash_tally : forall A hash (f : hashfn -> tres A) g, (forall hf, tally (f hf) = g hf) -> tally (with_hash hash f) = with_hash hash g.
Proof. intros A hash f g H. unfold with_hash. destruct (hash_of_id hash); [apply H|reflexivity]. Qed.
Lemma setIndex_tally : forall o i, tally (xfast_setIndex_t o i) = xfast_setIndex_c o i.
Proof.
  intros. unfold xfast_setIndex_t, xfast_setIndex_c. apply with_hash_tally. intros hf. tl. rewrite xmssfast_update_tally. ce.
  match goal with |- context [match ?s with inl _ => _ | inr _ => _ end] => destruct s end; reflexivity.
Qed.
Lemma sign_tally : forall o m, tally (xfast_sign_t o m) = xfast_sign_c o m.
Proof.
  intros. unfold xfast_sign_t, xfast_sign_c. tl. rewrite setIndex_tally. ce.
  match goal with |- context [match ?s with inl _ => _ | inr _ => _ end] => destruct s end; [reflexivity|].
  apply with_hash_tally. intros hf. tl. rewrite xmssfast_Signmsg_tally. ce. reflexivity.
Qed.
Lemma authpath_tally : forall hf junk i ss p ps a, tally (compute_authpath_wots_t hf junk i ss p ps a) = compute_authpath_wots_c hf junk i ss p ps a.
Proof.
  intros. unfold compute_authpath_wots_t, compute_authpath_wots_c. destruct (26 <=? x_h p); [reflexivity|].
  tl. unfold tfor_up, cfor_up. apply cbind_cong.
  - apply tally_for. intros j [[tree oa] la]. tl. rewrite leaf_tally. ce. tl. ce. reflexivity.
  - intros [[tree oa] la]. tl. apply cbind_cong.
    + apply tally_for. intros lev [tr na]. apply tally_for. intros j [tr' na']. tl. ce. tl. ce. tl. ce. tl. ce. reflexivity.
    + intros [tr na]. tl. ce. tl. ce. reflexivity.
Qed.
Lemma xmss_Signmsg_tally : forall hf junk p sk m, tally (xmss_Signmsg_t hf junk p sk m) = xmss_Signmsg_c hf junk p sk m.
Proof.
  intros. unfold xmss_Signmsg_t, xmss_Signmsg_c. tl. ce. tl. ce. tl. rewrite get_seed_tally. ce. tl. rewrite wots_sign_tally. ce. tl. rewrite authpath_tally. ce. reflexivity.
Qed.
Lemma XmssBasic_sign_tally : forall junk o m, tally (XmssBasic_sign_t junk o m) = XmssBasic_sign_c junk o m.
Proof.
  intros. unfold XmssBasic_sign_t, XmssBasic_sign_c. apply with_hash_tally. intros hf. tl. rewrite xmss_Signmsg_tally. ce. reflexivity.
Qed.
Lemma treehash_while_tally : forall hf fuel idx ps stk lv off na, tally (treehash_while_t hf fuel idx ps stk lv off na) = treehash_while_c hf fuel idx ps stk lv off na.
Proof.
  intros hf. induction fuel; intros; cbn [treehash_while_t treehash_while_c]; (destruct (off <=? 1); [reflexivity|]); tl; apply cbind_ext; intros l1; tl; apply cbind_ext; intros l2;
    (destruct (negb (l1 =? l2)); [reflexivity|]); [reflexivity|]. tl. ce. tl. ce. tl. ce. tl. ce. tl. ce. apply IHfuel.
Qed.
Lemma setup_while_tally : forall hf fuel h k i ps stk lv off na au ths re,
  tally (setup_while_t hf fuel h k i ps stk lv off na au ths re) = setup_while_c hf fuel h k i ps stk lv off na au ths re.
Proof.
  intros hf. induction fuel; intros; cbn [setup_while_t setup_while_c]; (destruct (off <=? 1); [reflexivity|]); tl; apply cbind_ext; intros l1; tl; apply cbind_ext; intros l2;
    (destruct (negb (l1 =? l2)); [reflexivity|]); [reflexivity|]. tl. ce. tl. ce. tl. ce. tl. ce. tl. ce. tl. ce. apply IHfuel.
Qed.
Lemma treehash_tally : forall hf junk h ss p ps a, tally (treehash_t hf junk h ss p ps a) = treehash_c hf junk h ss p ps a.
Proof.
  intros. unfold treehash_t, treehash_c. tl. unfold tfor_up, cfor_up. apply cbind_cong.
  - apply tally_for. intros i [[[[[stk lv] off] oa] la] na]. tl. rewrite leaf_tally. ce. tl. ce. tl. ce. tl. rewrite treehash_while_tally. ce. reflexivity.
  - intros [[[[[stk lv] off] oa] la] na]. now tl.
Qed.
Lemma treehash_setup_tally : forall hf junk st ss p ps a, tally (treehash_setup_t hf junk st ss p ps a) = treehash_setup_c hf junk st ss p ps a.
Proof.
  intros. unfold treehash_setup_t, treehash_setup_c. tl. ce. tl. unfold tfor_up, cfor_up. apply cbind_cong.
  - apply tally_for. intros i [[[[[[[[stk lv] off] oa] la] na] au] th] re]. tl. rewrite leaf_tally. ce. tl. ce. tl. ce. tl. ce. tl. rewrite setup_while_tally. ce. reflexivity.
  - intros [[[[[[[[stk lv] off] oa] la] na] au] th] re]. tl. ce. reflexivity.
Qed.
Lemma initialize_tree_tally : forall junk seed height hash fmt w, tally (initialize_tree_t junk seed height hash fmt w) = initialize_tree_c junk seed height hash fmt w.
Proof.
  intros. unfold initialize_tree_t, initialize_tree_c. destruct (bad_height height); [reflexivity|]. tl. ce. destruct (31 <=? height)%N; [reflexivity|].
  apply with_hash_tally. intros hf. tl. unfold xmssfast_Genkeypair_t, xmssfast_Genkeypair_c. tl. rewrite treehash_setup_tally. apply cbind_cong; [|intros [sk st]; reflexivity].
  apply cbind_ext. intros [rt st]. reflexivity.
Qed.
Lemma XmssFast_new_tally : forall junk seed height hash fmt, tally (XmssFast_new_t junk seed height hash fmt) = XmssFast_new_c junk seed height hash fmt.
Proof. intros. unfold XmssFast_new_t, XmssFast_new_c. tl. apply cbind_ext. intros []. apply initialize_tree_tally. Qed.
Lemma XmssBasic_new_tally : forall junk seed height hash fmt w, tally (XmssBasic_new_t junk seed height hash fmt w) = XmssBasic_new_c junk seed height hash fmt w.
Proof.
  intros. unfold XmssBasic_new_t, XmssBasic_new_c. tl. apply cbind_ext. intros []. destruct (bad_height height); [reflexivity|]. tl. ce. destruct (31 <=? height)%N; [reflexivity|].
  apply with_hash_tally. intros hf. tl. unfold xmss_Genkeypair_t, xmss_Genkeypair_c. tl. rewrite treehash_tally. apply cbind_cong; [|intros sk; reflexivity].
  apply cbind_ext. intros rt. reflexivity.
Qed.

Lemma validate_loop_tally : forall hf n i li bl br ap pos ps a, tally (validate_loop_t hf n i li bl br ap pos ps a) = validate_loop_c hf n i li bl br ap pos ps a.
Proof.
  intros hf. induction n; intros; cbn [validate_loop_t validate_loop_c]; [reflexivity|]. tl. ce. tl. ce.
  destruct (N.odd (N.shiftr li 1)); apply IHn.
Qed.
Lemma validate_authpath_tally : forall hf lf li ap h ps a, tally (validate_authpath_t hf lf li ap h ps a) = validate_authpath_c hf lf li ap h ps a.
Proof.
  intros. unfold validate_authpath_t, validate_authpath_c. tl. ce. tl. destruct (N.odd li); rewrite validate_loop_tally; ce; tl; ce; reflexivity.
Qed.
Lemma Verifysig_tally : forall hf wp m s pk h, tally (xmss_Verifysig_t hf wp m s pk h) = xmss_Verifysig_c hf wp m s pk h.
Proof.
  intros. unfold xmss_Verifysig_t, xmss_Verifysig_c. tl. ce. tl. rewrite pkFromSig_tally. ce. tl. rewrite l_tree_tally. ce. tl. rewrite validate_authpath_tally. ce. reflexivity.
Qed.
Lemma verify_tally : forall m s pk w, tally (verify_t m s pk w) = verify_c m s pk w.
Proof.
  intros. assert (E : tally (verify_body_t m s pk w) = verify_body_c m s pk w).
  { unfold verify_body_t, verify_body_c. repeat first [reflexivity | progress tl | apply cbind_ext; intros ? | match goal with |- tally (if ?b then _ else _) = _ => destruct b end].
    apply with_hash_tally. intros hf. apply Verifysig_tally. }
  unfold verify_t, verify_c. rewrite <- E. destruct (verify_body_t m s pk w) as [[b l]|[]|]; reflexivity.
Qed.

(** Every API call: the logged version makes as many calls of core_hash, by its log, as the
    counting version.  (The call of XmssFast that creates a key from an extended seed and a
    second initialize_tree are the same [initialize_tree].) *)
Theorem C89_no_call_missing_from_log :
  (forall junk seed height hash fmt, tally (XmssFast_new_t junk seed height hash fmt) = XmssFast_new_c junk seed height hash fmt) /\
  (forall junk seed height hash fmt w, tally (initialize_tree_t junk seed height hash fmt w) = initialize_tree_c junk seed height hash fmt w) /\
  (forall o m, tally (xfast_sign_t o m) = xfast_sign_c o m) /\
  (forall o i, tally (xfast_setIndex_t o i) = xfast_setIndex_c o i) /\
  (forall junk seed height hash fmt w, tally (XmssBasic_new_t junk seed height hash fmt w) = XmssBasic_new_c junk seed height hash fmt w) /\
  (forall junk o m, tally (XmssBasic_sign_t junk o m) = XmssBasic_sign_c junk o m).
Proof.
  repeat split; intros; [apply XmssFast_new_tally|apply initialize_tree_tally|apply sign_tally|apply setIndex_tally|apply XmssBasic_new_tally|apply XmssBasic_sign_tally].
Qed.
Theorem C90_no_call_missing_from_log : forall m s pk w, tally (verify_t m s pk w) = verify_c m s pk w.
Proof. exact verify_tally. Qed.
