(** Proofs about Stack.v: with enough stack each definition agrees with the one it
    is a copy of. *)
From Coq Require Import List NArith Arith Lia Bool.
From Verif Require Import Base Bytes Keccak HashAddress Wots XmssCommon AlgsXmss AlgsXmssFast Descriptor XmssObj Stack.
Import ListNotations.
Open Scope N_scope.

Lemma frame_ok : forall A B n (k : N -> res A), n <= B -> frame B n k = k (B - n).
Proof. intros A B n k H. unfold frame. destruct (B <? n) eqn:E; [apply N.ltb_lt in E; lia|reflexivity]. Qed.
Lemma frame_ub : forall A B n (k : N -> res A), B < n -> frame B n k = UB.
Proof. intros A B n k H. unfold frame. destruct (B <? n) eqn:E; [reflexivity|apply N.ltb_ge in E; lia]. Qed.
Lemma bind_ext : forall A B (m : res A) (f g : A -> res B), (forall a, f a = g a) -> bind m f = bind m g.
Proof. intros A B [a|e|] f g H; cbn; auto. Qed.
Lemma for_up_ext : forall S f g n (s : S), (forall i s', f i s' = g i s') -> for_up n f s = for_up n g s.
Proof. intros. unfold for_up. apply for_from_ext. auto. Qed.
Lemma with_hash_ext : forall A id (k k' : hashfn -> res A), (forall hf, k hf = k' hf) -> with_hash id k = with_hash id k'.
Proof. intros. unfold with_hash. destruct (hash_of_id id); auto. Qed.

Lemma core_hash_s_eq : forall B hf t k kl i il, il + 32 + kl <= B -> core_hash_s B hf t k kl i il = Ok (core_hash hf t k i).
Proof. intros. unfold core_hash_s. now rewrite frame_ok. Qed.
Lemma prf_s_eq : forall B hf i k, 96 <= B -> prf_s B hf i k = Ok (prf hf i k).
Proof. intros. apply core_hash_s_eq. lia. Qed.
Lemma h_msg_s_eq : forall B hf i k, N.of_nat (length i) + 128 <= B -> h_msg_s B hf i k = Ok (h_msg hf i k).
Proof. intros. apply core_hash_s_eq. lia. Qed.
Lemma hash_h_s_eq : forall B hf i ps a, 320 <= B -> hash_h_s B hf i ps a = Ok (hash_h hf i ps a).
Proof.
  intros. unfold hash_h_s. rewrite frame_ok by lia. cbv zeta. repeat (rewrite prf_s_eq by lia; cbn [bind]). rewrite core_hash_s_eq by lia. reflexivity.
Qed.
Lemma hash_f_s_eq : forall B hf i ps a, 224 <= B -> hash_f_s B hf i ps a = Ok (hash_f hf i ps a).
Proof.
  intros. unfold hash_f_s. rewrite frame_ok by lia. cbv zeta. repeat (rewrite prf_s_eq by lia; cbn [bind]). rewrite core_hash_s_eq by lia. reflexivity.
Qed.
Lemma get_seed_s_eq : forall B hf s a, 128 <= B -> get_seed_s B hf s a = Ok (get_seed hf s a).
Proof. intros. unfold get_seed_s. rewrite frame_ok by lia. cbv zeta. rewrite prf_s_eq by lia. reflexivity. Qed.
Lemma expand_seed_s_eq : forall B hf s n, 128 <= B -> expand_seed_s B hf s n = Ok (expand_seed hf s n).
Proof.
  intros. unfold expand_seed_s, expand_seed. rewrite frame_ok by lia. induction (seq 0 n); [reflexivity|].
  cbn [mapM map]. rewrite prf_s_eq by lia. cbn [bind]. rewrite IHl. reflexivity.
Qed.
Lemma gen_chain_loop_s_eq : forall B hf p ps, 224 <= B -> forall steps i out a,
  gen_chain_loop_s B hf steps i out p ps a = Ok (gen_chain_loop hf steps i out p ps a).
Proof.
  intros B hf p ps HB. induction steps; intros; cbn [gen_chain_loop_s gen_chain_loop]; [reflexivity|].
  destruct (i <? w_w p); [|reflexivity]. cbv zeta. rewrite hash_f_s_eq by lia. cbn [bind].
  destruct (hash_f hf out ps (setHashADRS a i)) as [o a']. apply IHsteps.
Qed.
Lemma gen_chains_s_eq : forall B hf p ps, 224 <= B -> forall jobs i a,
  gen_chains_s B hf i jobs p ps a = Ok (gen_chains hf i jobs p ps a).
Proof.
  intros B hf p ps HB. induction jobs as [|[[c st] n] jobs IH]; intros; cbn [gen_chains_s gen_chains]; [reflexivity|].
  cbv zeta. unfold gen_chain_s, gen_chain. rewrite gen_chain_loop_s_eq by lia. cbn [bind].
  destruct (gen_chain_loop hf (N.to_nat n) st c p ps (setChainADRS a i)) as [o a']. rewrite IH. cbn [bind].
  destruct (gen_chains hf (i + 1) jobs p ps a') as [os a'']. reflexivity.
Qed.
Lemma wots_pkgen_s_eq : forall B hf sk p ps a, 224 <= B -> wots_pkgen_s B hf sk p ps a = Ok (wots_pkgen hf sk p ps a).
Proof. intros. unfold wots_pkgen_s. rewrite expand_seed_s_eq by lia. cbn [bind]. apply gen_chains_s_eq. lia. Qed.
Lemma wots_sign_s_eq : forall B hf m sk p ps a, digits_frame p + 224 <= B -> wots_sign_s B hf m sk p ps a = wots_sign hf m sk p ps a.
Proof.
  intros. unfold wots_sign_s, wots_sign. rewrite frame_ok by lia. apply bind_ext. intros b. rewrite expand_seed_s_eq by lia. cbn [bind]. apply gen_chains_s_eq. lia.
Qed.
Lemma wots_pkFromSig_s_eq : forall B hf sg m p ps a, digits_frame p + 224 <= B -> wots_pkFromSig_s B hf sg m p ps a = wots_pkFromSig hf sg m p ps a.
Proof.
  intros. unfold wots_pkFromSig_s, wots_pkFromSig. rewrite frame_ok by lia. apply bind_ext. intros b. apply gen_chains_s_eq. lia.
Qed.
Lemma l_tree_s_eq : forall B hf p pk ps a, 320 <= B -> l_tree_s B hf p pk ps a = l_tree hf p pk ps a.
Proof.
  intros B hf p pk ps a HB. unfold l_tree_s, l_tree. f_equal.
  generalize (pk, setTreeHeight a 0). generalize 0. generalize (w_len p) at 2 4. generalize (w_len p).
  induction n; intros l hg s; cbn [l_tree_loop_s l_tree_loop]; [reflexivity|]. destruct (l <=? 1)%nat; [reflexivity|].
  assert (E : l_tree_pass_s B hf (l / 2) ps s = l_tree_pass hf (l / 2) ps s).
  { unfold l_tree_pass_s, l_tree_pass. apply for_up_ext. intros i [pk' a']. cbv zeta. apply bind_ext. intros x. apply bind_ext. intros y.
    rewrite hash_h_s_eq by lia. cbn [bind]. destruct (hash_h _ _ _ _); reflexivity. }
  rewrite E. apply bind_ext. intros [pk' a']. apply bind_ext. intros [pk'' l']. apply IHn.
Qed.
(** The stack a leaf takes. *)
Definition leaf_need (p : xmss_params) : N := N.of_nat (w_keysize (x_wots p)) + 352.
Lemma gen_leaf_s_eq : forall B hf s p ps la oa, leaf_need p <= B -> gen_leaf_wots_s B hf s p ps la oa = gen_leaf_wots hf s p ps la oa.
Proof.
  unfold leaf_need. intros. unfold gen_leaf_wots_s, gen_leaf_wots. rewrite frame_ok by lia. rewrite get_seed_s_eq by lia. cbn [bind]. destruct (get_seed hf s oa) as [sd oa'].
  rewrite wots_pkgen_s_eq by lia. cbn [bind]. destruct (wots_pkgen hf sd (x_wots p) ps oa') as [pk oa'']. rewrite l_tree_s_eq by lia. reflexivity.
Qed.
Lemma validate_s_eq : forall B hf lf li ap h ps a, 384 <= B -> validate_authpath_s B hf lf li ap h ps a = validate_authpath hf lf li ap h ps a.
Proof.
  intros B hf lf li ap h ps a HB. unfold validate_authpath_s, validate_authpath. rewrite frame_ok by lia.
  set (B' := B - 2 * 32). assert (HB' : 320 <= B') by (unfold B'; lia). clearbody B'.
  assert (E : forall n i li bl br pos a, validate_loop_s B' hf n i li bl br ap pos ps a = validate_loop hf n i li bl br ap pos ps a).
  { induction n; intros; cbn [validate_loop_s validate_loop]; [reflexivity|]. cbv zeta. rewrite hash_h_s_eq by lia. cbn [bind].
    destruct (hash_h _ _ _ _) as [o a']. apply bind_ext. intros x. destruct (N.odd _); apply IHn. }
  apply bind_ext. intros x. rewrite !E. apply bind_ext. intros [[[li' bl] br] a']. cbv zeta. rewrite hash_h_s_eq by lia. reflexivity.
Qed.
(** The stack of a verification below xmss_Verifysig's own arrays. *)
Definition verify_need (p : wots_params) (msglen : N) : N :=
  N.of_nat (w_keysize p) + 320 + N.max (msglen + 128) (N.max (digits_frame p + 224) 384).
Lemma Verifysig_s_eq : forall B hf wp msg sig pk h, verify_need wp (N.of_nat (length msg)) <= B ->
  xmss_Verifysig_s B hf wp msg sig pk h = xmss_Verifysig hf wp msg sig pk h.
Proof.
  unfold verify_need. intros. unfold xmss_Verifysig_s, xmss_Verifysig. rewrite frame_ok by lia. cbv zeta. rewrite h_msg_s_eq by lia. cbn [bind].
  rewrite wots_pkFromSig_s_eq by lia. apply bind_ext. intros [wpk a]. rewrite l_tree_s_eq by lia. apply bind_ext. intros [ph a']. now rewrite validate_s_eq by lia.
Qed.
Lemma Verifysig_s_ub : forall B hf wp msg sig pk h, B < N.of_nat (w_keysize wp) + 448 + N.of_nat (length msg) ->
  xmss_Verifysig_s B hf wp msg sig pk h = UB.
Proof.
  intros. unfold xmss_Verifysig_s. set (f := N.of_nat (w_keysize wp) + 3 * 32 + 3 * 32 + 32 + 3 * 32).
  destruct (N.lt_ge_cases B f) as [L|L]; [now apply frame_ub|]. rewrite frame_ok by exact L. cbv zeta. unfold h_msg_s, core_hash_s. rewrite frame_ub; [reflexivity|]. unfold f in *. lia.
Qed.

(** ** Traversal *)
Lemma update_while_s_eq : forall B hf ni ps st lv, 320 <= B -> forall u off nd nh a,
  update_while_s B hf u ni ps st lv off nd nh a = update_while hf u ni ps st lv off nd nh a.
Proof.
  intros B hf ni ps st lv HB. induction u; intros; cbn [update_while_s update_while]; [reflexivity|]. destruct (off =? 0)%nat; [reflexivity|].
  apply bind_ext. intros l. destruct (negb (l =? nh)%nat); [reflexivity|]. apply bind_ext. intros x. cbv zeta. rewrite hash_h_s_eq by lia. cbn [bind].
  destruct (hash_h _ _ _ _) as [o a']. apply IHu.
Qed.
Lemma treehash_update_s_eq : forall B hf lv st s p ps a, leaf_need p + 160 <= B -> treehash_update_s B hf lv st s p ps a = treehash_update hf lv st s p ps a.
Proof.
  intros. assert (352 <= leaf_need p) by (unfold leaf_need; lia). unfold treehash_update_s, treehash_update. rewrite frame_ok by lia. apply bind_ext. intros th. cbv zeta. rewrite gen_leaf_s_eq by lia. apply bind_ext. intros [[lf la] oa].
  rewrite update_while_s_eq by lia. reflexivity.
Qed.
Lemma bds_treehash_update_s_eq : forall B hf s p ps a, leaf_need p + 160 <= B -> forall u st,
  bds_treehash_update_s B hf u st s p ps a = bds_treehash_update hf u st s p ps a.
Proof.
  intros B hf s p ps a HB. induction u; intros; cbn [bds_treehash_update_s bds_treehash_update]; [reflexivity|]. apply bind_ext. intros [lv lm].
  destruct (lv =? x_h p - x_k p)%nat; [reflexivity|]. rewrite treehash_update_s_eq by lia. apply bind_ext. auto.
Qed.
Lemma bds_round_s_eq : forall B hf st li s p ps a, leaf_need p + 160 <= B -> bds_round_s B hf st li s p ps a = bds_round hf st li s p ps a.
Proof.
  intros. assert (352 <= leaf_need p) by (unfold leaf_need; lia). unfold bds_round_s, bds_round. rewrite frame_ok by lia. cbv zeta. apply bind_ext. intros buf. apply bind_ext. intros kp.
  destruct (find_tau _ _ _ _ =? 0)%nat.
  - rewrite gen_leaf_s_eq by lia. reflexivity.
  - rewrite hash_h_s_eq by lia. cbn [bind]. destruct (hash_h _ _ _ _); reflexivity.
Qed.
Lemma bds_step_s_eq : forall B hf p s ps a j st, leaf_need p + 160 <= B -> bds_step_s B hf p s ps a j st = bds_step hf p s ps a j st.
Proof.
  intros. unfold bds_step_s, bds_step. rewrite bds_round_s_eq by lia. apply bind_ext. intros st'. apply bds_treehash_update_s_eq. lia.
Qed.
Lemma update_s_eq : forall B hf p sk st i, leaf_need p + 256 <= B -> xmssfast_update_s B hf p sk st i = xmssfast_update hf p sk st i.
Proof.
  intros. unfold xmssfast_update_s, xmssfast_update. rewrite frame_ok by lia. cbv zeta. destruct (_ <=? i); [reflexivity|]. destruct (i <? _); [reflexivity|].
  f_equal. apply for_from_ext. intros. apply bds_step_s_eq. lia.
Qed.
Lemma setIndex_s_eq : forall B x i, leaf_need (xb_params (xf_base x)) + 256 <= B -> xfast_setIndex_s B x i = xfast_setIndex x i.
Proof. intros. unfold xfast_setIndex_s, xfast_setIndex. apply with_hash_ext. intros hf. now rewrite update_s_eq. Qed.
Lemma Signmsg_s_eq : forall B hf p sk st m, leaf_need p + 512 <= B -> digits_frame (x_wots p) + 576 <= B -> N.of_nat (length m) + 480 <= B ->
  xmssfast_Signmsg_s B hf p sk st m = xmssfast_Signmsg hf p sk st m.
Proof.
  intros. assert (352 <= leaf_need p) by (unfold leaf_need; lia). unfold xmssfast_Signmsg_s, xmssfast_Signmsg. rewrite frame_ok by lia. cbv zeta. rewrite prf_s_eq by lia. cbn [bind]. rewrite h_msg_s_eq by lia. cbn [bind].
  rewrite get_seed_s_eq by lia. cbn [bind]. destruct (get_seed _ _ _) as [os oa]. rewrite wots_sign_s_eq by lia. apply bind_ext. intros [ws oa']. 
  rewrite bds_step_s_eq by lia. reflexivity.
Qed.
Lemma setIndex_params : forall x i y r, xfast_setIndex x i = Ok (y, r) -> xb_params (xf_base y) = xb_params (xf_base x).
Proof.
  intros x i y r. unfold xfast_setIndex, with_hash. destruct (hash_of_id _) as [hf|]; [|discriminate].
  destruct (xmssfast_update _ _ _ _ _) as [[[sk st] q]|e|]; cbn [bind]; [|discriminate|discriminate].
  destruct q; intro E; assert (E' := f_equal (fun r => match r with Ok (z, _) => xb_params (xf_base z) | _ => xb_params (xf_base x) end) E); symmetry; exact E'.
Qed.
Lemma sign_s_eq : forall B x m, let p := xb_params (xf_base x) in
  leaf_need p + 512 <= B -> digits_frame (x_wots p) + 576 <= B -> N.of_nat (length m) + 480 <= B ->
  xfast_sign_s B x m = xfast_sign x m.
Proof.
  intros B x m p H1 H2 H3. unfold xfast_sign_s, xfast_sign. cbv zeta. rewrite setIndex_s_eq by (fold p; lia).
  destruct (xfast_setIndex x (getIndex (xf_base x))) as [[y r]|e|] eqn:E; cbn [bind]; [|reflexivity|reflexivity]. apply setIndex_params in E.
  destruct r; [reflexivity|]. apply with_hash_ext. intros hf. rewrite Signmsg_s_eq; [reflexivity| | |]; rewrite ?E; assumption.
Qed.
Lemma Signmsg_s_ub : forall B hf p sk st m, B < N.of_nat (length m) + 480 -> xmssfast_Signmsg_s B hf p sk st m = UB.
Proof.
  intros. unfold xmssfast_Signmsg_s. destruct (N.lt_ge_cases B 352) as [L|L]; [now apply frame_ub|]. rewrite frame_ok by exact L. cbv zeta.
  assert (E : forall k, h_msg_s (B - (3 * 32 + 32 + 3 * 32 + 3 * 32 + 32)) hf m k = UB).
  { intros k. unfold h_msg_s, core_hash_s. apply frame_ub. lia. }
  unfold prf_s at 1, core_hash_s at 1. unfold frame at 1. destruct (_ <? 32 + 32 + 32); [reflexivity|]. cbn [bind]. rewrite E. reflexivity.
Qed.

(** ** XmssBasic *)
Lemma authpath_s_eq : forall B hf junk li s p ps a, 2 ^ (6 + N.of_nat (x_h p)) + 96 + leaf_need p <= B ->
  compute_authpath_wots_s B hf junk li s p ps a = compute_authpath_wots hf junk li s p ps a.
Proof.
  intros B hf junk li s p ps a H. rewrite N.pow_add_r in H. change (2 ^ 6) with 64 in H. assert (352 <= leaf_need p) by (unfold leaf_need; lia).
  unfold compute_authpath_wots_s, compute_authpath_wots. rewrite frame_ok by lia. set (B' := B - _). assert (HB : leaf_need p <= B') by (unfold B'; lia). clearbody B'. cbv zeta.
  destruct (26 <=? x_h p)%nat; [reflexivity|].
  erewrite for_up_ext; [apply bind_ext; intros [[t o] l] | intros i [[t o] l]; cbv zeta; rewrite gen_leaf_s_eq by exact HB; reflexivity].
  erewrite for_up_ext; [apply bind_ext; intros [t' na]; reflexivity|]. intros lv [t' na]. apply for_up_ext. intros j [t'' na']. cbv zeta.
  apply bind_ext; intros x. apply bind_ext; intros y. rewrite hash_h_s_eq by lia. cbn [bind]. destruct (hash_h _ _ _ _); reflexivity.
Qed.
Lemma basic_sign_s_eq : forall B junk o m, let p := xb_params o in
  2 ^ (6 + N.of_nat (x_h p)) + 480 + leaf_need p <= B -> digits_frame (x_wots p) + 608 <= B -> N.of_nat (length m) + 512 <= B ->
  XmssBasic_sign_s B junk o m = XmssBasic_sign junk o m.
Proof.
  intros B junk o m p H1 H2 H3. unfold XmssBasic_sign_s, XmssBasic_sign. apply with_hash_ext. intros hf. f_equal. unfold xmss_Signmsg_s, xmss_Signmsg.
  rewrite frame_ok by lia. cbv zeta. rewrite prf_s_eq by lia. cbn [bind]. rewrite h_msg_s_eq by lia. cbn [bind].
  rewrite get_seed_s_eq by lia. cbn [bind]. destruct (get_seed _ _ _) as [os oa]. fold p. rewrite wots_sign_s_eq by lia. apply bind_ext. intros [ws oa'].
  rewrite authpath_s_eq by lia. reflexivity.
Qed.
Definition no_exn {A} (m : res A) : Prop := forall e, m <> Exn e.
Lemma no_exn_bind : forall A B (m : res A) (k : A -> res B), no_exn m -> (forall a, no_exn (k a)) -> no_exn (bind m k).
Proof. intros A B [a|e|] k H H' e'; cbn [bind]; [apply H'|destruct (H e); reflexivity|discriminate]. Qed.
Lemma no_exn_ok : forall A (a : A), no_exn (Ok a). Proof. intros A a e. discriminate. Qed.
Lemma no_exn_ub : forall A, no_exn (@UB A). Proof. intros A e. discriminate. Qed.
Lemma no_exn_get : forall A (l : list A) i, no_exn (get l i).
Proof. intros A l i e. unfold get. destruct (nth_error l i); discriminate. Qed.
Lemma base_w_no_exn : forall p n inp pos t b, no_exn (base_w_loop n inp pos t b p).
Proof.
  intros p. induction n; intros; cbn [base_w_loop]; [apply no_exn_ok|]. apply no_exn_bind.
  - destruct (b =? 0)%nat; [|apply no_exn_ok]. apply no_exn_bind; [apply no_exn_get|]. intros; apply no_exn_ok.
  - intros [[t' p'] b']. destruct (_ <? _)%nat; [apply no_exn_ub|]. apply no_exn_bind; [apply IHn|]. intros; apply no_exn_ok.
Qed.
Lemma mapM_no_exn : forall A B (f : A -> res B) l, (forall a, no_exn (f a)) -> no_exn (mapM f l).
Proof.
  intros A B f l H. induction l; cbn [mapM]; [apply no_exn_ok|]. apply no_exn_bind; [apply H|]. intros b. apply no_exn_bind; [exact IHl|]. intros; apply no_exn_ok.
Qed.
Lemma frame_no_exn : forall A B n (k : N -> res A), (forall b, no_exn (k b)) -> no_exn (frame B n k).
Proof. intros A B n k H. unfold frame. destruct (B <? n); [apply no_exn_ub|apply H]. Qed.
Lemma core_no_exn : forall B hf t k kl i il, no_exn (core_hash_s B hf t k kl i il).
Proof. intros. apply frame_no_exn. intros; apply no_exn_ok. Qed.
Lemma hash_f_no_exn : forall B hf i ps a, no_exn (hash_f_s B hf i ps a).
Proof.
  intros. apply frame_no_exn. intros b. cbv zeta. apply no_exn_bind; [apply core_no_exn|]. intros. apply no_exn_bind; [apply core_no_exn|]. intros.
  apply no_exn_bind; [apply core_no_exn|]. intros; apply no_exn_ok.
Qed.
Lemma gen_chains_no_exn : forall B hf p ps jobs i a, no_exn (gen_chains_s B hf i jobs p ps a).
Proof.
  intros B hf p ps. induction jobs as [|[[c st] n] jobs IH]; intros; cbn [gen_chains_s]; [apply no_exn_ok|]. cbv zeta. apply no_exn_bind.
  - unfold gen_chain_s. generalize (setChainADRS a i). generalize c. generalize st. induction (N.to_nat n); intros; cbn [gen_chain_loop_s]; [apply no_exn_ok|].
    destruct (_ <? _); [|apply no_exn_ok]. cbv zeta. apply no_exn_bind; [apply hash_f_no_exn|]. intros [o' a']. apply IHn0.
  - intros [o a']. apply no_exn_bind; [apply IH|]. intros [os a'']. apply no_exn_ok.
Qed.
Lemma wots_sign_no_exn : forall B hf m sk p ps a, no_exn (wots_sign_s B hf m sk p ps a).
Proof.
  intros. apply frame_no_exn. intros b. apply no_exn_bind.
  - unfold wots_digits. apply no_exn_bind; [apply base_w_no_exn|]. intros d. cbv zeta. apply no_exn_bind; [apply base_w_no_exn|]. intros; apply no_exn_ok.
  - intros bw. apply no_exn_bind; [|intros; apply gen_chains_no_exn]. apply frame_no_exn. intros b'. apply mapM_no_exn. intros i. apply core_no_exn.
Qed.
Lemma bind_ub : forall A B (m : res A) (k : A -> res B), no_exn m -> (forall a, k a = UB) -> bind m k = UB.
Proof. intros A B [a|e|] k H H'; cbn [bind]; [apply H'|destruct (H e); reflexivity|reflexivity]. Qed.
Lemma basic_sign_s_ub : forall B junk o m,
  B < 2 ^ (6 + N.of_nat (x_h (xb_params o))) + 480 \/ B < N.of_nat (length m) + 512 -> XmssBasic_sign_s B junk o m = UB.
Proof.
  intros B junk o m H. rewrite N.pow_add_r in H. change (2 ^ 6) with 64 in H. unfold XmssBasic_sign_s, with_hash. destruct (hash_of_id (xb_hash o)) as [hf|]; [|reflexivity].
  assert (E : xmss_Signmsg_s B hf junk (xb_params o) (xb_sk o) m = UB); [|rewrite E; reflexivity]. unfold xmss_Signmsg_s.
  destruct (N.lt_ge_cases B 384) as [L|L]; [now apply frame_ub|]. rewrite frame_ok by exact L. cbv zeta.
  apply bind_ub; [apply core_no_exn|]. intros R. destruct (N.lt_ge_cases B (N.of_nat (length m) + 512)) as [Lm|Lm].
  - unfold h_msg_s at 1, core_hash_s at 1. rewrite frame_ub by lia. reflexivity.
  - apply bind_ub; [apply core_no_exn|]. intros mh. apply bind_ub.
    + apply frame_no_exn. intros b. cbv zeta. apply no_exn_bind; [apply core_no_exn|]. intros; apply no_exn_ok.
    + intros [os oa]. apply bind_ub; [apply wots_sign_no_exn|]. intros [ws oa']. unfold compute_authpath_wots_s. rewrite frame_ub by lia. reflexivity.
Qed.

(** ** Constructors *)
Lemma treehash_s_eq : forall B hf junk h s p ps a, leaf_need p + 96 + 34 * N.of_nat (h + 1) <= B -> treehash_s B hf junk h s p ps a = treehash hf junk h s p ps a.
Proof.
  intros B hf junk h s p ps a H. assert (352 <= leaf_need p) by (unfold leaf_need; lia).
  unfold treehash_s, treehash. rewrite frame_ok by lia. set (B' := B - _). assert (HB : leaf_need p <= B') by (unfold B'; lia). clearbody B'. cbv zeta.
  f_equal. apply for_up_ext. intros i [[[[[st lv] off] oa] la] na]. cbv zeta. rewrite gen_leaf_s_eq by exact HB. apply bind_ext. intros [[lf la'] oa']. apply bind_ext. intros st'.
  apply bind_ext. intros lv'. f_equal. generalize (S off) at 2 4. generalize st', lv', na. induction (S off); intros; cbn [treehash_while_s treehash_while].
  - destruct (_ <=? 1)%nat; [reflexivity|]. apply bind_ext; intros l1. apply bind_ext; intros l2. destruct (negb _); reflexivity.
  - destruct (_ <=? 1)%nat; [reflexivity|]. apply bind_ext; intros l1. apply bind_ext; intros l2. destruct (negb _); [reflexivity|]. cbv zeta.
    apply bind_ext; intros x. apply bind_ext; intros y. rewrite hash_h_s_eq by lia. cbn [bind]. destruct (hash_h _ _ _ _). apply bind_ext; intros. apply bind_ext; intros. apply IHn.
Qed.
Lemma setup_s_eq : forall B hf junk st s p ps a, leaf_need p + 96 + 36 * N.of_nat (x_h p + 1) <= B -> treehash_setup_s B hf junk st s p ps a = treehash_setup hf junk st s p ps a.
Proof.
  intros B hf junk st s p ps a H. assert (352 <= leaf_need p) by (unfold leaf_need; lia).
  unfold treehash_setup_s, treehash_setup. rewrite frame_ok by lia. set (B' := B - _). assert (HB : leaf_need p <= B') by (unfold B'; lia). clearbody B'. cbv zeta.
  apply bind_ext. intros ths. f_equal. apply for_up_ext. intros i [[[[[[[[sk lv] off] oa] la] na] au] th] rt]. cbv zeta. rewrite gen_leaf_s_eq by exact HB. apply bind_ext. intros [[lf la'] oa']. apply bind_ext. intros st'.
  apply bind_ext. intros lv'. apply bind_ext. intros th'. f_equal. generalize (S off) at 2 4. generalize st', lv', na, au, th', rt. induction (S off); intros; cbn [setup_while_s setup_while].
  - destruct (_ <=? 1)%nat; [reflexivity|]. apply bind_ext; intros l1. apply bind_ext; intros l2. destruct (negb _); reflexivity.
  - destruct (_ <=? 1)%nat; [reflexivity|]. apply bind_ext; intros l1. apply bind_ext; intros l2. destruct (negb _); [reflexivity|]. cbv zeta.
    apply bind_ext; intros x. apply bind_ext; intros [[au' th''] rt']. apply bind_ext; intros y. rewrite hash_h_s_eq by lia. cbn [bind]. destruct (hash_h _ _ _ _). apply bind_ext; intros. apply bind_ext; intros. apply IHn.
Qed.
