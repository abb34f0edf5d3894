(** Proofs about the PRF and message-hash calls in the logs of Trace.v and VerifyTrace.v. *)
From Coq Require Import List NArith Arith Lia Bool.
From Verif Require Import Base Bytes Keccak HashAddress Wots XmssCommon AlgsXmss AlgsXmssFast Descriptor XmssObj
  SpecXmss SpecApi SpecDomain SpecTweak SpecPrf XmssRefine Trace VerifyTrace TraceProofs.
Import ListNotations.
Open Scope nat_scope.

(** [P] holds of the log, if there is one. *)
Definition alw {A} (P : list hcall -> Prop) (m : tres A) : Prop := match m with Ok (_, l) => P l | _ => True end.
Lemma alw_bind : forall A B (P Q R : list hcall -> Prop) (m : tres A) (k : A -> tres B), (forall a b, P a -> Q b -> R (a ++ b)) ->
  alw P m -> (forall a, alw Q (k a)) -> alw R (tbind m k).
Proof.
  intros A B P Q R [[a l]|e|] k HR Hm Hk; cbn; auto. specialize (Hk a). destruct (k a) as [[b l']|e|]; cbn in *; auto.
Qed.
Lemma alw_mono : forall A (P Q : list hcall -> Prop) (m : tres A), (forall l, P l -> Q l) -> alw P m -> alw Q m.
Proof. intros A P Q [[a l]|e|] H; cbn; auto. Qed.
Lemma alw_for : forall S (P : list hcall -> Prop) f n a (s : S), P [] -> (forall a b, P a -> P b -> P (a ++ b)) ->
  (forall i s, alw P (f i s)) -> alw P (tfor_from n a f s).
Proof.
  intros S P f n. induction n; intros a s H0 HA Hf; cbn [tfor_from]; [exact H0|]. eapply alw_bind; [exact HA|apply Hf|]. intros s'. now apply IHn.
Qed.

(** Tweakable calls only. *)
Definition quiet (l : list hcall) : Prop := Forall (fun e => match e with EvF _ _ | EvH _ _ => True | _ => False end) l.
Lemma quiet_nil : quiet []. Proof. constructor. Qed.
Lemma quiet_app : forall a b, quiet a -> quiet b -> quiet (a ++ b).
Proof. intros a b Ha Hb. apply Forall_app. now split. Qed.
Lemma quiet_ret : forall A (a : A), alw quiet (tret a). Proof. intros. constructor. Qed.
Lemma quiet_lift : forall A (m : res A), alw quiet (tlift m). Proof. intros A [a|e|]; cbn; auto; constructor. Qed.
Lemma quiet_h : forall hf i ps a, alw quiet (hash_h_t hf i ps a). Proof. intros. repeat constructor. Qed.
Lemma quiet_f : forall hf i ps a, alw quiet (hash_f_t hf i ps a). Proof. intros. repeat constructor. Qed.
Lemma quiet_bind : forall A B (m : tres A) (k : A -> tres B), alw quiet m -> (forall a, alw quiet (k a)) -> alw quiet (tbind m k).
Proof. intros A B m k. apply alw_bind. apply quiet_app. Qed.
Lemma quiet_for : forall S f n a (s : S), (forall i s, alw quiet (f i s)) -> alw quiet (tfor_from n a f s).
Proof. intros. apply alw_for; auto using quiet_nil, quiet_app. Qed.
#[local] Hint Resolve quiet_ret quiet_lift quiet_h quiet_f : qq.
Ltac qs := repeat first
  [ exact I | solve [auto with qq] | apply quiet_bind; [|intros] | progress unfold tfor_up | apply quiet_for; intros
  | match goal with |- context [match ?p with (_, _) => _ end] => is_var p; destruct p end
  | match goal with |- alw quiet (if ?b then _ else _) => destruct b end ].

Lemma chain_quiet : forall hf p ps n i x a, alw quiet (gen_chain_loop_t hf n i x p ps a).
Proof. induction n; intros; cbn [gen_chain_loop_t]; qs. Qed.
#[local] Hint Resolve chain_quiet : qq.
Lemma chains_quiet : forall hf p ps jobs i a, alw quiet (gen_chains_t hf i jobs p ps a).
Proof. induction jobs as [|[[c s] n] t IH]; intros; cbn [gen_chains_t]; unfold gen_chain_t; qs. Qed.
#[local] Hint Resolve chains_quiet : qq.
Lemma ltree_loop_quiet : forall hf ps fuel l h s, alw quiet (l_tree_loop_t hf fuel l h ps s).
Proof. induction fuel; intros; cbn [l_tree_loop_t]; unfold l_tree_pass_t; qs. Qed.
#[local] Hint Resolve ltree_loop_quiet : qq.
Lemma ltree_quiet : forall hf p pk ps a, alw quiet (l_tree_t hf p pk ps a).
Proof. intros. unfold l_tree_t. qs. Qed.
#[local] Hint Resolve ltree_quiet : qq.
Lemma update_while_quiet : forall hf u ni ps stk lv off n nh a, alw quiet (update_while_t hf u ni ps stk lv off n nh a).
Proof. intros hf. induction u; intros; cbn [update_while_t]; qs. Qed.
Lemma treehash_while_quiet : forall hf fuel idx ps stk lv off na, alw quiet (treehash_while_t hf fuel idx ps stk lv off na).
Proof. intros hf. induction fuel; intros; cbn [treehash_while_t]; qs. Qed.
Lemma setup_while_quiet : forall hf fuel h k i ps stk lv off na au ths re, alw quiet (setup_while_t hf fuel h k i ps stk lv off na au ths re).
Proof. intros hf. induction fuel; intros; cbn [setup_while_t]; qs. Qed.
Lemma validate_loop_quiet : forall hf n i li bl br ap pos ps a, alw quiet (validate_loop_t hf n i li bl br ap pos ps a).
Proof. intros hf. induction n; intros; cbn [validate_loop_t]; qs. Qed.
#[local] Hint Resolve validate_loop_quiet : qq.
Lemma validate_authpath_quiet : forall hf lf li ap h ps a, alw quiet (validate_authpath_t hf lf li ap h ps a).
Proof. intros. unfold validate_authpath_t. qs. Qed.

(** ** Derivations are linked to a chain step of the same one-time key *)
Section Linked.
  Variables (hf : hashfn) (ssd : list N) (len : nat).

  (** [e] derives the secret at the OTS address with bytes [A], or a chain start from it. *)
  Definition derives_at (A : list N) (e : hcall) : Prop :=
    e = EvPrf ssd A \/ exists c, c < len /\ e = EvPrf (prf hf A ssd) (to_byte 32 (N.of_nat c)).
  Definition ots_bytes (A : list N) : Prop := exists a, a5 a = 0%N /\ a6 a = 0%N /\ a7 a = 0%N /\ A = addr_to_byte a.
  Definition linked (l : list hcall) : Prop :=
    msg_calls l = [] /\ forall e, In e (prf_calls l) -> exists A x, ots_bytes A /\ In (EvF A x) l /\ derives_at A e.

  Lemma msg_app : forall a b, msg_calls (a ++ b) = msg_calls a ++ msg_calls b.
  Proof. intros. apply filter_app. Qed.
  Lemma prf_app : forall a b, prf_calls (a ++ b) = prf_calls a ++ prf_calls b.
  Proof. intros. apply filter_app. Qed.
  Lemma linked_nil : linked []. Proof. split; [reflexivity|]. intros e []. Qed.
  Lemma linked_app : forall a b, linked a -> linked b -> linked (a ++ b).
  Proof.
    intros a b (A1 & A2) (B1 & B2). split; [now rewrite msg_app, A1, B1|]. intros e. rewrite prf_app. intros He. apply in_app_iff in He.
    destruct He as [He|He]; [destruct (A2 e He) as (A & x & H1 & H2 & H3)|destruct (B2 e He) as (A & x & H1 & H2 & H3)];
      exists A, x; (split; [exact H1|split; [apply in_app_iff; auto|exact H3]]).
  Qed.
  Lemma quiet_msg : forall l, quiet l -> msg_calls l = [].
  Proof. induction 1 as [|e l H _ IH]; [reflexivity|]. destruct e; try contradiction; exact IH. Qed.
  Lemma quiet_prf : forall l, quiet l -> prf_calls l = [].
  Proof. induction 1 as [|e l H _ IH]; [reflexivity|]. destruct e; try contradiction; exact IH. Qed.
  Lemma quiet_linked : forall l, quiet l -> linked l.
  Proof. intros l H. split; [now apply quiet_msg|]. rewrite quiet_prf by auto. intros e []. Qed.
  Lemma alw_quiet_linked : forall A (m : tres A), alw quiet m -> alw linked m.
  Proof. intros. eapply alw_mono; [|eassumption]. apply quiet_linked. Qed.

  Lemma linked_bind : forall A B (m : tres A) (k : A -> tres B), alw linked m -> (forall a, alw linked (k a)) -> alw linked (tbind m k).
  Proof. intros A B m k. apply alw_bind. apply linked_app. Qed.
  Lemma linked_for : forall S f n a (s : S), (forall i s, alw linked (f i s)) -> alw linked (tfor_from n a f s).
  Proof. intros. apply alw_for; auto using linked_nil, linked_app. Qed.

  Lemma expand_log : forall inseed, exists l cs, expand_seed_t hf inseed len = Ok (cs, l) /\ length cs = len /\ msg_calls l = [] /\
    forall e, In e (prf_calls l) -> exists c, c < len /\ e = EvPrf inseed (to_byte 32 (N.of_nat c)).
  Proof.
    intros inseed. unfold expand_seed_t.
    assert (G : forall n a, exists l cs, tmap (fun i => prf_t hf (to_byte 32 (N.of_nat i)) inseed) (seq a n) = Ok (cs, l) /\ length cs = n /\ msg_calls l = [] /\
      forall e, In e (prf_calls l) -> exists c, a <= c < a + n /\ e = EvPrf inseed (to_byte 32 (N.of_nat c))).
    { induction n; intros a; cbn [seq tmap].
      - exists [], []. repeat split. intros e [].
      - destruct (IHn (S a)) as (l & cs & E & L & M & P). unfold prf_t at 1. unfold tbind. cbn [bind]. rewrite E. cbn [bind].
        eexists. eexists. split; [reflexivity|]. rewrite app_nil_r. split; [cbn [length]; now rewrite L|]. split; [exact M|].
        intros e He. cbn [app prf_calls filter] in He. fold (prf_calls l) in He. destruct He as [<-|He]; [exists a; split; [lia|reflexivity]|].
        destruct (P e He) as (c & Hc & ->). exists c. split; [lia|reflexivity]. }
    destruct (G len 0) as (l & cs & E & L & M & P). exists l, cs. repeat (split; [assumption|]). intros e He. destruct (P e He) as (c & Hc & ->). exists c. split; [lia|reflexivity].
  Qed.
End Linked.

(** A leaf: the first step of the first chain is at the address the secret is derived with. *)
Lemma first_step : forall hf p ps a c rest r l, (2 <= w_w p)%N ->
  gen_chains_t hf 0 ((c, 0%N, (w_w p - 1)%N) :: rest) p ps a = Ok (r, l) ->
  exists x, In (EvF (addr_to_byte (setKeyAndMask (setHashADRS (setChainADRS a 0) 0) 0)) x) l.
Proof.
  intros hf p ps a c rest r l Hw. cbn [gen_chains_t]. unfold gen_chain_t.
  destruct (N.to_nat (w_w p - 1)) as [|k] eqn:Ek; [lia|]. cbn [gen_chain_loop_t]. rewrite (proj2 (N.ltb_lt 0 (w_w p))) by lia.
  unfold hash_f_t at 1. set (X := addr_to_byte (setKeyAndMask (setHashADRS (setChainADRS a 0) 0) 0)).
  destruct (hash_f hf c ps (setHashADRS (setChainADRS a 0) 0)) as [o1 a1'].
  unfold tbind at 2. cbn [bind]. destruct (gen_chain_loop_t hf k (0 + 1) o1 p ps a1') as [[[o2 a2] l2]|e|]; [|discriminate|discriminate].
  cbn [bind]. unfold tbind at 1. cbn [bind]. destruct (tbind _ _) as [[y ly]|e|]; [|discriminate|discriminate]. cbn [bind]. intros E.
  assert (El : l = ([EvF X c] ++ l2) ++ ly) by congruence. exists c. rewrite El. left. reflexivity.
Qed.

Lemma leaf_linked : forall hf ssd p ps la oa, (2 <= w_w (x_wots p))%N -> 1 <= w_len (x_wots p) ->
  alw (linked hf ssd (w_len (x_wots p))) (gen_leaf_wots_t hf ssd p ps la oa).
Proof.
  intros hf ssd p ps la oa Hw Hl. unfold gen_leaf_wots_t, get_seed_t, prf_t.
  set (a1' := setKeyAndMask (setHashADRS (setChainADRS oa 0) 0) 0). set (A := addr_to_byte a1').
  unfold wots_pkgen_t. destruct (expand_log hf (w_len (x_wots p)) (prf hf A ssd)) as (l1 & cs & E1 & L1 & M1 & P1).
  unfold tret at 1. unfold tbind at 2. cbn [bind]. unfold tbind at 1. cbn [bind].
  rewrite E1. unfold tbind at 2. cbn [bind].
  pose proof (chains_quiet hf (x_wots p) ps (map (fun c => (c, 0%N, (w_w (x_wots p) - 1)%N)) cs) 0 a1') as Q2.
  destruct cs as [|c cs]; [cbn [length] in L1; lia|]. cbn [map] in Q2 |- *.
  destruct (gen_chains_t hf 0 _ (x_wots p) ps a1') as [[[pk oa2] l2]|e|] eqn:E2; [|exact I|exact I].
  destruct (first_step _ _ _ _ _ _ _ _ Hw E2) as (x & Hx). cbn [alw] in Q2. cbn [bind].
  unfold tbind at 1. cbn [bind]. pose proof (ltree_quiet hf (x_wots p) pk ps la) as Q3.
  destruct (l_tree_t hf (x_wots p) pk ps la) as [[[lf la2] l3]|e|]; [|exact I|exact I]. cbn [alw] in Q3.
  unfold tbind. cbn [bind tret alw]. rewrite !app_nil_r.
  split.
  - rewrite !msg_app. cbn [msg_calls filter]. rewrite M1, (quiet_msg l2 Q2), (quiet_msg l3 Q3). reflexivity.
  - intros e He. rewrite !prf_app, (quiet_prf l2 Q2), (quiet_prf l3 Q3), !app_nil_r in He. exists A, x. split; [|split].
    + exists a1'. repeat split.
    + apply in_app_iff. right. apply in_app_iff. left. apply in_app_iff. right. exact Hx.
    + apply in_app_iff in He. destruct He as [[<-|[]]|He]; [now left|]. right. now apply P1.
Qed.

Section Tree.
  Variables (hf : hashfn) (ssd : list N) (p : xmss_params) (ps : list N).
  Hypothesis Hw : (2 <= w_w (x_wots p))%N.
  Hypothesis Hl : 1 <= w_len (x_wots p).
  Local Notation lk := (linked hf ssd (w_len (x_wots p))).

  Lemma lk_ret : forall A (a : A), alw lk (tret a). Proof. intros. apply linked_nil. Qed.
  Lemma lk_lift : forall A (m : res A), alw lk (tlift m). Proof. intros. apply alw_quiet_linked, quiet_lift. Qed.
  Lemma lk_h : forall hf' i ps a, alw lk (hash_h_t hf' i ps a). Proof. intros. apply alw_quiet_linked, quiet_h. Qed.
  Lemma lk_leaf : forall la oa, alw lk (gen_leaf_wots_t hf ssd p ps la oa). Proof. intros. now apply leaf_linked. Qed.
  Lemma lk_uw : forall u ni stk lv off n nh a, alw lk (update_while_t hf u ni ps stk lv off n nh a). Proof. intros. apply alw_quiet_linked, update_while_quiet. Qed.
  Lemma lk_tw : forall fuel idx stk lv off na, alw lk (treehash_while_t hf fuel idx ps stk lv off na). Proof. intros. apply alw_quiet_linked, treehash_while_quiet. Qed.
  Lemma lk_sw : forall fuel h k i stk lv off na au ths re, alw lk (setup_while_t hf fuel h k i ps stk lv off na au ths re). Proof. intros. apply alw_quiet_linked, setup_while_quiet. Qed.
  Hint Resolve lk_ret lk_lift lk_h lk_leaf lk_uw lk_tw lk_sw : lk.
  Ltac ls := repeat first
    [ exact I | solve [auto with lk] | apply linked_bind; [|intros] | progress unfold tfor_up | apply linked_for; intros
    | match goal with |- context [match ?p with (_, _) => _ end] => is_var p; destruct p end
    | match goal with |- alw _ (if ?b then _ else _) => destruct b end ].

  Lemma lk_update : forall lv st a, alw lk (treehash_update_t hf lv st ssd p ps a).
  Proof. intros. unfold treehash_update_t. ls. Qed.
  Hint Resolve lk_update : lk.
  Lemma lk_updates : forall n st a, alw lk (bds_treehash_update_t hf n st ssd p ps a).
  Proof. induction n; intros; cbn [bds_treehash_update_t]; ls. Qed.
  Hint Resolve lk_updates : lk.
  Lemma lk_round : forall st i a, alw lk (bds_round_t hf st i ssd p ps a).
  Proof. intros. unfold bds_round_t. ls. Qed.
  Hint Resolve lk_round : lk.
  Lemma lk_step : forall a j st, alw lk (bds_step_t hf p ssd ps a j st).
  Proof. intros. unfold bds_step_t. ls. Qed.
  Hint Resolve lk_step : lk.
  Lemma lk_authpath : forall junk i a, alw lk (compute_authpath_wots_t hf junk i ssd p ps a).
  Proof. intros. unfold compute_authpath_wots_t. ls. Qed.
  Lemma lk_treehash : forall junk h a, alw lk (treehash_t hf junk h ssd p ps a).
  Proof. intros. unfold treehash_t. ls. Qed.
  Lemma lk_setup : forall junk st a, alw lk (treehash_setup_t hf junk st ssd p ps a).
  Proof. intros. unfold treehash_setup_t. ls. Qed.
End Tree.

(** Calls of the API. *)
Lemma update_linked : forall hf p sk st i, (2 <= w_w (x_wots p))%N -> 1 <= w_len (x_wots p) ->
  alw (linked hf (slice 4 32 sk) (w_len (x_wots p))) (xmssfast_update_t hf p sk st i).
Proof.
  intros hf p sk st i Hw Hl. unfold xmssfast_update_t. destruct (_ <=? i)%N; [apply linked_nil|]. destruct (i <? _)%N; [apply linked_nil|].
  apply linked_bind; [|intros; apply linked_nil]. apply linked_for. intros. now apply lk_step.
Qed.

(** The log of one signature: the randomiser, the message hash, then derivations for the
    index signed with or linked to a leaf. *)
Definition signs (hf : hashfn) (ssd sprf root msg : list N) (len : nat) (idx : N) (A : list N) (l : list hcall) : Prop :=
  exists l', l = EvPrf sprf (to_byte 32 idx) :: EvMsg (prf hf (to_byte 32 idx) sprf ++ root ++ to_byte 32 idx) msg :: l' /\
    msg_calls l' = [] /\
    forall e, In e (prf_calls l') -> derives_at hf ssd len A e \/ exists A' x, ots_bytes A' /\ In (EvF A' x) l' /\ derives_at hf ssd len A' e.

Lemma wots_sign_log : forall hf m inseed p ps a, alw (fun l => msg_calls l = [] /\
    forall e, In e (prf_calls l) -> exists c, c < w_len p /\ e = EvPrf inseed (to_byte 32 (N.of_nat c))) (wots_sign_t hf m inseed p ps a).
Proof.
  intros hf m inseed p ps a. unfold wots_sign_t. destruct (wots_digits m p) as [ds|e|]; [|exact I|exact I].
  destruct (expand_log hf (w_len p) inseed) as (l1 & cs & E1 & L1 & M1 & P1). unfold tlift. cbn [bind]. unfold tbind at 1. cbn [bind]. rewrite E1.
  unfold tbind. cbn [bind].
  match goal with |- context [gen_chains_t hf 0 ?j p ps a] => pose proof (chains_quiet hf p ps j 0 a) as Q; destruct (gen_chains_t hf 0 j p ps a) as [[r l2]|e|] end; [|exact I|exact I].
  cbn [alw bind] in *. rewrite app_nil_l. split; [now rewrite msg_app, M1, (quiet_msg l2 Q)|]. rewrite prf_app, (quiet_prf l2 Q), app_nil_r. exact P1.
Qed.

Lemma Signmsg_signs : forall hf p sk st msg, (2 <= w_w (x_wots p))%N -> 1 <= w_len (x_wots p) ->
  let idx := from_be (slice 0 4 sk) in
  alw (signs hf (slice 4 32 sk) (slice 36 32 sk) (slice 100 32 sk) msg (w_len (x_wots p)) idx
        (addr_to_byte (setKeyAndMask (setHashADRS (setChainADRS (setOTSADRS (setType zero_adrs 0) idx) 0) 0) 0)))
    (xmssfast_Signmsg_t hf p sk st msg).
Proof.
  intros hf p sk st msg Hw Hl idx. unfold xmssfast_Signmsg_t. fold idx. unfold get_seed_t, prf_t, h_msg_t.
  set (oa := setKeyAndMask (setHashADRS (setChainADRS (setOTSADRS (setType zero_adrs 0) idx) 0) 0) 0).
  set (ssd := slice 4 32 sk). set (R := prf hf (to_byte 32 idx) (slice 36 32 sk)).
  unfold tret at 1. do 4 (unfold tbind at 1; cbn [bind]).
  match goal with |- context [wots_sign_t hf ?m ?s ?q ?ps oa] => pose proof (wots_sign_log hf m s q ps oa) as W; destruct (wots_sign_t hf m s q ps oa) as [[[ws oa2] l2]|e|] end; [|exact I|exact I].
  cbn [alw] in W. destruct W as (W1 & W2). cbn [bind]. unfold tbind at 1. cbn [bind]. unfold tbind at 1.
  assert (HB : alw (linked hf ssd (w_len (x_wots p))) (if (idx <? 2 ^ N.of_nat (x_h p) - 1)%N then bds_step_t hf p ssd (slice 68 32 sk) oa2 (N.to_nat idx) st else tret st)).
  { destruct (_ <? _)%N; [now apply lk_step|apply linked_nil]. }
  destruct (if (idx <? 2 ^ N.of_nat (x_h p) - 1)%N then bds_step_t hf p ssd (slice 68 32 sk) oa2 (N.to_nat idx) st else tret st) as [[st' l3]|e|]; [|exact I|exact I].
  cbn [alw] in HB. destruct HB as (B1 & B2). unfold tret. cbn [bind alw]. rewrite !app_nil_r.
  eexists. split; [reflexivity|]. cbn [app]. split.
  - change (msg_calls (?e :: l2 ++ l3)) with (msg_calls (l2 ++ l3)). cbn [msg_calls filter]. fold (msg_calls (l2 ++ l3)). now rewrite msg_app, W1, B1.
  - intros e He. cbn [prf_calls filter] in He. fold (prf_calls (l2 ++ l3)) in He. rewrite prf_app in He. destruct He as [<-|He]; [left; now left|]. apply in_app_iff in He. destruct He as [He|He].
    + left. right. destruct (W2 e He) as (c & Hc & ->). exists c. split; [exact Hc|reflexivity].
    + right. destruct (B2 e He) as (A' & x & H1 & H2 & H3). exists A', x. split; [exact H1|]. split; [|exact H3]. right. apply in_app_iff. now right.
Qed.

Lemma basic_Signmsg_signs : forall hf junk p sk msg, (2 <= w_w (x_wots p))%N -> 1 <= w_len (x_wots p) ->
  let idx := from_be (slice 0 4 sk) in
  alw (signs hf (slice 4 32 sk) (slice 36 32 sk) (slice 100 32 sk) msg (w_len (x_wots p)) idx
        (addr_to_byte (setKeyAndMask (setHashADRS (setChainADRS (setOTSADRS (setType zero_adrs 0) idx) 0) 0) 0)))
    (xmss_Signmsg_t hf junk p sk msg).
Proof.
  intros hf junk p sk msg Hw Hl idx. unfold xmss_Signmsg_t. fold idx. unfold get_seed_t, prf_t, h_msg_t.
  set (oa := setKeyAndMask (setHashADRS (setChainADRS (setOTSADRS (setType zero_adrs 0) idx) 0) 0) 0).
  set (ssd := slice 4 32 sk). set (R := prf hf (to_byte 32 idx) (slice 36 32 sk)).
  unfold tret at 1. do 4 (unfold tbind at 1; cbn [bind]).
  match goal with |- context [wots_sign_t hf ?m ?s ?q ?ps oa] => pose proof (wots_sign_log hf m s q ps oa) as W; destruct (wots_sign_t hf m s q ps oa) as [[[ws oa2] l2]|e|] end; [|exact I|exact I].
  cbn [alw] in W. destruct W as (W1 & W2). cbn [bind]. unfold tbind at 1. cbn [bind]. unfold tbind at 1.
  pose proof (lk_authpath hf ssd p (slice 68 32 sk) Hw Hl junk (N.to_nat idx) oa2) as HB.
  destruct (compute_authpath_wots_t hf junk (N.to_nat idx) ssd p (slice 68 32 sk) oa2) as [[[rt ap] l3]|e|]; [|exact I|exact I].
  cbn [alw] in HB. destruct HB as (B1 & B2). unfold tret. cbn [bind alw]. rewrite !app_nil_r.
  eexists. split; [reflexivity|]. cbn [app]. split.
  - cbn [msg_calls filter]. fold (msg_calls (l2 ++ l3)). now rewrite msg_app, W1, B1.
  - intros e He. cbn [prf_calls filter] in He. fold (prf_calls (l2 ++ l3)) in He. rewrite prf_app in He. destruct He as [<-|He]; [left; now left|]. apply in_app_iff in He. destruct He as [He|He].
    + left. right. destruct (W2 e He) as (c & Hc & ->). exists c. split; [exact Hc|reflexivity].
    + right. destruct (B2 e He) as (A' & x & H1 & H2 & H3). exists A', x. split; [exact H1|]. split; [|exact H3]. right. apply in_app_iff. now right.
Qed.

(** Verification: one message hash, and otherwise tweakable calls. *)
Lemma verify_log : forall msg sig epk w, alw (fun l => prf_calls l = [] /\
    (msg_calls l = [] \/ msg_calls l = [EvMsg (slice 4 32 sig ++ slice 0 32 (skipn 3 epk) ++ to_byte 32 (from_be (slice 0 4 sig))) msg]))
  (verify_t msg sig epk w).
Proof.
  intros msg sig epk w. unfold verify_t.
  assert (G : alw (fun l => prf_calls l = [] /\
    (msg_calls l = [] \/ msg_calls l = [EvMsg (slice 4 32 sig ++ slice 0 32 (skipn 3 epk) ++ to_byte 32 (from_be (slice 0 4 sig))) msg]))
    (verify_body_t msg sig epk w)).
  { unfold verify_body_t.
    assert (N0 : forall b, alw (fun l => prf_calls l = [] /\
      (msg_calls l = [] \/ msg_calls l = [EvMsg (slice 4 32 sig ++ slice 0 32 (skipn 3 epk) ++ to_byte 32 (from_be (slice 0 4 sig))) msg])) (@tret bool b)).
    { intros b. cbn. split; [reflexivity|now left]. }
    assert (LB : forall A (m : res A) (k : A -> tres bool) P, (forall a, alw P (k a)) -> alw P (tbind (tlift m) k)).
    { intros A m k P Hk. destruct m as [a|e|]; cbn; auto. specialize (Hk a). destruct (k a) as [[b l]|e|]; cbn in *; auto. }
    destruct (negb _); [exact I|]. apply LB. intros base. destruct (_ <? _)%N; [exact I|]. apply LB. intros desc. destruct (negb _); [apply N0|].
    apply LB. intros height. destruct (_ || _); [apply N0|]. destruct (bad_height height); [exact I|]. apply LB. intros p.
    unfold with_hash. destruct (hash_of_id _) as [hf|]; [|exact I]. unfold xmss_Verifysig_t, h_msg_t. unfold tbind at 1. cbn [bind].
    change descr_getSize with 3. unfold wots_pkFromSig_t.
    match goal with |- alw _ (bind ?m _) => assert (Q : alw quiet m) end.
    { repeat first [ exact I | apply quiet_ret | apply quiet_lift | apply chains_quiet | apply ltree_quiet | apply validate_authpath_quiet | apply quiet_bind; [|intros]
        | match goal with |- context [match ?p with (_, _) => _ end] => is_var p; destruct p end ]. }
    match goal with |- alw _ (bind ?m _) => destruct m as [[b l]|e|] end; [|exact I|exact I].
    cbn [alw bind] in *. cbn [app prf_calls msg_calls filter]. fold (prf_calls l) (msg_calls l). rewrite (quiet_prf l Q), (quiet_msg l Q). split; [reflexivity|].
    right. reflexivity. }
  destruct (verify_body_t msg sig epk w) as [[b l]|[] |]; cbn in *; auto.
Qed.
