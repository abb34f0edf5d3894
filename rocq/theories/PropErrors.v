(** C88: which exception class a Python or Go caller gets. *)
From Coq Require Import List NArith Arith Lia Bool.
From Verif Require Import Base Bytes Keccak KeccakLemmas HashAddress Wots XmssCommon AlgsXmss AlgsXmssFast Descriptor Wordlist SpecXmss SpecApi SpecMisc XmssObj Misc Pool PqWrapper
  XmssRefine BasicProofs FastProofs DescrProofs VerifyProofs PropObj PropMisc PropDescr PropCtor PropPq SpecPool PropPool PyErrors SpecErrors StackProofs.
Import ListNotations.
Open Scope nat_scope.

(** ** The handlers *)

(** Subclass relation of C++, independent of the model's search. *)
Inductive subclass : cpp_class -> cpp_class -> Prop :=
| sub_refl : forall c, subclass c c
| sub_base : forall c b d, base_class c = Some b -> subclass b d -> subclass c d.

Lemma catches_subclass : forall h c, catches 3 h c = true <-> subclass c h.
Proof.
  intros h c. split.
  - intros H. destruct c; cbn [catches base_class] in H;
      repeat match type of H with (if ?e then _ else _) = true => destruct e; [subst h|] end; try discriminate;
      repeat first [apply sub_refl | (eapply sub_base; [reflexivity|])].
  - intros H. assert (G : forall c d, subclass c d -> d = c \/ (exists b, base_class c = Some b /\ (d = b \/ base_class b = Some d))).
    { clear. induction 1 as [c|c b d E H IH]; [now left|]. right. exists b. split; auto. destruct IH as [->|(b' & E' & [->|E2])]; auto.
      exfalso. destruct c; try discriminate; injection E as <-; try discriminate; cbn in E'; injection E' as <-; discriminate. }
    destruct (G c h H) as [->|(b & E & [->|E2])]; cbn [catches].
    + destruct (class_eq_dec c c); congruence.
    + destruct (class_eq_dec b c); auto. rewrite E. cbn [catches]. destruct (class_eq_dec b b); congruence.
    + destruct (class_eq_dec h c); auto. rewrite E. destruct (class_eq_dec h b); auto. rewrite E2. destruct (class_eq_dec h h); congruence.
Qed.

(** Every exception is turned into exactly one Python error; in Go, whatever does
    not derive from std::exception ends the process. *)
Theorem C88_handlers : forall c,
  (first_handler python_handlers c = Some SwigValueError <-> subclass c CInvalidArgument) /\
  (first_handler python_handlers c = Some SwigRuntimeError <-> (subclass c CException /\ ~ subclass c CInvalidArgument)) /\
  (first_handler python_handlers c = Some SwigUnknownError <-> ~ subclass c CException) /\
  first_handler python_handlers c <> None /\
  (first_handler go_handlers c <> None <-> subclass c CException).
Proof.
  intros c. rewrite <- !catches_subclass. unfold python_handlers, go_handlers. cbn [first_handler].
  destruct c; cbn; intuition congruence.
Qed.
(** std::bad_alloc and std::system_error (a thread that cannot be started) become
    RuntimeError. *)
Example C88_out_of_memory : first_handler python_handlers CBadAlloc = Some SwigRuntimeError /\
  first_handler python_handlers CSystemError = Some SwigRuntimeError /\ first_handler python_handlers (CForeign 3) = Some SwigUnknownError /\
  first_handler go_handlers CBadAlloc = Some tt /\ first_handler go_handlers (CForeign 3) = None.
Proof. repeat split. Qed.

(** ** Functions that never throw *)
Lemma no_exn_set : forall A (l : list A) i a, no_exn (set l i a).
Proof. intros A l i a e. unfold set. destruct (i <? length l); discriminate. Qed.
Lemma no_exn_for : forall S (f : nat -> S -> res S) n a s, (forall i s, no_exn (f i s)) -> no_exn (for_from n a f s).
Proof.
  intros S f n. induction n as [|n IH]; intros a s H; cbn [for_from]; [apply no_exn_ok|]. apply no_exn_bind; auto.
Qed.
Lemma no_exn_for_up : forall S (f : nat -> S -> res S) n s, (forall i s, no_exn (f i s)) -> no_exn (for_up n f s).
Proof. intros. unfold for_up. now apply no_exn_for. Qed.
Lemma no_exn_forget : forall A (m : res A), no_exn m -> no_exn (forget m).
Proof. intros. unfold forget. apply no_exn_bind; auto. intros. apply no_exn_ok. Qed.
Lemma no_exn_with_hash : forall A id (k : hashfn -> res A), (forall hf, no_exn (k hf)) -> no_exn (with_hash id k).
Proof. intros. unfold with_hash. destruct (hash_of_id id); [auto|apply no_exn_ub]. Qed.

Ltac ne := repeat first
  [ simple apply no_exn_ok | simple apply no_exn_ub | simple apply no_exn_get | simple apply no_exn_set | simple apply base_w_no_exn | assumption
  | simple apply no_exn_for_up; intros | simple apply no_exn_with_hash; intros
  | simple apply no_exn_bind; [|intros]
  | match goal with
    | |- no_exn (let '(_, _) := ?p in _) => destruct p
    | |- no_exn (if ?b then _ else _) => destruct b
    | |- no_exn (match ?x with _ => _ end) => destruct x
    end
  | progress cbv zeta ].

Lemma digits_no_exn : forall m p, no_exn (wots_digits m p).
Proof. intros. unfold wots_digits, base_w. ne. Qed.
Lemma l_tree_no_exn : forall hf p pk ps a, no_exn (l_tree hf p pk ps a).
Proof.
  assert (G : forall hf f l h ps s, no_exn (l_tree_loop hf f l h ps s)).
  { intros hf f. induction f as [|f IH]; intros l h ps s; cbn [l_tree_loop]; destruct (l <=? 1); try apply no_exn_ok; [apply no_exn_ub|].
    apply no_exn_bind; [unfold l_tree_pass; ne|]. intros [pk a]. apply no_exn_bind; [ne|]. intros [pk' l']. apply IH. }
  intros. unfold l_tree. apply no_exn_bind; [apply G|]. intros []. ne.
Qed.
Lemma gen_leaf_no_exn : forall hf s p ps la oa, no_exn (gen_leaf_wots hf s p ps la oa).
Proof. intros. unfold gen_leaf_wots. ne. apply l_tree_no_exn. Qed.
Lemma params_no_exn : forall w, no_exn (wots_set_params w).
Proof. intros. unfold wots_set_params. ne. Qed.
Lemma xparams_no_exn : forall h w k, no_exn (xmss_set_params h w k).
Proof. intros. unfold xmss_set_params. ne. apply params_no_exn. Qed.
Lemma base_size_no_exn : forall w, no_exn (calculateSignatureBaseSize w).
Proof. intros. unfold calculateSignatureBaseSize. ne. apply params_no_exn. Qed.
Lemma validate_no_exn : forall hf leaf i ap h ps a, no_exn (validate_authpath hf leaf i ap h ps a).
Proof.
  assert (G : forall hf n i l bl br ap pos ps a, no_exn (validate_loop hf n i l bl br ap pos ps a)).
  { intros hf n. induction n as [|n IH]; intros; cbn [validate_loop]; ne; apply IH. }
  intros. unfold validate_authpath. ne; apply G.
Qed.
Lemma verifysig_no_exn : forall hf wp m s pk h, no_exn (xmss_Verifysig hf wp m s pk h).
Proof.
  intros. unfold xmss_Verifysig. cbv zeta. apply no_exn_bind.
  { unfold wots_pkFromSig. apply no_exn_bind; [apply digits_no_exn|]. intros; apply no_exn_ok. }
  intros [wpk a]. apply no_exn_bind; [apply l_tree_no_exn|]. intros [x a']. apply no_exn_bind; [apply validate_no_exn|]. intros; apply no_exn_ok.
Qed.
Lemma authpath_no_exn : forall hf junk i s p ps a, no_exn (compute_authpath_wots hf junk i s p ps a).
Proof. intros. unfold compute_authpath_wots. ne. apply gen_leaf_no_exn. Qed.
Lemma basic_sign_no_exn : forall junk o m, no_exn (XmssBasic_sign junk o m).
Proof.
  intros. unfold XmssBasic_sign. apply no_exn_with_hash. intros hf. apply no_exn_bind; [|intros []; apply no_exn_ok].
  unfold xmss_Signmsg. cbv zeta. destruct (get_seed _ _ _). apply no_exn_bind.
  { unfold wots_sign. apply no_exn_bind; [apply digits_no_exn|]. intros; apply no_exn_ok. }
  intros [ws a']. apply no_exn_bind; [apply authpath_no_exn|]. intros []; apply no_exn_ok.
Qed.

(** [only_ia m]: the only exception [m] can throw is std::invalid_argument. *)
Definition only_ia {A} (m : res A) : Prop := m <> Exn RuntimeError.
Lemma ia_bind : forall A B (m : res A) (k : A -> res B), only_ia m -> (forall a, only_ia (k a)) -> only_ia (bind m k).
Proof. intros A B [a|[|]|] k H H'; cbn [bind]; [apply H'|discriminate|contradiction|discriminate]. Qed.
Lemma ia_no_exn : forall A (m : res A), no_exn m -> only_ia m.
Proof. intros A m H. apply H. Qed.
Lemma ia_exn : forall A, only_ia (@Exn A InvalidArgument).
Proof. discriminate. Qed.
Lemma ia_ok : forall A (a : A), only_ia (Ok a).
Proof. discriminate. Qed.

Lemma fromBytes_ia : forall b, only_ia (descr_fromBytes b).
Proof. intros [|? [|? [|? [|]]]]; discriminate. Qed.
Lemma verify_no_exn : forall m s pk w, no_exn (verify m s pk w).
Proof.
  intros. unfold verify. assert (H : only_ia (verify_body m s pk w)).
  { unfold verify_body. destruct (negb _); [apply ia_exn|]. apply ia_bind; [apply ia_no_exn, base_size_no_exn|]. intros base.
    destruct (_ <? _)%N; [apply ia_exn|]. apply ia_bind.
    { unfold descr_fromExtendedPK. destruct (negb _); [apply ia_exn|apply fromBytes_ia]. }
    intros d. destruct (negb _); [apply ia_ok|]. apply ia_bind.
    { unfold getHeightFromSigSize. apply ia_bind; [apply ia_no_exn, base_size_no_exn|]. intros b.
      destruct (_ <? _)%N; [apply ia_exn|]. destruct (negb _); [apply ia_exn|apply ia_ok]. }
    intros h. destruct (_ || _)%bool; [apply ia_ok|]. destruct (bad_height h); [apply ia_exn|].
    apply ia_bind; [apply ia_no_exn, xparams_no_exn|]. intros p. apply ia_no_exn, no_exn_with_hash. intros hf. apply verifysig_no_exn. }
  intros e. destruct (verify_body m s pk w) as [a|[|]|]; try discriminate. contradiction.
Qed.
Lemma address_valid_no_exn : forall a, no_exn (addressIsValid a).
Proof. intros a e. unfold addressIsValid. destruct (addressIsValid_body a); discriminate. Qed.
Lemma hex_no_exn : forall v wrap, no_exn (bin2hstr v wrap).
Proof.
  intros v wrap. unfold bin2hstr. generalize 0%N. induction v as [|b v IH]; intros c; cbn [bin2hstr_loop]; ne; apply IH.
Qed.
Lemma mnemonic_loop_no_exn : forall f v n s, no_exn (bin2mnemonic_loop f v n s).
Proof. induction f as [|f IH]; intros; cbn [bin2mnemonic_loop]; ne. apply IH. Qed.
Lemma hash_chain_no_exn : forall s sh n, no_exn (getHashChainSeed s sh n).
Proof.
  assert (G : forall p v b, no_exn (store_le32 p v b)) by (intros; unfold store_le32; ne).
  intros. unfold getHashChainSeed. apply no_exn_bind; auto. generalize (N.to_nat n), (length s + 4). generalize 0%N. clear s sh n.
  intros i n p a. revert i a. induction n as [|n IH]; intros i a; cbn [hash_chain_loop]; ne; auto. 
Qed.
Lemma read_c_no_exn : forall k b, no_exn (read_c k b).
Proof. intros. unfold read_c. ne. Qed.

(** ** The theorem *)
Lemma forget_ia : forall A (m : res A), forget m = Exn InvalidArgument <-> m = Exn InvalidArgument.
Proof. intros A [a|[|]|]; cbn; split; congruence. Qed.
Lemma forget_rt : forall A (m : res A), forget m = Exn RuntimeError <-> m = Exn RuntimeError.
Proof. intros A [a|[|]|]; cbn; split; congruence. Qed.
Lemma wrong_height_iff : forall h, wrong_height h <-> (254 < h \/ ~ tree_height h)%N.
Proof.
  intros h. unfold wrong_height, tree_height. rewrite <- N.negb_even. destruct (N.even h); cbn; split; intros H.
  - destruct H as [H|[H|H]]; try discriminate; [right; lia|now left].
  - destruct H as [H|H]; [auto|]. left. destruct (N.lt_ge_cases h 4); auto. exfalso. apply H. split; auto; lia.
  - right. intros (_ & F). discriminate.
  - auto.
Qed.
Lemma tree_seed_len : forall s, length (shake256 48 s) = 48.
Proof. intros. apply shake256_length. Qed.

Lemma used_fast : forall x, used_object x -> exists h sig, xb_height (xf_base x) = N.of_nat h /\
  forall op, exists y, step x op = Ok (y, snd (ref_step h sig (getIndex (xf_base x)) op)).
Proof.
  intros x (junk & seed & height & hash & fmt & x0 & cs & os & E0 & Er).
  destruct (C60_fast_constructor junk seed height hash fmt) as ((K & _) & _). destruct (K (ex_intro _ x0 E0)) as (Hs & (Hh1 & Hh2) & Hh3 & (hf & Hhf)).
  assert (HS : supported hash hf 16 w16 (N.to_nat height) seed).
  { repeat split; auto; try lia. rewrite <- (N2Nat.id height) in Hh2. rewrite N.even_spec in Hh2. apply Nat.even_spec. destruct Hh2 as (y & Ey). exists (N.to_nat y). lia. }
  pose proof (cfg_of _ _ _ _ _ _ fmt HS) as HC. set (c := mkCfg hf hash 16 fmt (N.to_nat height) seed) in *.
  destruct (new_run _ _ _ _ fmt HS junk) as (x1 & E1 & HR). rewrite N2Nat.id in E1. rewrite E0 in E1. apply Ok_inj in E1. subst x1.
  destruct (HR cs) as (y0 & Er0 & HI). rewrite Er in Er0. injection Er0 as <- _.
  pose proof (inv_getIndex _ _ _ _ _ HS _ _ HI) as Ei. rewrite Ei.
  exists (N.to_nat height), (c_sig c w16). split.
  - destruct HI as (Eb & _). rewrite Eb. reflexivity.
  - intros op. destruct (step_spec c w16 HC x _ op HI) as (y & Ey & _). exists y. exact Ey.
Qed.
Lemma python_class : forall A (r : res A),
  (python r = PyRaises SwigValueError <-> r = Exn InvalidArgument) /\
  (python r = PyRaises SwigRuntimeError <-> r = Exn RuntimeError) /\
  python r <> PyRaises SwigUnknownError /\ python r <> PyEscapes /\
  (go r = GoPanics <-> exists e, r = Exn e) /\ go r <> GoAborts.
Proof.
  intros A [a|[|]|]; cbn; repeat split; intros H; try discriminate; try reflexivity; try (destruct H; discriminate);
    try (now exists InvalidArgument); now exists RuntimeError.
Qed.
Lemma none_bad : forall A (m : res A), no_exn m -> (forget m = Exn InvalidArgument <-> False) /\ (forget m = Exn RuntimeError <-> False).
Proof. intros A m H. pose proof (no_exn_forget _ m H) as G. split; split; intros E; try contradiction; exact (G _ E). Qed.
Lemma outcome_bad : forall A (m : res A) P Q R, outcome m P Q R -> only_ia m ->
  (forget m = Exn InvalidArgument <-> Q) /\ (forget m = Exn RuntimeError <-> False).
Proof. intros A m P Q R (_ & H & _) HI. rewrite forget_ia, forget_rt. split; auto. split; intros E; [apply HI, E|contradiction]. Qed.
Lemma dec_bad : forall A (m : res A) Q, only_ia m -> (m = Exn InvalidArgument <-> Q) ->
  (forget m = Exn InvalidArgument <-> Q) /\ (forget m = Exn RuntimeError <-> False).
Proof. intros A m Q HI H. rewrite forget_ia, forget_rt. split; auto. split; intros E; [apply HI, E|contradiction]. Qed.
Lemma ends_ia : forall A (m : res A) P Q R, outcome m P Q R -> P \/ Q \/ R -> only_ia m.
Proof.
  intros A m P Q R (H1 & H2 & H3) [H|[H|H]] E; subst.
  - apply H1 in H. destruct H. discriminate.
  - apply H2 in H. discriminate.
  - apply H3 in H. discriminate.
Qed.

Lemma known_dec : forall id, known_hash id \/ ~ known_hash id.
Proof. intros id. unfold known_hash. destruct (hash_of_id id) as [hf|]; [left; now exists hf|right; intros (hf & E); discriminate]. Qed.
Lemma tree_height_dec : forall h, tree_height h \/ ~ tree_height h.
Proof. intros h. unfold tree_height. destruct (N.even h); [|right; intros (_ & E); discriminate]. destruct (N.lt_ge_cases h 4); [right; lia|left; auto]. Qed.
Lemma ctor_cases : forall (seed : list N) height hash,
  (length seed = 48 /\ tree_height height /\ (height <= 30)%N /\ known_hash hash) \/
  (length seed <> 48 \/ (254 < height)%N \/ ~ tree_height height) \/
  (length seed = 48 /\ (height <= 254)%N /\ tree_height height /\ ((30 < height)%N \/ ~ known_hash hash)).
Proof.
  intros seed height hash. destruct (Nat.eq_dec (length seed) 48); [|tauto]. destruct (tree_height_dec height); [|tauto].
  destruct (N.lt_ge_cases 254 height); [tauto|]. destruct (N.lt_ge_cases 30 height); [tauto|]. destruct (known_dec hash); tauto.
Qed.
Lemma index_of_in : forall l w, In w l <-> exists i, index_of l w = Some i.
Proof.
  induction l as [|x l IH]; intros w; cbn [index_of In]; [split; [contradiction|intros (i & E); discriminate]|].
  destruct (list_eq_dec N.eq_dec x w) as [->|ne]; [split; eauto|]. rewrite IH. split.
  - intros [E|(i & E)]; [contradiction|]. rewrite E. eauto.
  - intros (i & E). destruct (index_of l w) as [j|]; [right; eauto|discriminate].
Qed.
Lemma indices_none : forall ws, indices ws = None <-> ~ Forall (fun w => In w wordlist) ws.
Proof.
  induction ws as [|w ws IH]; cbn [indices].
  - split; [discriminate|]. intros H. exfalso. apply H. constructor.
  - destruct (index_of wordlist w) as [i|] eqn:E.
    + assert (Hin : In w wordlist). { apply index_of_in. exists i. exact E. }
      destruct (indices ws) as [l|].
      * split; [discriminate|]. intros H. exfalso. assert (F : ~ Forall (fun w => In w wordlist) ws) by (intros F; apply H; now constructor).
        apply IH in F. discriminate.
      * split; auto. intros _ F. inversion F; subst. apply (proj1 IH); auto.
    + split; auto. intros _ F. inversion F as [|? ? Hin _]; subst. apply index_of_in in Hin. destruct Hin as (i & Ei). congruence.
Qed.

(** C88.  Python callers get ValueError exactly for invalid arguments, RuntimeError
    exactly when the random device fails, and nothing else; Go callers a panic in
    the same cases. *)
Theorem C88_python_errors : forall c, in_domain c ->
  (python (action c) = PyRaises SwigValueError <-> bad_argument c) /\
  (python (action c) = PyRaises SwigRuntimeError <-> device_fails c) /\
  python (action c) <> PyRaises SwigUnknownError /\ python (action c) <> PyEscapes /\
  (go (action c) = GoPanics <-> bad_argument c \/ device_fails c) /\ go (action c) <> GoAborts.
Proof.
  intros c D. destruct (python_class unit (action c)) as (K1 & K2 & K3 & K4 & K5 & K6).
  assert (G : (action c = Exn InvalidArgument <-> bad_argument c) /\ (action c = Exn RuntimeError <-> device_fails c)).
  2:{ destruct G as (G1 & G2). rewrite K1, K2, K5, G1, G2. repeat split; auto.
      - intros (e & E). destruct e; [left; now apply G1|right; now apply G2].
      - intros [H|H]; [apply G1 in H|apply G2 in H]; eauto. }
  clear K1 K2 K3 K4 K5 K6. destruct c; cbn [action bad_argument device_fails in_domain] in *; try apply none_bad.
  - (* NewFast *) rewrite wrong_height_iff.
    pose proof (C60_fast_constructor junk seed height hash fmt) as HO.
    eapply outcome_bad; [exact HO|]. eapply ends_ia; [exact HO|apply ctor_cases].
  - (* NewFastExtended *)
    pose proof (C60_extended_seed_constructor junk eseed D) as HO. cbv zeta in HO.
    assert (EQ : (length eseed <> 51 \/ (nth 1 eseed 0 mod 16 < 2)%N) <-> (length eseed <> 51 \/ (2 * (nth 1 eseed 0 mod 16) < 4)%N)) by lia.
    rewrite EQ. eapply outcome_bad; [exact HO|]. eapply ends_ia; [exact HO|].
    destruct (Nat.eq_dec (length eseed) 51); [|tauto]. destruct (N.lt_ge_cases (2 * (nth 1 eseed 0%N mod 16)) 4); [tauto|].
    destruct (known_dec (nth 0 eseed 0%N mod 16)); tauto.
  - (* NewBasic *) destruct D as (wp & Hw). rewrite wrong_height_iff.
    pose proof (C60_basic_constructor junk seed height hash fmt w wp Hw) as HO.
    eapply outcome_bad; [exact HO|]. eapply ends_ia; [exact HO|apply ctor_cases].
  - (* FastCall *)
    destruct (used_fast x D) as (h & sig & Eh & Hs). destruct (Hs c) as (y & E). rewrite Eh. unfold forget_obs. rewrite E. cbn [bind snd].
    destruct c as [m|j]; cbn [ref_step].
    + destruct (_ <? _)%N eqn:El; cbn [snd].
      * apply N.ltb_lt in El. split; split; intros H; try discriminate; [lia|contradiction].
      * apply N.ltb_ge in El. split; split; intros H; try discriminate; auto. contradiction.
    + destruct (_ && _)%bool eqn:El; cbn [snd].
      * apply andb_true_iff in El. destruct El as (L1 & L2). apply N.ltb_lt in L1. apply N.leb_le in L2. split; split; intros H; try discriminate; [lia|contradiction].
      * split; split; intros H; try discriminate; auto; try contradiction. apply andb_false_iff in El. destruct El as [L|L]; [apply N.ltb_ge in L|apply N.leb_gt in L]; auto.
  - (* BasicSign *) apply basic_sign_no_exn.
  - (* BasicSetIndex *) apply no_exn_ok.
  - (* ObjAddress *)
    assert (L : length (getPK o) = 67).
    { unfold getPK, getDescriptorBytes, descr_getBytes, getRoot, getPKSeed, slice. rewrite !app_length, !firstn_length, !skipn_length, D. reflexivity. }
    unfold obj_getAddress, getAddress, descr_fromExtendedPK. rewrite L. cbn [Nat.eqb negb].
    assert (F : firstn descr_getSize (getPK o) = descr_getBytes (getDescriptor o)) by reflexivity. rewrite F, decode_encode. cbn [bind d_fmt getDescriptor].
    unfold SHA256_2X. destruct (_ =? 0)%N eqn:Ef; cbn [negb]; split; split; intros H; try discriminate; try contradiction; auto.
    + apply N.eqb_eq in Ef. congruence.
    + apply N.eqb_neq in Ef. exact Ef.
  - (* PoolTree *) rewrite wrong_height_iff. unfold prepareTree.
    pose proof (C60_fast_constructor junk (shake256 48 (tree_seed_input base_seed index)) height 1 0) as HO. rewrite tree_seed_len in HO.
    pose proof (ctor_cases (shake256 48 (tree_seed_input base_seed index)) height 1) as HC. rewrite tree_seed_len in HC.
    assert (EQ : (254 < height \/ ~ tree_height height)%N <-> (48 <> 48 \/ (254 < height)%N \/ ~ tree_height height)) by (split; [tauto|intros [H|H]; [congruence|exact H]]).
    rewrite EQ. eapply outcome_bad; [exact HO|]. eapply ends_ia; [exact HO|exact HC].
  - apply verify_no_exn.
  - unfold getSignatureSize. apply no_exn_bind; [apply base_size_no_exn|]. intros; apply no_exn_ok.
  - (* HeightOfSize *) destruct D as (((l & l1) & l2) & Hw).
    assert (EQ : (exists l l1 l2, winternitz w = Some (l, l1, l2) /\ (size < 36 + 32 * N.of_nat (l1 + l2) \/ size mod 32 <> 4)%N) <->
                 (size < 36 + 32 * N.of_nat (l1 + l2) \/ size mod 32 <> 4)%N).
    { split; [|intros H; exists l, l1, l2; auto]. intros (a & b & d & E & H). rewrite Hw in E. injection E as <- <- <-. exact H. }
    rewrite EQ. destruct (C16_height_from_size w _ (N.to_nat size) Hw) as (A & B). cbn [fst snd] in A, B. rewrite N2Nat.id in A, B.
    assert (M : (size mod 32 = 4)%N <-> N.to_nat size mod 32 = 4).
    { rewrite <- (Nat2N.id (N.to_nat size mod 32)), Nat2N.inj_mod, N2Nat.id. lia. }
    apply dec_bad.
    + unfold getHeightFromSigSize. apply ia_bind; [apply ia_no_exn, base_size_no_exn|]. intros b.
      destruct (_ <? _)%N; [apply ia_exn|]. destruct (negb _); [apply ia_exn|apply ia_ok].
    + split.
      * intros E. destruct (N.lt_ge_cases size (36 + 32 * N.of_nat (l1 + l2))) as [|Hge]; [now left|]. right. intros E4. apply M in E4.
        rewrite B in E by (auto; lia). discriminate.
      * intros [H|H]; apply A; [left; lia|right]. intros E. apply H, M, E.
  - (* AddressOf *) destruct (C11_generated_addresses_valid pk D) as (A & _). apply dec_bad; auto.
    unfold getAddress. apply ia_bind.
    { unfold descr_fromExtendedPK. destruct (negb _); [apply ia_exn|apply fromBytes_ia]. }
    intros d. destruct (negb _); [apply ia_exn|apply ia_ok].
  - apply address_valid_no_exn.
  - (* DescrBytes *) destruct b as [|? [|? [|? [|? ?]]]]; cbn; split; split; intros H; try discriminate; try contradiction; try lia; reflexivity.
  - (* DescrSeed *) unfold descr_fromExtendedSeed. destruct (length es =? 51) eqn:E; cbn [negb].
    + apply Nat.eqb_eq in E. destruct es as [|? [|? [|? ?]]]; try discriminate E. cbn. split; split; intros H; try discriminate; try contradiction; try (cbn in E; lia).
    + apply Nat.eqb_neq in E. cbn. split; split; intros H; try discriminate; try contradiction; auto.
  - unfold descr_fromExtendedPK. destruct (length pk =? 67) eqn:E; cbn [negb].
    + apply Nat.eqb_eq in E. destruct pk as [|? [|? [|? ?]]]; try discriminate E. cbn. split; split; intros H; try discriminate; try contradiction; try (cbn in E; lia).
    + apply Nat.eqb_neq in E. cbn. split; split; intros H; try discriminate; try contradiction; auto.
  - apply hex_no_exn.
  - (* FromHex *) destruct D as (D1 & D2). destruct (C02_hex_decoder s D1 D2) as (A & B).
    assert (Dh : Forall is_hex s \/ ~ Forall is_hex s).
    { destruct (Forall_dec is_hex (fun c => in_dec N.eq_dec c _) s); auto. }
    destruct (Nat.even (length s)) eqn:Ee.
    2:{ rewrite B by (intros (F & _); discriminate). cbn. split; split; intros H; try discriminate; try contradiction; auto. }
    destruct Dh as [F|F].
    + destruct (A (conj eq_refl F)) as (v & Ev & _). rewrite Ev. cbn. split; split; intros H; try discriminate; try contradiction. destruct H; [discriminate|contradiction].
    + rewrite B by tauto. cbn. split; split; intros H; try discriminate; try contradiction; auto.
  - (* ToMnemonic *) unfold bin2mnemonic. destruct (length v mod 3 =? 0) eqn:E; cbn [negb].
    + apply Nat.eqb_eq in E. pose proof (no_exn_forget _ _ (mnemonic_loop_no_exn (S (length v * 2)) v 0 [])) as H0.
      split; split; intros H; try (exfalso; exact (H0 _ H)); contradiction.
    + apply Nat.eqb_neq in E. cbn. split; split; intros H; try discriminate; try contradiction; auto.
  - (* FromMnemonic *) rewrite C05_mnemonic_decoder. destruct (Nat.even (blanks s)).
    + cbn. split; split; intros H; try discriminate; try contradiction; auto.
    + pose proof (indices_none (words s)) as HN. destruct (indices (words s)) as [ds|]; cbn.
      * split; split; intros H; try discriminate; try contradiction. destruct H as [H|H]; [discriminate|]. apply HN in H. discriminate.
      * split; split; intros H; try discriminate; try contradiction; auto. right. now apply HN.
  - (* RandomSeed *) unfold getRandomSeed. destruct dev as [got|]; [|cbn; split; split; intros H; try discriminate; auto; contradiction].
    destruct (_ <? _)%N eqn:E; cbn; [apply N.ltb_lt in E|apply N.ltb_ge in E]; split; split; intros H; try discriminate; try contradiction; auto. lia.
  - apply hash_chain_no_exn.
  - (* Sha2N *) destruct (N.eq_dec count 0) as [->|Hn]; [cbn; split; split; intros H; try discriminate; auto; contradiction|].
    unfold sha2_256_n. rewrite (proj2 (N.eqb_neq count 0) Hn). cbn. split; split; intros H; try discriminate; contradiction.
  - unfold dil_sign. apply no_exn_bind; [apply read_c_no_exn|]. intros; apply no_exn_ok.
  - unfold dil_sign_open. apply no_exn_bind; [apply read_c_no_exn|]. intros; apply no_exn_ok.
  - unfold dil_extract_message. ne.
  - unfold dil_extract_signature. ne.
  - (* KybFromKeys *) unfold kyb_from_keys. destruct (length pk =? ka_pkb A) eqn:E1; cbn [negb].
    + destruct (length sk =? ka_skb A) eqn:E2; cbn.
      * apply Nat.eqb_eq in E1, E2. split; split; intros H; try discriminate; try contradiction. lia.
      * apply Nat.eqb_neq in E2. split; split; intros H; try discriminate; try contradiction; auto.
    + apply Nat.eqb_neq in E1. cbn. split; split; intros H; try discriminate; try contradiction; auto.
  - unfold kyb_encode. apply no_exn_bind; [apply read_c_no_exn|]. intros k. destruct (ka_enc A entropy k) as [[? ?] ?]. apply no_exn_ok.
  - unfold kyb_decode. apply no_exn_bind; [apply read_c_no_exn|]. intros k. apply no_exn_bind; [apply read_c_no_exn|]. intros k'. destruct (ka_dec A k k'). apply no_exn_ok.
Qed.

(** Calls of getNextTree on a shared pool, whatever the interleaving: the answer is
    a ValueError exactly if the height given to the pool's constructor was wrong
    (the constructor itself does not check it), never a RuntimeError. *)
Theorem C88_pool_errors : forall c tr x h r, pool_ok c -> exec c tr x -> In (h, r) (answers tr) ->
  (python r = PyRaises SwigValueError <-> wrong_height (pc_height c)) /\ python r <> PyRaises SwigRuntimeError /\
  python r <> PyRaises SwigUnknownError /\ python r <> PyEscapes.
Proof.
  intros c tr x h r HP HE HI. destruct (C37_returned_tree c tr x h r HP HE HI) as (v & junk & _ & ->).
  destruct (C88_python_errors (PoolTree (pc_seed c) (pc_height c) junk v) I) as (A & B & C & D & _). cbn [action bad_argument device_fails] in *.
  destruct (python_class _ (prepareTree (pc_seed c) (pc_height c) junk v)) as (K1 & K2 & K3 & K4 & _). rewrite K1, K2.
  destruct (python_class _ (forget (prepareTree (pc_seed c) (pc_height c) junk v))) as (L1 & L2 & _). rewrite L1, forget_ia in A. rewrite L2, forget_rt in B.
  split; [exact A|]. split; [|auto]. intros E. now apply B in E.
Qed.

(** Every kind of ending occurs. *)
Example C88_cases :
  python (action (NewFast [] (repeat 0%N 47) 4 0 0)) = PyRaises SwigValueError /\
  python (action (NewFast [] (repeat 0%N 48) 5 0 0)) = PyRaises SwigValueError /\
  python (action (NewFast [] (repeat 0%N 48) 32 0 0)) = PyUndefined /\
  python (action (FromHex [97; 98; 99; 103]%N)) = PyRaises SwigValueError /\
  python (action (FromHex [97; 98]%N)) = PyReturns tt /\
  python (action (RandomSeed None 48 [])) = PyRaises SwigRuntimeError /\
  python (action (RandomSeed (Some [1; 2]%N) 3 [])) = PyRaises SwigRuntimeError /\
  python (action (Verify [] [] [] 16)) = PyReturns tt /\
  go (action (Sha2N [1]%N 0)) = GoPanics.
Proof. repeat split; vm_compute; reflexivity. Qed.
(** A key that is used up: 16 signatures with height 4, the 17th call raises. *)
Example C88_spent_key : forall junk msgs, length msgs = 16 -> exists x0 x os,
  XmssFast_new junk (repeat 0%N 48) 4 0 0 = Ok x0 /\ run x0 (map OpSign msgs) = Ok (x, os) /\
  in_domain (FastCall x (OpSign [])) /\ python (action (FastCall x (OpSign []))) = PyRaises SwigValueError /\
  python (action (FastCall x0 (OpSetIndex 3))) = PyReturns tt.
Proof.
  intros junk msgs HL. assert (HS : supported 0 SHA2_256 16 w16 4 (repeat 0%N 48)) by (repeat split; auto; lia).
  destruct (new_run _ _ _ _ 0%N HS junk) as (x0 & E0 & HR). destruct (HR (map OpSign msgs)) as (x & Er & HI).
  pose proof (inv_getIndex _ _ _ _ _ HS _ _ HI) as Ei.
  change (N.of_nat 4) with 4%N in E0. exists x0, x. eexists. split; [exact E0|]. split; [exact Er|].
  assert (U : used_object x) by (repeat eexists; eassumption).
  assert (U0 : used_object x0) by (exists junk, (repeat 0%N 48), 4%N, 0%N, 0%N, x0, [], []; auto).
  split; [exact U|]. split.
  - apply C88_python_errors; [exact U|]. cbn [bad_argument]. destruct HI as (Eb & _). rewrite Ei.
    replace (xb_height (xf_base x)) with 4%N by (rewrite Eb; reflexivity).
    generalize (ref_sig SHA2_256 w16 4 (repeat 0%N 48)). intros sg.
    do 17 (destruct msgs as [|? msgs]; try discriminate HL). vm_compute. discriminate.
  - destruct (C88_python_errors (FastCall x0 (OpSetIndex 3)) U0) as (A & B & C & D & _).
    destruct (used_fast x0 U0) as (h & sg & Eh & Hs). destruct (Hs (OpSetIndex 3)) as (y & Ey). cbn [action]. unfold forget_obs. rewrite Ey.
    destruct (HR []) as (x1 & E1 & HI1). injection E1 as <-. pose proof (inv_getIndex _ _ _ _ _ HS _ _ HI1) as Ei0. rewrite Ei0.
    destruct HI1 as (Eb & _). assert (h = 4) by (rewrite Eb in Eh; cbn in Eh; lia). subst h. reflexivity.
Qed.
