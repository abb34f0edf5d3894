(** The traversal's hash calls depend only on the shape of its state. *)
From Coq Require Import List NArith Arith Lia Bool.
From Verif Require Import Base Bytes Keccak HashAddress Wots XmssCommon AlgsXmss AlgsXmssFast Descriptor XmssObj Cost CostProofs.
Import ListNotations.
Open Scope nat_scope.

(** ** Two runs side by side *)
Definition rrel {A B} (R : A -> B -> Prop) (x : res A) (y : res B) : Prop :=
  match x, y with
  | Ok a, Ok b => R a b
  | Exn e, Exn f => e = f
  | UB, UB => True
  | _, _ => False
  end.
Definition pairN {A B} (R : A -> B -> Prop) (x : A * N) (y : B * N) : Prop := R (fst x) (fst y) /\ snd x = snd y.
Definition crel {A B} (R : A -> B -> Prop) (x : cres A) (y : cres B) : Prop := rrel (pairN R) x y.
Lemma rrel_bind : forall A B C D (R : A -> B -> Prop) (Q : C -> D -> Prop) x y f g,
  rrel R x y -> (forall a b, R a b -> rrel Q (f a) (g b)) -> rrel Q (bind x f) (bind y g).
Proof. intros A B C D R Q [a|e|] [b|e'|] f g H HF; cbn in *; auto; contradiction. Qed.
Lemma rrel_mono : forall A B (R Q : A -> B -> Prop) x y, rrel R x y -> (forall a b, R a b -> Q a b) -> rrel Q x y.
Proof. intros A B R Q [a|e|] [b|e'|] H HF; cbn in *; auto. Qed.
Lemma crel_bind : forall A B C D (R : A -> B -> Prop) (Q : C -> D -> Prop) x y f g,
  crel R x y -> (forall a b, R a b -> crel Q (f a) (g b)) -> crel Q (cbind x f) (cbind y g).
Proof.
  intros A B C D R Q x y f g H HF. unfold crel, cbind. eapply rrel_bind; [exact H|]. intros [a n] [b n'] (HR & E). cbn [fst snd] in *. subst n'.
  eapply rrel_bind; [exact (HF a b HR)|]. intros [c k] [d k'] (HQ & E). cbn [fst snd] in *. subst. split; auto.
Qed.
Lemma crel_lift : forall A B (R : A -> B -> Prop) x y, rrel R x y -> crel R (clift x) (clift y).
Proof. intros A B R [a|e|] [b|e'|] H; cbn in *; try contradiction; auto. split; auto. Qed.
Lemma crel_ret : forall A B (R : A -> B -> Prop) a b, R a b -> crel R (cret a) (cret b).
Proof. intros. split; auto. Qed.
Lemma crel_erase : forall A B (R : A -> B -> Prop) x y, crel R x y -> rrel R (erase x) (erase y).
Proof. intros A B R [[a n]|e|] [[b n']|e'|] H; cbn in *; auto. apply H. Qed.
Lemma rrel_for : forall S T (R : S -> T -> Prop) n a f g s t,
  R s t -> (forall i s t, R s t -> rrel R (f i s) (g i t)) -> rrel R (for_from n a f s) (for_from n a g t).
Proof.
  induction n; intros a f g s t H HF; cbn [for_from]; [exact H|]. eapply rrel_bind; [apply HF; exact H|]. intros; apply IHn; auto.
Qed.
Lemma rrel_eq : forall A (x : res A), rrel eq x x.
Proof. intros A [a|e|]; cbn; auto. Qed.
Lemma rrel_get : forall A B (l : list A) (l' : list B) i, length l = length l' -> rrel (fun _ _ => True) (get l i) (get l' i).
Proof.
  intros A B l l' i H. unfold get. destruct (nth_error l i) eqn:E, (nth_error l' i) eqn:E'; cbn; auto.
  - apply nth_error_None in E'. assert (nth_error l i <> None) by congruence. apply nth_error_Some in H0. lia.
  - apply nth_error_None in E. assert (nth_error l' i <> None) by congruence. apply nth_error_Some in H0. lia.
Qed.
Definition same_len {A B} (l : list A) (l' : list B) : Prop := length l = length l'.
Lemma rrel_set : forall A B (l : list A) (l' : list B) i a b, same_len l l' -> rrel same_len (set l i a) (set l' i b).
Proof. intros A B l l' i a b H. unfold same_len in *. unfold set. rewrite H. destruct (i <? length l'); cbn; auto. now rewrite !upd_length. Qed.

(** ** Shape of the traversal state *)
Definition th_shape (t : treehash_inst) : nat * nat * nat * bool := (th_h t, th_next_idx t, th_stackusage t, th_completed t).
Definition sh_ths (l l' : list treehash_inst) : Prop := map th_shape l = map th_shape l'.
Definition sh (s t : bds_state) : Prop :=
  same_len (b_stack s) (b_stack t) /\ b_stackoffset s = b_stackoffset t /\ b_stacklevels s = b_stacklevels t /\
  same_len (b_auth s) (b_auth t) /\ same_len (b_keep s) (b_keep t) /\ sh_ths (b_treehash s) (b_treehash t) /\ same_len (b_retain s) (b_retain t).
Lemma rrel_get_th : forall l l' i, sh_ths l l' -> rrel (fun a b => th_shape a = th_shape b) (get l i) (get l' i).
Proof.
  intros l l' i H. pose proof (f_equal (fun x => nth_error x i) H) as E. cbn beta in E. rewrite !nth_error_map in E. unfold get.
  destruct (nth_error l i), (nth_error l' i); cbn in *; auto; congruence.
Qed.
Lemma map_upd : forall A B (f : A -> B) l i a, map f (upd l i a) = upd (map f l) i (f a).
Proof. induction l; destruct i; intros; cbn; auto. now rewrite IHl. Qed.
Lemma rrel_set_th : forall l l' i a b, sh_ths l l' -> th_shape a = th_shape b -> rrel sh_ths (set l i a) (set l' i b).
Proof.
  intros l l' i a b H E. unfold set. assert (L : length l = length l') by (rewrite <- (map_length th_shape l), H; apply map_length).
  rewrite L. destruct (i <? length l'); cbn; auto. unfold sh_ths. rewrite !map_upd, H, E. reflexivity.
Qed.

Lemma minheight_shape : forall s t p a b, b_stackoffset s = b_stackoffset t -> b_stacklevels s = b_stacklevels t -> th_shape a = th_shape b ->
  treehash_minheight_on_stack s p a = treehash_minheight_on_stack t p b.
Proof. intros s t p a b H1 H2 H3. unfold treehash_minheight_on_stack. assert (th_stackusage a = th_stackusage b) as -> by (unfold th_shape in H3; congruence). now rewrite H1, H2. Qed.
Lemma choose_shape : forall s t p, sh s t -> bds_choose s p = bds_choose t p.
Proof.
  intros s t p (_ & H2 & H3 & _ & _ & H6 & _). unfold bds_choose, for_up. apply for_from_ext. intros i [lv lm] _. pose proof (rrel_get_th _ _ i H6) as G.
  destruct (get (b_treehash s) i) as [a|e|], (get (b_treehash t) i) as [b|e'|]; cbn in G; try contradiction; cbn [bind]; auto; [|congruence].
  rewrite (minheight_shape s t p a b H2 H3 G). unfold th_shape in G. assert (th_completed a = th_completed b) as -> by congruence. assert (th_stackusage a = th_stackusage b) as -> by congruence. reflexivity.
Qed.

(** ** Leaves *)
Lemma l_tree_pass_rel : forall hf hf' b ps ps' s t, same_len (fst s) (fst t) ->
  rrel (fun x y => same_len (fst x) (fst y)) (l_tree_pass hf b ps s) (l_tree_pass hf' b ps' t).
Proof.
  intros. apply rrel_for; [exact H|]. intros i [pk a] [pk' a'] HL. cbn [fst] in HL.
  eapply rrel_bind; [apply rrel_get; exact HL|]. intros x x' _. eapply rrel_bind; [apply rrel_get; exact HL|]. intros y y' _.
  destruct (hash_h hf (x ++ y) ps (setTreeIndex a (N.of_nat i))) as [o a1]. destruct (hash_h hf' (x' ++ y') ps' (setTreeIndex a' (N.of_nat i))) as [o' a1'].
  eapply rrel_bind; [apply rrel_set; exact HL|]. intros z z' HZ. exact HZ.
Qed.
Lemma l_tree_loop_rel : forall hf hf' fuel l ht ps ps' s t, same_len (fst s) (fst t) ->
  rrel (fun x y => same_len (fst x) (fst y)) (l_tree_loop hf fuel l ht ps s) (l_tree_loop hf' fuel l ht ps' t).
Proof.
  intros hf hf'. induction fuel; intros l ht ps ps' s t H; cbn [l_tree_loop]; destruct (l <=? 1); try exact H; [exact I|].
  eapply rrel_bind; [apply l_tree_pass_rel; exact H|]. intros [pk a] [pk' a'] HL. cbn [fst] in HL.
  eapply (rrel_bind _ _ _ _ (fun x y => same_len (fst x) (fst y) /\ snd x = snd y)).
  - destruct (Nat.odd l).
    + eapply rrel_bind; [apply rrel_get; exact HL|]. intros x x' _. eapply rrel_bind; [apply rrel_set; exact HL|]. intros z z' HZ. split; auto.
    + split; auto.
  - intros [z l1] [z' l2] (HZ & E). cbn [fst snd] in *. subst l2. apply IHfuel. exact HZ.
Qed.
Lemma gen_chains_length : forall hf jobs i p ps a, length (fst (gen_chains hf i jobs p ps a)) = length jobs.
Proof.
  intros hf. induction jobs as [|[[c s] n] jobs IH]; intros i p ps a; cbn [gen_chains length fst]; auto.
  destruct (gen_chain hf c s n p ps (setChainADRS a i)) as [o a']. specialize (IH (i + 1)%N p ps a'). destruct (gen_chains hf (i + 1) jobs p ps a'). cbn in *. now rewrite IH.
Qed.
Lemma gen_leaf_rel : forall hf hf' ss ss' p ps ps' la la' oa oa',
  rrel (fun _ _ => True) (gen_leaf_wots hf ss p ps la oa) (gen_leaf_wots hf' ss' p ps' la' oa').
Proof.
  intros. unfold gen_leaf_wots, wots_pkgen. destruct (get_seed hf ss oa) as [s o1]. destruct (get_seed hf' ss' oa') as [s' o1'].
  match goal with |- context [gen_chains hf 0 ?j (x_wots p) ps o1] => pose proof (gen_chains_length hf j 0 (x_wots p) ps o1) as L; destruct (gen_chains hf 0 j (x_wots p) ps o1) as [pk o2] end.
  match goal with |- context [gen_chains hf' 0 ?j (x_wots p) ps' o1'] => pose proof (gen_chains_length hf' j 0 (x_wots p) ps' o1') as L'; destruct (gen_chains hf' 0 j (x_wots p) ps' o1') as [pk' o2'] end.
  cbn [fst] in L, L'. rewrite map_length in L, L'. unfold expand_seed in L, L'. rewrite map_length, seq_length in L, L'.
  eapply (rrel_bind _ _ _ _ (fun _ _ => True)).
  - unfold l_tree. eapply rrel_bind; [apply l_tree_loop_rel; cbn [fst]; unfold same_len; congruence|]. intros [x a] [x' a'] HL. cbn [fst] in HL.
    eapply rrel_bind; [apply rrel_get; exact HL|]. intros; exact I.
  - intros [x a] [x' a'] _. exact I.
Qed.
Lemma costs_rel : forall A B (R : A -> B -> Prop) x y r r' n, costs x r n -> costs y r' n -> rrel R r r' -> crel R x y.
Proof. intros A B R x y r r' n -> -> H. unfold crel. eapply rrel_bind; [exact H|]. intros a b HR. split; auto. Qed.
Lemma gen_leaf_crel : forall hf hf' ss ss' p ps ps' la la' oa oa',
  crel (fun _ _ => True) (gen_leaf_wots_c hf ss p ps la oa) (gen_leaf_wots_c hf' ss' p ps' la' oa').
Proof. intros. eapply costs_rel; [apply gen_leaf_wots_costs|apply gen_leaf_wots_costs|apply gen_leaf_rel]. Qed.

(** ** The traversal *)
Lemma update_while_crel : forall hf hf' u ni ps ps' stk stk' lv off n n' nh a a', same_len stk stk' ->
  crel (fun x y => snd (fst (fst x)) = snd (fst (fst y)) /\ snd (fst x) = snd (fst y) /\ snd x = snd y)
    (update_while_c hf u ni ps stk lv off n nh a) (update_while_c hf' u ni ps' stk' lv off n' nh a').
Proof.
  intros hf hf'. induction u; intros ni ps ps' stk stk' lv off n n' nh a a' HL; cbn [update_while_c].
  - apply crel_ret. auto.
  - destruct (off =? 0); [exact I|]. eapply crel_bind; [apply crel_lift, rrel_eq|]. intros l _ <-.
    destruct (negb (l =? nh)); [apply crel_ret; auto|].
    eapply crel_bind; [apply crel_lift, rrel_get; exact HL|]. intros x y _.
    rewrite !hash_h_c_eq. eapply (crel_bind _ _ _ _ (fun _ _ => True)); [split; auto|]. intros [o a1] [o' a1'] _. apply IHu. exact HL.
Qed.
Lemma treehash_update_crel : forall hf hf' lv s t ss ss' p ps ps' a a', sh s t ->
  crel sh (treehash_update_c hf lv s ss p ps a) (treehash_update_c hf' lv t ss' p ps' a').
Proof.
  intros hf hf' lv s t ss ss' p ps ps' a a' (H1 & H2 & H3 & H4 & H5 & H6 & H7). unfold treehash_update_c.
  eapply crel_bind; [apply crel_lift, rrel_get_th; exact H6|]. intros x y E. unfold th_shape in E.
  assert (Ex : th_h x = th_h y) by congruence. assert (En : th_next_idx x = th_next_idx y) by congruence. assert (Eu : th_stackusage x = th_stackusage y) by congruence. assert (Ec : th_completed x = th_completed y) by congruence.
  eapply crel_bind; [apply gen_leaf_crel|]. intros [[lf la] oa] [[lf' la'] oa'] _.
  eapply crel_bind; [rewrite H3, H2, Eu, En; apply update_while_crel; exact H1|].
  intros [[[nd nh] us] off] [[[nd' nh'] us'] off'] (F1 & F2 & F3). cbn [fst snd] in *. subst nh' us' off'. rewrite Ex.
  destruct (nh =? th_h y).
  - eapply crel_bind; [apply crel_lift, rrel_set_th; [exact H6|]|].
    + unfold th_shape. cbn. congruence.
    + intros l l' HL. apply crel_ret. unfold sh. cbn. auto 10.
  - eapply crel_bind; [apply crel_lift, rrel_set; exact H1|]. intros k k' HK.
    eapply crel_bind; [apply crel_lift; rewrite H3; apply rrel_eq|]. intros m _ <-.
    eapply crel_bind; [apply crel_lift, rrel_set_th; [exact H6|]|].
    + unfold th_shape. cbn. congruence.
    + intros l l' HL. apply crel_ret. unfold sh. cbn. auto 10.
Qed.
Lemma bds_treehash_update_crel : forall hf hf' n s t ss ss' p ps ps' a a', sh s t ->
  crel sh (bds_treehash_update_c hf n s ss p ps a) (bds_treehash_update_c hf' n t ss' p ps' a').
Proof.
  intros hf hf'. induction n; intros s t ss ss' p ps ps' a a' H; cbn [bds_treehash_update_c]; [apply crel_ret; exact H|].
  rewrite (choose_shape s t p H). eapply crel_bind; [apply crel_lift, rrel_eq|]. intros [lv lm] _ <-.
  destruct (lv =? x_h p - x_k p); [apply crel_ret; exact H|].
  eapply crel_bind; [apply treehash_update_crel; exact H|]. intros; apply IHn; auto.
Qed.
Lemma bds_round_crel : forall hf hf' i s t ss ss' p ps ps' a a', sh s t ->
  crel sh (bds_round_c hf s i ss p ps a) (bds_round_c hf' t i ss' p ps' a').
Proof.
  intros hf hf' i s t ss ss' p ps ps' a a' (H1 & H2 & H3 & H4 & H5 & H6 & H7). unfold bds_round_c.
  set (tau := find_tau (x_h p) 0 (x_h p) i).
  eapply (crel_bind _ _ _ _ (fun _ _ => True)).
  { apply crel_lift. destruct (0 <? tau); [|exact I]. eapply rrel_bind; [apply rrel_get; exact H4|]. intros x x' _. eapply rrel_bind; [apply rrel_get; exact H5|]. intros; exact I. }
  intros b b' _. eapply (crel_bind _ _ _ _ same_len).
  { apply crel_lift. destruct (negb (Nat.testbit i (tau + 1)) && (tau <? x_h p - 1)); [|exact H5]. eapply rrel_bind; [apply rrel_get; exact H4|]. intros x x' _. apply rrel_set; exact H5. }
  intros k k' HK. destruct (tau =? 0).
  - eapply crel_bind; [apply gen_leaf_crel|]. intros [[lf la] oa] [[lf' la'] oa'] _.
    eapply crel_bind; [apply crel_lift, rrel_set; exact H4|]. intros x x' HX. apply crel_ret. unfold sh. cbn. auto 10.
  - rewrite !hash_h_c_eq. eapply (crel_bind _ _ _ _ (fun _ _ => True)); [split; auto|]. intros [o a1] [o' a1'] _.
    eapply crel_bind; [apply crel_lift, rrel_set; exact H4|]. intros x x' HX.
    eapply (crel_bind _ _ _ _ same_len).
    { apply crel_lift. apply rrel_for; [exact HX|]. intros j y y' HY. destruct (j <? x_h p - x_k p).
      - eapply rrel_bind; [apply rrel_get_th; exact H6|]. intros z z' _. apply rrel_set; exact HY.
      - destruct ((x_h p <? 1 + j) || (2 ^ (x_h p - 1 - j) + j <? x_h p) || (i / 2 ^ j <? 1)); [exact I|].
        eapply rrel_bind; [apply rrel_get; exact H7|]. intros z z' _. apply rrel_set; exact HY. }
    intros y y' HY. eapply (crel_bind _ _ _ _ sh_ths).
    { apply crel_lift. apply rrel_for; [exact H6|]. intros j z z' HZ. destruct (i + 1 + 3 * 2 ^ j <? 2 ^ x_h p); [|exact HZ].
      eapply rrel_bind; [apply rrel_get_th; exact HZ|]. intros v v' _. apply rrel_set_th; [exact HZ|reflexivity]. }
    intros z z' HZ. apply crel_ret. unfold sh. cbn. auto 10.
Qed.
Lemma bds_step_crel : forall hf hf' p ss ss' ps ps' a a' j s t, sh s t ->
  crel sh (bds_step_c hf p ss ps a j s) (bds_step_c hf' p ss' ps' a' j t).
Proof. intros. unfold bds_step_c. eapply crel_bind; [apply bds_round_crel; exact H|]. intros; apply bds_treehash_update_crel; auto. Qed.

(** ** Erasure *)
Ltac er := repeat first [ rewrite erase_bind | rewrite erase_lift | rewrite erase_ret ].
Lemma leaf_erase : forall hf ss p ps la oa, erase (gen_leaf_wots_c hf ss p ps la oa) = gen_leaf_wots hf ss p ps la oa.
Proof. intros. eapply costs_erase, gen_leaf_wots_costs. Qed.
Lemma update_while_erase : forall hf u ni ps stk lv off n nh a, erase (update_while_c hf u ni ps stk lv off n nh a) = update_while hf u ni ps stk lv off n nh a.
Proof.
  intros hf. induction u; intros; cbn [update_while_c update_while]; [reflexivity|]. destruct (off =? 0); [reflexivity|]. er. apply bind_ext. intros l. destruct (negb (l =? nh)); [reflexivity|].
  er. apply bind_ext. intros x. er. rewrite hash_h_c_eq. unfold erase at 1. cbn [bind].
  destruct (hash_h hf (x ++ n) ps (setTreeIndex (setTreeHeight a (N.of_nat nh)) (N.of_nat (ni / 2 ^ (nh + 1))))) as [o a']. apply IHu.
Qed.
Lemma treehash_update_erase : forall hf lv st ss p ps a, erase (treehash_update_c hf lv st ss p ps a) = treehash_update hf lv st ss p ps a.
Proof.
  intros. unfold treehash_update_c, treehash_update. er. apply bind_ext. intros th. er. rewrite leaf_erase. apply bind_ext. intros [[lf la] oa].
  er. rewrite update_while_erase. apply bind_ext. intros [[[nd nh] us] off]. destruct (nh =? th_h th).
  - er. apply bind_ext. reflexivity.
  - er. apply bind_ext. intros k. er. apply bind_ext. intros l. er. apply bind_ext. reflexivity.
Qed.
Lemma bds_treehash_update_erase : forall hf n st ss p ps a, erase (bds_treehash_update_c hf n st ss p ps a) = bds_treehash_update hf n st ss p ps a.
Proof.
  intros hf. induction n; intros; cbn [bds_treehash_update_c bds_treehash_update]; [reflexivity|]. er. apply bind_ext. intros [lv lm]. destruct (lv =? x_h p - x_k p); [reflexivity|].
  er. rewrite treehash_update_erase. apply bind_ext. intros; apply IHn.
Qed.
Lemma bds_round_erase : forall hf st i ss p ps a, erase (bds_round_c hf st i ss p ps a) = bds_round hf st i ss p ps a.
Proof.
  intros. unfold bds_round_c, bds_round. set (tau := find_tau (x_h p) 0 (x_h p) i). er. apply bind_ext. intros b. er. apply bind_ext. intros k. destruct (tau =? 0).
  - er. rewrite leaf_erase. apply bind_ext. intros [[lf la] oa]. er. apply bind_ext. reflexivity.
  - er. rewrite hash_h_c_eq. unfold erase at 1. cbn [bind].
    destruct (hash_h hf b ps (setTreeIndex (setTreeHeight (copy_layer_tree a 2) (N.of_nat (tau - 1))) (N.of_nat (i / 2 ^ tau)))) as [o a'].
    er. apply bind_ext. intros x. er. apply bind_ext. intros y. er. apply bind_ext. reflexivity.
Qed.
Lemma bds_step_erase : forall hf p ss ps a j st, erase (bds_step_c hf p ss ps a j st) = bds_step hf p ss ps a j st.
Proof. intros. unfold bds_step_c, bds_step. er. rewrite bds_round_erase. apply bind_ext. intros; apply bds_treehash_update_erase. Qed.
Lemma wots_sign_c_eq : forall hf m sk p ps a, wots_sign_c hf m sk p ps a =
  (ds <- wots_digits m p ;; Ok (gen_chains hf 0 (map (fun cd => (fst cd, 0%N, snd cd)) (combine (expand_seed hf sk (w_len p)) ds)) p ps a,
    (N.of_nat (w_len p) + walks p (map (fun cd => (fst cd, 0%N, snd cd)) (combine (expand_seed hf sk (w_len p)) ds)))%N)).
Proof.
  intros. unfold wots_sign_c. unfold cbind at 1, clift. destruct (wots_digits m p) as [ds|e|]; cbn [bind]; auto.
  rewrite expand_seed_c_eq. unfold cbind. cbn [bind]. rewrite gen_chains_c_eq. cbn [bind]. reflexivity.
Qed.
Lemma wots_sign_erase : forall hf m sk p ps a, erase (wots_sign_c hf m sk p ps a) = wots_sign hf m sk p ps a.
Proof. intros. rewrite wots_sign_c_eq. unfold wots_sign. destruct (wots_digits m p); reflexivity. Qed.
Lemma xmssfast_update_erase : forall hf p sk st i, erase (xmssfast_update_c hf p sk st i) = xmssfast_update hf p sk st i.
Proof.
  intros. unfold xmssfast_update_c, xmssfast_update. destruct (2 ^ N.of_nat (x_h p) <=? i)%N; [reflexivity|]. destruct (i <? from_be (slice 0 4 sk))%N; [reflexivity|].
  er. rewrite (erase_for _ _ _ _ (fun j st => bds_step hf p (slice 4 32 sk) (slice 68 32 sk) zero_adrs j st)); [reflexivity|]. intros; apply bds_step_erase.
Qed.
Lemma xmssfast_Signmsg_erase : forall hf p sk st m, erase (xmssfast_Signmsg_c hf p sk st m) = xmssfast_Signmsg hf p sk st m.
Proof.
  intros. unfold xmssfast_Signmsg_c, xmssfast_Signmsg. unfold prf_c, h_msg_c, core_hash_c. er. unfold erase at 1. cbn [bind]. er. unfold erase at 1. cbn [bind]. er.
  rewrite get_seed_c_eq. unfold erase at 1. cbn [bind].
  change (core_hash hf 3 (slice 36 32 sk) (to_byte 32 (from_be (slice 0 4 sk)))) with (prf hf (to_byte 32 (from_be (slice 0 4 sk))) (slice 36 32 sk)).
  destruct (get_seed hf (slice 4 32 sk) (setOTSADRS (setType zero_adrs 0) (from_be (slice 0 4 sk)))) as [os oa].
  er. rewrite wots_sign_erase. unfold h_msg. apply bind_ext. intros [ws oa']. er.
  destruct (from_be (slice 0 4 sk) <? 2 ^ N.of_nat (x_h p) - 1)%N.
  - rewrite bds_step_erase. reflexivity.
  - reflexivity.
Qed.
Lemma with_hash_erase : forall A id (k : hashfn -> cres A), erase (with_hash id k) = with_hash id (fun hf => erase (k hf)).
Proof. intros. unfold with_hash. destruct (hash_of_id id); reflexivity. Qed.
Lemma with_hash_ext : forall A id (k k' : hashfn -> res A), (forall hf, k hf = k' hf) -> with_hash id k = with_hash id k'.
Proof. intros. unfold with_hash. destruct (hash_of_id id); auto. Qed.
Lemma setIndex_erase : forall o i, erase (xfast_setIndex_c o i) = xfast_setIndex o i.
Proof.
  intros. unfold xfast_setIndex_c, xfast_setIndex. rewrite with_hash_erase. apply with_hash_ext. intros hf. er. rewrite xmssfast_update_erase. apply bind_ext.
  intros [[sk st] [e|u]]; reflexivity.
Qed.
Lemma sign_erase : forall o m, erase (xfast_sign_c o m) = xfast_sign o m.
Proof.
  intros. unfold xfast_sign_c, xfast_sign. er. rewrite setIndex_erase. apply bind_ext. intros [o' [e|j]]; [reflexivity|].
  rewrite with_hash_erase. apply with_hash_ext. intros hf. er. rewrite xmssfast_Signmsg_erase. apply bind_ext. intros [[sk st] sg]. reflexivity.
Qed.

(** ** Bounds *)
Lemma cbind_ok : forall A B (m : cres A) (k : A -> cres B) b n, cbind m k = Ok (b, n) -> exists a n1 n2, m = Ok (a, n1) /\ k a = Ok (b, n2) /\ n = (n1 + n2)%N.
Proof.
  intros A B m k b n E. unfold cbind in E. destruct m as [[a n1]| |]; cbn [bind] in E; try discriminate. destruct (k a) as [[b' n2]| |] eqn:Ek; cbn [bind] in E; try discriminate.
  injection E as <- <-. eauto 6.
Qed.
Lemma clift_ok : forall A (m : res A) a n, clift m = Ok (a, n) -> m = Ok a /\ n = 0%N.
Proof. intros A [x| |] a n E; cbn in E; try discriminate. injection E as -> <-. auto. Qed.
Lemma cret_ok : forall A (x : A) a n, cret x = Ok (a, n) -> x = a /\ n = 0%N.
Proof. intros A x a n E. injection E as -> <-. auto. Qed.
Lemma update_while_bound : forall hf u ni ps stk lv off n nh a r c, update_while_c hf u ni ps stk lv off n nh a = Ok (r, c) ->
  snd r <= off /\ (c = 4 * N.of_nat (off - snd r))%N /\ (snd r < off -> off <= length lv).
Proof.
  intros hf. induction u; intros ni ps stk lv off n nh a r c E; cbn [update_while_c] in E.
  - injection E as <- <-. cbn [snd]. split; [lia|]. split; [lia|lia].
  - destruct (off =? 0) eqn:E0; [discriminate|]. apply Nat.eqb_neq in E0.
    apply cbind_ok in E. destruct E as (l & n1 & n2 & E1 & E & ->). apply clift_ok in E1. destruct E1 as (El & ->).
    assert (HL : off <= length lv). { apply get_ok in El. assert (nth_error lv (off - 1) <> None) by congruence. apply nth_error_Some in H. lia. }
    destruct (negb (l =? nh)).
    + apply cret_ok in E. destruct E as (<- & ->). cbn [snd]. split; [lia|]. split; [lia|lia].
    + apply cbind_ok in E. destruct E as (x & n1 & n3 & E1 & E & ->). apply clift_ok in E1. destruct E1 as (_ & ->).
      apply cbind_ok in E. destruct E as ([o a'] & n4 & n5 & E3 & E & ->). rewrite hash_h_c_eq in E3. assert (n4 = 4%N) by congruence. subst n4.
      apply IHu in E. destruct E as (G1 & -> & G3). split; [lia|]. split; [lia|]. intros _. exact HL.
Qed.
Lemma leaf_c_ok : forall hf ss p ps la oa a n, gen_leaf_wots_c hf ss p ps la oa = Ok (a, n) -> n = leaf_cost (x_wots p).
Proof. intros hf ss p ps la oa a n E. rewrite (gen_leaf_wots_costs hf ss p ps la oa) in E. destruct (gen_leaf_wots hf ss p ps la oa); cbn [bind] in E; try discriminate. congruence. Qed.
Lemma set_len : forall A (l : list A) i a l', set l i a = Ok l' -> length l' = length l.
Proof. intros A l i a l' E. unfold set in E. destruct (i <? length l); [|discriminate]. injection E as <-. apply upd_length. Qed.

Lemma treehash_update_bound : forall hf lv st ss p ps a st' c, treehash_update_c hf lv st ss p ps a = Ok (st', c) ->
  length (b_stacklevels st') = length (b_stacklevels st) /\ (c <= leaf_cost (x_wots p) + 4 * N.of_nat (length (b_stacklevels st)))%N.
Proof.
  intros hf lv st ss p ps a st' c E. unfold treehash_update_c in E.
  apply cbind_ok in E. destruct E as (th & n1 & n2 & E1 & E & ->). apply clift_ok in E1. destruct E1 as (E1 & ->).
  apply cbind_ok in E. destruct E as ([[lf la] oa] & n3 & n4 & E3 & E & ->). apply leaf_c_ok in E3. subst n3.
  apply cbind_ok in E. destruct E as ([[[nd nh] us] off] & n5 & n6 & E5 & E & ->). apply update_while_bound in E5. cbn [snd] in E5. destruct E5 as (G1 & -> & G3).
  destruct (nh =? th_h th).
  - apply cbind_ok in E. destruct E as (ths & n7 & n8 & E7 & E & ->). apply clift_ok in E7. destruct E7 as (E7 & ->). apply cret_ok in E. destruct E as (<- & ->).
    cbn [b_stacklevels]. split; [reflexivity|]. destruct (Nat.eq_dec off (b_stackoffset st)) as [->|]; [lia|]. assert (off < b_stackoffset st) by lia. specialize (G3 H). lia.
  - apply cbind_ok in E. destruct E as (stk & n7 & n8 & E7 & E & ->). apply clift_ok in E7. destruct E7 as (E7 & ->).
    apply cbind_ok in E. destruct E as (lvs & n7 & n9 & E8 & E & ->). apply clift_ok in E8. destruct E8 as (E8 & ->). apply set_len in E8.
    apply cbind_ok in E. destruct E as (ths & n7 & n10 & E9 & E & ->). apply clift_ok in E9. destruct E9 as (E9 & ->). apply cret_ok in E. destruct E as (<- & ->).
    cbn [b_stacklevels]. split; [exact E8|]. destruct (Nat.eq_dec off (b_stackoffset st)) as [->|]; [lia|]. assert (off < b_stackoffset st) by lia. specialize (G3 H). lia.
Qed.
Lemma bds_treehash_update_bound : forall hf n st ss p ps a st' c, bds_treehash_update_c hf n st ss p ps a = Ok (st', c) ->
  length (b_stacklevels st') = length (b_stacklevels st) /\ (c <= N.of_nat n * (leaf_cost (x_wots p) + 4 * N.of_nat (length (b_stacklevels st))))%N.
Proof.
  intros hf. induction n; intros st ss p ps a st' c E; cbn [bds_treehash_update_c] in E.
  - apply cret_ok in E. destruct E as (<- & ->). split; [reflexivity|lia].
  - apply cbind_ok in E. destruct E as ([lv lm] & n1 & n2 & E1 & E & ->). apply clift_ok in E1. destruct E1 as (E1 & ->).
    destruct (lv =? x_h p - x_k p). { apply cret_ok in E. destruct E as (<- & ->). split; [reflexivity|lia]. }
    apply cbind_ok in E. destruct E as (st1 & n3 & n4 & E3 & E & ->). apply treehash_update_bound in E3. destruct E3 as (L3 & B3).
    apply IHn in E. destruct E as (L4 & B4). rewrite L3 in *. split; [congruence|]. lia.
Qed.
Lemma bds_round_bound : forall hf st i ss p ps a st' c, bds_round_c hf st i ss p ps a = Ok (st', c) ->
  b_stacklevels st' = b_stacklevels st /\ (c <= N.max 4 (leaf_cost (x_wots p)))%N.
Proof.
  intros hf st i ss p ps a st' c E. unfold bds_round_c in E. set (tau := find_tau (x_h p) 0 (x_h p) i) in *.
  apply cbind_ok in E. destruct E as (b & n1 & n2 & E1 & E & ->). apply clift_ok in E1. destruct E1 as (_ & ->).
  apply cbind_ok in E. destruct E as (k & n1 & n3 & E1 & E & ->). apply clift_ok in E1. destruct E1 as (_ & ->).
  destruct (tau =? 0).
  - apply cbind_ok in E. destruct E as ([[lf la] oa] & n4 & n5 & E4 & E & ->). apply leaf_c_ok in E4. subst n4.
    apply cbind_ok in E. destruct E as (au & n1 & n6 & E1 & E & ->). apply clift_ok in E1. destruct E1 as (_ & ->). apply cret_ok in E. destruct E as (<- & ->). split; [reflexivity|]. lia.
  - rewrite hash_h_c_eq in E. apply cbind_ok in E. destruct E as ([o a'] & n4 & n5 & E4 & E & ->). assert (n4 = 4%N) by congruence. subst n4. clear E4.
    apply cbind_ok in E. destruct E as (au & n1 & n6 & E1 & E & ->). apply clift_ok in E1. destruct E1 as (_ & ->).
    apply cbind_ok in E. destruct E as (au' & n1 & n7 & E1 & E & ->). apply clift_ok in E1. destruct E1 as (_ & ->).
    apply cbind_ok in E. destruct E as (th & n1 & n8 & E1 & E & ->). apply clift_ok in E1. destruct E1 as (_ & ->).
    apply cret_ok in E. destruct E as (<- & ->). split; [reflexivity|]. lia.
Qed.
Definition step_bound (p : xmss_params) (levels : nat) : N :=
  (N.max 4 (leaf_cost (x_wots p)) + N.of_nat ((x_h p - x_k p) / 2) * (leaf_cost (x_wots p) + 4 * N.of_nat levels))%N.
Lemma bds_step_bound : forall hf p ss ps a j st st' c, bds_step_c hf p ss ps a j st = Ok (st', c) ->
  length (b_stacklevels st') = length (b_stacklevels st) /\ (c <= step_bound p (length (b_stacklevels st)))%N.
Proof.
  intros hf p ss ps a j st st' c E. unfold bds_step_c in E. apply cbind_ok in E. destruct E as (st1 & n1 & n2 & E1 & E & ->).
  apply bds_round_bound in E1. destruct E1 as (L1 & B1). apply bds_treehash_update_bound in E. destruct E as (L2 & B2). rewrite L1 in *. split; [exact L2|]. unfold step_bound. lia.
Qed.
