(** Two runs of the owner's functions (Trace.v) on different secrets, compared: if the
    buffers have the same lengths and the bookkeeping is the same, both runs make hash calls
    of the same shape and end in states related in the same way. *)
From Coq Require Import List NArith Arith Lia Bool.
From Verif Require Import Base Bytes Keccak HashAddress Wots XmssCommon AlgsXmss AlgsXmssFast Descriptor XmssObj
  SpecXmss SpecApi SpecTweak SpecShape XmssRefine BasicProofs Trace.
Import ListNotations.
Open Scope nat_scope.

(** ** Relations *)
Definition rr {A B} (R : A -> B -> Prop) (m1 : res A) (m2 : res B) : Prop :=
  match m1, m2 with Ok a, Ok b => R a b | Exn e, Exn e' => e = e' | UB, UB => True | _, _ => False end.
Definition rel {A B} (R : A -> B -> Prop) (m1 : tres A) (m2 : tres B) : Prop :=
  match m1, m2 with
  | Ok (a, l1), Ok (b, l2) => R a b /\ map shape l1 = map shape l2
  | Exn e, Exn e' => e = e' | UB, UB => True | _, _ => False
  end.
Definition pr {A B C D} (R : A -> B -> Prop) (S : C -> D -> Prop) (x : A * C) (y : B * D) : Prop := R (fst x) (fst y) /\ S (snd x) (snd y).
Definition dl (x y : list N) : Prop := length x = length y.
Definition cl : list (list N) -> list (list N) -> Prop := Forall2 dl.
Definition thr (a b : treehash_inst) : Prop :=
  th_h a = th_h b /\ th_next_idx a = th_next_idx b /\ th_stackusage a = th_stackusage b /\ th_completed a = th_completed b /\ dl (th_node a) (th_node b).
Definition ths_r : list treehash_inst -> list treehash_inst -> Prop := Forall2 thr.
Definition bdr (a b : bds_state) : Prop :=
  cl (b_stack a) (b_stack b) /\ b_stackoffset a = b_stackoffset b /\ b_stacklevels a = b_stacklevels b /\ cl (b_auth a) (b_auth b) /\
  cl (b_keep a) (b_keep b) /\ ths_r (b_treehash a) (b_treehash b) /\ cl (b_retain a) (b_retain b).

Lemma rel_ret : forall A B (R : A -> B -> Prop) a b, R a b -> rel R (tret a) (tret b).
Proof. intros. split; [assumption|reflexivity]. Qed.
Lemma rel_lift : forall A B (R : A -> B -> Prop) m1 m2, rr R m1 m2 -> rel R (tlift m1) (tlift m2).
Proof. intros A B R [a|e|] [b|e'|]; cbn; auto. Qed.
Lemma rel_bind : forall A B C D (R : A -> B -> Prop) (S : C -> D -> Prop) m1 m2 k1 k2, rel R m1 m2 ->
  (forall a b, R a b -> rel S (k1 a) (k2 b)) -> rel S (tbind m1 k1) (tbind m2 k2).
Proof.
  intros A B C D R S [[a l1]|e|] [[b l2]|e'|] k1 k2 Hm Hk; cbn in Hm; try contradiction; try (subst; reflexivity); try exact I.
  destruct Hm as (HR & HL). specialize (Hk a b HR). unfold tbind. cbn [bind].
  destruct (k1 a) as [[c l1']|e|], (k2 b) as [[d l2']|e'|]; cbn in *; try contradiction; auto.
  destruct Hk as (HS & HL'). split; [exact HS|]. now rewrite !map_app, HL, HL'.
Qed.
Lemma rr_bind : forall A B C D (R : A -> B -> Prop) (S : C -> D -> Prop) m1 m2 k1 k2, rr R m1 m2 ->
  (forall a b, R a b -> rr S (k1 a) (k2 b)) -> rr S (bind m1 k1) (bind m2 k2).
Proof. intros A B C D R S [a|e|] [b|e'|] k1 k2 Hm Hk; cbn in *; try contradiction; auto. Qed.
Lemma rel_for : forall A B (R : A -> B -> Prop) f g n a s t, (forall i s t, R s t -> rel R (f i s) (g i t)) -> R s t -> rel R (tfor_from n a f s) (tfor_from n a g t).
Proof.
  intros A B R f g n. induction n; intros a s t Hf HR; cbn [tfor_from]; [now apply rel_ret|]. eapply rel_bind; [now apply Hf|]. intros. now apply IHn.
Qed.
Lemma rr_for : forall A B (R : A -> B -> Prop) f g n a s t, (forall i s t, R s t -> rr R (f i s) (g i t)) -> R s t -> rr R (for_from n a f s) (for_from n a g t).
Proof.
  intros A B R f g n. induction n; intros a s t Hf HR; cbn [for_from]; [exact HR|]. eapply rr_bind; [now apply Hf|]. intros. now apply IHn.
Qed.
Lemma rr_eq : forall A (m : res A), rr eq m m.
Proof. intros A [a|e|]; cbn; auto. Qed.
Lemma get_rr : forall A B (R : A -> B -> Prop) l1 l2 i, Forall2 R l1 l2 -> rr R (get l1 i) (get l2 i).
Proof.
  intros A B R l1 l2 i H. revert i. induction H as [|a b l1 l2 Hab H IH]; intros [|i]; unfold get in *; cbn; auto.
Qed.
Lemma upd_Forall2 : forall A B (R : A -> B -> Prop) l1 l2 i a b, Forall2 R l1 l2 -> R a b -> Forall2 R (upd l1 i a) (upd l2 i b).
Proof. intros A B R l1 l2 i a b H Hab. revert i. induction H; intros [|i]; cbn [upd]; constructor; auto. Qed.
Lemma F2_length : forall A B (R : A -> B -> Prop) l1 l2, Forall2 R l1 l2 -> length l1 = length l2.
Proof. induction 1; cbn [length]; congruence. Qed.
Lemma set_rr : forall A B (R : A -> B -> Prop) l1 l2 i a b, Forall2 R l1 l2 -> R a b -> rr (Forall2 R) (set l1 i a) (set l2 i b).
Proof.
  intros A B R l1 l2 i a b H Hab. unfold set. rewrite (F2_length _ _ _ _ _ H). destruct (_ <? _); [|exact I]. now apply upd_Forall2.
Qed.
Lemma Forall2_repeat : forall A B (R : A -> B -> Prop) a b n, R a b -> Forall2 R (repeat a n) (repeat b n).
Proof. induction n; intros; cbn [repeat]; constructor; auto. Qed.
Lemma dl_refl : forall x, dl x x. Proof. reflexivity. Qed.
Lemma dl_app : forall a b c d, dl a b -> dl c d -> dl (a ++ c) (b ++ d).
Proof. unfold dl. intros. rewrite !app_length. congruence. Qed.
Lemma dl_concat : forall a b, cl a b -> dl (concat a) (concat b).
Proof. induction 1; cbn [concat]; [reflexivity|now apply dl_app]. Qed.
Lemma dl_slice : forall a n x y, dl x y -> dl (slice a n x) (slice a n y).
Proof. unfold dl, slice. intros. rewrite !firstn_length, !skipn_length. congruence. Qed.
Lemma rr_if : forall A B (R : A -> B -> Prop) (b : bool) m1 m2 k1 k2, rr R m1 m2 -> rr R k1 k2 -> rr R (if b then m1 else k1) (if b then m2 else k2).
Proof. intros. now destruct b. Qed.
Lemma rel_if : forall A B (R : A -> B -> Prop) (b : bool) m1 m2 k1 k2, rel R m1 m2 -> rel R k1 k2 -> rel R (if b then m1 else k1) (if b then m2 else k2).
Proof. intros. now destruct b. Qed.

Lemma ch_len : forall hf t k m, length (core_hash hf t k m) = 32.
Proof. intros. rewrite core_hash_keyed. apply keyed_length. Qed.

Section Two.
  Variables (hf hf' : hashfn).

  Lemma rel_prf : forall i k k', dl k k' -> rel dl (prf_t hf i k) (prf_t hf' i k').
  Proof. intros i k k' Hk. split; [unfold dl, prf; now rewrite !ch_len|]. cbn [map shape]. now rewrite Hk. Qed.
  Lemma rel_msg : forall m m' k k', dl k k' -> dl m m' -> rel dl (h_msg_t hf m k) (h_msg_t hf' m' k').
  Proof. intros m m' k k' Hk Hm. split; [unfold dl, h_msg; now rewrite !ch_len|]. cbn [map shape]. now rewrite Hk, Hm. Qed.
  Lemma rel_h : forall i i' ps ps' a, dl i i' -> rel (pr dl eq) (hash_h_t hf i ps a) (hash_h_t hf' i' ps' a).
  Proof. intros i i' ps ps' a Hi. split; [split; [unfold dl, hash_h; cbn [fst]; now rewrite !ch_len|reflexivity]|]. cbn [map shape]. now rewrite Hi. Qed.
  Lemma rel_f : forall i i' ps ps' a, dl i i' -> rel (pr dl eq) (hash_f_t hf i ps a) (hash_f_t hf' i' ps' a).
  Proof. intros i i' ps ps' a Hi. split; [split; [unfold dl, hash_f; cbn [fst]; now rewrite !ch_len|reflexivity]|]. cbn [map shape]. now rewrite Hi. Qed.

  Lemma rel_get_seed : forall k k' a, dl k k' -> rel (pr dl eq) (get_seed_t hf k a) (get_seed_t hf' k' a).
  Proof.
    intros k k' a Hk. unfold get_seed_t. eapply rel_bind; [now apply rel_prf|]. intros. apply rel_ret. split; [assumption|reflexivity].
  Qed.
  Lemma rel_expand : forall k k' n, dl k k' -> rel cl (expand_seed_t hf k n) (expand_seed_t hf' k' n).
  Proof.
    intros k k' n Hk. unfold expand_seed_t. generalize (seq 0 n) as l. induction l as [|i l IH]; cbn [tmap]; [apply rel_ret; constructor|].
    eapply rel_bind; [now apply rel_prf|]. intros. eapply rel_bind; [exact IH|]. intros. apply rel_ret. now constructor.
  Qed.

  Variables (ps ps' : list N).

  Lemma rel_chain : forall p n i x x' a, dl x x' -> rel (pr dl eq) (gen_chain_loop_t hf n i x p ps a) (gen_chain_loop_t hf' n i x' p ps' a).
  Proof.
    intros p. induction n; intros i x x' a Hx; cbn [gen_chain_loop_t]; [now apply rel_ret|]. destruct (i <? w_w p)%N; [|now apply rel_ret].
    eapply rel_bind; [now apply rel_f|]. intros [o1 a1'] [o2 a2'] (H1 & H2). cbn [fst snd] in *. subst. now apply IHn.
  Qed.
  (** Jobs: input, start and number of steps. *)
  Definition jobr : list N * N * N -> list N * N * N -> Prop := pr (pr dl eq) eq.
  Lemma rel_chains : forall p js js' i a, Forall2 jobr js js' -> rel (pr cl eq) (gen_chains_t hf i js p ps a) (gen_chains_t hf' i js' p ps' a).
  Proof.
    intros p js js' i a H. revert i a. induction H as [|[[c s] n] [[c' s'] n'] js js' ((H1 & H2) & H3) H IH]; intros i a; cbn [gen_chains_t fst snd] in *.
    - apply rel_ret. split; [constructor|reflexivity].
    - subst. eapply rel_bind; [now apply rel_chain|]. intros [o1 a1'] [o2 a2'] (G1 & G2). cbn [fst snd] in *. subst.
      eapply rel_bind; [apply IH|]. intros [os1 a1''] [os2 a2''] (G3 & G4). cbn [fst snd] in *. subst. apply rel_ret. split; [now constructor|reflexivity].
  Qed.
  Lemma rel_pkgen : forall p k k' a, dl k k' -> rel (pr cl eq) (wots_pkgen_t hf k p ps a) (wots_pkgen_t hf' k' p ps' a).
  Proof.
    intros p k k' a Hk. unfold wots_pkgen_t. eapply rel_bind; [now apply rel_expand|]. intros cs cs' Hc. apply rel_chains.
    induction Hc; cbn [map]; constructor; auto. repeat split; assumption.
  Qed.
  Lemma rel_wsign : forall p m m' k k' a, dl k k' -> wots_digits m p = wots_digits m' p -> rel (pr cl eq) (wots_sign_t hf m k p ps a) (wots_sign_t hf' m' k' p ps' a).
  Proof.
    intros p m m' k k' a Hk Hd. unfold wots_sign_t. rewrite Hd. eapply rel_bind; [apply rel_lift, rr_eq|]. intros ds ds' <-.
    eapply rel_bind; [now apply rel_expand|]. intros cs cs' Hc. apply rel_chains.
    revert ds. induction Hc; intros [|d ds]; cbn [combine map]; constructor; [repeat split; assumption|apply IHHc].
  Qed.
  Lemma rel_lpass : forall n s s', pr cl eq s s' -> rel (pr cl eq) (l_tree_pass_t hf n ps s) (l_tree_pass_t hf' n ps' s').
  Proof.
    intros n s s' Hs. unfold l_tree_pass_t, tfor_up. apply rel_for; [|exact Hs]. intros i [pk a] [pk' a'] (H1 & H2). cbn [fst snd] in *. subst.
    eapply rel_bind; [apply rel_lift, get_rr, H1|]. intros x x' Hx. eapply rel_bind; [apply rel_lift, get_rr, H1|]. intros y y' Hy.
    eapply rel_bind; [apply rel_h; now apply dl_app|]. intros [o1 b1] [o2 b2] (G1 & G2). cbn [fst snd] in *. subst.
    eapply rel_bind; [apply rel_lift, set_rr; eassumption|]. intros. apply rel_ret. now split.
  Qed.
  Lemma rel_lloop : forall fuel l h s s', pr cl eq s s' -> rel (pr cl eq) (l_tree_loop_t hf fuel l h ps s) (l_tree_loop_t hf' fuel l h ps' s').
  Proof.
    induction fuel; intros l h s s' Hs; cbn [l_tree_loop_t]; (destruct (l <=? 1); [now apply rel_ret|]); [exact I|].
    eapply rel_bind; [now apply rel_lpass|]. intros [pk a] [pk' a'] (H1 & H2). cbn [fst snd] in *. subst.
    eapply rel_bind with (R := pr cl eq).
    - apply rel_lift. destruct (Nat.odd l); [|now split]. eapply rr_bind; [apply get_rr, H1|]. intros x x' Hx.
      eapply rr_bind; [apply set_rr; eassumption|]. intros. now split.
    - intros [pk1 l1] [pk2 l2] (G1 & G2). cbn [fst snd] in *. subst. apply IHfuel. now split.
  Qed.
  Lemma rel_ltree : forall p pk pk' a, cl pk pk' -> rel (pr dl eq) (l_tree_t hf p pk ps a) (l_tree_t hf' p pk' ps' a).
  Proof.
    intros p pk pk' a Hp. unfold l_tree_t. eapply rel_bind; [apply rel_lloop; now split|]. intros [pk1 a1'] [pk2 a2'] (H1 & H2). cbn [fst snd] in *. subst.
    eapply rel_bind; [apply rel_lift, get_rr, H1|]. intros. apply rel_ret. now split.
  Qed.

  Variables (ssd ssd' : list N).
  Hypothesis HS : dl ssd ssd'.
  Variable (p : xmss_params).

  Lemma rel_leaf : forall la oa, rel (pr (pr dl eq) eq) (gen_leaf_wots_t hf ssd p ps la oa) (gen_leaf_wots_t hf' ssd' p ps' la oa).
  Proof.
    intros la oa. unfold gen_leaf_wots_t. eapply rel_bind; [now apply rel_get_seed|]. intros [s a] [s' a'] (H1 & H2). cbn [fst snd] in *. subst.
    eapply rel_bind; [now apply rel_pkgen|]. intros [pk b] [pk' b'] (H3 & H4). cbn [fst snd] in *. subst.
    eapply rel_bind; [now apply rel_ltree|]. intros [lf c] [lf' c'] (H5 & H6). cbn [fst snd] in *. subst. apply rel_ret. repeat split. assumption.
  Qed.

  Ltac pairs := repeat match goal with
    | H : pr _ _ ?x ?y |- _ => (is_var x; destruct x) || (is_var y; destruct y) || (destruct H as (? & ?); cbn [fst snd] in *)
    end; subst.

  Lemma rel_update_while : forall u ni stk stk' lv off n n' nh a, cl stk stk' -> dl n n' ->
    rel (pr (pr (pr dl eq) eq) eq) (update_while_t hf u ni ps stk lv off n nh a) (update_while_t hf' u ni ps' stk' lv off n' nh a).
  Proof.
    induction u; intros ni stk stk' lv off n n' nh a Hs Hn; cbn [update_while_t]; [apply rel_ret; repeat split; assumption|].
    destruct (off =? 0); [exact I|]. eapply rel_bind; [apply rel_lift, rr_eq|]. intros l l' <-. destruct (negb _); [apply rel_ret; repeat split; assumption|].
    eapply rel_bind; [apply rel_lift, get_rr, Hs|]. intros x x' Hx. eapply rel_bind; [apply rel_h; now apply dl_app|].
    intros [o1 b1] [o2 b2] (G1 & G2). cbn [fst snd] in *. subst. now apply IHu.
  Qed.

  Lemma rel_update : forall lv st st' a, bdr st st' -> rel bdr (treehash_update_t hf lv st ssd p ps a) (treehash_update_t hf' lv st' ssd' p ps' a).
  Proof.
    intros lv st st' a (B1 & B2 & B3 & B4 & B5 & B6 & B7). unfold treehash_update_t.
    eapply rel_bind; [apply rel_lift, get_rr, B6|]. intros t t' (T1 & T2 & T3 & T4 & T5). rewrite <- T1, <- T2, <- T3, <- T4, <- B2, <- B3.
    eapply rel_bind; [apply rel_leaf; assumption|]. intros [[lf la] oa] [[lf' la'] oa'] ((H1 & H2) & H3). cbn [fst snd] in *. subst.
    eapply rel_bind; [now apply rel_update_while|]. intros [[[n nh] us] off] [[[n' nh'] us'] off'] (((G1 & G2) & G3) & G4). cbn [fst snd] in *. subst.
    destruct (nh' =? th_h t).
    - eapply rel_bind; [apply rel_lift, set_rr; [exact B6|]; repeat split; assumption|]. intros ths ths' Ht. apply rel_ret. repeat split; assumption.
    - eapply rel_bind; [apply rel_lift, set_rr; [exact B1|exact G1]|]. intros sk1 sk2 Hsk. eapply rel_bind; [apply rel_lift, rr_eq|]. intros lv1 lv2 <-.
      eapply rel_bind; [apply rel_lift, set_rr; [exact B6|]; repeat split; assumption|]. intros ths ths' Ht. apply rel_ret. repeat split; assumption.
  Qed.

  Lemma choose_eq : forall st st', bdr st st' -> rr eq (bds_choose st p) (bds_choose st' p).
  Proof.
    intros st st' (B1 & B2 & B3 & B4 & B5 & B6 & B7). unfold bds_choose, for_up. apply rr_for; [|reflexivity].
    intros i [l m] ? <-. eapply rr_bind; [apply get_rr, B6|]. intros t t' (T1 & T2 & T3 & T4 & T5). rewrite <- T3, <- T4.
    eapply rr_bind with (R := eq); [|intros ? ? <-; reflexivity]. destruct (th_completed t); [reflexivity|]. destruct (_ =? 0); [reflexivity|].
    unfold treehash_minheight_on_stack. rewrite <- T3, <- B2, <- B3. apply rr_eq.
  Qed.
  Lemma rel_updates : forall n st st' a, bdr st st' -> rel bdr (bds_treehash_update_t hf n st ssd p ps a) (bds_treehash_update_t hf' n st' ssd' p ps' a).
  Proof.
    induction n; intros st st' a HB; cbn [bds_treehash_update_t]; [now apply rel_ret|].
    eapply rel_bind; [apply rel_lift, choose_eq, HB|]. intros [l m] ? <-. destruct (l =? _); [now apply rel_ret|].
    eapply rel_bind; [now apply rel_update|]. intros. now apply IHn.
  Qed.

  Lemma rel_round : forall st st' i a, bdr st st' -> rel bdr (bds_round_t hf st i ssd p ps a) (bds_round_t hf' st' i ssd' p ps' a).
  Proof.
    intros st st' i a (B1 & B2 & B3 & B4 & B5 & B6 & B7). unfold bds_round_t. cbv zeta. set (tau := find_tau _ _ _ _). clearbody tau.
    eapply rel_bind with (R := dl).
    { apply rel_lift. destruct (0 <? tau); [|reflexivity]. eapply rr_bind; [apply get_rr, B4|]. intros. eapply rr_bind; [apply get_rr, B5|]. intros. now apply dl_app. }
    intros buf buf' Hb. eapply rel_bind with (R := cl).
    { apply rel_lift. destruct (_ && _); [|exact B5]. eapply rr_bind; [apply get_rr, B4|]. intros. apply set_rr; assumption. }
    intros kp kp' Hk. destruct (tau =? 0).
    - eapply rel_bind; [apply rel_leaf; assumption|]. intros [[lf la] oa] [[lf' la'] oa'] ((H1 & H2) & H3). cbn [fst snd] in *. subst.
      eapply rel_bind; [apply rel_lift, set_rr; [exact B4|exact H1]|]. intros. apply rel_ret. repeat split; assumption.
    - eapply rel_bind; [apply rel_h; exact Hb|]. intros [o b] [o' b'] (G1 & _). cbn [fst snd] in *.
      eapply rel_bind; [apply rel_lift, set_rr; [exact B4|exact G1]|]. intros au au' Ha.
      eapply rel_bind with (R := cl).
      { apply rel_lift. unfold for_up. apply rr_for; [|exact Ha]. intros j x x' Hx. destruct (j <? _).
        - eapply rr_bind; [apply get_rr, B6|]. intros t t' (T1 & T2 & T3 & T4 & T5). now apply set_rr.
        - destruct (_ || _); [exact I|]. eapply rr_bind; [apply get_rr, B7|]. intros. now apply set_rr. }
      intros au1 au1' Ha1. eapply rel_bind with (R := ths_r).
      { apply rel_lift. unfold for_up. apply rr_for; [|exact B6]. intros j x x' Hx. destruct (_ <? _); [|exact Hx].
        eapply rr_bind; [apply get_rr, Hx|]. intros t t' (T1 & T2 & T3 & T4 & T5). apply set_rr; [exact Hx|]. repeat split; assumption. }
      intros ths ths' Ht. apply rel_ret. repeat split; assumption.
  Qed.
  Lemma rel_step : forall st st' j a, bdr st st' -> rel bdr (bds_step_t hf p ssd ps a j st) (bds_step_t hf' p ssd' ps' a j st').
  Proof. intros. unfold bds_step_t. eapply rel_bind; [now apply rel_round|]. intros. now apply rel_updates. Qed.

  Lemma set_th_rr : forall ths ths' i c c', ths_r ths ths' -> dl c c' -> rr ths_r (set_th_node ths i c) (set_th_node ths' i c').
  Proof.
    intros ths ths' i c c' Ht Hc. unfold set_th_node. eapply rr_bind; [apply get_rr, Ht|]. intros t t' (T1 & T2 & T3 & T4 & T5). apply set_rr; [exact Ht|]. repeat split; assumption.
  Qed.

  Definition sw_r := pr (pr (pr (pr (pr (pr cl (@eq (list nat))) (@eq nat)) (@eq adrs)) cl) ths_r) cl.
  Lemma rel_setup_while : forall fuel h k i stk stk' lv off na au au' ths ths' re re', cl stk stk' -> cl au au' -> ths_r ths ths' -> cl re re' ->
    rel sw_r (setup_while_t hf fuel h k i ps stk lv off na au ths re) (setup_while_t hf' fuel h k i ps' stk' lv off na au' ths' re').
  Proof.
    induction fuel; intros h k i stk stk' lv off na au au' ths ths' re re' H1 H2 H3 H4; cbn [setup_while_t];
      (destruct (off <=? 1); [apply rel_ret; repeat split; assumption|]);
      (eapply rel_bind; [apply rel_lift, rr_eq|]; intros l1 ? <-); (eapply rel_bind; [apply rel_lift, rr_eq|]; intros l2 ? <-);
      (destruct (negb _); [apply rel_ret; repeat split; assumption|]); [exact I|]. cbv zeta.
    eapply rel_bind; [apply rel_lift, get_rr, H1|]. intros top top' Htop.
    eapply rel_bind with (R := pr (pr cl ths_r) cl).
    { apply rel_lift. destruct (_ =? 1); [eapply rr_bind; [apply set_rr; [exact H2|exact Htop]|]; intros; repeat split; assumption|].
      destruct (_ && _); [eapply rr_bind; [apply set_th_rr; [exact H3|exact Htop]|]; intros; repeat split; assumption|].
      destruct (_ <=? _); [|repeat split; assumption]. destruct (_ || _); [exact I|].
      eapply rr_bind; [apply set_rr; [exact H4|exact Htop]|]; intros; repeat split; assumption. }
    intros [[au1 th1] re1] [[au2 th2] re2] ((G1 & G2) & G3). cbn [fst snd] in *.
    eapply rel_bind; [apply rel_lift, get_rr, H1|]. intros x x' Hx. eapply rel_bind; [apply rel_h; now apply dl_app|].
    intros [o b] [o' b'] (G4 & G5). cbn [fst snd] in *. subst. eapply rel_bind; [apply rel_lift, set_rr; [exact H1|exact G4]|]. intros.
    eapply rel_bind; [apply rel_lift, rr_eq|]. intros ? ? <-. now apply IHfuel.
  Qed.

  Lemma rel_setup : forall junk junk' st st' a, dl junk junk' -> bdr st st' ->
    rel (pr dl bdr) (treehash_setup_t hf junk st ssd p ps a) (treehash_setup_t hf' junk' st' ssd' p ps' a).
  Proof.
    intros junk junk' st st' a Hj (B1 & B2 & B3 & B4 & B5 & B6 & B7). unfold treehash_setup_t. cbv zeta.
    eapply rel_bind with (R := ths_r).
    { apply rel_lift. unfold for_up. apply rr_for; [|exact B6]. intros i x x' Hx. eapply rr_bind; [apply get_rr, Hx|]. intros t t' (T1 & T2 & T3 & T4 & T5).
      apply set_rr; [exact Hx|]. rewrite T2. repeat split; assumption. }
    intros ths ths' Ht. rewrite <- B2, <- B3.
    eapply rel_bind with (R := pr (pr (pr (pr (pr (pr (pr (pr cl eq) eq) eq) eq) eq) cl) ths_r) cl).
    { unfold tfor_up. apply rel_for; [|repeat split; try assumption; cbn [fst]; now apply Forall2_repeat].
      intros i [[[[[[[[s1 l1] o1] oa1] la1] na1] u1] t1] r1] [[[[[[[[s2 l2] o2] oa2] la2] na2] u2] t2] r2] H. unfold pr in H. cbn [fst snd] in H.
      destruct H as ((((((((Q1 & ->) & ->) & ->) & ->) & ->) & Q2) & Q3) & Q4).
      eapply rel_bind; [apply rel_leaf; assumption|]. intros [[lf la] oa] [[lf' la'] oa'] ((H1 & H2) & H3). cbn [fst snd] in *. subst.
      eapply rel_bind; [apply rel_lift, set_rr; [exact Q1|exact H1]|]. intros s3 s4 Q5. eapply rel_bind; [apply rel_lift, rr_eq|]. intros l3 ? <-.
      eapply rel_bind with (R := ths_r).
      { apply rel_lift. destruct (_ && _); [|exact Q3]. eapply rr_bind; [apply get_rr, Q5|]. intros. now apply set_th_rr. }
      intros t3 t4 Q6. eapply rel_bind; [now apply rel_setup_while|].
      intros [[[[[[s5 l5] o5] a5'] u5] t5] r5] [[[[[[s6 l6] o6] a6'] u6] t6] r6] H. unfold sw_r, pr in H. cbn [fst snd] in H.
      destruct H as ((((((W1 & ->) & ->) & ->) & W2) & W3) & W4). apply rel_ret. repeat split; assumption. }
    intros [[[[[[[[s1 l1] o1] oa1] la1] na1] u1] t1] r1] [[[[[[[[s2 l2] o2] oa2] la2] na2] u2] t2] r2] H. unfold pr in H. cbn [fst snd] in H.
    destruct H as ((((((((Q1 & _) & _) & _) & _) & _) & Q2) & Q3) & Q4).
    eapply rel_bind; [apply rel_lift, get_rr, Q1|]. intros. apply rel_ret. split; [assumption|]. repeat split; assumption.
  Qed.

  Lemma rel_treehash_while : forall fuel i stk stk' lv off na, cl stk stk' ->
    rel (pr (pr (pr cl eq) eq) eq) (treehash_while_t hf fuel i ps stk lv off na) (treehash_while_t hf' fuel i ps' stk' lv off na).
  Proof.
    induction fuel; intros i stk stk' lv off na H1; cbn [treehash_while_t];
      (destruct (off <=? 1); [apply rel_ret; repeat split; assumption|]);
      (eapply rel_bind; [apply rel_lift, rr_eq|]; intros l1 ? <-); (eapply rel_bind; [apply rel_lift, rr_eq|]; intros l2 ? <-);
      (destruct (negb _); [apply rel_ret; repeat split; assumption|]); [exact I|]. cbv zeta.
    eapply rel_bind; [apply rel_lift, get_rr, H1|]. intros x x' Hx. eapply rel_bind; [apply rel_lift, get_rr, H1|]. intros y y' Hy.
    eapply rel_bind; [apply rel_h; now apply dl_app|].
    intros [o b] [o' b'] (G4 & G5). cbn [fst snd] in *. subst. eapply rel_bind; [apply rel_lift, set_rr; [exact H1|exact G4]|]. intros.
    eapply rel_bind; [apply rel_lift, rr_eq|]. intros ? ? <-. now apply IHfuel.
  Qed.

  Lemma rel_treehash : forall junk junk' h a, dl junk junk' -> rel dl (treehash_t hf junk h ssd p ps a) (treehash_t hf' junk' h ssd' p ps' a).
  Proof.
    intros junk junk' h a Hj. unfold treehash_t. cbv zeta.
    eapply rel_bind with (R := pr (pr (pr (pr (pr cl eq) eq) eq) eq) eq).
    { unfold tfor_up. apply rel_for; [|repeat split; cbn [fst]; now apply Forall2_repeat].
      intros i [[[[[s1 l1] o1] oa1] la1] na1] [[[[[s2 l2] o2] oa2] la2] na2] H. unfold pr in H. cbn [fst snd] in H.
      destruct H as (((((Q1 & ->) & ->) & ->) & ->) & ->).
      eapply rel_bind; [apply rel_leaf; assumption|]. intros [[lf la] oa] [[lf' la'] oa'] ((H1 & H2) & H3). cbn [fst snd] in *. subst.
      eapply rel_bind; [apply rel_lift, set_rr; [exact Q1|exact H1]|]. intros s3 s4 Q5. eapply rel_bind; [apply rel_lift, rr_eq|]. intros l3 ? <-.
      eapply rel_bind; [now apply rel_treehash_while|].
      intros [[[s5 l5] o5] a5'] [[[s6 l6] o6] a6'] H. unfold pr in H. cbn [fst snd] in H. destruct H as (((W1 & ->) & ->) & ->). apply rel_ret. repeat split; assumption. }
    intros [[[[[s1 l1] o1] oa1] la1] na1] [[[[[s2 l2] o2] oa2] la2] na2] H. unfold pr in H. cbn [fst snd] in H. destruct H as (((((Q1 & _) & _) & _) & _) & _).
    apply rel_lift, get_rr, Q1.
  Qed.

  Lemma rel_authpath : forall junk junk' i a, dl junk junk' ->
    rel (pr dl cl) (compute_authpath_wots_t hf junk i ssd p ps a) (compute_authpath_wots_t hf' junk' i ssd' p ps' a).
  Proof.
    intros junk junk' i a Hj. unfold compute_authpath_wots_t. cbv zeta. destruct (26 <=? x_h p); [exact I|].
    eapply rel_bind with (R := pr (pr cl eq) eq).
    { unfold tfor_up. apply rel_for; [|repeat split; cbn [fst]; now apply Forall2_repeat].
      intros j [[t oa] la] [[t' oa'] la'] H. unfold pr in H. cbn [fst snd] in H. destruct H as ((Q1 & ->) & ->).
      eapply rel_bind; [apply rel_leaf; assumption|]. intros [[lf lb] ob] [[lf' lb'] ob'] ((H1 & H2) & H3). cbn [fst snd] in *. subst.
      eapply rel_bind; [apply rel_lift, set_rr; [exact Q1|exact H1]|]. intros. apply rel_ret. repeat split; assumption. }
    intros [[t oa] la] [[t' oa'] la'] ((Q1 & _) & _). cbn [fst snd] in Q1.
    eapply rel_bind with (R := pr cl eq).
    { unfold tfor_up. apply rel_for; [|split; [exact Q1|reflexivity]]. intros lv [t1 n1] [t2 n2] (G1 & G2). cbn [fst snd] in *. subst.
      apply rel_for; [|split; [exact G1|reflexivity]]. intros j [t3 n3] [t4 n4] (G3 & G4). cbn [fst snd] in *. subst.
      eapply rel_bind; [apply rel_lift, get_rr, G3|]. intros x x' Hx. eapply rel_bind; [apply rel_lift, get_rr, G3|]. intros y y' Hy.
      eapply rel_bind; [apply rel_h; now apply dl_app|]. intros [o b] [o' b'] (G5 & G6). cbn [fst snd] in *. subst.
      eapply rel_bind; [apply rel_lift, set_rr; [exact G3|exact G5]|]. intros. apply rel_ret. split; [assumption|reflexivity]. }
    intros [t1 n1] [t2 n2] (G1 & _). cbn [fst snd] in G1.
    eapply rel_bind with (R := cl).
    { apply rel_lift. unfold for_up. apply rr_for; [|constructor]. intros j x x' Hx. eapply rr_bind; [apply get_rr, G1|]. intros.
      apply Forall2_app; [exact Hx|]. constructor; [assumption|constructor]. }
    intros ap ap' Ha. eapply rel_bind; [apply rel_lift, get_rr, G1|]. intros. apply rel_ret. split; assumption.
  Qed.
End Two.

(** ** Objects *)

(** The same bookkeeping: parameters, index, lengths; secrets and hash functions may differ. *)
Definition objr (o o' : xfast) : Prop :=
  xb_params (xf_base o) = xb_params (xf_base o') /\ bdr (xf_state o) (xf_state o') /\
  dl (xb_sk (xf_base o)) (xb_sk (xf_base o')) /\ slice 0 4 (xb_sk (xf_base o)) = slice 0 4 (xb_sk (xf_base o')) /\
  (exists hf hf', hash_of_id (xb_hash (xf_base o)) = Some hf /\ hash_of_id (xb_hash (xf_base o')) = Some hf').

Definition skr (sk sk' : list N) : Prop := dl sk sk' /\ slice 0 4 sk = slice 0 4 sk'.
Lemma skr_write : forall i sk sk', dl sk sk' -> skr (to_byte 4 i ++ skipn 4 sk) (to_byte 4 i ++ skipn 4 sk').
Proof.
  intros i sk sk' H. split; [apply dl_app; [reflexivity|]; unfold dl in *; rewrite !skipn_length; congruence|].
  unfold slice. change (skipn 0 ?l) with l. rewrite !firstn_app, !to_byte_length, Nat.sub_diag. cbn [firstn]. reflexivity.
Qed.
Definition sumr {A B} (R : A -> B -> Prop) (x : exn + A) (y : exn + B) : Prop :=
  match x, y with inl e, inl e' => e = e' | inr a, inr b => R a b | _, _ => False end.

Lemma rel_update_idx : forall hf hf' p sk sk' st st' j, skr sk sk' -> bdr st st' ->
  rel (pr (pr skr bdr) (sumr eq)) (xmssfast_update_t hf p sk st j) (xmssfast_update_t hf' p sk' st' j).
Proof.
  intros hf hf' p sk sk' st st' j Hs HB. unfold xmssfast_update_t. cbv zeta. destruct Hs as (Hs & Hi). rewrite <- Hi.
  destruct (_ <=? j)%N; [apply rel_ret; split; [split; [now split|exact HB]|reflexivity]|]. destruct (j <? _)%N; [apply rel_ret; split; [split; [now split|exact HB]|reflexivity]|].
  eapply rel_bind with (R := bdr).
  - apply rel_for; [|exact HB]. intros. apply rel_step; [now apply dl_slice|assumption].
  - intros. apply rel_ret. split; [split; [now apply skr_write|assumption]|reflexivity].
Qed.

Lemma rel_Signmsg : forall hf hf' p sk sk' st st' m m', skr sk sk' -> bdr st st' -> dl m m' ->
  let i := from_be (slice 0 4 sk) in
  wots_digits (h_msg hf m (prf hf (to_byte 32 i) (slice 36 32 sk) ++ slice 100 32 sk ++ to_byte 32 i)) (x_wots p) =
  wots_digits (h_msg hf' m' (prf hf' (to_byte 32 i) (slice 36 32 sk') ++ slice 100 32 sk' ++ to_byte 32 i)) (x_wots p) ->
  rel (pr (pr skr bdr) dl) (xmssfast_Signmsg_t hf p sk st m) (xmssfast_Signmsg_t hf' p sk' st' m').
Proof.
  intros hf hf' p sk sk' st st' m m' (Hs & Hi) HB Hm i Hd. unfold xmssfast_Signmsg_t. rewrite <- Hi. fold i. cbv zeta.
  eapply rel_bind with (R := fun r r' => dl r r' /\ r = prf hf (to_byte 32 i) (slice 36 32 sk) /\ r' = prf hf' (to_byte 32 i) (slice 36 32 sk')).
  { assert (D : dl (slice 36 32 sk) (slice 36 32 sk')) by now apply dl_slice. destruct (rel_prf hf hf' (to_byte 32 i) _ _ D) as (R1 & R2).
    split; [repeat split; exact R1|exact R2]. }
  intros r r' (Hr & Er & Er'). 
  assert (HK : dl (r ++ slice 100 32 sk ++ to_byte 32 i) (r' ++ slice 100 32 sk' ++ to_byte 32 i)).
  { apply dl_app; [exact Hr|]. apply dl_app; [now apply dl_slice|reflexivity]. }
  eapply rel_bind with (R := fun h h' => wots_digits h (x_wots p) = wots_digits h' (x_wots p)).
  { destruct (rel_msg hf hf' m m' _ _ HK Hm) as (R1 & R2). split; [|exact R2]. subst r r'. exact Hd. }
  intros h h' Hh. eapply rel_bind; [apply rel_get_seed; now apply dl_slice|]. intros [s a] [s' a'] (G1 & G2). cbn [fst snd] in *. subst a'.
  eapply rel_bind; [apply rel_wsign; [exact G1|exact Hh]|]. intros [ws b] [ws' b'] (G3 & G4). cbn [fst snd] in *. subst b'.
  eapply rel_bind with (R := bdr).
  - destruct (_ <? _)%N; [apply rel_step; [now apply dl_slice|exact HB]|now apply rel_ret].
  - intros st1 st1' H1. apply rel_ret. split; [split; [now apply skr_write|exact H1]|]. destruct HB as (B1 & B2 & B3 & B4 & _).
    apply dl_app; [reflexivity|]. apply dl_app; [exact Hr|]. apply dl_app; [now apply dl_concat|]. apply dl_concat. generalize (x_h p) as n. intros n. revert n. clear -B4.
    induction B4; intros [|n]; cbn [firstn]; constructor; auto. apply IHB4.
Qed.

Lemma rel_basic_Signmsg : forall hf hf' junk junk' p sk sk' m m', dl junk junk' -> skr sk sk' -> dl m m' ->
  let i := from_be (slice 0 4 sk) in
  wots_digits (h_msg hf m (prf hf (to_byte 32 i) (slice 36 32 sk) ++ slice 100 32 sk ++ to_byte 32 i)) (x_wots p) =
  wots_digits (h_msg hf' m' (prf hf' (to_byte 32 i) (slice 36 32 sk') ++ slice 100 32 sk' ++ to_byte 32 i)) (x_wots p) ->
  rel (fun _ _ => True) (xmss_Signmsg_t hf junk p sk m) (xmss_Signmsg_t hf' junk' p sk' m').
Proof.
  intros hf hf' junk junk' p sk sk' m m' Hj (Hs & Hi) Hm i Hd. unfold xmss_Signmsg_t. rewrite <- Hi. fold i. cbv zeta.
  eapply rel_bind with (R := fun r r' => dl r r' /\ r = prf hf (to_byte 32 i) (slice 36 32 sk) /\ r' = prf hf' (to_byte 32 i) (slice 36 32 sk')).
  { assert (D : dl (slice 36 32 sk) (slice 36 32 sk')) by now apply dl_slice. destruct (rel_prf hf hf' (to_byte 32 i) _ _ D) as (R1 & R2).
    split; [repeat split; exact R1|exact R2]. }
  intros r r' (Hr & Er & Er').
  assert (HK : dl (r ++ slice 100 32 sk ++ to_byte 32 i) (r' ++ slice 100 32 sk' ++ to_byte 32 i)).
  { apply dl_app; [exact Hr|]. apply dl_app; [now apply dl_slice|reflexivity]. }
  eapply rel_bind with (R := fun h h' => wots_digits h (x_wots p) = wots_digits h' (x_wots p)).
  { destruct (rel_msg hf hf' m m' _ _ HK Hm) as (R1 & R2). split; [|exact R2]. subst r r'. exact Hd. }
  intros h h' Hh. eapply rel_bind; [apply rel_get_seed; now apply dl_slice|]. intros [s a] [s' a'] (G1 & G2). cbn [fst snd] in *. subst a'.
  eapply rel_bind; [apply rel_wsign; [exact G1|exact Hh]|]. intros [ws b] [ws' b'] (G3 & G4). cbn [fst snd] in *. subst b'.
  eapply rel_bind; [apply rel_authpath; [now apply dl_slice|exact Hj]|]. intros [? ?] [? ?] _. now apply rel_ret.
Qed.
