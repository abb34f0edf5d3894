(** Functional correctness of the BDS traversal (AlgsXmssFast.v). *)
From Coq Require Import List NArith Arith Lia Bool Sorted.
From Verif Require Import Base Bytes Keccak KeccakLemmas HashAddress Wots XmssCommon AlgsXmss AlgsXmssFast
  SpecXmss XmssRefine WotsProofs TreeProofs BasicProofs BdsSched.
Import ListNotations.
Open Scope nat_scope.

(** ** Arithmetic of leaf numbers *)
Lemma odd_double_1 : forall x, Nat.odd (2 * x + 1) = true.
Proof. intros. apply Nat.odd_spec. now exists x. Qed.
Lemma odd_double : forall x, Nat.odd (2 * x) = false.
Proof. intros. rewrite <- Nat.negb_even. apply negb_false_iff. apply Nat.even_spec. now exists x. Qed.
Lemma not_odd_even : forall x, Nat.odd x = false -> exists y, x = 2 * y.
Proof. intros x H. rewrite <- Nat.negb_even in H. apply negb_false_iff in H. now apply Nat.even_spec in H. Qed.
Lemma odd_ex : forall x, Nat.odd x = true -> exists y, x = 2 * y + 1.
Proof. intros x H. now apply Nat.odd_spec in H. Qed.
Lemma testbit_div : forall a n, Nat.testbit a n = Nat.odd (a / 2 ^ n).
Proof. intros. now rewrite Nat.testbit_odd, Nat.shiftr_div_pow2. Qed.
Lemma div_pow_S : forall a n, a / 2 ^ S n = a / 2 ^ n / 2.
Proof. intros. rewrite pow2_S, Nat.mul_comm. pose proof (pow2_pos n). now rewrite Nat.div_div by lia. Qed.

(* s + 1 = (2x+1) 2^tau *)
Lemma tau_facts : forall s tau x, s + 1 = (2 * x + 1) * 2 ^ tau ->
  s / 2 ^ tau = 2 * x /\ (s + 1) / 2 ^ tau = 2 * x + 1 /\
  (forall i, i < tau -> exists y, s / 2 ^ i = 2 * y + 1 /\ (s + 1) / 2 ^ i = 2 * y + 2 /\ (s + 1) / 2 ^ S i = y + 1 /\ s / 2 ^ S i = y /\ s + 1 = (y + 1) * 2 ^ S i) /\
  (forall i, tau < i -> (s + 1) / 2 ^ i = s / 2 ^ i) /\
  (forall i, (s + 1) mod 2 ^ S i = 0 <-> i < tau).
Proof.
  intros s tau x E. pose proof (pow2_pos tau) as P.
  assert (F1 : s / 2 ^ tau = 2 * x).
  { symmetry. apply (Nat.div_unique _ _ _ (2 ^ tau - 1)); [lia|]. nia. }
  assert (F2 : (s + 1) / 2 ^ tau = 2 * x + 1) by (rewrite E; apply Nat.div_mul; lia).
  split; [exact F1|]. split; [exact F2|].
  assert (F3 : forall i, i < tau -> exists y, s / 2 ^ i = 2 * y + 1 /\ (s + 1) / 2 ^ i = 2 * y + 2 /\ (s + 1) / 2 ^ S i = y + 1 /\ s / 2 ^ S i = y /\ s + 1 = (y + 1) * 2 ^ S i).
  { intros i Hi. pose proof (pow2_pos i). pose proof (pow2_pos (S i)). pose proof (pow2_pos (tau - S i)).
    assert (E2 : s + 1 = ((2 * x + 1) * 2 ^ (tau - S i)) * 2 ^ S i).
    { rewrite E, <- Nat.mul_assoc. f_equal. now apply pow2_split. }
    set (z := (2 * x + 1) * 2 ^ (tau - S i)) in *. assert (0 < z) by (unfold z; nia).
    exists (z - 1). rewrite pow2_S in *. repeat split.
    - symmetry. apply (Nat.div_unique _ _ _ (2 ^ i - 1)); [lia|]. nia.
    - symmetry. apply (Nat.div_unique _ _ _ 0); [lia|]. nia.
    - symmetry. apply (Nat.div_unique _ _ _ 0); [lia|]. nia.
    - symmetry. apply (Nat.div_unique _ _ _ (2 * 2 ^ i - 1)); [lia|]. nia.
    - nia. }
  split; [exact F3|].
  assert (F4 : forall i, tau < i -> (s + 1) / 2 ^ i = s / 2 ^ i).
  { intros i Hi. replace i with (S tau + (i - S tau)) by lia. rewrite Nat.pow_add_r.
    pose proof (pow2_pos (S tau)). pose proof (pow2_pos (i - S tau)).
    rewrite <- !Nat.div_div by lia. f_equal. rewrite !div_pow_S, F1, F2.
    rewrite (Nat.mul_comm 2 x), Nat.div_mul, Nat.div_add_l by lia. cbn. lia. }
  split; [exact F4|].
  intros i. split.
  - intros H. destruct (Nat.lt_ge_cases i tau); auto. exfalso.
    apply (mod_pow_0 _ (S tau)) in H; [|lia]. apply Nat.mod_divides in H; [|pose proof (pow2_pos (S tau)); lia].
    destruct H as [c Hc]. rewrite E, pow2_S in Hc. assert (2 * x + 1 = 2 * c) by nia. lia.
  - intros Hi. destruct (F3 i Hi) as (y & _ & _ & _ & _ & E3). rewrite E3. apply Nat.mod_mul.
    pose proof (pow2_pos (S i)). lia.
Qed.

Lemma find_tau_spec : forall s h, s + 1 < 2 ^ h ->
  exists tau x, find_tau h 0 h s = tau /\ tau < h /\ s + 1 = (2 * x + 1) * 2 ^ tau.
Proof.
  intros s h Hs.
  assert (G : forall n i c, i + n = h -> s + 1 = c * 2 ^ i ->
    exists tau x, find_tau n i h s = tau /\ tau < h /\ s + 1 = (2 * x + 1) * 2 ^ tau).
  { induction n; intros i c Hi Hc.
    - exfalso. replace i with h in Hc by lia. destruct c; [lia|]. nia.
    - cbn [find_tau]. rewrite testbit_div.
      assert (Ed : s / 2 ^ i = c - 1).
      { pose proof (pow2_pos i). destruct c; [lia|]. symmetry.
        apply (Nat.div_unique _ _ _ (2 ^ i - 1)); [lia|]. nia. }
      rewrite Ed. destruct (Nat.odd (c - 1)) eqn:Eo; cbn [negb].
      + destruct (odd_ex _ Eo) as [y Ey]. apply (IHn (S i) (y + 1)); [lia|]. rewrite pow2_S.
        assert (c = 2 * y + 2) by lia. subst c. nia.
      + destruct (not_odd_even _ Eo) as [y Ey]. exists i, y. repeat split; try lia.
        destruct c; [lia|]. assert (S c = 2 * y + 1) by lia. congruence. }
  destruct (G h 0 (s + 1)) as (tau & x & H); [lia| cbn; lia |]. now exists tau, x.
Qed.

(** ** Stack lists *)
Definition lv_sorted (st : list (nat * nat)) : Prop := StronglySorted lt (map fst st).

Lemma sorted_app : forall a b, StronglySorted lt a -> StronglySorted lt b ->
  (forall x y, In x a -> In y b -> x < y) -> StronglySorted lt (a ++ b).
Proof.
  induction a; intros b Ha Hb H; auto. cbn [app]. inversion Ha; subst. constructor.
  - apply IHa; auto. intros; apply H; auto. now right.
  - apply Forall_app. split; auto. apply Forall_forall. intros y Hy. apply H; auto. now left.
Qed.

Lemma sorted_length : forall l a b, StronglySorted lt l -> (forall x, In x l -> a <= x < b) -> length l <= b - a.
Proof.
  induction l; intros lo b Hs H; cbn [length]; [lia|]. inversion Hs as [|? ? Hs' HF]; subst.
  assert (lo <= a < b) by (apply H; now left).
  assert (length l <= b - S a).
  { apply IHl; auto. intros x Hx. rewrite Forall_forall in HF. specialize (HF x Hx).
    assert (lo <= x < b) by (apply H; now right). lia. }
  lia.
Qed.

Lemma covers_sorted : forall b st n, covers b st n -> lv_sorted st.
Proof.
  induction 1 as [|l i rest Hc IH Hev Hdec]; [constructor|]. unfold lv_sorted in *. cbn [map fst]. constructor; auto.
  destruct rest as [|[l' i'] r]; [constructor|]. cbn [map fst] in *. inversion IH; subst.
  assert (l < l') by (eapply Hdec; eauto). constructor; auto.
  eapply Forall_impl; [|eassumption]. intros. cbn in *. lia.
Qed.

Lemma covers_levels_b : forall b st n, covers b st n -> forall l i, In (l, i) st -> b + 2 ^ l <= n.
Proof.
  induction 1 as [|l0 i0 rest Hc IH Hev Hdec]; intros l i Hin; [destruct Hin|]. destruct Hin as [E|Hin].
  - injection E as <- <-. apply covers_ge in Hc. nia.
  - apply IH in Hin. pose proof (pow2_pos l0). nia.
Qed.

Lemma covers_div : forall b st n e, covers b st n -> (forall l i, In (l, i) st -> e <= l) -> (n - b) mod 2 ^ e = 0.
Proof.
  intros b st n e H. induction H as [|l i rest Hc IH Hev Hdec]; intros Hl.
  - rewrite Nat.sub_diag. apply Nat.mod_0_l. pose proof (pow2_pos e). lia.
  - assert (He : e <= l) by (eapply Hl; left; reflexivity).
    assert (Hr : (i * 2 ^ l - b) mod 2 ^ e = 0) by (apply IH; intros; eapply Hl; right; eauto).
    apply covers_ge in Hc. pose proof (pow2_pos e).
    apply Nat.mod_divides in Hr; [|lia]. destruct Hr as [c Ec].
    rewrite (pow2_split e l He) in *. apply Nat.mod_divides; [lia|]. exists (c + 2 ^ (l - e)). nia.
Qed.

Lemma covers_top_div : forall b L x rest n e B pw, covers b ((L, x) :: rest) n -> b = B * 2 ^ pw -> e <= pw ->
  (n - b) mod 2 ^ e = 0 -> e <= L.
Proof.
  intros b L x rest n e B pw H Eb He Hd. pose proof (covers_ge _ _ _ H) as Hge.
  inversion H as [|? ? ? Hc Hev Hdec E1 E2]; subst.
  destruct (Nat.le_gt_cases e L) as [|Hgt]; auto. exfalso.
  pose proof (pow2_pos e). apply Nat.mod_divides in Hd; [|lia]. destruct Hd as [c Ec].
  apply Nat.even_spec in Hev. destruct Hev as [y ->]. pose proof (pow2_pos L) as PL.
  assert (E1 : 2 ^ e = 2 ^ (e - S L) * 2 * 2 ^ L).
  { rewrite (pow2_split (S L) e) at 1 by lia. rewrite pow2_S. lia. }
  assert (E2 : (2 * y + 1) * 2 ^ L = B * 2 ^ pw + 2 ^ e * c) by lia.
  rewrite (pow2_split e pw He), E1 in E2.
  assert (E3 : 2 * y + 1 = 2 * (B * 2 ^ (pw - e) * 2 ^ (e - S L) + 2 ^ (e - S L) * c)).
  { apply (Nat.mul_cancel_r _ _ (2 ^ L)); [lia|]. rewrite E2. ring. }
  lia.
Qed.

(** ** The shared stack: the instances' partial stacks, smallest index on top *)
Definition stk_from (P : nat -> list (nat * nat)) (k n : nat) : list (nat * nat) := concat (map P (seq k n)).

Lemma stk_from_nil : forall P k n, (forall j, k <= j < k + n -> P j = []) -> stk_from P k n = [].
Proof.
  unfold stk_from. intros P k n. revert k. induction n; intros k H; auto. cbn [seq map concat].
  rewrite H by lia. cbn [app]. apply IHn. intros. apply H. lia.
Qed.
Lemma stk_from_split : forall P p m, p < m -> (forall j, j < p -> P j = []) ->
  stk_from P 0 m = P p ++ stk_from P (S p) (m - S p).
Proof.
  intros P p m Hp H. unfold stk_from. replace m with (p + S (m - S p)) at 1 by lia.
  rewrite seq_app, map_app, concat_app. fold (stk_from P 0 p). rewrite stk_from_nil by (intros; apply H; lia).
  cbn [plus seq map concat app]. reflexivity.
Qed.
Lemma stk_from_ext : forall P Q k n, (forall j, k <= j < k + n -> P j = Q j) -> stk_from P k n = stk_from Q k n.
Proof.
  intros. unfold stk_from. f_equal. apply map_ext_in. intros j Hj. apply in_seq in Hj. auto.
Qed.
Lemma stk_from_in : forall P k n x, In x (stk_from P k n) <-> exists j, k <= j < k + n /\ In x (P j).
Proof.
  intros. unfold stk_from. rewrite in_concat. split.
  - intros (l & Hl & Hx). apply in_map_iff in Hl. destruct Hl as (j & <- & Hj). apply in_seq in Hj. eauto.
  - intros (j & Hj & Hx). exists (P j). split; auto. apply in_map. apply in_seq. auto.
Qed.
Lemma stk_from_length : forall P k n j, k <= j < k + n -> length (P j) <= length (stk_from P k n).
Proof.
  intros P k n. revert k. unfold stk_from. induction n; intros k j Hj; [lia|]. cbn [seq map concat]. rewrite app_length.
  destruct (Nat.eq_dec j k) as [->|]; [lia|]. specialize (IHn (S k) j). lia.
Qed.

Record layout (m : nat) (P : nat -> list (nat * nat)) : Prop := {
  lay_sorted : forall i, i < m -> lv_sorted (P i);
  lay_lt : forall i l x, i < m -> In (l, x) (P i) -> l < i;
  lay_nested : forall i j l x, i < j -> j < m -> P i <> [] -> In (l, x) (P j) -> i <= l }.

Lemma layout_sorted : forall m P k n, layout m P -> k + n <= m -> lv_sorted (stk_from P k n).
Proof.
  intros m P k n HL. revert k. induction n; intros k Hk; [constructor|].
  unfold lv_sorted, stk_from. cbn [seq map concat]. rewrite map_app.
  apply sorted_app.
  - apply (lay_sorted _ _ HL). lia.
  - apply IHn. lia.
  - intros x y Hx Hy. apply in_map_iff in Hx. destruct Hx as ([l a] & <- & Hx).
    apply in_map_iff in Hy. destruct Hy as ([l' a'] & <- & Hy). cbn [fst].
    fold (stk_from P (S k) n) in Hy. apply stk_from_in in Hy. destruct Hy as (j & Hj & Hy).
    assert (l < k) by (eapply (lay_lt _ _ HL); eauto; lia).
    assert (k <= l').
    { eapply (lay_nested _ _ HL k j); eauto; try lia. intro E. now rewrite E in Hx. }
    lia.
Qed.

Lemma layout_length : forall m P, layout m P -> length (stk_from P 0 m) <= m.
Proof.
  intros m P HL. rewrite <- (map_length fst).
  replace m with (m - 0) at 2 by lia. apply sorted_length.
  - now apply (layout_sorted m P 0 m HL).
  - intros x Hx. apply in_map_iff in Hx. destruct Hx as ([l a] & <- & Hx). apply stk_from_in in Hx.
    destruct Hx as (j & Hj & Hx). cbn. assert (l < j) by (eapply (lay_lt _ _ HL); eauto; lia). lia.
Qed.

Section BDS.
  Variables (hf : hashfn) (ssd ps : list N) (p : xmss_params).
  Variables (m q : nat).
  Hypothesis Hmq : m = 2 * q.
  Hypothesis Hq : 1 <= q.
  Hypothesis Hh : x_h p = m + 2.
  Hypothesis Hk : x_k p = 2.
  Hypothesis Hw : (1 <= w_w (x_wots p))%N.
  Hypothesis Hlen : 1 <= w_len (x_wots p).
  Local Notation h := (m + 2).
  Local Notation nd := (tnode hf ssd ps p).
  Local Notation rep := (stack_rep hf ssd ps p).

  (** Index of the node instance [i] works on (or holds) during round [t]. *)
  Definition Jt (t i : nat) : nat := 2 * (t / 2 ^ S i) + 3.
  Definition base (t i : nat) : nat := Jt t i * 2 ^ i.

  (** Instance [i], with [r] leaves to go and partial stack [P]. *)
  Definition inst_ok (t i r : nat) (P : list (nat * nat)) (th : treehash_inst) : Prop :=
    th_h th = i /\ r <= 2 ^ i /\
    (r = 0 -> th_completed th = true /\ P = [] /\ (base t i < 2 ^ h -> th_node th = nd i (Jt t i))) /\
    (0 < r -> th_completed th = false /\ th_next_idx th = base t i + (2 ^ i - r) /\
              th_stackusage th = length P /\ covers (base t i) P (base t i + (2 ^ i - r))).

  Record th_ok (t : nat) (r : nat -> nat) (P : nat -> list (nat * nat)) (st : bds_state) : Prop := {
    to_len : length (b_treehash st) = m;
    to_inst : forall i, i < m -> exists th, nth_error (b_treehash st) i = Some th /\ inst_ok t i (r i) (P i) th;
    to_lay : layout m P;
    to_rep : rep (stk_from P 0 m) (b_stack st) (b_stacklevels st) (b_stackoffset st);
    to_ls : length (b_stack st) = h + 1;
    to_ll : length (b_stacklevels st) = h + 1;
    to_live : forall i, i < m -> 0 < r i -> base t i < 2 ^ h }.

  Lemma inst_unstarted : forall t i r P th, inst_ok t i r P th -> 0 < r -> (P = [] <-> r = 2 ^ i).
  Proof.
    intros t i r P th (_ & Hr & _ & H) H0. destruct (H H0) as (_ & _ & _ & Hc). split.
    - intros ->. inversion Hc. lia.
    - intros ->. rewrite Nat.sub_diag, Nat.add_0_r in Hc. inversion Hc as [|? ? ? Hc']; auto.
      apply covers_ge in Hc'. pose proof (pow2_pos l). nia.
  Qed.

  (** ** bds_choose *)
  Lemma minheight_top : forall st th L x rest, 
    rep ((L, x) :: rest) (b_stack st) (b_stacklevels st) (b_stackoffset st) ->
    lv_sorted ((L, x) :: rest) -> L < h -> 1 <= th_stackusage th <= S (length rest) ->
    treehash_minheight_on_stack st p th = Ok L.
  Proof.
    intros st th L x rest Hrep Hs HL Hu. unfold treehash_minheight_on_stack. rewrite Hh.
    destruct (for_up_inv _ (fun n r => match n with O => r = h | _ => r = L end)
       (fun i r => if b_stackoffset st <? i + 1 then UB else
          l <- get (b_stacklevels st) (b_stackoffset st - i - 1) ;; Ok (if l <? r then l else r))
       (th_stackusage th) h) as (r & E & HI).
    - reflexivity.
    - intros i r Hi HI. pose proof (sr_off _ _ _ _ _ _ _ _ Hrep) as Eo. cbn [length] in Eo.
      rewrite (proj2 (Nat.ltb_ge _ _)) by lia.
      pose proof (sr_levels _ _ _ _ _ _ _ _ Hrep) as El.
      set (lv := b_stacklevels st) in *. set (off := b_stackoffset st) in *.
      assert (G : nth_error lv (off - i - 1) = nth_error (map lvl ((L, x) :: rest)) i).
      { assert (G1 : nth_error lv (off - i - 1) = nth_error (firstn off lv) (off - i - 1)).
        { rewrite <- (firstn_skipn off lv) at 1. apply nth_error_app1. rewrite El, rev_length, map_length. cbn [length]. lia. }
        rewrite G1, El. clear - Eo Hu Hi.
        set (l := map lvl ((L, x) :: rest)). assert (Ll : length l = off) by (unfold l; rewrite map_length; cbn [length]; lia).
        rewrite (nth_error_nth' _ 0) by (rewrite rev_length; lia).
        rewrite rev_nth by lia. replace (length l - S (off - i - 1)) with i by lia.
        symmetry. apply nth_error_nth'. lia. }
      destruct (nth_error (map lvl ((L, x) :: rest)) i) as [l|] eqn:En.
      2:{ apply nth_error_None in En. rewrite map_length in En. cbn [length] in En. lia. }
      assert (Gg : get lv (off - i - 1) = Ok l) by (apply get_ok; congruence).
      rewrite Gg. cbn [bind]. eexists. split; [reflexivity|].
      destruct i.
      + cbn in En. injection En as <-. cbn in HI. subst r. now rewrite (proj2 (Nat.ltb_lt _ _) HL).
      + subst r. cbn in En. apply nth_error_In in En.
        unfold lv_sorted in Hs. cbn [map fst] in Hs. inversion Hs as [|? ? _ HF]; subst.
        rewrite Forall_forall in HF. unfold lvl in En. specialize (HF l En).
        now rewrite (proj2 (Nat.ltb_ge _ _)) by lia.
    - rewrite E. destruct (th_stackusage th); [lia|]. now subst.
  Qed.

  (* effective "low" of a working instance *)
  Definition low (r : nat -> nat) (L i : nat) : nat := if r i =? 2 ^ i then i else L.

  Lemma choose_spec : forall t r P st, th_ok t r P st ->
    (bds_choose st p = Ok (m, h) /\ forall i, i < m -> r i = 0) \/
    (exists pk lmin, bds_choose st p = Ok (pk, lmin) /\ pk < m /\ 0 < r pk /\
       (forall j, j < pk -> P j = []) /\
       (forall j l x, pk < j -> j < m -> In (l, x) (P j) -> pk <= l) /\ pick_ok m r pk).
  Proof.
    intros t r P st HT. unfold bds_choose. rewrite Hh, Hk.
    replace (h - 2) with m by lia.
    set (L := match stk_from P 0 m with [] => 0 | (l, _) :: _ => l end).
    pose proof (layout_sorted m P 0 m (to_lay _ _ _ _ HT) ltac:(lia)) as HS.
    (* low values *)
    assert (Hlow : forall i, i < m -> 0 < r i -> exists th, nth_error (b_treehash st) i = Some th /\
       th_completed th = false /\
       (if th_stackusage th =? 0 then Ok i else treehash_minheight_on_stack st p th) = Ok (low r L i)).
    { intros i Hi Hri. destruct (to_inst _ _ _ _ HT i Hi) as (th & En & Hok). exists th. split; auto.
      pose proof (inst_unstarted _ _ _ _ _ Hok Hri) as Hun.
      destruct Hok as (E1 & Hle & _ & H2). destruct (H2 Hri) as (Ec & Enx & Eu & Hc).
      split; auto. unfold low. destruct (r i =? 2 ^ i) eqn:E.
      - apply Nat.eqb_eq in E. apply Hun in E. rewrite E in Eu. cbn in Eu. now rewrite Eu.
      - apply Nat.eqb_neq in E. destruct (P i) as [|[l x] Pi] eqn:EP; [tauto|].
        rewrite Eu. cbn [length Nat.eqb].
        assert (Hne : length (P i) <= length (stk_from P 0 m)) by (apply stk_from_length; lia).
        pose proof (to_rep _ _ _ _ HT) as HR. unfold L.
        assert (HinL : forall a b, In (a, b) (stk_from P 0 m) -> a < h).
        { intros a b Hin. apply stk_from_in in Hin. destruct Hin as (j & Hj & Hin).
          pose proof (lay_lt _ _ (to_lay _ _ _ _ HT) j a b ltac:(lia) Hin). lia. }
        destruct (stk_from P 0 m) as [|[L0 x0] rest]; [rewrite EP in Hne; cbn in Hne; lia|].
        apply (minheight_top st th L0 x0 rest); auto.
        + eapply HinL. left; reflexivity.
        + rewrite EP in Hne. cbn [length] in *. lia. }
    (* facts about L *)
    assert (HL : forall i, i < m -> P i <> [] -> L < i).
    { intros i Hi Hne. destruct (P i) as [|[l x] Pi] eqn:EP; [congruence|].
      assert (Hlt : l < i) by (eapply (lay_lt _ _ (to_lay _ _ _ _ HT)); eauto; rewrite EP; now left).
      unfold L. destruct (stk_from P 0 m) as [|[L0 x0] rest] eqn:Es; [lia|].
      assert (Hin : In (l, x) ((L0, x0) :: rest)) by (rewrite <- Es; apply stk_from_in; exists i; rewrite EP; split; [lia|now left]).
      destruct Hin as [E|Hin]; [now injection E as <- <-|].
      unfold lv_sorted in HS. cbn [map fst] in HS. inversion HS as [|? ? _ HF]; subst.
      rewrite Forall_forall in HF. specialize (HF l (in_map fst _ _ Hin)). lia. }
    assert (HLle : forall j l x, j < m -> In (l, x) (P j) -> L <= l).
    { intros j l x Hj Hin. unfold L. assert (Hi2 : In (l, x) (stk_from P 0 m)) by (apply stk_from_in; exists j; split; [lia|auto]).
      destruct (stk_from P 0 m) as [|[L0 x0] rest]; [lia|]. destruct Hi2 as [E|Hi2]; [injection E as -> ->; lia|].
      unfold lv_sorted in HS. cbn [map fst] in HS. inversion HS as [|? ? _ HF]; subst.
      rewrite Forall_forall in HF. specialize (HF l (in_map fst _ _ Hi2)). lia. }
    assert (HlowB : forall i, i < m -> 0 < r i -> low r L i < h).
    { intros i Hi Hri. unfold low. destruct (r i =? 2 ^ i) eqn:E; [lia|]. apply Nat.eqb_neq in E.
      destruct (to_inst _ _ _ _ HT i Hi) as (th & _ & Hok). pose proof (inst_unstarted _ _ _ _ _ Hok Hri) as Hun.
      assert (L < i) by (apply HL; tauto). lia. }
    match goal with |- context [for_up m ?f ?s0] =>
      destruct (for_up_inv _ (fun n '(level, lmin) =>
        (level = m /\ lmin = h /\ forall j, j < n -> r j = 0) \/
        (level < n /\ 0 < r level /\ lmin = low r L level /\
         forall j, j < n -> 0 < r j -> lmin < low r L j \/ (lmin = low r L j /\ level <= j))) f m s0)
        as ([level lmin] & E & HI) end.
    { left. repeat split; auto. intros; lia. }
    { intros i [level lmin] Hi HI.
      destruct (Nat.eq_dec (r i) 0) as [E0|E0].
      - destruct (to_inst _ _ _ _ HT i Hi) as (th & En & (E1 & _ & H1 & _)). destruct (H1 E0) as (Ec & _).
        rewrite (proj2 (get_ok _ _ _ _) En). cbn [bind]. rewrite Ec. cbn [bind].
        assert (Hlm : (h <? lmin) = false).
        { apply Nat.ltb_ge. destruct HI as [(_ & -> & _)|(Hl1 & Hl2 & -> & _)]; [lia|].
          specialize (HlowB level ltac:(lia) Hl2). lia. }
        rewrite Hlm. eexists. split; [reflexivity|].
        destruct HI as [(-> & -> & HI)|(Hl1 & Hl2 & -> & HI)].
        + left. repeat split; auto. intros j Hj. destruct (Nat.eq_dec j i) as [->|]; auto. apply HI. lia.
        + right. repeat split; auto. intros j Hj Hrj. destruct (Nat.eq_dec j i) as [->|]; [lia|]. apply HI; auto. lia.
      - destruct (Hlow i Hi ltac:(lia)) as (th & En & Ec & El).
        rewrite (proj2 (get_ok _ _ _ _) En). cbn [bind]. rewrite Ec, El. cbn [bind].
        eexists. split; [reflexivity|]. specialize (HlowB i Hi ltac:(lia)).
        destruct (low r L i <? lmin) eqn:Elt.
        + apply Nat.ltb_lt in Elt. right. repeat split; auto; try lia.
          intros j Hj Hrj. destruct (Nat.eq_dec j i) as [->|]; [right; split; auto|].
          destruct HI as [(_ & _ & HI)|(_ & _ & _ & HI)].
          * specialize (HI j ltac:(lia)). lia.
          * left. destruct (HI j ltac:(lia) Hrj); lia.
        + apply Nat.ltb_ge in Elt. destruct HI as [(_ & -> & _)|(Hl1 & Hl2 & Hl3 & HI)]; [lia|].
          right. repeat split; auto. intros j Hj Hrj. destruct (Nat.eq_dec j i) as [->|]; [lia|]. apply HI; auto. lia. }
    rewrite E. destruct HI as [(-> & -> & HI)|(Hl1 & Hl2 & Hl3 & HI)]; [left; auto|].
    right. exists level, lmin. split; [reflexivity|]. split; [lia|]. split; [auto|].
    destruct (to_inst _ _ _ _ HT level Hl1) as (thp & _ & Hokp).
    pose proof (inst_unstarted _ _ _ _ _ Hokp Hl2) as Hunp.
    (* state of an instance *)
    assert (Hst : forall j, j < m -> P j <> [] -> 0 < r j /\ r j <> 2 ^ j).
    { intros j Hj Hne. destruct (to_inst _ _ _ _ HT j Hj) as (th & _ & Hok).
      destruct (Nat.eq_dec (r j) 0) as [E0|E0].
      - destruct Hok as (_ & _ & H1 & _). destruct (H1 E0) as (_ & E1 & _). congruence.
      - split; [lia|]. intro E1. apply Hne. eapply inst_unstarted; eauto; lia. }
    assert (Hdiv : forall j e, j < m -> e <= j -> (forall l x, In (l, x) (P j) -> e <= l) -> r j mod 2 ^ e = 0).
    { intros j e Hj He Hl. destruct (to_inst _ _ _ _ HT j Hj) as (th & _ & (_ & Hle & _ & H2)).
      destruct (Nat.eq_dec (r j) 0) as [E0|E0].
      { rewrite E0. apply Nat.mod_0_l. pose proof (pow2_pos e). lia. }
      destruct (H2 ltac:(lia)) as (_ & _ & _ & Hc).
      pose proof (covers_div _ _ _ e Hc Hl) as Hd.
      replace (base t j + (2 ^ j - r j) - base t j) with (2 ^ j - r j) in Hd by lia.
      pose proof (pow2_pos e). apply Nat.mod_divides in Hd; [|lia]. destruct Hd as [c Ec].
      pose proof (pow2_split e j He) as Ep. apply Nat.mod_divides; [lia|].
      exists (2 ^ (j - e) - c). rewrite Nat.mul_sub_distr_l. lia. }
    destruct (Nat.eq_dec (r level) (2 ^ level)) as [Eun|Eun].
    - (* not started *)
      assert (Elm : lmin = level) by (rewrite Hl3; unfold low; now rewrite Eun, Nat.eqb_refl).
      assert (Hz : forall j, j < level -> r j = 0).
      { intros j Hj. destruct (Nat.eq_dec (r j) 0) as [|E0]; auto. exfalso.
        destruct (HI j ltac:(lia) ltac:(lia)) as [Hx|[_ Hx]]; [|lia].
        unfold low in Hx. destruct (r j =? 2 ^ j) eqn:Ej; [lia|]. apply Nat.eqb_neq in Ej.
        destruct (to_inst _ _ _ _ HT j ltac:(lia)) as (th & _ & Hok).
        assert (L < j). { apply HL; [lia|]. intro E1. apply (inst_unstarted _ _ _ _ _ Hok ltac:(lia)) in E1. lia. }
        lia. }
      assert (HPe : forall j, j < level -> P j = []).
      { intros j Hj. destruct (P j) eqn:EP; auto. assert (0 < r j) by (apply Hst; [lia|congruence]). specialize (Hz j Hj). lia. }
      assert (HF : forall j l x, level < j -> j < m -> In (l, x) (P j) -> level <= l).
      { intros j l x Hj Hjm Hin. assert (Hne : P j <> []) by (intro E1; now rewrite E1 in Hin).
        destruct (Hst j Hjm Hne) as [Hr1 Hr2]. destruct (HI j ltac:(lia) Hr1) as [Hx|[Hx _]];
          unfold low in Hx; rewrite (proj2 (Nat.eqb_neq _ _) Hr2) in Hx; specialize (HLle j l x Hjm Hin); lia. }
      split; [exact HPe|]. split; [exact HF|].
      split; [exact Hl1|]. split; [exact Hl2|]. intros i Hi Hmod. split.
      + intros j Hj. apply Hz. lia.
      + intros j Hj Hjm. destruct (Nat.lt_trichotomy j level) as [Hlt|[->|Hgt]].
        * rewrite Hz by auto. apply Nat.mod_0_l. pose proof (pow2_pos i). lia.
        * exact Hmod.
        * apply Hdiv; [auto|lia|]. intros l x Hin. specialize (HF j l x Hgt Hjm Hin). lia.
    - (* in progress: on top of the stack *)
      assert (HneP : P level <> []) by tauto.
      assert (Elm : lmin = L) by (rewrite Hl3; unfold low; now rewrite (proj2 (Nat.eqb_neq _ _) Eun)).
      assert (HLl : L < level) by (apply HL; auto).
      assert (HPe : forall j, j < level -> P j = []).
      { intros j Hj. destruct (P j) eqn:EP; auto. exfalso. destruct (Hst j ltac:(lia) ltac:(congruence)) as [Hr1 Hr2].
        destruct (HI j ltac:(lia) Hr1) as [Hx|[_ Hx]]; [|lia].
        unfold low in Hx. rewrite (proj2 (Nat.eqb_neq _ _) Hr2) in Hx. lia. }
      assert (HF : forall j l x, level < j -> j < m -> In (l, x) (P j) -> level <= l).
      { intros j l x Hj Hjm Hin. eapply (lay_nested _ _ (to_lay _ _ _ _ HT)); eauto. }
      split; [exact HPe|]. split; [exact HF|].
      split; [exact Hl1|]. split; [exact Hl2|]. intros i Hi Hmod.
      assert (HiL : i <= L).
      { pose proof (stk_from_split P level m Hl1 HPe) as Es.
        destruct (P level) as [|[l0 x0] rest0] eqn:EP; [congruence|].
        assert (L = l0) by (unfold L; rewrite Es; reflexivity). subst l0.
        destruct Hokp as (_ & Hle & _ & H2). destruct (H2 Hl2) as (_ & _ & _ & Hc).
        eapply (covers_top_div _ L x0 rest0 _ i (Jt t level) level Hc); [reflexivity|lia|].
        replace (base t level + (2 ^ level - r level) - base t level) with (2 ^ level - r level) by lia.
        pose proof (pow2_pos i). apply Nat.mod_divides in Hmod; [|lia]. destruct Hmod as [c Ec].
        pose proof (pow2_split i level ltac:(lia)) as Ep. apply Nat.mod_divides; [lia|].
        exists (2 ^ (level - i) - c). rewrite Nat.mul_sub_distr_l. lia. }
      split.
      + intros j Hj. destruct (Nat.eq_dec (r j) 0) as [|E0]; auto. exfalso.
        destruct (HI j ltac:(lia) ltac:(lia)) as [Hx|[_ Hx]]; [|lia].
        unfold low in Hx. destruct (r j =? 2 ^ j) eqn:Ej; lia.
      + intros j Hj Hjm. destruct (Nat.lt_trichotomy j level) as [Hlt|[->|Hgt]].
        * apply Hdiv; [auto|lia|]. rewrite HPe by auto. intros l x [].
        * exact Hmod.
        * apply Hdiv; [auto|lia|]. intros l x Hin. specialize (HF j l x Hgt Hjm Hin). lia.
  Qed.

  (** ** treehash_update *)
  Lemma stack_rep_tail : forall y st stack levels off,
    rep (y :: st) stack levels off ->
    1 <= off /\ get stack (off - 1) = Ok (val hf ssd ps p y) /\ get levels (off - 1) = Ok (lvl y) /\
    rep st stack levels (off - 1).
  Proof.
    intros y st stack levels off [H1 H2 H3]. cbn [length] in H1. subst off. cbn [Nat.sub]. rewrite Nat.sub_0_r.
    split; [lia|]. cbn [map] in H2, H3.
    destruct (firstn_rev_top _ stack (val hf ssd ps p y) (map (val hf ssd ps p) st)) as [A1 A2].
    { rewrite map_length. exact H2. }
    destruct (firstn_rev_top _ levels (lvl y) (map lvl st)) as [B1 B2].
    { rewrite map_length. exact H3. }
    rewrite map_length in *. repeat split; auto; now apply get_ok.
  Qed.

  Lemma update_while_spec : forall Pi next b rest stack levels off l x a,
    nd_adrs a -> rep (Pi ++ rest) stack levels off -> covers b Pi (x * 2 ^ l) -> next + 1 = (x + 1) * 2 ^ l ->
    (forall l' x' r', Pi = (l', x') :: r' -> l <= l') ->
    exists Pi' l' x',
      update_while hf (length Pi) next ps stack levels off (nd l x) l a = Ok (nd l' x', l', length Pi', length (Pi' ++ rest)) /\
      rep (Pi' ++ rest) stack levels (length (Pi' ++ rest)) /\ covers b Pi' (x' * 2 ^ l') /\
      next + 1 = (x' + 1) * 2 ^ l' /\ (forall l'' x'' r', Pi' = (l'', x'') :: r' -> l' < l'').
  Proof.
    induction Pi as [|[l1 x1] Pi IH]; intros next b rest stack levels off l x a Ha Hr Hc Hn Hle.
    - cbn [length update_while app] in *. exists [], l, x. pose proof (sr_off _ _ _ _ _ _ _ _ Hr) as Eo. cbn [app] in *.
      rewrite Eo. repeat split; auto; try (intros; discriminate); now rewrite <- Eo; apply Hr.
    - cbn [length update_while]. cbn [app] in Hr.
      destruct (stack_rep_tail _ _ _ _ _ Hr) as (O1 & G1 & G2 & Hr').
      rewrite (proj2 (Nat.eqb_neq off 0)) by lia. rewrite G2. cbn [bind lvl fst].
      specialize (Hle l1 x1 Pi eq_refl). pose proof (pow2_pos l) as Pl.
      inversion Hc as [|? ? ? Hc' Hev Hdec E1 E2]; subst.
      destruct (l1 =? l) eqn:El; cbn [negb].
      + apply Nat.eqb_eq in El. subst l1. assert (x = x1 + 1) by nia. subst x.
        apply Nat.even_spec in Hev. destruct Hev as [y ->].
        rewrite G1. cbn [bind].
        assert (Ei : next / 2 ^ (l + 1) = y).
        { rewrite Nat.add_1_r, pow2_S. symmetry. apply (Nat.div_unique _ _ _ (2 * 2 ^ l - 1)); [lia|]. nia. }
        rewrite Ei.
        destruct (hash_node hf ps a l y (val hf ssd ps p (l, 2 * y)) (nd l (2 * y + 1)) Ha) as (a1 & Eh & Ha1).
        rewrite Eh. change (rand_hash hf ps 2 0 l y (val hf ssd ps p (l, 2 * y)) (nd l (2 * y + 1))) with (nd (S l) y).
        rewrite Nat.add_1_r.
        destruct (IH next b rest stack levels (off - 1) (S l) y a1 Ha1 Hr') as (Pi' & l' & x' & E & R).
        * replace (y * 2 ^ S l) with (2 * y * 2 ^ l) by (rewrite pow2_S; nia). exact Hc'.
        * rewrite pow2_S. nia.
        * intros l' x' r' ->. specialize (Hdec l' x' r' eq_refl). lia.
        * exists Pi', l', x'. split; [exact E|exact R].
      + apply Nat.eqb_neq in El. exists ((l1, x1) :: Pi), l, x.
        pose proof (sr_off _ _ _ _ _ _ _ _ Hr) as Eo. cbn [app].
        split; [rewrite Eo; reflexivity|]. split; [now rewrite <- Eo|]. split; [exact Hc|]. split; [exact Hn|].
        intros l'' x'' r' E. injection E as <- <- <-. lia.
  Qed.

  Definition same_rest (st st' : bds_state) : Prop :=
    b_auth st' = b_auth st /\ b_keep st' = b_keep st /\ b_retain st' = b_retain st.

  Lemma treehash_update_spec : forall t r P st pk addr,
    root_adrs addr -> th_ok t r P st -> pk < m -> 0 < r pk ->
    (forall j, j < pk -> P j = []) ->
    (forall j l x, pk < j -> j < m -> In (l, x) (P j) -> pk <= l) ->
    exists st' P', treehash_update hf pk st ssd p ps addr = Ok st' /\ th_ok t (dec r pk) P' st' /\ same_rest st st'.
  Proof.
    intros t r P st pk addr HR HT Hpk Hr HPe HF.
    destruct (to_inst _ _ _ _ HT pk Hpk) as (th & En & Hok).
    pose proof Hok as (Eh & Hle & _ & H2). destruct (H2 Hr) as (Ec & Enx & Eu & Hc).
    unfold treehash_update. rewrite (proj2 (get_ok _ _ _ _) En). cbn [bind].
    destruct (copy_adrs addr HR) as (Ho & Hl & Hn).
    destruct (gen_leaf_wots_spec hf ssd p ps (setLtreeADRS (copy_layer_tree addr 1) (N.of_nat (th_next_idx th)))
      (setOTSADRS (copy_layer_tree addr 0) (N.of_nat (th_next_idx th))) (th_next_idx th)) as (la & oa & El & _); auto.
    { eapply lt_adrs_set; eauto. } { eapply ots_adrs_set; eauto. }
    rewrite El. cbn [bind].
    pose proof (to_rep _ _ _ _ HT) as Hrep. rewrite (stk_from_split P pk m Hpk HPe) in Hrep.
    set (rest := stk_from P (S pk) (m - S pk)) in *.
    rewrite Eu.
    change (leaf hf (N.to_nat (w_w (x_wots p))) (w_len (x_wots p)) ssd ps (th_next_idx th)) with (nd 0 (th_next_idx th)).
    destruct (update_while_spec (P pk) (th_next_idx th) (base t pk) rest (b_stack st) (b_stacklevels st) (b_stackoffset st)
      0 (th_next_idx th) (copy_layer_tree addr 2) Hn Hrep) as (Pi' & l' & x' & Eupd & Hrep' & Hc' & Hn' & Hdec').
    { rewrite Nat.pow_0_r, Nat.mul_1_r, Enx. exact Hc. }
    { cbn. lia. } { intros; lia. }
    rewrite Eupd. cbn [bind]. rewrite Eh.
    set (c := 2 ^ pk - r pk) in *. pose proof (pow2_pos l') as Pl. pose proof (pow2_pos pk) as Pp.
    rewrite Enx in Hn'. pose proof (covers_ge _ _ _ Hc') as Hge.
    (* parity of the new node while its level is below pk *)
    assert (Hpar : l' < pk -> Nat.even x' = true).
    { intros Hlt. destruct Pi' as [|[l2 x2] r2].
      - assert (Eb : base t pk = x' * 2 ^ l') by (inversion Hc'; auto). unfold base in Eb. rewrite (pow2_split (S l') pk) in Eb by lia. rewrite pow2_S in Eb.
        apply Nat.even_spec. exists (Jt t pk * 2 ^ (pk - S l')). nia.
      - specialize (Hdec' l2 x2 r2 eq_refl). assert (E2 : (x2 + 1) * 2 ^ l2 = x' * 2 ^ l') by (inversion Hc'; auto).
        rewrite (pow2_split (S l') l2) in E2 by lia. rewrite pow2_S in E2.
        apply Nat.even_spec. exists ((x2 + 1) * 2 ^ (l2 - S l')). nia. }
    assert (Hl'le : l' <= pk).
    { destruct (Nat.le_gt_cases l' pk); auto. exfalso.
      pose proof (pow2_split (S pk) l' ltac:(lia)) as E1. rewrite pow2_S in E1. pose proof (pow2_pos (l' - S pk)).
      unfold base in *. nia. }
    assert (Hlay : forall Q, (forall l x, In (l, x) Q -> l < pk) -> lv_sorted Q ->
       layout m (fun j => if j =? pk then Q else P j)).
    { intros Q HQ HQs. pose proof (to_lay _ _ _ _ HT) as HLy. constructor.
      - intros i Hi. destruct (i =? pk); auto. now apply (lay_sorted _ _ HLy).
      - intros i l x Hi Hin. destruct (i =? pk) eqn:Ei; [apply Nat.eqb_eq in Ei; subst; eauto|].
        eapply (lay_lt _ _ HLy); eauto.
      - intros i j l x Hij Hj Hne Hin. destruct (i =? pk) eqn:Ei.
        + apply Nat.eqb_eq in Ei. subst i. rewrite (proj2 (Nat.eqb_neq j pk)) in Hin by lia. eauto.
        + destruct (j =? pk) eqn:Ej.
          * apply Nat.eqb_eq in Ej. subst j. exfalso. apply Hne. now apply HPe.
          * eapply (lay_nested _ _ HLy); eauto. }
    assert (Hstk : forall Q, stk_from (fun j => if j =? pk then Q else P j) 0 m = Q ++ rest).
    { intros Q. rewrite (stk_from_split _ pk m Hpk).
      - rewrite Nat.eqb_refl. f_equal. apply stk_from_ext. intros j Hj. now rewrite (proj2 (Nat.eqb_neq j pk)) by lia.
      - intros j Hj. rewrite (proj2 (Nat.eqb_neq j pk)) by lia. auto. }
    assert (Hinst : forall th' Q j ths, j < m -> ths = upd (b_treehash st) pk th' ->
       inst_ok t pk (dec r pk pk) Q th' ->
       exists th0, nth_error ths j = Some th0 /\ inst_ok t j (dec r pk j) (if j =? pk then Q else P j) th0).
    { intros th' Q j ths Hj -> Hio. destruct (j =? pk) eqn:Ej.
      - apply Nat.eqb_eq in Ej. subst j. exists th'. split; auto. apply nth_error_upd_same. now rewrite (to_len _ _ _ _ HT).
      - apply Nat.eqb_neq in Ej. rewrite nth_error_upd_other by auto.
        destruct (to_inst _ _ _ _ HT j Hj) as (th0 & E0 & I0). exists th0. split; auto.
        unfold dec. now rewrite (proj2 (Nat.eqb_neq j pk)). }
    destruct (l' =? pk) eqn:Elp.
    - (* completed *)
      apply Nat.eqb_eq in Elp. subst l'.
      assert (Ex : x' = Jt t pk) by (unfold base in *; nia).
      assert (Er : r pk = 1) by (unfold base in *; rewrite Ex in Hn'; nia).
      assert (EPi : Pi' = []).
      { inversion Hc' as [|? ? ? Hc2 _ _ E1 E2]; auto. apply covers_ge in Hc2. pose proof (pow2_pos l). unfold base in *. nia. }
      subst Pi'. cbn [app length] in *.
      rewrite set_ok by (now rewrite (to_len _ _ _ _ HT)). cbn [bind].
      eexists. exists (fun j => if j =? pk then [] else P j). split; [reflexivity|]. split; [|now repeat split].
      constructor; cbn [b_treehash b_stack b_stackoffset b_stacklevels].
      + rewrite upd_length. apply (to_len _ _ _ _ HT).
      + intros i Hi. eapply Hinst; eauto. unfold dec. rewrite Nat.eqb_refl, Er. cbn [Nat.sub].
        repeat split; cbn; auto; try lia.
      + apply Hlay; [intros l x []|constructor].
      + rewrite Hstk. exact Hrep'.
      + apply (to_ls _ _ _ _ HT).
      + apply (to_ll _ _ _ _ HT).
      + intros i Hi Hr1. apply (to_live _ _ _ _ HT i Hi). unfold dec in Hr1. destruct (i =? pk) eqn:Ei; [apply Nat.eqb_eq in Ei; subst; lia|exact Hr1].
    - (* pushed *)
      apply Nat.eqb_neq in Elp. assert (Hlt : l' < pk) by lia. specialize (Hpar Hlt).
      assert (Hr2 : 1 < r pk).
      { destruct (Nat.eq_dec (r pk) 1) as [E1|]; [|lia]. exfalso.
        apply Nat.even_spec in Hpar. destruct Hpar as [y ->].
        assert (Ec1 : base t pk + c + 1 = (Jt t pk + 1) * 2 ^ pk) by (unfold base, c; nia).
        rewrite Ec1 in Hn'. rewrite (pow2_split (S l') pk) in Hn' by lia. rewrite pow2_S in Hn'.
        assert (E3 : (2 * y + 1) * 2 ^ l' = 2 * ((Jt t pk + 1) * 2 ^ (pk - S l')) * 2 ^ l') by (rewrite <- Hn'; ring).
        apply Nat.mul_cancel_r in E3; lia. }
      assert (HcQ : covers (base t pk) ((l', x') :: Pi') (base t pk + (c + 1))).
      { replace (base t pk + (c + 1)) with ((x' + 1) * 2 ^ l') by lia. constructor; auto. }
      assert (HQlt : forall l x, In (l, x) ((l', x') :: Pi') -> l < pk).
      { intros l x Hin. pose proof (covers_levels_b _ _ _ HcQ l x Hin).
        destruct (Nat.lt_ge_cases l pk) as [|Hg]; auto. exfalso.
        assert (2 ^ pk <= 2 ^ l) by (apply Nat.pow_le_mono_r; lia). unfold c in *. lia. }
      pose proof (Hlay _ HQlt (covers_sorted _ _ _ HcQ)) as HLy'.
      pose proof (layout_length _ _ HLy') as HLl. rewrite Hstk in HLl. cbn [length app] in HLl.
      rewrite set_ok by (rewrite (to_ls _ _ _ _ HT); lia). cbn [bind].
      rewrite set_ok by (rewrite (to_ll _ _ _ _ HT); lia). cbn [bind].
      rewrite set_ok by (now rewrite (to_len _ _ _ _ HT)). cbn [bind].
      eexists. exists (fun j => if j =? pk then (l', x') :: Pi' else P j).
      split; [reflexivity|]. split; [|now repeat split].
      constructor; cbn [b_treehash b_stack b_stackoffset b_stacklevels].
      + rewrite upd_length. apply (to_len _ _ _ _ HT).
      + intros i Hi. eapply Hinst; eauto. unfold dec. rewrite Nat.eqb_refl.
        assert (Ecc : 2 ^ pk - (r pk - 1) = c + 1) by (unfold c; lia).
        split; [reflexivity|]. split; [lia|]. split; [intro; exfalso; lia|]. intros _.
        rewrite Ecc. split; [exact Ec|]. split; [cbn [th_next_idx]; lia|]. split; [cbn [th_stackusage length]; lia|]. exact HcQ.
      + exact HLy'.
      + rewrite Hstk. cbn [app]. rewrite Nat.add_1_r. apply stack_rep_push; auto.
        * rewrite (to_ls _ _ _ _ HT). lia.
        * rewrite (to_ll _ _ _ _ HT). lia.
      + rewrite upd_length. apply (to_ls _ _ _ _ HT).
      + rewrite upd_length. apply (to_ll _ _ _ _ HT).
      + intros i Hi Hr1. apply (to_live _ _ _ _ HT i Hi). unfold dec in Hr1. destruct (i =? pk) eqn:Ei; [apply Nat.eqb_eq in Ei; subst; lia|exact Hr1].
  Qed.

  Lemma bds_treehash_update_spec : forall n t u r P st addr,
    root_adrs addr -> th_ok t r P st -> sched m q t u r ->
    exists st' r' P', bds_treehash_update hf n st ssd p ps addr = Ok st' /\ th_ok t r' P' st' /\
      sched m q t (u + n) r' /\ same_rest st st'.
  Proof.
    induction n; intros t u r P st addr HR HT HS.
    - exists st, r, P. rewrite Nat.add_0_r. split; [reflexivity|]. split; [exact HT|].
      split; [exact HS|]. repeat split; reflexivity.
    - cbn [bds_treehash_update]. rewrite Hh, Hk. replace (h - 2) with m by lia.
      destruct (choose_spec t r P st HT) as [(E & H0)|(pk & lmin & E & Hpk & Hr & HPe & HF & Hok)].
      + rewrite E. cbn [bind]. rewrite Nat.eqb_refl. exists st, r, P. split; [reflexivity|].
        split; [exact HT|]. split; [eapply sched_idle; eauto|]. repeat split; reflexivity.
      + rewrite E. cbn [bind]. rewrite (proj2 (Nat.eqb_neq pk m)) by lia.
        destruct (treehash_update_spec t r P st pk addr HR HT Hpk Hr HPe HF) as (st1 & P1 & E1 & HT1 & (R1 & R2 & R3)).
        rewrite E1. cbn [bind].
        destruct (IHn t (S u) (dec r pk) P1 st1 addr HR HT1) as (st2 & r2 & P2 & E2 & HT2 & HS2 & (Q1 & Q2 & Q3)).
        { eapply sched_update; eauto. }
        exists st2, r2, P2. split; [exact E2|]. split; [exact HT2|]. split.
        * now replace (u + S n) with (S u + n) by lia.
        * repeat split; congruence.
  Qed.

  (** ** One round *)
  Record bds_ok (t : nat) (st : bds_state) : Prop := {
    bo_auth_len : length (b_auth st) = h;
    bo_auth : forall i, i < h -> nth_error (b_auth st) i = Some (nd i (Nat.lxor (t / 2 ^ i) 1));
    bo_keep_len : length (b_keep st) = h / 2;
    bo_keep : forall i, i < h - 1 -> Nat.odd (t / 2 ^ i) = true -> Nat.odd (t / 2 ^ S i) = false ->
              nth_error (b_keep st) (i / 2) = Some (nd i (t / 2 ^ i));
    bo_retain : nth_error (b_retain st) 0 = Some (nd m 3);
    bo_th : exists r P, th_ok t r P st /\ sched m q t q r }.

  Lemma round_th : forall s tau x r P ths st,
    s + 1 < 2 ^ h -> s + 1 = (2 * x + 1) * 2 ^ tau ->
    th_ok s r P st -> sched m q s q r ->
    length ths = m ->
    (forall i t, i < m -> nth_error (b_treehash st) i = Some t ->
       nth_error ths i = Some (if (i <? tau) && (s + 1 + 3 * 2 ^ i <? 2 ^ h)
                               then mkTH i (s + 1 + 3 * 2 ^ i) 0 false (th_node t) else t)) ->
    forall auth keep retain,
    th_ok (S s) (restart m h (S s) r) P
      (mkBDS (b_stack st) (b_stackoffset st) (b_stacklevels st) auth keep ths retain).
  Proof.
    intros s tau x r P ths st Hs E HT HS HL HG auth keep retain.
    destruct (tau_facts s tau x E) as (F1 & F2 & F3 & F4 & F5).
    constructor; cbn [b_treehash b_stack b_stackoffset b_stacklevels]; try (apply HT; fail); auto.
    2:{ intros i Hi Hri. unfold restart in Hri. rewrite (proj2 (Nat.ltb_lt i m) Hi) in Hri. cbn [andb] in Hri.
        replace (S s) with (s + 1) in * by lia.
        destruct (Nat.lt_ge_cases i tau) as [Ei|Ei].
        - destruct (F3 i Ei) as (y & Y1 & Y2 & Y3 & Y4 & Y5).
          assert (EB : base (s + 1) i = s + 1 + 3 * 2 ^ i).
          { unfold base, Jt. rewrite Y3. rewrite Y5 at 1. rewrite pow2_S. ring. }
          assert (Hr0 : r i = 0).
          { apply (sched_deadline m q Hmq s r i HS); [lia|]. replace (S s) with (s + 1) by lia. now apply F5. }
          rewrite (proj2 (Nat.eqb_eq _ _) (proj2 (F5 i) Ei)) in Hri. cbn [andb] in Hri. rewrite EB.
          destruct (s + 1 + 3 * 2 ^ i <? 2 ^ h) eqn:El; [now apply Nat.ltb_lt in El|lia].
        - assert (Hne : (s + 1) mod 2 ^ S i <> 0) by (rewrite F5; lia).
          rewrite (proj2 (Nat.eqb_neq _ _) Hne) in Hri. cbn [andb] in Hri.
          assert (EJ : Jt (s + 1) i = Jt s i) by (unfold Jt; rewrite F4 by lia; reflexivity).
          unfold base. rewrite EJ. exact (to_live _ _ _ _ HT i Hi Hri). }
    intros i Hi. destruct (to_inst _ _ _ _ HT i Hi) as (th & En & H1 & H2 & H3 & H4).
    specialize (HG i th Hi En). eexists. split; [exact HG|].
    unfold restart. rewrite (proj2 (Nat.ltb_lt i m) Hi). cbn [andb].
    replace (S s) with (s + 1) by lia.
    destruct (i <? tau) eqn:Ei.
    - apply Nat.ltb_lt in Ei. rewrite (proj2 (Nat.eqb_eq _ _) (proj2 (F5 i) Ei)). cbn [andb].
      assert (Hr0 : r i = 0).
      { apply (sched_deadline m q Hmq s r i HS); [lia|]. replace (S s) with (s + 1) by lia. now apply F5. }
      destruct (H3 Hr0) as (C1 & C2 & C3).
      destruct (F3 i Ei) as (y & Y1 & Y2 & Y3 & Y4 & Y5).
      assert (EB : base (s + 1) i = s + 1 + 3 * 2 ^ i).
      { unfold base, Jt. rewrite Y3. rewrite Y5 at 1. rewrite pow2_S. ring. }
      destruct (s + 1 + 3 * 2 ^ i <? 2 ^ h) eqn:El.
      + pose proof (pow2_pos i). unfold inst_ok. cbn [th_h th_next_idx th_stackusage th_completed th_node].
        split; [reflexivity|]. split; [lia|]. split; [intro; lia|]. intros _.
        replace (S s) with (s + 1) in * by lia. rewrite Nat.sub_diag, C2, EB, !Nat.add_0_r. cbn [th_next_idx th_stackusage th_completed]. repeat split. constructor.
      + apply Nat.ltb_ge in El. unfold inst_ok. rewrite Hr0. repeat split; auto; try lia.
    - apply Nat.ltb_ge in Ei. cbn [andb].
      assert (Hne : (s + 1) mod 2 ^ S i <> 0) by (rewrite F5; lia).
      rewrite (proj2 (Nat.eqb_neq _ _) Hne). cbn [andb].
      assert (EJ : Jt (s + 1) i = Jt s i) by (unfold Jt; rewrite F4 by lia; reflexivity).
      unfold inst_ok, base. rewrite EJ. fold (base s i). repeat split; auto; try apply H3; try apply H4; auto.
  Qed.

  Lemma bds_round_spec : forall s st addr, root_adrs addr -> s + 1 < 2 ^ h -> bds_ok s st ->
    exists st' r P, bds_round hf st s ssd p ps addr = Ok st' /\
      th_ok (S s) (restart m h (S s) r) P st' /\ sched m q s q r /\
      length (b_auth st') = h /\
      (forall i, i < h -> nth_error (b_auth st') i = Some (nd i (Nat.lxor ((s + 1) / 2 ^ i) 1))) /\
      length (b_keep st') = h / 2 /\
      (forall i, i < h - 1 -> Nat.odd ((s + 1) / 2 ^ i) = true -> Nat.odd ((s + 1) / 2 ^ S i) = false ->
         nth_error (b_keep st') (i / 2) = Some (nd i ((s + 1) / 2 ^ i))) /\
      nth_error (b_retain st') 0 = Some (nd m 3).
  Proof.
    intros s st addr HR Hs HB. destruct (bo_th _ _ HB) as (r & P & HT & HS).
    destruct (find_tau_spec s h Hs) as (tau & x & Etau & Htau & E).
    destruct (tau_facts s tau x E) as (F1 & F2 & F3 & F4 & F5).
    unfold bds_round. rewrite Hh, Hk, Etau. clear Etau.
    destruct (copy_adrs addr HR) as (Ho & Hl & Hn).
    replace (h - 2) with m by lia.
    assert (Hhalf : forall i, i < h - 1 -> i / 2 < h / 2).
    { intros i Hi. replace h with (2 * (q + 1)) by lia. rewrite (Nat.mul_comm 2), Nat.div_mul by lia.
      apply Nat.div_lt_upper_bound; lia. }
    (* buffer *)
    assert (Ebuf : exists buf, (if 0 <? tau then
              a <- get (b_auth st) (tau - 1) ;; c <- get (b_keep st) ((tau - 1) / 2) ;; Ok (a ++ c)
            else Ok []) = Ok buf /\
            (0 < tau -> buf = nd (tau - 1) (2 * (s / 2 ^ tau)) ++ nd (tau - 1) (2 * (s / 2 ^ tau) + 1))).
    { destruct (0 <? tau) eqn:E0.
      - apply Nat.ltb_lt in E0. destruct (F3 (tau - 1) ltac:(lia)) as (y & Y1 & Y2 & Y3 & Y4 & Y5).
        replace (S (tau - 1)) with tau in * by lia.
        pose proof (bo_auth _ _ HB (tau - 1) ltac:(lia)) as A1.
        rewrite Y1, lxor_1, odd_double_1 in A1. replace (2 * y + 1 - 1) with (2 * y) in A1 by lia.
        assert (A2 : nth_error (b_keep st) ((tau - 1) / 2) = Some (nd (tau - 1) (2 * y + 1))).
        { rewrite <- Y1. apply (bo_keep _ _ HB); [lia| |].
          - rewrite Y1. apply odd_double_1.
          - replace (S (tau - 1)) with tau by lia. rewrite F1. apply odd_double. }
        apply get_ok in A1. apply get_ok in A2. rewrite A1. cbn [bind]. rewrite A2. cbn [bind].
        eexists. split; [reflexivity|]. intros _. now rewrite Y4.
      - eexists. split; [reflexivity|]. apply Nat.ltb_ge in E0. lia. }
    destruct Ebuf as (buf & Ebuf & Hbuf). rewrite Ebuf. cbn [bind]. clear Ebuf.
    (* keep *)
    assert (Ekeep : exists keep, (if negb (Nat.testbit s (tau + 1)) && (tau <? h - 1) then
             a <- get (b_auth st) tau ;; set (b_keep st) (tau / 2) a else Ok (b_keep st)) = Ok keep /\
             length keep = h / 2 /\
             (forall i, i < h - 1 -> Nat.odd ((s + 1) / 2 ^ i) = true -> Nat.odd ((s + 1) / 2 ^ S i) = false ->
              nth_error keep (i / 2) = Some (nd i ((s + 1) / 2 ^ i)))).
    { rewrite Nat.add_1_r, testbit_div.
      assert (Hold : forall i, tau < i -> i < h - 1 -> Nat.odd ((s + 1) / 2 ^ i) = true -> Nat.odd ((s + 1) / 2 ^ S i) = false ->
              nth_error (b_keep st) (i / 2) = Some (nd i ((s + 1) / 2 ^ i))).
      { intros i Hi Hi2 O1 O2. rewrite F4 in * by lia. apply (bo_keep _ _ HB); auto. }
      assert (Hlow : forall i, i < tau -> Nat.odd ((s + 1) / 2 ^ i) = false).
      { intros i Hi. destruct (F3 i Hi) as (y & _ & Y2 & _). rewrite Y2. replace (2 * y + 2) with (2 * (y + 1)) by lia. apply odd_double. }
      destruct (negb (Nat.odd (s / 2 ^ S tau)) && (tau <? h - 1)) eqn:Ec.
      - apply andb_true_iff in Ec. destruct Ec as [Ec1 Ec2]. apply negb_true_iff in Ec1. apply Nat.ltb_lt in Ec2.
        pose proof (bo_auth _ _ HB tau Htau) as A1. rewrite F1, lxor_1, odd_double in A1.
        apply get_ok in A1. rewrite A1. cbn [bind].
        assert (Hb : tau / 2 < length (b_keep st)) by (rewrite (bo_keep_len _ _ HB); auto).
        rewrite set_ok by exact Hb. eexists. split; [reflexivity|]. split; [rewrite upd_length; apply HB|].
        intros i Hi O1 O2. destruct (Nat.lt_trichotomy i tau) as [Hlt|[->|Hgt]].
        + rewrite Hlow in O1 by auto. discriminate.
        + rewrite nth_error_upd_same by exact Hb. now rewrite F2.
        + rewrite nth_error_upd_other; [now apply Hold|].
          assert (i <> S tau). { intros ->. rewrite F4 in O1 by lia. congruence. }
          assert (tau / 2 + 1 <= i / 2); [|lia].
          replace (tau / 2 + 1) with ((tau + 2) / 2).
          * apply Nat.div_le_mono; lia.
          * replace (tau + 2) with (tau + 1 * 2) by lia. rewrite Nat.div_add by lia. reflexivity.
      - eexists. split; [reflexivity|]. split; [apply HB|].
        intros i Hi O1 O2. destruct (Nat.lt_trichotomy i tau) as [Hlt|[->|Hgt]].
        + rewrite Hlow in O1 by auto. discriminate.
        + rewrite F4 in O2 by lia. rewrite O2 in Ec. rewrite (proj2 (Nat.ltb_lt _ _) Hi) in Ec. discriminate.
        + now apply Hold. }
    destruct Ekeep as (keep & Ekeep & Lkeep & Hkeep). rewrite Ekeep. cbn [bind]. clear Ekeep.
    assert (Hx1 : Nat.lxor (2 * x + 1) 1 = 2 * x).
    { rewrite lxor_1, odd_double_1. lia. }
    destruct (tau =? 0) eqn:E0.
    - apply Nat.eqb_eq in E0. subst tau. change (2 ^ 0) with 1 in *. rewrite Nat.div_1_r in F1, F2.
      destruct (gen_leaf_wots_spec hf ssd p ps (setLtreeADRS (copy_layer_tree addr 1) (N.of_nat s)) (setOTSADRS (copy_layer_tree addr 0) (N.of_nat s)) s)
        as (la' & oa' & El & _ & _); auto.
      { eapply lt_adrs_set; eauto. } { eapply ots_adrs_set; eauto. }
      rewrite El. cbn [bind]. rewrite set_ok by (rewrite (bo_auth_len _ _ HB); lia). cbn [bind].
      eexists. exists r, P. split; [reflexivity|]. cbn [b_auth b_keep b_retain]. split.
      { apply (round_th s 0 x r P (b_treehash st) st Hs); auto; try apply HT.
      }
      split; [exact HS|]. split; [rewrite upd_length; apply HB|]. split.
      { intros i Hi. destruct (Nat.eq_dec i 0) as [->|].
        - rewrite nth_error_upd_same by (rewrite (bo_auth_len _ _ HB); lia).
          cbn [Nat.pow]. rewrite Nat.div_1_r, F2, Hx1, <- F1. reflexivity.
        - rewrite nth_error_upd_other by lia. rewrite F4 by lia. now apply (bo_auth _ _ HB). }
      repeat split; auto. apply HB.
    - apply Nat.eqb_neq in E0. rewrite Hbuf by lia.
      destruct (hash_node hf ps (copy_layer_tree addr 2) (tau - 1) (s / 2 ^ tau)
                 (nd (tau - 1) (2 * (s / 2 ^ tau))) (nd (tau - 1) (2 * (s / 2 ^ tau) + 1)) Hn) as (a' & Eh & _).
      rewrite Eh. rewrite <- (tnode_S hf ssd ps p (tau - 1)). replace (S (tau - 1)) with tau by lia.
      rewrite set_ok by (rewrite (bo_auth_len _ _ HB); lia). cbn [bind].
      (* authentication nodes below tau *)
      match goal with |- context [for_up tau ?f ?s0] =>
        destruct (for_up_inv _ (fun n auth => length auth = h /\
          forall i, i < h -> nth_error auth i =
            Some (if (i <? n) || (tau <=? i) then nd i (Nat.lxor ((s + 1) / 2 ^ i) 1)
                  else nd i (Nat.lxor (s / 2 ^ i) 1))) f tau s0) as (auth & Ea & La & Ha) end.
      { split; [rewrite upd_length; apply HB|]. intros i Hi. cbn [Nat.ltb Nat.leb orb].
        destruct (Nat.eq_dec i tau) as [->|].
        - rewrite nth_error_upd_same by (rewrite (bo_auth_len _ _ HB); lia). rewrite Nat.leb_refl, F2, Hx1, <- F1. reflexivity.
        - rewrite nth_error_upd_other by lia. rewrite (bo_auth _ _ HB i Hi).
          destruct (tau <=? i) eqn:Et; auto. apply Nat.leb_le in Et. now rewrite F4 by lia. }
      { intros i auth Hi (La & Ha).
        assert (Hv : (if i <? m then t <- get (b_treehash st) i ;; set auth i (th_node t)
                      else if (h <? 1 + i) || (2 ^ (h - 1 - i) + i <? h) || (s / 2 ^ i <? 1) then UB
                      else c <- get (b_retain st) (2 ^ (h - 1 - i) + i - h + (s / 2 ^ i - 1) / 2) ;; set auth i c)
                     = Ok (upd auth i (nd i (Nat.lxor ((s + 1) / 2 ^ i) 1)))).
        { destruct (F3 i Hi) as (y & Y1 & Y2 & Y3 & Y4 & Y5). pose proof (pow2_pos i).
          rewrite Y2, lxor_1. replace (2 * y + 2) with (2 * (y + 1)) by lia. rewrite odd_double.
          destruct (i <? m) eqn:Em.
          - apply Nat.ltb_lt in Em. destruct (to_inst _ _ _ _ HT i Em) as (th & En & H1 & H2 & H3 & H4).
            assert (Hr0 : r i = 0).
            { apply (sched_deadline m q Hmq s r i HS); [lia|]. replace (S s) with (s + 1) by lia. now apply F5. }
            destruct (H3 Hr0) as (_ & _ & C3).
            rewrite (proj2 (get_ok _ _ _ _) En). cbn [bind]. rewrite set_ok by lia. rewrite C3.
            + unfold Jt. rewrite Y4. do 3 f_equal. lia.
            + unfold base, Jt. rewrite Y4.
              rewrite Y5 in Hs. rewrite (pow2_split (S i) h) in Hs |- * by lia.
              set (K := 2 ^ (h - S i)) in *. apply Nat.mul_lt_mono_pos_r in Hs; [|apply pow2_pos].
              rewrite pow2_S. nia.
          - apply Nat.ltb_ge in Em. assert (i = m) by lia. subst i.
            assert (Hy0 : y = 0).
            { rewrite Y5 in Hs. replace h with (S (S m)) in Hs by lia. rewrite (pow2_S (S m)) in Hs. nia. }
            rewrite Y1, Hy0. replace (h - 1 - m) with 1 by lia.
            rewrite (proj2 (Nat.ltb_ge h (1 + m))) by lia. rewrite (proj2 (Nat.ltb_ge (2 ^ 1 + m) h)) by (change (2 ^ 1) with 2; lia).
            change (2 * 0 + 1 <? 1) with false. cbn [orb].
            replace (2 ^ 1 + m - h + (2 * 0 + 1 - 1) / 2) with 0 by (rewrite Nat.mul_0_r; cbn [plus Nat.sub]; change (0 / 2) with 0; change (2 ^ 1) with 2; lia).
            rewrite (proj2 (get_ok _ _ _ _) (bo_retain _ _ HB)). cbn [bind]. now rewrite set_ok by lia. }
        rewrite Hv. eexists. split; [reflexivity|]. split; [now rewrite upd_length|].
        intros j Hj. destruct (Nat.eq_dec j i) as [->|].
        - rewrite nth_error_upd_same by lia. now rewrite (proj2 (Nat.ltb_lt i (S i))) by lia.
        - rewrite nth_error_upd_other by lia. rewrite Ha by auto.
          replace (j <? S i) with (j <? i); auto.
          destruct (j <? i) eqn:Ej; symmetry; [apply Nat.ltb_lt in Ej; apply Nat.ltb_lt; lia|apply Nat.ltb_ge in Ej; apply Nat.ltb_ge; lia]. }
      rewrite Ea. cbn [bind].
      (* restarts *)
      set (tm := if tau <? m then tau else m).
      assert (Htm : tm <= m /\ forall i, i < m -> (i < tm <-> i < tau)).
      { unfold tm. destruct (tau <? m) eqn:Em; [apply Nat.ltb_lt in Em|apply Nat.ltb_ge in Em]; split; lia. }
      match goal with |- context [for_up tm ?f ?s0] =>
        destruct (for_up_inv _ (fun n ths => length ths = m /\
          forall i t, i < m -> nth_error (b_treehash st) i = Some t ->
            nth_error ths i = Some (if (i <? n) && (s + 1 + 3 * 2 ^ i <? 2 ^ h)
                                    then mkTH i (s + 1 + 3 * 2 ^ i) 0 false (th_node t) else t)) f tm s0) as (ths & Et & Lt & Ht) end.
      { split; [apply HT|]. intros i t Hi Hn1. exact Hn1. }
      { intros i ths Hi (Lt & Ht). destruct (to_inst _ _ _ _ HT i ltac:(lia)) as (th & En & _).
        pose proof (Ht i th ltac:(lia) En) as Hti. rewrite Nat.ltb_irrefl in Hti. cbn [andb] in Hti.
        assert (Hsm : forall j, j <> i -> (j <? S i) = (j <? i)).
        { intros j Hj. destruct (j <? i) eqn:Ej; [apply Nat.ltb_lt in Ej; apply Nat.ltb_lt; lia|apply Nat.ltb_ge in Ej; apply Nat.ltb_ge; lia]. }
        destruct (s + 1 + 3 * 2 ^ i <? 2 ^ h) eqn:El.
        - rewrite (proj2 (get_ok _ _ _ _) Hti). cbn [bind]. rewrite set_ok by lia. eexists. split; [reflexivity|].
          split; [now rewrite upd_length|]. intros j t Hj Hn1. destruct (Nat.eq_dec j i) as [->|].
          + rewrite nth_error_upd_same by lia. rewrite (proj2 (Nat.ltb_lt i (S i))) by lia. rewrite El. cbn [andb]. congruence.
          + rewrite nth_error_upd_other by lia. rewrite Hsm by auto. now apply Ht.
        - eexists. split; [reflexivity|]. split; auto. intros j t Hj Hn1. destruct (Nat.eq_dec j i) as [->|].
          + rewrite El, andb_false_r. congruence.
          + rewrite Hsm by auto. now apply Ht. }
      rewrite Et. cbn [bind]. eexists. exists r, P. split; [reflexivity|]. cbn [b_auth b_keep b_retain]. split.
      { eapply (round_th s tau x); eauto. intros i t Hi Hn1. rewrite (Ht i t Hi Hn1).
        replace (i <? tm) with (i <? tau); auto. destruct Htm as [_ Htm]. specialize (Htm i Hi).
        destruct (i <? tau) eqn:Ej; symmetry; [apply Nat.ltb_lt in Ej; apply Nat.ltb_lt; tauto|apply Nat.ltb_ge in Ej; apply Nat.ltb_ge; lia]. }
      split; [exact HS|]. split; [exact La|]. split.
      { intros i Hi. rewrite (Ha i Hi). destruct (i <? tau) eqn:Ei; auto. apply Nat.ltb_ge in Ei.
        now rewrite (proj2 (Nat.leb_le _ _) Ei). }
      repeat split; auto. apply HB.
  Qed.

  Theorem bds_step_spec : forall s st addr, root_adrs addr -> s + 1 < 2 ^ h -> bds_ok s st ->
    exists st', bds_step hf p ssd ps addr s st = Ok st' /\ bds_ok (s + 1) st'.
  Proof.
    intros s st addr HR Hs HB. unfold bds_step.
    destruct (bds_round_spec s st addr HR Hs HB) as (st1 & r & P & E1 & HT & HS & A1 & A2 & A3 & A4 & A5).
    rewrite E1. cbn [bind]. rewrite Hh, Hk. replace ((h - 2) / 2) with q.
    2:{ replace (h - 2) with (q * 2) by lia. now rewrite Nat.div_mul. }
    destruct (bds_treehash_update_spec q (S s) 0 _ _ _ addr HR HT) as (st2 & r2 & P2 & E2 & HT2 & HS2 & (R1 & R2 & R3)).
    { now apply sched_restart. }
    exists st2. split; [exact E2|]. rewrite Nat.add_1_r in *. constructor; rewrite ?R1, ?R2, ?R3; auto.
    exists r2, P2. auto.
  Qed.
End BDS.
