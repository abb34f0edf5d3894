(** C79: programs that move XmssFast objects but do not copy them. *)
From Coq Require Import List NArith Arith Lia Bool.
From Verif Require Import Base Bytes Keccak KeccakLemmas Sha256 HashAddress Wots XmssCommon AlgsXmss AlgsXmssFast Descriptor
  SpecXmss SpecApi SpecForge SpecCopy XmssObj XmssRefine WotsProofs TreeProofs BasicProofs BdsSched BdsProofs BdsSetup FastProofs DescrProofs
  VerifyProofs PropObj PropKeys PropCtor PropDomain PropWots PropVerify PropForge PropRust2 FastCopy CopyProofs PropCopy.
Import ListNotations.
Open Scope nat_scope.

Lemma put_length : forall A (l : list A) n x, n < length l -> length (put l n x) = length l.
Proof. intros A l n x H. unfold put. rewrite app_length. cbn [length]. rewrite firstn_length, skipn_length. lia. Qed.
Lemma put_same : forall A (l : list A) n x, n < length l -> nth_error (put l n x) n = Some x.
Proof.
  intros A l n x H. unfold put. rewrite nth_error_app2; rewrite firstn_length; [|lia]. replace (n - Nat.min n (length l)) with 0 by lia. reflexivity.
Qed.
Lemma put_other : forall A (l : list A) n m x, n < length l -> m <> n -> nth_error (put l n x) m = nth_error l m.
Proof.
  intros A l n m x H Hm. unfold put. rewrite <- (firstn_skipn n l) at 3.
  assert (LF : length (firstn n l) = n) by (rewrite firstn_length; lia).
  destruct (Nat.lt_ge_cases m n).
  - rewrite !nth_error_app1 by lia. reflexivity.
  - rewrite !nth_error_app2 by lia. rewrite LF. destruct (m - n) as [|k] eqn:E; [lia|].
    assert (ES : skipn n l = nth n l x :: skipn (S n) l).
    { clear - H. revert n H. induction l as [|y l IH]; intros n H; cbn [length] in H; [lia|]. destruct n; [reflexivity|].
      change (skipn (S n) (y :: l)) with (skipn n l). change (nth (S n) (y :: l) x) with (nth n l x). rewrite IH by lia. reflexivity. }
    rewrite ES. reflexivity.
Qed.

(** What a slot says about the object. *)
Definition slot_ok (w : world) (n : nat) (s : slot) : Prop :=
  match s with
  | SLive hf h seed i => exists hash fmt p x, supported hash hf 16 w16 h seed /\
      fast_inv (mkCfg hf hash 16 fmt h seed) w16 i x /\ has w n p x
  | SMoved => exists h, nth_error (w_objs w) n = Some (Some h)
  | SDead => nth_error (w_objs w) n = Some None
  end.
Definition own_ok (w : world) : Prop :=
  (forall n h, nth_error (w_objs w) n = Some (Some h) -> h_own h < length (w_bufs w)) /\
  (forall n m h h', nth_error (w_objs w) n = Some (Some h) -> nth_error (w_objs w) m = Some (Some h') -> h_own h = h_own h' -> n = m).
Definition world_ok (a : list slot) (w : world) : Prop :=
  length (w_objs w) = length a /\ own_ok w /\ forall n s, nth_error a n = Some s -> slot_ok w n s.

(** Changes elsewhere leave a slot alone. *)
Lemma has_frame : forall w w' n p x, has w n p x -> nth_error (w_objs w') n = nth_error (w_objs w) n ->
  nth_error (w_bufs w') p = nth_error (w_bufs w) p -> has w' n p x.
Proof. intros w w' n p x (h & b & H1 & H2 & H3) E1 E2. exists h, b. now rewrite E1, E2. Qed.
Lemma slot_frame : forall w w' n s, slot_ok w n s -> nth_error (w_objs w') n = nth_error (w_objs w) n ->
  (forall h, nth_error (w_objs w) n = Some (Some h) -> nth_error (w_bufs w') (h_own h) = nth_error (w_bufs w) (h_own h)) -> slot_ok w' n s.
Proof.
  intros w w' n [hf h seed i| |] HS E1 E2; cbn [slot_ok] in *.
  - destruct HS as (hash & fmt & p & x & H1 & H2 & H3). exists hash, fmt, p, x. split; [exact H1|]. split; [exact H2|].
    eapply has_frame; [exact H3|exact E1|]. destruct H3 as (hd & b & Hn & _ & _ & Ho & _). rewrite <- Ho. now apply E2.
  - now rewrite E1.
  - now rewrite E1.
Qed.
Lemma objs_lt : forall a w n h, world_ok a w -> nth_error (w_objs w) n = Some (Some h) -> n < length a.
Proof. intros a w n h (HL & _) H. rewrite <- HL. apply nth_error_Some. congruence. Qed.
Lemma slot_handle : forall w n s, slot_ok w n s -> s <> SDead -> exists h, nth_error (w_objs w) n = Some (Some h).
Proof.
  intros w n [hf h seed i| |] HS Hn; cbn [slot_ok] in *; [|auto|congruence].
  destruct HS as (_ & _ & p & x & _ & _ & (hd & b & H & _)). eauto.
Qed.

Lemma nth_error_snoc : forall A (l : list A) x n, nth_error (l ++ [x]) n = if n =? length l then Some x else nth_error l n.
Proof.
  intros A l x n. destruct (Nat.eqb_spec n (length l)) as [->|N].
  - rewrite nth_error_app2 by lia. now rewrite Nat.sub_diag.
  - destruct (Nat.lt_ge_cases n (length l)); [now rewrite nth_error_app1 by lia|].
    rewrite nth_error_app2 by lia. destruct (n - length l) as [|k] eqn:E; [lia|]. cbn [nth_error].
    rewrite (proj2 (nth_error_None l n)) by lia. now destruct k.
Qed.
Lemma nth_error_upd : forall A (l : list A) i x n, i < length l -> nth_error (upd l i x) n = if n =? i then Some x else nth_error l n.
Proof. intros A l i x n H. destruct (Nat.eqb_spec n i) as [->|N]; [now apply nth_error_upd_same|now apply nth_error_upd_other; auto]. Qed.

(** One action. *)
Lemma slot_step_ok : forall a w x a' os, world_ok a w -> slot_step a x = Some (a', os) ->
  exists w', world_step w x = Ok (w', os) /\ world_ok a' w'.
Proof.
  intros a w x a' os HW E. pose proof HW as (HL & (HO1 & HO2) & HSl).
  destruct x as [junk seed height hash fmt|n c|n|n|n m|n|n junk]; cbn [slot_step] in E.
  - (* ANew *)
    destruct (negb (length seed =? 48) || (254 <? height)%N || (height <? 4)%N || N.odd height) eqn:Ebad.
    + injection E as <- <-. exists w. split; [|exact HW].
      assert (EX : XmssFast_new junk seed height hash fmt = Exn InvalidArgument).
      { pose proof (C60_fast_constructor junk seed height hash fmt) as (_ & HX & _). apply HX.
        rewrite !orb_true_iff, negb_true_iff in Ebad. destruct Ebad as [[[B|B]|B]|B].
        - left. now apply Nat.eqb_neq. - right. left. now apply N.ltb_lt.
        - right. right. unfold tree_height. apply N.ltb_lt in B. lia.
        - right. right. unfold tree_height. rewrite <- N.negb_odd, B. intros [_ X]. discriminate X. }
      cbn [world_step]. rewrite EX. reflexivity.
    + destruct (30 <? height)%N eqn:E30; [discriminate|]. destruct (hash_of_id hash) as [hf|] eqn:Eh; [|discriminate].
      injection E as <- <-. rewrite !orb_false_iff, negb_false_iff in Ebad. destruct Ebad as [[[B1 B2] B3] B4].
      apply Nat.eqb_eq in B1. apply N.ltb_ge in B2, B3, E30.
      assert (HS : supported hash hf 16 w16 (N.to_nat height) seed).
      { split; [exact Eh|]. split; [reflexivity|]. split; [lia|]. split; [|exact B1].
        rewrite <- (N2Nat.id height) in B4. rewrite <- Nat.negb_odd.
        destruct (Nat.odd (N.to_nat height)) eqn:Eo; [|reflexivity]. exfalso.
        apply Nat.odd_spec in Eo. destruct Eo as [k Ek].
        assert (Ek' : N.of_nat (N.to_nat height) = (2 * N.of_nat k + 1)%N) by lia. rewrite Ek' in B4.
        rewrite N.add_comm, N.odd_add_mul_2 in B4. discriminate B4. }
      destruct (XmssFast_new_spec junk seed (N.to_nat height) hash hf fmt HS) as (o & Eo & HI). rewrite N2Nat.id in Eo.
      eexists. cbn [world_step]. rewrite Eo. split; [reflexivity|].
      split; [cbn [w_objs]; rewrite !app_length; cbn [length]; lia|]. split; [split|].
      * intros n h. cbn [w_objs w_bufs]. rewrite nth_error_snoc, app_length. cbn [length]. destruct (n =? length (w_objs w)); intros En.
        -- injection En as <-. cbn [h_own]. lia. -- specialize (HO1 n h En). lia.
      * intros n m h h'. cbn [w_objs]. rewrite !nth_error_snoc.
        destruct (Nat.eqb_spec n (length (w_objs w))), (Nat.eqb_spec m (length (w_objs w))); intros En Em Eo'; try congruence.
        -- injection En as <-. specialize (HO1 m h' Em). cbn [h_own] in Eo'. lia.
        -- injection Em as <-. specialize (HO1 n h En). cbn [h_own] in Eo'. lia.
        -- eauto.
      * intros n s. rewrite nth_error_snoc. destruct (Nat.eqb_spec n (length a)) as [->|Nn]; intros En.
        -- injection En as <-. exists hash, fmt, (length (w_bufs w)), o. split; [exact HS|]. split; [exact HI|].
           do 2 eexists. cbn [w_objs w_bufs]. rewrite !nth_error_snoc, HL, !Nat.eqb_refl. split; [reflexivity|]. split; [reflexivity|].
           cbn [h_ptr h_own h_base h_off]. rewrite with_off_self. destruct o. auto.
        -- eapply slot_frame; [apply HSl; exact En| |]; cbn [w_objs w_bufs].
           ++ rewrite nth_error_snoc, HL. now rewrite (proj2 (Nat.eqb_neq _ _) Nn).
           ++ intros h Hh. rewrite nth_error_snoc. specialize (HO1 n h Hh). now rewrite (proj2 (Nat.eqb_neq _ _)) by lia.
  - (* ACall *)
    destruct (nth_error a n) as [[hf h seed i| |]|] eqn:En; try discriminate. pose proof (HSl n _ En) as HS. cbn [slot_ok] in HS.
    destruct HS as (hash & fmt & p & y & H1 & H2 & H3). pose proof (cfg_of _ _ _ _ _ _ fmt H1) as HC.
    destruct (step_spec _ w16 HC y i c H2) as (y' & Ey & HI' & _).
    change (c_height (mkCfg hf hash 16 fmt h seed)) with h in *.
    change (c_sig (mkCfg hf hash 16 fmt h seed) w16) with (ref_sig hf (4, 64, 3) h seed) in *.
    destruct (ref_step h (ref_sig hf (4, 64, 3) h seed) i c) as [i' o]. cbn [fst snd] in *. injection E as <- <-.
    destruct H3 as (hd & b & Hn & Hb & Hp & Ho & ->).
    assert (Hn' : n < length (w_objs w)) by (apply nth_error_Some; congruence).
    assert (Hp' : p < length (w_bufs w)) by (apply nth_error_Some; congruence).
    eexists. cbn [world_step]. rewrite Hn, Hp, Hb, Ey. cbn [bind]. split; [reflexivity|].
    split; [cbn [w_objs]; rewrite upd_length, put_length; lia|]. split; [split|].
    + intros k hk. cbn [w_objs w_bufs]. rewrite nth_error_upd by exact Hn'. rewrite upd_length. destruct (k =? n); intros Ek.
      * injection Ek as <-. cbn [h_own]. lia. * eauto.
    + intros k l hk hl. cbn [w_objs]. rewrite !nth_error_upd by exact Hn'.
      destruct (Nat.eqb_spec k n), (Nat.eqb_spec l n); intros Ek El Eo; try congruence.
      * injection Ek as <-. cbn [h_own] in Eo. subst k. apply (HO2 n l hd hl Hn El Eo).
      * injection El as <-. cbn [h_own] in Eo. subst l. apply (HO2 k n hk hd Ek Hn Eo).
      * eauto.
    + intros k s Ek. destruct (Nat.eq_dec k n) as [->|Nk].
      * rewrite put_same in Ek by lia. injection Ek as <-. exists hash, fmt, p, y'. split; [exact H1|]. split; [exact HI'|].
        do 2 eexists. cbn [w_objs w_bufs]. rewrite !nth_error_upd_same by assumption. split; [reflexivity|]. split; [reflexivity|].
        cbn [h_ptr h_own h_base h_off]. rewrite with_off_self. destruct y'. auto.
      * rewrite put_other in Ek by lia. eapply slot_frame; [apply HSl; exact Ek| |]; cbn [w_objs w_bufs].
        -- now rewrite nth_error_upd_other by auto.
        -- intros hk Hk. rewrite nth_error_upd_other; [reflexivity|]. intros Ep. apply Nk. apply (HO2 k n hk hd Hk Hn). congruence.
  - discriminate.
  - (* AMove *)
    destruct (nth_error a n) as [[hf h seed i| |]|] eqn:En; try discriminate. injection E as <- <-.
    pose proof (HSl n _ En) as HS. cbn [slot_ok] in HS. destruct HS as (hash & fmt & p & y & H1 & H2 & (hd & b & Hn & Hb & Hp & Ho & ->)).
    assert (Hn' : n < length (w_objs w)) by (apply nth_error_Some; congruence).
    assert (Hp' : p < length (w_bufs w)) by (apply nth_error_Some; congruence).
    eexists. cbn [world_step]. rewrite Hn. split; [reflexivity|].
    split; [cbn [w_objs]; rewrite !app_length, upd_length, put_length by lia; cbn [length]; lia|]. split; [split|].
    + intros k hk. cbn [w_objs w_bufs]. rewrite nth_error_snoc, upd_length, nth_error_upd, app_length by exact Hn'. cbn [length].
      destruct (k =? length (w_objs w)); [|destruct (k =? n)]; intros Ek.
      * injection Ek as <-. cbn [h_own]. specialize (HO1 n hd Hn). lia. * injection Ek as <-. cbn [h_own]. lia. * specialize (HO1 k hk Ek). lia.
    + intros k l hk hl. cbn [w_objs]. rewrite !nth_error_snoc, upd_length, !nth_error_upd by exact Hn'.
      pose proof (HO1 n hd Hn) as Hd.
      destruct (Nat.eqb_spec k (length (w_objs w))), (Nat.eqb_spec l (length (w_objs w))); try congruence.
      * destruct (Nat.eqb_spec l n); intros Ek El Eo.
        -- injection Ek as <-. injection El as <-. cbn [h_own] in Eo. lia.
        -- injection Ek as <-. cbn [h_own] in Eo. elim n1. symmetry. apply (HO2 n l hd hl Hn El Eo).
      * destruct (Nat.eqb_spec k n); intros Ek El Eo.
        -- injection Ek as <-. injection El as <-. cbn [h_own] in Eo. lia.
        -- injection El as <-. cbn [h_own] in Eo. elim n1. apply (HO2 k n hk hd Ek Hn Eo).
      * destruct (Nat.eqb_spec k n), (Nat.eqb_spec l n); intros Ek El Eo; try congruence.
        -- injection Ek as <-. cbn [h_own] in Eo. specialize (HO1 l hl El). lia.
        -- injection El as <-. cbn [h_own] in Eo. specialize (HO1 k hk Ek). lia.
        -- eauto.
    + intros k s. rewrite nth_error_snoc, put_length by lia. destruct (Nat.eqb_spec k (length a)) as [->|Nk]; intros Ek.
      * injection Ek as <-. exists hash, fmt, p. eexists. split; [exact H1|]. split; [exact H2|].
        do 2 eexists. cbn [w_objs w_bufs]. rewrite nth_error_snoc, upd_length, HL, Nat.eqb_refl. split; [reflexivity|].
        rewrite nth_error_snoc, (proj2 (Nat.eqb_neq _ _)) by lia. split; [exact Hb|]. cbn [h_ptr h_own h_base h_off]. auto.
      * destruct (Nat.eq_dec k n) as [->|Nkn].
        -- rewrite put_same in Ek by lia. injection Ek as <-. cbn [slot_ok w_objs]. rewrite nth_error_snoc, upd_length, HL, (proj2 (Nat.eqb_neq _ _)) by exact Nk.
           rewrite nth_error_upd_same by exact Hn'. eauto.
        -- rewrite put_other in Ek by lia. eapply slot_frame; [apply HSl; exact Ek| |]; cbn [w_objs w_bufs].
           ++ rewrite nth_error_snoc, upd_length, HL, (proj2 (Nat.eqb_neq _ _)) by exact Nk. now rewrite nth_error_upd_other by auto.
           ++ intros hk Hk. specialize (HO1 k hk Hk). rewrite nth_error_snoc, (proj2 (Nat.eqb_neq _ _)) by lia. reflexivity.
  - (* AMoveAssign *)
    destruct (Nat.eqb_spec n m) as [|Nnm]; [discriminate|].
    assert (Elive : exists hf h seed i st, nth_error a n = Some st /\ st <> SDead /\ nth_error a m = Some (SLive hf h seed i) /\
              a' = put (put a n (SLive hf h seed i)) m SMoved /\ os = []).
    { destruct (nth_error a n) as [[hf9 h9 s9 i9| |]|] eqn:En; try discriminate; destruct (nth_error a m) as [[hf h seed i| |]|] eqn:Em; try discriminate;
        injection E as <- <-; exists hf, h, seed, i; eexists; split; try reflexivity; split; try discriminate; auto. }
    destruct Elive as (hf & h & seed & i & st & En & Nst & Em & -> & ->). clear E.
    destruct (slot_handle w n st (HSl n st En) Nst) as (t & Ht).
    pose proof (HSl m _ Em) as HS. cbn [slot_ok] in HS. destruct HS as (hash & fmt & p & y & H1 & H2 & (hd & b & Hm & Hb & Hp & Ho & ->)).
    assert (Hn' : n < length (w_objs w)) by (apply nth_error_Some; congruence).
    assert (Hm' : m < length (w_objs w)) by (apply nth_error_Some; congruence).
    pose proof (HO1 n t Ht) as Dt. pose proof (HO1 m hd Hm) as Dm.
    eexists. cbn [world_step]. rewrite (proj2 (Nat.eqb_neq _ _) Nnm), Ht, Hm. split; [reflexivity|].
    assert (Hobj : forall k, nth_error (upd (upd (w_objs w) n (Some (mkH (h_base hd) (h_off hd) (h_ptr hd) (h_own hd)))) m
        (Some (mkH (h_base hd) (h_off hd) (h_ptr hd) (length (w_bufs w))))) k =
        if k =? m then Some (Some (mkH (h_base hd) (h_off hd) (h_ptr hd) (length (w_bufs w)))) else
        if k =? n then Some (Some (mkH (h_base hd) (h_off hd) (h_ptr hd) (h_own hd))) else nth_error (w_objs w) k).
    { intros k. rewrite nth_error_upd by (rewrite upd_length; exact Hm'). now rewrite nth_error_upd by exact Hn'. }
    split; [cbn [w_objs]; rewrite !upd_length, !put_length by (rewrite ?put_length; lia); lia|]. split; [split|].
    + intros k hk. cbn [w_objs w_bufs]. rewrite Hobj, app_length, upd_length. cbn [length].
      destruct (k =? m); [|destruct (k =? n)]; intros Ek; try (injection Ek as <-; cbn [h_own]; lia). specialize (HO1 k hk Ek). lia.
    + intros k l hk hl. cbn [w_objs]. rewrite !Hobj.
      destruct (Nat.eqb_spec k m), (Nat.eqb_spec l m); try congruence.
      * destruct (Nat.eqb_spec l n); intros Ek El Eo; injection Ek as <-; cbn [h_own] in Eo.
        -- injection El as <-. cbn [h_own] in Eo. lia. -- specialize (HO1 l hl El). lia.
      * destruct (Nat.eqb_spec k n); intros Ek El Eo; injection El as <-; cbn [h_own] in Eo.
        -- injection Ek as <-. cbn [h_own] in Eo. lia. -- specialize (HO1 k hk Ek). lia.
      * destruct (Nat.eqb_spec k n), (Nat.eqb_spec l n); intros Ek El Eo; try congruence.
        -- injection Ek as <-. cbn [h_own] in Eo. elim n1. symmetry. apply (HO2 m l hd hl Hm El Eo).
        -- injection El as <-. cbn [h_own] in Eo. elim n0. apply (HO2 k m hk hd Ek Hm Eo).
        -- eauto.
    + intros k s Ek. destruct (Nat.eq_dec k m) as [->|Nk].
      * rewrite put_same in Ek by (rewrite put_length; lia). injection Ek as <-. cbn [slot_ok w_objs]. rewrite Hobj, Nat.eqb_refl. eauto.
      * rewrite put_other in Ek by (rewrite ?put_length; lia). destruct (Nat.eq_dec k n) as [->|Nkn].
        -- rewrite put_same in Ek by lia. injection Ek as <-. exists hash, fmt, p. eexists. split; [exact H1|]. split; [exact H2|].
           do 2 eexists. cbn [w_objs w_bufs]. rewrite Hobj, (proj2 (Nat.eqb_neq _ _) Nk), Nat.eqb_refl. split; [reflexivity|].
           rewrite nth_error_snoc, upd_length, (proj2 (Nat.eqb_neq _ _)) by lia.
           rewrite nth_error_upd_other by (intros Ex; apply Nnm; apply (HO2 n m t hd Ht Hm); congruence).
           split; [exact Hb|]. cbn [h_ptr h_own h_base h_off]. auto.
        -- rewrite put_other in Ek by lia. eapply slot_frame; [apply HSl; exact Ek| |]; cbn [w_objs w_bufs].
           ++ now rewrite Hobj, (proj2 (Nat.eqb_neq _ _) Nk), (proj2 (Nat.eqb_neq _ _) Nkn).
           ++ intros hk Hk. specialize (HO1 k hk Hk). rewrite nth_error_snoc, upd_length, (proj2 (Nat.eqb_neq _ _)) by lia.
              apply nth_error_upd_other. intros Ex. apply Nkn. apply (HO2 k n hk t Hk Ht). congruence.
  - (* ADestroy *)
    assert (Es : exists st, nth_error a n = Some st /\ st <> SDead /\ a' = put a n SDead /\ os = []).
    { destruct (nth_error a n) as [[hf9 h9 s9 i9| |]|] eqn:En; try discriminate; injection E as <- <-; eexists; split; try reflexivity; split; try discriminate; auto. }
    destruct Es as (st & En & Nst & -> & ->). clear E. destruct (slot_handle w n st (HSl n st En) Nst) as (t & Ht).
    assert (Hn' : n < length (w_objs w)) by (apply nth_error_Some; congruence).
    eexists. cbn [world_step]. rewrite Ht. split; [reflexivity|].
    split; [cbn [w_objs]; rewrite upd_length, put_length by lia; lia|]. split; [split|].
    + intros k hk. cbn [w_objs w_bufs]. rewrite nth_error_upd, upd_length by exact Hn'. destruct (k =? n); [discriminate|]. apply HO1.
    + intros k l hk hl. cbn [w_objs]. rewrite !nth_error_upd by exact Hn'. destruct (k =? n), (l =? n); try discriminate. apply HO2.
    + intros k s Ek. destruct (Nat.eq_dec k n) as [->|Nk].
      * rewrite put_same in Ek by lia. injection Ek as <-. cbn [slot_ok w_objs]. now rewrite nth_error_upd_same by exact Hn'.
      * rewrite put_other in Ek by lia. eapply slot_frame; [apply HSl; exact Ek| |]; cbn [w_objs w_bufs].
        -- now rewrite nth_error_upd_other by auto.
        -- intros hk Hk. apply nth_error_upd_other. intros Ex. apply Nk. apply (HO2 k n hk t Hk Ht). congruence.
  - (* AInit *)
    destruct (nth_error a n) as [[hf h seed i| |]|] eqn:En; try discriminate. injection E as <- <-.
    pose proof (HSl n _ En) as HS. cbn [slot_ok] in HS. destruct HS as (hash & fmt & p & y & H1 & H2 & (hd & b & Hn & Hb & Hp & Ho & ->)).
    pose proof (cfg_of _ _ _ _ _ _ fmt H1) as HC. destruct (initialize_tree_spec _ w16 HC junk) as (z & Ez & HIz).
    cbn [c_seed c_height c_hash c_fmt c_w] in Ez.
    assert (Hn' : n < length (w_objs w)) by (apply nth_error_Some; congruence).
    pose proof (HO1 n hd Hn) as Dn.
    eexists. cbn [world_step]. rewrite Hn. unfold xfast_initialize_tree. destruct H2 as (Eb & _). cbn [xf_base] in Eb. cbn [xf_base]. rewrite Eb.
    cbn [c_obj xb_seed xb_height xb_hash xb_fmt c_seed c_height c_hash c_fmt]. rewrite Ez. cbn [bind]. split; [reflexivity|].
    split; [cbn [w_objs]; rewrite upd_length, put_length by lia; lia|]. split; [split|].
    + intros k hk. cbn [w_objs w_bufs]. rewrite nth_error_upd, app_length, upd_length by exact Hn'. cbn [length]. destruct (k =? n); intros Ek.
      * injection Ek as <-. cbn [h_own]. lia. * specialize (HO1 k hk Ek). lia.
    + intros k l hk hl. cbn [w_objs]. rewrite !nth_error_upd by exact Hn'.
      destruct (Nat.eqb_spec k n), (Nat.eqb_spec l n); intros Ek El Eo; try congruence.
      * injection Ek as <-. cbn [h_own] in Eo. specialize (HO1 l hl El). lia.
      * injection El as <-. cbn [h_own] in Eo. specialize (HO1 k hk Ek). lia.
      * eauto.
    + intros k s Ek. destruct (Nat.eq_dec k n) as [->|Nk].
      * rewrite put_same in Ek by lia. injection Ek as <-. exists hash, fmt, (length (w_bufs w)), z. split; [exact H1|]. split; [exact HIz|].
        do 2 eexists. cbn [w_objs w_bufs]. rewrite nth_error_upd_same by exact Hn'. split; [reflexivity|].
        rewrite nth_error_snoc, upd_length, Nat.eqb_refl. split; [reflexivity|].
        cbn [h_ptr h_own h_base h_off]. rewrite with_off_self. destruct z. auto.
      * rewrite put_other in Ek by lia. eapply slot_frame; [apply HSl; exact Ek| |]; cbn [w_objs w_bufs].
        -- now rewrite nth_error_upd_other by auto.
        -- intros hk Hk. specialize (HO1 k hk Hk). rewrite nth_error_snoc, upd_length, (proj2 (Nat.eqb_neq _ _)) by lia.
           apply nth_error_upd_other. intros Ex. apply Nk. apply (HO2 k n hk hd Hk Hn). congruence.
Qed.

(** Every program of that kind runs without undefined behaviour and observes exactly
    what independent reference objects would answer. *)
Theorem C79_moves_are_safe : forall l a os, slot_run [] l = Some (a, os) ->
  exists w, world_run (mkW [] []) l = Ok (w, os) /\
    forall n hf h seed i, nth_error a n = Some (SLive hf h seed i) ->
      exists y, obj_at w n = Some y /\ getIndex (xf_base y) = i /\ getSK (xf_base y) = ref_sk hf (4, 64, 3) h seed i.
Proof.
  assert (G : forall l a0 w0 a os, world_ok a0 w0 -> slot_run a0 l = Some (a, os) -> exists w, world_run w0 l = Ok (w, os) /\ world_ok a w).
  { induction l as [|x l IH]; intros a0 w0 a os HW E; cbn [slot_run world_run] in *.
    - injection E as <- <-. eauto.
    - destruct (slot_step a0 x) as [[a1 o1]|] eqn:E1; [|discriminate]. destruct (slot_run a1 l) as [[a2 os2]|] eqn:E2; [|discriminate].
      injection E as <- <-. destruct (slot_step_ok _ _ _ _ _ HW E1) as (w1 & R1 & HW1).
      destruct (IH _ _ _ _ HW1 E2) as (w2 & R2 & HW2). exists w2. rewrite R1. cbn [bind]. rewrite R2. auto. }
  intros l a os E. destruct (G l [] (mkW [] []) a os) as (w & R & HW); [|exact E|].
  { split; [reflexivity|]. split; [split|].
    - intros [|n] h H; discriminate. - intros [|n] m h h' H; discriminate. - intros [|n] s H; discriminate. }
  exists w. split; [exact R|]. intros n hf h seed i En. destruct HW as (_ & _ & HS). specialize (HS n _ En). cbn [slot_ok] in HS.
  destruct HS as (hash & fmt & p & x & H1 & H2 & (hd & b & Hn & Hb & Hp & Ho & ->)).
  eexists. unfold obj_at. rewrite Hn, Hp, Hb. split; [reflexivity|]. split.
  - exact (inv_getIndex hash hf h seed fmt H1 _ _ H2).
  - destruct H2 as (-> & _). reflexivity.
Qed.

(** A factory that returns an object by value (jsqrlwrapper.cpp:64-104: fromParameters,
    fromHexSeed, fromMnemonic): the object is constructed, moved any number of times
    with each source destroyed, then used. *)
Fixpoint hand_over (k n : nat) : list act :=
  match k with O => [] | S k => AMove n :: ADestroy n :: hand_over k (S n) end.
Theorem C79_factory : forall junk seed height hash hf fmt k cs, supported hash hf 16 w16 height seed ->
  exists w, world_run (mkW [] []) (ANew junk seed (N.of_nat height) hash fmt :: hand_over k 0 ++ map (ACall k) cs) =
    Ok (w, snd (ref_run height (ref_sig hf w16 height seed) 0 cs)).
Proof.
  intros junk seed height hash hf fmt k cs HS.
  assert (E1 : slot_step [] (ANew junk seed (N.of_nat height) hash fmt) = Some ([SLive hf height seed 0], [])).
  { destruct HS as (H1 & _ & H3 & H4 & H5). cbn [slot_step]. rewrite H5. cbn [Nat.eqb negb orb].
    rewrite (proj2 (N.ltb_ge _ _)) by lia. rewrite (proj2 (N.ltb_ge _ _)) by lia. rewrite (proj2 (N.ltb_ge _ _)) by lia.
    assert (Eo : N.odd (N.of_nat height) = false).
    { apply Nat.even_spec in H4. destruct H4 as [z ->]. replace (N.of_nat (2 * z)) with (0 + 2 * N.of_nat z)%N by lia. now rewrite N.odd_add_mul_2. }
    rewrite Eo, H1. cbn [orb app]. now rewrite Nat2N.id. }
  set (L := SLive hf height seed 0) in *.
  assert (E2 : forall k n r, slot_run (repeat SDead n ++ [L]) (hand_over k n ++ r) = slot_run (repeat SDead (n + k) ++ [L]) r).
  { clear. induction k as [|k IH]; intros n r; cbn [hand_over app].
    - now rewrite Nat.add_0_r.
    - assert (LR : length (repeat SDead n) = n) by apply repeat_length. unfold L. cbn [slot_run slot_step].
      rewrite nth_error_app2 by lia. rewrite LR, Nat.sub_diag. cbn [nth_error].
      assert (Ep : put (repeat SDead n ++ [SLive hf height seed 0]) n SMoved ++ [SLive hf height seed 0] = repeat SDead n ++ [SMoved; SLive hf height seed 0]).
      { unfold put. rewrite firstn_app, skipn_app, LR, Nat.sub_diag, firstn_all2 by lia. rewrite (skipn_all2 (n := S n)) by lia.
        replace (S n - n) with 1 by lia. rewrite <- app_assoc. cbn [app firstn skipn]. now rewrite app_nil_r. }
      rewrite Ep. rewrite nth_error_app2 by lia. rewrite LR, Nat.sub_diag. cbn [nth_error].
      assert (Eq : put (repeat SDead n ++ [SMoved; SLive hf height seed 0]) n SDead = repeat SDead (S n) ++ [SLive hf height seed 0]).
      { unfold put. rewrite firstn_app, skipn_app, LR, Nat.sub_diag, firstn_all2 by lia. rewrite (skipn_all2 (n := S n)) by lia.
        replace (S n - n) with 1 by lia. cbn [app firstn skipn]. rewrite app_nil_r. change (repeat SDead (S n)) with (SDead :: repeat SDead n). rewrite repeat_cons, <- app_assoc. reflexivity. }
      rewrite Eq. unfold L in IH. rewrite (IH (S n) r). replace (S n + k) with (n + S k) by lia.
      destruct (slot_run _ r) as [[? ?]|]; reflexivity. }
  assert (E3 : forall cs i, exists j, slot_run (repeat SDead k ++ [SLive hf height seed i]) (map (ACall k) cs) =
     Some (repeat SDead k ++ [SLive hf height seed j], snd (ref_run height (ref_sig hf w16 height seed) i cs))).
  { clear. induction cs as [|c cs IH]; intros i; cbn [map slot_run ref_run]; [eauto|].
    assert (LR : length (repeat SDead k) = k) by apply repeat_length. cbn [slot_step].
    rewrite nth_error_app2 by lia. rewrite LR, Nat.sub_diag. cbn [nth_error]. change (4, 64, 3) with w16.
    destruct (ref_step height (ref_sig hf w16 height seed) i c) as [i' o].
    assert (Ep : put (repeat SDead k ++ [SLive hf height seed i]) k (SLive hf height seed i') = repeat SDead k ++ [SLive hf height seed i']).
    { unfold put. rewrite firstn_app, skipn_app, LR, Nat.sub_diag, firstn_all2 by lia. rewrite (skipn_all2 (n := S k)) by lia.
      replace (S k - k) with 1 by lia. cbn [app firstn skipn]. now rewrite app_nil_r. }
    rewrite Ep. destruct (IH i') as (j & Ej). rewrite Ej. exists j. destruct (ref_run height _ i' cs). reflexivity. }
  destruct (E3 cs 0%N) as (j & Ej).
  destruct (C79_moves_are_safe (ANew junk seed (N.of_nat height) hash fmt :: hand_over k 0 ++ map (ACall k) cs)
              (repeat SDead k ++ [SLive hf height seed j]) (snd (ref_run height (ref_sig hf w16 height seed) 0 cs))) as (w & R & _).
  { cbn [slot_run]. rewrite E1. change [L] with (repeat SDead 0 ++ [L]). rewrite E2. cbn [plus]. unfold L. rewrite Ej. reflexivity. }
  exists w. exact R.
Qed.

(** Two objects with common buffers, in either order. *)
Lemma swapped : forall (l : list (bool * op)) b u u' B0 o0 p0 q0 B1 o1 p1 q1 w os,
  world_run (mkW [Some b; u] [Some (mkH B0 o0 0 p0); Some (mkH B1 o1 0 p1)]) (map (fun x : bool * op => ACall (if fst x then 1 else 0) (snd x)) l) = Ok (w, os) ->
  exists w', world_run (mkW [Some b; u'] [Some (mkH B1 o1 0 q1); Some (mkH B0 o0 0 q0)])
    (map (fun x : bool * op => ACall (if fst x then 0 else 1) (snd x)) l) = Ok (w', os).
Proof.
  induction l as [|[who c] l IH]; intros b u u' B0 o0 p0 q0 B1 o1 p1 q1 w os E; cbn [map world_run fst snd] in *.
  - apply Ok_inj, pair_equal_spec in E. destruct E as [_ <-]. eauto.
  - destruct who; cbn [world_step w_objs w_bufs nth_error h_ptr h_base h_off h_own] in E |- *.
    + destruct (step (mkXF B1 (with_off b o1)) c) as [[y o]|e|]; cbn [bind] in E |- *; try discriminate. cbn [upd] in E |- *.
      match type of E with bind ?q _ = _ => destruct q as [[w1 os1]|e|] eqn:E1 end; cbn [bind] in E; try discriminate.
      apply Ok_inj, pair_equal_spec in E. destruct E as [_ <-].
      destruct (IH _ _ u' _ _ _ q0 _ _ _ q1 _ _ E1) as (w' & ->). cbn [bind]. eauto.
    + destruct (step (mkXF B0 (with_off b o0)) c) as [[y o]|e|]; cbn [bind] in E |- *; try discriminate. cbn [upd] in E |- *.
      match type of E with bind ?q _ = _ => destruct q as [[w1 os1]|e|] eqn:E1 end; cbn [bind] in E; try discriminate.
      apply Ok_inj, pair_equal_spec in E. destruct E as [_ <-].
      destruct (IH _ _ u' _ _ _ q0 _ _ _ q1 _ _ E1) as (w' & ->). cbn [bind]. eauto.
Qed.

(** The object moved from keeps the secret key and the pointers, so using it reuses the
    one-time key and spoils the new object, exactly as with a copy (C78). *)
Theorem C79_moved_from_still_signs : forall junk seed height hash hf fmt, supported hash hf 16 w16 height seed ->
  forall m0 m1 m2 m3, exists w,
    world_run (mkW [] []) [ANew junk seed (N.of_nat height) hash fmt; AMove 0;
       ACall 1 (OpSign m0); ACall 0 (OpSign m1); ACall 1 (OpSign m2); ACall 1 (OpSign m3)] =
    Ok (w, [ObsSig (ref_sig hf w16 height seed 0 m0); ObsSig (stale_sig hf w16 height seed 0 1 m1);
            ObsSig (ref_sig hf w16 height seed 1 m2); ObsSig (crossed_sig hf w16 seed height m3)]).
Proof.
  intros junk seed height hash hf fmt HS m0 m1 m2 m3.
  destruct (fresh_run hash hf height seed fmt HS junk) as (x & E & _ & HR). destruct (HR m0 m1 m2 m3) as (w & R). clear HR.
  cbn [world_run] in R. unfold world_of in R. cbn [world_step w_objs w_bufs nth_error h_own h_ptr h_base h_off app length bind] in R.
  match type of R with bind ?q _ = _ => destruct q as [[w1 os1]|e|] eqn:E1 end; cbn [bind] in R; try discriminate.
  apply Ok_inj, pair_equal_spec in R. destruct R as [_ Eo]. cbn [app] in Eo.
  assert (Ez : exists w', world_run (mkW [Some (xf_state x); Some no_state]
      [Some (mkH (xf_base x) (b_stackoffset (xf_state x)) 0 1); Some (mkH (xf_base x) (b_stackoffset (xf_state x)) 0 0)])
      (map (fun x : bool * op => ACall (if fst x then 0 else 1) (snd x)) [(false, OpSign m0); (true, OpSign m1); (false, OpSign m2); (false, OpSign m3)]) = Ok (w', os1)).
  { eapply swapped. exact E1. }
  assert (S1 : world_step (mkW [] []) (ANew junk seed (N.of_nat height) hash fmt) = Ok (world_of x, [])) by (cbn [world_step]; rewrite E; reflexivity).
  assert (S2 : world_step (world_of x) (AMove 0) = Ok (mkW [Some (xf_state x); Some no_state]
      [Some (mkH (xf_base x) (b_stackoffset (xf_state x)) 0 1); Some (mkH (xf_base x) (b_stackoffset (xf_state x)) 0 0)], [])) by reflexivity.
  destruct Ez as (w' & Ez). exists w'. set (l := map _ _) in Ez.
  change [ANew junk seed (N.of_nat height) hash fmt; AMove 0; ACall 1 (OpSign m0); ACall 0 (OpSign m1); ACall 1 (OpSign m2); ACall 1 (OpSign m3)]
    with (ANew junk seed (N.of_nat height) hash fmt :: AMove 0 :: l). clearbody l.
  cbn [world_run]. rewrite S1. cbn [bind]. rewrite S2. cbn [bind]. rewrite Ez. cbn [bind app]. now rewrite Eo.
Qed.

(** A program: construct, move into another object, fail to construct, assign, use. *)
Example C79_case :
  let seed := repeat 7%N 48 in
  exists os, slot_run [] [ANew [] seed 4 1 0; AMove 0; ANew [] seed 5 1 0; ANew [] (repeat 0%N 48) 6 2 0; ACall 1 (OpSign [1%N]); ACall 1 (OpSetIndex 0);
                AMoveAssign 1 2; ADestroy 2; ACall 1 (OpSetIndex 63); AMoveAssign 0 1] =
    Some ([SLive SHAKE_256 6 (repeat 0%N 48) 63; SMoved; SDead], os) /\ length os = 4.
Proof. eexists. split; reflexivity. Qed.
