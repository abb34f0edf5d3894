(** C77: getRandomSeed of the JavaScript bundles. *)
From Coq Require Import List NArith ZArith Arith QArith Qround Bool Lia.
From Verif Require Import Base Bytes HashAddress SpecApi Descriptor XmssObj JsWrapper JsSeed PropObj PropKeys BasicProofs FastProofs.
Import ListNotations.
Open Scope nat_scope.

(** Specification: a request for n bytes. *)
Definition seed_answer (p : platform) (n : nat) : js_result :=
  if (16 <=? n) && forallb (fun b => b =? 0)%N (random_bytes p n) then JAllZero else JBytes (random_bytes p n).
Definition integral (q : Q) (n : nat) : Prop := (q == inject_Z (Z.of_nat n))%Q.

Lemma zero_seq : forall l k, js_all_zero l (seq k (length l - k)) = forallb (fun b => b =? 0)%N (skipn k l).
Proof.
  intros l k. remember (length l - k) as d eqn:Ed. revert k Ed. induction d as [|d IH]; intros k Ed; cbn [seq js_all_zero].
  - rewrite skipn_all2 by lia. reflexivity.
  - destruct (nth_error l k) as [b|] eqn:E; [|apply nth_error_None in E; lia].
    assert (Hs : skipn k l = b :: skipn (S k) l).
    { clear - E. revert l E. induction k as [|k IH]; intros [|a l] E; try discriminate; [injection E as ->; reflexivity|]. cbn [nth_error] in E. cbn [skipn]. rewrite (IH l E). reflexivity. }
    rewrite Hs. cbn [forallb]. destruct (b =? 0)%N; [|reflexivity]. cbn [andb]. apply IH. lia.
Qed.
Lemma push_seq : forall conv l k, k <= length l -> js_push conv l (seq k (length l - k)) = Some (skipn k l).
Proof.
  intros conv l k Hk. remember (length l - k) as d eqn:Ed. revert k Hk Ed. induction d as [|d IH]; intros k Hk Ed; cbn [seq js_push].
  - rewrite skipn_all2 by lia. reflexivity.
  - destruct (nth_error l k) as [b|] eqn:E; [|apply nth_error_None in E; lia].
    assert (Hs : skipn k l = b :: skipn (S k) l).
    { clear - E. revert l E. induction k as [|k IH]; intros [|a l] E; try discriminate; [injection E as ->; reflexivity|]. cbn [nth_error] in E. cbn [skipn]. rewrite (IH l E). reflexivity. }
    rewrite (IH (S k)) by lia. now rewrite Hs.
Qed.
Lemma zero_all : forall l, js_all_zero l (seq 0 (length l)) = forallb (fun b => b =? 0)%N l.
Proof. intros. pose proof (zero_seq l 0) as H. rewrite Nat.sub_0_r in H. exact H. Qed.
Lemma push_all : forall conv l, js_push conv l (seq 0 (length l)) = Some l.
Proof. intros. pose proof (push_seq conv l 0 ltac:(lia)) as H. rewrite Nat.sub_0_r in H. exact H. Qed.
Lemma zero_over : forall l is, js_all_zero l (is ++ [length l]) = false.
Proof.
  intros l is. induction is as [|i is IH]; cbn [app js_all_zero].
  - rewrite (proj2 (nth_error_None l (length l))) by lia. reflexivity.
  - destruct (nth_error l i) as [b|]; auto. destruct (b =? 0)%N; auto.
Qed.
Lemma push_app : forall conv l a b, js_push conv l (a ++ b) =
  match js_push conv l a with None => None | Some x => match js_push conv l b with None => None | Some y => Some (x ++ y) end end.
Proof.
  intros conv l a b. induction a as [|i a IH]; cbn [app js_push].
  - destruct (js_push conv l b); reflexivity.
  - rewrite IH. destruct (match nth_error l i with Some x => Some x | None => conv end); [|reflexivity].
    destruct (js_push conv l a); auto; destruct (js_push conv l b); auto.
Qed.

Lemma positive_fin : forall q, js_positive (JFin q) = true <-> (0 < q)%Q.
Proof.
  intros q. cbn [js_positive]. rewrite Qgt_alt. destruct (q ?= 0)%Q; intuition discriminate.
Qed.
Lemma integral_floor : forall q n, integral q n -> Qfloor q = Z.of_nat n /\ Qceiling q = Z.of_nat n.
Proof.
  intros q n H. unfold integral in H. split.
  - rewrite H. apply Qfloor_Z.
  - rewrite H. apply Qceiling_Z.
Qed.

(** A request for a whole number of bytes from 1 to 65536 gets exactly the bytes the platform
    drew, except that 16 or more zero bytes and nothing else are refused; undefined asks for 48. *)
Theorem C77_random_seed : forall p q n, platform_ok p -> has_crypto p = true -> integral q n -> 1 <= n -> (N.of_nat n <= 65536)%N ->
  js_getRandomSeed p (JNumber (JFin q)) = seed_answer p n.
Proof.
  intros p q n HP HC Hq Hn Hn'. destruct (integral_floor q n Hq) as (F & C). unfold js_getRandomSeed. unfold integral in Hq.
  assert (Hpos : js_positive (JFin q) = true).
  { apply positive_fin. rewrite Hq. change 0%Q with (inject_Z 0). rewrite <- Zlt_Qlt. lia. }
  rewrite Hpos, HC, F, C. cbn [negb]. rewrite (proj2 (Z.ltb_ge _ _)) by lia. rewrite !Nat2Z.id. cbv zeta.
  destruct (HP n) as (HL & _). unfold seed_answer. set (l := random_bytes p n) in *.
  assert (H16 : Qle_bool 16 q = (16 <=? n)).
  { apply eq_iff_eq_true. rewrite Qle_bool_iff, Nat.leb_le, Hq. change 16%Q with (inject_Z 16). rewrite <- Zle_Qle. lia. }
  rewrite H16. replace (seq 0 n) with (seq 0 (length l)) by (now rewrite HL). rewrite zero_all, push_all. reflexivity.
Qed.
Theorem C77_default_size : forall p, platform_ok p -> has_crypto p = true -> js_getRandomSeed p JUndefined = seed_answer p 48.
Proof. intros p HP HC. change (js_getRandomSeed p JUndefined) with (js_getRandomSeed p (JNumber (JFin 48))). apply C77_random_seed; auto; [reflexivity|lia|lia]. Qed.

(** It fails closed: without WebCrypto, for sizes that are not positive and for sizes above
    65536 nothing is ever returned. *)
Theorem C77_fails_closed : forall p size v, platform_ok p -> js_getRandomSeed p size = JBytes v ->
  has_crypto p = true /\ exists q, (size = JUndefined /\ q = 48%Q \/ size = JNumber (JFin q)) /\ (0 < q)%Q /\ (q < 65537)%Q /\
    ((exists n, integral q n /\ v = random_bytes p n /\ (16 <= n -> exists b, In b v /\ b <> 0%N)) \/
     (* not a whole number: one more byte that is not random, and no check *)
     (~ (exists n, integral q n) /\ exists b, push_undefined p = Some b /\ v = random_bytes p (Z.to_nat (Qfloor q)) ++ [b])).
Proof.
  intros p size v HP H. unfold js_getRandomSeed in H. set (x := match size with JUndefined => JFin 48 | JNumber x => x end) in H.
  destruct (js_positive x) eqn:Hpos; cbn [negb] in H; [|discriminate]. destruct (has_crypto p); cbn [negb] in H; [|discriminate].
  split; auto. destruct x as [| | |q] eqn:Ex; try discriminate. exists q.
  split. { destruct size as [|y]; [left; split; auto; subst x; congruence|right; subst x; now rewrite Ex]. }
  apply positive_fin in Hpos. split; auto.
  destruct (65536 <? Qfloor q)%Z eqn:EL; [discriminate|]. apply Z.ltb_ge in EL.
  split. { apply Qlt_le_trans with (inject_Z (Qfloor q + 1)); [apply Qlt_floor|]. change 65537%Q with (inject_Z 65537). rewrite <- Zle_Qle. lia. }
  assert (F0 : (0 <= Qfloor q)%Z). { change 0%Z with (Qfloor 0). apply Qfloor_resp_le. now apply Qlt_le_weak. }
  set (n := Z.to_nat (Qfloor q)) in *. destruct (HP n) as (HL & _). cbv zeta in H. set (l := random_bytes p n) in *.
  assert (HF : (inject_Z (Qfloor q) <= q)%Q) by apply Qfloor_le. assert (HF' : (q < inject_Z (Qfloor q + 1))%Q) by apply Qlt_floor.
  destruct (Qle_lt_or_eq _ _ HF) as [Hlt|Heq].
  - (* fractional *)
    right. split.
    { intros (m & Hm). destruct (integral_floor q m Hm) as (Fm & _). rewrite Fm in Hlt. unfold integral in Hm. rewrite Hm in Hlt. exact (Qlt_irrefl _ Hlt). }
    assert (C : Qceiling q = (Qfloor q + 1)%Z).
    { apply Z.le_antisymm.
      - rewrite <- (Qceiling_Z (Qfloor q + 1)). apply Qceiling_resp_le. now apply Qlt_le_weak.
      - assert (Qfloor q < Qceiling q)%Z; [|lia]. rewrite Zlt_Qlt. eapply Qlt_le_trans; [exact Hlt|apply Qle_ceiling]. }
    rewrite C in H. replace (Z.to_nat (Qfloor q + 1)) with (length l + 1) in H by (rewrite HL; unfold n; lia).
    rewrite seq_app in H. cbn [seq plus] in H. rewrite zero_over, andb_false_r, push_app, push_all in H.
    cbn [js_push] in H. rewrite (proj2 (nth_error_None l (length l))) in H by lia.
    destruct (push_undefined p) as [b|]; [|discriminate]. exists b. split; auto. injection H as <-. reflexivity.
  - left. exists n. assert (Hi : integral q n). { unfold integral, n. rewrite Z2Nat.id by lia. now symmetry. }
    split; auto. destruct (integral_floor q n Hi) as (_ & C). rewrite C, Nat2Z.id in H.
    replace (seq 0 n) with (seq 0 (length l)) in H by (now rewrite HL). rewrite zero_all, push_all in H.
    destruct (Qle_bool 16 q && forallb (fun b => b =? 0)%N l) eqn:EZ; [discriminate|]. injection H as <-. split; auto.
    intros H16. assert (Q16 : Qle_bool 16 q = true).
    { apply Qle_bool_iff. unfold integral in Hi. rewrite Hi. change 16%Q with (inject_Z 16). rewrite <- Zle_Qle. lia. }
    rewrite Q16 in EZ. cbn [andb] in EZ. clear - EZ. induction l as [|a l IH]; [discriminate|]. cbn [forallb] in EZ.
    destruct (a =? 0)%N eqn:Ea; [destruct (IH EZ) as (b & Hb & Hn); exists b; split; [now right|auto]|]. exists a. split; [now left|]. now apply N.eqb_neq.
Qed.

(** The default result can be given to Xmss.fromParameters, which then makes the key of exactly
    those bytes. *)
Theorem C77_seed_makes_key : forall p v junk height hash hf, platform_ok p -> js_getRandomSeed p JUndefined = JBytes v ->
  hash_of_id hash = Some hf -> 4 <= height <= 30 -> Nat.even height = true ->
  supported hash hf 16 w16 height v /\
  exists x, js_fromParameters junk v (N.of_nat height) hash = Ok x /\ getSK (xf_base x) = ref_sk hf w16 height v 0.
Proof.
  intros p v junk height hash hf HP HV Hh H1 H2.
  destruct (C77_fails_closed p JUndefined v HP HV) as (HC & _). rewrite (C77_default_size p HP HC) in HV.
  unfold seed_answer in HV. destruct (_ && _); [discriminate|]. injection HV as <-. destruct (HP 48) as (HL & HB).
  assert (HS : supported hash hf 16 w16 height (random_bytes p 48)).
  { repeat split; auto; try lia. }
  split; auto. destruct (XmssFast_new_spec junk (random_bytes p 48) height hash hf SHA256_2X HS) as (x & E & HI).
  exists x. split; [exact E|]. destruct HI as (-> & _). reflexivity.
Qed.

(** A working platform, a dead one, and what a fractional size does to the check. *)
Definition counting : platform := mkPlatform true (fun n => map (fun k => N.of_nat k mod 256)%N (seq 0 n)) (Some 0%N).
Definition dead : platform := mkPlatform true (fun n => repeat 0%N n) (Some 0%N).
Example C77_cases : platform_ok counting /\ platform_ok dead /\
  js_getRandomSeed counting (JNumber (JFin 3)) = JBytes [0; 1; 2]%N /\
  js_getRandomSeed dead JUndefined = JAllZero /\
  js_getRandomSeed dead (JNumber (JFin (33 # 2))) = JBytes (repeat 0%N 17) /\
  js_getRandomSeed dead (JNumber (JFin 15)) = JBytes (repeat 0%N 15) /\
  js_getRandomSeed counting (JNumber JNaN) = JBadSize /\ js_getRandomSeed counting (JNumber (JFin (-1 # 1))) = JBadSize /\
  js_getRandomSeed counting (JNumber (JFin 65537)) = JRefused.
Proof.
  split; [|split].
  - intros n. cbn. rewrite map_length, seq_length. split; auto. apply Forall_map, Forall_forall. intros k _. apply N.mod_upper_bound. lia.
  - intros n. cbn. rewrite repeat_length. split; auto. apply Forall_forall. intros b Hb. apply repeat_spec in Hb. subst. reflexivity.
  - repeat split; vm_compute; reflexivity.
Qed.
