(** C102: with w = 256 a single signature can be turned into others; with 2, 4 and 16 it cannot. *)
From Coq Require Import List NArith Arith Lia Bool.
From Verif Require Import Base Bytes Keccak HashAddress Wots Descriptor SpecXmss SpecApi SpecForge SpecReuse SpecW256 XmssObj KeccakLemmas XmssRefine
  WotsProofs TreeProofs BasicProofs BdsProofs FastProofs VerifyProofs PropObj PropBasicHist PropWots PropVerify PropForge PropForge2 CasesXmss PropReuse PropDomain PropKeys.
From Verif Require Export SpecTerms.
Import ListNotations.
Open Scope nat_scope.



Lemma base_digits_byte : forall l, all_bytes l -> base_digits 8 l = l.
Proof.
  induction l as [|b l IH]; intros H; [reflexivity|]. inversion H; subst. unfold base_digits in *. cbn [flat_map]. rewrite IH by assumption.
  change (8 / 8) with 1. cbn [seq map Nat.sub Nat.mul]. change (2 ^ N.of_nat 0)%N with 1%N. change (2 ^ N.of_nat 8)%N with 256%N.
  rewrite N.div_1_r, N.mod_small by assumption. reflexivity.
Qed.

Lemma checksum_sum : forall l, all_bytes l -> checksum 256 l = (255 * N.of_nat (length l) - sum_bytes l)%N /\ (sum_bytes l <= 255 * N.of_nat (length l))%N.
Proof.
  induction l as [|b l IH]; intros H; [cbn; lia|]. inversion H; subst. destruct (IH H3) as (E & L). unfold checksum, sum_bytes in *. cbn [fold_right length]. 
  rewrite E. unfold is_byte in *. lia.
Qed.

Lemma digits_256 : forall d, all_bytes d -> length d = 32 -> msg_digits 8 32 2 d = d ++ [low_check d; 0%N].
Proof.
  intros d HB HL. unfold msg_digits. rewrite base_digits_byte by assumption. rewrite firstn_all2 by lia. f_equal.
  change (2 ^ N.of_nat 8)%N with 256%N. change (8 - N.of_nat ((2 * 8) mod 8))%N with 8%N. change ((2 * 8 + 7) / 8) with 2. change (2 ^ 8)%N with 256%N.
  rewrite base_digits_byte by apply to_byte_bytes. rewrite firstn_all2 by (rewrite to_byte_length; lia).
  destruct (checksum_sum d HB) as (E & L). rewrite HL in E, L. change (255 * N.of_nat 32)%N with 8160%N in *. rewrite E. unfold low_check.
  generalize (8160 - sum_bytes d)%N. intros x. unfold to_byte. cbn [map seq rev app]. 
  rewrite N.div_mul by discriminate. rewrite N.mod_mul by discriminate. reflexivity.
Qed.

Lemma w256_ok : winternitz 256 = Some w256.
Proof. reflexivity. Qed.

(** What is shown by a signature with parameters [wp], as the digest says. *)
Lemma shown_fst : forall hash hf w wp seed idx h pk msg sig, signed hash hf w wp seed idx h (pk, msg, sig) -> winternitz w = Some wp ->
  fst (shown hf (wp, (pk, msg, sig))) = positions hf wp pk (sig_R sig) (N.to_nat idx) msg /\ length (snd (shown hf (wp, (pk, msg, sig)))) = snd (fst wp) + snd wp.
Proof.
  intros hash hf w wp seed idx h pk msg sig H Hw. pose proof (shown_genuine _ _ _ _ _ _ _ _ _ _ H Hw) as G.
  destruct (signed_owner _ _ _ _ _ _ _ _ _ _ H) as (HS & Hi & Er & Ep & Es).
  destruct (owner_parts hf w wp h seed (N.to_nat idx) (randomizer hf (key_prf seed) (N.to_nat idx)) msg Hw (keyed_length _ _ _ _)) as (Q1 & _).
  { eapply idx_small; eauto. }
  rewrite <- Es, N2Nat.id in Q1. unfold shown in *. cbn [fst snd]. rewrite Q1 in *. split; [reflexivity|]. exact (proj1 G).
Qed.

Lemma Forall2_nth_le : forall a b, Forall2 N.le a b <-> (length a = length b /\ forall c, c < length b -> (nth c a 0 <= nth c b 0)%N).
Proof.
  induction a as [|x a IH]; intros [|y b]; split.
  - intros _. split; [reflexivity|]. intros c Hc. cbn in Hc. lia.
  - constructor.
  - intros H. inversion H.
  - intros (H & _). discriminate.
  - intros H. inversion H.
  - intros (H & _). discriminate.
  - intros H. inversion H; subst. apply IH in H5. destruct H5 as (L & N5). split; [cbn; congruence|]. intros [|c] Hc; cbn [nth]; [assumption|]. apply N5. cbn in Hc. lia.
  - intros (L & Hn). constructor; [exact (Hn 0 (Nat.lt_0_succ _))|]. apply IH. split; [now injection L|]. intros c Hc. apply (Hn (S c)). cbn. lia.
Qed.

Lemma N_le_dec : forall a b : N, {(a <= b)%N} + {~ (a <= b)%N}.
Proof. intros a b. destruct (a <=? b)%N eqn:E; [left; now apply N.leb_le|right; intros H; apply N.leb_le in H; congruence]. Qed.
Lemma Forall2_dec : forall (A B : Type) (P : A -> B -> Prop), (forall a b, {P a b} + {~ P a b}) -> forall l m, {Forall2 P l m} + {~ Forall2 P l m}.
Proof.
  intros A B P D. induction l as [|a l IH]; intros [|b m].
  - left. constructor.
  - right. intros H. inversion H.
  - right. intros H. inversion H.
  - destruct (D a b) as [Hp|Hn]; [|right; intros H; inversion H; contradiction]. destruct (IH m) as [Hs|Hs]; [left; now constructor|right; intros H; inversion H; contradiction].
Qed.

(** Coverage by a single signature, in terms of positions. *)
Lemma covered_single : forall hash hf w wp seed idx h pk msg sig, signed hash hf w wp seed idx h (pk, msg, sig) -> winternitz w = Some wp ->
  forall d, length d = snd (fst wp) + snd wp ->
  (covered_by hf d [(wp, (pk, msg, sig))] <-> Forall2 N.le (positions hf wp pk (sig_R sig) (N.to_nat idx) msg) d).
Proof.
  intros hash hf w wp seed idx h pk msg sig H Hw d Ld. destruct (shown_fst _ _ _ _ _ _ _ _ _ _ H Hw) as (F & L).
  assert (Lp : length (positions hf wp pk (sig_R sig) (N.to_nat idx) msg) = length d).
  { rewrite Ld. unfold positions. apply (proj1 (md_props w wp _ Hw (keyed_length _ _ _ _))). }
  rewrite Forall2_nth_le. unfold covered_by. rewrite Ld. split.
  - intros HC. split; [congruence|]. intros c Hc. destruct (HC c Hc) as (s & [<-|[]] & _ & Hle). rewrite F in Hle. exact Hle.
  - intros (_ & HC) c Hc. eexists. split; [left; reflexivity|]. rewrite L, F. split; [exact Hc|]. now apply HC.
Qed.

Lemma slides_positions : forall hf pk R i msg R' msg',
  Forall2 N.le (positions hf w256 pk R i msg) (positions hf w256 pk R' i msg') <->
  slides (digest hf R (pk_root pk) i msg) (digest hf R' (pk_root pk) i msg').
Proof.
  intros. unfold positions, w256, slides. cbn [fst snd].
  set (d1 := digest hf R (pk_root pk) i msg). set (d2 := digest hf R' (pk_root pk) i msg').
  assert (L1 : length d1 = 32) by apply keyed_length. assert (L2 : length d2 = 32) by apply keyed_length.
  assert (B1 : all_bytes d1) by apply keyed_bytes. assert (B2 : all_bytes d2) by apply keyed_bytes. clearbody d1 d2.
  rewrite (digits_256 d1 B1 L1), (digits_256 d2 B2 L2). split.
  - intros H. apply Forall2_app_inv_l in H. destruct H as (a & b & Ha & Hb & E). 
    assert (La : length a = length d2) by (rewrite <- (Forall2_length _ _ _ _ _ Ha); congruence).
    destruct (app_inj_len _ _ _ _ _ La (eq_sym E)) as (-> & ->). split; [exact Ha|]. now inversion Hb.
  - intros (Ha & Hl). apply Forall2_app; [exact Ha|]. constructor; [exact Hl|]. constructor; [apply N.le_refl|]. constructor.
Qed.

(** One signature, made with w = 256, of any message.  Whoever has it can, for every message and
    every randomiser whose digest is at or above the published one byte by byte and in the low
    byte of the checksum, put together from public data a signature that verify accepts for that
    message under the same public key. *)
Theorem C102_w256_forges : forall hash hf seed idx h pk0 msg0 sig0, signed hash hf 256 w256 seed idx h (pk0, msg0, sig0) ->
  forall R msg, length R = 32 ->
    slides (digest hf (sig_R sig0) (pk_root pk0) (N.to_nat idx) msg0) (digest hf R (pk_root pk0) (N.to_nat idx) msg) ->
    verify msg (assemble hf w256 h pk0 sig0 [(w256, (pk0, msg0, sig0))] R msg) pk0 256 = Ok true.
Proof.
  intros hash hf seed idx h pk0 msg0 sig0 H R msg LR HD.
  assert (HF : forall s, In s [(w256, (pk0, msg0, sig0))] -> from_seed hash hf seed idx s).
  { intros s [<-|[]]. exists 256%N, h. split; [exact w256_ok|exact H]. }
  assert (HC : covered_by hf (positions hf w256 pk0 R (N.to_nat idx) msg) [(w256, (pk0, msg0, sig0))]).
  { apply (proj2 (covered_single _ _ _ _ _ _ _ _ _ _ H w256_ok _ (proj1 (md_props 256 w256 _ w256_ok (keyed_length _ _ _ _))))). now apply slides_positions. }
  exact (proj1 (C94_reused_index_forges hash hf 256 w256 seed idx h pk0 msg0 sig0 _ w256_ok H HF R msg LR HC)).
Qed.

(** The digests apart, nothing new is possible: let a signature be known, and let another pair of a
    message and a signature be accepted for the same index.  Then it is evidence of a collision or
    reveals a chain value below the published one (as in C49 for the other parameters), or the
    digest slides and the accepted signature is, byte for byte, the one put together as above. *)
Theorem C102_w256_only_way : forall hash hf seed idx h pk0 msg0 sig0, signed hash hf 256 w256 seed idx h (pk0, msg0, sig0) ->
  forall msg sig, all_bytes sig -> sig_index sig = idx -> (msg, sig) <> (msg0, sig0) -> verify msg sig pk0 256 = Ok true ->
    forged_evidence hf w256 h seed msg0 sig0 msg sig \/
    (slides (digest hf (sig_R sig0) (pk_root pk0) (N.to_nat idx) msg0) (digest hf (sig_R sig) (pk_root pk0) (N.to_nat idx) msg) /\
     sig = assemble hf w256 h pk0 sig0 [(w256, (pk0, msg0, sig0))] (sig_R sig) msg).
Proof.
  intros hash hf seed idx h pk0 msg0 sig0 H msg sig HB EI Hne HV.
  destruct (signed_owner _ _ _ _ _ _ _ _ _ _ H) as (HS & Hidx & Er & Ep & Es).
  destruct (signed_pk _ _ _ _ _ _ _ _ _ _ H) as (junk & fmt & x & Ex & EPK).
  pose proof (cfg_of _ _ _ _ _ _ fmt HS) as HC. pose proof (XmssBasic_new_spec _ _ HC junk) as Ex'. cbn [c_seed c_height c_hash c_fmt c_w] in Ex'.
  rewrite Ex in Ex'. apply Ok_inj in Ex'. subst x.
  change (getPK (c_obj (mkCfg hf hash 256 fmt h seed) w256 0)) with (c_pk (mkCfg hf hash 256 fmt h seed) w256 0) in EPK.
  set (c := mkCfg hf hash 256 fmt h seed) in *.
  set (i := N.to_nat idx) in *.
  assert (Hi : i < 2 ^ h) by (unfold i; rewrite <- pow_N_nat; lia).
  assert (Hi32 : (N.of_nat i < 2 ^ 32)%N) by (unfold i; eapply idx_small; eauto).
  pose proof (hash_id_small _ _ (proj1 HS)) as HSm.
  destruct (pk_parts c w256 0 HC) as (P1 & P2 & P3 & P4). cbn [c c_hf c_height c_seed c_hash] in P1, P2, P3, P4. rewrite EPK in P1, P2, P3, P4.
  pose proof (c_pk_bytes c w256 HC 0) as PB. rewrite EPK in PB.
  assert (HH : hash_of_id (nth 0 pk0 0 mod 16)%N = Some hf) by (rewrite P4, N.mod_small by lia; exact (proj1 HS)).
  assert (HL : length sig = 4 + 32 + 32 * (32 + 2) + 32 * h).
  { destruct (C26_verify_total 256 w256 msg sig pk0 w256_ok PB) as (b & Eb & Hb).
    - left. rewrite P4, N.mod_small by lia. lia.
    - rewrite HV in Eb. apply Ok_inj in Eb. destruct (Hb (eq_sym Eb)) as (_ & _ & HL). rewrite P3 in HL. exact HL. }
  assert (LR : length (sig_R sig) = 32) by (unfold sig_R; rewrite firstn_length, skipn_length, HL; lia).
  pose proof HV as HV'. rewrite (verify_spec 256 w256 hf) in HV' by (auto; exact w256_ok). apply Ok_inj in HV'.
  destruct (accepted hf 256 w256 h seed pk0 w256_ok (proj1 (proj1 (proj2 (proj2 HS)))) P1 P2 P3 msg sig HB HV') as [Hf|(_ & _ & Hs)];
    [left; now left|].
  rewrite EI in Hs. fold i in Hs.
  set (R0 := randomizer hf (key_prf seed) i) in *.
  assert (LR0 : length R0 = 32) by apply keyed_length.
  destruct (owner_parts hf 256 w256 h seed i R0 msg0 w256_ok LR0 Hi32) as (Q1 & Q2 & _). rewrite <- Es in Q1, Q2.
  destruct (owner_parts hf 256 w256 h seed i (sig_R sig) msg w256_ok LR Hi32) as (_ & _ & T3 & _). rewrite <- Hs in T3.
  assert (EIN : N.to_nat (sig_index sig0) = i) by (rewrite Q1; apply Nat2N.id).
  assert (EIN' : N.to_nat (sig_index sig) = i) by (now rewrite EI).
  destruct (list_eq_dec N.eq_dec (digest hf (sig_R sig) (ref_root hf w256 h seed) i msg) (digest hf R0 (ref_root hf w256 h seed) i msg0)) as [EqD|NeD].
  - left. right. left. rewrite EIN, Q2. split; [|exact EqD]. cbn [fst snd]. intros E. unfold msg_input in E.
    apply app_inv_head in E. rewrite <- !app_assoc in E.
    assert (ER : sig_R sig = R0).
    { apply (f_equal (firstn 32)) in E. now rewrite !firstn_app_exact in E by auto. }
    rewrite ER in E. apply app_inv_head in E. apply app_inv_head in E. apply app_inv_head in E. subst msg0.
    apply Hne. rewrite Hs, Es, ER. reflexivity.
  - destruct (Forall2_dec _ _ N.le N_le_dec (positions hf w256 pk0 (sig_R sig0) i msg0) (positions hf w256 pk0 (sig_R sig) i msg)) as [HD|HD].
    + right. split; [now apply slides_positions|]. symmetry. rewrite Hs at 2.
      apply (assemble_owner _ _ _ _ _ _ _ _ _ _ [(w256, (pk0, msg0, sig0))] w256_ok H).
      * intros s [<-|[]]. exists 256%N, h. split; [exact w256_ok|exact H].
      * apply (proj2 (covered_single _ _ _ _ _ _ _ _ _ _ H w256_ok _ (proj1 (md_props 256 w256 _ w256_ok (keyed_length _ _ _ _))))). exact HD.
    + left. right. right. rewrite EIN.
      assert (LP : forall R m, length (positions hf w256 pk0 R i m) = 32 + 2) by (intros; exact (proj1 (md_props 256 w256 _ w256_ok (keyed_length _ _ _ _)))).
      destruct (not_le_exists (positions hf w256 pk0 (sig_R sig0) i msg0) (positions hf w256 pk0 (sig_R sig) i msg)) as (k & Hk & Hlt).
      * now rewrite !LP.
      * exact HD.
      * assert (Hk' : k < 32 + 2) by (rewrite LP in Hk; exact Hk).
        unfold positions in Hlt. change (pk_root pk0) with (firstn 32 (skipn 3 pk0)) in Hlt. rewrite P1 in Hlt.
        exists k. unfold sig_digits. rewrite EIN, EIN'. split; [exact Hk'|]. split; [exact Hlt|].
        rewrite T3. unfold ots_sig. now rewrite nth_map_seq by exact Hk'.
Qed.

(** Below any digest that is not at the very top of the range there is room: another digest that
    slides, so that no property of the digest found by the signer prevents it. *)
Fixpoint raise (n : N) (d : list N) : list N :=
  match d with
  | [] => []
  | b :: t => let k := N.min n (255 - b) in (b + k)%N :: raise (n - k) t
  end.
Lemma raise_spec : forall d n, all_bytes d -> (n + sum_bytes d <= 255 * N.of_nat (length d))%N ->
  Forall2 N.le d (raise n d) /\ all_bytes (raise n d) /\ sum_bytes (raise n d) = (n + sum_bytes d)%N.
Proof.
  induction d as [|b t IH]; intros n HB HL.
  - cbn in *. repeat split; try constructor. lia.
  - inversion HB; subst. unfold is_byte in *. cbn [raise sum_bytes fold_right length] in *. fold (sum_bytes t) in *. cbv zeta.
    destruct (checksum_sum t H2) as (_ & LT).
    destruct (IH (n - N.min n (255 - b))%N H2) as (A & B & C); [lia|]. split; [|split].
    + constructor; [lia|exact A].
    + constructor; [unfold is_byte; lia|exact B].
    + fold (sum_bytes (raise (n - N.min n (255 - b)) t)). rewrite C. lia.
Qed.
Theorem C102_every_digest_slides : forall d, all_bytes d -> length d = 32 -> (sum_bytes d <= 8160 - 256)%N ->
  exists d', all_bytes d' /\ length d' = 32 /\ d' <> d /\ slides d d'.
Proof.
  intros d HB HL HS. destruct (raise_spec d 256 HB) as (A & B & C); [rewrite HL; lia|]. exists (raise 256 d). split; [exact B|].
  split; [rewrite <- (Forall2_length _ _ _ _ _ A); exact HL|]. split.
  - intros E. rewrite E in C. lia.
  - split; [exact A|]. unfold low_check. rewrite C. replace (8160 - sum_bytes d)%N with (8160 - (256 + sum_bytes d) + 1 * 256)%N by lia.
    rewrite N.mod_add by discriminate. apply N.le_refl.
Qed.

(** With the other three parameters a single signature covers the digest it was made for and no
    other. *)
Theorem C102_other_parameters_resist : forall hash hf w wp seed idx h pk0 msg0 sig0, w = 2%N \/ w = 4%N \/ w = 16%N -> winternitz w = Some wp ->
  signed hash hf w wp seed idx h (pk0, msg0, sig0) -> forall R msg,
  covered_by hf (positions hf wp pk0 R (N.to_nat idx) msg) [(wp, (pk0, msg0, sig0))] ->
  digest hf R (pk_root pk0) (N.to_nat idx) msg = digest hf (sig_R sig0) (pk_root pk0) (N.to_nat idx) msg0.
Proof.
  intros hash hf w wp seed idx h pk0 msg0 sig0 Hw Hwp H R msg HC.
  apply (proj1 (covered_single _ _ _ _ _ _ _ _ _ _ H Hwp _ (proj1 (md_props w wp _ Hwp (keyed_length _ _ _ _))))) in HC.
  change (Forall2 N.le (msg_digits (fst (fst wp)) (snd (fst wp)) (snd wp) (digest hf (sig_R sig0) (pk_root pk0) (N.to_nat idx) msg0))
    (msg_digits (fst (fst wp)) (snd (fst wp)) (snd wp) (digest hf R (pk_root pk0) (N.to_nat idx) msg))) in HC.
  set (d1 := digest hf (sig_R sig0) (pk_root pk0) (N.to_nat idx) msg0) in *. set (d2 := digest hf R (pk_root pk0) (N.to_nat idx) msg) in *.
  assert (L1 : length d1 = 32) by apply keyed_length. assert (L2 : length d2 = 32) by apply keyed_length.
  assert (B1 : all_bytes d1) by apply keyed_bytes. assert (B2 : all_bytes d2) by apply keyed_bytes. clearbody d1 d2.
  destruct (wparams_ok w wp Hwp) as (Ep & HP & _).
  destruct (digits_of_ok (wparams w) d1 HP L1) as (D1 & _). destruct (digits_of_ok (wparams w) d2 HP L2) as (D2 & _).
  rewrite (digits_of_msg w wp d1 Hwp L1) in D1. rewrite (digits_of_msg w wp d2 Hwp L2) in D2.
  symmetry. exact (C30_checksum_no_domination w (wparams w) d1 d2 _ _ Hw Ep L1 L2 B1 B2 D1 D2 HC).
Qed.

(** A height-12 SHAKE-128 XmssBasic with w = 256 signs any message with any of its keys. *)
Example C102_case : forall idx m, (idx < 2 ^ 12)%N -> exists pk sig, signed 1 SHAKE_128 256 w256 seed_c idx 12 (pk, m, sig) /\ length (sig_R sig) = 32 /\
  slides (digest SHAKE_128 (sig_R sig) (pk_root pk) (N.to_nat idx) m) (digest SHAKE_128 (sig_R sig) (pk_root pk) (N.to_nat idx) m).
Proof.
  intros idx m Hi. destruct (C17_basic_signatures_verify [] seed_c 12 1 SHAKE_128 0 256 w256 sup256) as (x & E & HB); [lia|].
  destruct (HB [] idx m Hi) as (y & s & Es & _). exists (getPK x), s.
  assert (H : signed 1 SHAKE_128 256 w256 seed_c idx 12 (getPK x, m, s)).
  { eapply signed_basic with (fmt := 0%N) (junk := []) (junk' := []); [exact sup256|lia|exact E|exact Hi|exact Es]. }
  split; [exact H|]. destruct (signed_owner _ _ _ _ _ _ _ _ _ _ H) as (HS & _ & _ & _ & Es').
  destruct (owner_parts SHAKE_128 256 w256 12 seed_c (N.to_nat idx) (randomizer SHAKE_128 (key_prf seed_c) (N.to_nat idx)) m w256_ok (keyed_length _ _ _ _)) as (_ & Q2 & _).
  { eapply idx_small; eauto. }
  rewrite <- Es' in Q2. split; [rewrite Q2; apply keyed_length|]. split; [|apply N.le_refl].
  apply Forall2_nth_le. split; [reflexivity|]. intros c _. apply N.le_refl.
Qed.
(** Digests that slide and differ in every byte; and the same pair for w = 16 is not covered. *)
Example C102_digests : slides (repeat 16%N 32) (repeat 24%N 32) /\ ~ Forall2 N.le (msg_digits 4 64 3 (repeat 16%N 32)) (msg_digits 4 64 3 (repeat 24%N 32)).
Proof.
  split.
  - split; [|vm_compute; discriminate]. repeat (constructor; [discriminate|]). constructor.
  - intros H. apply Forall2_nth_le in H. destruct H as (_ & H). specialize (H 64). revert H. vm_compute. intros H. apply H; [|reflexivity]. repeat constructor.
Qed.
(** Another accepted signature for the same index (made by somebody who knows the key, with a
    randomiser of his own). *)
Example C102_only_way_case : forall m, exists pk sig s2, signed 1 SHAKE_128 256 w256 seed_c 5 12 (pk, m, sig) /\
  all_bytes s2 /\ sig_index s2 = 5%N /\ (m, s2) <> (m, sig) /\ verify m s2 pk 256 = Ok true.
Proof.
  intros m. destruct (C102_case 5 m) as (pk & sig & H & L & _); [reflexivity|]. exists pk, sig.
  destruct (signed_pk _ _ _ _ _ _ _ _ _ _ H) as (junk & fmt & x & Ex & EPK).
  destruct (C48_owner_sig_accepted junk seed_c 12 1 SHAKE_128 fmt 256 w256 sup256) as (x' & Ex' & HA).
  assert (x' = x) by congruence. subst x'. rewrite EPK in HA.
  assert (HR : exists R, length R = 32 /\ all_bytes R /\ R <> sig_R sig).
  { destruct (list_eq_dec N.eq_dec (sig_R sig) (repeat 0%N 32)) as [E|E].
    - exists (repeat 1%N 32). split; [reflexivity|]. split; [repeat (constructor; [reflexivity|]); constructor|]. rewrite E. discriminate.
    - exists (repeat 0%N 32). split; [reflexivity|]. split; [repeat (constructor; [reflexivity|]); constructor|]. congruence. }
  destruct HR as (R & LR & BR & NR). exists (owner_sig SHAKE_128 w256 12 seed_c 5 R m).
  destruct (owner_parts SHAKE_128 256 w256 12 seed_c 5 R m w256_ok LR) as (Q1 & Q2 & _); [reflexivity|].
  assert (H5 : 5 < 2 ^ 12) by (cbn; lia).
  split; [exact H|]. split; [now apply owner_sig_bytes|]. split; [exact Q1|]. split; [|exact (HA 5 R m H5 LR)].
  intros E. apply NR. rewrite <- Q2. apply pair_equal_spec in E. now destruct E as (_ & ->).
Qed.
