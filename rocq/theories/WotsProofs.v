(** WOTS: success of the digit computation and "public key from signature". *)
From Coq Require Import List NArith Arith Lia Bool.
From Verif Require Import Base Bytes Keccak Sha256 HashAddress Wots XmssCommon AlgsXmss SpecXmss XmssRefine.
Import ListNotations.
Open Scope N_scope.

(** Parameters for which base_w is defined: log_w divides 8. *)
Definition wots_ok (p : wots_params) : Prop :=
  (exists w, wots_set_params w = Ok p) /\
  (w_log_w p = 1 \/ w_log_w p = 2 \/ w_log_w p = 4 \/ w_log_w p = 8)%nat.

Lemma wots_ok_facts : forall p, wots_ok p ->
  1 <= w_w p /\ (w_len_1 p * w_log_w p = 256)%nat /\ (1 <= w_len_2 p)%nat /\ (1 <= w_len p)%nat /\
  w_log_w p = N.to_nat (N.log2 (w_w p)).
Proof.
  intros p [[w E] HL]. unfold wots_set_params in E.
  destruct ((w =? 0) || (2 ^ 31 <=? w)) eqn:E1; [discriminate|].
  apply orb_false_iff in E1. destruct E1 as [E0 E1]. apply N.eqb_neq in E0.
  destruct (N.to_nat (N.log2 w) =? 0)%nat eqn:E2; [discriminate|].
  destruct (u32 (N.of_nat (256 / N.to_nat (N.log2 w)) * (w - 1)) =? 0) eqn:E3; [discriminate|].
  injection E as <-. unfold w_len. cbn [w_w w_log_w w_len_1 w_len_2] in *.
  repeat split; try lia.
  destruct HL as [-> | [-> | [-> | ->]]]; reflexivity.
Qed.

Lemma base_w_loop_ok : forall p n input pos total bits,
  (w_log_w p = 1 \/ w_log_w p = 2 \/ w_log_w p = 4 \/ w_log_w p = 8)%nat ->
  (bits mod w_log_w p = 0)%nat ->
  (n * w_log_w p <= bits + 8 * (length input - pos))%nat ->
  exists l, base_w_loop n input pos total bits p = Ok l /\ length l = n /\
            Forall (fun d => d <= w_w p - 1) l.
Proof.
  intros p n. induction n; intros input pos total bits HL HM HN.
  - exists []. repeat split; constructor.
  - cbn [base_w_loop].
    assert (Hd : forall t b, N.land (N.shiftr t b) (w_w p - 1) <= w_w p - 1).
    { intros. rewrite N.land_comm. destruct (w_w p - 1); [apply N.le_refl|].
      apply N.ldiff_le. apply N.bits_inj_0. intro i.
      rewrite N.ldiff_spec, N.land_spec. now destruct (N.testbit (N.pos p0) i), (N.testbit (N.shiftr t b) i). }
    destruct (bits =? 0)%nat eqn:E0.
    + apply Nat.eqb_eq in E0. subst bits.
      assert (Hl1 : (1 <= w_log_w p <= 8)%nat) by lia.
      assert (Hp : (pos < length input)%nat).
      { cbn [Nat.mul] in HN. lia. }
      rewrite (get_nth _ input pos 0 Hp). cbn [bind].
      assert (E8 : (8 <? w_log_w p)%nat = false) by (apply Nat.ltb_ge; destruct HL as [-> | [-> | [-> | ->]]]; lia).
      rewrite E8.
      destruct (IHn input (S pos) (nth pos input 0) (8 - w_log_w p)%nat HL) as (l & E & Hlen & HF).
      * destruct HL as [-> | [-> | [-> | ->]]]; reflexivity.
      * cbn [Nat.mul] in HN. lia.
      * rewrite E. cbn [bind]. eexists. split; [reflexivity|]. split; [cbn; lia|]. constructor; auto.
    + cbn [bind]. apply Nat.eqb_neq in E0.
      assert (Hge : (w_log_w p <= bits)%nat).
      { apply Nat.mod_divides in HM; [|destruct HL as [-> | [-> | [-> | ->]]]; lia].
        destruct HM as [c ->]. destruct c; [lia|]. nia. }
      rewrite (proj2 (Nat.ltb_ge _ _) Hge).
      destruct (IHn input pos total (bits - w_log_w p)%nat HL) as (l & E & Hlen & HF).
      * replace bits with (bits - w_log_w p + 1 * w_log_w p)%nat in HM by lia.
        rewrite Nat.mod_add in HM; auto. destruct HL as [-> | [-> | [-> | ->]]]; lia.
      * cbn [Nat.mul] in HN. lia.
      * rewrite E. cbn [bind]. eexists. split; [reflexivity|]. split; [cbn; lia|]. constructor; auto.
Qed.

Lemma wots_digits_ok : forall p msg, wots_ok p -> length msg = 32%nat ->
  exists ds, wots_digits msg p = Ok ds /\ length ds = w_len p /\ Forall (fun d => d <= w_w p - 1) ds.
Proof.
  intros p msg HP HM. destruct (wots_ok_facts p HP) as (Hw & H1 & H2 & _ & _). destruct HP as [_ HL].
  unfold wots_digits, base_w.
  destruct (base_w_loop_ok p (w_len_1 p) msg 0 0 0 HL) as (b1 & E1 & L1 & F1).
  { apply Nat.mod_0_l. lia. }
  { lia. }
  rewrite E1. cbn [bind].
  match goal with |- context [base_w_loop (w_len_2 p) ?i _ _ _ _] =>
    destruct (base_w_loop_ok p (w_len_2 p) i 0 0 0 HL) as (b2 & E2 & L2 & F2) end.
  { apply Nat.mod_0_l. lia. }
  { rewrite to_byte_length. rewrite Nat.sub_0_r.
    pose proof (Nat.div_mod (w_len_2 p * w_log_w p + 7) 8). 
    pose proof (Nat.mod_upper_bound (w_len_2 p * w_log_w p + 7) 8). lia. }
  rewrite E2. cbn [bind]. eexists. split; [reflexivity|]. split.
  - rewrite app_length. unfold w_len. lia.
  - apply Forall_app. auto.
Qed.

Lemma combine_as_map : forall A B (l1 : list A) (l2 : list B) d1 d2, length l1 = length l2 ->
  combine l1 l2 = map (fun i => (nth i l1 d1, nth i l2 d2)) (seq 0 (length l1)).
Proof.
  induction l1; destruct l2; cbn [length]; intros; try discriminate; auto.
  cbn [combine seq map]. rewrite <- seq_shift, map_map. cbn [nth]. f_equal. apply IHl1. lia.
Qed.

Lemma wots_sign_spec : forall hf p msg sk ps a o ssd ds,
  ots_adrs a o -> sk = ots_seed hf ssd o ->
  wots_digits msg p = Ok ds -> length ds = w_len p -> Forall (fun d => d <= w_w p - 1) ds ->
  exists a', wots_sign hf msg sk p ps a = Ok (ots_sig hf (w_len p) ssd ps o ds, a') /\ ots_adrs a' o.
Proof.
  intros hf p msg sk ps a o ssd ds Ha Es ED HL HF. unfold wots_sign. rewrite ED. cbn [bind].
  destruct (gen_chains_spec hf p ps o
     (map (fun cd => (fst cd, 0, snd cd)) (combine (expand_seed hf sk (w_len p)) ds)) 0 a Ha) as [a' [E H]].
  - intros x st n Hin. apply in_map_iff in Hin. destruct Hin as [[y d] [E Hin]].
    cbn in E. injection E as <- <- <-. apply in_combine_r in Hin.
    rewrite Forall_forall in HF. specialize (HF _ Hin). lia.
  - exists a'. change (N.of_nat 0) with 0 in E. rewrite E. split; auto. f_equal. f_equal.
    rewrite map_length, combine_length, expand_seed_length, HL, Nat.min_id.
    rewrite (combine_as_map _ _ (expand_seed hf sk (w_len p)) ds [] 0) by (now rewrite expand_seed_length).
    rewrite expand_seed_length, map_map, combine_seq_map, map_map. unfold ots_sig.
    apply map_ext_in. intros c Hc. apply in_seq in Hc. cbn [fst snd].
    change (N.to_nat 0) with O. f_equal. unfold expand_seed, chain_start.
    rewrite (nth_indep _ [] (prf hf (to_byte 32 (N.of_nat 0)) sk)) by (rewrite map_length, seq_length; lia).
    rewrite (map_nth (fun i => prf hf (to_byte 32 (N.of_nat i)) sk)), seq_nth by lia.
    cbn [plus]. now rewrite prf_PRF, Es.
Qed.

Lemma wots_pkFromSig_spec : forall hf p msg sig ps a o ds,
  ots_adrs a o -> 1 <= w_w p ->
  wots_digits msg p = Ok ds -> length ds = w_len p -> Forall (fun d => d <= w_w p - 1) ds ->
  length sig = w_len p ->
  exists a', wots_pkFromSig hf sig msg p ps a = Ok (pk_of_sig hf (N.to_nat (w_w p)) ps o ds sig, a') /\ ots_adrs a' o.
Proof.
  intros hf p msg sig ps a o ds Ha Hw ED HL HF HS. unfold wots_pkFromSig. rewrite ED. cbn [bind].
  destruct (gen_chains_spec hf p ps o
     (map (fun cd => (fst cd, snd cd, w_w p - 1 - snd cd)) (combine sig ds)) 0 a Ha) as [a' [E H]].
  - intros x st n Hin. apply in_map_iff in Hin. destruct Hin as [[y d] [E Hin]].
    cbn in E. injection E as <- <- <-. apply in_combine_r in Hin.
    rewrite Forall_forall in HF. specialize (HF _ Hin). lia.
  - exists a'. change (N.of_nat 0) with 0 in E. rewrite E. split; auto. f_equal. f_equal.
    rewrite map_length, combine_length, HL, HS, Nat.min_id.
    rewrite (combine_as_map _ _ sig ds [] 0) by congruence.
    rewrite HS, map_map, combine_seq_map, map_map. unfold pk_of_sig. rewrite HS.
    apply map_ext_in. intros c Hc. apply in_seq in Hc. cbn [fst snd]. f_equal. lia.
Qed.

(** Signing then recomputing gives the public key. *)
Lemma pk_of_ots_sig : forall hf p ssd ps o ds,
  1 <= w_w p -> length ds = w_len p -> Forall (fun d => d <= w_w p - 1) ds ->
  pk_of_sig hf (N.to_nat (w_w p)) ps o ds (ots_sig hf (w_len p) ssd ps o ds) =
  ots_pk hf (N.to_nat (w_w p)) (w_len p) ssd ps o.
Proof.
  intros hf p ssd ps o ds Hw HL HF. unfold pk_of_sig, ots_pk.
  replace (length (ots_sig hf (w_len p) ssd ps o ds)) with (w_len p)
    by (unfold ots_sig; now rewrite map_length, seq_length).
  apply map_ext_in. intros c Hc. apply in_seq in Hc. unfold ots_sig.
  set (f := fun c => chain hf ps o c 0 (N.to_nat (nth c ds 0)) (chain_start hf ssd o c)).
  rewrite (nth_indep _ [] (f O)) by (rewrite map_length, seq_length; lia).
  rewrite (map_nth f), seq_nth by lia. cbn [plus]. unfold f.
  assert (Hd : nth c ds 0 <= w_w p - 1).
  { rewrite Forall_forall in HF. apply HF. apply nth_In. lia. }
  set (d := N.to_nat (nth c ds 0)).
  change d with (0 + d)%nat at 1. rewrite <- chain_add. f_equal. unfold d. lia.
Qed.

Lemma ots_sig_length : forall hf len ssd ps o ds, length (ots_sig hf len ssd ps o ds) = len.
Proof. intros. unfold ots_sig. now rewrite map_length, seq_length. Qed.
Lemma pk_of_sig_length : forall hf w ps o ds sig, length (pk_of_sig hf w ps o ds sig) = length sig.
Proof. intros. unfold pk_of_sig. now rewrite map_length, seq_length. Qed.

(** The digit function the code computes (total version of [wots_digits]). *)
Definition digits_of (p : wots_params) (m : list N) : list N :=
  match wots_digits m p with Ok d => d | _ => [] end.

Lemma digits_of_ok : forall p m, wots_ok p -> length m = 32%nat ->
  wots_digits m p = Ok (digits_of p m) /\ length (digits_of p m) = w_len p /\
  Forall (fun d => d <= w_w p - 1) (digits_of p m).
Proof.
  intros p m HP HM. destruct (wots_digits_ok p m HP HM) as (ds & E & H1 & H2).
  unfold digits_of. rewrite E. auto.
Qed.

(** For w = 2, 4, 16, 256 these are the digits of RFC 8391. *)
Definition byte_tail (lw q : nat) (b : N) : list N :=
  map (fun i => (b / 2 ^ N.of_nat (lw * (q - 1 - i))) mod 2 ^ N.of_nat lw) (seq 0 q).

Lemma byte_tail_S : forall lw q b,
  byte_tail lw (S q) b = (b / 2 ^ N.of_nat (lw * q)) mod 2 ^ N.of_nat lw :: byte_tail lw q b.
Proof.
  intros. unfold byte_tail. cbn [seq map]. rewrite <- seq_shift, map_map.
  replace (S q - 1 - 0)%nat with q by lia. f_equal.
  apply map_ext_in. intros i Hi. apply in_seq in Hi. do 3 f_equal. f_equal. lia.
Qed.

Lemma base_digits_cons : forall lw b l, base_digits lw (b :: l) = byte_tail lw (8 / lw) b ++ base_digits lw l.
Proof. reflexivity. Qed.

Lemma skipn_cons_nth : forall A (l : list A) n d, (n < length l)%nat -> skipn n l = nth n l d :: skipn (S n) l.
Proof. induction l; destruct n; cbn [length]; intros; try lia; auto. cbn [skipn nth]. now rewrite (IHl n d) by lia. Qed.

Lemma base_w_loop_digits : forall p lw n input pos total q,
  w_log_w p = lw -> w_w p = 2 ^ N.of_nat lw -> (lw = 1 \/ lw = 2 \/ lw = 4 \/ lw = 8)%nat ->
  (n <= q + (8 / lw) * (length input - pos))%nat ->
  base_w_loop n input pos total (q * lw) p = Ok (firstn n (byte_tail lw q total ++ base_digits lw (skipn pos input))).
Proof.
  intros p lw n. induction n; intros input pos total q El Ew HL Hn; [reflexivity|].
  assert (Hlw : (lw <> 0)%nat) by lia.
  assert (H8 : (8 / lw * lw = 8)%nat) by (destruct HL as [->|[->|[->| ->]]]; reflexivity).
  cbn [base_w_loop].
  assert (Main : forall total q, forall pos, (S n <= S q + (8 / lw) * (length input - pos))%nat ->
    (if (S q * lw <? w_log_w p)%nat then UB else
      rest <- base_w_loop n input pos total (S q * lw - w_log_w p) p ;;
      Ok (N.land (N.shiftr total (N.of_nat (S q * lw - w_log_w p))) (w_w p - 1) :: rest)) =
    Ok (firstn (S n) (byte_tail lw (S q) total ++ base_digits lw (skipn pos input)))).
  { clear Hn pos total q. intros total q pos Hn. rewrite El.
    rewrite (proj2 (Nat.ltb_ge _ _)) by (cbn [Nat.mul]; lia).
    replace (S q * lw - lw)%nat with (q * lw)%nat by (cbn [Nat.mul]; lia).
    rewrite IHn by (auto; lia). cbn [bind]. rewrite byte_tail_S. cbn [app firstn]. do 2 f_equal.
    rewrite Ew, N.sub_1_r, <- N.ones_equiv, N.land_ones, N.shiftr_div_pow2. do 4 f_equal. lia. }
  destruct q as [|q].
  - cbn [Nat.mul Nat.eqb].
    assert (Hq8 : (8 / lw = S (8 / lw - 1))%nat) by (destruct HL as [->|[->|[->| ->]]]; reflexivity).
    assert (Hp : (pos < length input)%nat).
    { destruct (Nat.lt_ge_cases pos (length input)); auto. replace (length input - pos)%nat with O in Hn by lia. lia. }
    rewrite (get_nth _ input pos 0 Hp). cbn [bind].
    specialize (Main (nth pos input 0) (8 / lw - 1)%nat (S pos)). rewrite <- Hq8, H8 in Main.
    change (byte_tail lw 0 total) with (@nil N).
    rewrite (skipn_cons_nth _ input pos 0 Hp), base_digits_cons. cbn [app]. apply Main.
    replace (length input - pos)%nat with (S (length input - S pos)) in Hn by lia. lia.
  - replace (S q * lw =? 0)%nat with false by (symmetry; apply Nat.eqb_neq; cbn [Nat.mul]; lia).
    cbn [bind]. apply Main. exact Hn.
Qed.

Lemma csum_checksum : forall w ds c, fold_left (fun c d => c + (w - 1 - d)) ds c = c + checksum w ds.
Proof. induction ds; intros; cbn [fold_left checksum fold_right]; [lia|]. rewrite IHds. unfold checksum. lia. Qed.

Lemma wots_digits_msg_digits : forall p lw m, wots_ok p -> w_log_w p = lw -> w_w p = 2 ^ N.of_nat lw ->
  length m = 32%nat -> wots_digits m p = Ok (msg_digits lw (w_len_1 p) (w_len_2 p) m).
Proof.
  intros p lw m HP El Ew HM. destruct (wots_ok_facts p HP) as (Hw & H1 & H2 & _ & _). destruct HP as [_ HL].
  assert (H8 : (8 / lw * lw = 8)%nat) by (rewrite <- El; destruct HL as [->|[->|[->| ->]]]; reflexivity).
  rewrite El in *.
  unfold wots_digits, base_w, msg_digits.
  pose proof (base_w_loop_digits p lw (w_len_1 p) m 0 0 0 El Ew HL) as B1.
  cbn [Nat.mul] in B1. rewrite B1 by nia. cbn [bind]. change (byte_tail lw 0 0) with (@nil N). cbn [app skipn].
  assert (Ec : csum_of (firstn (w_len_1 p) (base_digits lw m)) p =
               checksum (2 ^ N.of_nat lw) (firstn (w_len_1 p) (base_digits lw m))).
  { unfold csum_of. rewrite csum_checksum, Ew. lia. }
  rewrite Ec, N.shiftl_mul_pow2, El.
  match goal with |- context [base_w_loop (w_len_2 p) ?i] => 
    pose proof (base_w_loop_digits p lw (w_len_2 p) i 0 0 0 El Ew HL) as B2 end.
  cbn [Nat.mul] in B2. rewrite B2.
  - cbn [bind]. reflexivity.
  - rewrite to_byte_length.
    pose proof (Nat.div_mod (w_len_2 p * lw + 7) 8).
    pose proof (Nat.mod_upper_bound (w_len_2 p * lw + 7) 8). rewrite Nat.sub_0_r. nia.
Qed.
