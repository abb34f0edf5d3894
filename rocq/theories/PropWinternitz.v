(** C73: the API for every Winternitz parameter w. *)
From Coq Require Import List NArith Arith Lia Bool.
From Verif Require Import Base Bytes Keccak HashAddress Wots XmssCommon AlgsXmss AlgsXmssFast Descriptor
  SpecXmss SpecApi SpecWinternitz XmssObj XmssRefine KeccakLemmas WotsProofs TreeProofs BasicProofs FastProofs DescrProofs VerifyProofs PropDomain.
From Verif Require Export SpecTerms.
Import ListNotations.
Open Scope nat_scope.

(** ** Parameters *)
Definition wpar (w : N) : wots_params := let '(lw, l1, l2) := w_sizes w in mkWP w lw l1 l2.


Lemma set_params_sized : forall w, sized_w w -> wots_set_params w = Ok (wpar w).
Proof.
  intros w ((H1 & H2) & H3). unfold wots_set_params, wpar, w_sizes. fold (log_of w).
  assert (E : ((w =? 0) || (2 ^ 31 <=? w))%N = false).
  { apply orb_false_iff. split; [apply N.eqb_neq; lia|]. apply N.leb_gt. exact H2. }
  rewrite E. assert (HL : log_of w <> 0).
  { unfold log_of. intros X. assert (X' : N.log2 w = 0%N) by lia. apply N.log2_null in X'. lia. }
  rewrite (proj2 (Nat.eqb_neq _ _) HL).
  change (u32 (N.of_nat (256 / log_of w) * (w - 1))) with ((N.of_nat (256 / log_of w) * (w - 1)) mod 2 ^ 32)%N.
  rewrite (proj2 (N.eqb_neq _ _) H3). reflexivity.
Qed.

Lemma set_params_unsized : forall w, ~ sized_w w -> wots_set_params w = UB.
Proof.
  intros w H. unfold wots_set_params. fold (log_of w).
  destruct ((w =? 0) || (2 ^ 31 <=? w))%N eqn:E; [reflexivity|].
  apply orb_false_iff in E. destruct E as [E1 E2]. apply N.eqb_neq in E1. apply N.leb_gt in E2.
  destruct (log_of w =? 0) eqn:E3; [reflexivity|].
  change (u32 (N.of_nat (256 / log_of w) * (w - 1))) with ((N.of_nat (256 / log_of w) * (w - 1)) mod 2 ^ 32)%N.
  destruct ((N.of_nat (256 / log_of w) * (w - 1)) mod 2 ^ 32 =? 0)%N eqn:E4; [reflexivity|].
  exfalso. apply H. apply N.eqb_neq in E4. split; [|exact E4]. split; [|exact E2].
  apply Nat.eqb_neq in E3. destruct (N.eq_dec w 1) as [->|]; [now cbn in E3|lia].
Qed.

Lemma log_of_bounds : forall w, sized_w w -> 1 <= log_of w <= 30.
Proof.
  intros w ((H1 & H2) & _). unfold log_of.
  assert (A : (N.log2 2 <= N.log2 w)%N) by (apply N.log2_le_mono; lia). change (N.log2 2) with 1%N in A.
  assert (B : (N.log2 w < 31)%N) by (apply N.log2_lt_pow2; lia). lia.
Qed.

Lemma cells_bounds : forall w, sized_w w -> 9 <= w_cells w <= 300 /\ 8 <= snd (fst (w_sizes w)).
Proof.
  intros w HS. pose proof (log_of_bounds w HS) as HL. unfold w_cells, w_sizes. cbn [fst snd].
  assert (A : 256 / log_of w <= 256) by (apply Nat.div_le_upper_bound; lia).
  assert (A' : 8 <= 256 / log_of w) by (apply Nat.div_le_lower_bound; lia).
  set (x := ((N.of_nat (256 / log_of w) * (w - 1)) mod 2 ^ 32)%N).
  assert (B : (N.log2 x <= 31)%N).
  { destruct (N.eq_dec x 0) as [->|Hx]; [cbn; lia|].
    assert (X : (x < 2 ^ 32)%N) by (apply N.mod_upper_bound; discriminate).
    assert (N.log2 x < 32)%N by (apply N.log2_lt_pow2; lia). lia. }
  assert (C : N.to_nat (N.log2 x) / log_of w <= 31) by (apply Nat.div_le_upper_bound; nia). lia.
Qed.

Lemma wpar_len : forall w, w_len (wpar w) = w_cells w.
Proof. intros. unfold wpar, w_cells. destruct (w_sizes w) as [[? ?] ?]. reflexivity. Qed.
Lemma wpar_w : forall w, w_w (wpar w) = w.
Proof. intros. unfold wpar. destruct (w_sizes w) as [[? ?] ?]. reflexivity. Qed.
Lemma wpar_log : forall w, w_log_w (wpar w) = log_of w.
Proof. reflexivity. Qed.

Lemma usable_log : forall w, usable_w w <-> (2 <= w < 2 ^ 31)%N /\ (log_of w = 1 \/ log_of w = 2 \/ log_of w = 4 \/ log_of w = 8).
Proof.
  intros w. unfold usable_w, log_of. split.
  - intros H.
    assert (E : (N.log2 w = 1 \/ N.log2 w = 2 \/ N.log2 w = 4 \/ N.log2 w = 8)%N).
    { destruct H as [H|[H|H]].
      - destruct (N.lt_ge_cases w 4).
        + left. apply N.log2_unique; [lia|]. cbn; lia.
        + right. left. apply N.log2_unique; [lia|]. cbn; lia.
      - right. right. left. apply N.log2_unique; [lia|]. cbn; lia.
      - right. right. right. apply N.log2_unique; [lia|]. cbn; lia. }
    split; [change (2 ^ 31)%N with 2147483648%N; lia|]. lia.
  - intros ((H1 & H2) & H). pose proof (N.log2_spec w ltac:(lia)) as (A & B).
    assert (E : (N.log2 w = 1 \/ N.log2 w = 2 \/ N.log2 w = 4 \/ N.log2 w = 8)%N) by lia.
    destruct E as [E|[E|[E|E]]]; rewrite E in A, B; cbn in A, B; lia.
Qed.

Lemma usable_sized : forall w, usable_w w -> sized_w w.
Proof.
  intros w H. pose proof (proj1 (usable_log w) H) as (A & B). split; [exact A|].
  assert (X : 1 <= 256 / log_of w <= 256) by (destruct B as [->|[->|[->| ->]]]; cbn; lia).
  assert (W : (w < 512)%N) by (unfold usable_w in H; lia).
  rewrite N.mod_small.
  - nia.
  - change (2 ^ 32)%N with 4294967296%N. nia.
Qed.

Lemma usable_ok : forall w, usable_w w -> wots_ok (wpar w).
Proof.
  intros w H. split; [exists w; apply set_params_sized, usable_sized, H|]. rewrite wpar_log. apply usable_log, H.
Qed.

Lemma xmss_params_sized : forall h w, sized_w w -> 4 <= h -> Nat.even h = true -> xmss_set_params h w 2 = Ok (mkXP (wpar w) h 2).
Proof.
  intros h w HS H4 He. unfold xmss_set_params.
  assert (E : ((h <=? 2) || (2 <? 2) || negb ((h - 2) mod 2 =? 0))%bool = false).
  { rewrite (proj2 (Nat.leb_gt _ _)) by lia. change (2 <? 2) with false. cbn [orb].
    apply negb_false_iff, Nat.eqb_eq. apply Nat.even_spec in He. destruct He as [y Ey].
    replace (h - 2) with ((y - 1) * 2) by lia. apply Nat.mod_mul. lia. }
  rewrite E, (set_params_sized w HS). reflexivity.
Qed.

(** ** Digits *)
Definition cut_tail (w : N) (lw q : nat) (b : N) : list N :=
  map (fun i => N.land (b / 2 ^ N.of_nat (lw * (q - 1 - i))) (w - 1)) (seq 0 q).
Lemma cut_tail_S : forall w lw q b,
  cut_tail w lw (S q) b = N.land (b / 2 ^ N.of_nat (lw * q)) (w - 1) :: cut_tail w lw q b.
Proof.
  intros. unfold cut_tail. cbn [seq map]. rewrite <- seq_shift, map_map.
  replace (S q - 1 - 0) with q by lia. f_equal.
  apply map_ext_in. intros i Hi. apply in_seq in Hi. do 3 f_equal. f_equal. lia.
Qed.
Lemma cut_digits_cons : forall w lw b l, cut_digits w lw (b :: l) = cut_tail w lw (8 / lw) b ++ cut_digits w lw l.
Proof. reflexivity. Qed.

Lemma base_w_loop_cut : forall p lw n input pos total q,
  w_log_w p = lw -> (lw = 1 \/ lw = 2 \/ lw = 4 \/ lw = 8) ->
  n <= q + (8 / lw) * (length input - pos) ->
  base_w_loop n input pos total (q * lw) p = Ok (firstn n (cut_tail (w_w p) lw q total ++ cut_digits (w_w p) lw (skipn pos input))).
Proof.
  intros p lw n. induction n; intros input pos total q El HL Hn; [reflexivity|].
  assert (Hlw : lw <> 0) by lia.
  assert (H8 : 8 / lw * lw = 8) by (destruct HL as [->|[->|[->| ->]]]; reflexivity).
  cbn [base_w_loop].
  assert (Main : forall total q, forall pos, S n <= S q + (8 / lw) * (length input - pos) ->
    (if S q * lw <? w_log_w p then UB else
      rest <- base_w_loop n input pos total (S q * lw - w_log_w p) p ;;
      Ok (N.land (N.shiftr total (N.of_nat (S q * lw - w_log_w p))) (w_w p - 1) :: rest)) =
    Ok (firstn (S n) (cut_tail (w_w p) lw (S q) total ++ cut_digits (w_w p) lw (skipn pos input)))).
  { clear Hn pos total q. intros total q pos Hn. rewrite El.
    rewrite (proj2 (Nat.ltb_ge _ _)) by (cbn [Nat.mul]; lia).
    replace (S q * lw - lw) with (q * lw) by (cbn [Nat.mul]; lia).
    rewrite IHn by (auto; lia). cbn [bind]. rewrite cut_tail_S. cbn [app firstn]. do 2 f_equal.
    rewrite N.shiftr_div_pow2. do 4 f_equal. lia. }
  destruct q as [|q].
  - cbn [Nat.mul Nat.eqb].
    assert (Hq8 : 8 / lw = S (8 / lw - 1)) by (destruct HL as [->|[->|[->| ->]]]; reflexivity).
    assert (Hp : pos < length input).
    { destruct (Nat.lt_ge_cases pos (length input)); auto. replace (length input - pos) with O in Hn by lia. lia. }
    rewrite (get_nth _ input pos 0%N Hp). cbn [bind].
    specialize (Main (nth pos input 0%N) (8 / lw - 1) (S pos)). rewrite <- Hq8, H8 in Main.
    change (cut_tail (w_w p) lw 0 total) with (@nil N).
    rewrite (skipn_cons_nth _ input pos 0%N Hp), cut_digits_cons. cbn [app]. apply Main.
    replace (length input - pos) with (S (length input - S pos)) in Hn by lia. lia.
  - replace (S q * lw =? 0) with false by (symmetry; apply Nat.eqb_neq; cbn [Nat.mul]; lia).
    cbn [bind]. apply Main. exact Hn.
Qed.

Lemma wots_digits_w : forall w m, usable_w w -> length m = 32 -> wots_digits m (wpar w) = Ok (w_digits w m).
Proof.
  intros w m HU HM. pose proof (usable_ok w HU) as HP.
  destruct (wots_ok_facts _ HP) as (Hw & H1 & H2 & _ & _). destruct HP as [_ HL]. rewrite wpar_log in *.
  assert (H8 : 8 / log_of w * log_of w = 8) by (destruct HL as [->|[->|[->| ->]]]; reflexivity).
  unfold wots_digits, base_w, w_digits.
  assert (Ez : w_sizes w = (log_of w, w_len_1 (wpar w), w_len_2 (wpar w))) by reflexivity. rewrite Ez.
  pose proof (base_w_loop_cut (wpar w) (log_of w) (w_len_1 (wpar w)) m 0 0 0 (wpar_log w) HL) as B1.
  rewrite wpar_w in B1.
  cbn [Nat.mul] in B1. rewrite B1 by nia. cbn [bind]. change (cut_tail w (log_of w) 0 0) with (@nil N). cbn [app skipn].
  set (ds := firstn (w_len_1 (wpar w)) (cut_digits w (log_of w) m)).
  assert (Ec : csum_of ds (wpar w) = checksum w ds).
  { unfold csum_of. rewrite csum_checksum, wpar_w. lia. }
  rewrite Ec, N.shiftl_mul_pow2, wpar_log.
  match goal with |- context [base_w_loop (w_len_2 (wpar w)) ?i] =>
    pose proof (base_w_loop_cut (wpar w) (log_of w) (w_len_2 (wpar w)) i 0 0 0 (wpar_log w) HL) as B2 end.
  rewrite wpar_w in B2. cbn [Nat.mul] in B2. rewrite B2.
  - cbn [bind]. reflexivity.
  - rewrite to_byte_length.
    pose proof (Nat.div_mod (w_len_2 (wpar w) * log_of w + 7) 8).
    pose proof (Nat.mod_upper_bound (w_len_2 (wpar w) * log_of w + 7) 8). rewrite Nat.sub_0_r. nia.
Qed.
Lemma digits_of_w : forall w m, usable_w w -> length m = 32 -> digits_of (wpar w) m = w_digits w m.
Proof. intros. unfold digits_of. now rewrite wots_digits_w. Qed.

(** Every other parameter: the digit loop shifts by a negative amount. *)
Lemma base_w_undefined : forall p n input, 1 <= w_log_w p ->
  ~ (w_log_w p = 1 \/ w_log_w p = 2 \/ w_log_w p = 4 \/ w_log_w p = 8) -> 3 <= n -> input <> [] ->
  base_w n input p = UB.
Proof.
  intros p n input H1 HN Hn Hi. unfold base_w.
  destruct n as [|[|[|n]]]; try lia. destruct input as [|b input]; [congruence|].
  assert (E : w_log_w p = 3 \/ w_log_w p = 5 \/ w_log_w p = 6 \/ w_log_w p = 7 \/ 9 <= w_log_w p) by lia.
  destruct E as [E|[E|[E|[E|E]]]].
  - cbn [base_w_loop]. rewrite E. reflexivity.
  - cbn [base_w_loop]. rewrite E. reflexivity.
  - cbn [base_w_loop]. rewrite E. reflexivity.
  - cbn [base_w_loop]. rewrite E. reflexivity.
  - cbn [base_w_loop Nat.eqb bind get nth_error].
    replace (8 <? w_log_w p) with true by (symmetry; apply Nat.ltb_lt; lia). reflexivity.
Qed.

Lemma digits_undefined : forall w m, sized_w w -> ~ usable_w w -> length m = 32 -> wots_digits m (wpar w) = UB.
Proof.
  intros w m HS HU HM. unfold wots_digits. rewrite base_w_undefined; auto.
  - rewrite wpar_log. now apply log_of_bounds.
  - rewrite wpar_log. intros X. apply HU, usable_log. split; [apply HS|exact X].
  - change (w_len_1 (wpar w)) with (snd (fst (w_sizes w))). pose proof (cells_bounds w HS). lia.
  - destruct m; [discriminate|congruence].
Qed.

(** ** verify *)
Definition w_base (w : N) : nat := 36 + 32 * w_cells w.
Lemma base_size_w : forall w, sized_w w -> calculateSignatureBaseSize w = Ok (N.of_nat (w_base w)).
Proof.
  intros w HS. unfold calculateSignatureBaseSize. rewrite (set_params_sized w HS). cbn [bind]. f_equal.
  unfold w_keysize, w_base. rewrite wpar_len. pose proof (cells_bounds w HS) as (B & _).
  unfold u32. rewrite N.mod_small; [lia|]. change (2 ^ 32)%N with 4294967296%N. lia.
Qed.

Lemma height_from_size_w : forall w n, sized_w w ->
  getHeightFromSigSize (N.of_nat n) w =
  if (n <? w_base w) || negb ((n - w_base w) mod 32 =? 0) then Exn InvalidArgument
  else Ok (u8 (N.of_nat ((n - w_base w) / 32))).
Proof.
  intros w n HS. unfold getHeightFromSigSize. rewrite (base_size_w w HS). cbn [bind].
  destruct (n <? w_base w) eqn:E1.
  - apply Nat.ltb_lt in E1. rewrite (proj2 (N.ltb_lt _ _)) by lia. reflexivity.
  - apply Nat.ltb_ge in E1. rewrite (proj2 (N.ltb_ge _ _)) by lia. cbn [orb].
    set (k := n - w_base w). unfold w_base in *.
    assert (En : n = k + (36 + 32 * w_cells w)) by lia.
    assert (Em : ((N.of_nat n - 4) mod 32)%N = N.of_nat (k mod 32)).
    { replace (N.of_nat n - 4)%N with (N.of_nat k + N.of_nat (1 + w_cells w) * 32)%N by lia.
      rewrite N.mod_add by lia. symmetry. apply (Nat2N.inj_mod k 32). }
    rewrite Em. replace (N.of_nat n - N.of_nat (36 + 32 * w_cells w))%N with (N.of_nat k) by lia.
    replace (N.of_nat k / 32)%N with (N.of_nat (k / 32)) by (now rewrite Nat2N.inj_div).
    destruct (k mod 32 =? 0) eqn:E2.
    + apply Nat.eqb_eq in E2. rewrite E2. reflexivity.
    + apply Nat.eqb_neq in E2. rewrite (proj2 (N.eqb_neq _ _)) by lia. reflexivity.
Qed.

Lemma verify_shape : forall w msg sig pk, sized_w w -> all_bytes pk ->
  (w_sizes_match w sig pk ->
     verify_body msg sig pk w = with_hash (nth 0 pk 0 mod 16)%N (fun hf =>
       xmss_Verifysig hf (wpar w) msg sig (skipn 3 pk) (pk_height pk))) /\
  (~ w_sizes_match w sig pk -> verify msg sig pk w = Ok false).
Proof.
  intros w msg sig pk HS Hpk. pose proof (cells_bounds w HS) as (HB & _).
  unfold verify, verify_body, w_sizes_match.
  destruct (length pk =? 67) eqn:EL; cbn [negb].
  2:{ apply Nat.eqb_neq in EL. split; [tauto|reflexivity]. }
  apply Nat.eqb_eq in EL. rewrite (base_size_w w HS). cbn [bind].
  unfold pk_height. set (hh := (nth 1 pk 0 mod 16)%N).
  assert (Hhh : (hh < 16)%N) by (apply N.mod_upper_bound; lia).
  destruct (N.of_nat (w_base w) + 254 * 32 <? N.of_nat (length sig))%N eqn:ES.
  { apply N.ltb_lt in ES. unfold w_base in ES. split; [|reflexivity]. intros (_ & _ & X). lia. }
  apply N.ltb_ge in ES.
  unfold descr_fromExtendedPK. rewrite EL. cbn [Nat.eqb negb]. unfold descr_getSize.
  rewrite firstn_3 by lia. rewrite fromBytes_arith by (now apply all_bytes_nth). cbn [bind d_sig d_hash d_height].
  change (negb (0 =? 0)%N) with false. cbn iota.
  rewrite (height_from_size_w w _ HS). change (36 + 32 * w_cells w) with (w_base w).
  set (B := w_base w) in *. fold hh.
  destruct ((length sig <? B) || negb ((length sig - B) mod 32 =? 0)) eqn:E0.
  { cbn [bind]. split; [|reflexivity]. intros (_ & _ & F). exfalso. apply orb_true_iff in E0. destruct E0 as [E0|E0].
    - apply Nat.ltb_lt in E0. lia.
    - apply negb_true_iff, Nat.eqb_neq in E0. apply E0. rewrite F.
      replace (B + 32 * (2 * N.to_nat hh) - B) with (2 * N.to_nat hh * 32) by lia. apply Nat.mod_mul. lia. }
  cbn [bind]. apply orb_false_iff in E0. destruct E0 as [E0 E0']. apply Nat.ltb_ge in E0.
  apply negb_false_iff, Nat.eqb_eq in E0'.
  set (k := (length sig - B) / 32).
  assert (Ek : length sig = B + 32 * k). { pose proof (Nat.div_mod (length sig - B) 32). unfold k. lia. }
  assert (Hk : k <= 254) by lia.
  unfold u8. rewrite N.mod_small by lia.
  destruct ((N.of_nat k =? 0)%N || negb (2 * hh =? N.of_nat k)%N) eqn:E8.
  { split; [|reflexivity]. intros (_ & F1 & F2). exfalso.
    apply orb_true_iff in E8. destruct E8 as [E8|E8].
    - apply N.eqb_eq in E8. lia.
    - apply negb_true_iff, N.eqb_neq in E8. lia. }
  apply orb_false_iff in E8. destruct E8 as [E8 E9]. apply N.eqb_neq in E8. apply negb_false_iff, N.eqb_eq in E9.
  rewrite <- E9. rewrite bad_height_even.
  destruct (hh <=? 1)%N eqn:E10.
  { apply N.leb_le in E10. split; [|reflexivity]. intros (_ & F1 & _). lia. }
  apply N.leb_gt in E10. split.
  2:{ intros F. exfalso. apply F. split; [reflexivity|]. lia. }
  intros _. replace (N.to_nat (2 * hh)) with (2 * N.to_nat hh) by lia.
  rewrite (xmss_params_sized (2 * N.to_nat hh) w HS); [reflexivity|lia|].
  apply Nat.even_spec. exists (N.to_nat hh). reflexivity.
Qed.

(** Usable parameters: an answer, and which. *)
Theorem C73_verify_usable : forall w hf msg sig pk, usable_w w -> all_bytes pk ->
  hash_of_id (nth 0 pk 0 mod 16)%N = Some hf ->
  exists b, verify msg sig pk w = Ok b /\
    (b = true <-> w_sizes_match w sig pk /\ w_recovered hf w sig pk msg = pk_root pk).
Proof.
  intros w hf msg sig pk HU Hpk Hhf. pose proof (usable_sized w HU) as HS.
  destruct (verify_shape w msg sig pk HS Hpk) as (S1 & S2).
  assert (D : {w_sizes_match w sig pk} + {~ w_sizes_match w sig pk}).
  { unfold w_sizes_match. destruct (Nat.eq_dec (length pk) 67); [|right; tauto].
    destruct (le_dec 4 (pk_height pk)); [|right; tauto].
    destruct (Nat.eq_dec (length sig) (36 + 32 * w_cells w + 32 * pk_height pk)); [left|right]; tauto. }
  destruct D as [D|D].
  2:{ exists false. split; [exact (S2 D)|]. split; [discriminate|tauto]. }
  unfold verify. rewrite (S1 D). unfold with_hash. rewrite Hhf.
  destruct D as (D1 & D2 & D3).
  rewrite Verifysig_spec by (try apply usable_ok; auto; lia). cbv zeta.
  rewrite wpar_w, wpar_len. unfold w_keysize. rewrite wpar_len.
  unfold slice. rewrite skipn_add. change (3 + 32) with 35. change (skipn 0 sig) with sig.
  change (skipn 0 (skipn 3 pk)) with (skipn 3 pk). fold (pk_root pk).
  eexists. split; [reflexivity|]. unfold w_recovered. rewrite !cells_chunks.
  replace (w_cells w * 32) with (32 * w_cells w) by lia.
  unfold recovered_root. rewrite digits_of_w by (auto; apply keyed_length).
  rewrite bytes_eqb_eq. unfold w_sizes_match. tauto.
Qed.

(** Parameters with sizes but without digits: exactly the calls that reach the hash
    computation are undefined. *)
Theorem C73_verify_unusable : forall w msg sig pk, sized_w w -> ~ usable_w w -> all_bytes pk ->
  (w_sizes_match w sig pk -> verify msg sig pk w = UB) /\ (~ w_sizes_match w sig pk -> verify msg sig pk w = Ok false).
Proof.
  intros w msg sig pk HS HU Hpk. destruct (verify_shape w msg sig pk HS Hpk) as (S1 & S2). split; [|exact S2].
  intros D. unfold verify. rewrite (S1 D). unfold with_hash.
  destruct (hash_of_id (nth 0 pk 0 mod 16)%N) as [hf|]; [|reflexivity].
  unfold xmss_Verifysig, wots_pkFromSig. rewrite digits_undefined; auto.
  unfold h_msg. rewrite core_hash_keyed. apply keyed_length.
Qed.

(** Parameters without sizes. *)
Theorem C73_verify_unsized : forall w msg sig pk, ~ sized_w w ->
  (length pk = 67 -> verify msg sig pk w = UB) /\ (length pk <> 67 -> verify msg sig pk w = Ok false).
Proof.
  intros w msg sig pk HS. unfold verify, verify_body. split; intros H.
  - rewrite H. cbn [Nat.eqb negb]. unfold calculateSignatureBaseSize. rewrite (set_params_unsized w HS). reflexivity.
  - rewrite (proj2 (Nat.eqb_neq _ _) H). reflexivity.
Qed.

(** ** XmssBasic *)
Lemma w_keypair : forall hf junk w h seed, sized_w w -> length seed = 48 ->
  xmss_Genkeypair hf junk (mkXP (wpar w) h 2) seed = Ok (w_sk hf w h seed 0).
Proof.
  intros hf junk w h seed HS HL. unfold xmss_Genkeypair.
  rewrite firstn_all2 by lia. fold (key_stream seed).
  assert (K1 : slice 0 32 (key_stream seed) = key_seed seed) by reflexivity.
  assert (K2 : slice 64 32 (key_stream seed) = key_pub seed) by reflexivity.
  rewrite K1, K2. pose proof (cells_bounds w HS) as (HB & _).
  rewrite treehash_spec.
  - cbn [bind x_h]. unfold w_sk. change (to_byte 4 0) with [0;0;0;0]%N. rewrite key_stream_split, <- !app_assoc. cbn [app].
    unfold w_root, tnode. cbn [x_wots]. rewrite wpar_w, wpar_len. reflexivity.
  - cbn [x_wots]. rewrite wpar_w. destruct HS as ((? & _) & _). lia.
  - cbn [x_wots]. rewrite wpar_len. lia.
  - repeat split.
Qed.

(** An object with parameter [w] at index [i]. *)
Definition w_obj (hf : hashfn) (w hash fmt : N) (h : nat) (seed : list N) (i : N) : xbase :=
  mkXB (mkXP (wpar w) h 2) hash fmt (N.of_nat h) (w_sk hf w h seed i) seed.

Lemma w_new : forall junk seed height hash hf fmt w, sized_w w -> hash_of_id hash = Some hf ->
  4 <= height <= 30 -> Nat.even height = true -> length seed = 48 ->
  XmssBasic_new junk seed (N.of_nat height) hash fmt w = Ok (w_obj hf w hash fmt height seed 0).
Proof.
  intros junk seed height hash hf fmt w HS Hh H4 He HL. unfold XmssBasic_new, check_seed. rewrite HL. cbn [Nat.eqb negb].
  rewrite (proj2 (N.ltb_ge _ _)) by lia. cbn [bind].
  assert (E : bad_height (N.of_nat height) = false).
  { apply Nat.even_spec in He. destruct He as [y Ey]. replace (N.of_nat height) with (2 * N.of_nat y)%N by lia.
    rewrite bad_height_even. apply N.leb_gt. lia. }
  rewrite E, Nat2N.id, (xmss_params_sized height w HS) by (auto; lia). cbn [bind].
  rewrite (proj2 (N.leb_gt _ _)) by lia. unfold with_hash. rewrite Hh, (w_keypair hf junk w height seed HS HL). reflexivity.
Qed.

Lemma key_length32 : forall seed, length (key_seed seed) = 32 /\ length (key_prf seed) = 32 /\ length (key_pub seed) = 32.
Proof. exact key_lengths. Qed.

Lemma w_root_length : forall hf w h seed, sized_w w -> length (w_root hf w h seed) = 32.
Proof. intros. unfold w_root. apply node_length. pose proof (cells_bounds w H). lia. Qed.

Lemma w_sk_sk_at : forall hf w h seed i,
  w_sk hf w h seed i = sk_at i (key_seed seed) (key_prf seed) (key_pub seed) (w_root hf w h seed).
Proof. reflexivity. Qed.
Lemma w_getIndex : forall hf w hash fmt height seed i, sized_w w -> (i < 2 ^ 32)%N ->
  getIndex (w_obj hf w hash fmt height seed i) = i.
Proof.
  intros hf w hash fmt height seed i HS Hlt. destruct (key_lengths seed) as (L1 & L2 & L3).
  pose proof (w_root_length hf w height seed HS) as L4. unfold getIndex. cbn [xb_sk w_obj]. rewrite w_sk_sk_at.
  destruct (sk_at_slices (key_seed seed) (key_prf seed) (key_pub seed) (w_root hf w height seed) (mkXP (wpar w) height 2) L1 L2 L3 L4 i) as (E0 & _).
  rewrite E0, from_be_to_byte4 by exact Hlt. unfold u32. now apply N.mod_small.
Qed.
Lemma w_getPK : forall hf w hash fmt height seed i, sized_w w -> getPK (w_obj hf w hash fmt height seed i) =
  descr_getBytes (mkDescr hash 0 (N.of_nat height) fmt) ++ w_root hf w height seed ++ key_pub seed.
Proof.
  intros hf w hash fmt height seed i HS. destruct (key_lengths seed) as (L1 & L2 & L3).
  pose proof (w_root_length hf w height seed HS) as L4. unfold getPK, getRoot, getPKSeed. cbn [xb_sk w_obj]. rewrite w_sk_sk_at.
  destruct (sk_at_slices (key_seed seed) (key_prf seed) (key_pub seed) (w_root hf w height seed) (mkXP (wpar w) height 2) L1 L2 L3 L4 i) as (_ & _ & _ & E3 & E4 & _).
  rewrite E3, E4. reflexivity.
Qed.
Lemma w_signature : forall hf w height seed idx msg, usable_w w ->
  signature hf (N.to_nat (w_w (wpar w))) (w_len (wpar w)) height (digits_of (wpar w)) (key_seed seed)
    (key_prf seed) (key_pub seed) (w_root hf w height seed) idx msg = w_sig hf w height seed idx msg.
Proof.
  intros hf w height seed idx msg HU. unfold w_sig, signature.
  rewrite wpar_w, wpar_len, digits_of_w by (auto; apply keyed_length). reflexivity.
Qed.
Lemma w_sig_verifies : forall hf w hash fmt height seed idx msg, usable_w w -> hash_of_id hash = Some hf ->
  4 <= height <= 30 -> Nat.even height = true -> idx < 2 ^ height ->
  verify msg (w_sig hf w height seed idx msg) (getPK (w_obj hf w hash fmt height seed 0)) w = Ok true.
Proof.
  intros hf w hash fmt height seed idx msg HU Hh H4 He Hn. pose proof (usable_sized w HU) as HS.
  destruct (key_lengths seed) as (L1 & L2 & L3). pose proof (w_root_length hf w height seed HS) as L4.
  rewrite (w_getPK hf w hash fmt height seed 0 HS).
  pose proof (Verifysig_signature hf (key_seed seed) (key_prf seed) (key_pub seed) (w_root hf w height seed) (mkXP (wpar w) height 2)
     L1 L2 L3 L4 (usable_ok w HU) height idx msg) as EV.
  cbn [x_wots] in EV. rewrite w_signature in EV by exact HU.
  assert (EV' : xmss_Verifysig hf (wpar w) msg (w_sig hf w height seed idx msg) (w_root hf w height seed ++ key_pub seed) height = Ok true).
  { apply EV; [lia|exact Hn|]. unfold tnode, w_root. cbn [x_wots]. now rewrite wpar_w, wpar_len. }

  set (DB := descr_getBytes (mkDescr hash 0 (N.of_nat height) fmt)).
  pose proof He as He'. apply Nat.even_spec in He'. destruct He' as [y Ey].
  assert (Hs : (hash < 3)%N) by (eapply hash_id_small; eauto).
  assert (EDB : DB = descr_getBytes (mkDescr hash 0 (N.of_nat height) fmt)) by reflexivity.
  assert (LD : length DB = 3) by (rewrite EDB, getBytes_arith; reflexivity).
  assert (D0 : nth 0 (DB ++ w_root hf w height seed ++ key_pub seed) 0%N = hash).
  { rewrite EDB, getBytes_arith. cbn [app nth d_sig d_hash]. rewrite N.mod_small with (a := hash); [reflexivity|lia]. }
  assert (D1 : pk_height (DB ++ w_root hf w height seed ++ key_pub seed) = height).
  { assert (DD : (nth 1 (DB ++ w_root hf w height seed ++ key_pub seed) 0 mod 16)%N = N.of_nat y).
    { rewrite EDB, getBytes_arith. cbn [app nth d_fmt d_height].
      rewrite Ey. replace (N.of_nat (2 * y)) with (N.of_nat y * 2)%N by lia. rewrite N.div_mul by lia.
      symmetry. apply (N.mod_unique _ _ (fmt mod 16)); [lia|].
      rewrite (N.mod_small (N.of_nat y)) by lia. reflexivity. }
    unfold pk_height. rewrite DD. lia. }
  assert (BP : all_bytes (DB ++ w_root hf w height seed ++ key_pub seed)).
  { apply Forall_app. split; [rewrite EDB; apply getBytes_bytes|]. apply Forall_app. split.
    - unfold w_root. destruct height; [lia|]. cbn [node]. apply keyed_bytes.
    - unfold key_pub, key_stream. pose proof (shake256_bytes 96 seed) as B. unfold all_bytes in *.
      apply Forall_forall. intros x Hx. rewrite Forall_forall in B. apply B.
      assert (In x (skipn 64 (shake256 96 seed))).
      { rewrite <- (firstn_skipn 32). apply in_or_app. now left. }
      rewrite <- (firstn_skipn 64). apply in_or_app. now right. }
  destruct (verify_shape w msg (w_sig hf w height seed idx msg) _ HS BP) as (VS & _).
  unfold verify. rewrite VS, D0, D1.
  - rewrite (N.mod_small hash) by lia. unfold with_hash. rewrite Hh.
    rewrite (skipn_app_exact _ DB) by auto. rewrite EV'. reflexivity.
  - unfold w_sizes_match. rewrite D1. split; [rewrite !app_length; lia|]. split; [lia|].
    rewrite <- w_signature by exact HU.
    pose proof (signature_length hf (key_seed seed) (key_prf seed) (key_pub seed) (w_root hf w height seed)
      (mkXP (wpar w) height 2) L1 L2 L3 L4 (usable_ok w HU) height (digits_of (wpar w)) idx msg) as SL.
    cbn [x_wots] in SL. rewrite SL. unfold w_keysize. rewrite wpar_len. lia.
Qed.

(** Every usable w: construction, the signature with every index, verification. *)
Theorem C73_basic_usable : forall junk seed height hash hf fmt w,
  usable_w w -> hash_of_id hash = Some hf -> 4 <= height <= 24 -> Nat.even height = true -> length seed = 48 ->
  exists x, XmssBasic_new junk seed (N.of_nat height) hash fmt w = Ok x /\
    forall j idx msg, (idx < 2 ^ N.of_nat height)%N ->
      exists y, XmssBasic_sign j (fst (base_setIndex x idx)) msg = Ok (y, w_sig hf w height seed (N.to_nat idx) msg) /\
        getIndex y = (idx + 1)%N /\ getPK y = getPK x /\
        verify msg (w_sig hf w height seed (N.to_nat idx) msg) (getPK x) w = Ok true.
Proof.
  intros junk seed height hash hf fmt w HU Hh H4 He HL. pose proof (usable_sized w HU) as HS.
  exists (w_obj hf w hash fmt height seed 0). split; [apply w_new; auto; lia|].
  intros j idx msg Hi. destruct (key_lengths seed) as (L1 & L2 & L3).
  pose proof (w_root_length hf w height seed HS) as L4.
  assert (Ei : fst (base_setIndex (w_obj hf w hash fmt height seed 0) idx) = w_obj hf w hash fmt height seed idx) by reflexivity.
  rewrite Ei. unfold XmssBasic_sign. cbn [xb_hash w_obj]. unfold with_hash. rewrite Hh. cbn [xb_params xb_sk w_obj].
  change (w_sk hf w height seed idx) with (sk_at idx (key_seed seed) (key_prf seed) (key_pub seed) (w_root hf w height seed)).
  assert (Hn : N.to_nat idx < 2 ^ height).
  { assert (X : (2 ^ N.of_nat height)%N = N.of_nat (2 ^ height)) by (now rewrite Nat2N.inj_pow). lia. }
  assert (Bh : (2 ^ N.of_nat height <= 2 ^ 24)%N) by (apply N.pow_le_mono_r; lia). change (2 ^ 24)%N with 16777216%N in Bh.
  pose proof (Signmsg_spec hf _ _ _ _ (mkXP (wpar w) height 2) L1 L2 L3 L4 (usable_ok w HU) j (N.to_nat idx) msg) as ES.
  cbn [x_h x_wots] in ES. rewrite N2Nat.id in ES.
  rewrite w_signature in ES by exact HU. rewrite ES by lia. cbn [bind]. eexists. split; [reflexivity|].
  split. { apply (w_getIndex hf w hash fmt height seed (idx + 1) HS). change (2 ^ 32)%N with 4294967296%N. lia. }
  split. { exact (eq_trans (w_getPK hf w hash fmt height seed (idx + 1) HS) (eq_sym (w_getPK hf w hash fmt height seed 0 HS))). }
  apply w_sig_verifies; auto. lia.
Qed.

Lemma Signmsg_undefined : forall hf j p sk msg w, x_wots p = wpar w -> sized_w w -> ~ usable_w w ->
  xmss_Signmsg hf j p sk msg = UB.
Proof.
  intros hf j p sk msg w EW HS HU. unfold xmss_Signmsg. cbv zeta. destruct (get_seed hf _ _) as [os a].
  unfold wots_sign. rewrite EW. rewrite digits_undefined; auto. unfold h_msg. rewrite core_hash_keyed. apply keyed_length.
Qed.

(** Sized but unusable w: the constructor succeeds, no signature is ever produced. *)
Theorem C73_basic_unusable : forall junk seed height hash hf fmt w,
  sized_w w -> ~ usable_w w -> hash_of_id hash = Some hf -> 4 <= height <= 30 -> Nat.even height = true -> length seed = 48 ->
  exists x, XmssBasic_new junk seed (N.of_nat height) hash fmt w = Ok x /\
    forall j idx msg, XmssBasic_sign j (fst (base_setIndex x idx)) msg = UB.
Proof.
  intros junk seed height hash hf fmt w HS HU Hh H4 He HL. eexists. split; [apply w_new; eauto|].
  intros j idx msg. unfold XmssBasic_sign. cbn [base_setIndex fst xb_hash with_sk w_obj]. unfold with_hash. rewrite Hh.
  rewrite (Signmsg_undefined hf j _ _ msg w); auto.
Qed.

(** w without sizes: the constructor itself is undefined once the other arguments
    are accepted. *)
Theorem C73_basic_unsized : forall junk seed height hash fmt w, ~ sized_w w ->
  (length seed = 48 /\ (4 <= height <= 254)%N /\ N.even height = true ->
     XmssBasic_new junk seed height hash fmt w = UB) /\
  (~ (length seed = 48 /\ (4 <= height <= 254)%N /\ N.even height = true) ->
     XmssBasic_new junk seed height hash fmt w = Exn InvalidArgument).
Proof.
  intros junk seed height hash fmt w HS. unfold XmssBasic_new, check_seed.
  destruct (length seed =? 48) eqn:E1; cbn [negb bind]; [apply Nat.eqb_eq in E1|apply Nat.eqb_neq in E1; tauto].
  destruct (254 <? height)%N eqn:E2; cbn [bind]; [apply N.ltb_lt in E2; split; [lia|reflexivity]|apply N.ltb_ge in E2].
  assert (B : bad_height height = negb ((4 <=? height)%N && N.even height)).
  { destruct (N.even height) eqn:Ev.
    - apply N.even_spec in Ev. destruct Ev as [y ->]. rewrite bad_height_even, andb_true_r.
      destruct (4 <=? 2 * y)%N eqn:E; cbn [negb]; [apply N.leb_gt; apply N.leb_le in E|apply N.leb_le; apply N.leb_gt in E]; lia.
    - rewrite andb_false_r. cbn [negb]. rewrite <- N.negb_odd in Ev. apply negb_false_iff, N.odd_spec in Ev. destruct Ev as [y ->].
      unfold bad_height. destruct (2 * y + 1 <=? 2)%N eqn:E; [reflexivity|]. apply N.leb_gt in E. cbn [orb].
      replace (2 * y + 1 - 2)%N with (1 + (y - 1) * 2)%N by lia. rewrite N.mod_add by lia. reflexivity. }
  rewrite B. destruct ((4 <=? height)%N && N.even height) eqn:E4; cbn [negb].
  - apply andb_true_iff in E4. destruct E4 as [E4 E5]. apply N.leb_le in E4. split; [|tauto]. intros _.
    unfold xmss_set_params. destruct ((N.to_nat height <=? 2) || (2 <? 2) || negb ((N.to_nat height - 2) mod 2 =? 0))%bool; [reflexivity|].
    now rewrite (set_params_unsized w HS).
  - apply andb_false_iff in E4. split; [|reflexivity]. intros (_ & X & Y). rewrite Y in E4. destruct E4 as [E4|E4]; [apply N.leb_gt in E4; lia|discriminate].
Qed.

(** ** w that is not a power of two: part of the digest is not signed *)




(** Bit [b] of a byte has no influence on its digits. *)
Definition bit_lost (w b : N) : bool :=
  forallb (fun x => if list_eq_dec N.eq_dec (cut_tail w (log_of w) (8 / log_of w) (N.of_nat x))
                         (cut_tail w (log_of w) (8 / log_of w) (clear_bit b (N.of_nat x))) then true else false) (seq 0 256).
Definition bad_ws : list N := [3; 5; 6; 7]%N ++ map N.of_nat (seq 17 15) ++ map N.of_nat (seq 257 255).
Lemma bad_ws_lost : forallb (fun w => existsb (bit_lost w) [0; 1; 2; 3; 4; 5; 6; 7]%N) bad_ws = true.
Proof. vm_compute. reflexivity. Qed.
Lemma bad_ws_complete : forall w, usable_w w -> ~ power_of_two w -> In w bad_ws.
Proof.
  intros w HU HP. unfold bad_ws, usable_w, power_of_two in *. rewrite !in_app_iff, !in_map_iff. cbn [In].
  assert (H : (w = 3 \/ w = 5 \/ w = 6 \/ w = 7 \/ 17 <= w < 32 \/ 257 <= w < 512)%N) by lia.
  destruct H as [H|[H|[H|[H|[H|H]]]]]; try (left; lia).
  - right. left. exists (N.to_nat w). split; [lia|]. apply in_seq. lia.
  - right. right. exists (N.to_nat w). split; [lia|]. apply in_seq. lia.
Qed.

Lemma cut_digits_clear : forall w b l, bit_lost w b = true -> all_bytes l ->
  cut_digits w (log_of w) (map (clear_bit b) l) = cut_digits w (log_of w) l.
Proof.
  intros w b l Hb Hl. induction Hl as [|x l Hx Hl IH]; [reflexivity|].
  cbn [map]. rewrite !cut_digits_cons, IH. f_equal.
  unfold bit_lost in Hb. rewrite forallb_forall in Hb. specialize (Hb (N.to_nat x)).
  rewrite N2Nat.id in Hb. destruct (list_eq_dec N.eq_dec _ _) as [E|E] in Hb; [now rewrite E|].
  discriminate Hb. apply in_seq. unfold is_byte in Hx. lia.
Qed.
Lemma w_digits_clear : forall w b l l', bit_lost w b = true -> all_bytes l -> all_bytes l' ->
  map (clear_bit b) l = map (clear_bit b) l' -> w_digits w l = w_digits w l'.
Proof.
  intros w b l l' Hb Hl Hl' E. unfold w_digits, w_sizes. cbv zeta.
  rewrite <- (cut_digits_clear w b l Hb Hl), <- (cut_digits_clear w b l' Hb Hl'), E. reflexivity.
Qed.

(** For every usable w that is not a power of two there is a bit position such that
    a signature is accepted for a message whenever it is accepted for another message
    whose digest differs from that message's digest at most in that bit of any of its
    32 bytes (2^32 digests share every signature). *)
Theorem C73_lost_bits : forall w, usable_w w -> ~ power_of_two w ->
  exists b, (b < 8)%N /\
    forall hf sig pk m m', all_bytes pk -> hash_of_id (nth 0 pk 0 mod 16)%N = Some hf ->
      map (clear_bit b) (sig_digest hf sig pk m) = map (clear_bit b) (sig_digest hf sig pk m') ->
      verify m sig pk w = verify m' sig pk w.
Proof.
  intros w HU HP. pose proof bad_ws_lost as HB. rewrite forallb_forall in HB.
  specialize (HB w (bad_ws_complete w HU HP)). apply existsb_exists in HB. destruct HB as (b & Hin & Hb).
  exists b. split; [cbn [In] in Hin; lia|].
  intros hf sig pk m m' Hpk Hh E.
  destruct (C73_verify_usable w hf m sig pk HU Hpk Hh) as (r & Er & Hr).
  destruct (C73_verify_usable w hf m' sig pk HU Hpk Hh) as (r' & Er' & Hr').
  rewrite Er, Er'. f_equal.
  assert (X : w_recovered hf w sig pk m = w_recovered hf w sig pk m').
  { unfold w_recovered, recovered_root. fold (sig_digest hf sig pk m). fold (sig_digest hf sig pk m').
    rewrite (w_digits_clear w b (sig_digest hf sig pk m) (sig_digest hf sig pk m') Hb); auto; apply keyed_bytes. }
  rewrite X in Hr. apply Bool.eq_iff_eq_true. rewrite Hr, Hr'. reflexivity.
Qed.
(** The digits determine the digest for the powers of two, so nothing of this kind
    exists there. *)
Definition byte_cut (w : N) (x : N) : list N := cut_tail w (log_of w) (8 / log_of w) x.
Definition cut_inj (w : N) : bool :=
  forallb (fun x => forallb (fun y => if list_eq_dec N.eq_dec (byte_cut w (N.of_nat x)) (byte_cut w (N.of_nat y)) then x =? y else true)
                            (seq 0 256)) (seq 0 256).
Lemma cut_inj_ok : forallb cut_inj [2; 4; 16; 256]%N = true.
Proof. vm_compute. reflexivity. Qed.
Lemma byte_cut_inj : forall w x y, power_of_two w -> is_byte x -> is_byte y -> byte_cut w x = byte_cut w y -> x = y.
Proof.
  intros w x y HW Hx Hy E. pose proof cut_inj_ok as H. rewrite forallb_forall in H.
  specialize (H w). unfold cut_inj in H. rewrite forallb_forall in H. unfold is_byte in *.
  assert (I : In w [2; 4; 16; 256]%N) by (unfold power_of_two in HW; cbn [In]; destruct HW as [->|[->|[->| ->]]]; tauto).
  specialize (H I (N.to_nat x)). rewrite forallb_forall in H.
  assert (Ix : In (N.to_nat x) (seq 0 256)) by (apply in_seq; lia).
  assert (Iy : In (N.to_nat y) (seq 0 256)) by (apply in_seq; lia).
  specialize (H Ix (N.to_nat y) Iy). rewrite !N2Nat.id in H.
  destruct (list_eq_dec _ _ _) as [_|X] in H; [|contradiction]. apply Nat.eqb_eq in H. lia.
Qed.
Lemma cut_tail_length : forall w lw n x, length (cut_tail w lw n x) = n.
Proof. intros. unfold cut_tail. now rewrite map_length, seq_length. Qed.
Lemma cut_digits_length : forall w lw l, length (cut_digits w lw l) = length l * (8 / lw).
Proof.
  intros w lw l. induction l; [reflexivity|]. rewrite cut_digits_cons, app_length, cut_tail_length, IHl. reflexivity.
Qed.
Lemma cut_digits_inj : forall w l l', power_of_two w -> all_bytes l -> all_bytes l' -> length l = length l' ->
  cut_digits w (log_of w) l = cut_digits w (log_of w) l' -> l = l'.
Proof.
  intros w l l' HW Hl. revert l'. induction Hl as [|x l Hx Hl IH]; intros [|y l'] Hl' HL E; try discriminate; auto.
  rewrite !cut_digits_cons in E. inversion Hl'; subst. cbn [length] in HL.
  apply PropDomain.app_inj_len in E; [destruct E as [E1 E2]|now rewrite !cut_tail_length].
  f_equal; [eapply byte_cut_inj; eauto|apply IH; auto].
Qed.
Theorem C73_power_of_two_injective : forall w l l', power_of_two w -> all_bytes l -> all_bytes l' ->
  length l = 32 -> length l' = 32 -> w_digits w l = w_digits w l' -> l = l'.
Proof.
  intros w l l' HW Hl Hl' HL HL' E.
  apply (cut_digits_inj w); auto; [congruence|].
  assert (K : forall m, length m = 32 -> cut_digits w (log_of w) m = firstn (length (cut_digits w (log_of w) m)) (w_digits w m)).
  { intros m HM. unfold w_digits, w_sizes. cbv zeta.
    assert (LC : length (cut_digits w (log_of w) m) = 256 / log_of w).
    { rewrite cut_digits_length, HM. unfold power_of_two in HW. destruct HW as [->|[->|[->| ->]]]; reflexivity. }
    rewrite <- LC, firstn_all. now rewrite firstn_app, Nat.sub_diag, firstn_all, firstn_O, app_nil_r. }
  rewrite (K l HL), (K l' HL'), E, !cut_digits_length, HL, HL'. reflexivity.
Qed.

(** Examples: members of every class. *)
Example C73_classes :
  usable_w 5 /\ ~ power_of_two 5 /\ usable_w 16 /\ power_of_two 16 /\
  sized_w 8 /\ ~ usable_w 8 /\ sized_w 65536 /\ ~ usable_w 65536 /\
  ~ sized_w 1 /\ ~ sized_w (2 ^ 31) /\ ~ sized_w (2 ^ 29 + 1) /\ w_cells 5 = 133 /\ w_cells 16 = 67.
Proof.
  unfold usable_w, power_of_two.
  repeat match goal with |- _ /\ _ => split end; try reflexivity; try lia;
    try (split; [split; [lia|reflexivity]|vm_compute; discriminate]).
  - intros [[H _] _]. lia.
  - intros [[_ H] _]. discriminate H.
  - intros [_ H]. apply H. vm_compute. reflexivity.
Qed.
