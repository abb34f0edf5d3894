(** C86: the floating-point computation of the WOTS parameters. *)
From Coq Require Import List NArith ZArith Arith Lia Lra Bool Reals.
From Flocq Require Import Core.
From Verif Require Import Base Bytes Wots RsWots FpParams SpecFp.
Open Scope R_scope.

(** ** Logarithms of integers stay away from the next integer *)
Lemma ln2_pos : 0 < ln 2. Proof. rewrite <- ln_1. apply ln_increasing; lra. Qed.
Lemma ln2_lt1 : ln 2 < 1.
Proof.
  replace 1 with (ln (exp 1)) by apply ln_exp. apply ln_increasing; [lra|].
  generalize (exp_ineq1 1 ltac:(lra)). lra.
Qed.
Lemma log2R_pow : forall k : Z, (0 <= k)%Z -> log2R (IZR (2 ^ k)) = IZR k.
Proof.
  intros k Hk. unfold log2R. replace (IZR (2 ^ k)) with ((2 ^ (Z.to_nat k))%R).
  2:{ rewrite pow_IZR. rewrite Z2Nat.id by lia. reflexivity. }
  rewrite ln_pow by lra. rewrite INR_IZR_INZ, Z2Nat.id by lia.
  field. generalize ln2_pos. lra.
Qed.
Lemma log2R_mono : forall a b, 0 < a -> a <= b -> log2R a <= log2R b.
Proof.
  intros a b Ha Hab. unfold log2R. apply Rmult_le_compat_r.
  - left. apply Rinv_0_lt_compat, ln2_pos.
  - destruct Hab as [H|H]; [left; apply ln_increasing; lra | subst; lra].
Qed.
Lemma ln_le_sub1 : forall x, 0 < x -> ln x <= x - 1.
Proof.
  intros x Hx. destruct (Req_dec x 1) as [->|Hn]; [rewrite ln_1; lra|].
  assert (ln x <> 0). { intro E. apply Hn. rewrite <- (exp_ln x Hx), E. apply exp_0. }
  generalize (exp_ineq1 (ln x) H). rewrite exp_ln by exact Hx. lra.
Qed.
(** Between two powers of two the logarithm of an integer below 2^s keeps a
    distance of 2^-(s+1) from both exponents. *)
Definition gap (s : Z) : R := / IZR (2 ^ (s + 1)).
Lemma log2R_between : forall (s k n : Z), (0 <= k < s)%Z -> (2 ^ k < n < 2 ^ (k + 1))%Z ->
  IZR k + gap s <= log2R (IZR n) <= IZR (k + 1) - gap s.
Proof.
  intros s k n Hk [Hlo Hhi]. unfold gap.
  assert (P32 : (2 ^ (k + 1) <= 2 ^ s)%Z) by (apply Z.pow_le_mono_r; lia).
  assert (Pk : (0 < 2 ^ k)%Z) by (apply Z.pow_pos_nonneg; lia).
  assert (Hn : 0 < IZR n) by (apply IZR_lt; lia).
  assert (E33 : IZR (2 ^ (s + 1)) = 2 * IZR (2 ^ s)).
  { rewrite <- mult_IZR. rewrite Z.pow_add_r by lia. f_equal. lia. }
  assert (H32 : 0 < IZR (2 ^ s)) by (apply IZR_lt; apply Z.pow_pos_nonneg; lia).
  generalize ln2_pos ln2_lt1; intros L0 L1.
  (* ln(b/a) >= 1 - a/b *)
  assert (G : forall a b : Z, (0 < a < b)%Z -> (b <= 2 ^ s)%Z ->
     log2R (IZR a) + / IZR (2 ^ (s + 1)) <= log2R (IZR b)).
  { intros a b Hab Hb.
    assert (0 < IZR a) by (apply IZR_lt; lia).
    assert (IZR a + 1 <= IZR b) by (rewrite <- plus_IZR; apply IZR_le; lia).
    assert (Hb' : IZR b <= IZR (2 ^ s)) by (apply IZR_le; lia).
    assert (E : ln (IZR a / IZR b) = ln (IZR a) - ln (IZR b)).
    { unfold Rdiv. rewrite ln_mult; [|lra|apply Rinv_0_lt_compat; lra]. rewrite ln_Rinv by lra. lra. }
    assert (Hq : 0 < IZR a / IZR b) by (apply Rdiv_lt_0_compat; lra).
    generalize (ln_le_sub1 _ Hq). rewrite E. intro Hl.
    assert (Hd : / IZR (2 ^ (s + 1)) <= 1 - IZR a / IZR b).
    { replace (1 - IZR a / IZR b) with ((IZR b - IZR a) * / IZR b) by (field; lra).
      apply Rle_trans with (1 * / IZR (2 ^ s)).
      - rewrite Rmult_1_l. apply Rinv_le_contravar; lra.
      - apply Rmult_le_compat; [lra| left; apply Rinv_0_lt_compat; lra | lra | apply Rinv_le_contravar; lra]. }
    unfold log2R.
    assert (Hp : 0 < / IZR (2 ^ (s + 1))) by (apply Rinv_0_lt_compat; lra).
    replace (ln (IZR b) / ln 2) with (ln (IZR a) / ln 2 + (ln (IZR b) - ln (IZR a)) / ln 2) by (field; lra).
    apply Rplus_le_compat_l.
    apply Rle_trans with ((ln (IZR b) - ln (IZR a)) * 1); [lra|].
    unfold Rdiv. apply Rmult_le_compat_l; [lra|].
    rewrite <- Rinv_1 at 1. apply Rinv_le_contravar; lra. }
  split.
  - rewrite <- (log2R_pow k) by lia. apply G; lia.
  - rewrite <- (log2R_pow (k + 1)) by lia. generalize (G n (2 ^ (k + 1))%Z ltac:(lia) ltac:(lia)). lra.
Qed.

(** What the machine's logarithm of an integer below 2^s looks like. *)
Lemma fp_log_range : forall s e m n, accurate (2 ^ s) e m -> (0 < n < 2 ^ s)%Z ->
  let k := Z.log2 n in
  fp_log2 m (IZR n) = IZR k \/
  IZR k + (gap s - e) <= fp_log2 m (IZR n) <= IZR (k + 1) - (gap s - e).
Proof.
  intros s e m n Hm Hn k. assert (Hs := Z.log2_spec n ltac:(lia)). fold k in Hs.
  assert (Hk0 : (0 <= k)%Z) by apply Z.log2_nonneg.
  assert (Hk : (k < s)%Z) by (apply Z.log2_lt_pow2; lia).
  destruct (Z.eq_dec n (2 ^ k)) as [E|E].
  - left. rewrite E. apply (acc_log_pow _ _ _ Hm); lia.
  - right. generalize (log2R_between s k n ltac:(lia) ltac:(unfold Z.succ in Hs; lia)).
    generalize (acc_log _ _ _ Hm n Hn). intros Ha Hb. apply Rabs_le_inv in Ha. lra.
Qed.

Lemma acc_nonneg : forall s e m n, accurate (2 ^ s) e m -> (0 < n < 2 ^ s)%Z -> 0 <= e.
Proof.
  intros s e m n Hm Hn. eapply Rle_trans; [apply Rabs_pos | apply (acc_log _ _ _ Hm n Hn)].
Qed.

Lemma fp_int_log : forall s e m n, accurate (2 ^ s) e m -> e < gap s -> (0 < n < 2 ^ s)%Z ->
  fp_int (fp_log2 m (IZR n)) = Z.to_nat (Z.log2 n).
Proof.
  intros s e m n Hm He Hn. unfold fp_int. f_equal.
  assert (Hk0 : (0 <= Z.log2 n)%Z) by apply Z.log2_nonneg.
  generalize (fp_log_range s e m n Hm Hn); cbv zeta; intros [->|H]; [apply Ztrunc_IZR|].
  rewrite Ztrunc_floor.
  - apply Zfloor_imp. lra.
  - assert (0 <= IZR (Z.log2 n)) by (apply IZR_le; lia). lra.
Qed.

Lemma fp_floor_div : forall s e m n b, accurate (2 ^ s) e m -> (s <= 32)%Z ->
  (0 < n < 2 ^ s)%Z -> (0 < b < 32)%Z -> (IZR b + 1) * e < gap s ->
  Zfloor (fp_div m (fp_log2 m (IZR n)) (IZR b)) = (Z.log2 n / b)%Z.
Proof.
  intros s e m n b Hm Hs Hn Hb Hg.
  assert (Hk0 : (0 <= Z.log2 n)%Z) by apply Z.log2_nonneg.
  assert (Hk : (Z.log2 n < s)%Z) by (apply Z.log2_lt_pow2; lia).
  assert (He0 : 0 <= e) by exact (acc_nonneg s e m n Hm Hn).
  assert (G1 : gap s <= 1).
  { unfold gap. rewrite <- Rinv_1. apply Rinv_le_contravar; [lra|]. apply IZR_le.
    change 1%Z with (2 ^ 0)%Z at 1. apply Z.pow_le_mono_r; lia. }
  set (k := Z.log2 n) in *. set (q := (k / b)%Z).
  assert (Hq : (k = b * q + k mod b)%Z) by (apply Z.div_mod; lia).
  assert (Hr := Z.mod_pos_bound k b ltac:(lia)).
  set (r := (k mod b)%Z) in *.
  assert (Bp : 1 <= IZR b) by (apply IZR_le; lia).
  (* the quotient of anything that keeps its distance from both multiples *)
  assert (F : forall a d, gap s - e <= d -> 0 <= a <= 32 ->
     IZR (b * q) + d <= a <= IZR (b * (q + 1)) - d -> Zfloor (fp_div m a (IZR b)) = q).
  { intros a d Hd Ha [H1 H2]. rewrite mult_IZR in H1, H2.
    generalize (acc_div _ _ _ Hm a b Ha Hb); intro HA. apply Rabs_le_inv in HA.
    assert (Hde : IZR b * e < d) by lra.
    assert (E : a = a / IZR b * IZR b) by (field; lra).
    apply Zfloor_imp. split.
    - apply Rle_trans with (a / IZR b - e); [|lra].
      apply Rmult_le_reg_r with (IZR b); [lra|]. rewrite Rmult_minus_distr_r, <- E. lra.
    - apply Rle_lt_trans with (a / IZR b + e); [lra|].
      apply Rmult_lt_reg_r with (IZR b); [lra|]. rewrite Rmult_plus_distr_r, <- E. lra. }
  assert (Kr : 0 <= IZR k <= 31) by (split; apply IZR_le; lia).
  assert (Lo : IZR (b * q) <= IZR k) by (apply IZR_le; lia).
  assert (Hi : IZR (k + 1) <= IZR (b * (q + 1))) by (apply IZR_le; nia).
  assert (Ge : e <= gap s) by nra.
  generalize (fp_log_range s e m n Hm Hn); cbv zeta; fold k; intros [E|H].
  - rewrite E. destruct (Z.eq_dec r 0) as [Er|Er].
    + replace k with (q * b)%Z by lia. rewrite (acc_div_int _ _ _ Hm) by lia. apply Zfloor_IZR.
    + apply (F _ 1); [lra|lra|]. split.
      * replace (IZR (b * q) + 1) with (IZR (b * q + 1)) by (rewrite plus_IZR; lra). apply IZR_le. lia.
      * rewrite plus_IZR in Hi. lra.
  - rewrite plus_IZR in H. rewrite plus_IZR in Hi. apply (F _ (gap s - e)); lra.
Qed.

Lemma NZlog2 : forall n, Z.to_nat (Z.log2 (Z.of_N n)) = N.to_nat (N.log2 n).
Proof.
  intros [|p]; [reflexivity|]. destruct p; reflexivity.
Qed.

(** C86.  For every Winternitz parameter (any 32-bit w, power of two or not), any
    floating-point arithmetic with errors up to 2^-40 that is exact when the true
    result is an integer yields the exact parameters. *)
Theorem C86_double_is_exact : forall m w,
  accurate (2 ^ 32) (/ IZR (2 ^ 40)) m -> wots_set_params_fp m w = wots_set_params w.
Proof.
  intros m w Hm. unfold wots_set_params_fp, wots_set_params.
  destruct ((w =? 0) || (2 ^ 31 <=? w))%N eqn:Ew; [reflexivity|].
  apply orb_false_iff in Ew. destruct Ew as [E0 E31].
  apply N.eqb_neq in E0. apply N.leb_gt in E31.
  assert (Hw : (0 < Z.of_N w < 2 ^ 31)%Z) by (change (2 ^ 31)%Z with (Z.of_N (2 ^ 31)); lia).
  assert (P : (2 ^ 31 < 2 ^ 32)%Z) by reflexivity.
  assert (E40 : gap 32 = 128 * / IZR (2 ^ 40)).
  { unfold gap. replace (IZR (2 ^ 40)) with (128 * IZR (2 ^ (32 + 1))) by (rewrite <- mult_IZR; reflexivity).
    field. apply IZR_neq. discriminate. }
  assert (H40 : 0 < / IZR (2 ^ 40)) by (apply Rinv_0_lt_compat, IZR_lt; reflexivity).
  assert (EL : fp_int (fp_log2 m (IZR (Z.of_N w))) = N.to_nat (N.log2 w)).
  { rewrite (fp_int_log 32 _ m _ Hm) by (try lia; lra). apply NZlog2. }
  rewrite EL. cbv zeta. set (L := N.to_nat (N.log2 w)).
  destruct (L =? 0)%nat eqn:El; [reflexivity|]. apply Nat.eqb_neq in El.
  set (x := u32 _). destruct (x =? 0)%N eqn:Ex; [reflexivity|]. apply N.eqb_neq in Ex.
  assert (HL : (L < 31)%nat).
  { unfold L. assert (N.log2 w < 31)%N by (apply N.log2_lt_pow2; lia). lia. }
  assert (Hx : (0 < Z.of_N x < 2 ^ 32)%Z).
  { assert (x < 2 ^ 32)%N by (apply N.mod_lt; discriminate).
    change (2 ^ 32)%Z with (Z.of_N (2 ^ 32)). lia. }
  assert (Lb : IZR (Z.of_nat L) <= 31) by (apply IZR_le; lia).
  rewrite (fp_floor_div 32 _ m _ _ Hm); [|lia|exact Hx|lia|rewrite E40; nra].
  do 2 f_equal. rewrite Z2Nat.inj_div; [|apply Z.log2_nonneg|lia].
  rewrite NZlog2, Nat2Z.id. reflexivity.
Qed.

(** ** IEEE arithmetic is accurate *)
Section Rounding.
Variables emin prec : Z.
Hypothesis Hp : (8 < prec)%Z.
Hypothesis He : (emin <= 6 - prec)%Z.
Let rnd := round radix2 (FLT_exp emin prec) ZnearestE.

Local Instance prec_pos : Prec_gt_0 prec. Proof. red. lia. Qed.

Lemma rnd_int : forall k : Z, (Z.abs k <= 256)%Z -> rnd (IZR k) = IZR k.
Proof.
  intros k Hk. apply round_generic; [apply valid_rnd_N|].
  apply generic_format_FLT. apply (FLT_spec radix2 emin prec _ (Float radix2 k 0)).
  - unfold F2R. simpl. lra.
  - simpl. apply Z.le_lt_trans with (1 := Hk).
    change 256%Z with (2 ^ 8)%Z. apply Z.pow_lt_mono_r; lia.
  - simpl. lia.
Qed.

Lemma rnd_err : forall x, 0 <= x <= 32 -> Rabs (rnd x - x) <= bpow radix2 (5 - prec).
Proof.
  intros x Hx. eapply Rle_trans; [apply error_le_half_ulp; apply FLT_exp_valid, prec_pos|].
  assert (U : ulp radix2 (FLT_exp emin prec) x <= bpow radix2 (6 - prec)).
  { eapply Rle_trans.
    - apply (ulp_le radix2 (FLT_exp emin prec) x (bpow radix2 5)).
      rewrite (Rabs_pos_eq x) by lra. rewrite Rabs_pos_eq; simpl; lra.
    - rewrite ulp_bpow. apply bpow_le. unfold FLT_exp. lia. }
  replace (6 - prec)%Z with (5 - prec + 1)%Z in U by lia. rewrite bpow_plus in U. simpl (bpow radix2 1) in U. lra.
Qed.

Lemma ieee_accurate : forall B, (B <= 2 ^ 32)%Z -> accurate B (bpow radix2 (5 - prec)) (ieee rnd).
Proof.
  intros B HB.
  assert (LR : forall n : Z, (0 < n < B)%Z -> 0 <= log2R (IZR n) <= 32).
  { intros n Hn. split.
    - replace 0 with (log2R (IZR (2 ^ 0))) by (rewrite log2R_pow; [reflexivity|lia]).
      apply log2R_mono; [simpl; lra|]. apply IZR_le. simpl. lia.
    - rewrite <- (log2R_pow 32) by lia.
      apply log2R_mono; [apply IZR_lt; lia|]. apply IZR_le. lia. }
  constructor; simpl.
  - intros n Hn. apply rnd_err, LR, Hn.
  - intros k Hk Hb. rewrite log2R_pow by exact Hk. apply rnd_int.
    assert (k < 32)%Z by (apply (Z.pow_lt_mono_r_iff 2); lia). lia.
  - intros a b Ha Hb. apply rnd_err.
    assert (1 <= IZR b) by (apply IZR_le; lia).
    split; [unfold Rdiv; apply Rmult_le_pos; [lra | left; apply Rinv_0_lt_compat; lra] |].
    apply Rmult_le_reg_r with (IZR b); [lra|]. field_simplify; [nra|lra].
  - intros q b Hq Hb. assert (IZR b <> 0) by (apply IZR_neq; lia).
    replace (IZR (q * b) / IZR b) with (IZR q) by (rewrite mult_IZR; field; assumption).
    apply rnd_int. nia.
Qed.
End Rounding.

(** C86.  In particular with correctly rounded binary64 arithmetic, the double of
    every usual platform. *)
Theorem C86_binary64_is_exact : forall w,
  wots_set_params_fp (ieee rnd64) w = wots_set_params w.
Proof.
  intro w. apply C86_double_is_exact.
  generalize (ieee_accurate (-1074) 53 eq_refl ltac:(discriminate) (2 ^ 32) ltac:(lia)).
  change (round radix2 (FLT_exp (-1074) 53) ZnearestE) with rnd64.
  intros [A1 A2 A3 A4]. 
  assert (L : bpow radix2 (5 - 53) <= / IZR (2 ^ 40)).
  { change (5 - 53)%Z with (-48)%Z. simpl (bpow radix2 (-48)).
    apply Rinv_le_contravar; [apply IZR_lt; reflexivity|apply IZR_le; discriminate]. }
  constructor; [intros; eapply Rle_trans; [apply A1; assumption|exact L] | exact A2
    | intros; eapply Rle_trans; [apply A3; assumption|exact L] | exact A4].
Qed.

(** ** The Rust port's f32 computation *)
(** C86.  For the four Winternitz parameters of the Rust port single precision
    suffices: any arithmetic with errors up to 2^-18, exact on integers. *)
Theorem C86_single_is_exact : forall m w,
  accurate (2 ^ 13) (/ IZR (2 ^ 18)) m -> rs_wots_new_fp m w = rs_wots_new w.
Proof.
  intros m w Hm.
  assert (E18 : gap 13 = 16 * / IZR (2 ^ 18)).
  { unfold gap. replace (IZR (2 ^ 18)) with (16 * IZR (2 ^ (13 + 1))) by (rewrite <- mult_IZR; reflexivity).
    field. apply IZR_neq. discriminate. }
  assert (H18 : 0 < / IZR (2 ^ 18)) by (apply Rinv_0_lt_compat, IZR_lt; reflexivity).
  assert (S : forall (wn : N) (k l1 x l2 : Z), 
     Z.of_N wn = (2 ^ k)%Z -> (0 < k <= 8)%Z -> (l1 * k = 256)%Z -> x = (l1 * (2 ^ k - 1))%Z ->
     (0 < x < 2 ^ 13)%Z -> l2 = (Z.log2 x / k)%Z ->
     let log_w := fp_int (fp_log2 m (IZR (Z.of_N wn))) in
     let len_1 := fp_int (IZR (Zceil (fp_div m 256 (IZR (Z.of_nat log_w))))) in
     let q := fp_div m (fp_log2 m (IZR (Z.of_N (N.of_nat len_1 * (wn - 1))))) (IZR (Z.of_nat log_w)) in
     log_w = Z.to_nat k /\ len_1 = Z.to_nat l1 /\ fp_int (IZR (Zfloor q)) = Z.to_nat l2).
  { intros wn k l1 x l2 Ew Hk Hl1 Ex Hx El2. cbv zeta.
    assert (Ek : fp_int (fp_log2 m (IZR (Z.of_N wn))) = Z.to_nat k).
    { rewrite Ew, (acc_log_pow _ _ _ Hm) by (try lia; apply Z.pow_lt_mono_r; lia).
      unfold fp_int. rewrite Ztrunc_IZR. reflexivity. }
    rewrite Ek, Z2Nat.id by lia.
    assert (E1 : fp_int (IZR (Zceil (fp_div m 256 (IZR k)))) = Z.to_nat l1).
    { replace 256 with (IZR (l1 * k)) by (rewrite Hl1; reflexivity).
      rewrite (acc_div_int _ _ _ Hm) by lia. rewrite Zceil_IZR. unfold fp_int. rewrite Ztrunc_IZR. reflexivity. }
    rewrite E1. split; [reflexivity|]. split; [reflexivity|].
    assert (Hl0 : (0 < l1)%Z) by nia.
    replace (Z.of_N (N.of_nat (Z.to_nat l1) * (wn - 1))) with x.
    2:{ rewrite N2Z.inj_mul, nat_N_Z, Z2Nat.id by lia. rewrite Ex. f_equal.
        assert (0 < 2 ^ k)%Z by (apply Z.pow_pos_nonneg; lia). lia. }
    assert (Kb : IZR k <= 8) by (apply IZR_le; lia).
    rewrite (fp_floor_div 13 _ m _ _ Hm); [|lia|exact Hx|lia|rewrite E18; nra].
    unfold fp_int. rewrite Ztrunc_IZR, El2. reflexivity. }
  unfold rs_wots_new_fp, rs_wots_new.
  destruct w; cbv zeta.
  - destruct (S (w_of W2) 1%Z 256%Z 256%Z 8%Z) as [E1 [E2 E3]]; try reflexivity; try lia.
    rewrite E3, E2, E1. reflexivity.
  - destruct (S (w_of W4) 2%Z 128%Z 384%Z 4%Z) as [E1 [E2 E3]]; try reflexivity; try lia.
    rewrite E3, E2, E1. reflexivity.
  - destruct (S (w_of W16) 4%Z 64%Z 960%Z 2%Z) as [E1 [E2 E3]]; try reflexivity; try lia.
    rewrite E3, E2, E1. reflexivity.
  - destruct (S (w_of W256) 8%Z 32%Z 8160%Z 1%Z) as [E1 [E2 E3]]; try reflexivity; try lia.
    rewrite E3, E2, E1. reflexivity.
Qed.
Theorem C86_binary32_is_exact : forall w, rs_wots_new_fp (ieee rnd32) w = rs_wots_new w.
Proof.
  intro w. apply C86_single_is_exact.
  generalize (ieee_accurate (-149) 24 eq_refl ltac:(discriminate) (2 ^ 13) ltac:(lia)).
  change (round radix2 (FLT_exp (-149) 24) ZnearestE) with rnd32.
  intros [A1 A2 A3 A4].
  assert (L : bpow radix2 (5 - 24) <= / IZR (2 ^ 18)).
  { change (5 - 24)%Z with (-19)%Z. simpl (bpow radix2 (-19)).
    apply Rinv_le_contravar; [apply IZR_lt; reflexivity|apply IZR_le; discriminate]. }
  constructor; [intros; eapply Rle_trans; [apply A1; assumption|exact L] | exact A2
    | intros; eapply Rle_trans; [apply A3; assumption|exact L] | exact A4].
Qed.

(** ** Exactness on powers of two is needed *)
(** C86.  A small error alone is not good enough: for any positive error bound
    there is a logarithm within that bound of the true one (and exact division)
    with which the default parameter 16 gives other lengths than 67 chains. *)
Theorem C86_exactness_needed : forall e, 0 < e -> exists m p,
  (forall x, 0 < x -> Rabs (fp_log2 m x - log2R x) <= e) /\
  (forall a b, fp_div m a b = a / b) /\
  wots_set_params_fp m 16 = Ok p /\ w_log_w p = 3%nat /\ w_len_1 p = 85%nat /\
  (w_len p <> 67)%nat.
Proof.
  intros e He. set (d := Rmin e (/ 2)).
  assert (Hd : 0 < d <= / 2 /\ d <= e).
  { unfold d. split; [split; [apply Rmin_glb_lt; lra | apply Rmin_r] | apply Rmin_l]. }
  set (m := mkFpu (fun x => log2R x - d) Rdiv).
  assert (E3 : fp_int (fp_log2 m (IZR (Z.of_N 16))) = 3%nat).
  { unfold fp_int. simpl (fp_log2 m). replace (IZR (Z.of_N 16)) with (IZR (2 ^ 4)) by reflexivity.
    rewrite log2R_pow by lia. rewrite Ztrunc_floor by lra.
    rewrite (Zfloor_imp 3); [reflexivity|]. simpl. lra. }
  unfold wots_set_params_fp. exists m.
  eexists. split; [|split; [|split]].
  - intros x Hx. simpl. replace (log2R x - d - log2R x) with (- d) by lra.
    rewrite Rabs_Ropp, Rabs_pos_eq; lra.
  - reflexivity.
  - rewrite E3. cbv zeta. replace (u32 (N.of_nat (256 / 3) * (16 - 1))) with 1275%N by (vm_compute; reflexivity).
    reflexivity.
  - split; [reflexivity|]. split; [reflexivity|]. unfold w_len. cbn [w_len_1 w_len_2].
    change (256 / 3)%nat with 85%nat. lia.
Qed.

(** ** Cases *)
Example C86_case_default : wots_set_params_fp (ieee rnd64) 16 = Ok (mkWP 16 4 64 3).
Proof. rewrite C86_binary64_is_exact. reflexivity. Qed.
Example C86_case_not_power : wots_set_params_fp (ieee rnd64) 1000 = Ok (mkWP 1000 9 28 2).
Proof. rewrite C86_binary64_is_exact. reflexivity. Qed.
(** One below a power of two, where a cruder logarithm would round up. *)
Example C86_case_edge :
  wots_set_params_fp (ieee rnd64) 16777215 = wots_set_params 16777215 /\
  exists p, wots_set_params 16777215 = Ok p /\ w_log_w p = 23%nat.
Proof. split; [apply C86_binary64_is_exact|]. eexists; split; [vm_compute; reflexivity|reflexivity]. Qed.
Example C86_case_undefined : wots_set_params_fp (ieee rnd64) 1 = UB.
Proof. rewrite C86_binary64_is_exact. reflexivity. Qed.
Example C86_case_rust : rs_wots_new_fp (ieee rnd32) W256 = mkWP 256 8 32 2.
Proof. rewrite C86_binary32_is_exact. reflexivity. Qed.
(** The hypotheses of the theorems about any arithmetic are met. *)
Example C86_case_accurate : accurate (2 ^ 13) (bpow radix2 (5 - 24)) (ieee rnd32) /\
  accurate (2 ^ 32) (bpow radix2 (5 - 53)) (ieee rnd64).
Proof. split; apply ieee_accurate; lia. Qed.
