(** C71: the Rust XMSSPool. *)
From Coq Require Import String List NArith Arith Lia Bool.
From Verif Require Import Base Bytes Keccak KeccakLemmas Sha256 HashAddress Wordlist SpecXmss SpecApi SpecMisc PropMisc PropCtor Pool
  RsBase RsObj RsWots RsMisc RsPool SpecRsPool PropObj PropKeys PropRust PropRsMisc.
Import ListNotations.
Open Scope N_scope.

(** ** Decimal numerals *)
Definition digits (d : list N) : Prop := Forall (fun c => 48 <= c <= 57) d.
Lemma dec_app : forall d c, decimal_value (d ++ [c]) = 10 * decimal_value d + (c - 48).
Proof. intros. unfold decimal_value. now rewrite fold_left_app. Qed.
Lemma dec_app2 : forall e d, decimal_value (d ++ e) = decimal_value d * 10 ^ N.of_nat (length e) + decimal_value e.
Proof.
  induction e as [|c e IH] using rev_ind; intros d.
  - rewrite app_nil_r. cbn. lia.
  - rewrite app_assoc, !dec_app, IH, app_length, Nat2N.inj_add, N.pow_add_r. cbn [length]. change (10 ^ N.of_nat 1) with 10. lia.
Qed.
Lemma dec_pos : forall d, digits d -> d <> [] -> hd 0 d <> 48 -> decimal_value d <> 0.
Proof.
  induction d as [|c d IH] using rev_ind; intros HD Hn Hh; [contradiction|]. rewrite dec_app.
  apply Forall_app in HD. destruct HD as [HD HC]. inversion HC; subst. destruct d as [|x d].
  - cbn in *. lia.
  - specialize (IH HD ltac:(discriminate) Hh). lia.
Qed.
Lemma dec_unique : forall n d1 d2, n <> 0 -> is_decimal d1 n -> is_decimal d2 n -> d1 = d2.
Proof.
  intros n d1. revert n. induction d1 as [|c d1 IH] using rev_ind; intros n d2 Hn H1 H2.
  - now destruct H1 as (X & _).
  - destruct H1 as (_ & D1 & Z1 & V1). destruct H2 as (N2 & D2 & Z2 & V2). specialize (Z1 Hn). specialize (Z2 Hn).
    destruct d2 as [|c2 d2 _] using rev_ind; [contradiction|]. clear N2.
    rewrite dec_app in V1, V2. apply Forall_app in D1, D2. destruct D1 as [D1 C1], D2 as [D2 C2].
    inversion C1; subst. inversion C2; subst.
    assert (E : decimal_value d1 = decimal_value d2 /\ c = c2) by lia. destruct E as [E ->]. f_equal.
    destruct d1 as [|x d1]; destruct d2 as [|y d2]; auto.
    + exfalso. apply (dec_pos (y :: d2)); auto; discriminate.
    + exfalso. apply (dec_pos (x :: d1)); auto; discriminate.
    + apply (IH (decimal_value (x :: d1))); [apply dec_pos; auto; discriminate| |].
      * repeat split; auto; discriminate.
      * repeat split; auto; discriminate.
Qed.
Lemma decimal_ok : forall f n, n < 10 ^ N.of_nat f -> (0 < f)%nat -> is_decimal (rs_decimal f n) n.
Proof.
  induction f as [|f IH]; intros n Hn Hf; [lia|]. cbn [rs_decimal]. destruct (n <? 10) eqn:E.
  - apply N.ltb_lt in E. repeat split; [discriminate| | |].
    + constructor; [lia|constructor].
    + cbn [hd]. lia.
    + unfold decimal_value. cbn [fold_left]. lia.
  - apply N.ltb_ge in E. rewrite Nat2N.inj_succ, N.pow_succ_r' in Hn.
    assert (Hd : n / 10 < 10 ^ N.of_nat f) by (apply N.div_lt_upper_bound; lia).
    assert (Hf' : (0 < f)%nat). { destruct f; [|lia]. cbn in Hn. lia. }
    destruct (IH (n / 10) Hd Hf') as (X1 & X2 & X3 & X4).
    assert (H1 : 1 <= n / 10) by (apply N.div_le_lower_bound; lia).
    pose proof (N.mod_lt n 10 ltac:(lia)) as HM. pose proof (N.div_mod n 10 ltac:(lia)) as HE.
    repeat split.
    + intros X. destruct (rs_decimal f (n / 10)); discriminate.
    + apply Forall_app. split; auto. constructor; [clear - HM; revert HM; generalize (n mod 10); intros x Hx; lia|constructor].
    + intros _. destruct (rs_decimal f (n / 10)); [contradiction|]. cbn [hd app] in *. apply X3. lia.
    + rewrite dec_app, X4. clear - HE. revert HE. generalize (n mod 10), (n / 10). intros x y Hx. lia.
Qed.

(** ** Seeds *)
Lemma digits_ascii : forall d, digits d -> ascii d.
Proof. intros d H. eapply Forall_impl; [|exact H]. intros c Hc. cbv beta in *. lia. Qed.
Lemma hex_text_ascii : forall v, all_bytes v -> ascii (hex_text v).
Proof.
  intros v H. induction H as [|b v Hb H IH]; [constructor|]. rewrite hex_text_cons. apply Forall_app. split; [|exact IH].
  destruct (byte_parts b Hb) as (B1 & B2 & _).
  assert (G : forall x, x < 16 -> hexc x < 128).
  { intros x Hx. assert (E : (hexc x <? 128) = true) by (revert x Hx; apply (below_b _ 16); vm_compute; reflexivity). now apply N.ltb_lt. }
  repeat constructor; apply G; auto.
Qed.
Lemma rs_tree_seed_ok : forall base i, all_bytes base -> i + 1 < 2 ^ 64 ->
  exists seed, rs_tree_seed base i = ROk seed /\ is_tree_seed base i seed /\ length seed = 48%nat.
Proof.
  intros base i HB Hi. unfold rs_tree_seed, rs_bin2hstr. rewrite rs_hstr_nowrap by auto. cbn [rbind].
  rewrite (proj2 (N.leb_gt (2 ^ 64) (i + 1))) by lia.
  assert (HD : is_decimal (rs_decimal 20 (i + 1)) (i + 1)).
  { apply decimal_ok; [|lia]. eapply N.lt_trans; [exact Hi|]. reflexivity. }
  rewrite rs_str2bin_ascii by (apply Forall_app; split; [now apply hex_text_ascii|apply digits_ascii; apply HD]).
  unfold rs_sha2_256. pose proof (sha256_length (hex_text base ++ rs_decimal 20 (i + 1))) as L.
  rewrite rslice_ok by lia. cbn [rbind]. eexists. split; [reflexivity|]. split.
  - exists (rs_decimal 20 (i + 1)). split; [exact HD|]. reflexivity.
  - rewrite app_length, firstn_length, skipn_length, L. lia.
Qed.
Lemma is_tree_seed_unique : forall base i s1 s2, is_tree_seed base i s1 -> is_tree_seed base i s2 -> s1 = s2.
Proof.
  intros base i s1 s2 (d1 & D1 & E1) (d2 & D2 & E2). cbv zeta in *. subst. rewrite (dec_unique (i + 1) d1 d2); auto. lia.
Qed.

(** Every index has exactly one seed. *)
Theorem C71_rust_tree_seed_exists : forall base i, exists s, is_tree_seed base i s /\ length s = 48%nat /\ forall s', is_tree_seed base i s' -> s' = s.
Proof.
  intros base i.
  assert (HD : is_decimal (rs_decimal (S (N.to_nat i)) (i + 1)) (i + 1)).
  { apply decimal_ok; [|lia]. rewrite Nat2N.inj_succ, N2Nat.id. rewrite N.add_1_r. apply N.pow_gt_lin_r. lia. }
  eexists. split; [exists (rs_decimal (S (N.to_nat i)) (i + 1)); split; [exact HD|reflexivity]|]. split.
  - rewrite app_length, firstn_length, sha256_length. lia.
  - intros s' H. eapply is_tree_seed_unique; [exact H|]. exists (rs_decimal (S (N.to_nat i)) (i + 1)). split; [exact HD|reflexivity].
Qed.

Lemma hex_inj : forall b1 b2, all_bytes b1 -> all_bytes b2 -> hex_text b1 = hex_text b2 -> b1 = b2.
Proof.
  intros b1 b2 B1 B2 E. destruct (C68_rust_hex_round_trip b1 B1) as (t1 & F1 & G1). destruct (C68_rust_hex_round_trip b2 B2) as (t2 & F2 & G2).
  unfold rs_bin2hstr in F1, F2. rewrite rs_hstr_nowrap in F1, F2 by auto. apply ROk_inj' in F1, F2. subst t1 t2. congruence.
Qed.

(** Base seeds of one length: two trees with the same seed are a SHA-256 collision. *)
Theorem C71_rust_same_tree_seed_is_collision : forall b1 b2 i j s, all_bytes b1 -> all_bytes b2 -> length b1 = length b2 ->
  is_tree_seed b1 i s -> is_tree_seed b2 j s -> b1 <> b2 \/ i <> j ->
  exists x y, x <> y /\ sha256 x = sha256 y.
Proof.
  intros b1 b2 i j s B1 B2 L (d1 & D1 & E1) (d2 & D2 & E2) Hne. cbv zeta in *.
  exists (hex_text b1 ++ d1), (hex_text b2 ++ d2). split.
  - intros E. assert (LL : length (hex_text b1) = length (hex_text b2)) by (rewrite !hex_text_length; lia). destruct (app_split _ _ _ _ LL E) as [X Y].
    apply hex_inj in X; auto. subst d2. destruct D1 as (_ & _ & _ & V1). destruct D2 as (_ & _ & _ & V2). destruct Hne; [auto|lia].
  - rewrite E1 in E2. apply app_split in E2; [apply E2|]. now rewrite !sha256_length.
Qed.

(** Base seeds of different lengths: a base seed extended by a byte whose hexadecimal
    form is a number from 10 to 99 has all its trees in common with the shorter one. *)
Theorem C71_rust_tree_seeds_overlap : forall base a c j s, 1 <= a <= 9 -> c <= 9 ->
  is_tree_seed (base ++ [16 * a + c]) j s -> exists i, is_tree_seed base i s.
Proof.
  intros base a c j s Ha Hc (d & (Dn & Dd & Dh & Dv) & E). cbv zeta in E.
  assert (Eh : hex_text (base ++ [16 * a + c]) = hex_text base ++ [48 + a; 48 + c]).
  { rewrite hex_text_app. f_equal. unfold hex_text. cbn [flat_map app].
    replace ((16 * a + c) / 16) with a by (apply (N.div_unique _ _ _ c); lia).
    replace ((16 * a + c) mod 16) with c by (apply (N.mod_unique _ _ a); lia).
    assert (G : forall x, x < 10 -> nth (N.to_nat x) hex_chars 0 = 48 + x).
    { intros x Hx. assert (X : (nth (N.to_nat x) hex_chars 0 =? 48 + x) = true) by (revert x Hx; apply (below_b _ 10); vm_compute; reflexivity). now apply N.eqb_eq. }
    rewrite !G by lia. reflexivity. }
  rewrite Eh, <- app_assoc in E. cbn [app] in E.
  assert (V : decimal_value (48 + a :: 48 + c :: d) = (10 * a + c) * 10 ^ N.of_nat (length d) + (j + 1)).
  { change (48 + a :: 48 + c :: d) with ([48 + a; 48 + c] ++ d). rewrite dec_app2, Dv. f_equal. f_equal. unfold decimal_value. cbn [fold_left]. lia. }
  exists ((10 * a + c) * 10 ^ N.of_nat (length d) + j). exists (48 + a :: 48 + c :: d). split; [|exact E].
  repeat split; [discriminate| | |].
  - constructor; [lia|]. constructor; [lia|]. exact Dd.
  - intros _. cbn [hd]. lia.
  - rewrite V. lia.
Qed.

(** ** Histories *)
Section Hist.
Variables (base : list N) (height max : N) (tree : N -> rerr + rs_fast) (refill : bool).
Hypothesis prep : forall i, i + 1 < 2 ^ 64 -> rs_catch (rs_prepare_tree base height i) = ROk (tree i).
Hypothesis kind : forall i, i + 1 < 2 ^ 64 -> match tree i with inr _ => refill = true | inl _ => refill = false end.

Definition stored_from (cur : N) (n : nat) : list (option (rerr + rs_fast)) := map (fun k => Some (tree (cur + N.of_nat k))) (seq 0 n).
Lemma stored_S : forall n cur, stored_from cur (S n) = stored_from cur n ++ [Some (tree (cur + N.of_nat n))].
Proof. intros. unfold stored_from. now rewrite seq_S, map_app. Qed.
Lemma stored_cons : forall n cur, stored_from cur (S n) = Some (tree cur) :: stored_from (cur + 1) n.
Proof.
  intros. unfold stored_from. cbn [seq map]. rewrite N.add_0_r. f_equal. rewrite <- seq_shift, map_map. apply map_ext. intros k. do 2 f_equal. lia.
Qed.
Lemma stored_length : forall cur n, length (stored_from cur n) = n.
Proof. intros. unfold stored_from. now rewrite map_length, seq_length. Qed.

Lemma fill_loop_ok : forall n cur k, cur + N.of_nat k + N.of_nat n < 2 ^ 64 ->
  rs_fill_loop n (cur + N.of_nat k) (mkRPool base height cur max (stored_from cur k)) = ROk (mkRPool base height cur max (stored_from cur (k + n))).
Proof.
  induction n as [|n IH]; intros cur k H; cbn [rs_fill_loop]; [now rewrite Nat.add_0_r|].
  cbn [rp_seed rp_height rp_cur rp_cache rp_with rp_max]. rewrite prep by lia. cbn [rbind].
  rewrite <- stored_S. replace (cur + N.of_nat k + 1) with (cur + N.of_nat (S k)) by lia.
  unfold rp_with. cbn [rp_seed rp_height rp_max]. rewrite IH by lia. do 3 f_equal. lia.
Qed.
Lemma fill_cache_ok : forall cur k, N.of_nat k <= max ->
  rs_fill_cache (mkRPool base height cur max (stored_from cur k)) =
  if 2 ^ 64 <=? cur + max then RPanic else ROk (mkRPool base height cur max (stored_from cur (N.to_nat max))).
Proof.
  intros cur k Hk. unfold rs_fill_cache. cbn [rp_cur rp_cache rp_max]. rewrite stored_length.
  destruct (2 ^ 64 <=? cur + max) eqn:E.
  { destruct (2 ^ 64 <=? cur + N.of_nat k); reflexivity. }
  apply N.leb_gt in E. rewrite (proj2 (N.leb_gt (2 ^ 64) (cur + N.of_nat k))) by lia.
  rewrite fill_loop_ok by lia. do 3 f_equal. lia.
Qed.

Lemma next_ok : forall cur n, N.of_nat n <= max -> (refill = true -> N.of_nat n = max) ->
  let p := mkRPool base height cur max (stored_from cur n) in
  rs_get_next_tree p =
  if refill || (N.of_nat n =? 0)
  then if 2 ^ 64 <=? cur + 1 + max then RPanic else ROk (mkRPool base height (cur + 1) max (stored_from (cur + 1) (N.to_nat max)), tree cur)
  else if 2 ^ 64 <=? cur + 1 then RPanic else ROk (mkRPool base height (cur + 1) max (stored_from (cur + 1) (n - 1)), tree cur).
Proof.
  intros cur n Hn Hr p. unfold rs_get_next_tree, p. cbn [rp_cache rp_seed rp_height rp_cur]. destruct n as [|n].
  - change (stored_from cur 0) with (@nil (option (rerr + rs_fast))). cbv iota. change (N.of_nat 0 =? 0) with true. rewrite orb_true_r.
    destruct (N.lt_ge_cases (cur + 1) (2 ^ 64)) as [Hc|Hc].
    + rewrite prep by auto. cbn [rbind]. rewrite (proj2 (N.leb_gt (2 ^ 64) (cur + 1))) by auto.
      unfold rp_with. cbn [rp_seed rp_height rp_max]. change (@nil (option (rerr + rs_fast))) with (stored_from (cur + 1) 0).
      rewrite fill_cache_ok by lia. destruct (2 ^ 64 <=? cur + 1 + max); reflexivity.
    + rewrite (proj2 (N.leb_le (2 ^ 64) (cur + 1 + max))) by lia. rewrite (proj2 (N.leb_le (2 ^ 64) (cur + 1))) by lia.
      assert (X : rs_catch (rs_prepare_tree base height cur) = RPanic).
      { unfold rs_prepare_tree, rs_tree_seed. rewrite (proj2 (N.leb_le (2 ^ 64) (cur + 1))) by lia.
        assert (Hh : rs_bin2hstr base 0 <> RErr RInvalidArgument /\ rs_bin2hstr base 0 <> RErr RFailedConversion).
        { clear. unfold rs_bin2hstr. generalize 0 at 2 4. induction base as [|b l IH]; intros c; cbn [rs_bin2hstr_loop]; [split; discriminate|].
          change (0 <? 0) with false. cbv iota. destruct (IH c) as [I1 I2]. destruct (rs_bin2hstr_loop 0 c l) as [t|[|]|]; cbn [rbind]; try congruence; split; discriminate. }
        destruct (rs_bin2hstr base 0) as [t|[|]|]; cbn [rbind rs_catch]; auto; destruct Hh; congruence. }
      rewrite X. reflexivity.
  - rewrite stored_cons. replace (N.of_nat (S n) =? 0) with false by (symmetry; apply N.eqb_neq; lia). rewrite orb_false_r.
    destruct (2 ^ 64 <=? cur + 1) eqn:E.
    { apply N.leb_le in E. destruct refill; [|reflexivity]. now rewrite (proj2 (N.leb_le (2 ^ 64) (cur + 1 + max))) by lia. }
    apply N.leb_gt in E. cbn [rbind]. pose proof (kind cur E) as K. unfold rp_with. cbn [rp_seed rp_height rp_max].
    destruct (tree cur) as [e|t] eqn:Et; rewrite K.
    + replace (S n - 1)%nat with n by lia. reflexivity.
    + rewrite fill_cache_ok by lia. destruct (2 ^ 64 <=? cur + 1 + max); reflexivity.
Qed.

Lemma pool_run_ok : forall cs cur n, N.of_nat n <= max -> (refill = true -> N.of_nat n = max) ->
  match pool_ref_run refill max tree (cur, N.of_nat n) cs with
  | Some (cur', m, obs) => exists p', rs_pool_run (mkRPool base height cur max (stored_from cur n)) cs = ROk (p', obs) /\ rs_pool_index p' = cur' /\ N.of_nat (length (rp_cache p')) = m
  | None => rs_pool_run (mkRPool base height cur max (stored_from cur n)) cs = RPanic
  end.
Proof.
  induction cs as [|c cs IH]; intros cur n Hn Hr.
  - cbn [pool_ref_run rs_pool_run]. eexists. split; [reflexivity|]. split; [reflexivity|]. cbn [rp_cache]. now rewrite stored_length.
  - cbn [pool_ref_run rs_pool_run]. destruct c; cbn [rs_pool_step pool_ref_step].
    + rewrite next_ok by auto. destruct (refill || (N.of_nat n =? 0)) eqn:Ec.
      * destruct (2 ^ 64 <=? cur + 1 + max); [reflexivity|]. cbn [rbind].
        specialize (IH (cur + 1) (N.to_nat max) ltac:(lia) ltac:(lia)). rewrite N2Nat.id in IH.
        destruct (pool_ref_run refill max tree (cur + 1, max) cs) as [[[cur' m] obs]|]; [|now rewrite IH].
        destruct IH as (p' & E & H). rewrite E. cbn [rbind]. eauto.
      * apply orb_false_iff in Ec. destruct Ec as [Ec1 Ec2]. apply N.eqb_neq in Ec2.
        destruct (2 ^ 64 <=? cur + 1); [reflexivity|]. cbn [rbind].
        specialize (IH (cur + 1) (n - 1)%nat ltac:(lia) ltac:(congruence)). replace (N.of_nat (n - 1)) with (N.of_nat n - 1) in IH by lia.
        destruct (pool_ref_run refill max tree (cur + 1, N.of_nat n - 1) cs) as [[[cur' m] obs]|]; [|now rewrite IH].
        destruct IH as (p' & E & H). rewrite E. cbn [rbind]. eauto.
    + cbn [rbind]. specialize (IH cur n Hn Hr). destruct (pool_ref_run refill max tree (cur, N.of_nat n) cs) as [[[cur' m] obs]|]; [|now rewrite IH].
      destruct IH as (p' & E & H). rewrite E. cbn [rbind]. exists p'. split; auto. do 4 f_equal.
      unfold rs_is_available. cbn [rp_cache]. destruct n as [|n]; [reflexivity|]. rewrite stored_cons. symmetry. apply N.ltb_lt. lia.
    + cbn [rbind]. specialize (IH cur n Hn Hr). destruct (pool_ref_run refill max tree (cur, N.of_nat n) cs) as [[[cur' m] obs]|]; [|now rewrite IH].
      destruct IH as (p' & E & H). rewrite E. cbn [rbind]. exists p'. split; auto.
Qed.
Lemma pool_new_ok : forall start, rs_pool_new base height start max =
  if 2 ^ 64 <=? start + max then RPanic else ROk (mkRPool base height start max (stored_from start (N.to_nat max))).
Proof. intros. unfold rs_pool_new. change (@nil (option (rerr + rs_fast))) with (stored_from start 0). apply fill_cache_ok. lia. Qed.
End Hist.

(** Tree heights 4, 6, ..., 30. *)
Theorem C71_rust_pool_history : forall base height start max, all_bytes base -> (4 <= height <= 30)%nat -> Nat.even height = true ->
  (2 ^ 64 <= start + max -> rs_pool_new base (N.of_nat height) start max = RPanic) /\
  (start + max < 2 ^ 64 -> exists p tree, rs_pool_new base (N.of_nat height) start max = ROk p /\
     (* the tree of an index is the fresh key for that index' seed *)
     (forall i, i + 1 < 2 ^ 64 -> exists seed t, is_tree_seed base i seed /\ tree i = inr t /\
        rs_fast_new seed (N.of_nat height) (Some SHAKE_128) (Some W16) = ROk t /\ rust_key_at SHAKE_128 w16 height seed 0 (rfa_base t)) /\
     forall cs, match pool_ref_run true max tree (start, max) cs with
                | Some (cur, stored, obs) => exists p', rs_pool_run p cs = ROk (p', obs) /\ rs_pool_index p' = cur
                | None => rs_pool_run p cs = RPanic
                end).
Proof.
  intros base height start max HB Hh He.
  set (tree := fun i => match rs_catch (rs_prepare_tree base (N.of_nat height) i) with ROk r => r | _ => inl RInvalidArgument end).
  assert (T : forall i, i + 1 < 2 ^ 64 -> exists seed t, is_tree_seed base i seed /\ rs_prepare_tree base (N.of_nat height) i = ROk t /\
        rs_fast_new seed (N.of_nat height) (Some SHAKE_128) (Some W16) = ROk t /\ rust_key_at SHAKE_128 w16 height seed 0 (rfa_base t)).
  { intros i Hi. destruct (rs_tree_seed_ok base i HB Hi) as (seed & E1 & E2 & L). 
    destruct (C62_rust_fast_key SHAKE_128 W16 w16 height seed) as (t & Et & Kt). { repeat split; auto; apply Hh. }
    exists seed, t. split; auto. split; auto. unfold rs_prepare_tree. rewrite E1. cbn [rbind]. rewrite C62_rust_defaults. exact Et. }
  assert (P : forall i, i + 1 < 2 ^ 64 -> rs_catch (rs_prepare_tree base (N.of_nat height) i) = ROk (tree i)).
  { intros i Hi. unfold tree. destruct (T i Hi) as (seed & t & _ & E & _). rewrite E. reflexivity. }
  assert (K : forall i, i + 1 < 2 ^ 64 -> match tree i with inr _ => true = true | inl _ => true = false end).
  { intros i Hi. unfold tree. destruct (T i Hi) as (seed & t & _ & E & _). rewrite E. reflexivity. }
  pose proof (pool_new_ok base (N.of_nat height) max tree P start) as PN. split.
  - intros H. rewrite PN. now rewrite (proj2 (N.leb_le _ _) H).
  - intros H. rewrite (proj2 (N.leb_gt _ _) H) in PN. eexists. exists tree. split; [exact PN|]. split.
    + intros i Hi. destruct (T i Hi) as (seed & t & E1 & E & E2). exists seed, t. split; auto. split; auto. unfold tree. rewrite E. reflexivity.
    + intros cs. pose proof (pool_run_ok base (N.of_nat height) max tree true P K cs start (N.to_nat max)) as R. rewrite N2Nat.id in R.
      specialize (R ltac:(lia) ltac:(reflexivity)).
      destruct (pool_ref_run true max tree (start, max) cs) as [[[cur m] obs]|]; [|exact R].
      destruct R as (p' & R1 & R2 & _). eauto.
Qed.

(** The answers read off: the k-th call of get_next_tree gives tree start + k, and the
    pool runs out of indices only at the end of the 64-bit range. *)
Theorem C71_rust_pool_answers : forall max tree cs start,
  (start + nexts cs + max < 2 ^ 64 -> exists obs, pool_ref_run true max tree (start, max) cs = Some (start + nexts cs, max, obs)) /\
  (0 < nexts cs -> 2 ^ 64 <= start + nexts cs + max -> pool_ref_run true max tree (start, max) cs = None) /\
  (forall s obs, pool_ref_run true max tree (start, max) cs = Some (s, obs) -> length obs = length cs /\
     forall n x, nth_error obs n = Some x ->
       let i := start + nexts (firstn n cs) in
       match nth_error cs n with
       | Some PNext => x = PTree (tree i)
       | Some PAvail => x = PBool (0 <? max)
       | Some PIndex => x = PNum i
       | None => False
       end).
Proof.
  intros max tree cs. induction cs as [|c cs IH]; intros start.
  - cbn. split; [|split].
    + intros _. exists []. do 3 f_equal. lia.
    + intros H. lia.
    + intros s obs H. assert (obs = []) by congruence. subst. split; [reflexivity|]. intros [|n] x X; discriminate.
  - cbn [pool_ref_run]. destruct c; cbn [pool_ref_step orb].
    + assert (EN : nexts (PNext :: cs) = 1 + nexts cs) by (unfold nexts; cbn [filter length]; lia). rewrite EN.
      destruct (IH (start + 1)) as (I1 & I2 & I3). split; [|split].
      * intros H. rewrite (proj2 (N.leb_gt _ _)) by lia. destruct I1 as (obs & E); [lia|]. rewrite E. eexists. do 3 f_equal. lia.
      * intros _ H. destruct (2 ^ 64 <=? start + 1 + max) eqn:E; [reflexivity|]. apply N.leb_gt in E. rewrite I2; auto; lia.
      * intros s obs H. destruct (2 ^ 64 <=? start + 1 + max); [discriminate|].
        destruct (pool_ref_run true max tree (start + 1, max) cs) as [[s2 xs]|] eqn:E; [|discriminate].
        apply (f_equal (fun z => match z with Some (_, o) => o | None => [] end)) in H. subst obs.
        destruct (I3 _ _ eq_refl) as [L A]. split; [cbn [length]; lia|].
        intros [|n] x X; cbn [nth_error] in X |- *.
        { cbn [firstn]. change (nexts []) with 0. rewrite N.add_0_r. congruence. }
        { specialize (A n x X). cbv zeta in A |- *. cbn [firstn].
          replace (nexts (PNext :: firstn n cs)) with (1 + nexts (firstn n cs)) by (unfold nexts; cbn [filter length]; lia).
          replace (start + (1 + nexts (firstn n cs))) with (start + 1 + nexts (firstn n cs)) by lia. exact A. }
    + change (nexts (PAvail :: cs)) with (nexts cs). destruct (IH start) as (I1 & I2 & I3). split; [|split].
      * intros H. destruct I1 as (obs & E); [lia|]. rewrite E. eauto.
      * intros H1 H2. rewrite I2; auto.
      * intros s obs H. destruct (pool_ref_run true max tree (start, max) cs) as [[s2 xs]|] eqn:E; [|discriminate].
        apply (f_equal (fun z => match z with Some (_, o) => o | None => [] end)) in H. subst obs.
        destruct (I3 _ _ eq_refl) as [L A]. split; [cbn [length]; lia|].
        intros [|n] x X; cbn [nth_error] in X |- *; [congruence|]. exact (A n x X).
    + change (nexts (PIndex :: cs)) with (nexts cs). destruct (IH start) as (I1 & I2 & I3). split; [|split].
      * intros H. destruct I1 as (obs & E); [lia|]. rewrite E. eauto.
      * intros H1 H2. rewrite I2; auto.
      * intros s obs H. destruct (pool_ref_run true max tree (start, max) cs) as [[s2 xs]|] eqn:E; [|discriminate].
        apply (f_equal (fun z => match z with Some (_, o) => o | None => [] end)) in H. subst obs.
        destruct (I3 _ _ eq_refl) as [L A]. split; [cbn [length]; lia|].
        intros [|n] x X; cbn [nth_error] in X |- *; [|exact (A n x X)].
        cbn [firstn]. change (nexts []) with 0. rewrite N.add_0_r. congruence.
Qed.

(** Heights no tree can have: every call of get_next_tree is an [Err]; the index moves
    on all the same, and the store is filled only by calls that find it empty. *)
Theorem C71_rust_pool_bad_height : forall base height start max, all_bytes base -> 254 < height \/ ~ tree_height height ->
  start + max < 2 ^ 64 -> exists p, rs_pool_new base height start max = ROk p /\
    forall cs, match pool_ref_run false max (fun _ => inl RInvalidArgument) (start, max) cs with
               | Some (cur, stored, obs) => exists p', rs_pool_run p cs = ROk (p', obs) /\ rs_pool_index p' = cur
               | None => rs_pool_run p cs = RPanic
               end.
Proof.
  intros base height start max HB Hh H. set (tree := fun _ : N => @inl rerr rs_fast RInvalidArgument).
  assert (P : forall i, i + 1 < 2 ^ 64 -> rs_catch (rs_prepare_tree base height i) = ROk (tree i)).
  { intros i Hi. destruct (rs_tree_seed_ok base i HB Hi) as (seed & E1 & _ & L). unfold rs_prepare_tree. rewrite E1. cbn [rbind].
    destruct (C62_rust_fast_constructor seed height None None) as (_ & B & _). rewrite (proj2 B) by tauto. reflexivity. }
  assert (K : forall i, i + 1 < 2 ^ 64 -> match tree i with inr _ => false = true | inl _ => false = false end) by (intros; reflexivity).
  pose proof (pool_new_ok base height max tree P start) as PN. rewrite (proj2 (N.leb_gt _ _) H) in PN.
  eexists. split; [exact PN|]. intros cs. pose proof (pool_run_ok base height max tree false P K cs start (N.to_nat max)) as R. rewrite N2Nat.id in R.
  specialize (R ltac:(lia) ltac:(discriminate)). fold tree.
  destruct (pool_ref_run false max tree (start, max) cs) as [[[cur m] obs]|]; [|exact R].
  destruct R as (p' & R1 & R2 & _). eauto.
Qed.

(** Even heights from 32 to 254: a pool with a cache cannot be made, one without cannot
    be used. *)
Theorem C71_rust_pool_high_trees : forall base height start max, all_bytes base -> tree_height height -> 30 < height <= 254 ->
  start + max < 2 ^ 64 ->
  (0 < max -> rs_pool_new base height start max = RPanic) /\
  (max = 0 -> exists p, rs_pool_new base height start max = ROk p /\ rs_is_available p = false /\
     forall cs, In PNext cs -> rs_pool_run p cs = RPanic).
Proof.
  intros base height start max HB Hh H30 H.
  assert (P : forall i, rs_prepare_tree base height i = RPanic).
  { intros i. destruct (N.lt_ge_cases (i + 1) (2 ^ 64)) as [Hi|Hi].
    - destruct (rs_tree_seed_ok base i HB Hi) as (seed & E1 & _ & L). unfold rs_prepare_tree. rewrite E1. cbn [rbind].
      destruct (C62_rust_fast_constructor seed height None None) as (_ & _ & _ & B). apply B. tauto.
    - unfold rs_prepare_tree, rs_tree_seed, rs_bin2hstr. rewrite rs_hstr_nowrap by auto. cbn [rbind].
      now rewrite (proj2 (N.leb_le _ _) Hi). }
  unfold rs_pool_new, rs_fill_cache. cbn [rp_cur rp_cache rp_max length]. rewrite N.add_0_r.
  rewrite (proj2 (N.leb_gt (2 ^ 64) start)), (proj2 (N.leb_gt (2 ^ 64) (start + max))) by lia. split.
  - intros Hm. destruct (N.to_nat (start + max - start)) eqn:E; [lia|]. cbn [rs_fill_loop rp_seed rp_height]. now rewrite P.
  - intros ->. replace (N.to_nat (start + 0 - start)) with 0%nat by lia. cbn [rs_fill_loop]. eexists. split; [reflexivity|]. split; [reflexivity|].
    induction cs as [|c cs IH]; intros X; [contradiction|]. destruct c; cbn [rs_pool_run rs_pool_step].
    + unfold rs_get_next_tree. cbn [rp_cache rp_seed rp_height rp_cur]. rewrite P. reflexivity.
    + cbn [rbind]. rewrite IH; [reflexivity|]. destruct X; [discriminate|auto].
    + cbn [rbind]. rewrite IH; [reflexivity|]. destruct X; [discriminate|auto].
Qed.

(** ** Instances *)
Example C71_sat : exists p tree, rs_pool_new [1; 2; 255] 4 7 3 = ROk p /\
  (exists p', rs_pool_run p [PIndex; PNext; PAvail; PNext; PIndex] =
     ROk (p', [PNum 7; PTree (tree 7); PBool true; PTree (tree 8); PNum 9])) /\
  (exists t, tree 8 = inr t).
Proof.
  destruct (C71_rust_pool_history [1; 2; 255] 4 7 3) as (_ & H); [repeat constructor|lia|reflexivity|].
  destruct H as (p & tree & E & T & R); [reflexivity|]. exists p, tree. split; [exact E|]. split.
  - specialize (R [PIndex; PNext; PAvail; PNext; PIndex]). cbn in R. destruct R as (p' & R & _). eauto.
  - destruct (T 8 eq_refl) as (_ & t & _ & X & _). eauto.
Qed.
(** The C++ pool derives its seeds differently. *)
Example C71_not_the_cpp_seed : forall s, is_tree_seed [1; 2; 255] 0 s -> s <> shake256 48 (tree_seed_input [1; 2; 255] 0).
Proof.
  intros s (d & D & E). assert (d = codes "1"%string).
  { apply (dec_unique 1); auto; [lia|]. repeat split; [discriminate|repeat constructor; cbn; lia|cbn; lia]. }
  subst d. cbv zeta in E. intros X. rewrite E in X.
  apply (f_equal (fun l => hd 0 l)) in X. vm_compute in X. discriminate.
Qed.
