(** C32 and C33: SHAKE128 and SHAKE256 as computed by the model of fips202.c are
    the functions of FIPS 202 (SpecKeccak.v). *)
From Coq Require Import List ZArith NArith Arith Lia Bool.
From Verif Require Import Base Bytes Keccak KeccakLemmas SpecKeccak KeccakBits.
Import ListNotations.
Open Scope nat_scope.
Transparent shake128 shake256.

(** ** The state as a string of 1600 bits *)
Definition wbits (w : N) : list bool := map (fun i => tb w (Z.of_nat i)) (seq 0 64).
Definition sbits (s : list N) : list bool := flat_map wbits s.

Lemma wbits_length : forall w, length (wbits w) = 64.
Proof. intros. unfold wbits. now rewrite map_length, seq_length. Qed.
Lemma flat_map_length_const : forall (A B : Type) (f : A -> list B) k l, (forall a, length (f a) = k) -> length (flat_map f l) = length l * k.
Proof. intros A B f k l H. induction l; cbn [flat_map length]; auto. rewrite app_length, IHl, H. lia. Qed.
Lemma sbits_length : forall s, length (sbits s) = length s * 64.
Proof. intros. apply flat_map_length_const, wbits_length. Qed.

Lemma nth_flat_map : forall (A B : Type) (f : A -> list B) k d e l i j, (forall a, length (f a) = k) -> i < length l -> j < k ->
  nth (k * i + j) (flat_map f l) e = nth j (f (nth i l d)) e.
Proof.
  intros A B f k d e l. induction l as [|a l IH]; intros i j H Hi Hj; cbn [length] in Hi; [lia|].
  cbn [flat_map]. destruct i.
  - rewrite Nat.mul_0_r. cbn [plus nth]. rewrite app_nth1 by now rewrite H. reflexivity.
  - rewrite app_nth2 by (rewrite H; nia). rewrite H. replace (k * S i + j - k) with (k * i + j) by nia.
    cbn [nth]. apply IH; auto; lia.
Qed.

Lemma string_view : forall s, length s = 25 -> string_of (view s) = sbits s.
Proof.
  intros s H. do 25 (destruct s as [|? s]; [discriminate H|]). destruct s; [|discriminate H].
  unfold string_of, sbits. cbn [flat_map seq]. rewrite !app_nil_r, <- !app_assoc. reflexivity.
Qed.
Lemma array_sbits : forall s, length s = 25 -> eqa (array_of (sbits s)) (view s).
Proof.
  intros s H x y z Hx Hy Hz. unfold array_of, view, sbits.
  replace (Z.to_nat (64 * (5 * y + x) + z)) with (64 * Z.to_nat (5 * y + x) + Z.to_nat z) by lia.
  rewrite (nth_flat_map _ _ _ 64 0%N) by (auto using wbits_length; lia).
  unfold wbits, lane.
  rewrite (nth_indep _ false (tb (nth (Z.to_nat (5 * y + x)) s 0%N) (Z.of_nat 0))) by (rewrite map_length, seq_length; lia).
  rewrite (map_nth (fun i => tb (nth (Z.to_nat (5 * y + x)) s 0%N) (Z.of_nat i)) (seq 0 64) 0).
  rewrite seq_nth by lia. f_equal. lia.
Qed.
Lemma flat_map_ext_in : forall (A B : Type) (f g : A -> list B) l, (forall a, In a l -> f a = g a) -> flat_map f l = flat_map g l.
Proof. intros A B f g l H. induction l; cbn [flat_map]; auto. rewrite H, IHl; auto with datatypes. Qed.
Lemma string_eqa : forall A B, eqa A B -> string_of A = string_of B.
Proof.
  intros A B H. unfold string_of. apply flat_map_ext_in. intros y Hy. apply flat_map_ext_in. intros x Hx.
  apply map_ext_in. intros z Hz. apply in_seq in Hx. apply in_seq in Hy. apply in_seq in Hz. apply H; lia.
Qed.
Lemma fold_Rnd_eqa : forall l A B, eqa A B -> eqa (fold_left Rnd l A) (fold_left Rnd l B).
Proof. induction l; intros A B H; auto. cbn [fold_left]. apply IHl. now apply Rnd_eqa. Qed.

Lemma eqa_sym : forall A B, eqa A B -> eqa B A.
Proof. intros A B H x y z Hx Hy Hz. symmetry. now apply H. Qed.

Lemma permute_spec : forall s, words s ->
  words (KeccakF1600_StatePermute s) /\ sbits (KeccakF1600_StatePermute s) = keccak_f (sbits s).
Proof.
  intros s Hs.
  assert (Hr : words (KeccakF1600_StatePermute s) /\ eqa (view (KeccakF1600_StatePermute s)) (fold_left Rnd (seq 0 (2 * 12)) (array_of (sbits s)))).
  { unfold KeccakF1600_StatePermute. apply rounds_spec.
    - reflexivity.
    - exact Hs.
    - apply eqa_sym, array_sbits, Hs.
    - intros i Hi. apply constants_ok. exact Hi. }
  destruct Hr as [Hw He]. split; [exact Hw|].
  rewrite <- string_view by apply Hw. unfold keccak_f. change 24 with (2 * 12). now apply string_eqa.
Qed.

(** ** Bytes and lanes *)
Lemma bits_app : forall a b, bits (a ++ b) = bits a ++ bits b.
Proof. intros. apply flat_map_app. Qed.
Lemma byte_bits_length : forall b, length (byte_bits b) = 8.
Proof. intros. unfold byte_bits. now rewrite map_length, seq_length. Qed.
Lemma bits_length : forall l, length (bits l) = length l * 8.
Proof. intros. apply flat_map_length_const, byte_bits_length. Qed.
Lemma firstn_bits : forall n l, firstn (8 * n) (bits l) = bits (firstn n l).
Proof.
  induction n; intros l; [reflexivity|]. destruct l as [|a l]; [now rewrite !firstn_nil|].
  cbn [firstn]. unfold bits. cbn [flat_map]. replace (8 * S n) with (length (byte_bits a) + 8 * n) by (rewrite byte_bits_length; lia).
  rewrite firstn_app_2. f_equal. apply IHn.
Qed.
Lemma skipn_bits : forall n l, skipn (8 * n) (bits l) = bits (skipn n l).
Proof.
  induction n; intros l; [reflexivity|]. destruct l as [|a l]; [now rewrite !skipn_nil|].
  cbn [skipn]. unfold bits. cbn [flat_map]. replace (8 * S n) with (length (byte_bits a) + 8 * n) by (rewrite byte_bits_length; lia).
  rewrite skipn_app. rewrite skipn_all2 by (rewrite byte_bits_length; lia).
  replace (length (byte_bits a) + 8 * n - length (byte_bits a)) with (8 * n) by lia. apply IHn.
Qed.

Lemma bits_to_le : forall n w, bits (to_le n w) = map (fun i => N.testbit w (N.of_nat i)) (seq 0 (8 * n)).
Proof.
  induction n; intros w; [reflexivity|]. cbn [to_le]. unfold bits. cbn [flat_map]. fold (bits (to_le n (w / 256)%N)).
  rewrite IHn. replace (8 * S n) with (8 + 8 * n) by lia. rewrite seq_app, map_app. f_equal.
  - unfold byte_bits. apply map_ext_in. intros i Hi. apply in_seq in Hi.
    change 256%N with (2 ^ 8)%N. apply N.mod_pow2_bits_low. lia.
  - rewrite <- (map_id (seq (0 + 8) (8 * n))). rewrite map_map.
    assert (G : forall a k, map (fun i => N.testbit (w / 256) (N.of_nat i)) (seq a k) = map (fun i => N.testbit w (N.of_nat i)) (seq (a + 8) k)).
    { intros a k. revert a. induction k; intros a; [reflexivity|]. cbn [seq map]. f_equal.
      - change 256%N with (2 ^ 8)%N. rewrite N.div_pow2_bits. f_equal. lia.
      - apply (IHk (S a)). }
    apply G.
Qed.
Lemma bits_store : forall w, bits (store64 w) = wbits w.
Proof.
  intros. unfold store64. rewrite bits_to_le. unfold wbits. apply map_ext. intros i. unfold tb. f_equal. lia.
Qed.
Lemma wbits_load : forall m, all_bytes m -> 8 <= length m -> wbits (load64 m) = bits (firstn 8 m).
Proof.
  intros m Hm Hl. rewrite <- bits_store. unfold store64, load64. f_equal.
  rewrite <- (to_le_from_le (firstn 8 m)) at 2 by now apply all_bytes_firstn. now rewrite firstn_length_le by lia.
Qed.
Lemma load_word : forall m, all_bytes m -> word64 (load64 m).
Proof.
  intros m Hm. unfold word64, load64. eapply N.lt_le_trans; [apply from_le_bound; now apply all_bytes_firstn|].
  change (2 ^ 64)%N with (256 ^ 8)%N. apply N.pow_le_mono_r; [lia|]. rewrite firstn_length. lia.
Qed.

Lemma xor_bits_app : forall a b c d, length a = length c -> xor_bits (a ++ b) (c ++ d) = xor_bits a c ++ xor_bits b d.
Proof.
  induction a; intros b [|x c] d H; cbn in H; try lia; [reflexivity|].
  unfold xor_bits. cbn [app combine map]. f_equal. apply IHa. lia.
Qed.
Lemma xor_bits_zero : forall a, xor_bits a (repeat false (length a)) = a.
Proof. induction a; cbn; auto. unfold xor_bits in *. cbn [combine map fst snd]. now rewrite xorb_false_r, IHa. Qed.
Lemma wbits_xor : forall a b, wbits (N.lxor a b) = xor_bits (wbits a) (wbits b).
Proof.
  intros. unfold wbits. induction (seq 0 64); [reflexivity|]. cbn [map]. unfold xor_bits. cbn [combine map fst snd].
  f_equal; [apply tb_xor|]. apply IHl.
Qed.

Lemma xor_lanes_bits : forall k s m, all_bytes m -> k <= length s -> 8 * k <= length m ->
  sbits (xor_lanes k s m) = xor_bits (sbits s) (bits (firstn (8 * k) m) ++ repeat false (64 * (length s - k))).
Proof.
  induction k; intros s m Hm Hk Hl.
  - cbn [xor_lanes]. rewrite Nat.mul_0_r, Nat.sub_0_r. cbn [firstn]. change (bits [] ++ ?x) with x.
    replace (64 * length s) with (length (sbits s)) by (rewrite sbits_length; lia).
    destruct s; now rewrite xor_bits_zero.
  - destruct s as [|w s]; [cbn in Hk; lia|]. cbn [xor_lanes]. unfold sbits. cbn [flat_map].
    fold (sbits s) (sbits (xor_lanes k s (skipn 8 m))).
    cbn [length] in *. rewrite IHk; try lia; [|now apply all_bytes_skipn|rewrite skipn_length; lia].
    replace (8 * S k) with (8 + 8 * k) by lia.
    assert (Hf : firstn (8 + 8 * k) m = firstn 8 m ++ firstn (8 * k) (skipn 8 m)).
    { rewrite <- (firstn_skipn 8 m) at 1. rewrite <- (firstn_length_le m (n := 8)) at 1 by lia. apply firstn_app_2. }
    rewrite Hf, bits_app, <- app_assoc.
    rewrite xor_bits_app by (rewrite wbits_length, bits_length, firstn_length_le by lia; reflexivity).
    rewrite wbits_xor, wbits_load by (auto; lia). replace (S (length s) - S k) with (length s - k) by lia. reflexivity.
Qed.
Lemma xor_lanes_words : forall k s m, all_bytes m -> Forall word64 s -> Forall word64 (xor_lanes k s m).
Proof.
  induction k; intros s m Hm Hs; cbn [xor_lanes]; auto. destruct s; auto. inversion Hs; subst.
  constructor; [apply xor_word; auto using load_word|]. apply IHk; auto. now apply all_bytes_skipn.
Qed.

(** One absorbed block. *)
Lemma absorb_step : forall r s m, words s -> all_bytes m -> r <= length m -> (r mod 8 = 0) -> r <= 200 ->
  words (xor_lanes (r / 8) s m) /\
  sbits (KeccakF1600_StatePermute (xor_lanes (r / 8) s m)) = absorb_block (8 * r) (sbits s) (bits (firstn r m)).
Proof.
  intros r s m [Hl Hw] Hm Hr Hd Hb.
  pose proof (Nat.div_mod r 8 ltac:(lia)) as E. rewrite Hd in E.
  assert (W : words (xor_lanes (r / 8) s m)).
  { split; [now rewrite xor_lanes_length|]. now apply xor_lanes_words. }
  split; [exact W|]. rewrite (proj2 (permute_spec _ W)). unfold absorb_block. f_equal.
  rewrite xor_lanes_bits by (auto; lia). rewrite Hl. replace (8 * (r / 8)) with r by lia.
  replace (64 * (25 - r / 8)) with (1600 - 8 * r) by lia. reflexivity.
Qed.

(** ** Padding *)
Lemma bits_zero : forall n, bits (repeat 0%N n) = repeat false (8 * n).
Proof.
  induction n; [reflexivity|]. cbn [repeat]. unfold bits. cbn [flat_map]. fold (bits (repeat 0%N n)). rewrite IHn.
  replace (8 * S n) with (8 + 8 * n) by lia. rewrite repeat_app. reflexivity.
Qed.
Lemma upd_app_last : forall (A : Type) (l : list A) a b, upd (l ++ [a]) (length l) b = l ++ [b].
Proof. induction l; intros; cbn; [reflexivity|]. now rewrite IHl. Qed.

Lemma pad_small : forall x m, 0 < x -> m + 2 <= x -> pad10s1 x m = true :: repeat false (x - m - 2) ++ [true].
Proof.
  intros x m Hx Hm. unfold pad10s1.
  replace (Z.to_nat ((- Z.of_nat m - 2) mod Z.of_nat x)) with (x - m - 2); [reflexivity|].
  replace ((- Z.of_nat m - 2) mod Z.of_nat x)%Z with (Z.of_nat (x - m - 2)); [lia|].
  apply (Z.mod_unique_pos _ _ (-1)); lia.
Qed.
Lemma pad_shift : forall x m, pad10s1 x (x + m) = pad10s1 x m.
Proof.
  intros x m. unfold pad10s1. do 4 f_equal. rewrite Nat2Z.inj_add.
  replace (- (Z.of_nat x + Z.of_nat m) - 2)%Z with (- Z.of_nat m - 2 + (-1) * Z.of_nat x)%Z by lia. apply Z_mod_plus_full.
Qed.

Lemma last_block_bits : forall r m, length m < r ->
  bits (last_block r m 31) = bits m ++ [true; true; true; true] ++ pad10s1 (8 * r) (8 * length m + 4).
Proof.
  intros r m H. rewrite pad_small by lia. unfold last_block.
  destruct (Nat.eq_dec (r - 1) (length m)) as [E|E].
  - rewrite E, Nat.sub_diag. cbn [repeat]. rewrite upd_app_last. rewrite app_nth2, Nat.sub_diag by lia. cbn [nth].
    rewrite bits_app. f_equal. replace (8 * r - (8 * length m + 4) - 2) with 2 by lia. reflexivity.
  - assert (Ht : m ++ 31%N :: repeat 0%N (r - 1 - length m) = (m ++ 31%N :: repeat 0%N (r - 2 - length m)) ++ [0%N]).
    { rewrite <- app_assoc. cbn [app]. f_equal. f_equal. change [0%N] with (repeat 0%N 1). rewrite <- repeat_app. f_equal. lia. }
    rewrite Ht. assert (Hl : length (m ++ 31%N :: repeat 0%N (r - 2 - length m)) = r - 1).
    { rewrite app_length. cbn [length]. rewrite repeat_length. lia. }
    rewrite <- Hl. rewrite upd_app_last. rewrite app_nth2, Nat.sub_diag by lia. cbn [nth].
    rewrite !bits_app, <- app_assoc. f_equal.
    change (31%N :: repeat 0%N (r - 2 - length m)) with ([31%N] ++ repeat 0%N (r - 2 - length m)).
    rewrite bits_app, bits_zero.
    replace (8 * r - (8 * length m + 4) - 2) with (3 + (8 * (r - 2 - length m) + 7)) by lia.
    rewrite (repeat_app false 3), (repeat_app false (8 * (r - 2 - length m)) 7).
    rewrite <- !app_assoc. cbn [repeat app bits flat_map byte_bits map seq]. reflexivity.
Qed.
Lemma last_block_length : forall r m p, length m < r -> length (last_block r m p) = r.
Proof. intros r m p H. unfold last_block. rewrite upd_length, app_length. cbn [length]. rewrite repeat_length. lia. Qed.
Lemma last_block_bytes : forall r m, all_bytes m -> all_bytes (last_block r m 31).
Proof.
  intros r m Hm. unfold last_block.
  set (t := m ++ 31%N :: repeat 0%N (r - 1 - length m)).
  assert (Ht : all_bytes t).
  { apply all_bytes_app. split; auto. constructor; [reflexivity|]. apply Forall_forall. intros x Hx. apply repeat_spec in Hx. subst. reflexivity. }
  assert (Hv : is_byte (N.lor (nth (r - 1) t 0%N) 128)).
  { assert (Hn : is_byte (nth (r - 1) t 0%N)).
    { destruct (Nat.lt_ge_cases (r - 1) (length t)) as [Hc|Hc].
      - unfold all_bytes in Ht. rewrite Forall_forall in Ht. apply Ht. now apply nth_In.
      - rewrite nth_overflow by lia. reflexivity. }
    unfold is_byte in *. set (v := nth (r - 1) t 0%N) in *. clearbody v.
    replace (N.lor v 128) with (N.lor v 128 mod 2 ^ 8)%N; [apply N.mod_lt; discriminate|].
    apply N.bits_inj. intros n. destruct (N.lt_ge_cases n 8).
    - now rewrite N.mod_pow2_bits_low.
    - rewrite N.mod_pow2_bits_high, N.lor_spec by auto.
      assert (B : forall a, (a < 2 ^ 8)%N -> N.testbit a n = false).
      { intros a Ha. destruct (N.eq_dec a 0) as [->|Hz]; [apply N.bits_0|]. apply N.bits_above_log2.
        apply N.log2_lt_pow2 in Ha; lia. }
      rewrite (B v) by exact Hn. now rewrite (B 128%N) by reflexivity. }
  clearbody t. revert r Ht Hv. intros r. generalize (N.lor (nth (r - 1) t 0%N) 128). generalize (r - 1). clear.
  induction t; intros [|i] v Ht Hv; cbn [upd]; auto; inversion Ht; subst; constructor; auto. now apply IHt.
Qed.

(** ** Absorbing *)
Definition cut (R : nat) (P : list bool) : list (list bool) := map (fun i => firstn R (skipn (i * R) P)) (seq 0 (length P / R)).
Lemma cut_step : forall R A P, 0 < R -> length A = R -> cut R (A ++ P) = A :: cut R P.
Proof.
  intros R A P HR HA. unfold cut. rewrite app_length, HA.
  replace ((R + length P) / R) with (S (length P / R)).
  - cbn [seq map]. f_equal.
    + rewrite Nat.mul_0_l. cbn [skipn]. rewrite <- HA. rewrite firstn_app, Nat.sub_diag, firstn_all. cbn [firstn]. apply app_nil_r.
    + rewrite <- seq_shift, map_map. apply map_ext. intros i. f_equal.
      rewrite skipn_app. rewrite skipn_all2 by nia. cbn [app]. f_equal. nia.
  - replace (R + length P) with (length P + 1 * R) by lia. rewrite Nat.div_add by lia. lia.
Qed.

Lemma absorb_spec : forall r, (r mod 8 = 0) -> r <= 200 -> 0 < r -> forall fuel s m, words s -> all_bytes m -> length m <= fuel ->
  let s' := keccak_absorb fuel s r m 31 in
  words s' /\
  sbits (KeccakF1600_StatePermute s') =
    fold_left (absorb_block (8 * r))
      (cut (8 * r) ((bits m ++ [true; true; true; true]) ++ pad10s1 (8 * r) (length (bits m ++ [true; true; true; true])))) (sbits s).
Proof.
  intros r Hd Hb Hr0. 
  assert (Last : forall s m, words s -> all_bytes m -> length m < r ->
    let s' := xor_lanes (r / 8) s (last_block r m 31) in
    words s' /\
    sbits (KeccakF1600_StatePermute s') =
    fold_left (absorb_block (8 * r))
      (cut (8 * r) ((bits m ++ [true; true; true; true]) ++ pad10s1 (8 * r) (length (bits m ++ [true; true; true; true])))) (sbits s)).
  { intros s m Hs Hm Hl. pose proof (last_block_length r m 31 Hl) as Hll.
    destruct (absorb_step r s (last_block r m 31) Hs (last_block_bytes r m Hm)) as [H1 H2]; auto; [lia|].
    split; [exact H1|]. rewrite H2. rewrite app_length, bits_length. cbn [length].
    replace (length m * 8 + 4) with (8 * length m + 4) by lia. rewrite <- app_assoc, <- last_block_bits by auto.
    rewrite <- (app_nil_r (bits (last_block r m 31))), cut_step by (try rewrite bits_length; lia).
    replace (cut (8 * r) []) with (@nil (list bool)).
    - cbn [fold_left]. rewrite firstn_all2 by lia. reflexivity.
    - unfold cut. cbn [length]. rewrite Nat.div_small by lia. reflexivity. }
  induction fuel; intros s m Hs Hm Hl.
  - cbn [keccak_absorb]. apply Last; auto. lia.
  - cbn [keccak_absorb]. destruct (r <=? length m) eqn:E; [|apply Nat.leb_gt in E; now apply Last].
    apply Nat.leb_le in E. destruct (absorb_step r s m Hs Hm E Hd Hb) as [H1 H2].
    destruct (permute_spec _ H1) as [H3 _].
    destruct (IHfuel _ (skipn r m) H3 (all_bytes_skipn _ _ Hm)) as [H4 H5]; [rewrite skipn_length; lia|].
    split; [exact H4|]. rewrite H5, H2.
    assert (Em : bits m = bits (firstn r m) ++ bits (skipn r m)) by (rewrite <- bits_app; now rewrite firstn_skipn).
    assert (Lf : length (bits (firstn r m)) = 8 * r) by (rewrite bits_length, firstn_length_le by lia; lia).
    rewrite Em, <- !(app_assoc (bits (firstn r m))). rewrite (app_length (bits (firstn r m))), Lf.
    rewrite pad_shift. rewrite (cut_step (8 * r) (bits (firstn r m))); [reflexivity|lia|exact Lf].
Qed.

(** ** Squeezing *)
Lemma store_bits : forall r s, bits (store_lanes r s) = firstn (64 * (r / 8)) (sbits s).
Proof.
  intros r s. unfold store_lanes. generalize (r / 8). intros k. revert s. induction k; intros s; [reflexivity|].
  destruct s as [|w s]; [now rewrite !firstn_nil|]. cbn [firstn map concat]. rewrite bits_app, bits_store.
  unfold sbits. cbn [flat_map]. replace (64 * S k) with (length (wbits w) + 64 * k) by (rewrite wbits_length; lia).
  rewrite firstn_app_2. f_equal. apply IHk.
Qed.
Lemma squeezeblocks_S : forall k s r, fst (keccak_squeezeblocks (S k) s r) =
  store_lanes r (KeccakF1600_StatePermute s) ++ fst (keccak_squeezeblocks k (KeccakF1600_StatePermute s) r).
Proof. intros. cbn [keccak_squeezeblocks]. now destruct (keccak_squeezeblocks k (KeccakF1600_StatePermute s) r). Qed.

Lemma squeeze_spec : forall r, (r mod 8 = 0) -> r <= 200 -> 0 < r -> forall fuel s d Z, words s -> d <= length Z + fuel * (8 * r) -> 0 < fuel ->
  squeeze fuel (8 * r) d (sbits (KeccakF1600_StatePermute s)) Z = firstn d (Z ++ bits (fst (keccak_squeezeblocks fuel s r))).
Proof.
  intros r Hd Hb Hr0. pose proof (Nat.div_mod r 8 ltac:(lia)) as E8. rewrite Hd in E8.
  induction fuel; intros s d Z Hs Hl Hf; [lia|]. cbn [squeeze]. rewrite squeezeblocks_S, bits_app, store_bits.
  replace (64 * (r / 8)) with (8 * r) by lia.
  destruct (permute_spec s Hs) as [Hp _].
  assert (HL : length (Z ++ firstn (8 * r) (sbits (KeccakF1600_StatePermute s))) = length Z + 8 * r).
  { rewrite app_length, firstn_length_le; [reflexivity|]. rewrite sbits_length, (proj1 Hp). lia. }
  rewrite HL. destruct (d <=? length Z + 8 * r) eqn:E.
  - apply Nat.leb_le in E. rewrite (app_assoc Z), (firstn_app d (Z ++ _)), HL. replace (d - (length Z + 8 * r)) with 0 by lia.
    cbn [firstn]. now rewrite app_nil_r.
  - apply Nat.leb_gt in E. destruct fuel; [lia|].
    destruct (permute_spec _ Hp) as [_ Hq]. rewrite <- Hq, IHfuel; [now rewrite <- app_assoc|exact Hp|rewrite HL; lia|lia].
Qed.

Lemma squeezeblocks_add : forall a b s r, fst (keccak_squeezeblocks (a + b) s r) =
  fst (keccak_squeezeblocks a s r) ++ fst (keccak_squeezeblocks b (snd (keccak_squeezeblocks a s r)) r).
Proof.
  induction a; intros b s r; [reflexivity|]. cbn [plus keccak_squeezeblocks].
  specialize (IHa b (KeccakF1600_StatePermute s) r).
  destruct (keccak_squeezeblocks (a + b) (KeccakF1600_StatePermute s) r). destruct (keccak_squeezeblocks a (KeccakF1600_StatePermute s) r).
  cbn [fst snd] in *. now rewrite <- app_assoc, <- IHa.
Qed.

(** The output is the prefix of the stream of blocks. *)
Lemma shake_stream : forall r n m K, (r = 168 \/ r = 136) -> n <= K * r ->
  shake r n m = firstn n (fst (keccak_squeezeblocks K (keccak_absorb (length m) (repeat 0%N 25) r m 31) r)).
Proof.
  intros r n m K Hr HK. unfold shake.
  assert (Hr8 : r / 8 <= 25 /\ 8 * (r / 8) = r) by (destruct Hr; subst; split; cbn; lia).
  assert (Hs : length (keccak_absorb (length m) (repeat 0%N 25) r m 31) = 25).
  { apply absorb_length. apply repeat_length. }
  set (s := keccak_absorb (length m) (repeat 0%N 25) r m 31) in *. clearbody s.
  assert (Hr0 : r <> 0) by lia.
  pose proof (Nat.div_mod n r Hr0) as En. pose proof (Nat.mod_upper_bound n r Hr0) as Hm.
  destruct (squeeze_length (n / r) _ r Hs (proj1 Hr8)) as [H1 H2]. rewrite (proj2 Hr8) in H1.
  assert (HKq : n / r <= K) by nia.
  replace K with (n / r + (K - n / r)) by lia. rewrite squeezeblocks_add.
  destruct (keccak_squeezeblocks (n / r) s r) as [o s2]. cbn [fst snd] in *.
  destruct (n mod r =? 0) eqn:E.
  - apply Nat.eqb_eq in E. rewrite firstn_app. replace (n - length o) with 0 by nia. cbn [firstn].
    rewrite app_nil_r, firstn_all2 by nia. reflexivity.
  - apply Nat.eqb_neq in E. assert (Hk : n / r < K) by nia.
    replace (K - n / r) with (S (K - n / r - 1)) by lia. rewrite squeezeblocks_S.
    rewrite firstn_app. rewrite (firstn_all2 o) by nia. replace (n - length o) with (n mod r) by nia.
    pose proof (store_lanes_length r _ (permute_length _ H2) (proj1 Hr8)) as HS. rewrite (proj2 Hr8) in HS.
    rewrite firstn_app, HS. replace (n mod r - r) with 0 by lia. cbn [firstn]. rewrite app_nil_r.
    cbn [keccak_squeezeblocks]. rewrite app_nil_r. reflexivity.
Qed.

Lemma zero_words : words (repeat 0%N 25).
Proof. split; [reflexivity|]. repeat constructor. Qed.

Lemma shake_spec : forall r n m, (r = 168 \/ r = 136) -> all_bytes m ->
  bits (shake r n m) = sponge (8 * r) (bits m ++ [true; true; true; true]) (8 * n).
Proof.
  intros r n m Hr Hm.
  assert (Hr' : r mod 8 = 0 /\ r <= 200 /\ 0 < r) by (destruct Hr; subst; repeat split; lia).
  destruct Hr' as (Hd & Hb & H0).
  destruct (absorb_spec r Hd Hb H0 (length m) (repeat 0%N 25) m zero_words Hm (le_n _)) as [Hw Ha].
  unfold sponge.
  change (repeat false 1600) with (sbits (repeat 0%N 25)).
  unfold cut in Ha. rewrite <- Ha. rewrite squeeze_spec by (auto; cbn [length]; nia).
  rewrite (shake_stream r n m (S (8 * n))) by (auto; nia). cbn [app]. now rewrite firstn_bits.
Qed.

(** C32: what the library's [shake128] and [shake256] return, for every message
    and every output length, is the FIPS 202 function. *)
Theorem C32_shake128_is_fips202 : forall n m, all_bytes m -> bits (shake128 n m) = SHAKE128 (bits m) (8 * n).
Proof. intros. now apply (shake_spec 168); auto. Qed.
Theorem C32_shake256_is_fips202 : forall n m, all_bytes m -> bits (shake256 n m) = SHAKE256 (bits m) (8 * n).
Proof. intros. now apply (shake_spec 136); auto. Qed.

(** The bits determine the bytes, so the equation fixes the output. *)
Lemma bits_inj : forall a b, all_bytes a -> all_bytes b -> bits a = bits b -> a = b.
Proof.
  induction a as [|x a IH]; intros [|y b] Ha Hb E; auto.
  - apply (f_equal (@length bool)) in E. rewrite !bits_length in E. discriminate.
  - apply (f_equal (@length bool)) in E. rewrite !bits_length in E. discriminate.
  - inversion Ha; inversion Hb; subst.
    assert (E1 := f_equal (firstn 8) E). assert (E2 := f_equal (skipn 8) E).
    change 8 with (8 * 1) in E1, E2. rewrite !firstn_bits in E1. rewrite !skipn_bits in E2. cbn [firstn skipn] in E1, E2.
    f_equal; [|now apply IH]. unfold bits in E1. cbn [flat_map] in E1. rewrite !app_nil_r in E1. unfold byte_bits in E1.
    apply N.bits_inj. intros k. destruct (N.lt_ge_cases k 8) as [Hk|Hk].
    + assert (G := ext_in_map E1). cbv beta in G. specialize (G (N.to_nat k)). rewrite N2Nat.id in G. apply G. apply in_seq. lia.
    + assert (B : forall v, is_byte v -> N.testbit v k = false).
      { intros v Hv. destruct (N.eq_dec v 0) as [->|Hz]; [apply N.bits_0|]. apply N.bits_above_log2.
        unfold is_byte in Hv. change 256%N with (2 ^ 8)%N in Hv. apply N.log2_lt_pow2 in Hv; lia. }
      now rewrite !B.
Qed.
Theorem C32_shake_unique : forall n m out, all_bytes m -> all_bytes out ->
  (bits out = SHAKE128 (bits m) (8 * n) <-> out = shake128 n m) /\
  (bits out = SHAKE256 (bits m) (8 * n) <-> out = shake256 n m).
Proof.
  intros n m out Hm Ho. split; split; intros H.
  - apply bits_inj; auto using shake128_bytes. now rewrite C32_shake128_is_fips202.
  - subst. now apply C32_shake128_is_fips202.
  - apply bits_inj; auto using shake256_bytes. now rewrite C32_shake256_is_fips202.
  - subst. now apply C32_shake256_is_fips202.
Qed.

(** C33: exact length, and a shorter output is a prefix of a longer one. *)
Theorem C33_shake_length_prefix : forall n n' m, n <= n' ->
  length (shake128 n m) = n /\ length (shake256 n m) = n /\
  firstn n (shake128 n' m) = shake128 n m /\ firstn n (shake256 n' m) = shake256 n m.
Proof.
  intros n n' m H. split; [apply shake128_length|]. split; [apply shake256_length|].
  unfold shake128, shake256. split.
  - rewrite (shake_stream 168 n m n'), (shake_stream 168 n' m n') by (auto; lia). rewrite firstn_firstn. f_equal. lia.
  - rewrite (shake_stream 136 n m n'), (shake_stream 136 n' m n') by (auto; lia). rewrite firstn_firstn. f_equal. lia.
Qed.

(** Known answers: the empty message (FIPS 202 / NIST example values). *)
Example shake128_empty : firstn 16 (shake128 32 []) = [0x7f; 0x9c; 0x2b; 0xa4; 0xe8; 0x8f; 0x82; 0x7d; 0x61; 0x60; 0x45; 0x50; 0x76; 0x05; 0x85; 0x3e]%N.
Proof. vm_compute. reflexivity. Qed.
Example shake256_empty : firstn 16 (shake256 32 []) = [0x46; 0xb9; 0xdd; 0x2b; 0x0b; 0xa8; 0x8d; 0x13; 0x23; 0x3b; 0x3f; 0xeb; 0x74; 0x3e; 0xeb; 0x24]%N.
Proof. vm_compute. reflexivity. Qed.
Global Opaque shake128 shake256.
