(** Simulation of the Rust hash layer (RsHash.v) by the C++ one (HashAddress.v), and
    lemmas about flat buffers of 32-byte cells. *)
From Coq Require Import List NArith Arith Lia Bool.
From Verif Require Import Base Bytes Keccak KeccakLemmas Sha256 HashAddress RsBase RsKeccak RsShake RsHash.
Import ListNotations.
Open Scope nat_scope.

Lemma Ok_inj' : forall A (a b : A), Ok a = Ok b -> a = b.
Proof. congruence. Qed.
Lemma ROk_inj : forall A (a b : A), ROk a = ROk b -> a = b.
Proof. congruence. Qed.

(** ** Setters *)
(** The setters are the same functions. *)
Ltac cpp_adrs :=
  change rs_set_type with setType in *;
  change rs_set_key_and_mask with setKeyAndMask in *;
  change rs_set_ots_adrs with setOTSADRS in *;
  change rs_set_ltree_adrs with setLtreeADRS in *;
  change rs_set_chain_adrs with setChainADRS in *;
  change rs_set_hash_adrs with setHashADRS in *;
  change rs_set_tree_height with setTreeHeight in *;
  change rs_set_tree_index with setTreeIndex in *.

(** ** to_byte *)
Lemma to_byte_snoc_split : forall n v, to_byte (S n) v = to_byte n (v / 256)%N ++ [(v mod 256)%N].
Proof. reflexivity. Qed.

Fixpoint iter_shr (k : nat) (v : N) : N := match k with O => v | S k' => N.shiftr (iter_shr k' v) 8 end.
Lemma iter_shr_div : forall k v, iter_shr k v = (v / 256 ^ N.of_nat k)%N.
Proof.
  induction k; intros v; cbn [iter_shr].
  - change (N.of_nat 0) with 0%N. now rewrite N.pow_0_r, N.div_1_r.
  - rewrite IHk, N.shiftr_div_pow2. change (2 ^ 8)%N with 256%N. rewrite Nat2N.inj_succ, N.pow_succ_r'.
    rewrite N.div_div by (try apply N.pow_nonzero; discriminate). f_equal. lia.
Qed.
Lemma to_byte_div : forall n k v, n = k + (n - k) -> to_byte n v = to_byte (n - k) (v / 256 ^ N.of_nat k)%N ++ to_byte k v.
Proof.
  intros n k. revert n. induction k; intros n v H.
  - rewrite Nat.sub_0_r. change (N.of_nat 0) with 0%N. rewrite N.pow_0_r, N.div_1_r. cbn [to_byte]. now rewrite app_nil_r.
  - destruct n as [|n]; [lia|]. cbn [to_byte]. rewrite (IHk n (v / 256)%N) by lia.
    rewrite <- app_assoc. replace (S n - S k) with (n - k) by lia. f_equal.
    rewrite Nat2N.inj_succ, N.pow_succ_r'. rewrite N.div_div by (try apply N.pow_nonzero; discriminate). reflexivity.
Qed.
Lemma rs_to_byte_eq : forall out v n, 1 <= n <= length out -> rs_to_byte out v n = ROk (to_byte n v ++ skipn n out).
Proof.
  intros out v n Hn. unfold rs_to_byte. rewrite (proj2 (Nat.eqb_neq n 0)) by lia.
  destruct (rfor_inv _ (fun k '(o, i) => o = firstn (n - k) out ++ to_byte k v ++ skipn n out /\ i = (v / 256 ^ N.of_nat k)%N)
    (fun k '(out0, input) => out1 <~ rset out0 (n - 1 - k) (N.land input 255) ;; ROk (out1, N.shiftr input 8)) n (out, v)) as [[o i] [E [E1 E2]]].
  - split; [rewrite Nat.sub_0_r; cbn [to_byte app]; now rewrite firstn_skipn|]. change (N.of_nat 0) with 0%N. now rewrite N.pow_0_r, N.div_1_r.
  - intros k [o i] Hk [-> ->].
    assert (L1 : length (firstn (n - k) out) = n - k) by (rewrite firstn_length; lia).
    rewrite rset_ok by (rewrite app_length, L1; lia). cbn [rbind]. eexists. split; [reflexivity|]. split.
    + rewrite firstn_app, L1. replace (n - 1 - k - (n - k)) with 0 by lia. cbn [firstn]. rewrite app_nil_r.
      rewrite firstn_firstn. replace (min (n - 1 - k) (n - k)) with (n - S k) by lia. f_equal.
      replace (S (n - 1 - k)) with (n - k) by lia. rewrite skipn_app_at by auto.
      rewrite (to_byte_div (S k) k) by lia. replace (S k - k) with 1 by lia. cbn [to_byte app].
      change 255%N with (N.ones 8). rewrite N.land_ones. reflexivity.
    + rewrite N.shiftr_div_pow2. change (2 ^ 8)%N with 256%N. rewrite Nat2N.inj_succ, N.pow_succ_r'.
      rewrite N.div_div by (try apply N.pow_nonzero; discriminate). f_equal. lia.
  - rewrite E. cbn [rbind]. now rewrite E1, Nat.sub_diag.
Qed.

Lemma rs_addr_to_byte_eq : forall out a, length out = 32 -> rs_addr_to_byte out a = ROk (addr_to_byte a).
Proof.
  intros out a Ho. unfold rs_addr_to_byte.
  destruct (rfor_inv _ (fun i b => b = concat (map (to_byte 4) (firstn i (words_of a))) ++ skipn (4 * i) out)
    (fun i bytes => w <~ rget (words_of a) i ;; rwith (i * 4) (length bytes) bytes (fun b => rs_to_byte b w 4)) 8 out) as [b [E E1]].
  - cbn [firstn map concat app mult]. now destruct out.
  - intros i b Hi ->. set (pre := concat (map (to_byte 4) (firstn i (words_of a)))).
    assert (LP : length pre = i * 4). { unfold pre. rewrite concat_to_byte4_length, firstn_length. cbn [words_of length]. lia. }
    assert (LA : length (pre ++ skipn (4 * i) out) = 32). { rewrite app_length, LP, skipn_length. lia. }
    rewrite (rget_nth _ _ _ 0%N) by (cbn [words_of length]; lia). cbn [rbind].
    erewrite (rwith_tail _ (i * 4)); [|lia|rewrite skipn_app_at by auto; apply rs_to_byte_eq; rewrite skipn_length; lia].
    eexists. split; [reflexivity|]. rewrite firstn_app_at by auto.
    rewrite (firstn_S_nth_error _ (words_of a) i (nth i (words_of a) 0%N)) by (apply nth_error_nth'; cbn [words_of length]; lia).
    rewrite map_app, concat_app. fold pre. cbn [map concat]. rewrite app_nil_r, <- app_assoc. do 2 f_equal.
    rewrite skipn_skipn_add. f_equal. lia.
  - rewrite E, E1. f_equal. rewrite skipn_all2 by lia. unfold addr_to_byte. cbn [words_of firstn map concat]. now rewrite !app_nil_r.
Qed.
Lemma addr_to_byte_length : forall a, length (addr_to_byte a) = 32.
Proof. intros. unfold addr_to_byte. rewrite !app_length, !to_byte_length. reflexivity. Qed.

(** ** core_hash *)

(** The bytes that are effectively hashed. *)
Definition eff (hf : hashfn) (x : list N) : list N :=
  match hf with SHA2_256 => x | SHAKE_128 => rs_wrap 168 x | SHAKE_256 => rs_wrap 136 x end.
(** Longest input of the hash function that does not panic, plus one. *)
Definition hash_limit (hf : hashfn) (n : nat) : Prop :=
  match hf with SHA2_256 => True | SHAKE_128 => n < 336 | SHAKE_256 => n < 272 end.
Definition hash32 (hf : hashfn) (x : list N) : list N :=
  match hf with SHA2_256 => sha256 x | SHAKE_128 => shake128 32 x | SHAKE_256 => shake256 32 x end.
Lemma core_hash_hash32 : forall hf t k m, core_hash hf t k m = hash32 hf (to_byte 32 t ++ k ++ m).
Proof. reflexivity. Qed.
Lemma hash32_length : forall hf x, length (hash32 hf x) = 32.
Proof. intros [] x; cbn [hash32]; [apply sha256_length|apply shake128_length|apply shake256_length]. Qed.
Lemma core_hash_length : forall hf t k m, length (core_hash hf t k m) = 32.
Proof. intros. rewrite core_hash_hash32. apply hash32_length. Qed.
Lemma eff_short : forall hf x, length x < 136 -> eff hf x = x.
Proof.
  intros [] x H; cbn [eff]; auto; unfold rs_wrap.
  - now rewrite (proj2 (Nat.ltb_lt (length x) 168)) by lia.
  - now rewrite (proj2 (Nat.ltb_lt (length x) 136)) by lia.
Qed.

Transparent shake128 shake256.
Lemma shake128_unfold : forall n m, shake128 n m = shake 168 n m. Proof. intros. unfold shake128. reflexivity. Qed.
Lemma shake256_unfold : forall n m, shake256 n m = shake 136 n m. Proof. intros. unfold shake256. reflexivity. Qed.
Global Opaque shake128 shake256 shake.

Lemma rs_core_hash_gen : forall hf out t key keylen inp inlen,
  keylen <= length key -> inlen <= length inp -> 32 <= length out ->
  (N.of_nat (inlen + 32 + keylen) < 2 ^ 32)%N -> 
  rs_core_hash hf out t key keylen inp inlen =
  let x := to_byte 32 t ++ firstn keylen key ++ firstn inlen inp in
  match hf with
  | SHAKE_128 => rs_shake 168 out 32 x (length x)
  | SHAKE_256 => rs_shake 136 out 32 x (length x)
  | SHA2_256 => ROk (sha256 x ++ skipn 32 out)
  end.
Proof.
  intros hf out t key keylen inp inlen Hk Hi Ho Hb. unfold rs_core_hash.
  destruct (2 ^ 32 <=? N.of_nat (inlen + 32 + keylen))%N eqn:E; [apply N.leb_le in E; lia|]. clear E Hb.
  set (z := repeat 0%N (inlen + 32 + keylen)). assert (Lz : length z = inlen + 32 + keylen) by apply repeat_length.
  rewrite rs_to_byte_eq by lia. cbn [rbind].
  assert (L1 : length (to_byte 32 t) = 32) by apply to_byte_length.
  set (tb := to_byte 32 t) in *. clearbody tb.
  assert (Lk : length (firstn keylen key) = keylen) by (rewrite firstn_length; lia).
  assert (Li : length (firstn inlen inp) = inlen) by (rewrite firstn_length; lia).
  rewrite rcopy_loop_ok; [|lia|rewrite app_length, skipn_length; lia]. cbn [rbind].
  change (skipn 0 key) with key.
  rewrite firstn_app_at by auto.
  rewrite <- (skipn_skipn_add _ keylen 32). rewrite skipn_app_at by auto. rewrite skipn_skipn_add.
  rewrite rcopy_loop_ok; [|lia|rewrite !app_length, skipn_length; lia]. cbn [rbind].
  change (skipn 0 inp) with inp.
  set (kk := firstn keylen key) in *. set (ii := firstn inlen inp) in *. clearbody kk ii.
  assert (EA : forall y, tb ++ kk ++ y = (tb ++ kk) ++ y) by (intros; apply app_assoc).
  assert (LA : length (tb ++ kk) = keylen + 32) by (rewrite app_length; lia).
  rewrite (EA (skipn (32 + keylen) z)). rewrite firstn_app_at by auto.
  rewrite <- (skipn_skipn_add _ inlen (keylen + 32)). rewrite skipn_app_at by auto.
  rewrite skipn_skipn_add. rewrite (skipn_all2 z) by lia. rewrite app_nil_r, <- EA.
  set (x := tb ++ kk ++ ii).
  assert (Lx : length x = inlen + keylen + 32) by (unfold x; rewrite !app_length; lia).
  cbv zeta. rewrite Lx. destruct hf; try reflexivity.
  rewrite sha256_length.
  erewrite (rwith_ok _ 0 32 out); [|lia|lia|apply rcopy_ok; rewrite sha256_length, Nat.sub_0_r; change (skipn 0 out) with out; rewrite firstn_length; lia].
  reflexivity.
Qed.

Lemma rs_core_hash_eq : forall hf out t key keylen inp inlen,
  keylen <= length key -> inlen <= length inp -> 32 <= length out ->
  (N.of_nat (inlen + 32 + keylen) < 2 ^ 32)%N -> hash_limit hf (32 + keylen + inlen) ->
  rs_core_hash hf out t key keylen inp inlen =
    ROk (hash32 hf (eff hf (to_byte 32 t ++ firstn keylen key ++ firstn inlen inp)) ++ skipn 32 out).
Proof.
  intros hf out t key keylen inp inlen Hk Hi Ho Hb Hl. rewrite rs_core_hash_gen by auto. cbv zeta.
  assert (Lx : length (to_byte 32 t ++ firstn keylen key ++ firstn inlen inp) = 32 + keylen + inlen).
  { rewrite !app_length, to_byte_length, !firstn_length. lia. }
  set (x := to_byte 32 t ++ firstn keylen key ++ firstn inlen inp) in *. clearbody x.
  destruct hf; cbn [hash32 eff hash_limit] in *; auto.
  - rewrite shake128_unfold. apply rs_shake_eq; auto; lia.
  - rewrite shake256_unfold. apply rs_shake_eq; auto; lia.
Qed.
Lemma rs_core_hash_panic : forall hf out t key keylen inp inlen,
  keylen <= length key -> inlen <= length inp -> 32 <= length out ->
  ~ hash_limit hf (32 + keylen + inlen) ->
  rs_core_hash hf out t key keylen inp inlen = RPanic.
Proof.
  intros hf out t key keylen inp inlen Hk Hi Ho Hl.
  destruct (N.lt_ge_cases (N.of_nat (inlen + 32 + keylen)) (2 ^ 32)) as [H|H].
  2:{ unfold rs_core_hash. apply N.leb_le in H. now rewrite H. }
  rewrite rs_core_hash_gen by auto. cbv zeta.
  assert (Lx : length (to_byte 32 t ++ firstn keylen key ++ firstn inlen inp) = 32 + keylen + inlen).
  { rewrite !app_length, to_byte_length, !firstn_length. lia. }
  set (x := to_byte 32 t ++ firstn keylen key ++ firstn inlen inp) in *. clearbody x.
  destruct hf; cbn [hash_limit] in Hl; [tauto| |]; apply rs_shake_panic; auto; lia.
Qed.

(** Short inputs: exactly the C++ function. *)
Lemma hash_limit_short : forall hf n, n < 136 -> hash_limit hf n.
Proof. intros [] n H; cbn [hash_limit]; auto; lia. Qed.
Lemma rs_core_hash_short : forall hf out t key inp n k,
  k <= length key -> n <= length inp -> 32 <= length out -> n + k < 104 ->
  rs_core_hash hf out t key k inp n = ROk (core_hash hf t (firstn k key) (firstn n inp) ++ skipn 32 out).
Proof.
  intros. rewrite rs_core_hash_eq; auto; try lia.
  - rewrite eff_short; [reflexivity|]. rewrite !app_length, to_byte_length, !firstn_length. lia.
  - apply hash_limit_short. lia.
Qed.
Lemma rs_prf_eq : forall hf out inp key, 32 <= length key -> 32 <= length inp -> 32 <= length out ->
  rs_prf hf out inp key = ROk (prf hf (firstn 32 inp) (firstn 32 key) ++ skipn 32 out).
Proof. intros. unfold rs_prf, prf. now apply rs_core_hash_short; try lia. Qed.
Lemma prf_length : forall hf i k, length (prf hf i k) = 32.
Proof. intros. apply core_hash_length. Qed.

Lemma xor_bytes_snoc : forall a b x y, length a = length b -> xor_bytes (a ++ [x]) (b ++ [y]) = xor_bytes a b ++ [N.lxor x y].
Proof.
  unfold xor_bytes. induction a; intros [|b0 b] x y H; cbn in H; try discriminate; auto.
  cbn [app combine map]. f_equal. apply IHa. lia.
Qed.
Lemma rs_xor_loop_eq : forall n inp mask buf, n <= length inp -> n <= length mask -> length buf = n ->
  rs_xor_loop n inp mask buf = ROk (xor_bytes (firstn n inp) (firstn n mask)).
Proof.
  intros n inp mask buf H1 H2 H3. unfold rs_xor_loop.
  destruct (rfor_inv _ (fun i b => b = xor_bytes (firstn i inp) (firstn i mask) ++ skipn i buf)
    (fun i buf => x <~ rget inp i ;; y <~ rget mask i ;; rset buf i (N.lxor x y)) n buf) as [b [E E1]].
  - reflexivity.
  - intros i b Hi ->. rewrite (rget_nth _ inp _ 0%N), (rget_nth _ mask _ 0%N) by lia. cbn [rbind].
    assert (L : length (xor_bytes (firstn i inp) (firstn i mask)) = i) by (rewrite xor_bytes_length, !firstn_length; lia).
    rewrite rset_ok by (rewrite app_length, skipn_length; lia). eexists. split; [reflexivity|].
    rewrite firstn_app_at by auto.
    rewrite (firstn_S_nth_error _ inp i (nth i inp 0%N)) by (apply nth_error_nth'; lia).
    rewrite (firstn_S_nth_error _ mask i (nth i mask 0%N)) by (apply nth_error_nth'; lia).
    rewrite xor_bytes_snoc by (rewrite !firstn_length; lia). rewrite <- app_assoc. f_equal. cbn [app]. f_equal.
    replace (S i) with (i + 1) by lia. rewrite <- !skipn_skipn_add. now rewrite skipn_app_at.
  - rewrite E, E1. rewrite skipn_all2 by lia. now rewrite app_nil_r.
Qed.

Lemma rs_hash_h_eq : forall hf out inp ps a, 64 <= length inp -> 32 <= length ps -> 32 <= length out ->
  rs_hash_h hf out inp ps a =
  ROk (fst (hash_h hf (firstn 64 inp) (firstn 32 ps) a) ++ skipn 32 out, snd (hash_h hf (firstn 64 inp) (firstn 32 ps) a)).
Proof.
  intros hf out inp ps a Hi Hp Ho. unfold rs_hash_h. cpp_adrs.
  rewrite rs_addr_to_byte_eq by apply repeat_length. cbn [rbind].
  assert (F : forall b, firstn 32 (addr_to_byte b) = addr_to_byte b) by (intros; apply firstn_all2; rewrite addr_to_byte_length; lia).
  rewrite rs_prf_eq by (rewrite ?addr_to_byte_length, ?repeat_length; lia). cbn [rbind]. rewrite F.
  rewrite (skipn_all2 (repeat 0%N 32)) by (rewrite repeat_length; lia). rewrite app_nil_r.
  rewrite rs_addr_to_byte_eq by apply addr_to_byte_length. cbn [rbind].
  rewrite rs_prf_eq by (rewrite ?addr_to_byte_length, ?repeat_length; lia). cbn [rbind]. rewrite F.
  rewrite rs_addr_to_byte_eq by apply addr_to_byte_length. cbn [rbind].
  set (a1 := setKeyAndMask a 0). set (a2 := setKeyAndMask a1 1). set (a3 := setKeyAndMask a2 2).
  set (k := prf hf (addr_to_byte a1) (firstn 32 ps)). set (m0 := prf hf (addr_to_byte a2) (firstn 32 ps)).
  set (m1 := prf hf (addr_to_byte a3) (firstn 32 ps)).
  assert (Lk : length k = 32) by apply prf_length. assert (L0 : length m0 = 32) by apply prf_length. assert (L1 : length m1 = 32) by apply prf_length.
  assert (LS : length (skipn 32 (repeat 0%N 64)) = 32) by (rewrite skipn_length, repeat_length; lia).
  assert (E2 : rwith 32 (length (m0 ++ skipn 32 (repeat 0%N 64))) (m0 ++ skipn 32 (repeat 0%N 64)) (fun o => rs_prf hf o (addr_to_byte a3) ps) = ROk (m0 ++ m1)).
  { rewrite (rwith_tail _ 32 _ _ m1).
    - now rewrite firstn_app_at by auto.
    - rewrite app_length. lia.
    - rewrite skipn_app_at by auto. rewrite rs_prf_eq by (rewrite ?addr_to_byte_length; lia). rewrite F.
      rewrite (skipn_all2 (skipn 32 _)) by lia. now rewrite app_nil_r. }
  rewrite E2. cbn [rbind].
  rewrite rs_xor_loop_eq by (rewrite ?app_length, ?repeat_length; lia). cbn [rbind].
  rewrite (firstn_all2 (m0 ++ m1)) by (rewrite app_length; lia).
  set (buf := xor_bytes (firstn 64 inp) (m0 ++ m1)).
  assert (Lb : length buf = 64) by (unfold buf; rewrite xor_bytes_length, app_length, firstn_length; lia).
  rewrite rs_core_hash_short by lia. cbn [rbind].
  rewrite (firstn_all2 k), (firstn_all2 buf) by lia. reflexivity.
Qed.
Lemma hash_h_length : forall hf i ps a, length (fst (hash_h hf i ps a)) = 32.
Proof. intros. unfold hash_h. cbn [fst]. apply core_hash_length. Qed.

Lemma rs_hash_f_eq : forall hf out inp ps a, 32 <= length inp -> 32 <= length ps -> 32 <= length out ->
  rs_hash_f hf out inp ps a =
  ROk (fst (hash_f hf (firstn 32 inp) (firstn 32 ps) a) ++ skipn 32 out, snd (hash_f hf (firstn 32 inp) (firstn 32 ps) a)).
Proof.
  intros hf out inp ps a Hi Hp Ho. unfold rs_hash_f. cpp_adrs.
  rewrite rs_addr_to_byte_eq by apply repeat_length. cbn [rbind].
  assert (F : forall b, firstn 32 (addr_to_byte b) = addr_to_byte b) by (intros; apply firstn_all2; rewrite addr_to_byte_length; lia).
  rewrite rs_prf_eq by (rewrite ?addr_to_byte_length, ?repeat_length; lia). cbn [rbind]. rewrite F.
  rewrite (skipn_all2 (repeat 0%N 32)) by (rewrite repeat_length; lia). rewrite app_nil_r.
  rewrite rs_addr_to_byte_eq by apply addr_to_byte_length. cbn [rbind].
  rewrite rs_prf_eq by (rewrite ?addr_to_byte_length, ?repeat_length; lia). cbn [rbind]. rewrite F.
  rewrite (skipn_all2 (repeat 0%N 32)) by (rewrite repeat_length; lia). rewrite app_nil_r.
  set (a1 := setKeyAndMask a 0). set (a2 := setKeyAndMask a1 1).
  set (k := prf hf (addr_to_byte a1) (firstn 32 ps)). set (m0 := prf hf (addr_to_byte a2) (firstn 32 ps)).
  assert (Lk : length k = 32) by apply prf_length. assert (L0 : length m0 = 32) by apply prf_length.
  rewrite rs_xor_loop_eq by (rewrite ?repeat_length; lia). cbn [rbind]. rewrite (firstn_all2 m0) by lia.
  set (buf := xor_bytes (firstn 32 inp) m0).
  assert (Lb : length buf = 32) by (unfold buf; rewrite xor_bytes_length, firstn_length; lia).
  rewrite rs_core_hash_short by lia. cbn [rbind]. rewrite (firstn_all2 k), (firstn_all2 buf) by lia. reflexivity.
Qed.
Lemma hash_f_length : forall hf i ps a, length (fst (hash_f hf i ps a)) = 32.
Proof. intros. unfold hash_f. cbn [fst]. apply core_hash_length. Qed.

Global Opaque rs_hash_h rs_hash_f rs_prf rs_addr_to_byte rs_to_byte rs_core_hash.

(** ** Cells *)
Definition cellsok (l : list (list N)) : Prop := Forall (fun c => length c = 32) l.
Lemma flat_length : forall l, cellsok l -> length (concat l) = length l * 32.
Proof. induction 1; cbn [concat length]; auto. rewrite app_length. lia. Qed.
Lemma flat_skipn : forall i l, cellsok l -> skipn (i * 32) (concat l) = concat (skipn i l).
Proof.
  induction i; intros l H; [reflexivity|]. destruct l as [|c l]; [now rewrite !skipn_nil|].
  inversion H; subst. cbn [concat skipn mult]. rewrite <- skipn_skipn_add.
  rewrite skipn_app_at by auto. now apply IHi.
Qed.
Lemma flat_firstn : forall i l, cellsok l -> firstn (i * 32) (concat l) = concat (firstn i l).
Proof.
  induction i; intros l H; [reflexivity|]. destruct l as [|c l]; [now rewrite !firstn_nil|].
  inversion H; subst. cbn [concat firstn mult]. rewrite firstn_app. rewrite (firstn_all2 c) by lia.
  f_equal. replace (32 + i * 32 - length c) with (i * 32) by lia. now apply IHi.
Qed.
Lemma cellsok_skipn : forall i l, cellsok l -> cellsok (skipn i l).
Proof. unfold cellsok. intros. rewrite <- (firstn_skipn i l) in H. now apply Forall_app in H. Qed.
Lemma cellsok_firstn : forall i l, cellsok l -> cellsok (firstn i l).
Proof. unfold cellsok. intros. rewrite <- (firstn_skipn i l) in H. now apply Forall_app in H. Qed.
Lemma cellsok_get : forall l i c, cellsok l -> get l i = Ok c -> length c = 32.
Proof. intros l i c H E. apply get_ok in E. apply nth_error_In in E. unfold cellsok in H. rewrite Forall_forall in H. auto. Qed.
Lemma cellsok_repeat : forall c n, length c = 32 -> cellsok (repeat c n).
Proof. intros. apply Forall_forall. intros x Hx. apply repeat_spec in Hx. now subst. Qed.
Lemma upd_split : forall A (l : list A) i c, i < length l -> upd l i c = firstn i l ++ c :: skipn (S i) l.
Proof. induction l; intros [|i] c H; cbn in *; try lia; auto. f_equal. apply IHl. lia. Qed.
Lemma set_split : forall A (l l' : list A) i c, set l i c = Ok l' -> i < length l /\ l' = upd l i c.
Proof. unfold set. intros A l l' i c H. destruct (i <? length l) eqn:E; [|discriminate]. apply Nat.ltb_lt in E. split; congruence. Qed.
Lemma cellsok_upd : forall l i c, cellsok l -> length c = 32 -> cellsok (upd l i c).
Proof. unfold cellsok. induction l; intros [|i] c H Hc; cbn [upd]; auto; inversion H; subst; constructor; auto. Qed.
Lemma get_lt : forall A (l : list A) i c, get l i = Ok c -> i < length l.
Proof. intros A l i c H. apply get_ok in H. apply nth_error_Some. congruence. Qed.
Lemma get_skipn_cons : forall A (l : list A) i c, get l i = Ok c -> skipn i l = c :: skipn (S i) l.
Proof.
  intros A l i c H. apply get_ok in H. revert i H. induction l; intros [|i] H; cbn in H; try discriminate.
  - now injection H as ->.
  - cbn [skipn]. now apply IHl.
Qed.
Lemma rget_get : forall A (l : list A) i c, get l i = Ok c -> rget l i = ROk c.
Proof. intros A l i c H. apply get_ok in H. unfold rget. now rewrite H. Qed.
Lemma rset_set : forall A (l l' : list A) i c, set l i c = Ok l' -> rset l i c = ROk l'.
Proof. intros A l l' i c H. apply set_split in H. destruct H as [H ->]. rewrite rset_ok by auto. now rewrite upd_split. Qed.

(** Reading a cell. *)
Lemma rslice_cell : forall l i c, cellsok l -> get l i = Ok c -> rslice (i * 32) (i * 32 + 32) (concat l) = ROk c.
Proof.
  intros l i c H G. pose proof (get_lt _ _ _ _ G). pose proof (cellsok_get _ _ _ H G) as Lc.
  rewrite rslice_ok by (rewrite ?flat_length by auto; lia).
  rewrite flat_skipn by auto. rewrite (get_skipn_cons _ _ _ _ G). cbn [concat].
  replace (i * 32 + 32 - i * 32) with 32 by lia. now rewrite firstn_app_at.
Qed.
(** The tail from a cell on. *)
Lemma rslice_cells : forall l i, cellsok l -> i <= length l ->
  rslice (i * 32) (length (concat l)) (concat l) = ROk (concat (skipn i l)).
Proof. intros. rewrite rslice_tail by (rewrite flat_length by auto; lia). now rewrite flat_skipn. Qed.
Lemma tail_two : forall l i a b, cellsok l -> get l i = Ok a -> get l (S i) = Ok b ->
  firstn 64 (concat (skipn i l)) = a ++ b /\ 64 <= length (concat (skipn i l)).
Proof.
  intros l i a b H Ga Gb. rewrite (get_skipn_cons _ _ _ _ Ga), (get_skipn_cons _ _ _ _ Gb). cbn [concat].
  pose proof (cellsok_get _ _ _ H Ga). pose proof (cellsok_get _ _ _ H Gb).
  split; [rewrite app_assoc; apply firstn_app_at|rewrite !app_length]; try rewrite app_length; lia.
Qed.
(** Writing a cell. *)
Lemma flat_upd : forall l i c, cellsok l -> i < length l ->
  concat (upd l i c) = firstn (i * 32) (concat l) ++ c ++ skipn (i * 32 + 32) (concat l).
Proof.
  intros. rewrite upd_split by auto. rewrite concat_app. cbn [concat].
  rewrite flat_firstn by auto. replace (i * 32 + 32) with (S i * 32) by lia. now rewrite flat_skipn.
Qed.
Lemma rwith_copy_cell : forall l l' i c, cellsok l -> length c = 32 -> set l i c = Ok l' ->
  rwith (i * 32) (i * 32 + 32) (concat l) (fun d => rcopy c d) = ROk (concat l').
Proof.
  intros l l' i c H Hc S. apply set_split in S. destruct S as [S ->]. pose proof (flat_length l H).
  rewrite (rwith_ok _ _ _ _ _ c); [|lia|lia|].
  - now rewrite flat_upd.
  - apply rcopy_ok. rewrite firstn_length, skipn_length. lia.
Qed.
