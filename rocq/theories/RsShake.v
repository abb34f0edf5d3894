(** What the Rust SHAKE128/SHAKE256 compute, in terms of the C++ ones. *)
From Coq Require Import List NArith Arith Lia Bool.
From Verif Require Import Base Bytes Keccak KeccakLemmas RsBase RsKeccak.
Import ListNotations.
Open Scope nat_scope.

Lemma rs_two_rounds_eq : forall rc0 rc1 s, rs_two_rounds rc0 rc1 s = keccak_two_rounds rc0 rc1 s.
Proof. intros. unfold rs_two_rounds, keccak_two_rounds. reflexivity. Qed.
Lemma rs_permute_eq : forall s, rs_permute s = KeccakF1600_StatePermute s.
Proof.
  intros s. unfold rs_permute, KeccakF1600_StatePermute. change KeccakF_RoundConstants with RS_ROUND_CONSTANTS.
  assert (G : forall k rcs t, length rcs <= k -> rs_rounds rcs t = keccak_rounds rcs t).
  { induction k; intros rcs t H; destruct rcs as [|a [|b rcs]]; cbn in H; try lia; try reflexivity. }
  apply (G (length RS_ROUND_CONSTANTS)). lia.
Qed.
Lemma rs_permute_length : forall s, length s = 25 -> length (rs_permute s) = 25.
Proof. intros. rewrite rs_permute_eq. now apply permute_length. Qed.
Global Opaque rs_permute.

(** ** Lanes *)
Lemma skipn_skipn_add : forall (A : Type) a b (l : list A), skipn a (skipn b l) = skipn (b + a) l.
Proof. induction b; intros l; [reflexivity|]. destruct l; [now rewrite !skipn_nil|]. cbn [skipn plus]. apply IHb. Qed.

Lemma xor_lanes_S : forall k s m, k < length s ->
  xor_lanes (S k) s m = firstn k (xor_lanes k s m) ++ N.lxor (nth k (xor_lanes k s m) 0%N) (load64 (skipn (8 * k) m)) :: skipn (S k) (xor_lanes k s m).
Proof.
  induction k; intros s m H.
  - destruct s as [|w s]; [cbn in H; lia|]. rewrite Nat.mul_0_r. reflexivity.
  - destruct s as [|w s]; [cbn in H; lia|]. cbn [length] in H.
    change (xor_lanes (S (S k)) (w :: s) m) with (N.lxor w (load64 m) :: xor_lanes (S k) s (skipn 8 m)).
    rewrite IHk by lia. cbn [xor_lanes firstn nth]. 
    replace (8 * S k) with (8 + 8 * k) by lia. rewrite skipn_skipn_add.
    cbn [skipn app]. reflexivity.
Qed.

Lemma rs_xor_lanes_eq : forall k s m, k <= length s -> 8 * k <= length m ->
  rs_xor_lanes k s m = ROk (xor_lanes k s m).
Proof.
  intros k s m Hs Hm. unfold rs_xor_lanes.
  destruct (rfor_inv _ (fun i t => t = xor_lanes i s m)
    (fun i s => x <~ rslice (8 * i) (length m) m ;; w <~ rs_load64 x ;; a <~ rget s i ;; rset s i (N.lxor a w)) k s) as [s' [E1 E2]].
  - now destruct s.
  - intros i t Hi ->. rewrite rslice_tail by lia. cbn [rbind]. unfold rs_load64.
    rewrite skipn_length. rewrite (proj2 (Nat.leb_le 8 _)) by lia. cbn [rbind].
    rewrite (rget_nth _ _ _ 0%N) by (rewrite xor_lanes_length; lia). cbn [rbind].
    rewrite rset_ok by (rewrite xor_lanes_length; lia). eexists. split; [reflexivity|].
    rewrite xor_lanes_S by lia. reflexivity.
  - rewrite E1. now rewrite E2.
Qed.

Lemma xor_lanes_prefix : forall k s a b, 8 * k <= length a -> xor_lanes k s (a ++ b) = xor_lanes k s a.
Proof.
  induction k; intros s a b H; [reflexivity|]. destruct s; [reflexivity|]. cbn [xor_lanes].
  assert (E : skipn 8 (a ++ b) = skipn 8 a ++ b).
  { rewrite skipn_app. replace (8 - length a) with 0 by lia. reflexivity. }
  rewrite E, IHk by (rewrite skipn_length; lia). f_equal. unfold load64. do 2 f_equal.
  rewrite firstn_app. replace (8 - length a) with 0 by lia. cbn [firstn]. apply app_nil_r.
Qed.

(** ** Absorbing *)

(** The byte string the Rust absorb phase effectively absorbs. *)
Definition rs_wrap (r : nat) (m : list N) : list N :=
  if length m <? r then m else firstn r m ++ firstn (length m - r) m.

Lemma firstn_app_at : forall (A : Type) n (a b : list A), length a = n -> firstn n (a ++ b) = a.
Proof. intros. subst. rewrite firstn_app, Nat.sub_diag, firstn_all. cbn [firstn]. apply app_nil_r. Qed.
Lemma skipn_app_at : forall (A : Type) n (a b : list A), length a = n -> skipn n (a ++ b) = b.
Proof. intros. subst. rewrite skipn_app, Nat.sub_diag, skipn_all. reflexivity. Qed.

Lemma rs_pad_eq : forall r m mlen s, r = 168 \/ r = 136 -> mlen < r -> mlen <= length m -> length s = 25 ->
  (t <~ rcopy_loop mlen m 0 (repeat 0%N 200) 0 ;;
   t <~ rset t mlen 31%N ;;
   b <~ rget t (r - 1) ;;
   t <~ rset t (r - 1) (N.lor b 128) ;;
   rs_xor_lanes (r / 8) s t) = ROk (xor_lanes (r / 8) s (last_block r (firstn mlen m) 31)).
Proof.
  intros r m mlen s Hr Hl Hm Hs.
  assert (R0 : 1 <= r /\ r <= 200 /\ 8 * (r / 8) = r /\ r / 8 <= 25) by (destruct Hr; subst; cbn; lia).
  destruct R0 as (R1 & R2 & R3 & R4).
  rewrite rcopy_loop_ok by (rewrite ?repeat_length; lia). cbn [firstn app rbind].
  change (skipn 0 m) with m. set (mm := firstn mlen m). assert (Lm : length mm = mlen) by (apply firstn_length_le; lia).
  clearbody mm.
  assert (Sk : forall k n, skipn k (repeat 0%N n) = repeat 0%N (n - k)).
  { induction k; intros n; [now rewrite Nat.sub_0_r|]. destruct n; [reflexivity|]. cbn [repeat skipn]. now rewrite IHk. }
  rewrite Sk. replace (200 - (0 + mlen)) with (S (199 - mlen)) by lia. cbn [repeat].
  rewrite rset_ok by (rewrite app_length; cbn [length]; rewrite repeat_length; lia). cbn [rbind].
  rewrite firstn_app_at by auto.
  replace (skipn (S mlen) (mm ++ 0%N :: repeat 0%N (199 - mlen))) with (repeat 0%N (199 - mlen)).
  2:{ change (mm ++ 0%N :: repeat 0%N (199 - mlen)) with (mm ++ [0%N] ++ repeat 0%N (199 - mlen)). rewrite app_assoc.
      rewrite skipn_app_at; [reflexivity|]. rewrite app_length. cbn. lia. }
  unfold last_block.
  set (T := mm ++ 31%N :: repeat 0%N (r - 1 - length mm)).
  assert (LT : length T = r) by (unfold T; rewrite app_length; cbn [length]; rewrite repeat_length; lia).
  assert (ET : mm ++ 31%N :: repeat 0%N (199 - mlen) = T ++ repeat 0%N (200 - r)).
  { unfold T. rewrite <- app_assoc. cbn [app]. do 2 f_equal. rewrite <- repeat_app. f_equal. lia. }
  rewrite ET. clearbody T. clear ET.
  rewrite (rget_nth _ _ _ 0%N) by (rewrite app_length, repeat_length; lia). cbn [rbind].
  rewrite app_nth1 by lia.
  rewrite rset_ok by (rewrite app_length, repeat_length; lia). cbn [rbind].
  set (v := N.lor (nth (r - 1) T 0%N) 128). clearbody v.
  rewrite rs_xor_lanes_eq.
  - f_equal.
    assert (EU : firstn (r - 1) (T ++ repeat 0%N (200 - r)) ++ v :: skipn (S (r - 1)) (T ++ repeat 0%N (200 - r)) = upd T (r - 1) v ++ repeat 0%N (200 - r)).
    { replace (S (r - 1)) with r by lia. rewrite skipn_app_at by auto. rewrite firstn_app. replace (r - 1 - length T) with 0 by lia. cbn [firstn].
      rewrite app_nil_r. change (v :: repeat 0%N (200 - r)) with ([v] ++ repeat 0%N (200 - r)). rewrite app_assoc. f_equal.
      clear - LT R1. destruct r as [|r]; [lia|]. replace (S r - 1) with r by lia. revert r LT R1. induction T as [|a T IH]; intros r LT R1; cbn in LT; [lia|].
      destruct r; [destruct T; [reflexivity|cbn in LT; lia]|]. cbn [firstn upd app]. f_equal. apply IH; lia. }
    rewrite EU. apply xor_lanes_prefix. rewrite upd_length. lia.
  - lia.
  - rewrite app_length. cbn [length]. rewrite firstn_length, skipn_length, app_length, repeat_length. lia.
Qed.

Lemma rs_absorb_eq : forall r m s, r = 168 \/ r = 136 -> length m < 2 * r -> length s = 25 ->
  rs_absorb s r m (length m) 31 = ROk (keccak_absorb (length (rs_wrap r m)) s r (rs_wrap r m) 31).
Proof.
  intros r m s Hr Hl Hs.
  assert (R0 : 1 <= r /\ r <= 200 /\ 8 * (r / 8) = r /\ r / 8 <= 25) by (destruct Hr; subst; cbn; lia).
  destruct R0 as (R1 & R2 & R3 & R4). unfold rs_absorb, rs_wrap.
  destruct (length m <? r) eqn:E.
  - cbn [rs_absorb_while]. rewrite E. cbn [rbind]. apply Nat.ltb_lt in E.
    rewrite rs_pad_eq by auto. f_equal. rewrite firstn_all.
    destruct (length m) eqn:EL; cbn [keccak_absorb]; [reflexivity|]. rewrite EL, (proj2 (Nat.leb_gt r (S n))) by lia. reflexivity.
  - apply Nat.ltb_ge in E. cbn [rs_absorb_while]. rewrite (proj2 (Nat.ltb_ge _ _) E).
    rewrite rs_xor_lanes_eq by lia. cbn [rbind]. rewrite rslice_tail by lia. cbn [rbind].
    destruct (length m) as [|k] eqn:EL; [lia|]. rewrite <- EL in *.
    assert (EW : rs_absorb_while (S k) (rs_permute (xor_lanes (r / 8) s m)) r m (skipn r m) (length m - r)
                 = ROk (rs_permute (xor_lanes (r / 8) s m), length m - r)).
    { cbn [rs_absorb_while]. now rewrite (proj2 (Nat.ltb_lt (length m - r) r)) by lia. }
    replace (length m) with (S k) at 1. rewrite EW. cbn [rbind].
    rewrite rs_pad_eq; [|auto|lia|lia|rewrite rs_permute_length; auto; now rewrite xor_lanes_length].
    rewrite rs_permute_eq. f_equal. 
    assert (LW : length (firstn r m ++ firstn (length m - r) m) = length m) by (rewrite app_length, !firstn_length; lia).
    rewrite LW. replace (length m) with (S k) at 2. cbn [keccak_absorb]. rewrite LW.
    rewrite (proj2 (Nat.leb_le r (length m))) by lia.
    rewrite skipn_app_at by (apply firstn_length_le; lia).
    rewrite xor_lanes_prefix by (rewrite firstn_length; lia).
    rewrite <- (xor_lanes_prefix (r / 8) s (firstn r m) (skipn r m)) by (rewrite firstn_length; lia). rewrite firstn_skipn.
    assert (L2 : length (firstn (length m - r) m) = length m - r) by (apply firstn_length_le; lia).
    destruct k; cbn [keccak_absorb]; [reflexivity|]. rewrite L2, (proj2 (Nat.leb_gt r (length m - r))) by lia. reflexivity.
Qed.

Lemma rs_absorb_panic : forall r m s, r = 168 \/ r = 136 -> 2 * r <= length m -> length s = 25 ->
  rs_absorb s r m (length m) 31 = RPanic.
Proof.
  intros r m s Hr Hl Hs.
  assert (R0 : 1 <= r /\ r <= 200 /\ 8 * (r / 8) = r /\ r / 8 <= 25) by (destruct Hr; subst; cbn; lia).
  destruct R0 as (R1 & R2 & R3 & R4). unfold rs_absorb. cbn [rs_absorb_while].
  rewrite (proj2 (Nat.ltb_ge (length m) r)) by lia.
  rewrite rs_xor_lanes_eq by lia. cbn [rbind]. rewrite rslice_tail by lia. cbn [rbind].
  destruct (length m) as [|k] eqn:EL; [lia|]. rewrite <- EL in *.
  replace (length m) with (S k) at 1. cbn [rs_absorb_while].
  rewrite (proj2 (Nat.ltb_ge (length m - r) r)) by lia.
  rewrite rs_xor_lanes_eq; [|rewrite rs_permute_length; [lia|now rewrite xor_lanes_length]|rewrite skipn_length; lia]. cbn [rbind].
  rewrite rslice_panic by (rewrite skipn_length; lia). reflexivity.
Qed.

(** ** Squeezing *)
Lemma rs_store_loop : forall k s h, k <= length s -> 8 * k <= length h ->
  rfor k (fun i h => a <~ rget s i ;; rwith (8 * i) (length h) h (fun x => rs_store64 x a)) h
  = ROk (concat (map store64 (firstn k s)) ++ skipn (8 * k) h).
Proof.
  intros k s h Hs Hh.
  assert (LC : forall l, length (concat (map store64 l)) = 8 * length l).
  { induction l; auto. cbn [map concat]. rewrite app_length, IHl. unfold store64. rewrite to_le_length. cbn [length]. lia. }
  destruct (rfor_inv _ (fun i t => t = concat (map store64 (firstn i s)) ++ skipn (8 * i) h)
    (fun i h => a <~ rget s i ;; rwith (8 * i) (length h) h (fun x => rs_store64 x a)) k h) as [s' [E1 E2]].
  - reflexivity.
  - intros i t Hi ->. rewrite (rget_nth _ _ _ 0%N) by lia. cbn [rbind].
    assert (L1 : length (concat (map store64 (firstn i s))) = 8 * i) by (rewrite LC, firstn_length_le; lia).
    assert (EW : rwith (8 * i) (length (concat (map store64 (firstn i s)) ++ skipn (8 * i) h)) (concat (map store64 (firstn i s)) ++ skipn (8 * i) h)
        (fun x => rs_store64 x (nth i s 0%N))
      = ROk (firstn (8 * i) (concat (map store64 (firstn i s)) ++ skipn (8 * i) h) ++ (store64 (nth i s 0%N) ++ skipn 8 (skipn (8 * i) h)))).
    { apply rwith_tail.
      - rewrite app_length, L1, skipn_length. lia.
      - rewrite skipn_app_at by auto. unfold rs_store64. rewrite (proj2 (Nat.leb_le 8 _)) by (rewrite skipn_length; lia). reflexivity. }
    rewrite EW. eexists. split; [reflexivity|]. rewrite (firstn_app_at _ (8 * i)) by auto.
    assert (EF : firstn (S i) s = firstn i s ++ [nth i s 0%N]) by (apply firstn_S_nth_error, nth_error_nth'; lia).
    rewrite EF, map_app, concat_app. cbn [map concat]. rewrite app_nil_r, <- app_assoc.
    replace (8 * S i) with (8 * i + 8) by lia. rewrite skipn_skipn_add. reflexivity.
  - rewrite E1. now rewrite E2.
Qed.

Lemma rs_squeezeblocks_eq : forall r, r = 168 \/ r = 136 -> forall n h s, length s = 25 -> n * r <= length h ->
  rs_squeezeblocks h n s r =
  ROk (fst (keccak_squeezeblocks n s r) ++ skipn (n * r) h, snd (keccak_squeezeblocks n s r)).
Proof.
  intros r Hr.
  assert (R0 : 1 <= r /\ r <= 200 /\ 8 * (r / 8) = r /\ r / 8 <= 25) by (destruct Hr; subst; cbn; lia).
  destruct R0 as (R1 & R2 & R3 & R4).
  induction n; intros h s Hs Hh; [reflexivity|].
  cbn [rs_squeezeblocks keccak_squeezeblocks]. rewrite rs_permute_eq.
  pose proof (permute_length s Hs) as Hp. set (s1 := KeccakF1600_StatePermute s) in *. clearbody s1. cbn [mult] in Hh.
  rewrite rs_store_loop by (try lia; nia). cbn [rbind]. rewrite R3.
  fold (store_lanes r s1). pose proof (store_lanes_length r s1 Hp R4) as LS. rewrite R3 in LS.
  rewrite rslice_tail by (rewrite app_length; lia). cbn [rbind]. rewrite skipn_app_at by auto.
  rewrite IHn by (auto; rewrite skipn_length; lia). cbn [rbind]. rewrite firstn_app_at by auto.
  destruct (keccak_squeezeblocks n s1 r) as [o s2]. cbn [fst snd]. rewrite skipn_skipn_add. cbn [mult]. now rewrite <- app_assoc.
Qed.

(** ** The whole function *)
Theorem rs_shake_eq : forall r out outlen m, r = 168 \/ r = 136 -> length m < 2 * r -> outlen <= length out ->
  rs_shake r out outlen m (length m) = ROk (shake r outlen (rs_wrap r m) ++ skipn outlen out).
Proof.
  intros r out outlen m Hr Hm Ho. unfold rs_shake.
  assert (R0 : 1 <= r /\ r <= 200 /\ 8 * (r / 8) = r /\ r / 8 <= 25) by (destruct Hr; subst; cbn; lia).
  destruct R0 as (R1 & R2 & R3 & R4).
  rewrite rs_absorb_eq by (auto using repeat_length). cbn [rbind]. unfold shake.
  assert (Hs : length (keccak_absorb (length (rs_wrap r m)) (repeat 0%N 25) r (rs_wrap r m) 31) = 25).
  { apply absorb_length. apply repeat_length. }
  set (s := keccak_absorb (length (rs_wrap r m)) (repeat 0%N 25) r (rs_wrap r m) 31) in *. clearbody s.
  assert (Hr0 : r <> 0) by lia. pose proof (Nat.div_mod outlen r Hr0) as DM. pose proof (Nat.mod_upper_bound outlen r Hr0) as MB.
  set (q := outlen / r) in *. set (e := outlen mod r) in *. clearbody q e.
  rewrite rs_squeezeblocks_eq by (auto; nia). cbn [rbind].
  destruct (squeeze_length q s r Hs R4) as [H1 H2]. rewrite R3 in H1.
  destruct (keccak_squeezeblocks q s r) as [o s2]. cbn [fst snd] in *.
  assert (LL : length (o ++ skipn (q * r) out) = length out) by (rewrite app_length, skipn_length; nia).
  destruct (squeeze_length 1 s2 r H2 R4) as [H3 _]. rewrite R3 in H3.
  destruct (e =? 0) eqn:E.
  - apply Nat.eqb_eq in E. subst e. cbn [Nat.ltb Nat.leb]. erewrite rwith_tail; [|nia|reflexivity].
    rewrite firstn_skipn. do 3 f_equal. lia.
  - apply Nat.eqb_neq in E. rewrite (proj2 (Nat.ltb_lt 0 e)) by lia.
    rewrite (rs_squeezeblocks_eq r Hr 1 (repeat 0%N r) s2) by (auto; rewrite repeat_length; lia).
    destruct (keccak_squeezeblocks 1 s2 r) as [d s3]. cbn [fst snd rbind] in *.
    erewrite rwith_tail; [|nia|].
    + rewrite firstn_app_at by auto. f_equal. rewrite <- app_assoc. reflexivity.
    + rewrite skipn_app_at by auto. rewrite rcopy_loop_ok.
      * cbn [firstn app]. change (skipn 0 ?x) with x. rewrite firstn_app. replace (e - length d) with 0 by lia. cbn [firstn]. rewrite app_nil_r.
        do 2 f_equal. rewrite skipn_skipn_add. f_equal. lia.
      * rewrite app_length. lia.
      * rewrite skipn_length. nia.
Qed.

Theorem rs_shake_panic : forall r out outlen m, r = 168 \/ r = 136 -> 2 * r <= length m ->
  rs_shake r out outlen m (length m) = RPanic.
Proof.
  intros r out outlen m Hr Hm. unfold rs_shake. rewrite rs_absorb_panic by (auto using repeat_length). reflexivity.
Qed.
Global Opaque rs_shake.
