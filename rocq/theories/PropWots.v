(** One-time signatures: C29 (completeness for any address) and C30 (checksum). *)
From Coq Require Import List NArith Arith Lia Bool.
From Verif Require Import Base Bytes HashAddress Wots SpecXmss SpecApi XmssRefine WotsProofs BasicProofs FastProofs VerifyProofs.
From Verif Require Export SpecTerms.
Import ListNotations.
Open Scope N_scope.

(** ** C29 *)

(** Addresses that agree on all words but the last two / three. *)
Definition same6 (a b : adrs) : Prop := a0 a = a0 b /\ a1 a = a1 b /\ a2 a = a2 b /\ a3 a = a3 b /\ a4 a = a4 b /\ a5 a = a5 b.
Definition same5 (a b : adrs) : Prop := a0 a = a0 b /\ a1 a = a1 b /\ a2 a = a2 b /\ a3 a = a3 b /\ a4 a = a4 b.

Lemma adrs_eq : forall a b, a0 a = a0 b -> a1 a = a1 b -> a2 a = a2 b -> a3 a = a3 b -> a4 a = a4 b -> a5 a = a5 b ->
  a6 a = a6 b -> a7 a = a7 b -> a = b.
Proof. intros [] []; cbn; intros; subst; reflexivity. Qed.

Lemma hash_f_same : forall hf x ps a b i, same6 a b ->
  fst (hash_f hf x ps (setHashADRS a i)) = fst (hash_f hf x ps (setHashADRS b i)) /\
  same6 (snd (hash_f hf x ps (setHashADRS a i))) b.
Proof.
  intros hf x ps a b i (E0 & E1 & E2 & E3 & E4 & E5).
  assert (K : forall v, setKeyAndMask (setHashADRS a i) v = setKeyAndMask (setHashADRS b i) v)
    by (intros; apply adrs_eq; cbn; auto).
  unfold hash_f. cbn [fst snd]. rewrite !K.
  assert (K2 : setKeyAndMask (setKeyAndMask (setHashADRS b i) 0) 1 = setKeyAndMask (setHashADRS b i) 1) by reflexivity.
  rewrite K2. split; [reflexivity|]. repeat split.
Qed.

Lemma loop_same : forall hf n i x p ps a b, same6 a b ->
  fst (gen_chain_loop hf n i x p ps a) = fst (gen_chain_loop hf n i x p ps b) /\
  same6 (snd (gen_chain_loop hf n i x p ps a)) b.
Proof.
  induction n; intros i x p ps a b S; cbn [gen_chain_loop fst snd]; auto.
  destruct (i <? w_w p); [|now split].
  destruct (hash_f_same hf x ps a b i S) as (H1 & H2).
  assert (R : same6 b b) by (repeat split). destruct (hash_f_same hf x ps b b i R) as (_ & H3).
  destruct (hash_f hf x ps (setHashADRS a i)) as [o1 c1]. destruct (hash_f hf x ps (setHashADRS b i)) as [o2 c2].
  cbn [fst snd] in *. subst o2.
  assert (S2 : same6 c1 c2). { destruct H2 as (?&?&?&?&?&?), H3 as (?&?&?&?&?&?). repeat split; congruence. }
  destruct (IHn (i + 1) o1 p ps c1 c2 S2) as (G1 & G2). split; [exact G1|].
  destruct G2 as (?&?&?&?&?&?), H3 as (?&?&?&?&?&?). repeat split; congruence.
Qed.

Lemma loop_app : forall hf m n i x p ps a, i + N.of_nat m + N.of_nat n <= w_w p ->
  fst (gen_chain_loop hf (m + n) i x p ps a) =
  fst (gen_chain_loop hf n (i + N.of_nat m) (fst (gen_chain_loop hf m i x p ps a)) p ps a).
Proof.
  induction m; intros n i x p ps a Hle; cbn [gen_chain_loop plus fst].
  - now rewrite N.add_0_r.
  - destruct (i <? w_w p) eqn:El; [|apply N.ltb_ge in El; lia].
    assert (R : same6 a a) by (repeat split). destruct (hash_f_same hf x ps a a i R) as (_ & H3).
    destruct (hash_f hf x ps (setHashADRS a i)) as [o1 c1]. cbn [snd] in H3.
    rewrite IHm by lia. replace (i + 1 + N.of_nat m) with (i + N.of_nat (S m)) by lia.
    apply loop_same. exact H3.
Qed.

(** Chain values of the three operations, cell by cell. *)
Lemma gen_chains_same : forall hf jobs i p ps a b, same5 a b ->
  fst (gen_chains hf i jobs p ps a) =
  fst (gen_chains hf i jobs p ps b).
Proof.
  induction jobs as [|[[x s] n] jobs IH]; intros i p ps a b S; cbn [gen_chains fst]; auto.
  unfold gen_chain.
  assert (S6 : same6 (setChainADRS a i) (setChainADRS b i)).
  { destruct S as (?&?&?&?&?). repeat split; cbn; auto. }
  destruct (loop_same hf (N.to_nat n) s x p ps _ _ S6) as (H1 & H2).
  assert (R : same6 (setChainADRS b i) (setChainADRS b i)) by (repeat split).
  destruct (loop_same hf (N.to_nat n) s x p ps _ _ R) as (_ & H3).
  destruct (gen_chain_loop hf (N.to_nat n) s x p ps (setChainADRS a i)) as [o1 c1].
  destruct (gen_chain_loop hf (N.to_nat n) s x p ps (setChainADRS b i)) as [o2 c2]. cbn [fst snd] in *.
  assert (S2 : same5 c1 c2). { destruct H2 as (?&?&?&?&?&?), H3 as (?&?&?&?&?&?). repeat split; congruence. }
  specialize (IH (i + 1) p ps c1 c2 S2).
  destruct (gen_chains hf (i + 1) jobs p ps c1). destruct (gen_chains hf (i + 1) jobs p ps c2). cbn [fst] in *. congruence.
Qed.

Lemma gen_chains_cons : forall hf i x s n jobs p ps a,
  fst (gen_chains hf i ((x, s, n) :: jobs) p ps a) =
  fst (gen_chain_loop hf (N.to_nat n) s x p ps (setChainADRS a i)) :: fst (gen_chains hf (i + 1) jobs p ps a).
Proof.
  intros. cbn [gen_chains]. unfold gen_chain.
  assert (R : same6 (setChainADRS a i) (setChainADRS a i)) by (repeat split).
  destruct (loop_same hf (N.to_nat n) s x p ps _ _ R) as (_ & H3).
  destruct (gen_chain_loop hf (N.to_nat n) s x p ps (setChainADRS a i)) as [o c]. cbn [fst snd] in *.
  rewrite <- (gen_chains_same hf jobs (i + 1) p ps c a) by (destruct H3 as (?&?&?&?&?&?); repeat split; auto).
  now destruct (gen_chains hf (i + 1) jobs p ps c).
Qed.

Lemma chains_compose : forall hf cs ds i p ps a, length cs = length ds -> 1 <= w_w p ->
  Forall (fun d => d <= w_w p - 1) ds ->
  fst (gen_chains hf i (map (fun cd => (fst cd, snd cd, w_w p - 1 - snd cd))
        (combine (fst (gen_chains hf i (map (fun cd => (fst cd, 0, snd cd)) (combine cs ds)) p ps a)) ds)) p ps a) =
  fst (gen_chains hf i (map (fun c => (c, 0, w_w p - 1)) cs) p ps a).
Proof.
  induction cs as [|c cs IH]; intros [|d ds] i p ps a HL Hw HF; try discriminate; auto.
  cbn [combine map]. rewrite gen_chains_cons. cbn [combine map fst snd]. rewrite !gen_chains_cons.
  inversion HF as [|? ? Hd HF']; subst. f_equal.
  - replace (N.to_nat (w_w p - 1)) with (N.to_nat d + N.to_nat (w_w p - 1 - d))%nat by lia.
    rewrite loop_app by lia. f_equal. f_equal. lia.
  - apply IH; auto.
Qed.

(** The Winternitz parameter may be any w for which floor(log2 w) is 1, 2, 4 or 8
    (the divisors of 8); the addresses are arbitrary and may differ in the words
    that the functions overwrite. *)
Theorem C29_wots_complete : forall hf w p digest sk ps a b c,
  wots_set_params w = Ok p -> (8 mod w_log_w p = 0)%nat -> length digest = 32%nat -> same5 a b -> same5 a c ->
  exists sig a' pk b', wots_sign hf digest sk p ps a = Ok (sig, a') /\ length sig = w_len p /\
    wots_pkFromSig hf sig digest p ps b = Ok (pk, b') /\
    pk = fst (wots_pkgen hf sk p ps c) /\ length pk = w_len p.
Proof.
  intros hf w p digest sk ps a b c Ep H8 HL Sab Sac.
  assert (HP : wots_ok p).
  { split; [eauto|]. unfold wots_set_params in Ep. destruct ((w =? 0) || (2 ^ 31 <=? w)); [discriminate|].
    destruct (N.to_nat (N.log2 w) =? 0)%nat eqn:E0; [discriminate|]. apply Nat.eqb_neq in E0.
    destruct (u32 _ =? 0); [discriminate|]. apply Ok_inj in Ep. subst p. cbn [w_log_w] in *.
    set (l := N.to_nat (N.log2 w)) in *. clearbody l.
    do 9 (destruct l as [|l]; [first [lia|discriminate]|]).
    rewrite Nat.mod_small in H8 by lia. discriminate. }
  destruct (wots_ok_facts p HP) as (Hw & _ & _ & _ & _).
  destruct (wots_digits_ok p digest HP HL) as (ds & Ed & Ld & Fd).
  unfold wots_sign, wots_pkFromSig, wots_pkgen. rewrite Ed. cbn [bind].
  set (cs := expand_seed hf sk (w_len p)).
  assert (Lc : length cs = length ds) by (unfold cs, expand_seed; rewrite map_length, seq_length; auto).
  assert (GL : forall jobs i a, length (fst (gen_chains hf i jobs p ps a)) = length jobs).
  { clear. induction jobs as [|[[x s] n] jobs IH]; intros; [reflexivity|]. rewrite gen_chains_cons. cbn [length]. now rewrite IH. }
  pose proof (GL (map (fun cd => (fst cd, 0, snd cd)) (combine cs ds)) 0 a) as L1.
  rewrite map_length, combine_length, Lc, Nat.min_id in L1.
  pose proof (chains_compose hf cs ds 0 p ps a Lc Hw Fd) as HC.
  destruct (gen_chains hf 0 (map (fun cd => (fst cd, 0, snd cd)) (combine cs ds)) p ps a) as [sig a'] eqn:Es. cbn [fst] in *.
  rewrite (gen_chains_same hf _ 0 p ps a b Sab) in HC. rewrite (gen_chains_same hf _ 0 p ps a c Sac) in HC.
  pose proof (GL (map (fun c0 => (c0, 0, w_w p - 1)) cs) 0 c) as L2. rewrite map_length, Lc, Ld in L2.
  destruct (gen_chains hf 0 (map (fun cd => (fst cd, snd cd, w_w p - 1 - snd cd)) (combine sig ds)) p ps b) as [pk b'] eqn:Ep2.
  cbn [fst] in *. exists sig, a', pk, b'. repeat split; auto; try congruence.
Qed.
Example C29_instance : exists p, wots_set_params 16 = Ok p /\ (8 mod w_log_w p = 0)%nat.
Proof. eexists. split; reflexivity. Qed.

(** ** C30: no digest dominates another *)

(** Value of a digit string in base [B], most significant first. *)
Definition val (B : N) (ds : list N) : N := fold_left (fun a d => a * B + d) ds 0.
Lemma Forall2_length : forall A B (R : A -> B -> Prop) l l', Forall2 R l l' -> length l = length l'.
Proof. induction 1; cbn; congruence. Qed.
Lemma val_shift : forall B l a, fold_left (fun a d => a * B + d) l a = a * B ^ N.of_nat (length l) + val B l.
Proof.
  unfold val. intros B. induction l; intros x; cbn [fold_left length].
  - cbn. lia.
  - rewrite IHl, (IHl (0 * B + a)). rewrite Nat2N.inj_succ, N.pow_succ_r'. ring.
Qed.
Lemma val_cons : forall B d l, val B (d :: l) = d * B ^ N.of_nat (length l) + val B l.
Proof. intros. unfold val at 1. cbn [fold_left]. rewrite val_shift. lia. Qed.
Lemma val_app : forall B a b, val B (a ++ b) = val B a * B ^ N.of_nat (length b) + val B b.
Proof. intros. unfold val at 1. rewrite fold_left_app. apply val_shift. Qed.
Lemma val_bound : forall B l, Forall (fun d => d < B) l -> val B l < B ^ N.of_nat (length l).
Proof.
  induction l; intros HF; [cbn; lia|]. inversion HF as [|? ? H1 H2]; subst. specialize (IHl H2).
  rewrite val_cons. cbn [length]. rewrite Nat2N.inj_succ, N.pow_succ_r'.
  pose proof (N.mul_le_mono_r (a + 1) B (B ^ N.of_nat (length l))). lia.
Qed.
Lemma val_mono : forall B a b, Forall2 N.le a b -> val B a <= val B b.
Proof.
  induction 1; [reflexivity|]. rewrite !val_cons. rewrite (Forall2_length _ _ _ _ _ H0).
  pose proof (N.mul_le_mono_r x y (B ^ N.of_nat (length l')) H). lia.
Qed.
Lemma val_byte_tail : forall lw q b, val (2 ^ N.of_nat lw) (byte_tail lw q b) = b mod 2 ^ N.of_nat (lw * q).
Proof.
  induction q; intros b.
  - rewrite Nat.mul_0_r. change (2 ^ N.of_nat 0) with 1. now rewrite N.mod_1_r.
  - rewrite byte_tail_S, val_cons, IHq.
    assert (L : length (byte_tail lw q b) = q) by (unfold byte_tail; now rewrite map_length, seq_length). rewrite L.
    rewrite <- N.pow_mul_r. replace (N.of_nat lw * N.of_nat q) with (N.of_nat (lw * q)) by lia.
    replace (lw * S q)%nat with (lw * q + lw)%nat by lia. rewrite (Nat2N.inj_add (lw * q)), N.pow_add_r.
    rewrite N.mod_mul_r by (apply N.pow_nonzero; lia). lia.
Qed.
Lemma byte_tail_bound : forall lw q b, Forall (fun d => d < 2 ^ N.of_nat lw) (byte_tail lw q b).
Proof.
  intros. unfold byte_tail. apply Forall_forall. intros x Hx. apply in_map_iff in Hx. destruct Hx as (i & <- & _).
  apply N.mod_upper_bound. apply N.pow_nonzero. lia.
Qed.
Definition lw_ok (lw : nat) : Prop := (lw = 1 \/ lw = 2 \/ lw = 4 \/ lw = 8)%nat.
Lemma lw_8 : forall lw, lw_ok lw -> (lw * (8 / lw) = 8)%nat.
Proof. intros lw [->|[->|[->| ->]]]; reflexivity. Qed.

Lemma base_digits_length : forall lw l, length (base_digits lw l) = (8 / lw * length l)%nat.
Proof.
  induction l as [|b l IH]; [cbn; lia|]. rewrite base_digits_cons, app_length, IH. unfold byte_tail.
  rewrite map_length, seq_length. cbn [length]. lia.
Qed.
Lemma base_digits_bound : forall lw l, Forall (fun d => d < 2 ^ N.of_nat lw) (base_digits lw l).
Proof.
  induction l as [|b l IH]; [constructor|]. rewrite base_digits_cons. apply Forall_app. split; auto. apply byte_tail_bound.
Qed.
Lemma val_base_digits : forall lw l, lw_ok lw -> all_bytes l -> val (2 ^ N.of_nat lw) (base_digits lw l) = from_be l.
Proof.
  intros lw l Hlw. induction l as [|b l IH]; intros HB; [reflexivity|]. inversion HB as [|? ? Hb HB']; subst.
  rewrite base_digits_cons, val_app, val_byte_tail, IH by auto. rewrite lw_8 by auto. change (2 ^ N.of_nat 8) with 256.
  rewrite N.mod_small by exact Hb. rewrite from_be_cons, base_digits_length. f_equal. f_equal.
  rewrite <- N.pow_mul_r. change 256 with (2 ^ 8). rewrite <- N.pow_mul_r. f_equal. pose proof (lw_8 lw Hlw). nia.
Qed.
Lemma val_firstn : forall B n l, 1 <= B -> Forall (fun d => d < B) l -> (n <= length l)%nat ->
  val B (firstn n l) = val B l / B ^ N.of_nat (length l - n).
Proof.
  intros B n l HB HF Hn. rewrite <- (firstn_skipn n l) at 2. rewrite val_app.
  assert (L : length (skipn n l) = (length l - n)%nat) by apply skipn_length. rewrite L.
  rewrite N.div_add_l by (apply N.pow_nonzero; lia).
  rewrite N.div_small; [lia|]. rewrite <- L. apply val_bound.
  rewrite <- (firstn_skipn n l) in HF. now apply Forall_app in HF.
Qed.

Lemma checksum_mono : forall w a b, Forall2 N.le a b -> Forall (fun d => d <= w - 1) b ->
  checksum w b <= checksum w a /\ (checksum w a = checksum w b -> a = b).
Proof.
  induction 1 as [|x y a b Hxy Hab IH]; intros HF; [split; auto; reflexivity|].
  inversion HF as [|? ? Hy HF']; subst. destruct (IH HF') as (I1 & I2). unfold checksum in *. cbn [fold_right]. split; [lia|].
  intros E. f_equal; [lia|]. apply I2. lia.
Qed.
Lemma checksum_bound : forall w l, checksum w l <= N.of_nat (length l) * (w - 1).
Proof. induction l; cbn [length checksum fold_right]; [lia|]. unfold checksum in IHl. lia. Qed.

(** The checksum digits carry the whole checksum when it survives the shift. *)
Lemma checksum_digits_val : forall lw l2 c, lw_ok lw -> (1 <= l2)%nat ->
  let sh := 8 - N.of_nat ((l2 * lw) mod 8) in
  let nb := ((l2 * lw + 7) / 8)%nat in
  c * 2 ^ sh < 256 ^ N.of_nat nb -> (8 * nb - l2 * lw)%nat = N.to_nat sh -> (l2 * lw <= 8 * nb)%nat ->
  val (2 ^ N.of_nat lw) (firstn l2 (base_digits lw (to_byte nb (c * 2 ^ sh)))) = c.
Proof.
  intros lw l2 c Hlw Hl2 sh nb Hc Hsh Hle. pose proof (lw_8 lw Hlw) as H8.
  assert (L : length (base_digits lw (to_byte nb (c * 2 ^ sh))) = (8 / lw * nb)%nat) by (now rewrite base_digits_length, to_byte_length).
  assert (Hlw1 : (1 <= lw)%nat) by (destruct Hlw as [->|[->|[->| ->]]]; lia).
  rewrite val_firstn.
  - rewrite val_base_digits by (auto using to_byte_bytes). rewrite from_be_to_byte, N.mod_small by exact Hc.
    rewrite L, <- N.pow_mul_r. replace (N.of_nat lw * N.of_nat (8 / lw * nb - l2)) with sh.
    + apply N.div_mul. apply N.pow_nonzero. lia.
    + rewrite <- Nat2N.inj_mul. rewrite Nat.mul_sub_distr_l. rewrite Nat.mul_assoc, H8. rewrite (Nat.mul_comm lw l2). lia.
  - pose proof (N.pow_nonzero 2 (N.of_nat lw)). lia.
  - apply base_digits_bound.
  - rewrite L. nia.
Qed.



Theorem C30_checksum_no_domination : forall w p d1 d2 x1 x2, w = 2 \/ w = 4 \/ w = 16 ->
  wots_set_params w = Ok p -> length d1 = 32%nat -> length d2 = 32%nat -> all_bytes d1 -> all_bytes d2 ->
  wots_digits d1 p = Ok x1 -> wots_digits d2 p = Ok x2 -> digits_le x1 x2 -> d1 = d2.
Proof.
  intros w p d1 d2 x1 x2 Hw Ep L1 L2 B1 B2 E1 E2 Hle.
  assert (G : exists lw l1 l2, winternitz w = Some (lw, l1, l2) /\ p = mkWP w lw l1 l2 /\ w = 2 ^ N.of_nat lw /\ lw_ok lw /\
     (l1 * lw = 256)%nat /\ (1 <= l2)%nat /\ (l1 = 8 / lw * 32)%nat /\
     let sh := 8 - N.of_nat ((l2 * lw) mod 8) in let nb := ((l2 * lw + 7) / 8)%nat in
     N.of_nat l1 * (w - 1) * 2 ^ sh < 256 ^ N.of_nat nb /\ (8 * nb - l2 * lw)%nat = N.to_nat sh /\ (l2 * lw <= 8 * nb)%nat).
  { unfold lw_ok. destruct Hw as [->|[->| ->]]; vm_compute in Ep; apply Ok_inj in Ep; subst p; do 3 eexists;
      (split; [reflexivity|]); (split; [reflexivity|]); (split; [reflexivity|]); (split; [auto|]);
      (split; [reflexivity|]); (split; [lia|]); (split; [reflexivity|]); vm_compute; repeat split; try discriminate; lia. }
  destruct G as (lw & l1 & l2 & Hwt & -> & Ew & Hlw & H256 & Hl2 & Hl1 & Hc & Hsh & Hnb).
  assert (HP : wots_ok (mkWP w lw l1 l2)) by (split; [eauto|exact Hlw]).
  rewrite (wots_digits_msg_digits _ lw d1 HP eq_refl Ew L1) in E1. rewrite (wots_digits_msg_digits _ lw d2 HP eq_refl Ew L2) in E2.
  apply Ok_inj in E1. apply Ok_inj in E2. cbn [w_len_1 w_len_2] in *. subst x1 x2.
  unfold digits_le, msg_digits in Hle. cbv zeta in Hc, Hsh, Hnb.
  assert (F : forall d, length d = 32%nat -> firstn l1 (base_digits lw d) = base_digits lw d).
  { intros d L. apply firstn_all2. rewrite base_digits_length, L. lia. }
  rewrite !F in Hle by auto.
  apply Forall2_app_inv_l in Hle. destruct Hle as (m2 & c2 & HM & HCk & Eq).
  assert (LM : length m2 = length (base_digits lw d2)).
  { rewrite <- (Forall2_length _ _ _ _ _ HM), !base_digits_length. now rewrite L1, L2. }
  assert (m2 = base_digits lw d2 /\ c2 = firstn l2 (base_digits lw (to_byte ((l2 * lw + 7) / 8)
      (checksum (2 ^ N.of_nat lw) (base_digits lw d2) * 2 ^ (8 - N.of_nat ((l2 * lw) mod 8)))))) as (-> & ->).
  { split; [|].
    - apply (f_equal (firstn (length m2))) in Eq. rewrite firstn_app, LM, Nat.sub_diag, firstn_O, firstn_all, app_nil_r in Eq.
      rewrite <- LM, firstn_app, Nat.sub_diag, firstn_O, firstn_all, app_nil_r in Eq. auto.
    - apply (f_equal (skipn (length m2))) in Eq. rewrite skipn_app, LM, Nat.sub_diag, skipn_all in Eq. 
      rewrite <- LM, skipn_app, Nat.sub_diag, skipn_all in Eq. auto. }
  set (k1 := checksum (2 ^ N.of_nat lw) (base_digits lw d1)) in *. set (k2 := checksum (2 ^ N.of_nat lw) (base_digits lw d2)) in *.
  assert (HB : forall d, Forall (fun x => x <= 2 ^ N.of_nat lw - 1) (base_digits lw d)).
  { intros d. eapply Forall_impl; [|apply base_digits_bound]. cbv beta. intros. lia. }
  destruct (checksum_mono _ _ _ HM (HB d2)) as (M1 & M2). fold k1 k2 in M1, M2.
  assert (KB : forall d, length d = 32%nat -> checksum (2 ^ N.of_nat lw) (base_digits lw d) * 2 ^ (8 - N.of_nat ((l2 * lw) mod 8)) < 256 ^ N.of_nat ((l2 * lw + 7) / 8)).
  { intros d L. eapply N.le_lt_trans; [|exact Hc]. apply N.mul_le_mono_r. rewrite <- Ew.
    pose proof (checksum_bound w (base_digits lw d)) as Q. rewrite base_digits_length, L, <- Hl1 in Q. exact Q. }
  assert (V1 := checksum_digits_val lw l2 k1 Hlw Hl2 (KB d1 L1) Hsh Hnb).
  assert (V2 := checksum_digits_val lw l2 k2 Hlw Hl2 (KB d2 L2) Hsh Hnb).
  pose proof (val_mono (2 ^ N.of_nat lw) _ _ HCk) as V. rewrite V1, V2 in V.
  assert (EM : base_digits lw d1 = base_digits lw d2) by (apply M2; lia).
  rewrite <- (to_byte_from_be d1 B1), <- (to_byte_from_be d2 B2), L1, L2.
  rewrite <- (val_base_digits lw d1 Hlw B1), <- (val_base_digits lw d2 Hlw B2), EM. reflexivity.
Qed.

(** For w = 256 the shift (8 - 16 mod 8 = 8) pushes the high byte of the checksum
    out of the two checksum digits, and domination is possible. *)
Theorem C30_w256_domination : exists p d1 d2 x1 x2, wots_set_params 256 = Ok p /\
  length d1 = 32%nat /\ length d2 = 32%nat /\ all_bytes d1 /\ all_bytes d2 /\
  wots_digits d1 p = Ok x1 /\ wots_digits d2 p = Ok x2 /\ digits_le x1 x2 /\ d1 <> d2.
Proof.
  exists (mkWP 256 8 32 2), (repeat 0 32), (255 :: 1 :: repeat 0 30). do 2 eexists.
  split; [reflexivity|]. split; [reflexivity|]. split; [reflexivity|].
  split; [repeat (constructor; [reflexivity|]); constructor|]. split; [repeat (constructor; [reflexivity|]); constructor|].
  split; [vm_compute; reflexivity|]. split; [vm_compute; reflexivity|]. split; [|discriminate].
  unfold digits_le. repeat (constructor; [discriminate|]). constructor.
Qed.
(** The hypotheses of [C30_checksum_no_domination] hold for every pair of digests
    and digits always exist. *)
Example C30_instance : exists p x, wots_set_params 16 = Ok p /\ wots_digits (repeat 5 32) p = Ok x /\ length x = 67%nat.
Proof. do 2 eexists. split; [reflexivity|]. split; vm_compute; reflexivity. Qed.
