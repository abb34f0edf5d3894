(** Properties C13, C14, C15, C35, C44, C46 and instances of the hypotheses. *)
(** Concrete cases for the hypotheses below: CasesXmss.v and CasesMisc.v. *)
From Coq Require Import List NArith Arith Lia Bool.
From Verif Require Import Base Bytes Keccak KeccakLemmas HashAddress Wots XmssCommon AlgsXmss AlgsXmssFast Descriptor
  SpecXmss SpecApi XmssObj XmssRefine WotsProofs TreeProofs BasicProofs BdsProofs FastProofs DescrProofs VerifyProofs PropObj.
Import ListNotations.
Open Scope nat_scope.

Lemma firstn_app_exact : forall A n (a b : list A), length a = n -> firstn n (a ++ b) = a.
Proof. intros A n a b <-. rewrite firstn_app, Nat.sub_diag, firstn_all, firstn_O. apply app_nil_r. Qed.
Lemma skipn_app_exact : forall A n (a b : list A), length a = n -> skipn n (a ++ b) = b.
Proof. intros A n a b <-. rewrite skipn_app, Nat.sub_diag, skipn_all. reflexivity. Qed.
Lemma nth_skipn : forall A (l : list A) m n d, nth n (skipn m l) d = nth (m + n) l d.
Proof. induction l; destruct m; intros; auto. - now destruct n. - cbn [skipn plus nth]. apply IHl. Qed.

Lemma skipn_plus : forall A (l : list A) m n, skipn (m + n) l = skipn m (skipn n l).
Proof. induction l; intros m n. - now rewrite !skipn_nil. - destruct n; [now rewrite Nat.add_0_r|].
  replace (m + S n) with (S (m + n)) by lia. cbn [skipn]. apply IHl. Qed.

(** ** C13: the extended seed recreates the key. *)
Lemma extended_seed_parse : forall hash hf height seed fmt, supported hash hf 16 w16 height seed -> (fmt < 16)%N ->
  parse_extended_seed (descr_getBytes (mkDescr hash 0 (N.of_nat height) fmt) ++ seed) = Ok (seed, N.of_nat height, hash, fmt).
Proof.
  intros hash hf height seed fmt HS Hf. pose proof HS as (Hh & _ & Hb & He & Hl). pose proof (hash_id_small _ _ Hh) as Hs.
  set (d := mkDescr hash 0 (N.of_nat height) fmt).
  assert (L3 : length (descr_getBytes d) = 3) by reflexivity.
  unfold parse_extended_seed. rewrite app_length, L3, Hl. cbn [plus Nat.eqb negb].
  unfold descr_fromExtendedSeed. rewrite app_length, L3, Hl. cbn [plus Nat.eqb negb]. unfold descr_getSize.
  rewrite (firstn_app_exact _ 3), (skipn_app_exact _ 3) by exact L3.
  rewrite decode_encode. cbn [bind d_height d_hash d_fmt].
  apply Nat.even_spec in He. destruct He as [y Ey].
  replace (d_height d / 2)%N with (N.of_nat y).
  2:{ cbn [d d_height]. rewrite Ey. rewrite Nat2N.inj_mul. change (N.of_nat 2) with 2%N. rewrite N.mul_comm, N.div_mul; lia. }
  cbn [d d_hash d_fmt]. rewrite (N.mod_small (N.of_nat y)), (N.mod_small hash), (N.mod_small fmt) by lia.
  do 2 f_equal. f_equal. f_equal. lia.
Qed.

Theorem C13_extended_seed_recreates : forall junk junk' seed height hash hf fmt,
  supported hash hf 16 w16 height seed -> (fmt < 16)%N ->
  exists x, XmssFast_new junk seed (N.of_nat height) hash fmt = Ok x /\
    (forall cs y os, run x cs = Ok (y, os) -> getExtendedSeed (xf_base y) = getExtendedSeed (xf_base x)) /\
    length (getExtendedSeed (xf_base x)) = 51 /\
    exists z, XmssFast_from_extended_seed junk' (getExtendedSeed (xf_base x)) = Ok z /\
      xf_base z = xf_base x /\
      getPK (xf_base z) = getPK (xf_base x) /\ getSK (xf_base z) = getSK (xf_base x) /\
      obj_getAddress (xf_base z) = obj_getAddress (xf_base x) /\ xb_height (xf_base z) = N.of_nat height /\
      forall cs, exists x' z' obs, run x cs = Ok (x', obs) /\ run z cs = Ok (z', obs) /\ xf_base x' = xf_base z'.
Proof.
  intros junk junk' seed height hash hf fmt HS Hf. pose proof (cfg_of _ _ _ _ _ _ fmt HS) as HC.
  set (c := mkCfg hf hash 16 fmt height seed) in *.
  destruct (new_run _ _ _ _ fmt HS junk) as (x & E & HR). exists x. split; auto.
  destruct (HR []) as (x' & Er0 & HI0). injection Er0 as <-. cbn [ref_run fst] in HI0.
  assert (Ebx : xf_base x = c_obj c w16 0) by apply HI0.
  split.
  { intros cs y os Er. destruct (HR cs) as (y0 & Er0 & HI). rewrite Er in Er0. injection Er0 as <- ->.
    destruct HI as (Eb & _). fold c in Eb. rewrite Ebx, Eb. reflexivity. }
  assert (Ees : getExtendedSeed (xf_base x) = descr_getBytes (mkDescr hash 0 (N.of_nat height) fmt) ++ seed)
    by (rewrite Ebx; reflexivity).
  split. { rewrite Ees, app_length. destruct HS as (_ & _ & _ & _ & ->). reflexivity. }
  destruct (initialize_tree_spec c w16 HC junk') as (z & Ez & HIz).
  exists z. split.
  { unfold XmssFast_from_extended_seed. rewrite Ees, (extended_seed_parse hash hf height seed fmt HS Hf). exact Ez. }
  assert (Eb : xf_base z = xf_base x) by (rewrite Ebx; apply HIz).
  split; [exact Eb|]. rewrite Eb. do 3 (split; [reflexivity|]). split; [rewrite Ebx; reflexivity|].
  intros cs. destruct (HR cs) as (x' & R1 & I1). destruct (run_spec c w16 HC cs z 0 HIz) as (z' & R2 & I2).
  exists x', z'. eexists. split; [exact R1|]. split; [exact R2|]. destruct I1 as (-> & _). destruct I2 as (-> & _). reflexivity.
Qed.

(** ** C14: layout and constancy of the key material. *)
Theorem C14_key_layout : forall junk seed height hash hf fmt, supported hash hf 16 w16 height seed ->
  exists x, XmssFast_new junk seed (N.of_nat height) hash fmt = Ok x /\
    forall cs y os, run x cs = Ok (y, os) ->
      let b := xf_base y in
      getSK b = to_byte 4 (getIndex b) ++ getSKSeed b ++ getSKPRF b ++ getPKSeed b ++ getRoot b /\
      length (getSK b) = 132 /\
      getSKSeed b = key_seed seed /\ getSKPRF b = key_prf seed /\ getPKSeed b = key_pub seed /\
      getRoot b = ref_root hf w16 height seed /\
      getPK b = descr_getBytes (mkDescr hash 0 (N.of_nat height) fmt) ++ getRoot b ++ getPKSeed b /\
      length (getPK b) = 67 /\
      (* only the four index bytes differ from the state at construction *)
      skipn 4 (getSK b) = skipn 4 (getSK (xf_base x)) /\ getPK b = getPK (xf_base x) /\
      getExtendedSeed b = getExtendedSeed (xf_base x) /\ obj_getAddress b = obj_getAddress (xf_base x) /\
      xb_params b = xb_params (xf_base x) /\ getDescriptor b = getDescriptor (xf_base x) /\ xb_seed b = seed.
Proof.
  intros junk seed height hash hf fmt HS. pose proof (cfg_of _ _ _ _ _ _ fmt HS) as HC.
  set (c := mkCfg hf hash 16 fmt height seed) in *.
  destruct (new_run _ _ _ _ fmt HS junk) as (x & E & HR). exists x. split; auto.
  destruct (HR []) as (x' & Er0 & HI0). injection Er0 as <-. cbn [ref_run fst] in HI0.
  assert (Ebx : xf_base x = c_obj c w16 0) by apply HI0.
  intros cs y os Er b. destruct (HR cs) as (y0 & Er0 & HI). rewrite Er in Er0. injection Er0 as <- ->.
  pose proof (inv_getIndex _ _ _ _ _ HS _ _ HI) as Ei.
  destruct HI as (Eb & _). fold c in Eb. subst b. 
  set (i := fst (ref_run height (ref_sig hf w16 height seed) 0 cs)) in *.
  rewrite Ei. rewrite Ebx, Eb. clear Ei Eb Ebx.
  destruct (sk_parts c w16 HC i) as (P1 & P2 & P3 & P4 & P5).
  destruct (sk_parts c w16 HC 0) as (_ & _ & _ & _ & Q5).
  destruct (key_lengths seed) as (L1 & L2 & L3). pose proof (cfg_root_len c w16 HC) as L4.
  assert (Hpk : c_pk c w16 i = c_pk c w16 0) by (now rewrite !(getPK_shape c w16 HC)).
  unfold c_pk in Hpk.
  unfold getSKSeed, getSKPRF, getPKSeed, getRoot, getSK. cbn [c_obj xb_sk xb_params xb_seed].
  fold (c_sk c w16 0). fold (c_sk c w16 i). rewrite P1, P2, P3, P4, P5, Q5.
  split; [reflexivity|]. split.
  { unfold c_sk, ref_sk. rewrite !app_length, to_byte_length. cbn [c_seed c]. rewrite L1, L2, L3.
    unfold c in L4. cbn [c_hf c_height c_seed] in L4. change (c_hf c) with hf. change (c_height c) with height. rewrite L4. reflexivity. }
  do 4 (split; [reflexivity|]). split; [apply (getPK_shape c w16 HC i)|]. split; [apply (c_pk_length c w16 HC i)|].
  split; [reflexivity|]. split; [exact Hpk|]. split; [reflexivity|].
  split. { unfold obj_getAddress. now rewrite Hpk. }
  repeat split.
Qed.

(** ** C15: the index codec of XmssBase (any object, any 132-byte key). *)
Theorem C15_index_codec : forall o i, length (xb_sk o) = 132 -> (i < 2 ^ 32)%N ->
  snd (base_setIndex o i) = i /\ getIndex (fst (base_setIndex o i)) = i /\
  length (getSK (fst (base_setIndex o i))) = 132 /\
  (forall n, 4 <= n -> nth n (getSK (fst (base_setIndex o i))) 0%N = nth n (getSK o) 0%N) /\
  getPK (fst (base_setIndex o i)) = getPK o /\ getExtendedSeed (fst (base_setIndex o i)) = getExtendedSeed o /\
  (* the last setIndex wins *)
  forall j, fst (base_setIndex (fst (base_setIndex o i)) j) = fst (base_setIndex o j).
Proof.
  intros o i HL Hi.
  assert (Es : skipn 4 (to_byte 4 i ++ skipn 4 (xb_sk o)) = skipn 4 (xb_sk o)).
  { apply skipn_app_exact, to_byte_length. }
  assert (Eg : getIndex (fst (base_setIndex o i)) = i).
  { unfold base_setIndex, getIndex. cbn [fst with_sk xb_sk].
    unfold slice. rewrite skipn_O, (firstn_app_exact _ 4) by apply to_byte_length. rewrite from_be_to_byte4 by auto. unfold u32. now apply N.mod_small. }
  split; [exact Eg|]. split; [exact Eg|].
  assert (Hsl : forall off n, 4 <= off -> slice off n (to_byte 4 i ++ skipn 4 (xb_sk o)) = slice off n (xb_sk o)).
  { intros off n Ho. unfold slice. f_equal. replace off with (off - 4 + 4) by lia.
    rewrite !skipn_plus. now rewrite Es. }
  unfold base_setIndex. cbn [fst]. unfold getSK, getPK, getRoot, getPKSeed, getExtendedSeed, getDescriptorBytes, getDescriptor.
  cbn [with_sk xb_sk xb_hash xb_height xb_fmt xb_seed].
  split. { rewrite app_length, to_byte_length, skipn_length. lia. }
  split. { intros n Hn. rewrite app_nth2 by (rewrite to_byte_length; lia). rewrite to_byte_length.
    rewrite nth_skipn. f_equal. lia. }
  split; [now rewrite !Hsl by lia|]. split; [reflexivity|].
  intros j. unfold with_sk. cbn [xb_params xb_hash xb_fmt xb_height xb_sk xb_seed]. now rewrite Es.
Qed.

(** ** C35: the root is the Merkle root, level by level. *)
Lemma tree_level_node : forall hf w len ss ps j n i,
  tree_level hf ps j i (map (node hf w len ss ps j) (seq (2 * i) (2 * n))) = map (node hf w len ss ps (S j)) (seq i n).
Proof.
  induction n; intros i; [reflexivity|].
  replace (2 * S n) with (S (S (2 * n))) by lia. cbn [seq map tree_level node]. f_equal.
  - f_equal. f_equal. lia.
  - replace (S (S (2 * i))) with (2 * S i) by lia. apply IHn.
Qed.
Lemma tree_levels_node : forall hf w len ss ps h j,
  tree_levels hf ps h j (map (node hf w len ss ps j) (seq 0 (2 ^ h))) = [node hf w len ss ps (h + j) 0].
Proof.
  induction h; intros j; [reflexivity|]. cbn [tree_levels].
  change (2 ^ S h) with (2 * 2 ^ h). change 0 with (2 * 0) at 2. rewrite tree_level_node.
  rewrite IHh. now replace (h + S j) with (S h + j) by lia.
Qed.

Theorem C35_root_is_merkle_root : forall junk junk' seed height hash hf fmt w wp,
  supported hash hf w wp height seed ->
  (exists x, XmssBasic_new junk seed (N.of_nat height) hash fmt w = Ok x /\
     tree_levels hf (key_pub seed) height 0 (all_leaves hf wp height seed) = [getRoot x]) /\
  (w = 16%N -> exists y, XmssFast_new junk' seed (N.of_nat height) hash fmt = Ok y /\
     tree_levels hf (key_pub seed) height 0 (all_leaves hf wp height seed) = [getRoot (xf_base y)]).
Proof.
  intros junk junk' seed height hash hf fmt w wp HS. pose proof (cfg_of _ _ _ _ _ _ fmt HS) as HC.
  set (c := mkCfg hf hash w fmt height seed) in *.
  assert (E : tree_levels hf (key_pub seed) height 0 (all_leaves hf wp height seed) = [ref_root hf wp height seed]).
  { unfold all_leaves.
    rewrite (map_ext_in _ (node hf (2 ^ fst (fst wp)) (snd (fst wp) + snd wp) (key_seed seed) (key_pub seed) 0)) by reflexivity.
    rewrite tree_levels_node, Nat.add_0_r. reflexivity. }
  split.
  - exists (c_obj c wp 0). split; [apply (XmssBasic_new_spec c wp HC)|]. rewrite E. unfold getRoot. cbn [c_obj xb_sk].
    destruct (sk_parts c wp HC 0) as (_ & _ & _ & P4 & _). rewrite P4. reflexivity.
  - intros ->. assert (wp = w16) as ->. { destruct HS as (_ & Hw & _). change (winternitz 16) with (Some w16) in Hw. congruence. }
    destruct (XmssFast_new_spec junk' seed height hash hf fmt HS) as (y & Ey & HI). exists y. split; auto.
    destruct HI as (Eb & _). rewrite Eb, E. unfold getRoot. cbn [c_obj xb_sk].
    destruct (sk_parts c w16 HC 0) as (_ & _ & _ & P4 & _). fold c. rewrite P4. reflexivity.
Qed.

(** ** C44: initialize_tree rewinds a used object. *)
Theorem C44_initialize_tree_resets : forall junk junk' seed height hash hf fmt, supported hash hf 16 w16 height seed ->
  exists x, XmssFast_new junk seed (N.of_nat height) hash fmt = Ok x /\
    forall cs y os, run x cs = Ok (y, os) ->
      exists z, xfast_initialize_tree junk' y 16 = Ok z /\ xf_base z = xf_base x /\ getIndex (xf_base z) = 0%N /\
        (* the whole history can be replayed: same one-time keys again *)
        forall cs', exists x' z' obs, run x cs' = Ok (x', obs) /\ run z cs' = Ok (z', obs).
Proof.
  intros junk junk' seed height hash hf fmt HS. pose proof (cfg_of _ _ _ _ _ _ fmt HS) as HC.
  set (c := mkCfg hf hash 16 fmt height seed) in *.
  destruct (new_run _ _ _ _ fmt HS junk) as (x & E & HR). exists x. split; auto.
  intros cs y os Er. destruct (HR cs) as (y0 & Er0 & HI). rewrite Er in Er0. injection Er0 as <- ->.
  destruct (initialize_tree_spec c w16 HC junk') as (z & Ez & HIz). exists z.
  destruct HI as (Eb & _). split. { unfold xfast_initialize_tree. rewrite Eb. exact Ez. }
  destruct (HR []) as (x' & Er0 & HI0). injection Er0 as <-. cbn [ref_run fst] in HI0.
  split. { destruct HIz as (-> & _). destruct HI0 as (-> & _). reflexivity. }
  split. { eapply (inv_getIndex hash hf height seed fmt HS). exact HIz. }
  intros cs'. destruct (HR cs') as (x1 & R1 & _). destruct (run_spec c w16 HC cs' z 0 HIz) as (z1 & R2 & _).
  exists x1, z1. eexists. split; [exact R1|exact R2].
Qed.

(** ** C46: signature format. *)
Theorem C46_signature_format : forall junk seed height hash hf fmt, supported hash hf 16 w16 height seed ->
  exists x, XmssFast_new junk seed (N.of_nat height) hash fmt = Ok x /\
    forall cs y os msg y' sig, run x cs = Ok (y, os) -> step y (OpSign msg) = Ok (y', ObsSig sig) ->
      let i := getIndex (xf_base y) in
      getSignatureSize (N.of_nat height) 16 = Ok (N.of_nat (length sig)) /\
      length sig = 4 + 32 + 32 * 67 + 32 * height /\
      sig_index sig = i /\
      exists R wots path,
        sig = to_byte 4 i ++ R ++ concat wots ++ concat path /\
        R = PRF hf (key_prf seed) (to_byte 32 i) /\ length R = 32 /\
        length wots = 67 /\ Forall (fun v => length v = 32) wots /\
        length path = height /\ Forall (fun v => length v = 32) path /\
        wots = ots_sig hf 67 (key_seed seed) (key_pub seed) (N.to_nat i)
                 (msg_digits 4 64 3 (keyed hf 2 (R ++ getRoot (xf_base y) ++ to_byte 32 i) msg)) /\
        path = auth_path hf 16 67 (key_seed seed) (key_pub seed) height (N.to_nat i).
Proof.
  intros junk seed height hash hf fmt HS. pose proof (cfg_of _ _ _ _ _ _ fmt HS) as HC.
  set (c := mkCfg hf hash 16 fmt height seed) in *.
  destruct (new_run _ _ _ _ fmt HS junk) as (x & E & HR). exists x. split; auto.
  intros cs y os msg y' sig Er Est i. destruct (HR cs) as (y0 & Er0 & HI). rewrite Er in Er0. injection Er0 as <- ->.
  pose proof (inv_getIndex _ _ _ _ _ HS _ _ HI) as Ei. subst i.
  destruct (step_spec c w16 HC y _ (OpSign msg) HI) as (y2 & E2 & HI2 & _). rewrite Est in E2. apply Ok_inj in E2.
  rewrite Ei. set (i := fst (ref_run height (ref_sig hf w16 height seed) 0 cs)) in *.
  change (c_height c) with height in E2. cbn [ref_step] in E2.
  destruct (i <? 2 ^ N.of_nat height)%N eqn:El; cbn [snd] in E2; [|congruence].
  assert (Es : sig = c_sig c w16 (N.to_nat i) msg) by congruence. clear E2 Est. apply N.ltb_lt in El.
  pose proof (c_sig_length c w16 HC (N.to_nat i) msg) as HL. rewrite <- Es in HL.
  change (base_size w16 + 32 * c_height c) with (36 + 32 * 67 + 32 * height) in HL.
  destruct HS as (_ & _ & Hh & _).
  split. { unfold getSignatureSize. rewrite (sig_base_size 16 w16 eq_refl). cbn [bind]. apply f_equal. unfold u32.
    change (base_size w16) with 2180. rewrite HL, N.mod_small; [lia|]. change (2 ^ 32)%N with 4294967296%N. lia. }
  split; [rewrite HL; lia|].
  assert (Hroot : getRoot (xf_base y) = ref_root hf w16 height seed).
  { destruct HI as (Eb & _). rewrite Eb. unfold getRoot. cbn [c_obj xb_sk]. apply (sk_parts c w16 HC). }
  split.
  { rewrite Es. unfold sig_index, c_sig, ref_sig, signature. rewrite N2Nat.id.
    change (firstn 4 ?x) with (slice 0 4 x). rewrite slice_app_l by (now rewrite to_byte_length).
    apply from_be_to_byte4. pose proof (pow_H_bound c w16 HC) as Hp. cbn [c_height c] in Hp.
    change (2 ^ 32)%N with 4294967296%N. change (2 ^ 30)%N with 1073741824%N in *. lia. }
  do 3 eexists. split.
  { rewrite Es. change (c_sig c w16) with (ref_sig hf w16 height seed). unfold ref_sig, signature. rewrite N2Nat.id. unfold digest. rewrite N2Nat.id. rewrite <- Hroot. reflexivity. }
  split. { unfold randomizer. rewrite N2Nat.id. reflexivity. }
  split. { apply keyed_length. }
  destruct (key_lengths seed) as (L1 & L2 & L3).
  split. { unfold ots_sig. rewrite map_length, seq_length. reflexivity. }
  split. { unfold ots_sig. apply Forall_forall. intros v Hv. apply in_map_iff in Hv. destruct Hv as (k & <- & _).
    apply chain_length. apply keyed_length. }
  split. { apply auth_path_length. }
  split. { unfold auth_path. apply Forall_forall. intros v Hv. apply in_map_iff in Hv. destruct Hv as (k & <- & _).
    apply node_length. cbn; lia. }
  split; reflexivity.
Qed.

(** ** Instances *)
Definition zero_seed : list N := repeat 0%N 48.
Example supported_sha2 : supported 0 SHA2_256 16 w16 4 zero_seed.
Proof. repeat split; auto; try lia. Qed.
Example supported_shake128 : supported 1 SHAKE_128 16 w16 30 zero_seed.
Proof. repeat split; auto; try lia. Qed.
Example supported_shake256 : supported 2 SHAKE_256 256 (8, 32, 2) 10 (repeat 7%N 48).
Proof. repeat split; auto; try lia. Qed.

(** A history with two successful signatures, a skip, a refused rewind, and
    exhaustion: what [fast_history] makes of it. *)
Definition sample_calls : list op :=
  [OpSign [1]; OpSetIndex 5; OpSign [2]; OpSetIndex 3; OpSetIndex 16; OpSetIndex 15; OpSign [3]; OpSign [4]; OpSetIndex 16]%N.
Example sample_history : forall sig, ref_run 4 sig 0 sample_calls =
  (16%N, [ObsSig (sig 0 [1%N]); ObsIdx 5; ObsSig (sig 5 [2%N]); ObsExn InvalidArgument; ObsExn InvalidArgument;
          ObsIdx 15; ObsSig (sig 15 [3%N]); ObsExn InvalidArgument; ObsExn InvalidArgument]).
Proof. intros. reflexivity. Qed.
