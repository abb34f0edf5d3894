(** C87: how much stack the calls need. *)
From Coq Require Import List NArith Arith Lia Bool.
From Verif Require Import Base Bytes Keccak HashAddress Wots XmssCommon AlgsXmss AlgsXmssFast Descriptor XmssObj.
From Verif Require Import SpecXmss SpecApi WotsProofs XmssRefine FastProofs VerifyProofs PropObj Stack StackProofs.
Import ListNotations.
Open Scope nat_scope.

Lemma winternitz_frames : forall w wp, winternitz w = Some wp ->
  w_keysize (wparams w) = 32 * (snd (fst wp) + snd wp) /\
  (digits_frame (wparams w) <= 8 * N.of_nat (snd (fst wp) + snd wp) + 2)%N.
Proof.
  intros w wp Hw. destruct (wparams_ok w wp Hw) as (_ & _ & _ & _ & _ & _ & _ & _ & EL). split; [unfold w_keysize; rewrite EL; lia|].
  clear EL. revert Hw. unfold winternitz.
  destruct (N.eqb_spec w 2) as [->|_]; [intro E; injection E as <-; vm_compute; discriminate|].
  destruct (N.eqb_spec w 4) as [->|_]; [intro E; injection E as <-; vm_compute; discriminate|].
  destruct (N.eqb_spec w 16) as [->|_]; [intro E; injection E as <-; vm_compute; discriminate|].
  destruct (N.eqb_spec w 256) as [->|_]; [intro E; injection E as <-; vm_compute; discriminate|discriminate].
Qed.

(** ** verify *)
(** C87.  With a stack of [B] bytes for arrays, where [B] is at least the length of the
    message plus a constant, every call of verify behaves as with an unlimited stack ... *)
Theorem C87_verify_stack_suffices : forall B w wp msg sig pk, winternitz w = Some wp ->
  (N.of_nat (length msg) + 40 * N.of_nat (snd (fst wp) + snd wp) + 1024 <= B)%N ->
  verify_s B msg sig pk w = verify msg sig pk w.
Proof.
  intros B w wp msg sig pk Hw HB. destruct (winternitz_frames w wp Hw) as (EK & HD). destruct (wparams_ok w wp Hw) as (Ewp & _).
  unfold verify_s, verify. assert (E : verify_body_s B msg sig pk w = verify_body msg sig pk w); [|now rewrite E].
  unfold verify_body_s, verify_body. destruct (negb _); [reflexivity|]. apply bind_ext; intros base. destruct (_ <? _)%N; [reflexivity|].
  apply bind_ext; intros d. destruct (negb _); [reflexivity|]. apply bind_ext; intros ht. destruct (_ || _); [reflexivity|]. destruct (bad_height ht); [reflexivity|].
  destruct (xmss_set_params (N.to_nat ht) w 2) as [p|e|] eqn:Ep; cbn [bind]; [|reflexivity|reflexivity].
  assert (Epw : x_wots p = wparams w). { unfold xmss_set_params in Ep. destruct (_ || _); [discriminate|]. rewrite Ewp in Ep. cbn [bind] in Ep. apply Ok_inj in Ep. now subst p. }
  apply with_hash_ext. intros hf. apply Verifysig_s_eq. unfold verify_need. rewrite Epw, EK. lia.
Qed.

(** ... and with less than the length of the message plus [32 len + 448] bytes there is no
    valid signature that it would accept: the run goes wrong instead. *)
Theorem C87_verify_stack_needed : forall B w wp msg sig pk, winternitz w = Some wp ->
  verify msg sig pk w = Ok true ->
  (B < N.of_nat (length msg) + 32 * N.of_nat (snd (fst wp) + snd wp) + 448)%N ->
  verify_s B msg sig pk w = UB.
Proof.
  intros B w wp msg sig pk Hw HV HB. destruct (winternitz_frames w wp Hw) as (EK & HD). destruct (wparams_ok w wp Hw) as (Ewp & _).
  unfold verify_s, verify in *. assert (E : verify_body_s B msg sig pk w = UB); [|now rewrite E].
  assert (EV : verify_body msg sig pk w = Ok true) by (destruct (verify_body msg sig pk w) as [b|[|]|]; congruence). clear HV.
  unfold verify_body_s, verify_body in *. destruct (negb _); [discriminate|]. destruct (calculateSignatureBaseSize w) as [base|e|]; [|discriminate|discriminate]. cbn [bind] in *.
  destruct (_ <? _)%N; [discriminate|]. destruct (descr_fromExtendedPK pk) as [d|e|]; [|discriminate|discriminate]. cbn [bind] in *. destruct (negb _); [discriminate|].
  destruct (getHeightFromSigSize _ _) as [ht|e|]; [|discriminate|discriminate]. cbn [bind] in *. destruct (_ || _); [discriminate|]. destruct (bad_height ht); [discriminate|].
  destruct (xmss_set_params (N.to_nat ht) w 2) as [p|e|] eqn:Ep; [|discriminate|discriminate]. cbn [bind] in *.
  assert (Epw : x_wots p = wparams w). { unfold xmss_set_params in Ep. match type of Ep with (if ?q then _ else _) = _ => destruct q; [discriminate|] end. rewrite Ewp in Ep. cbn [bind] in Ep. apply Ok_inj in Ep. now subst p. }
  unfold with_hash in *. destruct (hash_of_id (d_hash d)) as [hf|]; [|discriminate]. apply Verifysig_s_ub. rewrite Epw, EK. lia.
Qed.

(** ** XmssFast *)
Lemma w16_frames : N.of_nat (w_keysize (wparams 16)) = 2144%N /\ digits_frame (wparams 16) = 282%N.
Proof. vm_compute. auto. Qed.

(** C87.  Whatever its history, an XmssFast object signs as with an unlimited stack when
    the stack has room for 3008 bytes and for the message plus 480 bytes; the second
    condition is necessary.  setIndex needs no more than 2752 bytes. *)
Theorem C87_sign_stack : forall junk seed height hash hf fmt, supported hash hf 16 w16 height seed ->
  exists x, XmssFast_new junk seed (N.of_nat height) hash fmt = Ok x /\
  forall cs, exists y os, run x cs = Ok (y, os) /\
    (forall B m, (3008 <= B)%N -> (N.of_nat (length m) + 480 <= B)%N -> xfast_sign_s B y m = xfast_sign y m) /\
    (forall B m, (getIndex (xf_base y) < 2 ^ N.of_nat height)%N -> (B < N.of_nat (length m) + 480)%N -> xfast_sign_s B y m = UB) /\
    (forall B i, (2752 <= B)%N -> xfast_setIndex_s B y i = xfast_setIndex y i).
Proof.
  intros junk seed height hash hf fmt HS. pose proof (cfg_of _ _ _ _ _ _ fmt HS) as HC. set (c := mkCfg hf hash 16 fmt height seed) in *.
  destruct (new_run hash hf height seed fmt HS junk) as (x & Ex & HR). exists x. split; [exact Ex|]. intros cs. destruct (HR cs) as (y & Ey & HI). eexists y, _. split; [exact Ey|].
  fold c in HI. set (i := fst _) in HI. pose proof (inv_getIndex hash hf height seed fmt HS i y HI) as EI. destruct HI as (Eb & Hi & _). destruct w16_frames as (EK & ED).
  assert (EP : xb_params (xf_base y) = mkXP (wparams 16) height 2) by (rewrite Eb; reflexivity).
  assert (EL : leaf_need (xb_params (xf_base y)) = 2496%N) by (rewrite EP; unfold leaf_need; cbn [x_wots]; rewrite EK; reflexivity).
  split; [|split].
  - intros B m H1 H2. apply sign_s_eq; [rewrite EL; lia|rewrite EP; cbn [x_wots]; rewrite ED; lia|exact H2].
  - intros B m H1 H2. unfold xfast_sign_s. cbv zeta. rewrite EI in *. unfold xfast_setIndex_s. destruct HS as (Eh & _).
    assert (Ehf : hash_of_id (xb_hash (xf_base y)) = Some hf) by (rewrite Eb; exact Eh).
    assert (Ei : from_be (slice 0 4 (xb_sk (xf_base y))) = i) by (rewrite Eb; cbn [c_obj xb_sk]; apply (sk_index c w16 HC); exact Hi).
    unfold with_hash. rewrite Ehf. unfold xmssfast_update_s. unfold frame at 1. destruct (B <? _)%N; [reflexivity|]. cbv zeta. rewrite Ei, EP. cbn [x_h].
    rewrite (proj2 (N.leb_gt _ _)) by exact H1. rewrite N.ltb_irrefl, Nat.sub_diag. cbn [for_from bind].
    unfold with_sk. cbn [xf_base xb_hash]. rewrite Ehf. rewrite Signmsg_s_ub by exact H2. reflexivity.
  - intros B j H. apply setIndex_s_eq. rewrite EL. lia.
Qed.

(** C87.  A key of any supported height is made (or its parameters are refused) with 3836
    bytes, for every seed, height, hash function and address format; so is a tree made anew. *)
Theorem C87_new_stack : forall B junk seed es height hash fmt, (3836 <= B)%N ->
  XmssFast_new_s B junk seed height hash fmt = XmssFast_new junk seed height hash fmt /\
  XmssFast_from_extended_seed_s B junk es = XmssFast_from_extended_seed junk es /\
  (forall x, xfast_initialize_tree_s B junk x 16 = xfast_initialize_tree junk x 16).
Proof.
  intros B junk seed es height hash fmt HB.
  assert (E : forall seed height hash fmt, initialize_tree_s B junk seed height hash fmt 16 = initialize_tree junk seed height hash fmt 16).
  { clear -HB. intros seed height hash fmt. unfold initialize_tree_s, initialize_tree. destruct (bad_height height); [reflexivity|].
    destruct (xmss_set_params (N.to_nat height) 16 2) as [p|e|] eqn:Ep; cbn [bind]; [|reflexivity|reflexivity]. destruct (31 <=? height)%N eqn:E31; [reflexivity|]. apply N.leb_gt in E31.
    apply with_hash_ext. intros hf. f_equal. unfold xmssfast_Genkeypair_s, xmssfast_Genkeypair. rewrite frame_ok by lia. cbv zeta. f_equal. 
    assert (EP : p = mkXP (wparams 16) (N.to_nat height) 2).
    { unfold xmss_set_params in Ep. match type of Ep with (if ?q then _ else _) = _ => destruct q; [discriminate|] end. destruct (wparams_ok 16 w16 eq_refl) as (Ew & _). rewrite Ew in Ep. cbn [bind] in Ep. apply Ok_inj in Ep. now subst p. }
    apply setup_s_eq. subst p. unfold leaf_need. cbn [x_wots x_h]. destruct w16_frames as (EK & _). rewrite EK. lia. }
  split; [|split]; [unfold XmssFast_new_s, XmssFast_new; apply bind_ext|unfold XmssFast_from_extended_seed_s, XmssFast_from_extended_seed; apply bind_ext|intros x; apply E].
  - intros []. apply E.
  - intros [[[s h] hs] f]. apply E.
Qed.

(** ** XmssBasic *)
(** C87.  XmssBasic keeps the whole tree on the stack: signing with a key of height h goes
    wrong, for every object and message, with less than 2^(h+6) + 480 bytes (or less than
    the message and 512 bytes), and with slightly more it is as with an unlimited stack. *)
Theorem C87_basic_sign_stack : forall junk seed height hash hf fmt w wp, supported hash hf w wp height seed ->
  exists x, XmssBasic_new junk seed (N.of_nat height) hash fmt w = Ok x /\
  forall B j idx msg, let y := fst (base_setIndex x idx) in let len := N.of_nat (snd (fst wp) + snd wp) in
    ((2 ^ (6 + N.of_nat height) + 32 * len + 1024 <= B)%N -> (N.of_nat (length msg) + 512 <= B)%N ->
       XmssBasic_sign_s B j y msg = XmssBasic_sign j y msg) /\
    ((B < 2 ^ (6 + N.of_nat height) + 480)%N \/ (B < N.of_nat (length msg) + 512)%N ->
       XmssBasic_sign_s B j y msg = UB).
Proof.
  intros junk seed height hash hf fmt w wp HS. pose proof (cfg_of _ _ _ _ _ _ fmt HS) as HC. set (c := mkCfg hf hash w fmt height seed) in *.
  exists (c_obj c wp 0). split; [apply (XmssBasic_new_spec c wp HC)|]. intros B j idx msg. cbv zeta.
  assert (EP : xb_params (fst (base_setIndex (c_obj c wp 0) idx)) = mkXP (wparams w) height 2) by reflexivity.
  destruct HS as (_ & Hw & _). destruct (winternitz_frames w wp Hw) as (EK & ED). destruct (wparams_ok w wp Hw) as (_ & HP & _ & _ & _ & _ & _ & _ & EL).
  destruct (wots_ok_facts _ HP) as (_ & _ & _ & Hlen & _). rewrite EL in Hlen. split.
  - intros H1 H2. apply basic_sign_s_eq; rewrite ?EP; unfold leaf_need; cbn [x_h x_wots]; rewrite ?EK; try lia.
  - intros H. apply basic_sign_s_ub. rewrite EP. exact H.
Qed.
(** C87.  Making the key needs little. *)
Theorem C87_basic_new_stack : forall B junk seed height hash fmt w wp, winternitz w = Some wp ->
  (32 * N.of_nat (snd (fst wp) + snd wp) + 1630 <= B)%N ->
  XmssBasic_new_s B junk seed height hash fmt w = XmssBasic_new junk seed height hash fmt w.
Proof.
  intros B junk seed height hash fmt w wp Hw HB. destruct (winternitz_frames w wp Hw) as (EK & _). destruct (wparams_ok w wp Hw) as (Ew & _).
  unfold XmssBasic_new_s, XmssBasic_new. apply bind_ext. intros []. destruct (bad_height height); [reflexivity|].
  destruct (xmss_set_params (N.to_nat height) w 2) as [p|e|] eqn:Ep; cbn [bind]; [|reflexivity|reflexivity]. destruct (31 <=? height)%N eqn:E31; [reflexivity|]. apply N.leb_gt in E31.
  apply with_hash_ext. intros hf. f_equal. unfold xmss_Genkeypair_s, xmss_Genkeypair. rewrite frame_ok by lia. cbv zeta. f_equal.
  assert (EP : p = mkXP (wparams w) (N.to_nat height) 2).
  { unfold xmss_set_params in Ep. match type of Ep with (if ?q then _ else _) = _ => destruct q; [discriminate|] end. rewrite Ew in Ep. cbn [bind] in Ep. apply Ok_inj in Ep. now subst p. }
  apply treehash_s_eq. subst p. unfold leaf_need. cbn [x_wots x_h]. rewrite EK. lia.
Qed.

(** ** Cases *)
(** The usual main-thread stack of 8 MiB: no XmssBasic key of height 18 can sign with it,
    keys of height 16 can sign messages of 4 MiB. *)
Example C87_case_basic : forall junk seed hash hf, supported hash hf 16 w16 18 seed ->
  exists x, XmssBasic_new junk seed 18 hash 0 16 = Ok x /\ forall j msg, XmssBasic_sign_s (8 * 2 ^ 20) j (fst (base_setIndex x 0)) msg = UB.
Proof.
  intros junk seed hash hf HS. destruct (C87_basic_sign_stack junk seed 18 hash hf 0 16 w16 HS) as (x & E & H). exists x. split; [exact E|]. intros j msg.
  apply (H (8 * 2 ^ 20)%N j 0%N msg). left. reflexivity.
Qed.
Example C87_case_basic16 : forall junk seed hash hf, supported hash hf 16 w16 16 seed ->
  exists x, XmssBasic_new junk seed 16 hash 0 16 = Ok x /\ forall j msg, (N.of_nat (length msg) <= 2 ^ 22)%N ->
    XmssBasic_sign_s (8 * 2 ^ 20) j (fst (base_setIndex x 0)) msg = XmssBasic_sign j (fst (base_setIndex x 0)) msg.
Proof.
  intros junk seed hash hf HS. destruct (C87_basic_sign_stack junk seed 16 hash hf 0 16 w16 HS) as (x & E & H). exists x. split; [exact E|]. intros j msg Hm.
  apply (H (8 * 2 ^ 20)%N j 0%N msg); [vm_compute; discriminate|]. change (2 ^ 22)%N with 4194304%N in Hm. change (8 * 2 ^ 20)%N with 8388608%N. lia.
Qed.
(** A message as long as the stack cannot be signed. *)
Example C87_case_message : forall junk, exists x, XmssFast_new junk (repeat 0%N 48) 4 1 0 = Ok x /\
  forall m, length m = N.to_nat (2 ^ 23) -> xfast_sign_s (2 ^ 23) x m = UB.
Proof.
  intros junk. assert (HS : supported 1 SHAKE_128 16 w16 4 (repeat 0%N 48)) by (repeat split; auto; lia).
  destruct (C87_sign_stack junk (repeat 0%N 48) 4 1 SHAKE_128 0 HS) as (x & E & H). exists x. split; [exact E|].
  destruct (XmssFast_new_spec junk (repeat 0%N 48) 4 1 SHAKE_128 0 HS) as (x' & E' & HI). assert (x' = x) by (apply Ok_inj; congruence). subst x'.
  apply (inv_getIndex 1 SHAKE_128 4 (repeat 0%N 48) 0 HS) in HI.
  destruct (H []) as (y & os & Ey & _ & H2 & _). cbn [run] in Ey. apply Ok_inj in Ey. apply pair_equal_spec in Ey. destruct Ey as (<- & _).
  intros m Hm. apply H2; [rewrite HI; reflexivity|]. rewrite Hm, N2Nat.id. lia.
Qed.
(** There are valid signatures of messages of every length, so with any stack some
    valid signature makes verify go wrong. *)
Example C87_case_verify : forall L, exists msg sig pk, length msg = N.to_nat L /\
  verify msg sig pk 16 = Ok true /\ verify_s L msg sig pk 16 = UB.
Proof.
  intros L. assert (HS : supported 1 SHAKE_128 16 w16 4 (repeat 0%N 48)) by (repeat split; auto; lia).
  destruct (C17_basic_signatures_verify [] (repeat 0%N 48) 4 1 SHAKE_128 0 16 w16 HS ltac:(lia)) as (x & _ & H).
  destruct (H [] 3%N (repeat 7%N (N.to_nat L)) ltac:(reflexivity)) as (y & sig & _ & HV & _). exists (repeat 7%N (N.to_nat L)), sig, (getPK x).
  split; [apply repeat_length|]. split; [exact HV|]. apply (C87_verify_stack_needed L 16 w16); [reflexivity|exact HV|]. rewrite repeat_length, N2Nat.id. lia.
Qed.
