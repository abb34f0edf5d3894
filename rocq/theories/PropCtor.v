(** C60: for exactly which arguments an object can be constructed. *)
From Coq Require Import List NArith Arith Lia Bool.
From Verif Require Import Base Bytes HashAddress Wots XmssCommon AlgsXmss AlgsXmssFast Descriptor SpecApi XmssObj XmssRefine
  BasicProofs FastProofs DescrProofs VerifyProofs PropObj PropKeys.
From Verif Require Export SpecTerms.
Import ListNotations.
Open Scope N_scope.



Lemma bad_height_iff : forall h, bad_height h = false <-> tree_height h.
Proof.
  intros h. unfold bad_height, tree_height. rewrite orb_false_iff, negb_false_iff, N.leb_gt, N.eqb_eq.
  rewrite N.even_spec. split.
  - intros (H1 & H2). apply N.mod_divide in H2; [|lia]. destruct H2 as [y Ey]. split; [lia|].
    exists (y + 1). lia.
  - intros (H1 & y & Ey). split; [lia|]. apply N.mod_divide; [lia|]. exists (y - 1). lia.
Qed.

(** The three ways a construction can end. *)
Inductive ends {A} : res A -> Prop -> Prop -> Prop -> Prop :=
| ends_ok : forall a (P Q R : Prop), P -> ~ Q -> ~ R -> ends (Ok a) P Q R
| ends_exn : forall (P Q R : Prop), ~ P -> Q -> ~ R -> ends (Exn InvalidArgument) P Q R
| ends_ub : forall (P Q R : Prop), ~ P -> ~ Q -> R -> ends UB P Q R.

(** The same, spelled out: it returns normally exactly if P, throws
    std::invalid_argument exactly if Q, is undefined exactly if R. *)
Definition outcome {A} (r : res A) (P Q R : Prop) : Prop :=
  ((exists a, r = Ok a) <-> P) /\ (r = Exn InvalidArgument <-> Q) /\ (r = UB <-> R).
Lemma ends_outcome : forall A (r : res A) P Q R, ends r P Q R -> outcome r P Q R.
Proof.
  intros A r P Q R H. destruct H; unfold outcome; repeat split; intros; try tauto; try discriminate; eauto.
  all: try (match goal with H : exists _, _ |- _ => destruct H end; discriminate).
Qed.

Lemma ends_iff : forall A (r : res A) (P Q R P' Q' R' : Prop), ends r P Q R -> (P <-> P') -> (Q <-> Q') -> (R <-> R') ->
  ends r P' Q' R'.
Proof. intros A r P Q R P' Q' R' H E1 E2 E3. destruct H; constructor; tauto. Qed.



Lemma supported_of : forall hash hf w wp seed height, hash_of_id hash = Some hf -> winternitz w = Some wp ->
  length seed = 48%nat -> tree_height height -> height <= 30 ->
  cfg_ok (mkCfg hf hash w 0 (N.to_nat height) seed) wp /\ supported hash hf w wp (N.to_nat height) seed.
Proof.
  intros hash hf w wp seed height Hh Hw Hl (H4 & He) H30.
  assert (Nat.even (N.to_nat height) = true).
  { apply N.even_spec in He. destruct He as [y Ey]. apply Nat.even_spec. exists (N.to_nat y). lia. }
  split.
  - constructor; cbn [c_hash c_hf c_w c_height c_seed]; auto. lia.
  - repeat split; auto; lia.
Qed.

Lemma set_params_ok : forall height w wp, winternitz w = Some wp -> tree_height height ->
  exists p, xmss_set_params (N.to_nat height) w 2 = Ok p.
Proof.
  intros height w wp Hw (H4 & He). unfold xmss_set_params.
  assert (E : ((N.to_nat height <=? 2) || (2 <? 2) || negb ((N.to_nat height - 2) mod 2 =? 0))%nat%bool = false).
  { rewrite (proj2 (Nat.leb_gt _ _)) by lia. change (2 <? 2)%nat with false. cbn [orb].
    apply negb_false_iff, Nat.eqb_eq. apply N.even_spec in He. destruct He as [y Ey].
    replace (N.to_nat height - 2)%nat with ((N.to_nat y - 1) * 2)%nat by lia. apply Nat.mod_mul. lia. }
  rewrite E. destruct (wparams_ok w wp Hw) as (E1 & _). rewrite E1. cbn [bind]. eauto.
Qed.

Lemma init_ends : forall junk seed height hash fmt w wp, winternitz w = Some wp -> length seed = 48%nat ->
  ends (initialize_tree junk seed height hash fmt w)
    (tree_height height /\ height <= 30 /\ known_hash hash) (~ tree_height height)
    (tree_height height /\ (30 < height \/ ~ known_hash hash)).
Proof.
  intros junk seed height hash fmt w wp Hw Hl.
  destruct (bad_height height) eqn:Eb.
  { unfold initialize_tree. rewrite Eb. assert (~ tree_height height) by (rewrite <- bad_height_iff, Eb; discriminate).
    constructor; tauto. }
  pose proof (proj1 (bad_height_iff _) Eb) as HT.
  destruct (set_params_ok height w wp Hw HT) as (p & Ep).
  destruct (N.lt_ge_cases 30 height) as [Hg|Hle].
  { unfold initialize_tree. rewrite Eb, Ep. cbn [bind]. rewrite (proj2 (N.leb_le _ _)) by lia.
    constructor; try tauto; try lia. }
  destruct (hash_of_id hash) as [hf|] eqn:Eh.
  - destruct (supported_of hash hf w wp seed height Eh Hw Hl HT Hle) as (_ & S1 & S2 & S3 & S4 & S5).
    assert (HC : cfg_ok (mkCfg hf hash w fmt (N.to_nat height) seed) wp) by (constructor; auto).
    destruct (initialize_tree_spec _ wp HC junk) as (o & E & _).
    cbn [c_seed c_height c_hash c_fmt c_w] in E. rewrite N2Nat.id in E. rewrite E.
    assert (known_hash hash) by (exists hf; auto).
    constructor; try tauto; try lia. intros (_ & [Hx|Hx]); [lia|tauto].
  - assert (~ known_hash hash) by (intros (hf & X); congruence).
    unfold initialize_tree. rewrite Eb, Ep. cbn [bind]. rewrite (proj2 (N.leb_gt _ _)) by lia. unfold with_hash. rewrite Eh.
    constructor; tauto.
Qed.

(** C60, XmssFast(seed, height, hash, format).  (A [height] parameter is a
    uint8_t; 255 is odd, so the test against 254 is implied.) *)
Theorem C60_fast_constructor : forall junk seed height hash fmt,
  outcome (XmssFast_new junk seed height hash fmt)
    (length seed = 48%nat /\ tree_height height /\ height <= 30 /\ known_hash hash)
    (length seed <> 48%nat \/ 254 < height \/ ~ tree_height height)
    (length seed = 48%nat /\ height <= 254 /\ tree_height height /\ (30 < height \/ ~ known_hash hash)).
Proof.
  intros junk seed height hash fmt. apply ends_outcome. unfold XmssFast_new, check_seed.
  destruct (length seed =? 48)%nat eqn:El; cbn [negb bind].
  2:{ apply Nat.eqb_neq in El. constructor; tauto. }
  apply Nat.eqb_eq in El. destruct (254 <? height) eqn:Eg; cbn [bind].
  { apply N.ltb_lt in Eg. constructor; try tauto; try lia. }
  apply N.ltb_ge in Eg. pose proof (init_ends junk seed height hash fmt 16 w16 eq_refl El) as HE.
  inversion HE as [a P Q R H1 H2 H3 E|P Q R H1 H2 H3 E|P Q R H1 H2 H3 E]; subst P Q R; constructor; try tauto;
    try (intros [X|[X|X]]; [tauto|lia|tauto]).
Qed.

(** C60, XmssBasic(seed, height, hash, format, w), any Winternitz parameter of RFC
    8391 (and 2). *)
Theorem C60_basic_constructor : forall junk seed height hash fmt w wp, winternitz w = Some wp ->
  outcome (XmssBasic_new junk seed height hash fmt w)
    (length seed = 48%nat /\ tree_height height /\ height <= 30 /\ known_hash hash)
    (length seed <> 48%nat \/ 254 < height \/ ~ tree_height height)
    (length seed = 48%nat /\ height <= 254 /\ tree_height height /\ (30 < height \/ ~ known_hash hash)).
Proof.
  intros junk seed height hash fmt w wp Hw. apply ends_outcome.
  destruct (length seed =? 48)%nat eqn:El.
  2:{ unfold XmssBasic_new, check_seed. rewrite El. cbn [negb bind]. apply Nat.eqb_neq in El. constructor; tauto. }
  pose proof El as El'. apply Nat.eqb_eq in El. destruct (254 <? height) eqn:Eg.
  { unfold XmssBasic_new, check_seed. rewrite El', Eg. cbn [negb bind]. apply N.ltb_lt in Eg. constructor; try tauto; try lia. }
  destruct (bad_height height) eqn:Eb.
  { unfold XmssBasic_new, check_seed. rewrite El', Eg. cbn [negb bind]. rewrite Eb.
    assert (~ tree_height height) by (rewrite <- bad_height_iff, Eb; discriminate). constructor; tauto. }
  pose proof (proj1 (bad_height_iff _) Eb) as HT.
  destruct (set_params_ok height w wp Hw HT) as (p & Ep). pose proof Eg as Eg'. apply N.ltb_ge in Eg.
  destruct (N.lt_ge_cases 30 height) as [Hg|Hle].
  { unfold XmssBasic_new, check_seed. rewrite El', Eg'. cbn [negb bind]. rewrite Eb, Ep. cbn [bind].
    rewrite (proj2 (N.leb_le _ _)) by lia. constructor; try tauto; try lia. intros [X|[X|X]]; [tauto|lia|tauto]. }
  destruct (hash_of_id hash) as [hf|] eqn:Eh.
  - destruct (supported_of hash hf w wp seed height Eh Hw El HT Hle) as (_ & S1 & S2 & S3 & S4 & S5).
    assert (HC : cfg_ok (mkCfg hf hash w fmt (N.to_nat height) seed) wp) by (constructor; auto).
    pose proof (XmssBasic_new_spec _ wp HC junk) as E.
    cbn [c_seed c_height c_hash c_fmt c_w] in E. rewrite N2Nat.id in E. rewrite E.
    assert (known_hash hash) by (exists hf; auto).
    constructor; try tauto.
    + intros [X|[X|X]]; [tauto|lia|tauto].
    + intros (_ & _ & _ & [X|X]); [lia|tauto].
  - assert (~ known_hash hash) by (intros (hf & X); congruence).
    unfold XmssBasic_new, check_seed. rewrite El', Eg'. cbn [negb bind]. rewrite Eb, Ep. cbn [bind].
    rewrite (proj2 (N.leb_gt _ _)) by lia. unfold with_hash. rewrite Eh.
    constructor; try tauto. intros [X|[X|X]]; [tauto|lia|tauto].
Qed.

(** C60, XmssFast(extended_seed): 51 bytes, height nibble at least 2; the other
    failure is an unknown hash nibble. *)
Theorem C60_extended_seed_constructor : forall junk es, all_bytes es ->
  let hgt := 2 * (nth 1 es 0 mod 16) in
  outcome (XmssFast_from_extended_seed junk es)
    (length es = 51%nat /\ 4 <= hgt /\ known_hash (nth 0 es 0 mod 16))
    (length es <> 51%nat \/ hgt < 4)
    (length es = 51%nat /\ 4 <= hgt /\ ~ known_hash (nth 0 es 0 mod 16)).
Proof.
  intros junk es Hb hgt. apply ends_outcome. unfold XmssFast_from_extended_seed, parse_extended_seed.
  destruct (length es =? 51)%nat eqn:El; cbn [negb bind].
  2:{ apply Nat.eqb_neq in El. constructor; tauto. }
  unfold descr_fromExtendedSeed. rewrite El. cbn [negb]. apply Nat.eqb_eq in El.
  unfold descr_getSize. rewrite firstn_3 by lia. rewrite fromBytes_arith by (apply all_bytes_nth; auto).
  cbn [bind d_height d_hash d_fmt].
  assert (Eh : 2 * (nth 1 es 0 mod 16) = hgt) by reflexivity. rewrite Eh.
  pose proof (N.mod_upper_bound (nth 1 es 0) 16 ltac:(lia)) as Hub.
  assert (HT : tree_height hgt <-> 4 <= hgt).
  { unfold tree_height. split; [tauto|]. intros X. split; [exact X|]. apply N.even_spec. exists (nth 1 es 0 mod 16). reflexivity. }
  assert (H30 : hgt <= 30) by lia.
  match goal with |- ends (initialize_tree junk ?s ?h ?hs ?f 16) _ _ _ =>
    pose proof (init_ends junk s h hs f 16 w16 eq_refl) as HE end.
  specialize (HE ltac:(rewrite skipn_length, El; reflexivity)). clear Eh. clearbody hgt.
  assert (HL : hgt < 4 <-> ~ tree_height hgt) by (rewrite HT; lia).
  assert (H31 : ~ 30 < hgt) by lia.
  eapply ends_iff; [exact HE| | |]; tauto.
Qed.

(** All three outcomes occur: a good seed; a 49-byte seed and an odd height;
    hash id 7 and height 32. *)
Example C60_ok : exists x, XmssFast_new [] (repeat 0 48) 4 0 0 = Ok x.
Proof.
  apply (C60_fast_constructor [] (repeat 0 48) 4 0 0). repeat split; try reflexivity; try discriminate. exists SHA2_256. reflexivity.
Qed.
Example C60_exn : XmssFast_new [] (repeat 0 49) 4 0 0 = Exn InvalidArgument /\ XmssFast_new [] (repeat 0 48) 5 0 0 = Exn InvalidArgument.
Proof. split; reflexivity. Qed.
Example C60_ub : XmssFast_new [] (repeat 0 48) 32 0 0 = UB /\ XmssFast_new [] (repeat 0 48) 4 7 0 = UB.
Proof. split; reflexivity. Qed.
