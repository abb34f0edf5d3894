(** C55-C57: wallet backups and address strings through the JavaScript API. *)
(** Concrete cases for the hypotheses below: CasesXmss.v and CasesMisc.v. *)
From Coq Require Import String List NArith Arith Lia Bool.
From Verif Require Import Base Bytes Keccak Sha256 KeccakLemmas HashAddress SpecXmss SpecApi Wots XmssCommon Descriptor XmssObj
  BasicProofs FastProofs DescrProofs VerifyProofs PropObj PropKeys PropDescr Wordlist WordlistProofs Misc SpecMisc PropMisc JsWrapper.
From Verif Require Export SpecTerms2.
Import ListNotations.
Open Scope nat_scope.

(** ** Reading hexadecimal in any capitalisation *)
Lemma lower_length : forall s, length (lower s) = length s.
Proof. intros. apply map_length. Qed.

Lemma hex_chars_is : forall c : N, In c hex_chars -> ((48 <= c <= 57) \/ (97 <= c <= 102))%N.
Proof. intros c H. cbn in H. lia. Qed.

Lemma is_hex_range : forall c : N, ((48 <= c <= 57) \/ (97 <= c <= 102) \/ (65 <= c <= 70))%N -> is_hex c.
Proof.
  intros c H. unfold is_hex. cbn.
  repeat match goal with |- ?a = c \/ _ => destruct (N.eq_dec a c); [left; assumption|right] end. lia.
Qed.

Lemma hex_text_chars : forall v, all_bytes v -> Forall (fun c => In c hex_chars) (hex_text v).
Proof.
  intros v H. apply Forall_forall. intros c Hc. apply in_flat_map in Hc. destruct Hc as (b & Hb & Hc).
  unfold all_bytes in H. rewrite Forall_forall in H. specialize (H b Hb). destruct (byte_parts b H) as (P1 & P2 & _).
  destruct Hc as [<-|[<-|[]]]; apply nth_In; change (length hex_chars) with 16; lia.
Qed.

Lemma lower_hex : forall s, Forall (fun c => In c hex_chars) (lower s) -> ascii s /\ Forall is_hex s.
Proof.
  intros s H. induction s as [|c s IH]; [split; constructor|].
  cbn [lower map] in H. fold (lower s) in H. inversion H as [|? ? Hc Hs]; subst. destruct (IH Hs) as [A B].
  assert (R : ((48 <= c <= 57) \/ (97 <= c <= 102) \/ (65 <= c <= 70))%N).
  { apply hex_chars_is in Hc. destruct ((65 <=? c) && (c <=? 90))%N eqn:E; [|lia].
    apply andb_true_iff in E. destruct E as [E1 E2]. apply N.leb_le in E1. apply N.leb_le in E2. lia. }
  split; constructor; auto; [lia|]. now apply is_hex_range.
Qed.

Lemma hex_text_inj : forall v v', all_bytes v -> all_bytes v' -> (2 * N.of_nat (length v) < 2 ^ 31)%N ->
  (2 * N.of_nat (length v') < 2 ^ 31)%N -> hex_text v = hex_text v' -> v = v'.
Proof.
  intros v v' B B' L L' E. destruct (C01_hex_round_trip v B L) as (_ & _ & _ & R). destruct (C01_hex_round_trip v' B' L') as (_ & _ & _ & R').
  rewrite E in R. rewrite R in R'. now apply Ok_inj in R'.
Qed.

Lemma decode_any_case : forall v s, all_bytes v -> (2 * N.of_nat (length v) < 2 ^ 31)%N -> lower s = hex_text v -> hstr2bin s = Ok v.
Proof.
  intros v s B L E. pose proof (hex_text_chars v B) as HC. rewrite <- E in HC. destruct (lower_hex s HC) as [A X].
  assert (LS : length s = 2 * length v) by (now rewrite <- lower_length, E, hex_text_length).
  destruct (C02_hex_decoder s A) as [D _]; [rewrite LS; lia|].
  destruct D as (v' & R & B' & L' & E'). { split; auto. rewrite LS, Nat.even_mul. reflexivity. }
  rewrite R. f_equal. apply hex_text_inj; auto; [lia|]. congruence.
Qed.

(** ** The key behind an extended seed *)
Definition extended (hash : N) (height : nat) (seed : list N) : list N :=
  [hash; N.of_nat (height / 2); 0%N] ++ seed.

Lemma extended_bytes : forall hash hf height seed, supported hash hf 16 w16 height seed ->
  descr_getBytes (mkDescr hash 0 (N.of_nat height) 0) = [hash; N.of_nat (height / 2); 0%N].
Proof.
  intros hash hf height seed (Hh & _ & Hb & He & _). pose proof (hash_id_small _ _ Hh) as Hs.
  rewrite getBytes_arith. cbn [d_sig d_hash d_fmt d_height]. change (0 mod 16)%N with 0%N.
  rewrite Nat2N.inj_div. change (N.of_nat 2) with 2%N.
  assert (N.of_nat height / 2 <= 15)%N by (apply N.div_le_upper_bound; lia).
  rewrite !N.mod_small by lia. reflexivity.
Qed.

Lemma even_half : forall h, Nat.even h = true -> 2 * (h / 2) = h.
Proof.
  intros h H. apply Nat.even_spec in H. destruct H as [m ->]. rewrite (Nat.mul_comm 2 m), Nat.div_mul; lia.
Qed.

Lemma parse_ext : forall b0 b1 b2 seed, all_bytes (b0 :: b1 :: b2 :: seed) -> length seed = 48 ->
  descr_fromExtendedSeed (b0 :: b1 :: b2 :: seed) = Ok (mkDescr (b0 mod 16) 0 (2 * (b1 mod 16)) (b1 / 16))%N.
Proof.
  intros b0 b1 b2 seed HB HL. inversion HB as [|? ? H0 HB1]; subst. inversion HB1 as [|? ? H1 _]; subst.
  unfold descr_fromExtendedSeed. cbn [length]. rewrite HL. cbn [Nat.eqb negb]. unfold descr_getSize.
  change (firstn 3 (b0 :: b1 :: b2 :: seed)) with [b0; b1; b2]. apply fromBytes_arith; auto.
Qed.

Lemma ext_all_bytes : forall hash hf height seed, supported hash hf 16 w16 height seed -> all_bytes seed ->
  all_bytes (extended hash height seed) /\ length (extended hash height seed) = 51.
Proof.
  intros hash hf height seed (Hh & _ & Hb & He & HL) HB. pose proof (hash_id_small _ _ Hh) as Hs. split.
  - repeat constructor; auto; unfold is_byte; try lia. pose proof (even_half _ He). lia.
  - unfold extended. rewrite app_length, HL. reflexivity.
Qed.

Lemma import_ext : forall junk hash hf height seed, supported hash hf 16 w16 height seed -> all_bytes seed ->
  js_fromExtendedSeed junk (extended hash height seed) = XmssFast_new junk seed (N.of_nat height) hash 0.
Proof.
  intros junk hash hf height seed HS HB. destruct (ext_all_bytes _ _ _ _ HS HB) as [EB _].
  pose proof HS as (Hh & _ & Hb & He & HL). pose proof (hash_id_small _ _ Hh) as Hs. pose proof (even_half _ He).
  unfold js_fromExtendedSeed, extended in *. cbn [app] in *. rewrite parse_ext by auto. cbn [bind d_height d_hash].
  unfold descr_getSize. change (skipn 3 (hash :: N.of_nat (height / 2) :: 0%N :: seed)) with seed. unfold SHA256_2X.
  f_equal; [|apply N.mod_small; lia]. rewrite N.mod_small by lia. lia.
Qed.



Lemma two_news : forall junk junk' hash hf height seed, supported hash hf 16 w16 height seed ->
  exists x z, XmssFast_new junk seed (N.of_nat height) hash 0 = Ok x /\ XmssFast_new junk' seed (N.of_nat height) hash 0 = Ok z /\
    same_wallet x z /\ js_getIndex x = 0%N /\
    forall cs y os, run x cs = Ok (y, os) -> getExtendedSeed (xf_base y) = extended hash height seed /\
      getPK (xf_base y) = getPK (xf_base x) /\ xb_height (xf_base y) = N.of_nat height.
Proof.
  intros junk junk' hash hf height seed HS.
  destruct (new_run _ _ _ _ 0%N HS junk) as (x & E & HR). destruct (new_run _ _ _ _ 0%N HS junk') as (z & Ez & HRz).
  exists x, z. split; auto. split; auto.
  destruct (HR []) as (x0 & R0 & I0). injection R0 as <-. destruct (HRz []) as (z0 & S0 & J0). injection S0 as <-.
  cbn [ref_run fst] in I0, J0.
  assert (EB : xf_base z = xf_base x) by (destruct I0 as (-> & _); destruct J0 as (-> & _); reflexivity).
  split.
  { unfold same_wallet, js_getIndex, js_getPKRaw, js_getAddress. rewrite EB. do 4 (split; [reflexivity|]).
    intros cs. destruct (HR cs) as (x' & R1 & I1). destruct (HRz cs) as (z' & R2 & I2).
    exists x', z'. eexists. split; [exact R1|]. split; [exact R2|]. destruct I1 as (-> & _). destruct I2 as (-> & _). reflexivity. }
  split. { apply (inv_getIndex _ _ _ _ _ HS _ _ I0). }
  intros cs y os Er. destruct (C14_key_layout junk seed height hash hf 0%N HS) as (x1 & E1 & K). rewrite E in E1. injection E1 as <-.
  specialize (K cs y os Er). cbv zeta in K. destruct K as (_ & _ & _ & _ & _ & _ & _ & _ & _ & K1 & K2 & _ & _ & K4 & K3).
  split; [|split].
  - unfold getExtendedSeed. rewrite K3. unfold getDescriptorBytes. rewrite K4.
    destruct I0 as (-> & _). unfold getDescriptor. cbn [c_obj xb_hash xb_height xb_fmt c_hash c_height c_fmt].
    now rewrite (extended_bytes _ _ _ _ HS).
  - exact K1.
  - assert (H : d_height (getDescriptor (xf_base y)) = d_height (getDescriptor (xf_base x))) by now rewrite K4.
    cbn [getDescriptor d_height] in H. rewrite H. destruct I0 as (-> & _). reflexivity.
Qed.

(** ** C55 *)
Theorem C55_hex_seed_backup : forall junk junk' seed height hash hf,
  supported hash hf 16 w16 height seed -> all_bytes seed ->
  exists x, js_fromParameters junk seed (N.of_nat height) hash = Ok x /\
    forall cs y os, run x cs = Ok (y, os) ->
      exists hex, js_getHexSeed y = Ok hex /\ length hex = 102 /\
        forall hex', lower hex' = hex ->
          exists z, js_fromHexSeed junk' hex' = Ok z /\ same_wallet x z /\ js_getIndex z = 0%N.
Proof.
  intros junk junk' seed height hash hf HS HB. destruct (two_news junk junk' _ _ _ _ HS) as (x & z & Ex & Ez & HW & H0 & HR).
  exists x. split; [exact Ex|]. intros cs y os Er. destruct (HR cs y os Er) as (Ee & _).
  destruct (ext_all_bytes _ _ _ _ HS HB) as [EB EL].
  assert (LB : (2 * N.of_nat (length (extended hash height seed)) < 2 ^ 31)%N) by (rewrite EL; reflexivity).
  destruct (C01_hex_round_trip _ EB LB) as (R1 & R2 & _ & _).
  exists (hex_text (extended hash height seed)). unfold js_getHexSeed. rewrite Ee. split; [exact R1|]. split; [now rewrite R2, EL|].
  intros hex' Eh. exists z. split.
  { unfold js_fromHexSeed. rewrite (decode_any_case _ _ EB LB Eh). cbn [bind]. now rewrite (import_ext _ _ _ _ _ HS HB). }
  split; auto. destruct HW as (_ & -> & _). exact H0.
Qed.

Theorem C55_mnemonic_backup : forall junk junk' seed height hash hf,
  supported hash hf 16 w16 height seed -> all_bytes seed ->
  exists x, js_fromParameters junk seed (N.of_nat height) hash = Ok x /\
    forall cs y os, run x cs = Ok (y, os) ->
      exists ws text, js_getMnemonic y = Ok text /\ text = join 32 ws /\ length ws = 34 /\ Forall (fun w => In w wordlist) ws /\
        forall text', words text' = ws -> Nat.even (blanks text') = false ->
          exists z, js_fromMnemonic junk' text' = Ok z /\ same_wallet x z /\ js_getIndex z = 0%N.
Proof.
  intros junk junk' seed height hash hf HS HB. destruct (two_news junk junk' _ _ _ _ HS) as (x & z & Ex & Ez & HW & H0 & HR).
  exists x. split; [exact Ex|]. intros cs y os Er. destruct (HR cs y os Er) as (Ee & _).
  destruct (ext_all_bytes _ _ _ _ HS HB) as [EB EL].
  assert (LB : (2 * N.of_nat (length (extended hash height seed)) < 2 ^ 31)%N) by (rewrite EL; reflexivity).
  destruct (C04_mnemonic_round_trip _ EB ltac:(discriminate) LB) as [M _].
  destruct M as (ws & text & M1 & M2 & M3 & M4 & M5); [now rewrite EL|].
  exists ws, text. unfold js_getMnemonic. rewrite Ee. split; [exact M1|]. split; [exact M2|]. split; [rewrite EL in M4; lia|]. split; [exact M3|].
  intros text' Hw Hb. exists z. split.
  { unfold js_fromMnemonic.
    assert (HP : Forall plain ws) by (apply Forall_forall; intros w Hin; rewrite Forall_forall in M3; apply word_plain; auto).
    assert (Ewt : words text = ws) by (rewrite M2; apply words_join; exact HP).
    rewrite C05_mnemonic_decoder in M5. rewrite Ewt in M5. rewrite C05_mnemonic_decoder, Hb, Hw.
    destruct (Nat.even (blanks text)); [discriminate|]. rewrite M5. cbn [bind]. now rewrite (import_ext _ _ _ _ _ HS HB). }
  split; auto. destruct HW as (_ & -> & _). exact H0.
Qed.

(** ** C56: which backup texts are accepted, and what becomes of them. *)
Lemma new_outcome : forall junk seed b1 hash fmt, length seed = 48 -> (b1 < 16)%N -> (hash < 16)%N ->
  match XmssFast_new junk seed (2 * b1) hash fmt with
  | Ok z => (2 <= b1)%N /\ (hash < 3)%N /\ xb_hash (xf_base z) = hash /\ xb_fmt (xf_base z) = fmt /\
            xb_height (xf_base z) = (2 * b1)%N /\ xb_seed (xf_base z) = seed
  | Exn e => e = InvalidArgument /\ (b1 < 2)%N
  | UB => (2 <= b1)%N /\ (3 <= hash)%N
  end.
Proof.
  intros junk seed b1 hash fmt HL H1 Hh.
  destruct (N.lt_ge_cases b1 2) as [Hs|Hs].
  - unfold XmssFast_new, check_seed. rewrite HL. cbn [Nat.eqb negb]. rewrite (proj2 (N.ltb_ge _ _)) by lia. cbn [bind].
    unfold initialize_tree, bad_height. rewrite (proj2 (N.leb_le _ _)) by lia. split; auto.
  - destruct (hash_of_id hash) as [hf|] eqn:Eh.
    + assert (HS : supported hash hf 16 w16 (N.to_nat (2 * b1)) seed).
      { repeat split; auto; try lia. rewrite N2Nat.inj_mul, Nat.even_mul. reflexivity. }
      destruct (XmssFast_new_spec junk seed (N.to_nat (2 * b1)) hash hf fmt HS) as (x & E & HI). rewrite N2Nat.id in E. rewrite E.
      destruct HI as (-> & _). cbn [c_obj xb_hash xb_fmt xb_height xb_seed c_hash c_fmt c_height c_seed].
      pose proof (hash_id_small _ _ Eh). repeat split; auto. lia.
    + assert (3 <= hash)%N.
      { destruct (N.lt_ge_cases hash 3) as [Hlt|]; auto. exfalso.
        assert (E : hash = 0%N \/ hash = 1%N \/ hash = 2%N) by lia. destruct E as [->|[->| ->]]; discriminate. }
      assert (E0 : hash_of_id 0 = Some SHA2_256) by reflexivity.
      assert (HS : supported 0 SHA2_256 16 w16 (N.to_nat (2 * b1)) seed).
      { repeat split; auto; try lia. rewrite N2Nat.inj_mul, Nat.even_mul. reflexivity. }
      destruct (XmssFast_new_spec junk seed (N.to_nat (2 * b1)) 0 SHA2_256 fmt HS) as (x & E & _). rewrite N2Nat.id in E.
      revert E. unfold XmssFast_new, initialize_tree, with_hash. rewrite Eh.
      destruct (check_seed seed (2 * b1)); cbn [bind]; try discriminate.
      destruct (bad_height (2 * b1)); try discriminate.
      destruct (xmss_set_params (N.to_nat (2 * b1)) 16 2); cbn [bind]; try discriminate.
      destruct (31 <=? 2 * b1)%N; try discriminate. intros _. split; auto.
Qed.

(** Byte [k] written in a string of hexadecimal digits. *)
Theorem C56_hex_seed_import : forall junk s, ascii s -> (N.of_nat (length s) < 2 ^ 31)%N ->
  (~ (length s = 102 /\ Forall is_hex s) -> js_fromHexSeed junk s = Exn InvalidArgument) /\
  (length s = 102 /\ Forall is_hex s ->
     exists b0 b1 b2 seed, all_bytes (b0 :: b1 :: b2 :: seed) /\ length seed = 48 /\ hex_text (b0 :: b1 :: b2 :: seed) = lower s /\
       ((b1 mod 16 < 2)%N -> js_fromHexSeed junk s = Exn InvalidArgument) /\
       ((2 <= b1 mod 16)%N -> (3 <= b0 mod 16)%N -> js_fromHexSeed junk s = UB) /\
       ((2 <= b1 mod 16)%N -> (b0 mod 16 < 3)%N ->
          exists z, js_fromHexSeed junk s = Ok z /\ js_getHeight z = (2 * (b1 mod 16))%N /\ js_getIndex z = 0%N /\
            (* what the object exports again: the ignored bits are gone *)
            js_getHexSeed z = Ok (hex_text ([b0 mod 16; b1 mod 16; 0]%N ++ seed)) /\
            (* the C++ constructor on the same bytes: it keeps the address format *)
            exists z', XmssFast_from_extended_seed junk (b0 :: b1 :: b2 :: seed) = Ok z' /\
              getExtendedSeed (xf_base z') = [b0 mod 16; b1; 0]%N ++ seed /\
              (getPK (xf_base z') = getPK (xf_base z) <-> (b1 < 16)%N))).
Proof.
  intros junk s HA HL. destruct (C02_hex_decoder s HA HL) as [D1 D2]. unfold js_fromHexSeed.
  assert (DEC : Nat.even (length s) = true /\ Forall is_hex s \/ ~ (Nat.even (length s) = true /\ Forall is_hex s)).
  { destruct (Nat.even (length s)); [|right; intros [X _]; discriminate].
    destruct (Forall_dec is_hex (fun c => in_dec N.eq_dec c _) s) as [F|F]; [left; auto|right; tauto]. }
  split.
  - intros HN. destruct DEC as [HY|HY].
    + destruct (D1 HY) as (v & Ev & _ & Lv & _). rewrite Ev. cbn [bind]. unfold js_fromExtendedSeed, descr_fromExtendedSeed.
      destruct (length v =? 51) eqn:E5; [|reflexivity]. apply Nat.eqb_eq in E5. destruct HN. split; [lia|tauto].
    + now rewrite D2.
  - intros [L102 HX]. destruct D1 as (v & Ev & Bv & Lv & Hv); [rewrite L102; split; auto|]. rewrite Ev. cbn [bind].
    assert (L51 : length v = 51) by lia.
    destruct v as [|b0 [|b1 [|b2 seed]]]; try discriminate L51. assert (L48 : length seed = 48) by (cbn [length] in L51; lia).
    exists b0, b1, b2, seed. split; auto. split; auto. split; auto.
    inversion Bv as [|? ? B0 Bv1]; subst. inversion Bv1 as [|? ? B1 Bv2]; subst. unfold is_byte in B0, B1.
    unfold js_fromExtendedSeed. rewrite parse_ext by auto. cbn [bind d_height d_hash]. unfold descr_getSize.
    change (skipn 3 (b0 :: b1 :: b2 :: seed)) with seed.
    assert (M0 : (b0 mod 16 < 16)%N) by (apply N.mod_lt; lia). assert (M1 : (b1 mod 16 < 16)%N) by (apply N.mod_lt; lia).
    pose proof (new_outcome junk seed (b1 mod 16)%N (b0 mod 16)%N SHA256_2X L48 M1 M0) as HO.
    split; [|split].
    + intros Hlt. destruct (XmssFast_new junk seed (2 * (b1 mod 16)) (b0 mod 16) SHA256_2X) as [z|e|]; [lia| |lia]. destruct HO as [-> _]. reflexivity.
    + intros Hge Hh. destruct (XmssFast_new junk seed (2 * (b1 mod 16)) (b0 mod 16) SHA256_2X) as [z|e|]; [lia|lia|reflexivity].
    + intros Hge Hh.
      destruct (hash_of_id (b0 mod 16)) as [hf|] eqn:Eh.
      2:{ exfalso. revert Hh Eh. clear. generalize (b0 mod 16)%N. intros q Hq Eh.
          assert (E : (q = 0 \/ q = 1 \/ q = 2)%N) by lia. destruct E as [E|[E|E]]; rewrite E in Eh; discriminate. }
      assert (HS : supported (b0 mod 16) hf 16 w16 (N.to_nat (2 * (b1 mod 16))) seed).
      { repeat split; auto; try lia. rewrite N2Nat.inj_mul, Nat.even_mul. reflexivity. }
      pose proof (even_half _ (proj1 (proj2 (proj2 (proj2 HS))))) as EH2.
      destruct (two_news junk junk _ _ _ _ HS) as (z & _ & Ez & _ & _ & I0 & HR). rewrite N2Nat.id in Ez. exists z. split; [exact Ez|].
      destruct (HR [] z [] eq_refl) as (X1 & _ & X2).
      split. { unfold js_getHeight. rewrite X2. apply N2Nat.id. }
      split; [exact I0|].
      assert (EX : extended (b0 mod 16) (N.to_nat (2 * (b1 mod 16))) seed = ([b0 mod 16; b1 mod 16; 0]%N ++ seed)).
      { unfold extended. assert (EQ : N.of_nat (N.to_nat (2 * (b1 mod 16)) / 2) = (b1 mod 16)%N).
        { set (q := N.to_nat (2 * (b1 mod 16)) / 2) in *. lia. }
        now rewrite EQ. }
      rewrite EX in X1. split.
      { unfold js_getHexSeed. rewrite X1. refine (proj1 (C01_hex_round_trip _ _ _)).
        - apply Forall_app. split; [|now inversion Bv2]. repeat constructor; unfold is_byte; lia.
        - rewrite app_length, L48. reflexivity. }
      assert (HF : (b1 / 16 < 16)%N) by (apply N.div_lt_upper_bound; lia).
      destruct (XmssFast_new_spec junk seed _ _ hf (b1 / 16)%N HS) as (z' & Ez' & Iz').
      exists z'. split.
      { unfold XmssFast_from_extended_seed, parse_extended_seed. cbn [length]. rewrite L48. cbn [Nat.eqb negb].
        rewrite parse_ext by auto. cbn [bind d_height d_hash d_fmt]. unfold descr_getSize. change (skipn 3 (b0 :: b1 :: b2 :: seed)) with seed.
        rewrite N2Nat.id in Ez'. revert Ez'. unfold XmssFast_new. unfold check_seed. rewrite L48. cbn [Nat.eqb negb].
        rewrite (proj2 (N.ltb_ge _ _)) by lia. cbn [bind]. auto. }
      destruct (XmssFast_new_spec junk seed _ _ hf 0%N HS) as (z2 & Ez2 & Iz2). rewrite N2Nat.id in Ez2. unfold SHA256_2X in Ez. rewrite Ez in Ez2. injection Ez2 as <-.
      assert (GB : forall fmt, (fmt < 16)%N -> descr_getBytes (mkDescr (b0 mod 16) 0 (N.of_nat (N.to_nat (2 * (b1 mod 16)))) fmt) = [b0 mod 16; fmt * 16 + b1 mod 16; 0]%N).
      { intros fmt Hf. rewrite getBytes_arith. cbn [d_sig d_hash d_fmt d_height]. rewrite N2Nat.id, (N.mul_comm 2), N.div_mul by lia.
        rewrite (N.mod_mod b0), (N.mod_mod b1) by lia. rewrite (N.mod_small fmt) by lia. rewrite (N.mul_comm 16 fmt). reflexivity. }
      assert (D16 : (b1 / 16 * 16 + b1 mod 16 = b1)%N) by (rewrite N.mul_comm; symmetry; apply N.div_mod'; lia).
      split.
      { destruct Iz' as (-> & _). unfold getExtendedSeed, getDescriptorBytes, getDescriptor. cbn [c_obj xb_hash xb_height xb_fmt xb_seed c_hash c_height c_fmt c_seed].
        rewrite (GB (b1 / 16)%N HF). now rewrite D16. }
      destruct Iz' as (-> & _). destruct Iz2 as (-> & _).
      unfold getPK, getDescriptorBytes, getDescriptor, getRoot, getPKSeed. cbn [c_obj xb_hash xb_height xb_fmt xb_sk c_hash c_height c_fmt].
      rewrite (GB (b1 / 16)%N HF), (GB 0%N) by lia. rewrite D16. cbn [app].
      split.
      * intros E. apply (f_equal (fun l => nth 1 l 0%N)) in E. cbn [nth] in E. lia.
      * intros H16. rewrite (N.mod_small b1 16) by lia.
        assert (Eq : (b1 / 16 = 0)%N) by (apply N.div_small; lia). rewrite Eq. reflexivity.
Qed.

(** ** C57: address strings. *)
Lemma pk_bytes : forall junk seed height hash hf, supported hash hf 16 w16 height seed ->
  forall x, XmssFast_new junk seed (N.of_nat height) hash 0 = Ok x ->
  all_bytes (getPK (xf_base x)) /\ length (getPK (xf_base x)) = 67 /\
  firstn 3 (getPK (xf_base x)) = [hash; N.of_nat (height / 2); 0%N].
Proof.
  intros junk seed height hash hf HS x Ex. destruct (C14_key_layout junk seed height hash hf 0%N HS) as (x1 & E1 & K).
  rewrite Ex in E1. injection E1 as <-. specialize (K [] x [] eq_refl). cbv zeta in K.
  destruct K as (_ & _ & _ & _ & K1 & K2 & K3 & K4 & _). rewrite K3. rewrite (extended_bytes _ _ _ _ HS).
  split; [|split].
  - pose proof HS as (Hh & _ & Hb & He & HL). pose proof (hash_id_small _ _ Hh). pose proof (even_half _ He).
    apply Forall_app. split; [repeat constructor; unfold is_byte; lia|]. apply Forall_app. split.
    + rewrite K2. unfold ref_root. destruct height; [lia|]. cbn [node]. apply keyed_bytes.
    + rewrite K1. unfold key_pub, key_stream. apply all_bytes_firstn, all_bytes_skipn, shake256_bytes.
  - rewrite (extended_bytes _ _ _ _ HS) in K3. now rewrite <- K3.
  - reflexivity.
Qed.

Lemma bin_address : forall c s v, all_bytes v -> (2 * N.of_nat (length v) < 2 ^ 31)%N -> lower s = hex_text v -> 3 <= length v ->
  js_getBinAddress (c :: s) = Ok v.
Proof.
  intros c s v B L E H. unfold js_getBinAddress. cbn [length]. rewrite <- (lower_length s), E, hex_text_length.
  unfold descr_getSize. rewrite (proj2 (Nat.ltb_ge _ _)) by lia. change (skipn 1 (c :: s)) with s. now apply decode_any_case.
Qed.

Lemma address_getters : forall s b0 b1 b2 v, js_getBinAddress s = Ok (b0 :: b1 :: b2 :: v) -> all_bytes (b0 :: b1 :: b2 :: v) ->
  js_getHashFunction s = Ok (b0 mod 16)%N /\ js_height_of_address s = Ok (2 * (b1 mod 16))%N /\ js_getSignatureType s = Ok 0%N.
Proof.
  intros s b0 b1 b2 v E B. inversion B as [|? ? B0 B']; subst. inversion B' as [|? ? B1 _]; subst.
  assert (F : js_descr_of (b0 :: b1 :: b2 :: v) = Ok (mkDescr (b0 mod 16) 0 (2 * (b1 mod 16)) (b1 / 16))%N).
  { unfold js_descr_of, descr_getSize. cbn [length]. rewrite (proj2 (Nat.ltb_ge _ _)) by lia.
    change (firstn 3 (b0 :: b1 :: b2 :: v)) with [b0; b1; b2]. now apply fromBytes_arith. }
  unfold js_getHashFunction, js_height_of_address, js_getSignatureType. rewrite E. cbn [bind].
  assert (L : (length (b0 :: b1 :: b2 :: v) <? descr_getSize) = false) by (cbn [length]; apply Nat.ltb_ge; unfold descr_getSize; lia).
  rewrite L, F. cbn [bind d_hash d_height d_sig]. auto.
Qed.

Theorem C57_wallet_address : forall junk seed height hash hf, supported hash hf 16 w16 height seed ->
  exists x, js_fromParameters junk seed (N.of_nat height) hash = Ok x /\
    forall cs y os, run x cs = Ok (y, os) ->
      exists a pkhex, js_getAddressRaw y = Ok a /\ length a = 39 /\
        js_getAddress y = Ok (81%N :: hex_text a) /\ js_getPK y = Ok pkhex /\
        (* any first character and any capitalisation will do *)
        (forall c s, lower s = hex_text a ->
           js_validateAddress (c :: s) = Ok true /\ js_getHashFunction (c :: s) = Ok hash /\
           js_height_of_address (c :: s) = Ok (N.of_nat height) /\ js_getSignatureType (c :: s) = Ok 0%N) /\
        (* the function on public keys leaves the letter out, and its result is
           not accepted as it stands *)
        js_address_of_pk pkhex = Ok (hex_text a) /\ js_validateAddress (hex_text a) = Exn InvalidArgument.
Proof.
  intros junk seed height hash hf HS. destruct (two_news junk junk _ _ _ _ HS) as (x & _ & Ex & _ & _ & _ & HR).
  exists x. split; [exact Ex|]. intros cs y os Er. destruct (HR cs y os Er) as (_ & Epk & _).
  destruct (pk_bytes junk seed height hash hf HS x Ex) as (PB & PL & P3).
  destruct (C11_generated_addresses_valid (getPK (xf_base x)) PB) as (A1 & A2 & A3).
  pose proof HS as (Hh & _ & Hb & He & HL). pose proof (hash_id_small _ _ Hh) as Hs. pose proof (even_half _ He) as E2.
  assert (HH : (N.of_nat (height / 2) < 16)%N) by lia.
  assert (N01 : nth 0 (getPK (xf_base x)) 0%N = hash /\ nth 1 (getPK (xf_base x)) 0%N = N.of_nat (height / 2)).
  { rewrite <- (firstn_skipn 3 (getPK (xf_base x))), P3. split; reflexivity. }
  destruct N01 as [N0 N1].
  destruct (getAddress (getPK (xf_base x))) as [a|e|] eqn:Ea; [| |now destruct A2].
  2:{ exfalso. assert (G : getAddress (getPK (xf_base x)) <> Exn InvalidArgument).
      { rewrite Ea. intros Heq. apply A1 in Heq. destruct Heq as [Hq|Hq]; [contradiction|]. rewrite N1 in Hq. apply Hq. apply N.div_small. lia. }
      apply G. rewrite Ea. f_equal. unfold getAddress, descr_fromExtendedPK in Ea. rewrite PL in Ea. cbn [Nat.eqb negb] in Ea.
      unfold descr_getSize in Ea. rewrite P3 in Ea. rewrite fromBytes_arith in Ea by lia. cbn [bind d_fmt] in Ea.
      destruct (negb _) in Ea; [now injection Ea|discriminate]. }
  destruct (A3 a eq_refl) as (La & Ba & F3 & _ & Va). rewrite N0, N1, N.mod_small in F3 by lia.
  assert (LB : (2 * N.of_nat (length a) < 2 ^ 31)%N) by (rewrite La; reflexivity).
  destruct (C01_hex_round_trip a Ba LB) as (R1 & R2 & _ & R4).
  assert (LP : (2 * N.of_nat (length (getPK (xf_base x))) < 2 ^ 31)%N) by (rewrite PL; reflexivity).
  destruct (C01_hex_round_trip _ PB LP) as (Q1 & Q2 & _ & Q4).
  exists a, (hex_text (getPK (xf_base x))).
  unfold js_getAddressRaw, js_getAddress, js_getPK, obj_getAddress. rewrite Epk, Ea. cbn [bind]. rewrite R1. cbn [bind].
  split; [reflexivity|]. split; [exact La|]. split; [reflexivity|]. split; [exact Q1|]. split.
  { intros c s Es. assert (BA : js_getBinAddress (c :: s) = Ok a) by (apply bin_address; auto; lia). split.
    - unfold js_validateAddress. rewrite BA. exact Va.
    - destruct a as [|b0 [|b1 [|b2 a]]]; try discriminate La. injection F3 as -> -> _.
      destruct (address_getters _ _ _ _ _ BA Ba) as (G1 & G2 & G3). rewrite G1, G2, G3.
      split; [f_equal; apply N.mod_small; lia|]. split; [|reflexivity]. f_equal. rewrite N.mod_small by exact HH. clear - E2. rewrite <- E2 at 2. rewrite Nat2N.inj_mul. reflexivity. }
  split.
  { unfold js_address_of_pk. rewrite Q2, PL. cbn [Nat.mul Nat.add Nat.eqb negb]. rewrite Q4. cbn [bind]. rewrite Ea. cbn [bind]. exact R1. }
  unfold js_validateAddress, js_getBinAddress. rewrite R2, La. cbn [Nat.mul Nat.add descr_getSize Nat.ltb Nat.leb].
  unfold hstr2bin. rewrite skipn_length, R2, La. reflexivity.
Qed.

Theorem C57_address_strings_total : forall s, ascii (tl s) -> (N.of_nat (length s) < 2 ^ 31)%N ->
  (length s < 7 \/ Nat.even (length (tl s)) = false \/ ~ Forall is_hex (tl s) ->
     js_validateAddress s = Exn InvalidArgument /\ js_getHashFunction s = Exn InvalidArgument /\
     js_height_of_address s = Exn InvalidArgument /\ js_getSignatureType s = Exn InvalidArgument) /\
  (7 <= length s -> Nat.even (length (tl s)) = true -> Forall is_hex (tl s) ->
     exists b0 b1 b2 rest, all_bytes (b0 :: b1 :: b2 :: rest) /\ hex_text (b0 :: b1 :: b2 :: rest) = lower (tl s) /\
       (exists ok, js_validateAddress s = Ok ok /\ (ok = true <-> checksummed (b0 :: b1 :: b2 :: rest))) /\
       (* the getters do not look at the checksum *)
       js_getHashFunction s = Ok (b0 mod 16)%N /\ js_height_of_address s = Ok (2 * (b1 mod 16))%N /\ js_getSignatureType s = Ok 0%N).
Proof.
  intros s HA HL. destruct s as [|c t].
  { split; [|intros H; cbn in H; lia]. intros _. repeat split; reflexivity. }
  cbn [tl length] in *. destruct (C02_hex_decoder t HA ltac:(lia)) as [D1 D2]. split.
  - intros H.
    assert (E : js_getBinAddress (c :: t) = Exn InvalidArgument).
    { unfold js_getBinAddress, descr_getSize. cbn [length]. destruct (S (length t) <? 1 + 2 * 3) eqn:E7; [reflexivity|].
      apply Nat.ltb_ge in E7. change (skipn 1 (c :: t)) with t. apply D2. intros [X Y].
      destruct H as [H|[H|H]]; [lia|rewrite X in H; discriminate|contradiction]. }
    unfold js_validateAddress, js_getHashFunction, js_height_of_address, js_getSignatureType. rewrite E. repeat split.
  - intros H7 He Hx. destruct (D1 (conj He Hx)) as (v & Ev & Bv & Lv & Hv).
    assert (E : js_getBinAddress (c :: t) = Ok v) by (apply bin_address; auto; [lia|lia]).
    destruct v as [|b0 [|b1 [|b2 rest]]]; try (cbn [length] in Lv; lia).
    exists b0, b1, b2, rest. split; [exact Bv|]. split; [exact Hv|]. split.
    + destruct (C12_addressIsValid_exact _ Bv) as (ok & Eo & Ho). exists ok. unfold js_validateAddress. rewrite E. split; auto.
    + exact (address_getters _ _ _ _ _ E Bv).
Qed.

(** C56 for word lists: same outcome as the hexadecimal form of the same bytes. *)
Theorem C56_mnemonic_import : forall junk text,
  (Nat.even (blanks text) = false /\ length (words text) = 34 /\ Forall (fun w => In w wordlist) (words text) ->
     exists v, mnemonic2bin text = Ok v /\ all_bytes v /\ length v = 51 /\ js_fromMnemonic junk text = js_fromHexSeed junk (hex_text v)) /\
  (~ (Nat.even (blanks text) = false /\ length (words text) = 34 /\ Forall (fun w => In w wordlist) (words text)) ->
     js_fromMnemonic junk text = Exn InvalidArgument).
Proof.
  intros junk text. unfold js_fromMnemonic. rewrite C05_mnemonic_decoder.
  destruct (Nat.even (blanks text)); [split; [intros (X & _); discriminate|reflexivity]|].
  destruct (indices (words text)) as [ds|] eqn:Ei.
  - destruct (indices_some _ _ Ei) as (H1 & H2 & H3). pose proof (flat3_bound ds H1) as HF. pose proof (flat3_length ds) as LF.
    assert (PL : forall n ns, (length ns <= n)%nat -> (2 * length (pack ns) = length ns + length ns mod 2)%nat).
    { clear. induction n as [|n IH]; intros ns HL; [destruct ns; [reflexivity|cbn in HL; lia]|].
      destruct ns as [|a [|b ns]]; [reflexivity|reflexivity|]. cbn [pack length] in *.
      replace (S (S (length ns))) with (length ns + 1 * 2) at 2 by lia. rewrite Nat.mod_add by lia. specialize (IH ns ltac:(lia)). lia. }
    pose proof (PL _ _ (le_n (length (flat_map nibbles3 ds)))) as P. pose proof (Nat.mod_upper_bound (length (flat_map nibbles3 ds)) 2 ltac:(lia)).
    split.
    + intros (_ & L34 & _). rewrite L34 in H3. symmetry in H3. destruct (nibs_pack (length (flat_map nibbles3 ds)) (flat_map nibbles3 ds)) as (N1 & N2 & N3); auto.
      { rewrite LF, <- H3. reflexivity. }
      assert (L51 : length (pack (flat_map nibbles3 ds)) = 51) by (rewrite LF, <- H3 in N3; lia).
      eexists. split; [reflexivity|]. split; [exact N2|]. split; [exact L51|]. cbn [bind]. unfold js_fromHexSeed.
      destruct (C01_hex_round_trip _ N2) as (_ & _ & _ & R); [rewrite L51; reflexivity|]. rewrite R. reflexivity.
    + intros HN. cbn [bind]. unfold js_fromExtendedSeed, descr_fromExtendedSeed.
      destruct (length (pack (flat_map nibbles3 ds)) =? 51) eqn:E5; [|reflexivity]. apply Nat.eqb_eq in E5.
      exfalso. apply HN. split; auto. split; [lia|].
      apply Forall_forall. intros w Hw. rewrite <- H2 in Hw. apply in_map_iff in Hw. destruct Hw as (d & <- & Hd).
      rewrite Forall_forall in H1. apply word_in. auto.
  - split; [|reflexivity]. intros (_ & _ & HF). exfalso. revert Ei. clear - HF.
    induction HF as [|w ws Hw HF IH]; [discriminate|]. cbn [indices].
    destruct (index_of wordlist w) eqn:E; [destruct (indices ws); [discriminate|auto]|].
    intros _. revert Hw E. generalize wordlist. clear. induction l as [|x l IH]; [intros []|].
    intros Hin. cbn [index_of]. destruct (list_eq_dec N.eq_dec x w) as [->|Hne]; [discriminate|].
    destruct Hin as [->|Hin]; [contradiction|]. specialize (IH Hin). destruct (index_of l w); [discriminate|]. intros _. now apply IH.
Qed.

(** Concrete cases: hypotheses are met by an all-zero seed of height 4. *)
Example C55_case : supported 0 SHA2_256 16 w16 4 (repeat 0%N 48) /\ all_bytes (repeat 0%N 48) /\
  extended 0 4 (repeat 0%N 48) = [0; 2; 0]%N ++ repeat 0%N 48.
Proof. repeat split; auto; try lia. unfold all_bytes. apply Forall_forall. intros b Hb. apply repeat_spec in Hb. subst. reflexivity. Qed.
(** "Q000200" is long enough for the getters; "XX" is rejected. *)
Example C57_case : js_height_of_address (codes "Q000200"%string) = Ok 4%N /\ js_height_of_address (codes "XX"%string) = Exn InvalidArgument /\
  js_validateAddress (codes "Q000200"%string) = Ok false.
Proof. repeat split; vm_compute; reflexivity. Qed.

(** ** C55, verification from JavaScript *)

(** Every signature a wallet object produces is accepted by the wrapper's
    verify under the exported public key, and the answer on arbitrary input is
    the reference verifier's with w = 16. *)
Theorem C55_signatures_verify : forall junk seed height hash hf, supported hash hf 16 w16 height seed ->
  exists x, js_fromParameters junk seed (N.of_nat height) hash = Ok x /\
    forall cs, exists y os, run x cs = Ok (y, os) /\ length os = length cs /\
      forall n msg sig, nth_error cs n = Some (OpSign msg) -> nth_error os n = Some (ObsSig sig) ->
        js_verify msg sig (js_getPKRaw y) = Ok true.
Proof.
  intros junk seed height hash hf HS.
  destruct (C18_fast_signatures_verify junk seed height hash hf 0%N HS) as (x & E & H). exists x. split; [exact E|].
  intros cs. destruct (H cs) as (y & os & Er & L & EP & HV). exists y, os. split; auto. split; auto.
  intros n msg sig H1 H2. unfold js_verify, js_getPKRaw. rewrite EP. eauto.
Qed.
Theorem C55_verify_is_reference : forall hf msg sig pk, all_bytes pk -> hash_of_id (nth 0 pk 0 mod 16)%N = Some hf ->
  js_verify msg sig pk = Ok (ref_verify hf w16 msg sig pk) /\
  forall w wp, winternitz w = Some wp -> jsb_verify msg sig pk w = Ok (ref_verify hf wp msg sig pk).
Proof.
  intros hf msg sig pk HB HH. split; [|intros w wp Hw]; now apply verify_spec.
Qed.
(** XmssBasicWrapper: any w, any index order. *)
Theorem C55_basic_signatures_verify : forall junk seed height hash hf fmt w wp,
  supported hash hf w wp height seed -> height <= 24 ->
  exists x, jsb_fromParameters junk seed (N.of_nat height) hash fmt w = Ok x /\
    forall j idx msg, (idx < 2 ^ N.of_nat height)%N ->
      exists y sig, XmssBasic_sign j (fst (base_setIndex x idx)) msg = Ok (y, sig) /\
        jsb_verify msg sig (getPK y) w = Ok true /\ sig_index sig = idx.
Proof.
  intros junk seed height hash hf fmt w wp HS Hh.
  destruct (C17_basic_signatures_verify junk seed height hash hf fmt w wp HS Hh) as (x & E & H). exists x. split; [exact E|].
  intros j idx msg Hi. destruct (H j idx msg Hi) as (y & sig & E1 & E2 & _ & E3 & E4). exists y, sig. split; auto. split; auto.
  unfold jsb_verify. now rewrite E4.
Qed.
