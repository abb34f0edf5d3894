(** C55 for the JavaScript class XmssBasicWrapper: its seed and public-key strings. *)
From Coq Require Import String List NArith Arith Lia Bool.
From Verif Require Import Base Bytes Keccak HashAddress SpecXmss SpecApi SpecBasic Wots XmssCommon Descriptor XmssObj
  BasicProofs FastProofs DescrProofs PropObj PropKeys PropDescr Misc SpecMisc PropMisc JsWrapper PropJs PropBasicHist CasesXmss VerifyProofs KeccakLemmas.
Import ListNotations.
Open Scope nat_scope.

Lemma supported_16 : forall hash hf w wp height seed, supported hash hf w wp height seed -> supported hash hf 16 w16 height seed.
Proof. intros hash hf w wp height seed (H1 & H2 & H3). split; [exact H1|]. split; [reflexivity|exact H3]. Qed.

(** After any calls the wrapper shows the same two strings.  The seed string imported into
    the fast wrapper gives the wallet made of the same parameters, at index 0; it has the
    public key of the basic one if the basic one was made with w = 16 (the string does not
    carry w). *)
Theorem C55_basic_backup : forall junk junk' seed height hash hf w wp,
  supported hash hf w wp height seed -> all_bytes seed ->
  exists x, jsb_fromParameters junk seed (N.of_nat height) hash 0 w = Ok x /\
    forall cs y os, Forall u32_op (map snd cs) -> basic_run x cs = Ok (y, os) ->
      jsb_getHexSeed y = Ok (hex_text ([hash; N.of_nat (height / 2); 0]%N ++ seed)) /\
      jsb_getPK y = Ok (hex_text (getPK x)) /\
      forall hex, lower hex = hex_text ([hash; N.of_nat (height / 2); 0]%N ++ seed) ->
        exists z, js_fromHexSeed junk' hex = Ok z /\ js_fromParameters junk' seed (N.of_nat height) hash = Ok z /\
          js_getIndex z = 0%N /\ (w = 16%N -> js_getPK z = jsb_getPK y).
Proof.
  intros junk junk' seed height hash hf w wp HS HB. pose proof (supported_16 _ _ _ _ _ _ HS) as H16.
  pose proof (cfg_of _ _ _ _ _ _ 0%N HS) as HC. set (c := mkCfg hf hash w 0 height seed) in *.
  exists (c_obj c wp 0). split; [apply (XmssBasic_new_spec c wp HC)|].
  intros cs y os Hcs Er. pose proof (bh_run c wp HC cs 0%N ltac:(reflexivity) Hcs) as R.
  destruct (basic_ref_run (c_height c) (c_sig c wp) 0 (map snd cs)) as [[i xs]|]; [|congruence].
  destruct R as [R Hi]. rewrite Er in R. apply Ok_inj in R. apply pair_equal_spec in R. destruct R as [-> _].
  change ([hash; N.of_nat (height / 2); 0]%N ++ seed) with (extended hash height seed).
  assert (Ee : getExtendedSeed (c_obj c wp i) = extended hash height seed).
  { unfold getExtendedSeed, getDescriptorBytes, getDescriptor. cbn [c_obj xb_seed xb_hash xb_height xb_fmt c c_hash c_height c_fmt c_seed].
    now rewrite (extended_bytes _ _ _ _ H16). }
  assert (Ep : getPK (c_obj c wp i) = getPK (c_obj c wp 0)).
  { fold (c_pk c wp i) (c_pk c wp 0). now rewrite !(getPK_shape c wp HC). }
  destruct (ext_all_bytes _ _ _ _ H16 HB) as [EB EL].
  assert (LB : (2 * N.of_nat (length (extended hash height seed)) < 2 ^ 31)%N) by (rewrite EL; reflexivity).
  destruct (C01_hex_round_trip _ EB LB) as (R1 & _).
  destruct (two_news junk' junk' _ _ _ _ H16) as (z & _ & Ez & _ & _ & H0 & _).
  destruct (new_run _ _ _ _ 0%N H16 junk') as (z1 & Ez1 & HR). rewrite Ez in Ez1. injection Ez1 as <-.
  destruct (HR []) as (z0 & R0 & I0). injection R0 as <-. destruct I0 as (Eb & _).
  assert (PB : all_bytes (getPK (c_obj c wp 0)) /\ length (getPK (c_obj c wp 0)) = 67).
  { fold (c_pk c wp 0). rewrite (getPK_shape c wp HC). cbn [c c_hash c_height c_fmt].
    rewrite (extended_bytes _ _ _ _ H16). pose proof HS as (Hh & _ & Hb & He & HL). pose proof (hash_id_small _ _ Hh). pose proof (even_half _ He).
    assert (A1 : all_bytes (ref_root hf wp height seed) /\ length (ref_root hf wp height seed) = 32).
    { unfold ref_root. destruct height; [lia|]. cbn [node]. split; [apply keyed_bytes|apply keyed_length]. }
    assert (A2 : all_bytes (key_pub seed) /\ length (key_pub seed) = 32).
    { unfold key_pub, key_stream. split; [apply all_bytes_firstn, all_bytes_skipn, shake256_bytes|].
      rewrite firstn_length, skipn_length, shake256_length. reflexivity. }
    destruct A1 as [A1 L1]. destruct A2 as [A2 L2].
    change (all_bytes ([hash; N.of_nat (height / 2); 0]%N ++ ref_root hf wp height seed ++ key_pub seed) /\
            length ([hash; N.of_nat (height / 2); 0]%N ++ ref_root hf wp height seed ++ key_pub seed) = 67).
    split.
    - apply Forall_app. split; [repeat constructor; unfold is_byte; lia|]. apply Forall_app. split; assumption.
    - rewrite !app_length, L1, L2. reflexivity. }
  destruct PB as [PB PL].
  assert (LP : (2 * N.of_nat (length (getPK (c_obj c wp 0))) < 2 ^ 31)%N) by (rewrite PL; reflexivity).
  destruct (C01_hex_round_trip _ PB LP) as (Q1 & _).
  unfold jsb_getHexSeed, jsb_getPK. rewrite Ee, Ep. split; [exact R1|]. split; [exact Q1|].
  intros hex Eh. exists z. split; [|split; [|split]].
  - unfold js_fromHexSeed. rewrite (decode_any_case _ _ EB LB Eh). cbn [bind]. now rewrite (import_ext _ _ _ _ _ H16 HB).
  - exact Ez.
  - exact H0.
  - intros ->. assert (wp = w16) as ->. { destruct HS as (_ & Hw & _). change (winternitz 16) with (Some w16) in Hw. congruence. }
    unfold js_getPK. now rewrite Eb.
Qed.

(** w = 256 and height 12, and w = 16. *)
Example C55_basic_backup_case := C55_basic_backup [170%N] [85%N; 1%N] _ _ _ _ _ _ sup256 seed_bytes.
Example C55_basic_backup_case16 := C55_basic_backup [170%N] [85%N; 1%N] _ _ _ _ _ _ sup16 seed_bytes.
