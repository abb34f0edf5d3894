(** Concrete cases meeting the hypotheses of the theorems about XMSS objects.  For each
    theorem [T] whose outer hypothesis is a supported configuration, [T_case] is the
    theorem for a concrete one (so nothing is left to assume); for theorems that also
    speak of a history, [history_case] is one with signatures, skips, refusals and
    exhaustion.  The remaining theorems: CasesMisc.v and the Examples in their files. *)
From Coq Require Import List NArith Arith Lia Bool.
From Verif Require Import Base Bytes HashAddress Descriptor SpecXmss SpecApi SpecForge SpecCost XmssObj FastCopy FastAlloc Session
  RsHash RsWots RsObj SpecRust
  PropObj PropKeys PropForge PropCost PropCost2 PropThreads PropStack PropAlloc PropBasicHist PropBind PropCopy PropMove PropJs PropSession PropWinternitz PropWinternitz2
  PropRust PropRust2 PropRust3 PropRust4.
Import ListNotations.
Open Scope nat_scope.

(** A seed of 48 different bytes; height 10 with SHAKE256; height 12 with w = 256 and
    SHAKE128; the same for the Rust port. *)
Definition seed_c : list N := map N.of_nat (seq 200 48).
Lemma seed_bytes : all_bytes seed_c.
Proof. repeat constructor. Qed.
Lemma sup16 : supported 2 SHAKE_256 16 w16 10 seed_c.
Proof. repeat split; auto; try lia. Qed.
Lemma sup256 : supported 1 SHAKE_128 256 (8, 32, 2) 12 seed_c.
Proof. repeat split; auto; try lia. Qed.
Lemma sup4 : supported 0 SHA2_256 4 (2, 128, 5) 10 seed_c.
Proof. repeat split; auto; try lia. Qed.
Lemma supR : supported (rs_hash_u8 SHAKE_128) SHAKE_128 (w_of W16) w16 10 seed_c.
Proof. repeat split; auto; try lia. Qed.
Lemma supR16 : supported (rs_hash_u8 SHAKE_128) SHAKE_128 16 w16 10 seed_c.
Proof. repeat split; auto; try lia. Qed.
Lemma h24 : 10 <= 24. Proof. lia. Qed.
Lemma h24' : 12 <= 24. Proof. lia. Qed.
Lemma fmt16 : (0 < 16)%N. Proof. lia. Qed.

Example C80_out_of_memory_case := C80_out_of_memory [170%N] _ _ _ _ 0%N sup16.
Example C80_wiped_object_case := C80_wiped_object [170%N] _ _ _ _ 0%N sup16.
Example C80_no_reuse_with_any_traversal_state_case := C80_no_reuse_with_any_traversal_state [170%N] _ _ _ _ 0%N sup16.
Example C25_basic_history_case := C25_basic_history [170%N] _ _ _ _ 0%N _ _ sup256.
Example C19_basic_follows_fast_case := C19_basic_follows_fast [170%N] [85%N; 1%N] _ _ _ _ 0%N sup16 h24.
Example C75_address_authenticates_case := C75_address_authenticates [170%N] _ _ _ _ 0%N _ _ sup256.
Example C76_rust_accepted_genuine_or_collision_case := C76_rust_accepted_genuine_or_collision _ _ _ _ _ supR.
Example C76_rust_one_time_forgery_case := C76_rust_one_time_forgery _ W16 _ _ _ supR ltac:(discriminate).
Example C78_newest_copy_follows_reference_case := C78_newest_copy_follows_reference [170%N] _ _ _ _ 0%N sup16.
Example C78_stale_copy_signature_case := C78_stale_copy_signature [170%N] _ _ _ _ 0%N sup16.
Example C78_copy_corrupts_original_case := C78_copy_corrupts_original [170%N] _ _ _ _ 0%N sup16.
Example C78_copy_outlives_original_case := C78_copy_outlives_original [170%N] _ _ _ _ 0%N sup16.
Example C78_original_outlives_copy_case := C78_original_outlives_copy [170%N] _ _ _ _ 0%N sup16.
Example C78_reinitialised_copy_is_independent_case := C78_reinitialised_copy_is_independent [170%N] _ _ _ _ 0%N sup16.
Example C82_basic_sign_calls_case := C82_basic_sign_calls [170%N] _ _ _ _ 0%N _ _ sup256 h24'.
Example C48_accepted_genuine_or_collision_case := C48_accepted_genuine_or_collision [170%N] _ _ _ _ 0%N _ _ sup256.
Example C45_authpath_bound_case := C45_authpath_bound [170%N] _ _ _ _ 0%N _ _ sup256.
Example C48_owner_sig_accepted_case := C48_owner_sig_accepted [170%N] _ _ _ _ 0%N _ _ sup256.
Example C49_one_time_forgery_case := C49_one_time_forgery [170%N] _ _ _ _ 0%N sup16.
Example C49_one_time_forgery_basic_case := C49_one_time_forgery_basic [170%N] _ _ _ _ 0%N _ _ sup4 h24 (or_intror (or_introl eq_refl)).
Example C55_hex_seed_backup_case := C55_hex_seed_backup [170%N] [85%N; 1%N] _ _ _ _ sup16 seed_bytes.
Example C55_mnemonic_backup_case := C55_mnemonic_backup [170%N] [85%N; 1%N] _ _ _ _ sup16 seed_bytes.
Example C57_wallet_address_case := C57_wallet_address [170%N] _ _ _ _ sup16.
Example C55_signatures_verify_case := C55_signatures_verify [170%N] _ _ _ _ sup16.
Example C55_basic_signatures_verify_case := C55_basic_signatures_verify [170%N] _ _ _ _ 0%N _ _ sup256 h24'.
Example C13_extended_seed_recreates_case := C13_extended_seed_recreates [170%N] [85%N; 1%N] _ _ _ _ 0%N sup16 fmt16.
Example C14_key_layout_case := C14_key_layout [170%N] _ _ _ _ 0%N sup16.
Example C35_root_is_merkle_root_case := C35_root_is_merkle_root [170%N] [85%N; 1%N] _ _ _ _ 0%N _ _ sup256.
Example C44_initialize_tree_resets_case := C44_initialize_tree_resets [170%N] [85%N; 1%N] _ _ _ _ 0%N sup16.
Example C46_signature_format_case := C46_signature_format [170%N] _ _ _ _ 0%N sup16.
Example C79_factory_case := C79_factory [170%N] _ _ _ _ 0%N 3 [OpSign [1%N]; OpSetIndex 5%N; OpSign [2%N]] sup16.
Example C79_moved_from_still_signs_case := C79_moved_from_still_signs [170%N] _ _ _ _ 0%N sup16.
Example fast_history_case := fast_history [170%N] _ _ _ _ 0%N sup16.
Example C18_fast_signatures_verify_case := C18_fast_signatures_verify [170%N] _ _ _ _ 0%N sup16.
Example C17_basic_signatures_verify_case := C17_basic_signatures_verify [170%N] _ _ _ _ 0%N _ _ sup256 h24'.
Example C19_fast_equals_basic_case := C19_fast_equals_basic [170%N] [85%N; 1%N] _ _ _ _ 0%N sup16 h24.
Example C20_skip_equals_sign_case := C20_skip_equals_sign [170%N] _ _ _ _ 0%N sup16.
Example C21_indices_strictly_increase_case := C21_indices_strictly_increase [170%N] _ _ _ _ 0%N sup16.
Example C22_exhaustion_case := C22_exhaustion [170%N] _ _ _ _ 0%N sup16.
Example C23_failed_calls_case := C23_failed_calls [170%N] _ _ _ _ 0%N sup16.
Example C24_traversal_safe_case := C24_traversal_safe [170%N] [85%N; 1%N] _ _ _ _ 0%N sup16.
Example C25_basic_index_case := C25_basic_index [170%N] _ _ _ _ 0%N _ _ sup256 h24'.
Example C62_rust_fast_key_case := C62_rust_fast_key _ _ _ _ _ supR.
Example C62_rust_key_is_cpp_key_case := C62_rust_key_is_cpp_key [170%N] _ _ _ supR16.
Example C63_rust_history_case := C63_rust_history _ _ _ _ _ supR.
Example C63_rust_panics_case := C63_rust_panics _ _ _ _ _ supR.
Example C63_rust_signatures_verify_case := C63_rust_signatures_verify _ _ _ _ _ supR.
Example C63_rust_failed_calls_case := C63_rust_failed_calls _ _ _ _ _ supR.
Example C65_rust_sign_truncates_case := C65_rust_sign_truncates _ _ _ _ _ 40 supR eq_refl.
Example C65_rust_cpp_same_histories_case := C65_rust_cpp_same_histories [170%N] _ _ _ supR16.
Example C67_rust_basic_history_case := C67_rust_basic_history _ _ _ _ _ supR.
Example C67_rust_basic_is_fast_case := C67_rust_basic_is_fast _ _ _ _ _ supR h24.
Example C81_store_before_release_case := C81_store_before_release [170%N] _ _ _ _ 0%N sup16 fmt16.
Example C81_release_before_store_reuses_case := C81_release_before_store_reuses [170%N] _ _ _ _ 0%N sup16 fmt16.
Example C81_spent_key_restored_carelessly_case := C81_spent_key_restored_carelessly [170%N] _ _ _ _ 0%N sup16 fmt16.
Example C81_safe_life_case := C81_safe_life [170%N] _ _ _ _ 0%N sup16 fmt16.
Example C81_lost_signature_case := C81_lost_signature [170%N] _ _ _ _ 0%N sup16 fmt16.
Example C73_fast_usable_case := C73_fast_usable [170%N] _ _ _ _ 0%N 6%N sup16 (proj1 (proj2 C73_fast_hypotheses)).
Example C73_fast_unusable_case := C73_fast_unusable [170%N] _ _ _ _ 0%N 8%N sup16 (proj1 (proj1 (proj2 (proj2 C73_fast_hypotheses)))) (proj2 (proj1 (proj2 (proj2 C73_fast_hypotheses)))).
Example C73_fast_unsized_case := C73_fast_unsized [170%N] _ _ _ _ 0%N 1%N sup16 (proj2 (proj2 (proj2 C73_fast_hypotheses))).
Example C65_rust_signature_is_for_seen_message_case :=
  C65_rust_signature_is_for_seen_message SHAKE_128 W16 w16 10 seed_c 5 (repeat 7%N 100) supR ltac:(apply Nat.ltb_lt; reflexivity) ltac:(unfold signable; apply Nat.ltb_lt; reflexivity).

(** A history: two signatures, a skip, a refused step back, a refused skip past the end,
    the last signature, and refusals on the spent key. *)
Definition calls_c : list op :=
  [OpSign [1]; OpSetIndex 5; OpSign [2]; OpSetIndex 3; OpSetIndex 1024; OpSetIndex 1023; OpSign [3]; OpSign [4]; OpSetIndex 1024]%N.
Lemma calls_ref : forall sig, ref_run 10 sig 0 calls_c =
  (1024%N, [ObsSig (sig 0 [1%N]); ObsIdx 5; ObsSig (sig 5 [2%N]); ObsExn InvalidArgument; ObsExn InvalidArgument;
            ObsIdx 1023; ObsSig (sig 1023 [3%N]); ObsExn InvalidArgument; ObsExn InvalidArgument]).
Proof. intros. reflexivity. Qed.
Example history_case : exists x y s0 s5 s1023, XmssFast_new [170%N] seed_c 10 2 0 = Ok x /\
  run x calls_c = Ok (y, [ObsSig s0; ObsIdx 5; ObsSig s5; ObsExn InvalidArgument; ObsExn InvalidArgument;
                          ObsIdx 1023; ObsSig s1023; ObsExn InvalidArgument; ObsExn InvalidArgument]) /\
  getIndex (xf_base y) = 1024%N /\ getRemainingSignatures (xf_base y) = Ok 0%N /\
  sig_index s0 = 0%N /\ sig_index s5 = 5%N /\ sig_index s1023 = 1023%N /\
  verify [1%N] s0 (getPK (xf_base x)) 16 = Ok true /\ verify [2%N] s5 (getPK (xf_base x)) 16 = Ok true /\
  verify [3%N] s1023 (getPK (xf_base x)) 16 = Ok true.
Proof.
  destruct C18_fast_signatures_verify_case as (x & E & H). destruct (H calls_c) as (y & os & Er & _ & _ & HV).
  destruct fast_history_case as (x' & E' & H'). rewrite E in E'. apply Verif.VerifyProofs.Ok_inj in E'. subst x'.
  destruct (H' calls_c) as (y' & Er' & Ei & _). rewrite Er in Er'. apply Verif.VerifyProofs.Ok_inj in Er'. apply pair_equal_spec in Er'. destruct Er' as (<- & Eo).
  rewrite calls_ref in Eo, Ei. cbn [fst snd] in Eo, Ei.
  exists x, y. do 3 eexists. split; [exact E|]. split; [rewrite Er, Eo; reflexivity|]. split; [exact Ei|].
  destruct C22_exhaustion_case as (x' & E' & H2). rewrite E in E'. apply Verif.VerifyProofs.Ok_inj in E'. subst x'.
  destruct (H2 _ _ _ Er) as (_ & HR & _). split; [rewrite HR, Ei; reflexivity|].
  subst os.
  split; [reflexivity|]. split; [reflexivity|]. split; [reflexivity|]. split; [|split].
  - exact (HV 0 _ _ eq_refl eq_refl).
  - exact (HV 2 _ _ eq_refl eq_refl).
  - exact (HV 6 _ _ eq_refl eq_refl).
Qed.
Example C83_locked_schedules_case := C83_locked_schedules [170%N] _ _ _ _ 0%N sup16.
Example C83_locked_no_reuse_case := C83_locked_no_reuse [170%N] _ _ _ _ 0%N sup16.
Example C83_race_reuses_key_case := C83_race_reuses_key [170%N] _ _ _ _ 0%N sup16.
Example C83_race_other_damage_case := C83_race_other_damage [170%N] _ _ _ _ 0%N sup16.
Example C84_supported_keys_case := C84_supported_keys [170%N] _ _ _ _ 0%N _ _ sup256.
Example C84_key_generation_calls_case := C84_key_generation_calls [170%N] 256%N (8, 32, 2) eq_refl.
Example C87_sign_stack_case := C87_sign_stack [170%N] _ _ _ _ 0%N sup16.
Example C87_basic_sign_stack_case := C87_basic_sign_stack [170%N] _ _ _ _ 0%N _ _ sup256.
