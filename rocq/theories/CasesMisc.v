(** Concrete cases meeting the hypotheses of the theorems about codecs, descriptors,
    addresses, seeds, the JavaScript layer, verification and the Rust port that have no
    Example beside them: [T_case] is theorem [T] with nothing left to assume. *)
From Coq Require Import String.
From Coq Require Import List NArith Arith Lia Bool.
From Verif Require Import Base Bytes Keccak Sha256 HashAddress Wots XmssCommon AlgsXmss Descriptor SpecXmss SpecApi SpecForge SpecCost SpecMisc SpecDomain SpecWinternitz Wordlist Misc XmssObj
  Cost JsWrapper PqWrapper RsBase RsHash RsWots RsObj RsMisc SpecRust
  PropMisc PropCodec PropDescr PropDomain PropKeys PropVerify PropJs PropPq PropWinternitz PropObj PropForge PropBind PropCost PropShake
  PropRust2 PropRust3 PropRust4 PropRsMisc PropRsSeeds PropRsShake PropRsPool PropRsPq CasesXmss.
Import ListNotations.
Open Scope nat_scope.

Ltac bytes := repeat constructor.
Ltac num := first [reflexivity | lia | apply N.ltb_lt; reflexivity | apply Nat.ltb_lt; reflexivity | apply N.leb_le; reflexivity].

(** ** Codecs *)
Example C01_hex_round_trip_case := C01_hex_round_trip [0; 255; 16]%N ltac:(bytes) ltac:(num).
Example C02_hex_decoder_case := C02_hex_decoder (codes "00fF10"%string) ltac:(bytes) ltac:(num).
Example C02_accepted : Nat.even (length (codes "00fF10"%string)) = true /\ hstr2bin (codes "00fF10"%string) = Ok [0; 255; 16]%N /\
  hstr2bin (codes "00f"%string) = Exn InvalidArgument /\ hstr2bin (codes "0g"%string) = Exn InvalidArgument.
Proof. repeat split; vm_compute; reflexivity. Qed.
Example C03_hex_wrap_case := C03_hex_wrap [1; 2; 3; 4; 5]%N 2%N ltac:(bytes) ltac:(num) ltac:(left; num).
Example C04_mnemonic_round_trip_case := C04_mnemonic_round_trip [1; 35; 69; 103; 137; 171]%N ltac:(bytes) ltac:(discriminate) ltac:(num).
Example C05_reencode_case := C05_reencode (codes "aback abbey"%string) [0; 0; 1]%N ltac:(vm_compute; reflexivity) ltac:(vm_compute; reflexivity) ltac:(num).
Example C06_single_blanks_odd_rejected_case := C06_single_blanks_odd_rejected [codes "aback"%string; codes "abbey"%string; codes "abbot"%string]
  ltac:(repeat constructor; discriminate) eq_refl.
Example C06_odd_accepted_with_trailing_blank_case := C06_odd_accepted_with_trailing_blank [0; 4095; 17]%N ltac:(repeat constructor) eq_refl.
Example C41_hash_chain_seeds_case := C41_hash_chain_seeds [1; 2; 3]%N 7%N 100%N ltac:(num) ltac:(num).
Example C41_inputs_distinct_case := C41_inputs_distinct [1; 2; 3]%N 7%N 100%N 7%N 100%N ltac:(num) ltac:(num) ltac:(num) ltac:(num) eq_refl.
Example C42_compose_case := C42_compose [1]%N 2%N 3%N _ _ eq_refl eq_refl.
Example C43_random_seed_case := C43_random_seed (Some [1; 2; 3; 4]%N) 3%N [9]%N.
Example C54_xor_case := C54_xor [1; 2; 3]%N [4; 5; 255]%N 2 eq_refl ltac:(num).

(** ** Descriptors, addresses, sizes *)
Example C08_descriptor_roundtrip_case := C08_descriptor_roundtrip 2%N 18%N 1%N ltac:(num) ltac:(num) eq_refl ltac:(num).
Example C08_descriptor_reencode_case := C08_descriptor_reencode 0xF2%N 0x15%N 9%N ltac:(num) ltac:(num) ltac:(num).
Example C08_descriptor_length_case := C08_descriptor_length [1; 2; 3; 4]%N ltac:(discriminate).
Example C10_sigtype_always_xmss_case := C10_sigtype_always_xmss [0xF2; 0x15; 9]%N _ ltac:(bytes) eq_refl.
Definition pk_c : list N := [2; 5; 0]%N ++ map N.of_nat (seq 100 64).
Lemma pkc_bytes : all_bytes pk_c. Proof. bytes. Qed.
Lemma addr_c : exists a, getAddress pk_c = Ok a /\ addressIsValid a = Ok true /\ all_bytes a.
Proof.
  destruct (C11_generated_addresses_valid pk_c pkc_bytes) as (HE & HU & HA). destruct (getAddress pk_c) as [a|[|]|] eqn:E.
  - exists a. destruct (HA a eq_refl) as (_ & B & R). intuition.
  - exfalso. destruct (proj1 HE eq_refl) as [H|H]; apply H; reflexivity.
  - exfalso. unfold getAddress in E. revert E. vm_compute. discriminate.
  - congruence.
Qed.
Example C75_address_binds_key_case : exists a, getAddress pk_c = Ok a /\ all_bytes pk_c.
Proof. destruct addr_c as (a & E & _). exists a. split; [exact E|exact pkc_bytes]. Qed.
Example C12_checksum_determined_case : exists a, all_bytes a /\ addressIsValid a = Ok true.
Proof. destruct addr_c as (a & _ & V & B). exists a. auto. Qed.
Example C16_size_height_inverse_case := C16_size_height_inverse 16%N w16 10%N eq_refl ltac:(num).
Example C16_height_from_size_case := C16_height_from_size 16%N w16 2500 eq_refl.
Example C31_wots_parameters_case := C31_wots_parameters 256%N 8 32 2 eq_refl.
Example C15_index_codec_case := C15_index_codec (mkXB (mkXP (mkWP 16 4 64 3) 10 2) 2 0 10 (repeat 3%N 132) seed_c) 77%N eq_refl ltac:(num).

(** ** Hash inputs *)
Example C34_addresses_injective_case := C34_addresses_injective zero_adrs zero_adrs.
Example C34_places_separated_case : place_ok (Step 5 66 14) /\ place_ok (TNode 3 2) /\ place_adr (Step 5 66 14) 1 <> place_adr (TNode 3 2) 1.
Proof.
  assert (P1 : place_ok (Step 5 66 14)) by (repeat split; num). assert (P2 : place_ok (TNode 3 2)) by (repeat split; num).
  split; [exact P1|]. split; [exact P2|]. intros E. destruct (C34_places_separated _ _ 1%N 1%N P1 P2 ltac:(num) ltac:(num) E) as (F & _). discriminate F.
Qed.

(** ** Verification *)
Definition sig_c : list N := map (fun i => N.of_nat (i mod 256)) (seq 0 (36 + 32 * 67 + 320)).
Lemma sig_bytes : all_bytes sig_c.
Proof. unfold sig_c, all_bytes. apply Forall_forall. intros b Hb. apply in_map_iff in Hb. destruct Hb as (i & <- & _). pose proof (Nat.mod_upper_bound i 256 ltac:(lia)). unfold is_byte. lia. Qed.
Lemma hash_c : hash_of_id (nth 0 pk_c 0 mod 16)%N = Some SHAKE_256. Proof. reflexivity. Qed.
Example C26_verify_total_case := C26_verify_total 16%N w16 [1]%N sig_c pk_c eq_refl pkc_bytes ltac:(left; num).
Example C26_verify_is_reference_case := C26_verify_is_reference 16%N w16 SHAKE_256 [1]%N sig_c pk_c eq_refl pkc_bytes hash_c.
Example C55_verify_is_reference_case := C55_verify_is_reference SHAKE_256 [1]%N sig_c pk_c pkc_bytes hash_c.
(** A genuine signature takes the stated number of evaluations, a wrong length none. *)
Lemma erase_true : forall r : res (bool * N), erase r = Ok true -> exists n, r = Ok (true, n).
Proof. intros [[b n]|e|] E; cbn [erase bind] in E; try discriminate. injection E as ->. now exists n. Qed.
Example C82_verify_calls_case : (exists pk sig n, all_bytes pk /\ verify_c [1]%N sig pk 16 = Ok (true, n)) /\ verify_c [1]%N [] pk_c 16 = Ok (false, 0%N).
Proof.
  split; [|reflexivity]. destruct history_case as (x & y & s0 & s5 & s1023 & E & _ & _ & _ & _ & _ & _ & V & _).
  destruct (C82_erasure x (xf_base x) [] [1%N] 0 s0 (getPK (xf_base x)) 16) as (_ & _ & EV & _). rewrite V in EV.
  destruct (erase_true _ EV) as (n & En).
  exists (getPK (xf_base x)), s0, n. exact (conj (proj1 (PropJs.pk_bytes _ _ _ _ _ sup16 x E)) En).
Qed.
Example C73_verify_usable_case := C73_verify_usable 5%N SHAKE_256 [1]%N sig_c pk_c (proj1 C73_classes) pkc_bytes hash_c.
Lemma sized8 : sized_w 8. Proof. apply C73_classes. Qed.
Lemma unus8 : ~ usable_w 8. Proof. apply C73_classes. Qed.
Lemma uns1 : ~ sized_w 1. Proof. apply C73_classes. Qed.
Example C73_verify_unusable_case := C73_verify_unusable 8%N [1]%N sig_c pk_c sized8 unus8 pkc_bytes.
Example C73_verify_unsized_case := C73_verify_unsized 1%N [1]%N sig_c pk_c uns1.
Example C73_basic_usable_case := C73_basic_usable [170]%N seed_c 10 2%N SHAKE_256 0%N 5%N (proj1 C73_classes) eq_refl ltac:(lia) eq_refl eq_refl.
Example C73_basic_unusable_case := C73_basic_unusable [170]%N seed_c 10 2%N SHAKE_256 0%N 8%N sized8 unus8 eq_refl ltac:(lia) eq_refl eq_refl.
Example C73_basic_unsized_case := C73_basic_unsized [170]%N seed_c 10%N 2%N 0%N 1%N uns1.
Example C73_lost_bits_case := C73_lost_bits 5%N (proj1 C73_classes) (proj1 (proj2 C73_classes)).

(** ** JavaScript *)
Example C56_hex_seed_import_case := C56_hex_seed_import [170]%N (hex_text ([2; 5; 0]%N ++ seed_c)) ltac:(bytes) ltac:(num).
Example C57_address_strings_total_case := C57_address_strings_total (codes "Q020500"%string) ltac:(bytes) ltac:(num).
Example C58_sign_open_round_trip_case := C58_sign_open_round_trip toy_sign [1; 2]%N [3; 4; 5]%N [] toy_sign_ok.
Example C59_key_agreement_case := fun alice => C59_key_agreement toy_kem [1]%N [2]%N alice (proj1 toy_kem_ok) (proj2 toy_kem_ok [1]%N [2]%N).

(** ** SHAKE and the Rust port *)
Example C32_shake128_case := C32_shake128_is_fips202 100 [1; 2; 3]%N ltac:(bytes).
Example C32_shake256_case := C32_shake256_is_fips202 100 [1; 2; 3]%N ltac:(bytes).
Example C61_short_inputs_fips202_case := C61_short_inputs_fips202 100 [1; 2; 3]%N ltac:(bytes).
Example C64_rust_verify_case := C64_rust_verify W16 w16 [1]%N sig_c pk_c eq_refl pkc_bytes sig_bytes.
Example C64_rust_verify_vs_cpp_case := C64_rust_verify_vs_cpp W16 w16 SHAKE_256 [1]%N sig_c pk_c eq_refl pkc_bytes sig_bytes hash_c eq_refl ltac:(unfold signable; num).
Example C65_rust_verify_truncates_case := C65_rust_verify_truncates W16 SHAKE_256 8 (repeat 1%N 20) (repeat 1%N 20) sig_c pk_c pkc_bytes sig_bytes hash_c eq_refl.
Example C65_rust_cpp_same_verify_case := C65_rust_cpp_same_verify W16 SHAKE_256 [1]%N sig_c pk_c pkc_bytes sig_bytes hash_c eq_refl ltac:(unfold fully_seen; num).
Example C66_rust_get_address_case := C66_rust_get_address pk_c pkc_bytes.
Example C66_rust_generated_addresses_valid_case : exists a, rs_get_address pk_c = ROk a.
Proof. destruct addr_c as (a & E & _). exists a. apply (C66_rust_get_address_is_cpp pk_c a pkc_bytes). split; [exact E|num]. Qed.
Example C68_rust_hex_encode_case := C68_rust_hex_encode [1; 171; 255]%N 2%N ltac:(bytes) ltac:(num).
Example C68_rust_hex_is_cpp_case := C68_rust_hex_is_cpp [1; 171; 255]%N 2%N (codes "01ab"%string) ltac:(bytes) ltac:(num).
Example C69_rust_mnemonic_canonical_case := C69_rust_mnemonic_canonical (codes "aback abbey"%string) [0; 0; 1]%N ltac:(vm_compute; reflexivity).
Example C70_rust_random_seed_case := C70_rust_random_seed (repeat 1%N 48) 48%N [0x41; 0xE9]%N eq_refl.
Example C70_rust_random_seed_drops_entropy_case := C70_rust_random_seed_drops_entropy (repeat 1%N 140) 140%N [0x41]%N [0x42]%N eq_refl eq_refl ltac:(num).
Example C70_rust_hash_chain_is_cpp_case := C70_rust_hash_chain_is_cpp seed_c 3%N 5%N ltac:(num) ltac:(num) ltac:(num).
Example C70_rust_hash_chain_panics_case := C70_rust_hash_chain_panics (repeat 1%N 264) 3%N 5%N ltac:(num).
Example C71_rust_pool_history_case := C71_rust_pool_history [1; 2; 255]%N 10 7%N 3%N ltac:(bytes) ltac:(lia) eq_refl.
Example C72_rust_dilithium_round_trip_case := C72_rust_dilithium_round_trip toy_rsa [1]%N [3; 4; 5]%N toy_rsa_ok.
