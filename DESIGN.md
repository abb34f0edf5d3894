# Formal model of theQRL/qrllib in Rocq (Coq 8.16.1)

The model is in `rocq/theories`.  It is a shallow embedding: each C/C++ function of
`/repo` is a Gallina function with a comment citing its file and lines; the property
theorems are about these functions.  There are no axioms of our own, no parameters, module types,
functors or native-code plugins.

## What is modelled

| model file | code |
|---|---|
| `Base.v` | the outcome type `res` (normal result / C++ exception / undefined behaviour), checked buffer access, loops |
| `Bytes.v` | bytes, big/little endian codecs (`xmss_common.c:to_byte`, `fips202.c:load64/store64`), xor, slices |
| `Keccak.v` | `src/xmss-alt/fips202.c`: the unrolled Keccak-f[1600], absorb, squeeze, SHAKE128/256 |
| `Sha256.v` | FIPS 180-4 SHA-256, standing for PicoSHA2 (`deps/`, absent) as called by `shasha.cpp` |
| `HashAddress.v` | `hash_address.c`, `hash.c` |
| `AddrFields.v` | `hash_address.c`, `hash_address.rs`: the layer and tree setters, sequences of setter calls |
| `Wots.v` | `wots.c` |
| `XmssCommon.v` | `xmss_common.c` |
| `AlgsXmss.v` | `algsxmss.c` |
| `AlgsXmssFast.v` | `algsxmss_fast.c` (BDS traversal) except its unreachable functions |
| `Descriptor.v` | `qrlDescriptor.h`, `qrlHelper.h` |
| `Misc.v`, `Wordlist.v` | `misc.cpp`, `hashing.cpp`, `wordlist.cpp` (the 4096 words are generated from that file) |
| `XmssObj.v` | `xmssBase.{h,cpp}`, `xmssBasic.cpp`, `xmssFast.{h,cpp}`, and histories of API calls |
| `Pool.v` | `xmssPool.{h,cpp}` as a transition system with any number of client threads and background tasks |
| `PoolLife.v` | construction and destruction of an `XmssPool`: the constructor with its failures, the implicit destructor (members in reverse order of declaration, futures of `std::async` wait) |
| `FastCopy.v` | the implicit copy constructor, move constructor, move assignment and destructor of `XmssFast`: objects, the vectors they own and the vectors their `_state` points into (whether embind moves or copies a returned object is outside the repository: C79 covers the move, C78 the copy) |
| `FastAssign.v` | the implicit copy assignment of `XmssFast` (assigning a vector to one of the same length keeps its storage, as the usual standard libraries do; assignments after which a third object would follow the target's old vectors are not modelled) |
| `MemText.v` | `bin2hstr`, `bin2mnemonic`, `mnemonic2bin`, `verify`, `addressIsValid`, `XmssBasic::sign` when allocations fail; each allocation has its own answer (PicoSHA2 is taken to allocate at most once per call; the decoder asks for the bytes of a word together) |
| `FastAlloc.v` | `XmssFast::sign` and `initialize_tree` with each of their allocations failing or not (the vectors they allocate, in order; PicoSHA2 is taken not to throw) |
| `Session.v` | not code of the repository: an application that stores the index and restarts after crashes, over the modelled constructors, `setIndex`, `sign`, `getIndex` and `getExtendedSeed` |
| `BasicSession.v` | the same for `XmssBasic`, with the application's own precautions as parameters |
| `Migrate.v` | not code of the repository: a wallet used in turn by the C++ library and by the Rust port, kept as mnemonic and index in between |
| `MixSession.v` | not code of the repository: one wallet in durable storage, started with either library, by an application that may crash |
| `Cost.v` | the hashing functions of `hash.c`, `wots.c`, `xmss_common.c`, `algsxmss.c`, `algsxmss_fast.c` and the `sign`, `setIndex` and `verify` calls again, each also counting the calls of `core_hash`; `C82_erasure` ties them to the plain model |
| `Cost2.v` | key generation (`algsxmss.c` `treehash`, `xmss_Genkeypair`; `algsxmss_fast.c` `treehash_setup`, `xmssfast_Genkeypair`; the constructors and `initialize_tree`) again, counting the calls of `core_hash`; `C84_erasure` ties it to the plain model |
| `ByteOrder.v` | both branches of `addr_to_byte` in `hash.c` and `hash.rs`, and its callers, for either byte order of the machine |
| `FpParams.v` | `wots_set_params` and `WOTSParams::new` with floating-point arithmetic left abstract |
| `Stack.v` | signing, verifying and key generation with a stack of bounded size for the local arrays |
| `PyErrors.v` | exception handlers of the SWIG bindings (src/api/*.i) and all wrapped calls |
| `Trace.v` | the owner's functions (key generation, sign, setIndex) once more, with a log of every hash call: address, input; erased to the model by C89_erasure |
| `VerifyTrace.v` | verify once more, with a log of every hash call; erased to the model by C90_erasure |
| `Threads.v` | `xmssFast.cpp` `sign`/`setIndex` and `algsxmss_fast.c` `xmssfast_update`/`xmssfast_Signmsg` cut at their accesses to the shared index, a scheduler over threads, and an optional mutex of the callers; memory is sequentially consistent and the work after the index write is one step |
| `JsWrapper.v` | `src/jswrapper/jsqrlwrapper.cpp` |
| `JsSeed.v` | `src/jswrapper/getRandomSeed.js` over an arbitrary platform |
| `PqWrapper.v` | `src/dilithium/*`, `src/kyber/*`, `jsdilwrapper.cpp`, `jskybwrapper.cpp` over an arbitrary NIST-style API |
| `RsBase.v` | outcomes (`Ok`, `Err`, panic), checked slices and loops of the Rust port `src/rust_wrapper` |
| `RsKeccak.v`, `RsShake.v` | `src/rust_wrapper/xmss_alt/fips202.rs`, `qrl/hashing.rs` SHAKE wrappers; proof that absorb/squeeze is FIPS 202 on the *wrapped* message |
| `RsHash.v` | `xmss_alt/hash_address.rs`, `hash.rs`, `to_byte` |
| `RsWots.v` | `xmss_alt/wots.rs`, `xmss_common.rs` (incl. `xmss_verify_sig`) |
| `RsAlgs.v`, `RsFast.v` | `xmss_alt/algsxmss.rs`, `algsxmss_fast.rs` (dead private functions excepted) |
| `RsObj.v` | `qrl/qrl_descriptor.rs`, `qrl_helper.rs`, `xmss_base.rs`, `xmss_basic.rs`, `xmss_fast.rs`, and histories of calls |
| `RsMisc.v` | `qrl/misc.rs`, `hashing.rs` SHA-256, `wordlist.rs`; texts are lists of characters, `len()` counts UTF-8 bytes; the operating system's random bytes are a parameter |
| `RsPool.v` | `qrl/xmss_pool.rs`; rayon's `install` is synchronous, so the pool is sequential |
| `RsPq.v` | `dilithium/dilithium.rs`, `kyber/kyber.rs` over arbitrary primitives (the crates are not modelled) |
| `RsSim*.v`, `Rs*Proofs.v` | simulation: whenever the C++ model returns, so does the Rust model, with the flattened value |

The Rust port is modelled with overflow checks on (a debug build): arithmetic overflow
panics.
Specifications (`Spec*.v`) do not import the models of the functions they specify:
`SpecXmss.v` (RFC 8391 algorithms as recursive functions), `SpecRfc.v` (the pseudo-code of RFC 8391 transcribed literally, sharing nothing with the rest), `SpecCommit.v` (collisions computed from accepted signatures), `SpecMove.v` (one signer behind two libraries), `SpecReuse.v` (what several signatures at one index give away), `SpecW256.v` (which digests a w = 256 signature gives away), `SpecApi.v` (keys,
signatures, histories, reference verifier), `SpecForge.v` (collisions and one-time
forgeries), `SpecMisc.v` (hex, mnemonic), `SpecKeccak.v` (FIPS 202 on bits),
`SpecDomain.v` (hash inputs), `SpecAddr.v` (the layout of a hash address), `SpecFresh.v` (the PRF inputs of a call), `SpecTweak.v` (hash calls and the value at each place of a tree), `SpecPool.v` (pool), `SpecBasic.v` (XmssBasic histories), `SpecWinternitz.v` (any w), `SpecRsMisc.v` (Unicode
white space), `SpecRsPool.v` (Rust pool), `SpecRust.v` (the Rust port: hashed
message, histories, verifier), `SpecTerms.v`, `SpecTerms2.v`, `SpecTerms3.v` (the predicates used in theorem
statements: parameters and sizes, histories and verdicts, the Rust port; those that speak of calls of the library use its model).
A few terms used by one theorem only are defined just above it
(`PropPool2.v`, `PropPoolLife.v`, `PropPq.v`, `PropRsPq.v`, `PropMem.v`, `PropAssign.v`, `PropJsSeed.v`,
`PropErrors.v`, `PropMove.v`, `PropWots.v`).  Property theorems are named
`Cnn_...` and live in `Prop*.v`; every other file holds lemmas.

### Conventions and simplifications
* A C++ call is a function into `res A = Ok a | Exn e | UB`.  Everything the
  language standard leaves undefined and that the code can reach (out-of-bounds
  access, reading memory that was never written, shifts by 32 or more or by a
  negative amount, `int` overflow of loop counters, a negative `char` passed to
  `isxdigit`) is the outcome `UB`; "memory safe" theorems say it is never reached.
* Platform: `char` signed, `int` 32 bits, `size_t`/`unsigned long` 64 bits.
* Bytes are `N` below 256; machine words are `N` with explicit reduction modulo
  2^8, 2^32 or 2^64.  Positions in buffers, tree levels and leaf indices inside
  one tree are `nat`.
* Buffers that the code only addresses in units of n = 32 bytes are lists of
  32-byte cells; a cell index out of range is `UB`.
* The indeterminate contents of a local C array are a universally quantified
  parameter `junk`.
* `log2`/`ceil`/`floor` of `wots_set_params` are taken exactly in `Wots.v`; C86 proves
  that the floating-point computation gives the same parameters.
* Pool: one step is one access to a shared member, one completion of a task, or one
  call/return; interleavings between steps are arbitrary; memory exhaustion is
  modelled only as "std::async may throw at launch".

### Not modelled
* PicoSHA2's source (absent): `Sha256.v` is FIPS 180-4 itself, checked against the
  standard's test vectors in `PropCodec.v`.
* `hashing.cpp` gets SHAKE from `deps/dilithium/ref/fips202.h` (absent): taken to be
  the same function as `src/xmss-alt/fips202.c`.
* The NIST Dilithium/Kyber primitives (absent): an arbitrary record of functions
  satisfying the documented contract, which is a hypothesis of C58/C59.  The free
  functions `crypto_sign_keypair`/`crypto_kem_keypair` exported by the two JS
  wrappers (they call themselves without end) are not modelled.
* SWIG typemaps and conversions (`src/api/*.i`; its exception handlers are modelled), emscripten conversions (except as parameters of `JsSeed.v`),
  build files, tests.
* Unreachable functions of `algsxmss_fast.c` (`validate_authpath`,
  `bds_state_update`): static and never called.
* Allocation failure elsewhere than in the pool, `XmssFast::sign`, `initialize_tree`, `XmssBasic::sign`, `verify`, `addressIsValid`, `bin2hstr`, `bin2mnemonic` and `mnemonic2bin`, 
  timing, side channels, secret erasure.

## Validation of the model against the code (not part of any proof)
The model was extracted to OCaml in a scratch directory and run on the repository's
own known-answer tests: addresses of the all-zero seed at height 4 for the three hash
functions, the JavaScript tests' height-6 w=4 public key and signature, acceptance of
a recorded signature and rejection of a corrupted one, hash-chain seeds, mnemonics
and SHA-256 vectors.  All agree.

## Mutation testing
`seeded/LOG.jsonl` has one line per wrong program tried against the theorems.

Concrete cases for the hypotheses of the theorems stand beside them as `Example`s or, where they need several files, in `CasesXmss.v` (every theorem with a `supported` hypothesis, at a small height), `CasesMisc.v` and `PoolExamples.v`.
## Plan and result per property

Statements are in `properties.jsonl`.  "Assumptions" is what `Print Assumptions` lists
for the theorem.

| id | property | method | theorems | assumptions |
|---|---|---|---|---|
| C01 | Hex encode/decode round trip | strings as lists of codes; induction on the list | `C01_hex_round_trip` | closed |
| C02 | Hex decoder accepts exactly the hex strings | same; total case analysis of the decoder, incl. negative char | `C02_hex_decoder` | closed |
| C03 | Hex wrapping only inserts line breaks | same, induction with the wrap counter | `C03_hex_wrap`, `C03_hex_wrap_overflow`, `C03_hex_of_string` | closed |
| C04 | Mnemonic round trip | bit buffer modelled literally; spec = 12-bit groups; generated word list; distinctness by vm_compute | `C04_mnemonic_round_trip`, `C04_empty` | closed |
| C05 | Mnemonic decoder characterisation | std::count, operator>> tokenisation and map lookup modelled literally | `C05_mnemonic_decoder`, `C05_reencode` | closed |
| C06 | Odd word counts can slip past the mnemonic parity check | as C04 | `C06_single_blanks_odd_rejected`, `C06_odd_accepted_with_trailing_blank`, `C06_even_rejected_with_trailing_blank` | closed |
| C07 | Word list is a bijection onto 12-bit values | as C05 | `C07_wordlist`, `C07_mnemonic_injective` | closed |
| C08 | Descriptor encode/decode round trip | N bit operations turned into arithmetic | `C08_descriptor_roundtrip`, `C08_descriptor_reencode`, `C08_descriptor_length` | closed |
| C09 | Descriptor loses heights above 30 and odd heights | as C08 | `C09_descriptor_height_loss` | closed |
| C10 | Signature-type nibble is never decoded | as C08 | `C10_sigtype_always_xmss` | closed |
| C11 | Every generated address is valid | SHA-256 only through its length | `C11_generated_addresses_valid`, `C11_address_exists` | closed |
| C12 | addressIsValid accepts exactly checksummed addresses | as C11 | `C12_addressIsValid_exact`, `C12_checksum_determined` | closed |
| C13 | Extended seed recreates the same key | object invariant of the history theorem (C18) | `C13_extended_seed_recreates` | closed |
| C14 | Key layout and constancy of key material | object invariant | `C14_key_layout` | closed |
| C15 | Index codec | big-endian codec | `C15_index_codec` | closed |
| C16 | Signature size and height are inverse | arithmetic on sizes | `C16_size_height_inverse`, `C16_height_from_size` | closed |
| C17 | XmssBasic: every signature verifies | array code refined to the recursive Merkle/WOTS specification | `C17_basic_signatures_verify` | closed |
| C18 | XmssFast: every signature verifies in every history | histories = lists of calls; invariant: auth path of the current index right, every treehash instance finishes before its deadline; induction over histories | `C18_fast_signatures_verify` | closed |
| C19 | XmssFast and XmssBasic agree | both refine the same specification | `C19_basic_follows_fast`, `C19_fast_equals_basic` | closed |
| C20 | Skipping ahead equals signing ahead | as C18 | `C20_skip_equals_sign` | closed |
| C21 | XmssFast never reuses a one-time key | as C18 | `C21_indices_strictly_increase` | closed |
| C22 | Exhaustion is enforced | as C18 | `C22_exhaustion` | closed |
| C23 | Failed calls leave the object unchanged | as C18 | `C23_failed_calls` | closed |
| C24 | Traversal memory safety | as C18 (outcome never UB, for all stack contents) | `C24_traversal_safe` | closed |
| C25 | XmssBasic signs with the index it is told | direct, using C17 | `C25_basic_history`, `C25_basic_index` | closed |
| C26 | verify always answers for supported hash ids | case analysis of verify + refinement to the reference verifier | `C26_verify_total`, `C26_verify_is_reference` | closed |
| C27 | verify on unsupported hash ids | as C26 | `C27_verify_undefined` | closed |
| C28 | Bits of the public key that verify ignores | as C26 | `C28_verify_ignores` | closed |
| C29 | WOTS: recomputed public key equals generated one | composition of chains | `C29_wots_complete` | closed |
| C30 | WOTS checksum prevents forgery by chain extension | base-w digit theory | `C30_checksum_no_domination`, `C30_w256_domination` | closed |
| C31 | WOTS parameters | computation for the four values of w | `C31_wots_parameters` | closed |
| C32 | SHAKE implementation equals FIPS 202 | unrolled C rounds refined to the FIPS 202 step mappings on bits | `C32_shake128_is_fips202`, `C32_shake256_is_fips202`, `C32_shake_unique` | closed |
| C33 | SHAKE output length and prefix property | sponge refinement | `C33_shake_length_prefix` | closed |
| C34 | Hash inputs are domain separated | injectivity of the encodings of hash inputs and addresses | `C34_hash_inputs_separated`, `C34_addresses_injective`, `C34_places_separated`, `C34_library_uses_place_addresses`, `C34_tree_addresses_unique` | closed |
| C35 | Root is the Merkle root | treehash stack invariant | `C35_root_is_merkle_root` | closed |
| C36 | Pool issues every index exactly once | transition system; inductive invariant over all interleavings | `C36_pool_indices`, `C36_current_index` | closed |
| C37 | Pool returns the tree of the claimed index | as C36 | `C37_returned_tree`, `C37_tree_is_fresh_key` | closed |
| C38 | Pool seed derivation separates indices | injectivity of the index encoding | `C38_seed_inputs`, `C38_same_tree_seed_is_collision` | closed |
| C39 | Pool cache stays contiguous and bounded | as C36 | `C39_cache` | closed |
| C40 | Pool survives failed background launches | as C36 | `C40_failed_launches` | closed |
| C41 | Hash-chain seeds | direct | `C41_hash_chain_seeds`, `C41_inputs_distinct` | closed |
| C42 | sha2_256_n is iterated SHA-256 | direct | `C42_sha2_256_n`, `C42_compose` | closed |
| C43 | Random seeds | direct | `C43_random_seed`, `C43_inputs_distinct` | closed |
| C44 | initialize_tree resets the index | object invariant | `C44_initialize_tree_resets` | closed |
| C45 | Verification binds the authentication path | path extraction by induction | `C45_authpath_bound` | closed |
| C46 | Signature format | as C17 | `C46_signature_format` | closed |
| C47 | Secret key only moves forward through xmss_updateSK | direct | `C47_updateSK_forward`, `C47_rust_update_sk` | closed |
| C48 | An accepted signature is the key owner's or yields a concrete hash collision | descend both trees; first difference is a collision | `C48_accepted_genuine_or_collision`, `C48_owner_sig_accepted` | closed |
| C49 | A second signature for a used index reveals a collision or a preimage-like chain value | digit comparison (C30) and chain extraction | `C49_one_time_forgery`, `C49_one_time_forgery_basic` | closed |
| C50 | Pool is free of data races | pool invariant: shared accesses happen with the lock held | `C50_race_free` | closed |
| C51 | Every pool call returns | termination measure on pool states under fairness of the lock | `C51_calls_return`, `C51_lock_holder_never_waits` | closed |
| C52 | isAvailable() == true is a promise | pool invariant | `C52_available` | closed |
| C53 | Pool cache is full until a launch fails, and never recovers once empty | pool invariant | `C53_cache_stays_full`, `C53_empty_cache_is_final` | closed |
| C54 | Integer fields are fixed-width positional encodings | direct, so that the shared helpers cannot be wrong unnoticed | `C54_big_endian_digits`, `C54_little_endian_digits`, `C54_decode`, `C54_round_trip`, `C54_xor`, `C54_slice` | closed |
| C55 | Wallet backups restore the wallet, at index 0 | JS wrapper over XmssObj/Misc | `C55_hex_seed_backup`, `C55_mnemonic_backup`, `C55_signatures_verify`, `C55_verify_is_reference`, `C55_basic_signatures_verify`, `C55_basic_backup` | closed |
| C56 | Which backup texts are accepted | as C55 | `C56_hex_seed_import`, `C56_mnemonic_import` | closed |
| C57 | Address strings | as C55 | `C57_wallet_address`, `C57_address_strings_total` | closed |
| C58 | Dilithium class over the NIST API | wrapper over an abstract API satisfying the NIST contract; toy instance shows it is satisfiable | `C58_sign_open_round_trip`, `C58_size_checks`, `C58_js_sign_open_hides_failure`, `C58_js_extract_message_undefined`, `C58_js_keys_and_sign` | closed |
| C59 | Kyber class over the NIST API | as C58 | `C59_constructor_checks`, `C59_key_agreement`, `C59_histories`, `C59_size_checks`, `C59_js_calls` | closed |
| C60 | Constructors: exact acceptance domain | case analysis using the key-generation refinements | `C60_fast_constructor`, `C60_basic_constructor`, `C60_extended_seed_constructor` | closed |
| C61 | Rust port: what SHAKE128/SHAKE256 compute | unrolled Rust Keccak shown equal to the C one; absorb on the wrapped message; C32 for the standard | `C61_short_inputs_fips202`, `C61_longer_inputs`, `C61_long_inputs_panic`, `C61_collisions` | closed |
| C62 | Rust port: constructors and key contents | simulation RsSim*.v of the C++ model by the Rust model, then the C++ key-generation refinement; outcome tables by case analysis | `C62_rust_extended_seed_key`, `C62_rust_fast_constructor`, `C62_rust_from_extended_seed`, `C62_rust_fast_key`, `C62_rust_defaults`, `C62_rust_key_is_cpp_key` | closed |
| C63 | Rust port: every history of sign and set_index | invariant `rust_inv` (object = C++ invariant + flattened traversal state), induction over the history | `C63_rust_history`, `C63_rust_panics`, `C63_rust_signatures_verify`, `C63_rust_failed_calls` | closed |
| C64 | Rust port: exact behaviour of verify | Rust verify computed against the same reference verifier as the C++ one; arithmetic of the decoder | `C64_rust_verify`, `C64_rust_verify_default`, `C64_rust_verify_vs_cpp` | closed |
| C65 | Rust port: which messages are really signed | from C61's absorbed string and C63/C64; C++ side from C01 | `C65_rust_verify_truncates`, `C65_rust_sign_truncates`, `C65_rust_cpp_same_histories`, `C65_rust_cpp_same_verify`, `C65_rust_signature_is_for_seen_message` | closed |
| C66 | Rust port: addresses | nibble arithmetic of the two decoders, then C11/C12 | `C66_rust_get_address`, `C66_rust_get_address_is_cpp`, `C66_rust_address_is_valid`, `C66_rust_address_is_valid_is_cpp`, `C66_rust_generated_addresses_valid` | closed |
| C67 | Rust port: XMSSBasic | simulation of the full-tree authentication path, exact panic condition, induction over the history | `C67_rust_basic_constructor`, `C67_rust_basic_history`, `C67_rust_basic_is_fast` | closed |
| C68 | Rust port: hexadecimal text | induction on the byte string / the text; characters below 128 by exhaustive computation, the others by arithmetic | `C68_rust_hex_encode`, `C68_rust_str2bin_utf8`, `C68_rust_hex_of_string`, `C68_rust_hex_decode`, `C68_rust_hex_round_trip`, `C68_rust_hex_is_cpp` | closed |
| C69 | Rust port: mnemonics | decoder state invariant shared with C05; `split_whitespace` against an independent field splitter | `C69_rust_mnemonic_decoder`, `C69_rust_mnemonic_round_trip`, `C69_rust_mnemonic_canonical`, `C69_rust_mnemonic_is_cpp` | closed |
| C70 | Rust port: seeds | C61's absorbed string for SHAKE256, then C41-C43 | `C70_rust_random_seed`, `C70_rust_random_seed_drops_entropy`, `C70_rust_hash_chain_is_cpp`, `C70_rust_hash_chain_repeats`, `C70_rust_hash_chain_panics`, `C70_rust_sha2_256_n` | closed |
| C71 | Rust port: XMSSPool | pool invariant: the cache holds the trees of the next indices; induction over the history; decimal numerals are unique | `C71_rust_tree_seed_exists`, `C71_rust_same_tree_seed_is_collision`, `C71_rust_tree_seeds_overlap`, `C71_rust_pool_history`, `C71_rust_pool_answers`, `C71_rust_pool_bad_height`, `C71_rust_pool_high_trees` | closed |
| C72 | Rust port: Dilithium and Kyber wrappers | case analysis; induction on the history (from the right); primitives universally quantified | `C72_rust_dilithium_new`, `C72_rust_dilithium_round_trip`, `C72_rust_extract`, `C72_rust_extract_is_swapped`, `C72_rust_kyber_new`, `C72_rust_kyber_history`, `C72_rust_kyber_agreement`, `C72_rust_kyber_default` | closed |
| C73 | Every Winternitz parameter | sizes by arithmetic; base_w against bit pieces by induction; BDS/treehash specifications are generic in w; lost bits by computation over the 274 bad w and 256 byte values, lifted to digests by induction | `C73_verify_usable`, `C73_verify_unusable`, `C73_verify_unsized`, `C73_basic_usable`, `C73_basic_unusable`, `C73_basic_unsized`, `C73_lost_bits`, `C73_power_of_two_injective`, `C73_fast_usable`, `C73_fast_unusable`, `C73_fast_unsized` | closed |
| C74 | Construction and destruction of a pool | a transition system for the phases (building, alive, being destroyed, freed) around Pool.v; invariant: every unfinished task is in the cache or held by a thread; termination by a measure | `C74_no_use_after_free`, `C74_living_pool`, `C74_destructor_returns`, `C74_constructor` | closed |
| C75 | An address stands for one key | from C11 (the address contains SHA-256 of the key) and C48 | `C75_address_binds_key`, `C75_address_binds_key_rust`, `C75_address_authenticates` | closed |
| C76 | Forgeries against the Rust port | C64 reduces the Rust verifier to the C++ one on the seen message; then C48/C49's core lemma; the seen message determines the visible part | `C76_rust_accepted_genuine_or_collision`, `C76_rust_one_time_forgery` | closed |
| C77 | getRandomSeed returns exactly what the platform drew | rational sizes with floor and ceiling; the loops by induction over the positions | `C77_random_seed`, `C77_default_size`, `C77_fails_closed`, `C77_seed_makes_key` | closed |
| C78 | Copies of an XmssFast object share its tree-traversal state | a small memory of buffers and objects; the traversal round re-proved for states whose auth/keep nodes are wrong; C45 for the rejected signatures | `C78_newest_copy_follows_reference`, `C78_stale_copy_signature`, `C78_copy_corrupts_original`, `C78_copy_outlives_original`, `C78_original_outlives_copy`, `C78_reinitialised_copy_is_independent` | closed |
| C79 | Moving XmssFast objects is safe, using a moved-from one is not | refinement of a world of reference objects: each live object points into the vectors it owns, and no two objects own the same ones | `C79_moves_are_safe`, `C79_factory`, `C79_moved_from_still_signs` | closed |
| C80 | Running out of memory, or a damaged traversal state, never reuses a one-time key | model of the two allocating members with numbered allocations; simulation of a reference machine with a wiped state; invariant on the key part of the object that does not mention the traversal state | `C80_out_of_memory`, `C80_wiped_object`, `C80_no_reuse_with_any_traversal_state` | closed |
| C81 | Crashes and restarts: storing the index before releasing a signature prevents reuse | application machine with durable and volatile state over the modelled calls; invariant: handed-out indices increase strictly and stay below the stored index, which the live object has reached | `C81_store_before_release`, `C81_release_before_store_reuses`, `C81_spent_key_restored_carelessly`, `C81_safe_life`, `C81_lost_signature` | closed |
| C82 | Signing and verifying take a bounded number of hash evaluations | instrumented copy of the hashing code that also counts calls of core_hash (`Cost.v`), an erasure theorem to the plain model for every entry point, then induction over trees, the BDS stack invariant and histories | `C82_erasure`, `C82_sign_calls`, `C82_basic_sign_calls`, `C82_verify_calls` | closed |
| C83 | One XmssFast object shared by several threads | a scheduler that interleaves the calls of several threads at their accesses to the shared index (`Threads.v`), with and without a callers' mutex; with it, an invariant over schedules relates the log to a sequential run of the reference object; without it, concrete schedules for every index | `C83_locked_schedules`, `C83_locked_no_reuse`, `C83_race_reuses_key`, `C83_race_other_damage` | closed |
| C84 | Creating a key takes a fixed number of hash evaluations | counted copies of treehash, treehash_setup and the constructors (`Cost2.v`) with an erasure theorem; an amortised argument: the levels on the stack are strictly increasing from the top and their powers of two sum to the number of leaves seen, so exactly one node is left after 2^h leaves and every other one was merged | `C84_erasure`, `C84_key_generation_calls`, `C84_supported_keys` | closed |
| C85 | Keys and signatures do not depend on the machine's byte order | a model of both branches with the memory image of a word (`ByteOrder.v`); equality with the little-endian model for every address | `C85_same_on_both_machines`, `C85_rust_same_on_both_machines`, `C85_plain_copy_differs` | closed |
| C86 | The floating-point computation of the WOTS parameters is exact | a model over the reals with an abstract floating-point unit (`FpParams.v`); logarithms of integers below 2^s keep a distance of 2^-(s+1) from the next integer; Flocq's rounding bounds for the IEEE instance | `C86_double_is_exact`, `C86_binary64_is_exact`, `C86_single_is_exact`, `C86_binary32_is_exact`, `C86_exactness_needed` | closed, except for the axioms of the real numbers (see below) |
| C87 | How much stack the calls need | a copy of the model with the remaining stack passed down and a check at every function with local arrays (`Stack.v`); agreement with the model above the bound, undefined below | `C87_verify_stack_suffices`, `C87_verify_stack_needed`, `C87_sign_stack`, `C87_new_stack`, `C87_basic_sign_stack`, `C87_basic_new_stack` | closed |
| C88 | Which exception a Python or Go caller gets | the C++ exception hierarchy, the two SWIG handlers and all wrapped calls in one type (`PyErrors.v`); per-call specification of invalid arguments (`SpecErrors.v`); compositional proofs that the remaining functions do not throw | `C88_handlers`, `C88_python_errors`, `C88_pool_errors` | closed |
| C89 | No address is hashed with two inputs | the owner's code with a log of hash calls (`Trace.v`), erased back to the model by theorem; places of the tree and their contents as specification (`SpecDomain.v`, `SpecTweak.v`); the BDS invariant gives place and content of every call of the update steps, a permutation argument covers the two tree constructions, C34 gives separation of addresses | `C89_erasure`, `C89_fast_calls_are_tree_calls`, `C89_basic_calls_are_tree_calls`, `C89_one_input_per_address`, `C89_key_generation_calls_once`, `C89_no_call_missing_from_log` | closed |
| C90 | A forgery breaks a hash call the owner made | verify with a log of its hash calls (`VerifyTrace.v`), erased back to the model by theorem; the calls of a verification as specification (`SpecPlace.v`); the extractor of C48 is located in that log and in the log of key generation (C89), giving a second preimage at a fixed address instead of an unrelated collision; the checksum argument (C30) and the history (C21) settle genuine-looking signatures | `C90_erasure`, `C90_verification_calls`, `C90_accepted_signature_verdict`, `C90_accepted_signature_verdict_fast`, `C90_genuine_iff_calls_repeated`, `C90_every_forgery`, `C90_no_call_missing_from_log` | closed |
| C91 | Secret seeds key only place-bound derivations; one message hash per signature | the logs of C89 and C90 (`Trace.v`, `VerifyTrace.v`) restricted to the plain PRF and message-hash entries; what they may be is in `SpecPrf.v`; every derivation is linked in the log to the first chain step of the same one-time key, and C89 places that step in the tree; induction over the history | `C91_fast_prf_and_message_calls`, `C91_basic_prf_and_message_calls`, `C91_verify_message_calls` | closed |
| C92 | The sequence of hash calls reveals nothing about the secrets | the logs of C89 and C91 (`Trace.v`), with every entry reduced by `SpecShape.v` to its kind, address or counter and input lengths; a two-run relation over the logging models (`TraceShape.v`) carried through every function, with the BDS bookkeeping equal in both runs; induction over the history | `C92_fast_hash_calls_reveal_only_digits`, `C92_setIndex_calls_reveal_nothing`, `C92_basic_hash_calls_reveal_only_digits` | closed |
| C93 | A pool's trees across restarts and crashes | the pool model of C36-C53 (`Pool.v`), one trace per run; `SpecRestart.v` says what a run, a stored index and the discipline are; from C36 (indices in order, getCurrentIndex) by arithmetic; the negative half by explicit executions for every pool size | `C93_used_trees_never_come_again`, `C93_quiet_restart_continues`, `C93_unstored_tree_comes_again` | closed |
| C94 | What reuse of a one-time key costs | `SpecReuse.v` defines, on public keys, messages and signatures only, the positions shown, the forged signature and what counts as handed out by the API; the forged bytes are proved equal to what the owner would compute (C48), which verify accepts; the chains of SpecXmss.v do not depend on height or w | `C94_reused_index_forges`, `C94_port_accepts_forgeries`, `C94_heights_share_one_time_keys`, `C94_smaller_w_gives_the_key_away` | closed |
| C95 | Copy assignment rewinds a signer | `FastAssign.v` adds the implicit copy assignment to the memory model of C78 (`FastCopy.v`): objects, the vectors they own, the vectors their `_state` points into; histories by induction over the rounds, from the step theorem of C18 and an invariant on vector lengths | `C95_restore_rewinds`, `C95_restore_reuses_key`, `C95_assigned_object`, `C95_self_assignment` | closed |
| C96 | Running out of memory in the text functions, verify, addressIsValid and XmssBasic.sign | `MemText.v` gives these functions with an arbitrary answer for every allocation: streams set badbit and go quiet, other allocations throw; proved by induction on the text (streams), by the decoder invariant of C05, and by case analysis; the wallets via C55/C56 | `C96_hex_truncated`, `C96_mnemonic_truncated`, `C96_mnemonic_bad_length`, `C96_every_truncation`, `C96_truncated_hex_backup_rejected`, `C96_accepted_truncation`, `C96_truncated_mnemonic_other_wallet`, `C96_decoder`, `C96_good_mnemonic_exact`, `C96_garbage_accepted`, `C96_verify_never_wrong`, `C96_verify_enough_memory`, `C96_address`, `C96_basic_sign` | closed |
| C97 | What a public key commits its publisher to, whoever made it | from C26 (verify is the reference verifier): two climbs to one root are compared level by level, two L-trees likewise, two chains likewise, and hashes at different addresses or with different public seeds are separated by their keys; each step names the pair of hash inputs (`SpecCommit.v`), so `collision` is never an empty existence claim | `C97_root_commits_to_key`, `C97_signatures_agree_or_collide`, `C97_one_signature`, `C97_signature_binds_message`, `C97_one_tree` | closed |
| C98 | Keys, signatures and verification are those of RFC 8391 | `SpecRfc.v` is a second, independent specification: the pseudo-code of RFC 8391 transcribed with its loops, node stack and mutable address, sharing nothing with `SpecXmss.v`; each algorithm is proved equal to the recursive specification (base_w by a loop invariant on the bits left, ltree by the contents of the array after each level, treeHash by induction on the height of a completed subtree, root computation by induction on the path), and C16/C17/C26 carry it to the code | `C98_public_key_is_rfc`, `C98_public_key_is_rfc_fast`, `C98_signatures_are_rfc`, `C98_verify_is_rfc` | closed |
| C99 | The Rust port against RFC 8391, and what a public key commits to in front of it | C63/C64 reduce the port to the reference verifier and signer on the seen message, C98 turns those into the algorithms of the RFC, C97 gives the commitment; the seen message of a long message differs from it because the port continues with the 32 bytes toByte(2, 32), which start with zeros | `C99_rust_verify_is_rfc`, `C99_rust_signatures_are_rfc`, `C99_standard_verifiers_reject`, `C99_rust_signatures_agree_or_collide`, `C99_rust_one_signature`, `C99_rust_binds_seen_message` | closed |
| C100 | An XmssBasic key survives crashes if the application does what XmssBasic does not | BasicSession.v: durable index and signatures handed out, volatile object; invariant: indices handed out increase and stay below the stored index, which is at most the live index and at most 2^height; counterexample lives for every precaution left out | `C100_safe_policy`, `C100_spent_key`, `C100_careless_policies`, `C100_tall_keys`, `C100_safe_life`, `C100_lost_signature` | closed |
| C101 | A wallet that moves between the C++ library and the Rust port | Migrate.v: stays with either library, the state between them being mnemonic and index; by induction over stays, each stay is the one reference machine (C18/C63) started at the stored index, which setIndex reaches on a fresh object (C20) | `C101_moves_are_invisible`, `C101_moved_signatures`, `C101_port_panics` | closed |
| C102 | w = 256: one signature can be turned into others; w = 2, 4, 16: never | `SpecW256.v` states the condition on digest bytes; the checksum digits for w = 256 are computed to be (low byte, 0); the forgery is `assemble` of `SpecReuse.v` with one signature (C94); the negative half is C30 | `C102_w256_forges`, `C102_w256_only_way`, `C102_every_digest_slides`, `C102_other_parameters_resist` | closed |
| C103 | One wallet, both libraries, crashes: no one-time key used twice | `MixSession.v` is the wallet as a state machine over durable (saved index, handed-out list) and volatile (C++ or Rust object) state, every call a modelled one; invariant by induction over events, with C81 (C++), C62/C63 (port) and C101 (words) for the steps | `C103_mixed_life`, `C103_release_before_store_reuses`, `C103_safe_life` | closed |
| C104 | Within one computation no hash key and no mask repeats | `SpecFresh.v` lists the PRF inputs of a call; the logs of C89 (key generation) and C90 (verification) are mapped to lists of places, shown duplicate free by induction over chains, L-tree and path, and C34's injective addresses carry that to the PRF inputs of all roles | `C104_value_uses_these_inputs`, `C104_key_generation_inputs_distinct`, `C104_verification_inputs_distinct` | closed |
| C105 | A hash address holds the last value of every field | `AddrFields.v` models the two setters the single-tree code never calls and sequences of setter calls on both sides; `SpecAddr.v` gives the word each assignment writes; induction over the sequence, the 64-bit field by splitting base-256 digits, injectivity from C34 | `C105_address_bytes`, `C105_tree_address`, `C105_fields_separated` | closed |

## Trusted base
* Coq 8.16.1's kernel, including its `vm_compute` reduction machine.
* `Print Assumptions` reports "Closed under the global context" for every theorem in
  the table, except those of C86: no axiom, not even of the standard library, is used.
  The theorems of C86 speak about real numbers and depend on the axioms of the
  standard library's `Reals` (the library Flocq, used there, adds none):
  `ClassicalDedekindReals.sig_not_dec`, `ClassicalDedekindReals.sig_forall_dec`,
  `FunctionalExtensionality.functional_extensionality_dep`, `Classical_Prop.classic`.  (The list of
  library axioms printed by vcheck are the fields of an ssreflect module type loaded
  with the standard library; no theorem depends on them.)
* The faithfulness of the definitions in the model files to the cited source lines,
  with the simplifications listed above and in the comments.
