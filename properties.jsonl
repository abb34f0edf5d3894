{"id": "C01", "title": "Hex encode/decode round trip", "statement": "hstr2bin(bin2hstr(v)) returns v for every byte vector v, never throws on it, and the text has exactly two lower-case hex digits per byte.", "quantifier": "all byte vectors of fewer than 2^30 bytes (beyond, the decoder's int counter overflows)", "why_tests_cant": "the input space is unbounded; tests sample a few vectors", "anchors": ["src/qrl/misc.cpp: bin2hstr, hstr2bin, getHexValue, str2bin"]}
{"id": "C02", "title": "Hex decoder accepts exactly the hex strings", "statement": "hstr2bin(s) on ASCII text throws invalid_argument when the length is odd or some character is not a hex digit, and otherwise returns half as many bytes whose lower-case hex text is s with A-F lower-cased (so decoding is case-insensitive and nothing else is accepted).", "quantifier": "all ASCII strings of fewer than 2^31 characters", "why_tests_cant": "acceptance of every malformed string cannot be enumerated", "anchors": ["src/qrl/misc.cpp: hstr2bin, getHexValue"]}
{"id": "C03", "title": "Hex wrapping only inserts line breaks", "statement": "bin2hstr(v, w) with w>0 is the unwrapped hex text of v broken into lines: deleting the newlines gives bin2hstr(v), every line but the last has exactly 2w characters, the last is non-empty unless v is empty and has at most 2w, and there is no trailing newline. The overload for strings does the same with the bytes of the string.", "quantifier": "all byte vectors and all wrap widths 1..2^31-1 (width 2^31-1 with 2^31 bytes or more overflows the int counter: proved)", "why_tests_cant": "both parameters are unbounded", "anchors": ["src/qrl/misc.cpp: bin2hstr"]}
{"id": "C04", "title": "Mnemonic round trip", "statement": "For every non-empty byte vector v whose length is a multiple of 3, mnemonic2bin(bin2mnemonic(v)) returns v; the phrase has 2*len/3 words separated by single spaces; any other length makes bin2mnemonic throw. (The empty vector encodes to the empty phrase, which the decoder rejects.)", "quantifier": "all byte vectors of fewer than 2^30 bytes (int counters)", "why_tests_cant": "the seed space is 2^408 for extended seeds alone", "anchors": ["src/qrl/misc.cpp: bin2mnemonic, mnemonic2bin", "src/qrl/wordlist.cpp: wordlist"]}
{"id": "C05", "title": "Mnemonic decoder characterisation", "statement": "mnemonic2bin(text) throws exactly when the number of ' ' characters is even or some whitespace-separated token is not in the word list; otherwise it returns the 12-bit indices of the tokens packed big-endian (last half byte, if the token count is odd, in its own byte). Re-encoding the decoded bytes of an even-token phrase gives the tokens joined by single spaces.", "quantifier": "all byte strings (re-encoding: results of fewer than 2^30 bytes)", "why_tests_cant": "the decoder must be right on every string a user can type", "anchors": ["src/qrl/misc.cpp: mnemonic2bin"]}
{"id": "C06", "title": "Odd word counts can slip past the mnemonic parity check", "statement": "The parity check counts space characters, not words: a phrase with an odd number of words (extra spaces, or no-space separators) can be accepted and decodes to a vector that is not the image of any seed; a phrase whose separators are single spaces and that has an odd number of words is always rejected.", "quantifier": "all phrases; counterexample exhibited", "why_tests_cant": "shows a gap that only appears for inputs tests do not contain", "anchors": ["src/qrl/misc.cpp: mnemonic2bin"]}
{"id": "C07", "title": "Word list is a bijection onto 12-bit values", "statement": "The word list has 4096 pairwise distinct words, none empty and none containing white space, so bin2mnemonic is injective: two different byte vectors never share a phrase.", "quantifier": "all pairs of byte vectors of fewer than 2^30 bytes", "why_tests_cant": "pairs of inputs cannot be enumerated", "anchors": ["src/qrl/wordlist.cpp: wordlist", "src/qrl/misc.cpp: bin2mnemonic"]}
{"id": "C08", "title": "Descriptor encode/decode round trip", "statement": "For hash id and address format below 16, signature type XMSS and an even height at most 30, QRLDescriptor::fromBytes(d.getBytes()) equals d; and for every 3-byte input b, getBytes(fromBytes(b)) is b with the signature-type nibble and the third byte cleared. Every other length throws.", "quantifier": "all descriptors and all byte vectors", "why_tests_cant": "the normalisation must hold for every input", "anchors": ["src/qrl/qrlDescriptor.h: QRLDescriptor::fromBytes, getBytes"]}
{"id": "C09", "title": "Descriptor loses heights above 30 and odd heights", "statement": "Encoding a descriptor whose height is odd or above 30 does not round-trip: the decoded height is always 2*((h/2) mod 16), so it differs from h exactly when h is odd or h>30.", "quantifier": "all heights 0..255", "why_tests_cant": "a boundary property over the whole range of heights", "anchors": ["src/qrl/qrlDescriptor.h: getBytes, fromBytes"]}
{"id": "C10", "title": "Signature-type nibble is never decoded", "statement": "fromBytes returns signature type 0 (XMSS) for every input, whatever the signature-type nibble: the 'not XMSS' rejection in verify can never fire.", "quantifier": "all 3-byte inputs", "why_tests_cant": "requires all inputs", "anchors": ["src/qrl/qrlDescriptor.h: fromBytes", "src/qrl/xmssBase.cpp: verify"]}
{"id": "C11", "title": "Every generated address is valid", "statement": "Whenever getAddress(pk) returns, the address has 39 bytes, starts with the normalised descriptor, contains SHA-256 of the 67-byte public key and addressIsValid accepts it; getAddress throws exactly when pk is not 67 bytes or its address-format nibble is not 0.", "quantifier": "all public keys", "why_tests_cant": "needs all public keys; SHA-256 is a parameter", "anchors": ["src/qrl/qrlHelper.h: QRLHelper::getAddress, addressIsValid"]}
{"id": "C12", "title": "addressIsValid accepts exactly checksummed addresses", "statement": "addressIsValid(a) returns a boolean for every byte vector, and it is true iff a has 39 bytes, the address-format nibble is 0, and the last 4 bytes are the last 4 bytes of SHA-256 of the first 35. Hence changing any of the last four bytes of a valid address invalidates it.", "quantifier": "all byte vectors", "why_tests_cant": "needs all inputs", "anchors": ["src/qrl/qrlHelper.h: addressIsValid"]}
{"id": "C13", "title": "Extended seed recreates the same key", "statement": "For every supported key (48-byte seed, even height 4..30, hash id 0..2, format below 16), XmssFast(x.getExtendedSeed()) has the same public key, secret key, address, height and signatures as the XmssFast x it was taken from.", "quantifier": "all seeds and parameters", "why_tests_cant": "2^384 seeds; key generation is far too slow to sample", "anchors": ["src/qrl/xmssBase.cpp: XmssBase(extended_seed), getExtendedSeed", "src/qrl/xmssFast.cpp: XmssFast, initialize_tree"]}
{"id": "C14", "title": "Key layout and constancy of key material", "statement": "At every point of every history of sign and setIndex calls, getSK is 4 index bytes then sk_seed, sk_prf, pub_seed, root, the four getters return those slices, getPK is descriptor, root, pub_seed, and everything except the index bytes stays as at construction.", "quantifier": "all histories of API calls", "why_tests_cant": "histories are unbounded", "anchors": ["src/qrl/xmssBase.cpp: getSKSeed, getSKPRF, getPKSeed, getRoot, getPK, getSK"]}
{"id": "C15", "title": "Index codec", "statement": "Base setIndex(i) followed by getIndex returns i for every 32-bit i and changes no other byte of the secret key.", "quantifier": "all 2^32 indices and all keys", "why_tests_cant": "2^32 values times all keys", "anchors": ["src/qrl/xmssBase.cpp: getIndex, setIndex"]}
{"id": "C16", "title": "Signature size and height are inverse", "statement": "getHeightFromSigSize(getSignatureSize(h)) = h for every height up to 254; the function throws exactly for sizes that are too small or not 4 mod 32; it silently reduces the height modulo 256 for larger sizes.", "quantifier": "all sizes, heights and WOTS parameters", "why_tests_cant": "size_t range", "anchors": ["src/qrl/xmssBase.cpp: getSignatureSize, getHeightFromSigSize, calculateSignatureBaseSize"]}
{"id": "C17", "title": "XmssBasic: every signature verifies", "statement": "For every seed, supported hash function, even height 4..24, w in {2,4,16,256}, every index below 2^h and every message, XmssBasic::sign returns a signature of getSignatureSize() bytes that XmssBase::verify accepts under getPK() with the same w.", "quantifier": "all seeds, messages, indices, parameters", "why_tests_cant": "cannot sign all messages at all indices", "anchors": ["src/qrl/xmssBasic.cpp: XmssBasic, sign", "src/qrl/xmssBase.cpp: verify", "src/xmss-alt/algsxmss.c: xmss_Signmsg", "src/xmss-alt/xmss_common.c: xmss_Verifysig"]}
{"id": "C18", "title": "XmssFast: every signature verifies in every history", "statement": "For every seed, supported hash function, even height 4..30, and every history of sign and setIndex calls, each signature returned by sign verifies under getPK(). In particular the incrementally maintained authentication path is the right one at every index.", "quantifier": "all seeds, messages, call histories", "why_tests_cant": "the traversal state after 2^h-1 steps depends on the whole history; tests cover only tiny heights and linear histories", "anchors": ["src/qrl/xmssFast.cpp: sign, setIndex", "src/xmss-alt/algsxmss_fast.c: xmssfast_Genkeypair, xmssfast_update, xmssfast_Signmsg, bds_round, bds_treehash_update, treehash_update, treehash_setup"]}
{"id": "C19", "title": "XmssFast and XmssBasic agree", "statement": "For the same seed, height and hash function (w=16) both classes have the same public and secret key, and at the same index they return byte-identical signatures for the same message; any history of an XmssFast in which nothing is thrown gives the same answers and state on an XmssBasic.", "quantifier": "all seeds, messages, indices, histories; heights 4..24 (above, XmssBasic::sign is undefined, C25)", "why_tests_cant": "two implementations compared on all inputs", "anchors": ["src/qrl/xmssFast.cpp", "src/qrl/xmssBasic.cpp"]}
{"id": "C20", "title": "Skipping ahead equals signing ahead", "statement": "XmssFast::setIndex(j) from index i<=j leaves an object whose future signatures are byte-identical to those of an object that reached j by signing j-i arbitrary messages.", "quantifier": "all i<=j<2^h, all messages, all seeds", "why_tests_cant": "all pairs of indices", "anchors": ["src/qrl/xmssFast.cpp: setIndex", "src/xmss-alt/algsxmss_fast.c: xmssfast_update"]}
{"id": "C21", "title": "XmssFast never reuses a one-time key", "statement": "In every history of sign and setIndex calls on an XmssFast object, successful or not, the indices embedded in the returned signatures are strictly increasing.", "quantifier": "all call histories including failing calls", "why_tests_cant": "histories are unbounded", "anchors": ["src/qrl/xmssFast.cpp: sign, setIndex", "src/xmss-alt/algsxmss_fast.c: xmssfast_update, xmssfast_Signmsg"]}
{"id": "C22", "title": "Exhaustion is enforced", "statement": "An XmssFast object returns at most 2^h signatures over its life; after the last one getRemainingSignatures() is 0 and every further sign or setIndex call throws invalid_argument.", "quantifier": "all call histories", "why_tests_cant": "2^h signatures cannot be made in a test for realistic h", "anchors": ["src/qrl/xmssFast.cpp", "src/qrl/xmssBase.h: getNumberSignatures, getRemainingSignatures"]}
{"id": "C23", "title": "Failed calls leave the object unchanged", "statement": "When XmssFast::setIndex or sign throws, the object is exactly as before (keys, index and traversal state), and setIndex throws exactly when the new index is below the current one or at least 2^h.", "quantifier": "all reachable objects and arguments", "why_tests_cant": "all states", "anchors": ["src/xmss-alt/algsxmss_fast.c: xmssfast_update"]}
{"id": "C24", "title": "Traversal memory safety", "statement": "No history of sign and setIndex calls on an XmssFast object makes the traversal read or write outside its stack, stack-level, auth, keep, tree-hash or retain buffers, and no update uses uninitialised data.", "quantifier": "all heights 4..30, all histories", "why_tests_cant": "out-of-bounds accesses on some path of 2^30 steps are invisible to tests", "anchors": ["src/xmss-alt/algsxmss_fast.c: bds_round, bds_treehash_update, treehash_update, treehash_setup", "src/qrl/xmssFast.cpp: initialize_tree"]}
{"id": "C25", "title": "XmssBasic signs with the index it is told", "statement": "XmssBasic::sign uses exactly the current index and advances it by one; setIndex accepts any value, so rewinding reuses a one-time key, and signing at an index of 2^h or more reads outside the tree buffer (there is no exhaustion check). Every history of sign and setIndex gives exactly the answers, index, public and secret key of a counter that can be set at will, up to the first undefined signature.", "quantifier": "all objects, indices, messages, histories", "why_tests_cant": "documents a gap on every index", "anchors": ["src/qrl/xmssBasic.cpp: sign", "src/qrl/xmssBase.cpp: setIndex", "src/xmss-alt/algsxmss.c: compute_authpath_wots"]}
{"id": "C26", "title": "verify always answers for supported hash ids", "statement": "For every message, every signature, every public key whose hash nibble is 0..2 and w in {2,4,16,256}, verify returns true or false and never throws; it returns false for every public key not 67 bytes long, every signature whose size does not match the height in the key, and heights below 4.", "quantifier": "all byte vectors", "why_tests_cant": "attacker-chosen inputs", "anchors": ["src/qrl/xmssBase.cpp: verify", "src/xmss-alt/xmss_common.c: xmss_Verifysig"]}
{"id": "C27", "title": "verify on unsupported hash ids", "statement": "For a public key whose hash nibble is 3..15 and a signature of matching size, verify computes with uninitialised data (undefined behaviour): the claim 'verify is safe on every input' is false.", "quantifier": "counterexample family: all messages, all signatures of the right size", "why_tests_cant": "tests never use such a key", "anchors": ["src/xmss-alt/hash.c: core_hash", "src/qrl/xmssBase.cpp: verify"]}
{"id": "C28", "title": "Bits of the public key that verify ignores", "statement": "verify's answer does not depend on the signature-type nibble, the address-format nibble or the third byte of the public key: every key has at least 2^16 equivalent encodings.", "quantifier": "all inputs", "why_tests_cant": "all inputs", "anchors": ["src/qrl/xmssBase.cpp: verify", "src/qrl/qrlDescriptor.h: fromBytes"]}
{"id": "C29", "title": "WOTS: recomputed public key equals generated one", "statement": "wots_pkFromSig(wots_sign(m)) = wots_pkgen for every 32-byte digest, seed, address and w whose floor(log2 w) divides 8.", "quantifier": "all digests, seeds, addresses, w", "why_tests_cant": "2^256 digests", "anchors": ["src/xmss-alt/wots.c: wots_sign, wots_pkFromSig, wots_pkgen, gen_chain, base_w"]}
{"id": "C30", "title": "WOTS checksum prevents forgery by chain extension", "statement": "For w in {2,4,16}: if every chain position of digest d2 is at least the corresponding position of digest d1 then d1 = d2. For w = 256 this is false.", "quantifier": "all pairs of digests", "why_tests_cant": "pairs of 2^256 digests", "anchors": ["src/xmss-alt/wots.c: wots_sign, base_w"]}
{"id": "C31", "title": "WOTS parameters", "statement": "For n=32 the computed parameters satisfy: len_1*log_w=256, and for w=2,4,16,256 the lengths are 265, 133, 67, 34 with len_2 digits enough for every checksum value; calculateSignatureBaseSize is 36+32*len.", "quantifier": "w in {2,4,16,256} and all digests", "why_tests_cant": "all digests for the checksum bound", "anchors": ["src/xmss-alt/wots.c: wots_set_params", "src/qrl/xmssBase.cpp: calculateSignatureBaseSize"]}
{"id": "C32", "title": "SHAKE implementation equals FIPS 202", "statement": "shake128 and shake256 return, for every message and output length, what the FIPS 202 sponge over Keccak-f[1600] (theta, rho, pi, chi, iota; 1111 01 10*1 padding) prescribes.", "quantifier": "all messages and output lengths", "why_tests_cant": "all lengths incl. block boundaries", "anchors": ["src/xmss-alt/fips202.c", "src/qrl/hashing.cpp: shake128, shake256"]}
{"id": "C33", "title": "SHAKE output length and prefix property", "statement": "shake(n, x) has exactly n bytes and is a prefix of shake(m, x) for every m >= n.", "quantifier": "all messages, all n<=m", "why_tests_cant": "unbounded lengths", "anchors": ["src/qrl/hashing.cpp: shake128, shake256"]}
{"id": "C34", "title": "Hash inputs are domain separated", "statement": "The byte strings hashed for F, H, H_msg and PRF are pairwise different for any arguments, and within one type they determine key and input; distinct addresses have distinct encodings and the addresses used for different one-time keys, chains, steps, L-tree and tree nodes are all distinct.", "quantifier": "all keys, inputs, addresses", "why_tests_cant": "all pairs of calls", "anchors": ["src/xmss-alt/hash.c: core_hash, prf, h_msg, hash_h, hash_f, addr_to_byte", "src/xmss-alt/hash_address.c"]}
{"id": "C35", "title": "Root is the Merkle root", "statement": "The root computed at key generation by either class is the root of the binary hash tree over the 2^h one-time public keys (each compressed by the unbalanced L-tree), for every seed and height.", "quantifier": "all seeds, all heights", "why_tests_cant": "tree size is exponential in h", "anchors": ["src/xmss-alt/algsxmss.c: treehash, gen_leaf_wots", "src/xmss-alt/xmss_common.c: l_tree", "src/xmss-alt/algsxmss_fast.c: treehash_setup"]}
{"id": "C36", "title": "Pool issues every index exactly once", "statement": "Under every interleaving of any number of threads calling getNextTree, isAvailable and getCurrentIndex on one XmssPool, the k-th claimed index is starting_index+k: no index is issued twice and none is skipped. getCurrentIndex returns starting_index plus the number of indices claimed at some moment during the call.", "quantifier": "all schedules, thread counts, pool sizes; the first 2^64 claims (the counter is a size_t and then wraps)", "why_tests_cant": "schedules cannot be enumerated", "anchors": ["src/qrl/xmssPool.cpp: getNextTree, fillCache"]}
{"id": "C37", "title": "Pool returns the tree of the claimed index", "statement": "The tree returned for claimed index i is the XmssFast derived from base seed and i only, whatever the schedule, pool size and whether it came from the cache or was built inline.", "quantifier": "all schedules and pool sizes", "why_tests_cant": "schedules", "anchors": ["src/qrl/xmssPool.cpp: getNextTree, prepareTree"]}
{"id": "C38", "title": "Pool seed derivation separates indices", "statement": "For a fixed base seed different indices (below 2^64-1) feed different inputs to SHAKE256, and a pool index is fed 1-based little-endian minimal-length.", "quantifier": "all pairs of indices", "why_tests_cant": "2^128 pairs", "anchors": ["src/qrl/xmssPool.cpp: prepareTree"]}
{"id": "C39", "title": "Pool cache stays contiguous and bounded", "statement": "In every schedule, whenever no call is inside its critical section the cached futures are for consecutive indices starting at the current index; at every point there are at most pool_size of them, and isAvailable/getNextTree never touch the front of an empty cache or a moved-from future.", "quantifier": "all schedules", "why_tests_cant": "schedules", "anchors": ["src/qrl/xmssPool.cpp: fillCache, isAvailable"]}
{"id": "C40", "title": "Pool survives failed background launches", "statement": "If launching a background task throws inside getNextTree, the claimed index is lost but never issued again, and the cache stays contiguous.", "quantifier": "all schedules and failure patterns", "why_tests_cant": "failure injection at every point", "anchors": ["src/qrl/xmssPool.cpp: getNextTree, fillCache"]}
{"id": "C41", "title": "Hash-chain seeds", "statement": "getHashChainSeed(seed, shift, n) returns n values, the i-th is SHAKE256 of seed, shift and i only (so a longer call extends a shorter one) and inputs for different (shift, i) differ.", "quantifier": "all seeds, shifts, counts", "why_tests_cant": "unbounded counts", "anchors": ["src/qrl/misc.cpp: getHashChainSeed"]}
{"id": "C42", "title": "sha2_256_n is iterated SHA-256", "statement": "sha2_256_n(x, n) throws for n = 0 and otherwise is SHA-256 applied n times; sha2_256_n(sha2_256_n(x,a),b) = sha2_256_n(x,a+b).", "quantifier": "all inputs and counts", "why_tests_cant": "unbounded counts", "anchors": ["src/qrl/hashing.cpp: sha2_256_n"]}
{"id": "C43", "title": "Random seeds", "statement": "getRandomSeed(n, entropy) returns SHAKE256 to n bytes of n bytes of /dev/urandom followed by entropy, or throws runtime_error if the device cannot be opened or delivers fewer bytes.", "quantifier": "all sizes, entropies and device behaviours", "why_tests_cant": "device failures", "anchors": ["src/qrl/misc.cpp: getRandomSeed"]}
{"id": "C44", "title": "initialize_tree resets the index", "statement": "Calling the public XmssFast::initialize_tree again returns the object to index 0 with the same keys: a later sign reuses an already used one-time key.", "quantifier": "all reachable objects", "why_tests_cant": "documents a gap for every history", "anchors": ["src/qrl/xmssFast.cpp: initialize_tree"]}
{"id": "C45", "title": "Verification binds the authentication path", "statement": "If verify accepts a signature at index i<2^h under a public key produced by key generation, then the one-time public key it implies hashes to the genuine leaf i, or the run exhibits an explicit collision of the tree hash.", "quantifier": "all signatures, messages, keys", "why_tests_cant": "adversarial inputs", "anchors": ["src/xmss-alt/xmss_common.c: xmss_Verifysig, validate_authpath, l_tree"]}
{"id": "C46", "title": "Signature format", "statement": "A signature returned at index i consists of i as 4 big-endian bytes, the 32-byte PRF randomiser, the one-time signature and h 32-byte path nodes, so its size is getSignatureSize and its first four bytes tell the index used.", "quantifier": "all seeds, messages, indices", "why_tests_cant": "all inputs", "anchors": ["src/xmss-alt/algsxmss.c: xmss_Signmsg", "src/xmss-alt/algsxmss_fast.c: xmssfast_Signmsg"]}
{"id": "C47", "title": "Secret key only moves forward through xmss_updateSK", "statement": "xmss_updateSK(sk,k) changes the index only when k is larger than the stored one, never changes other bytes, and reports which case happened. The Rust xmss_update_sk does the same on every 132-byte key and every 64-bit k, and never panics.", "quantifier": "all keys and k", "why_tests_cant": "2^32 values", "anchors": ["src/xmss-alt/algsxmss.c: xmss_updateSK"]}
{"id": "C48", "title": "An accepted signature is the key owner's or yields a concrete hash collision", "statement": "For any key, whatever message and byte string verify accepts under its public key: either a fixed, explicitly given procedure computes from the key, message and signature two different byte strings with the same SHA-256/SHAKE hash, or the signature's index is inside the tree and the signature is byte for byte what the key owner computes with that one-time key (only the 32-byte randomiser may be chosen differently). Conversely every such owner signature, with any 32-byte randomiser, is accepted.", "quantifier": "all seeds, heights, hash functions, Winternitz parameters, messages and signature byte strings", "why_tests_cant": "it speaks about every byte string an attacker could submit, and the reduction covers an unbounded set of forgeries", "anchors": ["src/xmss-alt/algsxmss.c: xmss_Verifysig, validate_authpath", "src/xmss-alt/wots.c: wots_pkFromSig", "src/qrl/xmssBase.cpp: XmssBase::verify"]}
{"id": "C49", "title": "A second signature for a used index reveals a collision or a preimage-like chain value", "statement": "If an object released signature s0 of message m0 with one-time key i, and a different pair (m, s) claiming index i verifies, then either one of the explicit collisions exists (tree, chain or message hash), or s contains a genuine chain value at a position strictly below the one published in s0 (which nobody but the key owner was given). For w = 2, 4, 16.", "quantifier": "all keys, all histories of sign/setIndex calls, all second messages and signatures", "why_tests_cant": "ranges over every adversarial message/signature pair and every history", "anchors": ["src/xmss-alt/wots.c: wots_sign, wots_pkFromSig", "src/qrl/xmssBase.cpp: XmssBase::verify", "src/qrl/xmssFast.cpp: XmssFast::sign"]}
{"id": "C50", "title": "Pool is free of data races", "statement": "In every schedule at most one thread is about to access the current index or the cache; every other step, of a thread or of a background task, neither changes nor depends on them.", "quantifier": "all schedules, thread counts, pool sizes", "why_tests_cant": "schedules cannot be enumerated", "anchors": ["src/qrl/xmssPool.cpp: getNextTree, isAvailable, fillCache", "src/qrl/xmssPool.h: getCurrentIndex"]}
{"id": "C51", "title": "Every pool call returns", "statement": "Whatever the scheduler does, if no new calls are made only boundedly many steps follow, and when no step is left every call has returned, the mutex is free and every background task has finished (no deadlock, no livelock). A call that holds the pool's mutex never waits for key generation, except while unwinding a failed push_back.", "quantifier": "all reachable states and all schedules from them", "why_tests_cant": "absence of deadlock quantifies over schedules", "anchors": ["src/qrl/xmssPool.cpp"]}
{"id": "C52", "title": "isAvailable() == true is a promise", "statement": "If isAvailable returned true and no index was claimed since it was called, every isAvailable until the next claim also answers true, and the getNextTree call that makes the next claim neither builds a tree itself nor waits for one.", "quantifier": "all schedules", "why_tests_cant": "schedules", "anchors": ["src/qrl/xmssPool.cpp: isAvailable, getNextTree"]}
{"id": "C53", "title": "Pool cache is full until a launch fails, and never recovers once empty", "statement": "As long as no background launch failed and indices stay below 2^64, the cache holds exactly pool_size futures whenever the mutex is free, so getNextTree never builds a tree inline (pool_size > 0). If the cache is ever empty with the mutex free, it stays empty for good: later isAvailable calls return false and later getNextTree calls all build inline.", "quantifier": "all schedules and failure patterns", "why_tests_cant": "schedules and failure injection", "anchors": ["src/qrl/xmssPool.cpp: fillCache, getNextTree"]}
{"id": "C54", "title": "Integer fields are fixed-width positional encodings", "statement": "Every integer the library writes into keys, signatures, addresses and hash inputs is written big endian (little endian for the SHAKE lanes and the hash-chain counter) in a fixed number of bytes: byte j is exactly the corresponding base-256 digit, reading the field back gives the value modulo 256^width, and re-encoding what was read gives the same bytes. Masking is bytewise xor and copying a range copies exactly that range.", "quantifier": "all widths, values, byte strings and ranges", "why_tests_cant": "a byte-order or width mistake shows only for values with more than one non-zero byte; the claim is for all values", "anchors": ["src/xmss-alt/xmss_common.c: to_byte", "src/xmss-alt/fips202.c: load64, store64", "src/qrl/xmssBase.cpp: getIndex", "src/qrl/misc.cpp: getHashChainSeed"]}
{"id": "C55", "title": "Wallet backups restore the wallet, at index 0", "statement": "From JavaScript, fromHexSeed of what getHexSeed returned (in any capitalisation) and fromMnemonic of what getMnemonic returned (34 words of the list; any spacing that the parser accepts) give a wallet that no sequence of sign/setIndex calls can distinguish from the original one as first created: same public key, address, secret key and signatures. The export does not depend on how far the original was used, so the restored wallet starts again at index 0 and will reuse one-time keys unless the caller advances it. The seed string of the XmssBasic wrapper does not depend on its use either; imported, it gives the XmssFast wallet of the same seed, height and hash function, with the same public key if the XmssBasic key was made with w = 16 (the string does not carry w).", "quantifier": "all supported parameters, seeds, histories before the export, capitalisations/spacings and histories after the import", "why_tests_cant": "quantifies over all seeds and all call histories on both sides of the backup", "anchors": ["src/jswrapper/jsqrlwrapper.cpp: XmssWrapper::getHexSeed, getMnemonic, fromHexSeed, fromMnemonic", "src/jswrapper/jsqrlwrapper.cpp: XmssBasicWrapper::getHexSeed, getPK"]}
{"id": "C56", "title": "Which backup texts are accepted", "statement": "fromHexSeed rejects (invalid_argument) every text that is not 102 hexadecimal digits and every height nibble below 2; a hash nibble of 3 or more is undefined behaviour; every other text gives a wallet whose height is twice the height nibble and whose index is 0. The signature-type nibble, the address-format nibble and the third byte are silently dropped (the exported hex seed shows them as 0), so the JavaScript wallet and the C++ constructor on the same bytes have the same public key exactly when the address-format nibble is 0. fromMnemonic accepts exactly 34 listed words with an odd number of blanks and agrees with fromHexSeed on the same bytes.", "quantifier": "all texts (7-bit characters for hexadecimal)", "why_tests_cant": "the accept/reject decision ranges over all strings", "anchors": ["src/jswrapper/jsqrlwrapper.cpp: fromHexSeed, fromMnemonic", "src/qrl/xmssFast.cpp: XmssFast(extended_seed)"]}
{"id": "C57", "title": "Address strings", "statement": "getAddress of a wallet is the letter Q and the hexadecimal address; validateAddress accepts it with any first character and any capitalisation, and getHashFunction, getHeight and getSignatureType return the wallet's own parameters. The free function getAddress(public key) returns the same digits without the Q, and validateAddress rejects that string by throwing. For every string the four functions either throw invalid_argument (shorter than 7 characters, odd length after the first character or a non-hexadecimal character) or answer; they never access memory out of bounds; validateAddress is true exactly for a correct 39-byte checksummed address, while the getters do not check the checksum.", "quantifier": "all wallets and histories; all strings (7-bit characters after the first)", "why_tests_cant": "ranges over all strings and all wallets", "anchors": ["src/jswrapper/jsqrlwrapper.cpp: getBinAddress, _getHashFunction, _getSignatureType, _getHeight, _getAddress, _validateAddress, XmssWrapper::getAddress"]}
{"id": "C58", "title": "Dilithium class over the NIST API", "statement": "For every primitive that keeps the NIST signing contract: a fresh Dilithium object's signed message is CRYPTO_BYTES longer than the message, sign_open with its public key returns true whatever the output vector held before and leaves a vector of the signed size that starts with the message, and extract_signature/extract_message split the signed message exactly. The class checks no sizes: a secret key, public key or vector that is too short is undefined behaviour and nothing else is. From JavaScript sign_open returns the output buffer whether or not the signature was valid, and extract_message is always undefined (iterators of two temporaries).", "quantifier": "all primitives satisfying the contract, all keys, messages and previous buffer contents", "why_tests_cant": "ranges over all messages, sizes and buffer contents", "anchors": ["src/dilithium/dilithium.cpp", "src/jswrapper/jsdilwrapper.cpp"]}
{"id": "C59", "title": "Kyber class over the NIST API", "statement": "The key constructor throws invalid_argument exactly for wrong sizes. After Alice's kem_encode with Bob's public key, Bob's kem_decode of Alice's ciphertext returns true and both hold the same key, whenever the primitive decapsulates that ciphertext correctly. In every history of kem_encode/kem_decode calls with large enough inputs nothing is undefined, the long-term keys never change, the session key is that of the last call and the ciphertext that of the last encapsulation; exactly inputs that are too short are undefined behaviour.", "quantifier": "all primitives with the NIST sizes, all keys, inputs and call histories", "why_tests_cant": "ranges over all call histories and input sizes", "anchors": ["src/kyber/kyber.cpp", "src/jswrapper/jskybwrapper.cpp"]}
{"id": "C60", "title": "Constructors: exact acceptance domain", "statement": "XmssFast(seed,height,hash,format) and XmssBasic(seed,height,hash,format,w) throw invalid_argument exactly when the seed is not 48 bytes long or the height is odd, below 4 or above 254; otherwise they succeed exactly when the height is at most 30 and the hash id is one of the three enumerators (larger heights and other ids are undefined behaviour). XmssFast(extended_seed) throws exactly when the argument is not 51 bytes long or encodes a height below 4, and succeeds exactly when, in addition, its hash nibble is 0, 1 or 2.", "quantifier": "all seeds of all lengths, all heights, hash ids, formats, all extended seeds, all contents of uninitialised stack memory", "why_tests_cant": "seed lengths and contents are unbounded; tests try a handful of bad lengths and heights", "anchors": ["src/qrl/xmssBase.cpp:XmssBase::XmssBase", "src/qrl/xmssFast.cpp:XmssFast::initialize_tree", "src/qrl/xmssBasic.cpp:XmssBasic::XmssBasic"]}
{"id": "C61", "title": "Rust port: what SHAKE128/SHAKE256 compute", "statement": "In the Rust port, shake128 and shake256 agree with FIPS 202 on inputs shorter than the rate (168 resp. 136 bytes); for inputs of length rate..2*rate-1 they return FIPS 202's digest of the first rate bytes followed by as many bytes as are left over, taken from the start of the input again instead of its end, so inputs that differ only behind the rate collide; inputs of 2*rate bytes or more panic.", "quantifier": "all byte strings of every length, all output lengths", "why_tests_cant": "the existing tests hash short inputs; the input space is unbounded", "anchors": ["src/rust_wrapper/xmss_alt/fips202.rs:keccak_absorb", "src/rust_wrapper/qrl/hashing.rs:shake128"]}
{"id": "C62", "title": "Rust port: constructors and key contents", "statement": "XMSSFast::new succeeds exactly for a 48-byte seed and an even height 4..30, returns InvalidArgument for every other seed length, odd or too small height or height above 254, and panics for even heights 32..254. from_extended_seed succeeds exactly for 51 bytes whose hash nibble is 0..2, format nibble 0 and height at least 4. The object then holds exactly the secret key, public key, extended seed, root and seeds that the reference key generation derives from the seed; with w=16 these, and the address, are those of the C++ XmssFast.", "quantifier": "all seeds of every length, all heights, hash functions and Winternitz parameters, all extended seeds", "why_tests_cant": "tests construct a handful of heights from fixed seeds; the statement is about every seed and parameter, including the ones that panic", "anchors": ["src/rust_wrapper/qrl/xmss_fast.rs:XMSSFast::new", "src/rust_wrapper/qrl/xmss_base.rs:XMSSBase", "src/rust_wrapper/xmss_alt/algsxmss_fast.rs:xmss_fast_gen_keypair"]}
{"id": "C63", "title": "Rust port: every history of sign and set_index", "statement": "After any sequence of sign and set_index calls on a Rust XMSSFast object, the results, the index and the stored secret key are those of the reference: each signature is the reference signature (for the message as the port hashes it) at the current index, the index then advances by one, set_index moves only forward and below 2^h, refused calls return InvalidArgument and leave the object unchanged. All released signatures verify with the Rust verifier and carry strictly increasing indices. A history panics exactly when a sign call with an unhashable message (SHAKE128: 208 bytes or more, SHAKE256: 144 or more) is made while keys remain.", "quantifier": "all hash functions, w, even heights 4..30, seeds, and all finite sequences of calls with arbitrary messages and indices", "why_tests_cant": "the traversal state depends on the whole history of calls and trees have up to 2^30 leaves", "anchors": ["src/rust_wrapper/qrl/xmss_fast.rs:sign", "src/rust_wrapper/qrl/xmss_fast.rs:set_index", "src/rust_wrapper/xmss_alt/algsxmss_fast.rs:xmss_fast_sign_msg"]}
{"id": "C64", "title": "Rust port: exact behaviour of verify", "statement": "For every message, signature and public key the Rust verify returns: InvalidArgument for a public key that is not 67 bytes, for an oversized signature, for a height that does not match; FailedConversion for a hash nibble above 2 or a non-zero address format; a panic for an unhashable message; otherwise Ok exactly if the reference verifier accepts the signature for the message as the port hashes it. It accepts exactly if the C++ verify accepts that message.", "quantifier": "all byte strings as message, signature and public key of any length, every w", "why_tests_cant": "the domain of adversarial signatures and keys is infinite", "anchors": ["src/rust_wrapper/qrl/xmss_base.rs:verify", "src/rust_wrapper/xmss_alt/xmss_common.rs:xmss_verify_sig"]}
{"id": "C65", "title": "Rust port: which messages are really signed", "statement": "With SHAKE128 (SHAKE256) the Rust port's signatures depend only on the first 40 (8) bytes and the length of the message: two messages of equal length that agree there get the same signature and verify under each other's signature. For messages shorter than that, and for all messages under SHA2-256, every history of calls and every verification agrees byte for byte with the C++ library; for longer ones the released signature is a C++-valid signature for a different message.", "quantifier": "all pairs of messages, all keys, all histories, all signatures", "why_tests_cant": "the repository's Rust tests sign short messages only; the collision concerns unbounded families of message pairs", "anchors": ["src/rust_wrapper/xmss_alt/fips202.rs:keccak_absorb", "src/rust_wrapper/xmss_alt/hash.rs:h_msg", "src/xmss-alt/hash.c:h_msg"]}
{"id": "C66", "title": "Rust port: addresses", "statement": "The Rust get_address succeeds exactly for 67-byte keys with hash nibble 0..2 and format nibble 0 (InvalidArgument for another length, FailedConversion otherwise), never panics, and then equals the C++ getAddress; address_is_valid never panics or fails and is true exactly if the C++ addressIsValid is true and the hash nibble is 0..2; every address get_address returns validates in both.", "quantifier": "all byte strings", "why_tests_cant": "infinitely many keys and addresses, including malformed ones", "anchors": ["src/rust_wrapper/qrl/qrl_helper.rs:get_address", "src/rust_wrapper/qrl/qrl_helper.rs:address_is_valid", "src/rust_wrapper/qrl/qrl_descriptor.rs:from_bytes"]}
{"id": "C67", "title": "Rust port: XMSSBasic", "statement": "XMSSBasic::new succeeds exactly for a 48-byte seed and an even height 4..30, panics for even heights from 32 on and returns InvalidArgument otherwise. In every history of calls, set_index accepts every 32-bit value (also backwards, so that one-time keys are reused), sign returns the reference signature at the current index and advances it, and panics exactly if the height exceeds 24, the index is not below 2^h or the message cannot be hashed. Up to height 24 every history XMSSFast completes without an error is completed by XMSSBasic with the same observations and secret key.", "quantifier": "all hash functions, w, heights, seeds and finite sequences of calls", "why_tests_cant": "trees with up to 2^30 leaves and unbounded call sequences", "anchors": ["src/rust_wrapper/qrl/xmss_basic.rs:XMSSBasic", "src/rust_wrapper/xmss_alt/algsxmss.rs:xmss_sign_msg"]}
{"id": "C68", "title": "Rust port: hexadecimal text", "statement": "bin2hstr returns two lower-case digits per byte, with a line break after every `wrap` bytes when wrap is positive, and panics only for wrap = 2^32-1 with 2^32 bytes or more; hstr2bin accepts exactly the texts of even length made of hexadecimal digits of either case (everything else, also non-ASCII text, is InvalidArgument, never a panic), and decoding an encoding gives the bytes back. On ASCII text both agree with the C++ functions. The hexadecimal text of a string (binstr2hstr) is that of its UTF-8 bytes.", "quantifier": "all byte strings, all wrap widths, all Unicode texts", "why_tests_cant": "infinitely many texts, including non-ASCII ones whose byte and character counts differ", "anchors": ["src/rust_wrapper/qrl/misc.rs:bin2hstr", "src/rust_wrapper/qrl/misc.rs:hstr2bin"]}
{"id": "C69", "title": "Rust port: mnemonics", "statement": "bin2mnemonic succeeds exactly for lengths divisible by 3 and mnemonic2bin inverts it; mnemonic2bin splits at Unicode white space, accepts exactly the texts with an even number of words all from the list, never panics, and every accepted text is, up to white space, the mnemonic of its value. The mnemonics are those of the C++ library, and both decoders agree on words joined by single blanks.", "quantifier": "all byte strings, all Unicode texts", "why_tests_cant": "every text must be classified, and every byte string must round-trip", "anchors": ["src/rust_wrapper/qrl/misc.rs:bin2mnemonic", "src/rust_wrapper/qrl/misc.rs:mnemonic2bin", "src/rust_wrapper/qrl/wordlist.rs"]}
{"id": "C70", "title": "Rust port: seeds", "statement": "get_random_seed equals the C++ one on the same random bytes as long as random bytes and entropy together have at most 136 bytes; beyond that the entropy text loses its influence (from 136 random bytes on, only its length matters) and from 272 bytes on the call panics. get_hash_chain_seed equals the C++ one for seeds of at most 128 bytes; for 128..263 bytes the seeds of positions congruent modulo 256^(132-length) coincide (all of them from 132 bytes on), and for 264 bytes or more it panics unless count is 0. sha2_256_n is the n-fold SHA-256, with InvalidArgument for n = 0, as in C++.", "quantifier": "all random bytes, entropy texts, sizes, seeds, shifts, counts", "why_tests_cant": "the repetition concerns long seeds of every content and arbitrarily many positions", "anchors": ["src/rust_wrapper/qrl/misc.rs:get_random_seed", "src/rust_wrapper/qrl/misc.rs:get_hash_chain_seed", "src/rust_wrapper/qrl/hashing.rs:sha2_256_n"]}
{"id": "C71", "title": "Rust port: XMSSPool", "statement": "In every history of get_next_tree, is_available and get_current_index calls on a pool of trees of height 4..30 (even), the k-th get_next_tree returns the fresh key (index 0, SHAKE128, w=16) whose 48-byte seed is SHA-256 of hex(base seed) followed by the decimal of start+k+1, extended by its own first 16 bytes; the index read is start plus the number of trees taken; is_available is true exactly if the cache size is positive; the only panic is 64-bit overflow of the index. With an impossible height every get_next_tree is an Err while the index advances; with even heights 32..254 the constructor (or, without cache, the first get_next_tree) panics. For base seeds of one length equal tree seeds are a SHA-256 collision; base seeds of different lengths share trees.", "quantifier": "all base seeds, heights, starting indices, cache sizes and all finite sequences of calls", "why_tests_cant": "unbounded histories and all 64-bit indices; tests take a few trees of one height", "anchors": ["src/rust_wrapper/qrl/xmss_pool.rs:XMSSPool"]}
{"id": "C72", "title": "Rust port: Dilithium and Kyber wrappers", "statement": "Dilithium::new and Kyber::new accept exactly the right key sizes and panic otherwise. Over any primitive that keeps its contract, sign_open of sign returns the message, also with an object rebuilt from key bytes; extract_message and extract_signature split a byte string before its last CRYPTO_BYTES bytes and panic on shorter input, so on signed messages (signature first) they return not message and signature but the head and the tail (the C++ library returns message and signature). In every history of a Kyber object the keys never change, the secret is that of the last call, the ciphertext that of the last encapsulation (or of the constructor), and two parties agree on the secret whatever they did before.", "quantifier": "all primitives with the stated contract, all keys, messages, byte strings, and all sequences of calls", "why_tests_cant": "holds for every primitive, key and history; tests run one random key pair", "anchors": ["src/rust_wrapper/dilithium/dilithium.rs:Dilithium", "src/rust_wrapper/kyber/kyber.rs:Kyber"]}
{"id": "C73", "title": "Every Winternitz parameter", "statement": "XmssBasic's constructor, XmssFast::initialize_tree and verify take any 32-bit w. For w in 2..7, 16..31 and 256..511 keys can be made, every index signs (with initialize_tree after any history: like a new key starting at 0), and verify with the same w accepts exactly the signatures of the right size whose recomputed root is the one in the public key, so every signature made is accepted. For the other w whose sizes are defined (8..15, 32..255, 512.. below 2^31) a key can be made but signing with it, and verifying a signature of matching size, is undefined (a shift by a negative or too large amount); where the sizes are undefined (0, 1, 2^31 and more, and w for which the 32-bit product len_1*(w-1) is 0) the constructor, initialize_tree and verify (of a 67-byte key) are undefined. If w is usable but not a power of two, there is a bit position in every digest byte that is not signed: verify gives the same answer for two messages whose digests differ only there, so each signature covers at least 2^32 digests; for w in {2,4,16,256} the digits determine the digest.", "quantifier": "all 2^32 values of w, all seeds, messages, heights, hash functions, signatures, public keys and histories", "why_tests_cant": "tests use w = 16; w ranges over 2^32 values, and acceptance over all byte strings", "anchors": ["src/qrl/xmssBasic.cpp:XmssBasic", "src/qrl/xmssFast.cpp:initialize_tree", "src/qrl/xmssBase.cpp:verify", "src/xmss-alt/wots.c:wots_set_params", "src/xmss-alt/wots.c:base_w"]}
{"id": "C74", "title": "Construction and destruction of a pool", "statement": "Whatever happens to an XmssPool - the constructor succeeds or std::async/push_back throws in it, any calls from any threads follow, the pool is destroyed when no call is in progress - no background task ever reads the seed or height of a destroyed pool: when the storage is released every task it launched has finished. The destructor (and the unwinding of a failed constructor) always returns, after at most (unfinished tasks + cached futures + 2) steps, and the constructor's loop ends. Between construction and destruction the pool has exactly the states and visible histories of C36-C53.", "quantifier": "all seeds, heights, start indices, pool sizes, schedules of tasks and threads, failure points and call histories", "why_tests_cant": "use after free depends on the schedule of background tasks against the destructor", "anchors": ["src/qrl/xmssPool.cpp:XmssPool", "src/qrl/xmssPool.h:~XmssPool", "src/qrl/xmssPool.cpp:fillCache"]}
{"id": "C75", "title": "An address stands for one key", "statement": "If two extended public keys have the same address (C++ or Rust), they are equal or are themselves a SHA-256 collision. So someone who knows only an address and is shown a public key with that address and a signature verify accepts under it holds the owner's key and an owner's signature (index below 2^h, exactly the owner's bytes for that randomiser), or a collision: the two public keys, or a pair computed from the signature.", "quantifier": "all public keys, all seeds, heights, hash functions and w, all messages and signatures", "why_tests_cant": "quantifies over all forged keys and signatures", "anchors": ["src/qrl/qrlHelper.h:getAddress", "src/qrl/xmssBase.cpp:verify", "src/rust_wrapper/qrl/qrl_helper.rs"]}
{"id": "C76", "title": "Forgeries against the Rust port", "statement": "Whatever signature the Rust verify accepts under the public key of a Rust XMSSFast is the owner's signature of the message as the port sees it (see C65), or yields a hash collision computed from it. With the index of a released signature (w = 2, 4, 16), an accepted signature that differs from it, or is presented with a message whose visible part differs, yields a collision or a chain value below a published one.", "quantifier": "all seeds, heights, hash functions, w, histories, messages and signatures", "why_tests_cant": "quantifies over all forgeries", "anchors": ["src/rust_wrapper/qrl/xmss_base.rs:verify", "src/rust_wrapper/qrl/xmss_fast.rs"]}
{"id": "C77", "title": "getRandomSeed returns exactly what the platform drew", "statement": "The JavaScript getRandomSeed(n) for a whole n from 1 to 65536 returns exactly the n bytes crypto.getRandomValues wrote, except that 16 or more bytes that are all zero are refused; undefined means 48. Without WebCrypto, for NaN, non-positive or larger sizes it returns nothing. A size that is not whole (16.5) gets the random bytes of the whole part followed by a byte that is not random, or an exception, and escapes the all-zero check. The default result makes Xmss.fromParameters build the key of exactly those bytes.", "quantifier": "all sizes (undefined or any JavaScript number), all platforms and random bytes, all heights and hash functions", "why_tests_cant": "a random source cannot be enumerated; sizes are all doubles", "anchors": ["src/jswrapper/getRandomSeed.js"]}
{"id": "C78", "title": "Copies of an XmssFast object share its tree-traversal state", "statement": "Copying an XmssFast object copies the secret key but not the traversal buffers. A program that uses only the newest copy (older ones stay alive) sees exactly the reference history. If the original has moved from index i to i' since, a signature of the copy carries index i and the one-time signature of key i but the authentication path of i', and verify accepts it only if i = i' or with an explicit hash collision. Copying a fresh object and signing once with each uses one-time key 0 twice, and corrupts the original: its signature at index 2 carries a wrong node and is not accepted (short of a collision). After the original is destroyed, every call on the copy that has to advance is a use after free and all others are answered correctly; destroying the copy never disturbs the original. initialize_tree on the copy makes the two independent under every interleaving, with the copy starting again at one-time key 0.", "quantifier": "all seeds, heights and hash functions, all call histories and interleavings, all messages", "why_tests_cant": "quantifies over all histories and interleavings of two objects", "anchors": ["src/qrl/xmssFast.h:XmssFast", "src/qrl/xmssFast.cpp:initialize_tree", "src/xmss-alt/algsxmss_fast.h:bds_state", "src/xmss-alt/algsxmss_fast.c:xmssfast_Signmsg"]}
{"id": "C79", "title": "Moving XmssFast objects is safe, using a moved-from one is not", "statement": "In every program that constructs, moves, move-assigns, re-initialises, uses and destroys any number of XmssFast objects, never copies one and does nothing with a moved-from object but destroy it or assign to it, no call is undefined and each object answers exactly like an independent reference object of its seed; a refused construction throws invalid_argument and changes nothing. In particular an object returned by value from a factory (fromParameters, fromHexSeed, fromMnemonic) through any number of moves follows the reference history. A moved-from object, however, keeps the secret key and the pointers: signing with it reuses a one-time key and spoils a later signature of the new object.", "quantifier": "all programs over any number of objects, all seeds, heights, hash functions, messages and indices", "why_tests_cant": "quantifies over all programs and histories", "anchors": ["src/qrl/xmssFast.h:XmssFast", "src/qrl/xmssBase.h:~XmssBase", "src/qrl/xmssFast.cpp:initialize_tree", "src/jswrapper/jsqrlwrapper.cpp:fromParameters"]}
{"id": "C80", "title": "Running out of memory, or a damaged traversal state, never reuses a one-time key", "statement": "If an allocation of XmssFast::sign throws bad_alloc, the object is exactly as before the call: the same index, the same later signatures, no one-time key used. If an allocation of initialize_tree fails, the object is unchanged (the first allocation) or its secret key is wiped to zeros while its seed and descriptor remain, and the next initialize_tree that succeeds makes it a signer at index 0 again. Whatever happens to the traversal state between calls, the indices of the signatures that sign returns increase strictly and stay below 2^height. Used all the same while wiped, an object interrupted before its vectors were replaced signs, if sign returns, with the all-zero secret key at index 0; interrupted later, every call that follows the traversal pointers is undefined behaviour and the others are answered as for index 0.", "quantifier": "all histories of sign, setIndex and initialize_tree, every subset of calls in which an allocation fails and every position of the failing allocation; all contents of the traversal state", "why_tests_cant": "quantifies over every point at which memory may run out in every history, and over all damaged states", "anchors": ["src/qrl/xmssFast.cpp:sign", "src/qrl/xmssFast.cpp:initialize_tree", "src/qrl/xmssFast.cpp:setIndex", "src/xmss-alt/algsxmss_fast.c:xmssfast_Signmsg"]}
{"id": "C81", "title": "Crashes and restarts: storing the index before releasing a signature prevents reuse", "statement": "An application backs up the seed or the extended seed, stores getIndex() durably, and after a crash constructs the XmssFast object again and calls setIndex with the stored value. If after each sign it stores getIndex() before it hands the signature out, and gives up when setIndex throws, then whatever the messages, skips and crash points no call fails, the signatures it ever hands out carry strictly increasing indices below the stored one, and each verifies under the one public key. If it hands the signature out first, a crash between the two actions makes it sign another message under the same index. A spent key cannot be restored (setIndex(2^height) throws); an application that carries on regardless signs with one-time key 0 again.", "quantifier": "all supported keys, all sequences of sign, setIndex, crash (at every point of a signing operation) and restart by either constructor", "why_tests_cant": "quantifies over every crash point of every history across process lifetimes", "anchors": ["src/qrl/xmssFast.cpp:setIndex", "src/qrl/xmssFast.cpp:sign", "src/qrl/xmssFast.cpp:XmssFast", "src/qrl/xmssBase.cpp:getIndex", "src/qrl/xmssBase.cpp:getExtendedSeed"]}
{"id": "C82", "title": "Signing and verifying take a bounded number of hash evaluations", "statement": "After any history of sign and setIndex calls on an XmssFast object, sign(message) evaluates the configured hash function exactly 3 + 67 + 3*(sum of the digits of the message digest) times for the one-time signature plus an amount that depends only on the height and the index, never on the seed or message, and is at most 3347 + (height-2)/2 * (3347 + 4*(height+1)); a refused sign or setIndex evaluates it not at all; setIndex costs the sum of those index-dependent amounts over the skipped indices. XmssBasic sign costs the one-time signature plus the whole tree, 2^height leaves. verify either rejects without hashing or takes a number fixed by the digest, the height and w, and never more than 3*len*(w-1) + 4*len + 120 whatever bytes it is given.", "quantifier": "all supported seeds, heights, hash functions, messages and histories; for verify all byte strings", "why_tests_cant": "a worst-case bound over all indices up to 2^30, all messages and all malformed inputs", "anchors": ["src/qrl/xmssFast.cpp:sign", "src/qrl/xmssFast.cpp:setIndex", "src/xmss-alt/algsxmss_fast.c:bds_round", "src/xmss-alt/algsxmss_fast.c:bds_treehash_update", "src/xmss-alt/algsxmss_fast.c:treehash_update", "src/qrl/xmssBase.cpp:verify", "src/qrl/xmssBasic.cpp:sign", "src/xmss-alt/hash.c:core_hash"]}
{"id": "C83", "title": "One XmssFast object shared by several threads", "statement": "If every call of sign and setIndex on a shared XmssFast object is made while holding one mutex, then for every number of threads, every list of calls per thread and every schedule, the completed calls are exactly what one thread making them in that order would have seen, each thread's calls complete in its order, no schedule gets stuck, no one-time key signs twice and every signature verifies. Without the mutex (the library takes no lock) this fails at every index: there is a schedule of two signs in which both signatures use the same one-time key with different messages, one in which sign throws although the key is not spent, and one in which the index moves back to a used one.", "quantifier": "all supported seeds, heights, hash functions, programs of calls per thread, histories before, messages and schedules", "why_tests_cant": "all interleavings of any number of threads; a race may never show up in a test", "anchors": ["src/qrl/xmssFast.cpp:sign", "src/qrl/xmssFast.cpp:setIndex", "src/xmss-alt/algsxmss_fast.c:xmssfast_update", "src/xmss-alt/algsxmss_fast.c:xmssfast_Signmsg"]}
{"id": "C84", "title": "Creating a key takes a fixed number of hash evaluations", "statement": "Whatever the seed, hash function and address format, an XmssBasic or XmssFast constructor that returns has evaluated the configured hash function exactly once per primitive of every node of the tree: 2^height leaves of 1 + len + 3*len*(w-1) + 4*(len-1) evaluations and 4 for each of the 2^height - 1 inner nodes (for XmssFast w = 16 and len = 67, so a leaf is 3347); from an extended seed and on a second initialize_tree the count is the same. Constructors that throw have evaluated nothing.", "quantifier": "all seeds, extended seeds, heights, hash functions, formats and Winternitz parameters", "why_tests_cant": "an exact count for every height up to 30 and every seed; trees of useful height take hours", "anchors": ["src/qrl/xmssBasic.cpp:XmssBasic", "src/qrl/xmssFast.cpp:initialize_tree", "src/xmss-alt/algsxmss.c:treehash", "src/xmss-alt/algsxmss_fast.c:treehash_setup", "src/xmss-alt/hash.c:core_hash"]}
{"id": "C85", "title": "Keys and signatures do not depend on the machine's byte order", "statement": "The only code that depends on the byte order of the machine is the conversion of hash addresses to bytes; for every hash function, address and input its two branches lead to the same hash values, in the C++ library and (for the 32-byte buffers it is given) in the Rust port, so a key or signature made on one kind of machine is valid on the other. The distinction is needed: a plain copy on a little-endian machine gives the right bytes only for addresses whose words are palindromes.", "quantifier": "all addresses, hash functions, inputs and both byte orders", "why_tests_cant": "tests run on one kind of machine only, and the other branch is not even compiled there", "anchors": ["src/xmss-alt/hash.c:addr_to_byte", "src/rust_wrapper/xmss_alt/hash.rs:addr_to_byte", "src/rust_wrapper/xmss_alt/hash.rs:u32_slice_to_bytes"]}
{"id": "C86", "title": "The floating-point computation of the WOTS parameters is exact", "statement": "The lengths of WOTS keys are computed with floating-point log2, division, ceil and floor. For every 32-bit Winternitz parameter, with any double arithmetic whose errors are at most 2^-40 and that is exact when the true result is an integer (correctly rounded IEEE binary64 is one), the result is the integer result, and undefined in the same cases; the same holds of the Rust port's single-precision computation for w = 2, 4, 16, 256 with errors up to 2^-18. A small error alone would not do: however small the bound, some logarithm within it yields another key format for w = 16.", "quantifier": "all 32-bit w and all floating-point arithmetics within the error bound", "why_tests_cant": "a test exercises one C library and a few parameters", "anchors": ["src/xmss-alt/wots.c:wots_set_params", "src/rust_wrapper/xmss_alt/wots.rs:WOTSParams::new"]}
{"id": "C87", "title": "How much stack the calls need", "statement": "The library keeps its working arrays, including a copy of the whole message and (XmssBasic) the whole hash tree, on the stack. Counting these arrays: verify behaves as with an unlimited stack when the stack has room for the message plus 40 len + 1024 bytes (len chains), and runs out of stack on every valid signature when it is smaller than the message plus 32 len + 448; XmssFast.sign, after any history, behaves as with an unlimited stack given 3008 bytes and 480 more than the message, and runs out of stack with less than 480 more than the message; 2752 bytes are enough for setIndex and 3836 for construction and initialize_tree, at any height; XmssBasic.sign fails for every message with less than 2^(h+6) + 480 bytes, so no key of height 18 or more can sign on an 8 MiB stack.", "quantifier": "all stack sizes, messages, signatures, keys and histories", "why_tests_cant": "running out of stack kills the test process, and the threshold depends on sizes no test tries", "anchors": ["src/xmss-alt/hash.c:core_hash", "src/xmss-alt/algsxmss.c:compute_authpath_wots", "src/xmss-alt/xmss_common.c:xmss_Verifysig", "src/xmss-alt/algsxmss_fast.c:xmssfast_Signmsg"]}
{"id": "C88", "title": "Which exception a Python or Go caller gets", "statement": "Through the SWIG bindings every call ends in one of these ways: it returns; it raises ValueError, exactly when the caller passed an invalid argument (listed per call); it raises RuntimeError, exactly when getRandomSeed cannot read enough from the random device; or the behaviour is undefined. Calls of verify, addressIsValid, getSignatureSize, bin2hstr, getHashChainSeed, XmssBasic.sign and the Dilithium members never raise, whatever the input. In Go the same two groups panic and no exception escapes. The handlers map every class derived from std::invalid_argument to ValueError, other std::exception to RuntimeError, and anything else to an unknown error (Python) or process abort (Go). getNextTree of a shared pool raises ValueError exactly if the pool was made with a wrong height.", "quantifier": "all wrapped calls, arguments, used objects, device behaviours, exception classes and pool schedules", "why_tests_cant": "a test checks a few bad arguments; that no other input raises, or raises another class, is a claim about all inputs", "anchors": ["src/api/pyqrllib.i:HandleAllExceptions", "src/api/pyqrllib.i:%exception", "src/qrl/misc.cpp:getRandomSeed", "src/qrl/xmssBase.cpp:verify"]}
{"id": "C89", "title": "No address is hashed with two inputs", "statement": "Every keyed, masked hash call (chain step F, node hash H) made while an XmssFast or XmssBasic key is created, signs or changes index is the call of a place of the key's tree: its address is the place's address and its input is the value that belongs to the place. So over any history of sign and setIndex calls, on one object or on several objects with the same seed, hash function and Winternitz parameter, even of different heights and classes, two calls with the same address are the same call. Key generation makes the call of each place exactly once.", "quantifier": "all supported keys, uninitialised memory contents, histories of calls, messages, and pairs of such logs", "why_tests_cant": "the security argument needs the absence of a colliding call over a whole key life; tests see outputs, not the addresses and inputs of the hash calls, and a stray call need not change any output", "anchors": ["src/xmss-alt/hash.c:hash_f", "src/xmss-alt/hash.c:hash_h", "src/xmss-alt/algsxmss_fast.c:treehash_setup", "src/xmss-alt/algsxmss_fast.c:treehash_update", "src/xmss-alt/algsxmss_fast.c:bds_round", "src/xmss-alt/algsxmss.c:compute_authpath_wots", "src/xmss-alt/wots.c:wots_sign"]}
{"id": "C90", "title": "A forgery breaks a hash call the owner made", "statement": "Fix a key and any history of sign and setIndex calls. If verify accepts a message and signature that the history did not hand out together, then the verification made a keyed, masked hash call at the same address and with the same value as a call made by key generation but with other input (a second preimage), or the signature carries an index past the end of the tree and a call at an address no key generation uses returned the root, or its message hash collides with that of the signature handed out for the same index, or it contains a value of one of the key's hash chains below its end and below the value published by every signature handed out for that index. An accepted signature is built as the owner builds signatures exactly when every call of its verification was already made, with the same data, by key generation. The calls of verify are exactly the chains to their ends, the L-tree and the path.", "quantifier": "all supported keys, histories of calls, messages and signatures of any bytes", "why_tests_cant": "it speaks about every accepted signature an attacker could produce after every history; a test cannot enumerate forgeries, and sees neither the verifier's calls nor those of key generation", "anchors": ["src/qrl/xmssBase.cpp:XmssBase::verify", "src/xmss-alt/xmss_common.c:xmss_Verifysig", "src/xmss-alt/xmss_common.c:validate_authpath", "src/xmss-alt/wots.c:wots_pkFromSig", "src/xmss-alt/hash.c:hash_f", "src/xmss-alt/hash.c:hash_h"]}
{"id": "C91", "title": "Secret seeds key only place-bound derivations; one message hash per signature", "statement": "Besides its keyed, masked tree hashes, a key object calls the pseudorandom function only to derive the secret of a one-time key of its tree from the secret seed and that key's address, to derive a chain start from that secret and the chain's number, and, keyed with the second secret, on the index of a signature it hands out. Constructing an object hashes no message. A history of sign and setIndex calls hashes exactly one message for each signature it hands out, in order, keyed with that signature's own randomiser, the root and its index; a refused call hashes none, so no message is ever hashed under an index for which no signature comes out. Verification calls no pseudorandom function with a secret and hashes at most the given message once, keyed with the signature's randomiser, the root of the public key and the signature's index.", "quantifier": "all supported keys, histories of calls, messages, signatures and public keys of any bytes", "why_tests_cant": "the calls are inside the library; a stray call with another input leaves keys and signatures unchanged, and the claim covers every history", "anchors": ["src/xmss-alt/hash.c:prf", "src/xmss-alt/hash.c:h_msg", "src/xmss-alt/xmss_common.c:get_seed", "src/xmss-alt/wots.c:expand_seed", "src/xmss-alt/algsxmss_fast.c:xmssfast_Signmsg", "src/xmss-alt/algsxmss.c:xmss_Signmsg", "src/xmss-alt/xmss_common.c:xmss_Verifysig"]}
{"id": "C92", "title": "The sequence of hash calls reveals nothing about the secrets", "statement": "Take any two supported keys with the same height and Winternitz parameter, with any seeds, hash functions and address formats. Constructing the two objects makes the same number of hash calls, in the same order, of the same kinds, at the same addresses and counters and with inputs of the same lengths. The same holds of setIndex with the same index, and of sign on messages of the same length, for every history of such calls, as long as the base-w digits of the signed digests agree; those digits are a function of the message, the signature and the public key, so the sequence of hash calls tells an observer nothing about the seed that the published values do not. XmssBasic has the same property for key generation and signing.", "quantifier": "all pairs of supported keys, histories of sign and setIndex calls, messages and indices", "why_tests_cant": "it relates two executions for every pair of secrets; a branch on one secret byte is invisible in the outputs and is missed by nearly every pair of test keys", "anchors": ["src/xmss-alt/algsxmss_fast.c:bds_round", "src/xmss-alt/algsxmss_fast.c:treehash_setup", "src/xmss-alt/algsxmss_fast.c:xmssfast_update", "src/xmss-alt/algsxmss_fast.c:xmssfast_Signmsg", "src/xmss-alt/algsxmss.c:xmss_Signmsg", "src/xmss-alt/wots.c:wots_sign", "src/xmss-alt/xmss_common.c:gen_leaf_wots"]}
{"id": "C93", "title": "A pool's trees across restarts and crashes", "statement": "An application uses pools over one base seed in several runs, each ended normally or by a crash at any point, with any pool sizes, threads and launch failures. If it stores the value of a getCurrentIndex call made after getNextTree handed it a tree and before it signs with that tree, and starts every later pool at or above all stored values, then no tree it stored an index for is ever handed out again, in any run. If a run ends with no call in progress and none failed, the stored index is exactly starting_index plus the number of trees handed out, and a pool started there continues the sequence without gap. Without storing, the same tree comes again: two pools started at the same index both hand out the same key, and both sign under the same one-time key.", "quantifier": "all base seeds, heights, pool sizes, starting indices, numbers of runs, schedules, failures and crash points (indices below 2^64)", "why_tests_cant": "crash points and schedules of several process runs cannot be enumerated", "anchors": ["src/qrl/xmssPool.cpp:getNextTree", "src/qrl/xmssPool.cpp:XmssPool", "src/qrl/xmssPool.h:getCurrentIndex"]}
{"id": "C94", "title": "What reuse of a one-time key costs", "statement": "Let any objects made from one seed with one hash function - a second object, a copy, a restart, an XmssBasic moved back, objects of other heights or other Winternitz parameters, an XMSSFast of the Rust port (whose signatures are for the message it sees) - have handed out signatures with the same index, one of them for the tree in question. Then an explicit procedure on public data turns them into a signature, with any chosen randomiser, of every message whose chain positions are covered by the published ones, and verify accepts it; the port accepts it as well for the message it sees. Trees of different heights over one seed share all their one-time keys: from one signature of each with the same index anyone computes the same one-time public key. A single signature with a smaller Winternitz parameter w' over the same seed is enough, together with one genuine signature, to sign every message whose positions are at least w'-1 or at least the genuinely published ones. So a seed must be used with one height, one w and one object only.", "quantifier": "all seeds, hash functions, heights, Winternitz parameters, histories, lists of signatures with a common index, messages and randomisers", "why_tests_cant": "it quantifies over all sets of published signatures and all messages to forge; the shared chains are not visible in any single output", "anchors": ["src/xmss-alt/wots.c:wots_sign", "src/xmss-alt/wots.c:gen_chain", "src/xmss-alt/algsxmss.c:get_seed", "src/qrl/xmssBase.cpp:verify", "src/qrl/xmssBasic.cpp:sign", "src/qrl/xmssFast.cpp:sign", "src/rust_wrapper/qrl/xmss_fast.rs:sign,set_index"]}
{"id": "C95", "title": "Copy assignment rewinds a signer", "statement": "Assigning a saved copy back to an XmssFast object (XmssFast backup(x); ...; x = backup;) puts index and traversal state back to the time of the copy, any number of times: every round answers exactly as the first one did, so the object signs different messages with the same one-time keys, with signatures that all verify. Assigning one constructed object to another replaces key and index of the target by those of the source and makes the target work in the source's memory: if the source is left alone the target signs correctly, but after the source is destroyed every call on the target that has to advance is a use after free; destroying the target does not disturb the source. Self-assignment changes nothing.", "quantifier": "all keys, heights, hash functions, histories before and between assignments, and numbers of assignments (standard libraries that keep a vector's storage when a vector of the same length is assigned)", "why_tests_cant": "the histories between copy and assignment are unbounded, and the aliasing is invisible until the right sequence of calls", "anchors": ["src/qrl/xmssFast.h:XmssFast", "src/xmss-alt/algsxmss_fast.h:bds_state", "src/qrl/xmssFast.cpp:initialize_tree"]}
{"id": "C96", "title": "Running out of memory in the text functions, verify, addressIsValid and XmssBasic.sign", "statement": "If memory runs out, bin2hstr and bin2mnemonic throw std::bad_alloc or silently return a proper prefix of the text (up to the first character that could not be stored); any prefix can be returned. A truncated hexadecimal backup of a wallet is never accepted by fromHexSeed; a truncated mnemonic is accepted only if what is missing is the end of the 34th word and the rest is itself a word of the list, and then (e.g. action cut to act) it restores a different wallet. mnemonic2bin throws or silently decodes the words before the first one it could not hold: a text of list words is decoded exactly where short words need no memory, but a good mnemonic followed by long garbage can be accepted. verify throws std::bad_alloc or answers as with enough memory; addressIsValid never accepts an invalid address, but calls a valid one invalid; a XmssBasic.sign that fails for want of memory changes nothing.", "quantifier": "all inputs and all patterns of failing allocations", "why_tests_cant": "allocation failures can hit at any of the allocations, for any input; tests do not inject them", "anchors": ["src/qrl/misc.cpp:bin2hstr", "src/qrl/misc.cpp:bin2mnemonic", "src/qrl/misc.cpp:mnemonic2bin", "src/qrl/xmssBase.cpp:verify", "src/qrl/qrlHelper.h:addressIsValid", "src/qrl/xmssBasic.cpp:sign"]}
{"id": "C97", "title": "What a public key commits its publisher to, whoever made it", "statement": "Take any 67-byte public key, however it was made, and any signatures verify accepts under it (w in {2,4,16,256}, possibly different for each). Either two of them yield a collision of the key's hash function that is computed from them, or: all their indices agree above the tree height, one fixed tree contains every node they show, and two of them at the same index use the same w and the same one-time public key and show values of the same chains (the lower one hashed forward is the higher one). So there is at most one accepted signature per message, index and randomiser; one signature is accepted for two messages only if their hashes collide, the verifications show a collision, or a chain value returns to itself; and two keys with the same root and hash function under which anything was accepted are the same key for every verification, or the last hashes collide.", "quantifier": "all public keys (adversarial ones included), all finite sets of accepted signatures, all messages, every w in {2,4,16,256}", "why_tests_cant": "the publisher of the key is an adversary: the claim ranges over every key and every set of accepted signatures, most of which no test can construct", "anchors": ["src/qrl/xmssBase.cpp:verify", "src/xmss-alt/xmss_common.c:xmss_Verifysig", "src/xmss-alt/xmss_common.c:validate_authpath", "src/xmss-alt/xmss_common.c:l_tree", "src/xmss-alt/wots.c:wots_pkFromSig"]}
{"id": "C98", "title": "Keys, signatures and verification are those of RFC 8391", "statement": "The root in every public key is what Algorithm 9 (treeHash) of RFC 8391 computes over the whole tree, every signature an XmssFast or XmssBasic hands out is what Algorithm 12 (XMSS_sign) outputs at its index, and verify answers what Algorithm 14 (XMSS_verify) answers on the parts of the signature (and false if a length does not fit or the height is below 4), with n = 32, SHA2-256, SHAKE128 or SHAKE256 (256 bits of output) as hash function and w in {2,4,16,256}. Two things are the library's own: how one-time secret keys are derived from the seed (the RFC leaves it open) and the public key format (a 3-byte descriptor in place of the OID).", "quantifier": "all supported keys, all histories of sign and setIndex calls, all messages, all public keys and signatures given to verify, every w in {2,4,16,256}", "why_tests_cant": "known-answer tests compare a handful of keys and messages; agreement with the standard is claimed for every key, index, message and (possibly malformed) signature", "anchors": ["src/xmss-alt/algsxmss.c:treehash", "src/xmss-alt/algsxmss.c:xmss_Signmsg", "src/xmss-alt/algsxmss_fast.c:xmssfast_Signmsg", "src/xmss-alt/xmss_common.c:xmss_Verifysig", "src/xmss-alt/wots.c:base_w", "src/xmss-alt/hash.c:hash_h", "src/xmss-alt/hash_address.c"]}
{"id": "C99", "title": "The Rust port against RFC 8391, and what a public key commits to in front of it", "statement": "Keys of the Rust port hold the root of Algorithm 9 of RFC 8391; its verify accepts exactly what Algorithm 14 accepts, and its signatures are the output of Algorithm 12, for the message the port sees (C65), which is the message itself for SHA2-256 and for messages that fit into the first SHAKE block. If it accepts a longer message whose next byte is not zero, every standard verifier rejects that signature, unless it yields a hash collision or a chain value that returns to itself. In front of the port any public key, however made, commits its publisher as in C97: accepted signatures agree on one tree or yield a collision computed from them; at most one signature per message, index and randomiser; one signature for two messages only if the port sees the same message or as in C97.", "quantifier": "all keys, all histories of sign and set_index calls, all messages the port can hash, all public keys (adversarial ones included) and signatures, all hash functions and Winternitz parameters of the port", "why_tests_cant": "interoperability is claimed for every message and every (also adversarial) key and signature; the messages for which the port deviates from the standard look like any other", "anchors": ["src/rust_wrapper/qrl/xmss_base.rs:verify", "src/rust_wrapper/qrl/xmss_fast.rs:sign", "src/rust_wrapper/xmss_alt/fips202.rs:keccak_absorb", "src/rust_wrapper/xmss_alt/xmss_common.rs"]}
{"id": "C100", "title": "An XmssBasic key survives crashes if the application does what XmssBasic does not", "statement": "An application creates an XmssBasic object from a backed-up seed, calls setIndex with the index it last stored, signs, skips, and may crash between any two of its actions. If it stores getIndex() before a signature leaves, tests for the end of the key before signing, and never sets the index back, then whatever happens no call is undefined, the signatures it hands out carry strictly increasing indices, all verify under the one public key, and lie below the stored index; the test getRemainingSignatures() == 0 suffices only if it never skips past the end, because it wraps around. A spent key can be restored (with XmssFast it cannot, C81) and is then refused by the test; without the test signing with it is undefined. Handing out before storing, or setting the index back, reuses a one-time key. From height 26 on the first signature is undefined whatever the application does.", "quantifier": "all seeds, hash functions, Winternitz parameters and heights, all finite sequences of starts, signatures (with a crash after each action), skips to any 32-bit index and crashes", "why_tests_cant": "quantifies over every interleaving of crashes with the actions of the application and over every index", "anchors": ["src/qrl/xmssBasic.cpp:XmssBasic,sign", "src/qrl/xmssBase.cpp:getIndex,setIndex", "src/qrl/xmssBase.h:getNumberSignatures,getRemainingSignatures"]}
{"id": "C101", "title": "A wallet that moves between the C++ library and the Rust port", "statement": "A key made by either library has the same mnemonic. If its owner restores it from the mnemonic and the index of the next one-time key, now with the C++ library, now with the Rust port, makes any calls there, and writes mnemonic and index down again before leaving, then over any number of stays he observes exactly what a single signer shows that never moved (in the port, for the message it sees, C65): the mnemonic never changes, indices of signatures increase strictly over the whole life, every signature is accepted under the one public key by the library that made it, a spent key refuses everything on both sides, and nothing is undefined, panics or fails, provided the messages signed with the port are ones it can hash. A message the port cannot hash stops it with a panic, at every index of the wallet, while the C++ library signs it.", "quantifier": "all seeds, heights and hash functions, all finite sequences of stays on either side, each with any sequence of sign and setIndex calls with arbitrary messages and indices", "why_tests_cant": "the two code bases must agree on every state that any interleaving of stays and calls can reach", "anchors": ["src/qrl/xmssFast.cpp:XmssFast,setIndex,sign", "src/qrl/misc.cpp:bin2mnemonic,mnemonic2bin", "src/rust_wrapper/qrl/xmss_fast.rs:from_extended_seed,set_index,sign", "src/rust_wrapper/qrl/misc.rs:bin2mnemonic,mnemonic2bin"]}
{"id": "C102", "title": "w = 256: one signature can be turned into others; w = 2, 4, 16: never", "statement": "Whoever has a single signature made with Winternitz parameter 256 can, for every message and every randomiser whose digest is at or above the published digest byte by byte and in the low byte of the checksum, put together from public data alone a signature that verify accepts for that message under the same public key. Every published digest that is not at the very top of the range (byte sum at most 8160 - 256) has another such digest, so the signer cannot avoid it. This is the only new way: any other pair accepted for the index of a known w = 256 signature is evidence of a collision, reveals a chain value below the published one, or is byte for byte the signature put together like this. With w = 2, 4 or 16 a single signature covers the positions of no digest but its own.", "quantifier": "all seeds, heights, hash functions and indices, all signed messages, all target messages and randomisers, all digests", "why_tests_cant": "it is a statement about all digests and messages, and none of the pairs is found by sampling", "anchors": ["src/xmss-alt/wots.c:wots_set_params,calc_csum,base_w,wots_sign,wots_pkFromSig", "src/qrl/xmssBasic.cpp:sign", "src/qrl/xmssBase.cpp:verify"]}
{"id": "C103", "title": "One wallet, both libraries, crashes: no one-time key used twice", "statement": "A wallet keeps its words and the next index in durable storage and is started each time with either the C++ library or the Rust port (mnemonic2bin, construct from the extended seed, setIndex with the stored index), signs, skips indices, and may crash at any moment; a message the port cannot hash panics and also ends the process. If it stores the index before it hands a signature out, then over its whole life nothing goes wrong, the indices of all signatures ever handed out increase strictly and stay below the stored index, which never passes 2^height, and each signature is accepted, under the one public key, by the library that made it. If it hands out first, a crash in between and a restart with the same or the other library signs two messages with one one-time key.", "quantifier": "all seeds, heights, hash functions, sequences of starts on either side, messages, skips and crash points", "why_tests_cant": "every interleaving of two libraries, restarts and crash points", "anchors": ["src/qrl/xmssFast.cpp:XmssFast,setIndex,sign", "src/qrl/misc.cpp:mnemonic2bin,bin2mnemonic", "src/rust_wrapper/qrl/xmss_fast.rs:from_extended_seed,set_index,sign", "src/rust_wrapper/qrl/misc.rs"]}
{"id": "C104", "title": "Within one computation no hash key and no mask repeats", "statement": "Every call of the keyed, masked tree hash draws its key and its one or two masks from the public seed through the pseudorandom function, and its value depends on the public seed only through them. During the construction of a key, by either object, and during any one verification - of any message and any signature bytes of the right length, whatever index they claim, accepted or not - all these pseudorandom inputs, over all chain steps, L-tree nodes and path nodes and all roles, are pairwise different: no key and no mask is used twice, not even as another's.", "quantifier": "all supported keys; all messages, signature bytes and public keys verify gets past its length checks", "why_tests_cant": "the inputs are inside the library, a repeated one leaves keys, signatures and verdicts consistent, and the claim covers every index a signature may claim", "anchors": ["src/xmss-alt/hash.c:hash_f,hash_h", "src/xmss-alt/xmss_common.c:l_tree,validate_authpath,xmss_Verifysig", "src/xmss-alt/wots.c:gen_chain,wots_pkFromSig", "src/xmss-alt/hash_address.c"]}
{"id": "C105", "title": "A hash address holds the last value of every field", "statement": "After any sequence of calls of the address setters (layer, tree, type, OTS address, chain, hash, L-tree address, tree height, tree index, keyAndMask) on any address, the 32 bytes that are hashed are the eight big-endian words of RFC 8391: layer, the 64-bit tree address, type, the three words of the type, keyAndMask; each field holds the last value assigned, and assigning the type clears the words after it. The tree address always fills bytes 4 to 11. Two addresses that differ in any field, in particular in layer or tree, are different byte strings. The Rust port computes the same bytes.", "quantifier": "all sequences of setter calls and all initial addresses", "why_tests_cant": "no test calls the layer and tree setters, and the order of calls is unbounded", "anchors": ["src/xmss-alt/hash_address.c:setLayerADRS,setTreeADRS,setType", "src/xmss-alt/hash.c:addr_to_byte", "src/rust_wrapper/xmss_alt/hash_address.rs:set_layer_adrs,set_tree_adrs", "src/rust_wrapper/xmss_alt/hash.rs:addr_to_byte"]}
