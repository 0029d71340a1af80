{"id": "C01", "title": "11-bit writer lays bits out big-endian", "statement": "Writing any sequence of 16-bit values with BitWriterBy11 yields exactly the big-endian concatenation of the low 11 bits of each value, zero-padded on the right to a whole number of bytes; no write ever panics.", "quantifier": "every sequence of u16 values, of any length", "why_tests_cant": "the writer is an 8-state machine over unbounded input; tests use one fixed sequence", "anchors": ["bip39/src/util/bits.rs: BitWriterBy11::write, to_bytes"]}
{"id": "C02", "title": "11-bit reader returns consecutive 11-bit groups", "statement": "BitReaderBy11 over a byte buffer returns, at the k-th read, bits 11k..11k+10 of the buffer, always a value below 2048; a read panics exactly when fewer than 11 bits remain, and size() is always the number of reads still possible (its subtraction never underflows).", "quantifier": "every byte buffer and every number of reads", "why_tests_cant": "boundary behaviour depends on all 8 alignments and every buffer length", "anchors": ["bip39/src/util/bits.rs: BitReaderBy11::read, size"]}
{"id": "C03", "title": "Reader inverts writer", "statement": "Reading back from the bytes of a BitWriterBy11 returns the written values reduced to 11 bits, in order.", "quantifier": "every sequence of u16 values", "why_tests_cant": "needs induction over sequence length", "anchors": ["bip39/src/util/bits.rs: BitWriterBy11, BitReaderBy11"]}
{"id": "C04", "title": "Entropy to mnemonic follows BIP-39", "statement": "For entropy of each supported size, to_mnemonics never panics and returns exactly the words whose 11-bit indices, concatenated, are the entropy bits followed by the first (size/32) bits of its SHA-256.", "quantifier": "every entropy value of the six sizes, for every 32-byte hash function", "why_tests_cant": "2^96..2^256 inputs", "anchors": ["bip39/src/bip39.rs: Entropy::to_mnemonics, hash, checksum"]}
{"id": "C05", "title": "Entropy survives the mnemonic round trip", "statement": "from_mnemonics(to_mnemonics(e)) returns e for every entropy value.", "quantifier": "every entropy value of the six sizes", "why_tests_cant": "2^96..2^256 inputs", "anchors": ["bip39/src/bip39.rs: Entropy::from_mnemonics, to_mnemonics"]}
{"id": "C06", "title": "Mnemonic checksum acceptance is exact", "statement": "Entropy::from_mnemonics accepts a list of in-range indices exactly when its checksum bits are those of the SHA-256 of its entropy bits, in which case to_mnemonics of the result is the same list; otherwise it returns InvalidChecksum(computed, found). It never panics on a value built with from_mnemonics/from_string.", "quantifier": "every Mnemonics value with indices <= 2047", "why_tests_cant": "2048^9..2048^24 inputs", "anchors": ["bip39/src/bip39.rs: Entropy::from_mnemonics, Mnemonics::from_mnemonics"]}
{"id": "C07", "title": "Dictionaries are bijections", "statement": "In each of the eight shipped dictionaries, word lookup and index lookup are mutually inverse on all 2048 indices; no word is empty or contains the separator; a word not in the list is rejected with an error carrying that word.", "quantifier": "all 8 languages, all 2048 indices, all strings", "why_tests_cant": "all strings outside the dictionary must be rejected; duplicates anywhere in 16384 words would break recovery", "anchors": ["bip39/src/bip39.rs: dictionary::DefaultDictionary::lookup_mnemonic, lookup_word", "bip39/src/dicts/*"]}
{"id": "C08", "title": "Phrase text round trip", "statement": "Parsing the phrase printed from any in-range mnemonic gives the mnemonic back, and any phrase that parses prints back as exactly the same text (there is exactly one accepted spelling per mnemonic and language). MnemonicString::new accepts exactly the phrases that parse and keeps the text unchanged.", "quantifier": "all languages, all mnemonics, all strings", "why_tests_cant": "unbounded strings", "anchors": ["bip39/src/bip39.rs: Mnemonics::to_string, Mnemonics::from_string"]}
{"id": "C09", "title": "Phrase rejection reports the cause", "statement": "Mnemonics::from_string fails with the first word absent from the dictionary if there is one, otherwise with WrongNumberOfWords(n) exactly when the number n of space-separated words is not 9, 12, 15, 18, 21 or 24; it succeeds otherwise.", "quantifier": "all languages, all strings", "why_tests_cant": "unbounded strings", "anchors": ["bip39/src/bip39.rs: Mnemonics::from_string, Type::from_word_count"]}
{"id": "C10", "title": "Index-to-word lookup is in bounds only for validated indices", "statement": "Converting an index to a word is memory safe for every index <= 2047 (in particular for every index obtained from MnemonicIndex::new, from_word or to_mnemonics) but the public tuple constructor MnemonicIndex(n) with n > 2047 makes the safe method to_word perform an out-of-bounds unchecked read.", "quantifier": "all u16 indices, all languages", "why_tests_cant": "memory-unsafe behaviour does not fail a test deterministically", "anchors": ["bip39/src/bip39.rs: MnemonicIndex, DefaultDictionary::lookup_word"]}
{"id": "C11", "title": "Hex round trip", "statement": "hex::decode(hex::encode(b)) returns b, and encode emits two lower-case hex digits per byte.", "quantifier": "all byte strings", "why_tests_cant": "unbounded input", "anchors": ["bip39/src/util/hex.rs: encode, decode"]}
{"id": "C12", "title": "Hex decoding is exact", "statement": "hex::decode accepts exactly the strings of hex digits (either case) and ASCII whitespace (space, CR, LF, TAB); the result pairs the digits in order ignoring whitespace wherever it occurs and silently drops an unpaired last digit; otherwise it fails with the byte index of the first other symbol.", "quantifier": "all strings", "why_tests_cant": "unbounded input; the shifting accumulator is only correct for all interleavings of whitespace", "anchors": ["bip39/src/util/hex.rs: decode"]}
{"id": "C13", "title": "Key path text round trip", "statement": "Parsing the printed form of a generic key path gives the same five numbers, in debug and release builds; hence printing is injective.", "quantifier": "all 5-tuples of u32", "why_tests_cant": "2^160 inputs", "anchors": ["keychain/src/key_path.rs: GenericKeyPath::from, to_string, print_int"]}
{"id": "C14", "title": "Key path parser accepts exactly its grammar", "statement": "A string parses exactly when it has 6 '/'-separated parts, which after trimming Unicode white space are 'm' and five numbers, each an optional '+', one or more decimal digits with value below 2^32, and an optional trailing apostrophe; the component value is the number, plus 2^31 if the apostrophe is present (modulo 2^32 in release builds); otherwise the first failing check's error is returned; for a component that is no number it says whether its digits reach 2^32 before any other character (too large) or not (invalid digit).", "quantifier": "all strings, both build profiles", "why_tests_cant": "unbounded strings", "anchors": ["keychain/src/key_path.rs: GenericKeyPath::from, parse_int, hard_int, soft_int"]}
{"id": "C15", "title": "Key path parser panics exactly on two input classes", "statement": "Parsing a string panics exactly when, all earlier checks having passed, the first failing component ends in a non-ASCII character, or (debug builds only) is hardened with a number of at least 2^31; on every other string it returns Ok or Err.", "quantifier": "all strings, both build profiles", "why_tests_cant": "needs all Unicode strings", "anchors": ["keychain/src/key_path.rs: parse_int, hard_int"]}
{"id": "C16", "title": "Hardened marker is not always hardened", "statement": "A component written with an apostrophe is parsed as a hardened index (>= 2^31) exactly when its number is below 2^31; in release builds larger numbers wrap to a non-hardened index instead of being rejected.", "quantifier": "all numbers below 2^32", "why_tests_cant": "overflow behaviour differs between the test (debug) and release profile", "anchors": ["keychain/src/key_path.rs: hard_int"]}
{"id": "C17", "title": "Network key path constructors validate and build BIP-44 paths", "statement": "bitcoin bip44/bip49/bip84, cardano new and ethereum new/new_metamask succeed exactly when account < 2^31, change is 0 or 1 and address < 2^31 (where applicable) and then expose the purpose, coin, hardened account, change and address of that scheme; arithmetic never overflows.", "quantifier": "all u32 arguments", "why_tests_cant": "2^96 inputs", "anchors": ["keychain/src/networks/bitcoin/key_path.rs", "keychain/src/networks/cardano/key_path.rs", "keychain/src/networks/ethereum/key_path.rs"]}
{"id": "C18", "title": "Constructor errors name the offending value, except for the address", "statement": "Constructor failures report the first offending component in the order account, change, address; account and change errors carry the offending value but InvalidAddress carries the change value, never the offending address.", "quantifier": "all u32 arguments", "why_tests_cant": "error payloads for all inputs", "anchors": ["keychain/src/networks/bitcoin/key_path.rs: is_valid", "keychain/src/networks/cardano/key_path.rs: new"]}
{"id": "C19", "title": "Each network accepts exactly its own paths", "statement": "pub_key/sign/verify on a key of a network get past path validation exactly for: Ethereum and Cardano - purpose 44', the network's coin, account >= 2^31, change in {0,1}, address < 2^31; Bitcoin - the same with coin 0' and any purpose. Otherwise the error names the first violated rule and no key material is derived.", "quantifier": "all key paths (any implementation of the KeyPath trait with u32 parts), all keys", "why_tests_cant": "2^160 paths", "anchors": ["keychain/src/networks/bitcoin/key.rs: derive_private", "keychain/src/networks/ethereum/key.rs: derive_private", "keychain/src/networks/cardano/key.rs: derive_private"]}
{"id": "C20", "title": "Constructed paths match their network", "statement": "Every path built by a network's constructor passes that network's validation and is rejected with InvalidCoin/InvalidPurpose by the keys of the other networks - except Bitcoin testnet paths, which the Bitcoin key always rejects with InvalidCoin.", "quantifier": "all constructor arguments, all three networks", "why_tests_cant": "2^96 inputs", "anchors": ["keychain/src/networks/*/key_path.rs", "keychain/src/networks/*/key.rs"]}
{"id": "C21", "title": "Extended key serialisation round trip", "statement": "XPrv::from_data(k.serialize()) returns k for every key with a valid secret, and serialize is always 77 bytes laid out as depth, fingerprint, index (big-endian), chain code, secret, 4-byte double-SHA-256 checksum.", "quantifier": "all XPrv values, every hash function", "why_tests_cant": "2^600 values", "anchors": ["secp256k1_bip32/src/private.rs: XPrv::serialize, from_data"]}
{"id": "C22", "title": "Extended key parsing is exact", "statement": "XPrv::from_data accepts a byte string exactly when it is 77 bytes, its checksum matches and its secret is in [1, n-1]; it never panics; any accepted string serialises back to itself.", "quantifier": "all byte strings, every hash function", "why_tests_cant": "unbounded input", "anchors": ["secp256k1_bip32/src/private.rs: XPrv::from_data"]}
{"id": "C23", "title": "Child derivation equals BIP-32 CKDpriv", "statement": "Whenever BIP-32 defines the child of index i (left half in [1,n-1], sum non-zero), XPrv::derive(i) is exactly it: same secret and chain code, depth+1, index i, parent fingerprint; for hardened i the child does not depend on the public key, for soft i the HMAC input is the compressed public key.", "quantifier": "all keys of depth < 255, all u32 indices, every HMAC/curve implementation", "why_tests_cant": "2^600 inputs", "anchors": ["secp256k1_bip32/src/private.rs: XPrv::derive"]}
{"id": "C24", "title": "Child derivation on the exceptional cases", "statement": "Derivation fails on depth 255 and when the left half is 0 or >= n (BIP-32 asks to move to the next index in the latter case); when the tweaked secret is zero it silently returns the child of the next index, and from index 2^31-1 this crosses into the hardened range. It always terminates and the returned child carries the index actually used.", "quantifier": "all keys, all u32 indices", "why_tests_cant": "the triggering events have probability about 2^-127, unreachable by testing", "anchors": ["secp256k1_bip32/src/private.rs: XPrv::derive"]}
{"id": "C25", "title": "Derivation depth", "statement": "Every successful derivation increases depth by exactly one and never overflows; a key created from a seed has depth 0 and index 0, and any five-step derivation from it can not fail with DeriveDepthTooBig.", "quantifier": "all keys, all index sequences", "why_tests_cant": "unbounded sequences", "anchors": ["secp256k1_bip32/src/private.rs: XPrv::derive, from_seed"]}
{"id": "C26", "title": "Pre-derivation is transparent", "statement": "For Bitcoin, Ethereum and Cardano, the public key and signature obtained through a stored key at path p are those of the BIP-32 derivation purpose/coin/account/change/address from the stored master key, regardless of how much of the path is derived when the key is loaded.", "quantifier": "all key data, all valid paths", "why_tests_cant": "all keys and paths", "anchors": ["keychain/src/networks/ethereum/key.rs: from_data, derive_private", "keychain/src/networks/bitcoin/key.rs", "keychain/src/networks/cardano/key.rs"]}
{"id": "C27", "title": "What verify accepts from sign", "statement": "For Cardano, verify(data, sign(data)) is true. For Bitcoin and Ethereum sign returns 65 bytes (r, s, recovery id) while verify only accepts 64 bytes: verifying the returned signature always fails with InvalidSignatureSize(65, 64), and verifying its first 64 bytes returns true.", "quantifier": "all keys, messages and valid paths; signature scheme assumed correct", "why_tests_cant": "all keys and messages", "anchors": ["secp256k1_bip32/src/private.rs: sign", "secp256k1_bip32/src/public.rs: verify", "keychain/src/networks/cardano/key.rs: sign, verify"]}
{"id": "C28", "title": "Key data from seeds", "statement": "For every 64-byte seed Cardano key data creation succeeds, is 96 bytes (clamped SHA-512 of the first half, then the second half of the seed) and loading it back succeeds; Bitcoin and Ethereum both store the serialised BIP-32 master key of the seed, and refuse the seed exactly when BIP-32 has no master key for it; every other seed length is refused with its length.", "quantifier": "all 64-byte seeds, every hash function", "why_tests_cant": "2^512 seeds", "anchors": ["keychain/src/networks/cardano/key.rs: data_from_seed, from_data"]}
{"id": "C29", "title": "Cardano over-long inputs panic", "statement": "Loading Cardano key data of n bytes returns InvalidKeySize(n, 96) for n < 96, validates for n = 96, and panics for every n > 96; verifying a signature of n bytes likewise errs below 64 and panics above 64, before the path is looked at.", "quantifier": "all byte strings", "why_tests_cant": "all lengths", "anchors": ["keychain/src/networks/cardano/key.rs: from_data, verify"]}
{"id": "C30", "title": "Decrypt inverts encrypt", "statement": "decrypt(encrypt(d, p), p) returns d for every non-empty plaintext d and every password and random source; for the empty plaintext it always fails with NotEnoughData.", "quantifier": "all plaintexts, passwords, random sources", "why_tests_cant": "unbounded input", "anchors": ["keychain/src/crypt.rs: encrypt, decrypt"]}
{"id": "C31", "title": "Decrypt is total and authentic", "statement": "decrypt never panics; it fails with NotEnoughData exactly for inputs of at most 60 bytes, and with DecryptionFailed exactly when the stored tag differs from the authentication tag of the rest under the key derived from the password and stored salt; any input it accepts is byte-for-byte what encrypt produces from the returned plaintext with the stored salt and nonce.", "quantifier": "all byte strings and passwords", "why_tests_cant": "unbounded input, attacker-controlled", "anchors": ["keychain/src/crypt.rs: decrypt"]}
{"id": "C32", "title": "Ciphertext layout", "statement": "encrypt output is salt(32) || nonce(12) || tag(16) || ciphertext, 60 bytes longer than the plaintext; salt and nonce are the next 44 bytes of the random source.", "quantifier": "all plaintexts, passwords, random sources", "why_tests_cant": "unbounded input", "anchors": ["keychain/src/crypt.rs: encrypt"]}
{"id": "C33", "title": "Wallet data serialisation round trip", "statement": "Serialising wallet data (seed, mnemonic, language, key map) and parsing it back gives the same data, whatever the hash-map iteration order.", "quantifier": "all wallet data with u32 networks and valid Unicode mnemonic, all iteration orders", "why_tests_cant": "unbounded data; iteration order is randomised per process", "anchors": ["keychain/src/data.rs: VersionedData::new, to_bytes, from_bytes, get_data"]}
{"id": "C34", "title": "Version-1 wallets are upgraded without loss", "statement": "Data of version 1 is read as a wallet with the same keys and no seed, mnemonic or language; versions other than 1 and 2 are rejected with a data error.", "quantifier": "all version-1 payloads, all version numbers", "why_tests_cant": "unbounded data; no v1 writer exists in the code to test with", "anchors": ["keychain/src/data.rs: get_data, from_v1, Version"]}
{"id": "C35", "title": "Opening arbitrary data never panics", "statement": "For any bytes and password, decoding a wallet returns a wallet or one of NotEnoughData, WrongPassword, DataError - it never panics.", "quantifier": "all byte strings and passwords", "why_tests_cant": "attacker-controlled input", "anchors": ["keychain/src/manager.rs: keychain_data_from_bytes", "keychain/src/data.rs"]}
{"id": "C36", "title": "Manager seed size", "statement": "Creating a manager from factories succeeds exactly when the largest minimum is non-zero and strictly below the smallest maximum, and then the seed size is the largest minimum; it does not depend on the order of factories. With the built-in networks: 96 bits for Cardano alone, 128 bits whenever Bitcoin or Ethereum is present, error for an empty selection. Cardano allows 96 to 256 bits, Bitcoin and Ethereum 128 to 256.", "quantifier": "all lists of factories; all lists of networks", "why_tests_cant": "unbounded lists", "anchors": ["keychain/src/manager.rs: calculate_seed_size, with_networks, new"]}
{"id": "C37", "title": "Generated mnemonics are always usable", "statement": "generate_mnemonic of a built-in manager never fails or panics; the phrase has seed_size/32*3 words of the requested language with a valid checksum, and the same manager accepts it in keychain_data_from_mnemonic with that language.", "quantifier": "all random sources, languages and selections of networks", "why_tests_cant": "2^128 random draws", "anchors": ["keychain/src/manager.rs: generate_mnemonic", "keychain/src/mnemonic.rs: generate_entropy, mnemonic_from_entropy, seed_from_mnemonic"]}
{"id": "C38", "title": "Which phrases are accepted for a wallet", "statement": "Creating a wallet seed from a phrase succeeds exactly when all words are in the dictionary and their number is seed_size/32*3 (otherwise UnsupportedWordFound, WrongNumberOfWords, MnemonicToShort or MnemonicToLong); the seed is PBKDF2 of exactly the given text; the BIP-39 checksum is not checked, so mistyped phrases with a wrong checksum are accepted.", "quantifier": "all strings, languages, seed sizes", "why_tests_cant": "unbounded strings", "anchors": ["keychain/src/mnemonic.rs: seed_from_mnemonic"]}
{"id": "C39", "title": "Created wallets open with exactly the manager's networks", "statement": "Data created from a 64-byte seed opens with the same password into a keychain whose networks are exactly the manager's, and every key operation answers as the key built directly from that seed by the network's factory.", "quantifier": "all seeds, passwords, factory sets, random sources and iteration orders", "why_tests_cant": "unbounded", "anchors": ["keychain/src/manager.rs: new_keychain_data, keychain_from_data", "keychain/src/keychain.rs"]}
{"id": "C40", "title": "Mnemonic wallets hold the same keys as seed wallets", "statement": "A wallet created from an accepted phrase holds the same keys as the wallet created from the seed of that phrase; phrase and language are stored unchanged.", "quantifier": "all phrases, languages, passwords, managers", "why_tests_cant": "unbounded", "anchors": ["keychain/src/manager.rs: keychain_data_from_mnemonic, keychain_data_from_seed"]}
{"id": "C41", "title": "Changing the password preserves the wallet", "statement": "change_password with the right password yields data that opens under the new password to exactly the same wallet; with data that does not decrypt it fails with NotEnoughData/WrongPassword and produces nothing.", "quantifier": "all data, passwords, random sources", "why_tests_cant": "unbounded", "anchors": ["keychain/src/manager.rs: change_password"]}
{"id": "C42", "title": "Adding a network adds exactly that key", "statement": "add_network returns a wallet with the same seed, mnemonic, language and other keys plus the new network's key computed from the stored secret; it fails, in this order, for an unsupported network (before the password is even checked), undecryptable data, a network already present, a wallet without stored seed, and factory errors.", "quantifier": "all data, networks, managers", "why_tests_cant": "unbounded", "anchors": ["keychain/src/manager.rs: add_network"]}
{"id": "C43", "title": "Adding networks later equals having them from the start", "statement": "For seed wallets, creating with networks A and adding the networks of B one by one (in any order) holds exactly the keys of a wallet created with A and B from the start.", "quantifier": "all factory sets, seeds, orders", "why_tests_cant": "unbounded histories", "anchors": ["keychain/src/manager.rs: add_network, new_keychain_data"]}
{"id": "C44", "title": "Histories of wallet operations refine an abstract wallet", "statement": "After any sequence of successful or failed change_password/add_network/open operations starting from a created wallet, the current data opens under exactly the abstractly tracked password with exactly the abstractly tracked secret and key map.", "quantifier": "all operation sequences, random sources, iteration orders", "why_tests_cant": "unbounded histories", "anchors": ["keychain/src/manager.rs"]}
{"id": "C45", "title": "Unknown networks survive", "statement": "Opening a wallet with a manager lacking some of its networks hides exactly those keys and fails for no other reason; change_password and add_network through such a manager keep the hidden keys unchanged.", "quantifier": "all wallets and managers", "why_tests_cant": "unbounded", "anchors": ["keychain/src/manager.rs: keychain_from_data, add_network, change_password"]}
{"id": "C46", "title": "Keychain dispatch", "statement": "Keychain pub_key/sign/verify for network n answers exactly as the key of n, wrapping its error as KeyError(n, e), and fails with KeyDoesNotExist(n) exactly when has_network(n) is false; networks() lists exactly the networks with has_network, without duplicates.", "quantifier": "all key lists, networks, paths", "why_tests_cant": "unbounded", "anchors": ["keychain/src/keychain.rs"]}
{"id": "C47", "title": "Backup returns what was stored", "statement": "retrieve_mnemonic returns exactly the phrase and language the wallet was created with, after any sequence of password changes and network additions, and SeedIsNotSaved for seed and version-1 wallets; get_keys_data returns exactly the stored key map.", "quantifier": "all wallets and histories", "why_tests_cant": "unbounded histories", "anchors": ["keychain/src/manager.rs: retrieve_mnemonic, get_keys_data"]}
{"id": "C48", "title": "Adding a network can be impossible for short phrases", "statement": "Adding a network through a manager to a phrase wallet succeeds only if the phrase has that manager's word count: a 9-word wallet of a Cardano-only manager can never get Ethereum or Bitcoin added by any manager that supports them.", "quantifier": "all phrases and built-in managers", "why_tests_cant": "all managers and phrases", "anchors": ["keychain/src/manager.rs: add_network, seed_from_data", "keychain/src/mnemonic.rs: seed_from_mnemonic"]}
{"id": "C49", "title": "C error codes identify the error class", "statement": "The C error code is a function of the Rust error class, distinct classes get distinct codes, and code -1 is used exactly for panics.", "quantifier": "all errors", "why_tests_cant": "all error payloads", "anchors": ["keychain-c/src/error.rs: ErrorPtr::error_type", "keychain-c/src/utils/panic.rs"]}
{"id": "C50", "title": "C calls write exactly one output", "statement": "Every C entry point returning bool writes the value and leaves the error untouched when it returns true, and writes the error and leaves the value untouched when it returns false; a panic inside the call is reported as false with code -1.", "quantifier": "all results and previous out-parameter contents", "why_tests_cant": "all call outcomes", "anchors": ["keychain-c/src/utils/result.rs: response", "keychain-c/src/utils/panic.rs: handle_exception_result"]}
{"id": "C51", "title": "C buffers are freed exactly once with their own layout", "statement": "For any sequence of C create/delete calls on handles that are not copied, each data buffer, string, key backup, keychain and manager is released at most once and with the layout it was allocated with, a program that deletes what it got ends with nothing allocated, deleting twice is harmless (except for strings: deleting a string twice, or a null string, is undefined behaviour) and using a deleted keychain/manager is reported as an error instead of touching freed memory.", "quantifier": "all call sequences, builds of the library", "why_tests_cant": "unbounded histories; memory errors are not deterministic", "anchors": ["keychain-c/src/utils/data.rs", "keychain-c/src/keychain_c.rs", "keychain-c/src/manager.rs", "keychain-c/src/backup.rs", "keychain-c/src/error.rs"]}
{"id": "C52", "title": "Deleting a network list uses the wrong layout", "statement": "delete_networks releases a list of n > 0 networks with a layout of 16n bytes (8-byte aligned) although it was allocated with 4n bytes (4-byte aligned): undefined behaviour for every non-empty list; for the empty list nothing is released and it is harmless.", "quantifier": "all network lists", "why_tests_cant": "undefined behaviour is not observable deterministically", "anchors": ["keychain-c/src/network.rs: NetworksPtr::free"]}
{"id": "C53", "title": "C and Rust languages agree", "statement": "The C language code and the Rust language convert into each other without loss for all eight languages and the conversion never panics.", "quantifier": "all languages", "why_tests_cant": "-", "anchors": ["keychain-c/src/manager.rs: Language::rust, From<RLanguage>", "keychain/src/mnemonic.rs: Language"]}
{"id": "C54", "title": "Error text can escape the panic guard", "statement": "A C call lets a panic out exactly when the text of its error (or of its panic) contains a NUL character. With C-string inputs an error text contains one only in two cases: wallet data naming an unknown dictionary whose name contains NUL, and adding a network to a wallet whose stored phrase contains NUL. Both cases happen.", "quantifier": "all errors and inputs", "why_tests_cant": "requires adversarial wallet data", "anchors": ["keychain-c/src/error.rs: ErrorPtr::new", "keychain-c/src/utils/panic.rs: handle_exception_result", "keychain-c/src/utils/string.rs: to_cstr"]}
{"id": "C55", "title": "Concurrent callers share the random source safely", "statement": "When several threads encrypt through one manager, in every interleaving each call receives its own disjoint, consecutive chunks of the random stream (no chunk is given to two calls) each result decrypts to that call's plaintext and is the result the call alone would have with those bytes; no execution deadlocks or runs forever; if the random source fails, no call ever returns data made without random bytes.", "quantifier": "all numbers of threads and all interleavings", "why_tests_cant": "schedules cannot be enumerated", "anchors": ["keychain/src/entropy.rs: OsEntropy::fill_bytes", "keychain/src/crypt.rs: encrypt"]}
{"id": "C56", "title": "Results do not depend on hash-map order", "statement": "Wallet creation, opening, add_network and backup give the same result up to the order of listed networks for every iteration order of the internal hash maps; on failure only which of several failing networks is reported may differ.", "quantifier": "all iteration orders", "why_tests_cant": "iteration order is random per process", "anchors": ["keychain/src/manager.rs", "keychain/src/keychain.rs", "keychain/src/data.rs: se_key_map"]}
{"id": "C57", "title": "Size tables agree", "statement": "For every supported type, entropy bits + checksum bits = 11 * words and checksum bits = entropy bits / 32; the conversions from word count, entropy size and decimal text are exactly inverse to the ones back, and reject everything else. The texts are 9, 12, 15, 18, 21 and 24.", "quantifier": "all usize values and strings", "why_tests_cant": "all inputs", "anchors": ["bip39/src/bip39.rs: Type"]}
{"id": "C58", "title": "Which wallet operations can panic", "statement": "Creating a wallet and adding a network through a manager of built-in networks never panics for any input; opening panics only when the stored Cardano key has more than 96 bytes (and does so then unless another key is rejected), which authenticated but malformed data can contain.", "quantifier": "all inputs, random sources and iteration orders", "why_tests_cant": "attacker-controlled data", "anchors": ["keychain/src/manager.rs: keychain_from_data", "keychain/src/networks/cardano/key.rs: from_data"]}
{"id": "C59", "title": "Base64 of the stored data", "statement": "The decoder used for stored wallets accepts for some bytes exactly the texts of RFC 4648 section 4 (standard alphabet, six-bit groups covering the bits, '=' padding), up to the two liberties (non-zero left-over bits, missing padding) that its configuration grants; the encoder produces the one canonical text.", "quantifier": "all byte strings, all texts, all four decoder configurations", "why_tests_cant": "all texts, including every malformed one", "anchors": ["keychain/src/data.rs:75"]}
{"id": "C60", "title": "Each C function computes what its Rust function computes", "statement": "For every exported function with a result, in every state a contract-respecting C program can reach: if the Rust function behind it returns a value for the values that the arguments stand for, the call returns true and its out-parameter stands for that value (pointer, length or count, elements, language); if it returns an error, the call returns false with the error's class number and text; null handles, C strings that are not UTF-8 and phrases containing NUL count as panics and are reported with -1; there is no other case.", "quantifier": "all functions, arguments, states, random bytes and hash orders, builds of the library", "why_tests_cant": "all arguments and program histories", "anchors": ["keychain-c/src/manager.rs", "keychain-c/src/keychain_c.rs", "keychain-c/src/backup.rs", "keychain-c/src/network.rs", "keychain-c/src/key_path.rs", "keychain-c/src/bitcoin.rs", "keychain-c/src/cardano.rs", "keychain-c/src/ethereum.rs", "keychain-c/src/utils"]}
{"id": "C61", "title": "UTF-8, big-endian and decimal encodings", "statement": "The byte strings accepted as Rust strings are exactly the UTF-8 forms of texts of Unicode scalar values as RFC 3629 defines them, and the text is the one they encode; to_be_bytes/from_be_bytes are the big-endian base-256 digits; numbers are printed as their decimal numeral without leading zeros.", "quantifier": "all byte strings, texts, widths, and numbers up to the largest usize", "why_tests_cant": "2^64 numbers, all texts", "anchors": ["secp256k1_bip32/src/private.rs:75", "secp256k1_bip32/src/private.rs:122", "keychain/src/key_path.rs: Display", "keychain-c/src/utils"]}
{"id": "C62", "title": "Words of the eight dictionaries", "statement": "Every word of a language is written in its script (decomposed accents only), Chinese words are single characters, first and last words are those of the published lists; in English, French, Italian and Spanish the first four unaccented letters identify the word; a word or whole phrase that two languages both accept is either Chinese in both and then stands for the same indices, or English and French and then stands for different indices at every word.", "quantifier": "all words, word pairs and phrases of all pairs of languages", "why_tests_cant": "all pairs among 16384 words; all phrases", "anchors": ["bip39/src/dicts", "bip39/src/bip39.rs:820-829"]}
{"id": "C63", "title": "Exactly which documents are wallet data", "statement": "Reading the envelope succeeds with a version and content exactly if the bytes are, with white space around, a JSON object (RFC 8259) in which \"version\" and \"data\" each occur once, with the number 1 or 2 and a base64 string of the content, other members being any JSON values, in any order; or a JSON array of those two values. Reading the content succeeds with a wallet exactly if it is a JSON object with \"seed\" (base64 or null) and \"keys\" once and \"mnemonic\" and \"dictionary\" at most once and null or missing meaning none (version 2), or with \"keys\" once (version 1), or an array of these; of several entries for one network the last counts.", "quantifier": "all byte strings, versions, wallets", "why_tests_cant": "all byte strings: every escape, white space, member order, nesting", "anchors": ["keychain/src/data.rs:7-66", "keychain/src/data.rs:69-110"]}
{"id": "C64", "title": "Every error prints as its format string, and the text tells the error", "statement": "The text of every error is the format string written in the sources with its holes filled, in order, by the values the error carries. The text always tells which variant of Error it is; for errors of the built-in networks it tells the whole error. The text for a phrase with too many words says \"too short\".", "quantifier": "all errors with all values, all texts of the libraries quoted in them", "why_tests_cant": "The C callers see nothing but the text; that no two of the unboundedly many errors share one is a statement about all pairs of errors.", "anchors": ["keychain/src/error.rs:26-45", "keychain/src/key.rs:19-34", "keychain/src/key_path.rs:25-49", "keychain/src/mnemonic.rs:50-63", "bip39/src/bip39.rs:89-104", "secp256k1_bip32/src/error.rs:20-40", "keychain/src/networks/cardano/key.rs:22-30", "keychain/src/network.rs:25-29"]}
{"id": "C65", "title": "Entropy and phrases of any size", "statement": "generate_entropy takes exactly size/8 bytes from the random source for the six sizes (96, 128, 160, 192, 224 and 256 bits) and refuses every other size by name without taking any. mnemonic_from_entropy gives the BIP-39 sentence of the bytes for the six lengths and an error naming the length in bits otherwise; different entropy never gives the same phrase in a language. A manager with any seed size, also an odd one, generates phrases accordingly.", "quantifier": "all sizes, random sources, byte strings, languages, managers, hash functions with 32-byte output", "why_tests_cant": "Injectivity is a statement about all pairs of byte strings up to 32 bytes; sizes outside the six are unbounded.", "anchors": ["keychain/src/mnemonic.rs:82-92", "bip39/src/bip39.rs:328-357", "keychain/src/manager.rs:49-53"]}
{"id": "C66", "title": "What Bitcoin and Ethereum keys sign and verify", "statement": "The key at a path signs the Keccak-256 hash of the data with the BIP-32 child key: r and s as 32 big-endian bytes each and the recovery number, which must be 0 or 1; what fails is named. Verifying takes 64 bytes, reduces both numbers modulo the group order and asks the curve about the same hash and the child's public key; any other length is refused by name. So signatures have more than one accepted encoding.", "quantifier": "all keys, paths, data, signatures, all curve and hash primitives", "why_tests_cant": "Failures of signing and recovery numbers above 1 do not occur in any feasible test; the encodings at or above the group order are a fraction of about 2^-128.", "anchors": ["secp256k1_bip32/src/private.rs:139-159", "secp256k1_bip32/src/public.rs:22-36", "keychain/src/key.rs:36-63"]}
{"id": "C67", "title": "A wallet's keys are those of the standards, through its whole life", "statement": "Take a wallet made by a manager of built-in networks from a phrase or a seed, then any sequence of password changes, added networks and openings through such managers. Opened with its current password by any manager of built-in networks, it has every network it started with that the manager supports, and for every network and every path obeying the network's rules it gives the public key, the signatures and the verdicts on signatures that another wallet computes: the BIP-39 seed of the phrase (PBKDF2 of its text with salt \"mnemonic\", 2048 rounds, 64 bytes), the BIP-32 master key and the BIP-32 child at the path for Bitcoin and Ethereum; for Cardano the extended key made of the clamped SHA-512 of the seed's first half and the second half, derived along the path. Opening succeeds whenever BIP-32 defines the key at m/44'/60' or Ethereum is not asked for. The same holds when wrong passwords occur in the history, if the authentication tells the passwords apart.", "quantifier": "all phrases, seeds, languages, passwords, histories, managers, paths, messages, iteration orders, random sources, primitives with outputs of the right size", "why_tests_cant": "Tests compare a few keys with recorded values right after creation; they cannot cover all paths after all histories of password changes and additions, and the pieces (phrase, storage, loading in advance, derivation, signing) are tested apart.", "anchors": ["keychain/src/manager.rs:55-210", "keychain/src/keychain.rs:12-51", "keychain/src/networks/bitcoin/key.rs:14-64", "keychain/src/networks/ethereum/key.rs:14-68", "keychain/src/networks/cardano/key.rs:49-139", "secp256k1_bip32/src/private.rs:53-224"]}
{"id": "C68", "title": "Phrases in a caller's own language", "statement": "The phrase functions take any implementation of the trait Language: a separator and two lookups. Reading a text cuts it at the leftmost separators (in one way only), looks the pieces up in turn, reports the first that is not known and then a wrong number of words. Writing puts the words together with the separator and panics for an index without a word. A written phrase is read back exactly when its words can be told apart, that is, when the separator first occurs after each word, not across its end; this holds when no word shares a character with the separator, and for a separator of one character only then. A text that is read is the text that would be written. Entropy survives the way through such a language. A checked phrase keeps the given spelling. With an empty separator the empty word is looked up first and last. The built-in dictionaries are a special case. It is false that a separator which occurs in no word suffices: two different phrases can have the same text; and without a separator a written phrase cannot be read.", "quantifier": "all languages (separators of any length, lookups that succeed, fail or panic), texts, lists of indexes, entropies", "why_tests_cant": "The tests use the built-in dictionaries with the space as separator only; the trait is public and every other language is a new program.", "anchors": ["bip39/src/bip39.rs:884-926", "bip39/src/bip39.rs:794-829", "bip39/src/bip39.rs:548-555"]}
{"id": "C69", "title": "Builds with some of the networks", "statement": "For every choice of the features cardano, ethereum and bitcoin: Network::all lists exactly the networks of the build, once each, in the order of the factories. A manager asked for some networks has those of them that the build has, and is the same manager that a build with all networks makes when asked for these only; without any common network it is refused with sizes 0 and usize::MAX. Phrases have twelve words when Bitcoin or Ethereum is among them, nine otherwise. The default features give all three networks. A network missing from a wallet made from a phrase is added by another build exactly when both programs have phrases of the same length (and BIP-32 has a master key where one is needed); otherwise the error says that nine words are too short for twelve or twelve too long for nine. To a wallet made from a seed it can always be added. The header keychain_build_config.h defines exactly the macros of the features that the C library is built with.", "quantifier": "all feature sets of both builds, lists of networks, phrases, seeds, languages, passwords, iteration orders, random sources, primitives", "why_tests_cant": "The tests run with one set of features, so the other builds and wallets that pass between builds are never run.", "anchors": ["keychain/Cargo.toml:35-53", "keychain/src/networks/mod.rs:12-27", "keychain/src/network.rs:7-22", "keychain/src/manager.rs:21-34", "keychain/src/manager.rs:88-112", "keychain-c/build.rs:16-32"]}
{"id": "C70", "title": "Raw C arguments: pointers, lengths, numbers and references", "statement": "A slice argument is exactly the bytes at its pointer, a string argument the bytes before the first NUL; if the bytes or the NUL are not there (null pointer, released or foreign memory, length too long), making it is undefined, for the null pointer and for released memory even with the length zero. A call looks at its references, enum numbers, slices, object and strings in this order, and the first that is not fine decides: invalid memory, a null reference or a number without meaning is undefined, a null manager or keychain or a string that is not UTF-8 is reported as a panic; if all are fine the call is the call on the bytes they lead to (C60). A C program that passes valid arguments never has undefined behaviour and can release everything. Every non-null result (data, backup elements, strings, phrases, error messages) can be passed back to the library as an argument and is read with the contents it stands for; after a delete no pointer into the released allocations is valid and every other pointer reads as before. That an empty message may be the null pointer is refuted.", "quantifier": "all functions, raw arguments, heaps, memories of the caller, programs of calls, deletes, writes and releases, environments, primitives, builds of the library", "why_tests_cant": "The tests are in Rust and pass valid arguments; undefined behaviour is not an outcome that a test can observe.", "anchors": ["keychain-c/src/manager.rs:62-161", "keychain-c/src/backup.rs:83-111", "keychain-c/src/keychain_c.rs:34-75", "keychain-c/src/key_path.rs:48-58", "keychain-c/src/utils/string.rs:7-37", "keychain-c/src/utils/data.rs:1-43", "keychain-c/src/utils/result.rs:1-20"]}
{"id": "C71", "title": "Wallets used from C, from end to end", "statement": "For every build of the C library (any of its networks): wallet data that was made from a phrase or a seed by the C functions of any build or by a Rust program with built-in networks, and then passed through any sequence of successful password changes and additions of networks from either side, behaves in every state of every C program as the standards prescribe for the phrase or seed: opening it with the current password succeeds whenever BIP-32 defines m/44'/60' or Ethereum is missing from the wallet or the build; the keychain, in any later state, lists exactly the networks that the wallet and the build share, gives for them and every path the network allows the public keys, signatures and verdicts of the BIP-32 or Cardano key at that path, and refuses other paths with code 9 and other networks with code 6; the phrase and its language come back unchanged, a seed does not come back (code 2); a backup of the keys has each network once with the standard key bytes; the password can always be changed; adding a network succeeds or fails with codes 7, 8, 9 or 11 in exactly characterised cases. A manager can be made in every build with a network, otherwise it is refused with code 3. Generated phrases are accepted; phrases and seeds are accepted exactly when they have twelve words of the language (nine in a build with Cardano only) or 64 bytes and BIP-32 has a master key (needed unless the build has Cardano only), and are otherwise refused with codes 11, 5 or 9. Every function that reads data refuses any data of at most 60 bytes with code 1 and any longer data that was not encrypted with the given password with code 0.", "quantifier": "all builds, C and Rust programs, states, environments, phrases, seeds, passwords, languages, networks, paths, messages, primitives", "why_tests_cant": "The C functions are not tested, and a test runs one wallet through one history.", "anchors": ["keychain-c/src/manager.rs:62-161", "keychain-c/src/backup.rs:83-111", "keychain-c/src/keychain_c.rs:34-75", "keychain/src/manager.rs:21-135", "keychain/src/keychain.rs:14-52"]}
{"id": "C72", "title": "Values of the bip39 crate", "statement": "The six-variant Entropy enum behaves as the type-and-bytes record used elsewhere: a slice of 12, 16, 20, 24, 28 or 32 bytes becomes the variant holding exactly these bytes and any other size is refused with its number of bits; generation fills the whole array from the source and takes no more. Display and Debug of Entropy and Seed print all bytes as lower-case hexadecimal, which reads back as the same value, and different values print differently. The derived order of Entropy is total: first the number of words, then the value as a big-endian number; Type is ordered by its number of words and defaults to 18. Dropping an Entropy or a Seed zeroes all its bytes. However, conversion to and from words frees vectors that still begin with the entropy. The source of a bip39 error is present exactly for dictionary errors and names the word, and the texts of the dictionary, hex and decryption errors are their format strings filled in.", "quantifier": "all entropy values, slices, types, random sources, seeds, word lists, errors, primitives", "why_tests_cant": "The tests print and compare no values and never look at memory after a drop; a test shows single values, not that printing is injective or the order total.", "anchors": ["bip39/src/bip39.rs:110-117", "bip39/src/bip39.rs:128-217", "bip39/src/bip39.rs:291-398", "bip39/src/bip39.rs:487-517", "bip39/src/bip39.rs:651-655", "bip39/src/bip39.rs:867-875", "bip39/src/util/securemem.rs:4-12", "bip39/src/util/hex.rs:25-31", "keychain/src/crypt.rs:33-40"]}
{"id": "C73", "title": "What the width of usize changes", "statement": "On a target with usize of any width and in either profile, entropy from a slice and the reader's size are as on 64 bits whenever the number of bits of the slice is a usize. A longer slice panics in debug builds, while a release build takes it for its first bytes, the length modulo an eighth of the usize range, so that on 32 bits a slice of 2^29 + 12 bytes is accepted as 12 bytes of entropy. The sizes in words (min_words, max_words and the words a manager demands) never overflow; a manager demands exactly the largest min_words of its factories and no more than any of their max_words. The seed size of a manager does not depend on the target; without factories the error shows the target's usize::MAX. For every reader of 11-bit groups, of any length and state, the number of groups left is given exactly on every target: modulo the range in release builds, a panic in debug builds if it is out of range.", "quantifier": "all widths of usize, profiles, slices, readers, seed sizes, lists of factories", "why_tests_cant": "Tests run on one target, and no test has a slice of half a gigabyte.", "anchors": ["bip39/src/bip39.rs:146-149", "bip39/src/util/bits.rs:147-149", "keychain/src/key_factory.rs:10-18", "keychain/src/mnemonic.rs:99", "keychain/src/manager.rs:142-153"]}
{"id": "C74", "title": "The standard algorithms meet what is assumed of the external crates", "statement": "SHA-256, SHA-512, Keccak-256, RIPEMD-160, HMAC, PBKDF2, ChaCha20-Poly1305, deterministic low-s ECDSA over secp256k1 and extended-key ed25519, written out from their standards, meet the assumption prims_ok under which the other theorems are proved. So wallets made with them answer as BIP-39, BIP-32 and BIP-44 prescribe whatever is done to the wallet, and each Bitcoin or Ethereum signature is r, s, v with 0 < r < n, 0 < s <= n/2 and v < 2. With SHA-256 the model gives the phrases of the repository's own test vectors.", "quantifier": "all inputs of the algorithms, wallets, histories, keys and messages", "why_tests_cant": "The repository's tests cover 48 phrases and no signature, and say nothing about the sizes and ranges of the outputs on other inputs.", "anchors": ["bip39/src/bip39.rs:1030-1078", "bip39/src/test_vectors/bip39_english.txt", "bip39/src/test_vectors/bip39_japanese.txt", "secp256k1_bip32/src/private.rs:84-159", "keychain/src/crypt.rs:44-101"]}
{"id": "C75", "title": "Key paths whose getters are arbitrary code", "statement": "Keys take any implementation of the trait KeyPath and call its getters several times. The rules for purpose, coin, account, change and address are checked on the first answers (Bitcoin does not check the purpose), and the private key is derived from later answers, so the rules are not enforced on the path that is used: for each path there is an object that passes the checks and gets the Bitcoin key at all five of its values, and the Ethereum and Cardano keys at its account, change and address. An error names a later answer than the one found bad, which may be a good one. Objects that always give the same answers get what the other properties say. Which question comes next depends only on the answers so far. A getter's panic ends the call at that question; a call asks at most ten questions, none if the keychain lacks the network or, for Cardano, if the signature to verify has the wrong length.", "quantifier": "all path objects (answers depending on all questions before, or panicking), keys, messages, signatures, keychains, primitives", "why_tests_cant": "The tests only pass the repository's own path types, whose getters are constant; no test can range over implementations of a trait.", "anchors": ["keychain/src/key_path.rs:53-59", "keychain/src/networks/bitcoin/key.rs", "keychain/src/networks/ethereum/key.rs", "keychain/src/networks/cardano/key.rs", "keychain/src/keychain.rs:26-51"]}
{"id": "C76", "title": "C programs when the random source fails", "statement": "Five exported functions need random bytes: 16 for a new phrase (12 in a build with Cardano only), 44 for new or re-encrypted data. Such a call that would fail for another reason fails for that reason, whatever the source does. Otherwise it succeeds if its manager is usable and the source gives that many bytes, with the same result as in a world without failures; if the source fails within them, or has failed before in a call on this manager, the call reports error -1 with the message of the panic and changes nothing else; the manager is then unusable for these five functions for good, even if the source works again. Its other functions, other managers, keychains and the delete functions are not affected, and a new manager is usable. Failures lead to no program state that is not reachable without them, and to neither undefined behaviour nor leaks.", "quantifier": "all builds, all programs of C calls and deletes that respect the contract, all behaviours of the source in each call, all primitives", "why_tests_cant": "The operating system's random source does not fail in tests, and the tests have no way to inject a failure at a chosen byte of a chosen call.", "anchors": ["keychain/src/entropy.rs:7-24", "keychain-c/src/manager.rs:77-160", "keychain-c/src/utils/panic.rs", "keychain/src/crypt.rs: encrypt"]}
{"id": "C77", "title": "C programs with threads", "statement": "Several threads of a C program call and delete as the contract for one thread permits; in addition, no thread writes or deletes a variable that a call of another thread, not yet ended, writes or uses as its manager or keychain, and no thread begins a call with a manager or keychain variable that such a call writes. Then, in whatever order the steps of the threads come: variables and memory are always those of the finished calls and deletes made one after the other without threads, in the order in which they ended (each thread's own order is kept), each call with the bytes it got from the source; there is neither undefined behaviour nor a leak; at most one thread at a time is in the random source of a manager; a call fails in the random source, reporting -1 and changing nothing else, only if the source has failed in a call with the same manager; a call that meets no other behaves as without threads; a thread waits only while another is in the random source of the same manager; there is no deadlock, no call goes on for ever, and from every state all calls that have begun can be finished. If a manager or keychain is deleted while a call of another thread uses it, the next step of the call is undefined behaviour, unless the call only reports a panic.", "quantifier": "all builds, any number of threads, all sequences of steps, all calls and arguments, all behaviours of the source in each call, all primitives", "why_tests_cant": "The number of interleavings is unbounded, schedules cannot be chosen from a test, and the tests of the C library have one thread; a use after free in another thread shows up rarely or never.", "anchors": ["keychain/src/entropy.rs:7-24", "keychain-c/src/manager.rs:77-160", "keychain-c/src/utils/panic.rs", "keychain-c/src/utils/result.rs", "keychain-c/src/keychain_c.rs"]}
{"id": "C78", "title": "Threads that pass pointers", "statement": "Several threads of a C program pass raw arguments - pointers into the library's buffers and texts or into the program's own memory, lengths, numbers, references to variables - and change and release their own memory meanwhile. If the arguments are valid (C70), the contract of C77 is kept, and no thread deletes, writes or releases memory into which the arguments of a call point that has not ended, then every execution is an execution of C77 in which each call has the values its arguments led to when it began, exactly one such; the arguments of a call lead to these same values until it ends; there is neither undefined behaviour nor a leak; and all calls that have begun can be finished, after which no memory is in use. Otherwise: beginning a call is undefined exactly if a reference is null or the arguments lead to nothing; writing or releasing own memory exactly if a call that is going on points into it; and after the library's memory that a call points into has been deleted, the next step of the call is undefined.", "quantifier": "all builds, any number of threads, all sequences of steps, all raw arguments and contents of the program's memory, all behaviours of the source, all primitives", "why_tests_cant": "Needs all interleavings and all aliasings of pointers, including a buffer of the library that one thread got and another passes; a data race or a use after free is rarely visible in a test.", "anchors": ["keychain-c/src/manager.rs", "keychain-c/src/backup.rs", "keychain-c/src/keychain_c.rs", "keychain-c/src/utils/data.rs", "keychain-c/src/utils/string.rs", "keychain-c/src/utils/panic.rs"]}
{"id": "C79", "title": "Networks whose code is the caller's own", "statement": "With the feature custom-networks the factories and keys are the caller's own objects, whose methods may answer differently from call to call, fail or panic. Making a manager asks every factory once for its sizes and then once for its network, in the order given, and gives exactly the manager (or error) of these answers, a later factory replacing an earlier one of the same network. Creating a wallet without a usable secret asks nothing; otherwise every registered factory is asked for its key data and then for its network, until one fails, and the wallet holds for every network answered the last data given for it; the error of a failing factory is named by the network it answers then. Opening asks nothing unless the password opens the data; then the factory registered for each stored network makes the key from exactly the stored data, and each key is filed under the network it answers itself. Adding a network asks exactly the registered factory, once, and only if the network is new and the secret usable. Using a keychain asks the one key. The seed reaches registered factories only and a stored key only the factory of its network; no code of the caller runs after random bytes are drawn, and none are drawn unless the operation succeeds; a panic is always that of the method called last. Objects that always answer alike behave as the managers of C35 to C48. Refuted: that a wallet just created opens to the networks of its manager, and that its keys do not depend on the order of the factories.", "quantifier": "all behaviours of the caller's factories, keys and random source, given everything asked so far; all managers, wallets, passwords, orders of hash maps, primitives", "why_tests_cant": "The caller's code is arbitrary and stateful; the claims are about every sequence of answers and every point of failure, with every iteration order of the factories.", "anchors": ["keychain/src/manager.rs", "keychain/src/keychain.rs", "keychain/src/key_factory.rs", "keychain/src/key.rs", "keychain/src/entropy.rs", "keychain/src/crypt.rs", "bip39/src/bip39.rs"]}
{"id": "C80", "title": "Languages that are arbitrary code", "statement": "bip39 takes any implementation of the trait Language. Reading a text calls separator once, then lookup_mnemonic for the pieces from left to right until one fails or panics, and only then looks at the number of words; checking a phrase makes the same calls and keeps the text as given. Writing asks for the separator anew before every word but the first, and panics if an index has no word. The name is never asked for, and the outcome is a function of the answers. Code that always answers the same is a language of C68. Indices from 2048 on, which lookup_mnemonic may return, are reduced modulo 2048 when entropy is made of them, and are undefined behaviour when written in a built-in language. Not guaranteed: that a checked phrase passes the check again, that what is written can be read even if the words never change and share no character with the separators, and that safe code is free of undefined behaviour. Generated entropy is what the closure leaves of as many zero bytes as the type has.", "quantifier": "all implementations of Language (answers depending on all calls before, or panicking), texts, lists of indices, closures, primitives", "why_tests_cant": "The tests only use the built-in dictionaries; no test can range over implementations of a trait.", "anchors": ["bip39/src/bip39.rs:884-889", "bip39/src/bip39.rs:794-840", "bip39/src/bip39.rs:732-754", "bip39/src/bip39.rs:548-555", "bip39/src/bip39.rs:167-177"]}
{"id": "C81", "title": "JSON of single values", "statement": "With the feature generic-serialization the bip39 crate derives Serialize and Deserialize for MnemonicString, Type, dictionary::Error and hex::Error; keychain does so for Network and Language. Through serde_json each is read from exactly the texts of a given grammar (a string; a variant's name or an object with one member; a number within the type's range; white space around) and from no others; reading never panics; a rejection names an unknown variant exactly if the text starts with a string, or a brace and a string, that is no variant's name. Each value is written as one given text and is read back from it. Not guaranteed: that a MnemonicString has been validated against a dictionary - every string can be read as one, also strings that MnemonicString::new refuses with every dictionary.", "quantifier": "all byte strings as input, all values of the types, all dictionaries, both readings of -0 that serde_json may have", "why_tests_cant": "No test enables the feature; exactness over all inputs is out of reach of tests, and the guarantee in the documentation fails only on a path no test takes.", "anchors": ["bip39/src/bip39.rs:519-526", "bip39/src/bip39.rs:584-592", "bip39/src/bip39.rs:862-866", "bip39/src/util/hex.rs:19-24", "bip39/Cargo.toml:26", "keychain/src/network.rs:3-4", "keychain/src/mnemonic.rs:7-17"]}
{"id": "C82", "title": "secp256k1 keys and signatures on the curve", "statement": "With the published secp256k1 in place of the crate: the curve is a group whose generator has prime order n; the public key at a path is that multiple of the generator by the derived secret, and different secrets have different public keys; a Bitcoin or Ethereum key accepts (r, s) exactly if it is a valid ECDSA signature (SEC 1) over the Keccak-256 hash under that public key, equivalently if some nonce and the secret make it; every signature the key makes is such a one, with s at most n/2 and a recovery number that determines the key, made with the first usable nonce of RFC 6979 (HMAC-SHA256 over the secret and the reduced hash) or its negative; signing fails only if the first hundred nonces are unusable; the key accepts all of its own signatures without the recovery byte. Not guaranteed: that only one s is accepted - with (r, s) also (r, n - s) is.", "quantifier": "all secrets, messages, points of the curve, values of r and s, paths and stored keys", "why_tests_cant": "Tests compare a few vectors; that no other signature is accepted and none of the own ones refused ranges over all keys and messages and rests on the group law.", "anchors": ["secp256k1_bip32/src/public.rs:22-37", "secp256k1_bip32/src/private.rs:111-160", "keychain/src/networks/bitcoin/key.rs:50-70", "keychain/src/networks/ethereum/key.rs:48-68"]}
{"id": "C83", "title": "ed25519 keys and signatures on the curve", "statement": "With the published ed25519 in place of the crate: the curve is a group whose only base point has prime order L; a Cardano public key starts with the encoding of the multiple of the base point by the derived secret, and two keys share it exactly if their secrets agree modulo L; a Cardano key accepts 64 bytes exactly if they are a valid signature of RFC 8032 (cofactorless) under that point; every signature it makes is one, made as RFC 8032 says from the second 32 bytes of the key as nonce prefix, and is accepted.", "quantifier": "all extended keys, messages, byte strings as signatures, paths", "why_tests_cant": "Tests compare a few vectors; exactness over all keys, messages and byte strings rests on the group law and on the order of the base point.", "anchors": ["keychain/src/networks/cardano/key.rs:49-138"]}
{"id": "C84", "title": "Public keys of children", "statement": "The public key of a BIP-32 child is the parent's public key plus the point of the left half of the hash; for an index below 2^31 the child's key pair depends on the parent's public key and chain code only. For Cardano keys the child's public key is the parent's plus 8 times the 28-byte number times the base point as long as the secret is below 2^255, which holds on all paths of a loaded key; for an index below 2^31 the child's public key and chain code depend only on those of the parent, even for parents with different secrets. All 96 bytes of a Cardano child are as BIP32-Ed25519 says: secret plus 8 times the 28-byte number, nonce prefix plus the second half of the hash, both modulo 2^256, and the second half of the other hash as chain code.", "quantifier": "all extended keys, all indices, all paths of up to five steps below a loaded Cardano key", "why_tests_cant": "Tests derive from a few keys with the private key in hand; agreement with derivation from public keys for every key is a theorem of the curve.", "anchors": ["secp256k1_bip32/src/private.rs:161-200", "keychain/src/networks/cardano/key.rs:34-110"]}
{"id": "C85", "title": "The tag of a stored wallet and how well it protects it", "statement": "With ChaCha20-Poly1305 by its standard in place of the crate: stored data open with a password exactly if they are longer than 60 bytes and carry at bytes 44 to 60 the tag of RFC 8439 (the value of a polynomial modulo 2^130 - 5 at r, plus s) over the rest, under the one-time key (r, s) of the password, salt and nonce. Two different messages have two given tags under at most 8 times as many r as the longer has 16-byte blocks, out of the 2^106 that exist. So for a wallet and any altered wallet with the same salt and nonce, among passwords whose r differ pairwise at most 8 * (ceil((n - 60) / 16) + 1) accept both, for each operation that takes stored data; in particular another tag for the same bytes is never accepted.", "quantifier": "all keys, nonces, ciphertexts, messages, tags, stored byte strings, lists of passwords, managers", "why_tests_cant": "Tests flip a few bytes under one password; the bound counts over all one-time keys for every pair of messages and rests on the number of roots of polynomials modulo a prime.", "anchors": ["keychain/src/crypt.rs:44-101", "keychain/src/manager.rs:66-129"]}
{"id": "C86", "title": "What {:?} prints, and what it gives away", "statement": "Every error of the library prints under {:?} as the Rust value it is: the name of the variant with its numbers in decimal and its strings quoted and escaped, nested errors inside, a boxed error as the error in the box. The same for networks, key paths (the numbers kept, hardened ones with the offset), seed sizes, languages, phrase types, word numbers, phrases and versioned data. Different errors of the library print differently, whatever strings they hold; only errors of custom networks and of serde_json may print as others do, and the text does not tell the error's type. Texts of phrases, word numbers and paths tell the value, and for paths also the network. The text of versioned data tells the whole wallet inside (seed, phrase, keys), and an accepted phrase stands in its text word for word: printing either gives the secret away.", "quantifier": "all errors, strings, numbers, paths, phrases, wallets, tables of unescaped characters, versions of the standard library", "why_tests_cant": "That no two errors or values share a text is about all pairs, with strings that contain quotes, commas, parentheses and escapes.", "anchors": ["keychain/src/error.rs:10-24", "keychain/src/key.rs:9-17", "keychain/src/key_path.rs:12-23", "keychain/src/mnemonic.rs:7-48", "keychain/src/data.rs:9-43", "keychain/src/networks/bitcoin/key_path.rs:6-22", "bip39/src/bip39.rs:60-88", "bip39/src/bip39.rs:524-526", "bip39/src/bip39.rs:692-693", "bip39/src/bip39.rs:769-770", "secp256k1_bip32/src/error.rs:5-18"]}
{"id": "C87", "title": "Comparing phrases, word numbers and errors", "statement": "The derived comparison of MnemonicString and of dictionary errors, which compares the bytes of UTF-8, is a total order and is the alphabetical order of the characters' numbers; equality holds exactly for equal strings. Word numbers and positions of hex errors compare as numbers; Mnemonics and bip39 errors are equal exactly if they are the same. In English, Italian and Korean, whose lists are sorted, accepted phrases compare as their sequences of word numbers do, and phrases made from entropy of the same size compare as the entropy does as a number, so sorting phrases reveals the order of the secrets. In the five other languages phrases can be in the opposite order of their word numbers, and a phrase of fewer words can come after one of more words, unlike the entropy values.", "quantifier": "all strings, phrases, languages, entropy values, errors, primitives", "why_tests_cant": "No test compares phrases; that the order is total and agrees with word numbers and entropy is about all pairs, and depends on every word of each list.", "anchors": ["bip39/src/bip39.rs:60-88", "bip39/src/bip39.rs:524-526", "bip39/src/bip39.rs:692-693", "bip39/src/bip39.rs:769-770", "bip39/src/bip39.rs:861-866", "bip39/src/util/hex.rs:18-24", "bip39/src/dicts"]}
{"id": "C88", "title": "How many phrases have the right checksum", "statement": "Entropy::from_mnemonics accepts exactly the sentences whose checksum is that of their own entropy. For any words before it, exactly 2^(11 - n/3) of the 2048 last words of a sentence of n words are accepted (256 for 9 words, 128 for 12, 8 for 24), one for each value of the last word's bits that belong to the entropy; so a change confined to the checksum bits is always detected, and the error InvalidChecksum(computed, found) tells the last word that would be right. In all, 2^(32 n/3) of the 2048^n sentences are right. Since a wallet is made without checking (C38), each of the 2048 last words gives a wallet.", "quantifier": "all hash functions, sentences of every supported length, languages, seed sizes", "why_tests_cant": "The number holds for every one of 2048^8 to 2048^23 beginnings and every hash; a test tries single phrases.", "anchors": ["bip39/src/bip39.rs:60-88", "bip39/src/bip39.rs: Entropy::from_mnemonics", "keychain/src/mnemonic.rs:94-109"]}
{"id": "C89", "title": "Phrases are accepted only in Unicode's form NFKD", "statement": "The code never normalises phrases, though BIP-39 hashes them in the normal form NFKD. This is sound: every phrase accepted, in any language, is in this form already (no character that decomposes, combining marks in order). A phrase with a composed character, or with any character other than the space that is outside the language's script (capitals, digits, line ends, wide spaces), is refused with an unknown word, by the parser and when making a seed. So spellings that Unicode calls equivalent are not treated alike: composed refused, decomposed accepted.", "quantifier": "all texts, languages, seed sizes, primitives, and all Unicode tables that agree on the scripts of the word lists", "why_tests_cant": "The repository's tests normalise with another crate before calling the code; the claim is about every text a user may type.", "anchors": ["bip39/src/bip39.rs:850-900", "bip39/src/dicts/*.txt", "keychain/src/mnemonic.rs:94-109"]}
