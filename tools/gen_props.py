#!/usr/bin/env python3
# Regenerates properties.jsonl.
import json
P=[]
def p(title,statement,quantifier,why,anchors):
    P.append(dict(id="C%02d"%(len(P)+1),title=title,statement=statement,quantifier=quantifier,why_tests_cant=why,anchors=anchors))
B="bip39/src/bip39.rs"; BITS="bip39/src/util/bits.rs"; K="keychain/src/"; N="keychain/src/networks/"; S="secp256k1_bip32/src/"; C="keychain-c/src/"
p("11-bit writer lays bits out big-endian",
  "Writing any sequence of 16-bit values with BitWriterBy11 yields exactly the big-endian concatenation of the low 11 bits of each value, zero-padded on the right to a whole number of bytes; no write ever panics.",
  "every sequence of u16 values, of any length","the writer is an 8-state machine over unbounded input; tests use one fixed sequence",[BITS+": BitWriterBy11::write, to_bytes"])
p("11-bit reader returns consecutive 11-bit groups",
  "BitReaderBy11 over a byte buffer returns, at the k-th read, bits 11k..11k+10 of the buffer, always a value below 2048; a read panics exactly when fewer than 11 bits remain, and size() is always the number of reads still possible (its subtraction never underflows).",
  "every byte buffer and every number of reads","boundary behaviour depends on all 8 alignments and every buffer length",[BITS+": BitReaderBy11::read, size"])
p("Reader inverts writer","Reading back from the bytes of a BitWriterBy11 returns the written values reduced to 11 bits, in order.",
  "every sequence of u16 values","needs induction over sequence length",[BITS+": BitWriterBy11, BitReaderBy11"])
p("Entropy to mnemonic follows BIP-39",
  "For entropy of each supported size, to_mnemonics never panics and returns exactly the words whose 11-bit indices, concatenated, are the entropy bits followed by the first (size/32) bits of its SHA-256.",
  "every entropy value of the six sizes, for every 32-byte hash function","2^96..2^256 inputs",[B+": Entropy::to_mnemonics, hash, checksum"])
p("Entropy survives the mnemonic round trip","from_mnemonics(to_mnemonics(e)) returns e for every entropy value.","every entropy value of the six sizes","2^96..2^256 inputs",[B+": Entropy::from_mnemonics, to_mnemonics"])
p("Mnemonic checksum acceptance is exact",
  "Entropy::from_mnemonics accepts a list of in-range indices exactly when its checksum bits are those of the SHA-256 of its entropy bits, in which case to_mnemonics of the result is the same list; otherwise it returns InvalidChecksum(computed, found). It never panics on a value built with from_mnemonics/from_string.",
  "every Mnemonics value with indices <= 2047","2048^9..2048^24 inputs",[B+": Entropy::from_mnemonics, Mnemonics::from_mnemonics"])
p("Dictionaries are bijections",
  "In each of the eight shipped dictionaries, word lookup and index lookup are mutually inverse on all 2048 indices; no word is empty or contains the separator; a word not in the list is rejected with an error carrying that word.",
  "all 8 languages, all 2048 indices, all strings","all strings outside the dictionary must be rejected; duplicates anywhere in 16384 words would break recovery",[B+": dictionary::DefaultDictionary::lookup_mnemonic, lookup_word","bip39/src/dicts/*"])
p("Phrase text round trip",
  "Parsing the phrase printed from any in-range mnemonic gives the mnemonic back, and any phrase that parses prints back as exactly the same text (there is exactly one accepted spelling per mnemonic and language).",
  "all languages, all mnemonics, all strings","unbounded strings",[B+": Mnemonics::to_string, Mnemonics::from_string"])
p("Phrase rejection reports the cause",
  "Mnemonics::from_string fails with the first word absent from the dictionary if there is one, otherwise with WrongNumberOfWords(n) exactly when the number n of space-separated words is not 9, 12, 15, 18, 21 or 24; it succeeds otherwise.",
  "all languages, all strings","unbounded strings",[B+": Mnemonics::from_string, Type::from_word_count"])
p("Index-to-word lookup is in bounds only for validated indices",
  "Converting an index to a word is memory safe for every index <= 2047 (in particular for every index obtained from MnemonicIndex::new, from_word or to_mnemonics) but the public tuple constructor MnemonicIndex(n) with n > 2047 makes the safe method to_word perform an out-of-bounds unchecked read.",
  "all u16 indices, all languages","memory-unsafe behaviour does not fail a test deterministically",[B+": MnemonicIndex, DefaultDictionary::lookup_word"])
p("Hex round trip","hex::decode(hex::encode(b)) returns b, and encode emits two lower-case hex digits per byte.","all byte strings","unbounded input",["bip39/src/util/hex.rs: encode, decode"])
p("Hex decoding is exact",
  "hex::decode accepts exactly the strings of hex digits (either case) and ASCII whitespace (space, CR, LF, TAB); the result pairs the digits in order ignoring whitespace wherever it occurs and silently drops an unpaired last digit; otherwise it fails with the byte index of the first other symbol.",
  "all strings","unbounded input; the shifting accumulator is only correct for all interleavings of whitespace",["bip39/src/util/hex.rs: decode"])
p("Key path text round trip","Parsing the printed form of a generic key path gives the same five numbers, in debug and release builds; hence printing is injective.","all 5-tuples of u32","2^160 inputs",[K+"key_path.rs: GenericKeyPath::from, to_string, print_int"])
p("Key path parser accepts exactly its grammar",
  "A string parses exactly when it has 6 '/'-separated parts, which after trimming Unicode white space are 'm' and five numbers, each an optional '+', one or more decimal digits with value below 2^32, and an optional trailing apostrophe; the component value is the number, plus 2^31 if the apostrophe is present (modulo 2^32 in release builds); otherwise the first failing check's error is returned.",
  "all strings, both build profiles","unbounded strings",[K+"key_path.rs: GenericKeyPath::from, parse_int, hard_int, soft_int"])
p("Key path parser panics exactly on two input classes",
  "Parsing a string panics exactly when, all earlier checks having passed, the first failing component ends in a non-ASCII character, or (debug builds only) is hardened with a number of at least 2^31; on every other string it returns Ok or Err.",
  "all strings, both build profiles","needs all Unicode strings",[K+"key_path.rs: parse_int, hard_int"])
p("Hardened marker is not always hardened",
  "A component written with an apostrophe is parsed as a hardened index (>= 2^31) exactly when its number is below 2^31; in release builds larger numbers wrap to a non-hardened index instead of being rejected.",
  "all numbers below 2^32","overflow behaviour differs between the test (debug) and release profile",[K+"key_path.rs: hard_int"])
p("Network key path constructors validate and build BIP-44 paths",
  "bitcoin bip44/bip49/bip84, cardano new and ethereum new/new_metamask succeed exactly when account < 2^31, change is 0 or 1 and address < 2^31 (where applicable) and then expose the purpose, coin, hardened account, change and address of that scheme; arithmetic never overflows.",
  "all u32 arguments","2^96 inputs",[N+"bitcoin/key_path.rs",N+"cardano/key_path.rs",N+"ethereum/key_path.rs"])
p("Constructor errors name the offending value, except for the address",
  "Constructor failures report the first offending component in the order account, change, address; account and change errors carry the offending value but InvalidAddress carries the change value, never the offending address.",
  "all u32 arguments","error payloads for all inputs",[N+"bitcoin/key_path.rs: is_valid",N+"cardano/key_path.rs: new"])
p("Each network accepts exactly its own paths",
  "pub_key/sign/verify on a key of a network get past path validation exactly for: Ethereum and Cardano - purpose 44', the network's coin, account >= 2^31, change in {0,1}, address < 2^31; Bitcoin - the same with coin 0' and any purpose. Otherwise the error names the first violated rule and no key material is derived.",
  "all key paths (any implementation of the KeyPath trait with u32 parts), all keys","2^160 paths",[N+"bitcoin/key.rs: derive_private",N+"ethereum/key.rs: derive_private",N+"cardano/key.rs: derive_private"])
p("Constructed paths match their network",
  "Every path built by a network's constructor passes that network's validation and is rejected with InvalidCoin/InvalidPurpose by the keys of the other networks - except Bitcoin testnet paths, which the Bitcoin key always rejects with InvalidCoin.",
  "all constructor arguments, all three networks","2^96 inputs",[N+"*/key_path.rs",N+"*/key.rs"])
p("Extended key serialisation round trip",
  "XPrv::from_data(k.serialize()) returns k for every key with a valid secret, and serialize is always 77 bytes laid out as depth, fingerprint, index (big-endian), chain code, secret, 4-byte double-SHA-256 checksum.",
  "all XPrv values, every hash function","2^600 values",[S+"private.rs: XPrv::serialize, from_data"])
p("Extended key parsing is exact",
  "XPrv::from_data accepts a byte string exactly when it is 77 bytes, its checksum matches and its secret is in [1, n-1]; it never panics; any accepted string serialises back to itself.",
  "all byte strings, every hash function","unbounded input",[S+"private.rs: XPrv::from_data"])
p("Child derivation equals BIP-32 CKDpriv",
  "Whenever BIP-32 defines the child of index i (left half in [1,n-1], sum non-zero), XPrv::derive(i) is exactly it: same secret and chain code, depth+1, index i, parent fingerprint; for hardened i the child does not depend on the public key, for soft i the HMAC input is the compressed public key.",
  "all keys of depth < 255, all u32 indices, every HMAC/curve implementation","2^600 inputs",[S+"private.rs: XPrv::derive"])
p("Child derivation on the exceptional cases",
  "Derivation fails on depth 255 and when the left half is 0 or >= n (BIP-32 asks to move to the next index in the latter case); when the tweaked secret is zero it silently returns the child of the next index, and from index 2^31-1 this crosses into the hardened range. It always terminates and the returned child carries the index actually used.",
  "all keys, all u32 indices","the triggering events have probability about 2^-127, unreachable by testing",[S+"private.rs: XPrv::derive"])
p("Derivation depth",
  "Every successful derivation increases depth by exactly one and never overflows; a key created from a seed has depth 0 and index 0, and any five-step derivation from it can not fail with DeriveDepthTooBig.",
  "all keys, all index sequences","unbounded sequences",[S+"private.rs: XPrv::derive, from_seed"])
p("Pre-derivation is transparent",
  "For Bitcoin, Ethereum and Cardano, the public key and signature obtained through a stored key at path p are those of the BIP-32 derivation purpose/coin/account/change/address from the stored master key, regardless of how much of the path is derived when the key is loaded.",
  "all key data, all valid paths","all keys and paths",[N+"ethereum/key.rs: from_data, derive_private",N+"bitcoin/key.rs",N+"cardano/key.rs"])
p("What verify accepts from sign",
  "For Cardano, verify(data, sign(data)) is true. For Bitcoin and Ethereum sign returns 65 bytes (r, s, recovery id) while verify only accepts 64 bytes: verifying the returned signature always fails with InvalidSignatureSize(65, 64), and verifying its first 64 bytes returns true.",
  "all keys, messages and valid paths; signature scheme assumed correct","all keys and messages",[S+"private.rs: sign",S+"public.rs: verify",N+"cardano/key.rs: sign, verify"])
p("Cardano master keys from seeds are always loadable",
  "For every 64-byte seed Cardano key data creation succeeds, is 96 bytes (clamped SHA-512 of the first half, then the second half of the seed) and loading it back succeeds.",
  "all 64-byte seeds, every hash function","2^512 seeds",[N+"cardano/key.rs: data_from_seed, from_data"])
p("Cardano over-long inputs panic",
  "Loading Cardano key data of n bytes returns InvalidKeySize(n, 96) for n < 96, validates for n = 96, and panics for every n > 96; verifying a signature of n bytes likewise errs below 64 and panics above 64, before the path is looked at.",
  "all byte strings","all lengths",[N+"cardano/key.rs: from_data, verify"])
p("Decrypt inverts encrypt",
  "decrypt(encrypt(d, p), p) returns d for every non-empty plaintext d and every password and random source; for the empty plaintext it always fails with NotEnoughData.",
  "all plaintexts, passwords, random sources","unbounded input",[K+"crypt.rs: encrypt, decrypt"])
p("Decrypt is total and authentic",
  "decrypt never panics; it fails with NotEnoughData exactly for inputs of at most 60 bytes, and with DecryptionFailed exactly when the stored tag differs from the authentication tag of the rest under the key derived from the password and stored salt; any input it accepts is byte-for-byte what encrypt produces from the returned plaintext with the stored salt and nonce.",
  "all byte strings and passwords","unbounded input, attacker-controlled",[K+"crypt.rs: decrypt"])
p("Ciphertext layout",
  "encrypt output is salt(32) || nonce(12) || tag(16) || ciphertext, 60 bytes longer than the plaintext; salt and nonce are the next 44 bytes of the random source.",
  "all plaintexts, passwords, random sources","unbounded input",[K+"crypt.rs: encrypt"])
p("Wallet data serialisation round trip",
  "Serialising wallet data (seed, mnemonic, language, key map) and parsing it back gives the same data, whatever the hash-map iteration order.",
  "all wallet data with u32 networks and valid Unicode mnemonic, all iteration orders","unbounded data; iteration order is randomised per process",[K+"data.rs: VersionedData::new, to_bytes, from_bytes, get_data"])
p("Version-1 wallets are upgraded without loss",
  "Data of version 1 is read as a wallet with the same keys and no seed, mnemonic or language; versions other than 1 and 2 are rejected with a data error.",
  "all version-1 payloads, all version numbers","unbounded data; no v1 writer exists in the code to test with",[K+"data.rs: get_data, from_v1, Version"])
p("Opening arbitrary data never panics",
  "For any bytes and password, decoding a wallet returns a wallet or one of NotEnoughData, WrongPassword, DataError - it never panics.",
  "all byte strings and passwords","attacker-controlled input",[K+"manager.rs: keychain_data_from_bytes",K+"data.rs"])
p("Manager seed size",
  "Creating a manager from factories succeeds exactly when the largest minimum is non-zero and strictly below the smallest maximum, and then the seed size is the largest minimum; it does not depend on the order of factories. With the built-in networks: 96 bits for Cardano alone, 128 bits whenever Bitcoin or Ethereum is present, error for an empty selection.",
  "all lists of factories; all lists of networks","unbounded lists",[K+"manager.rs: calculate_seed_size, with_networks, new"])
p("Generated mnemonics are always usable",
  "generate_mnemonic of a built-in manager never fails or panics; the phrase has seed_size/32*3 words of the requested language with a valid checksum, and the same manager accepts it in keychain_data_from_mnemonic with that language.",
  "all random sources, languages and selections of networks","2^128 random draws",[K+"manager.rs: generate_mnemonic",K+"mnemonic.rs: generate_entropy, mnemonic_from_entropy, seed_from_mnemonic"])
p("Which phrases are accepted for a wallet",
  "Creating a wallet seed from a phrase succeeds exactly when all words are in the dictionary and their number is seed_size/32*3 (otherwise UnsupportedWordFound, WrongNumberOfWords, MnemonicToShort or MnemonicToLong); the seed is PBKDF2 of exactly the given text; the BIP-39 checksum is not checked, so mistyped phrases with a wrong checksum are accepted.",
  "all strings, languages, seed sizes","unbounded strings",[K+"mnemonic.rs: seed_from_mnemonic"])
p("Created wallets open with exactly the manager's networks",
  "Data created from a 64-byte seed opens with the same password into a keychain whose networks are exactly the manager's, and every key operation answers as the key built directly from that seed by the network's factory.",
  "all seeds, passwords, factory sets, random sources and iteration orders","unbounded",[K+"manager.rs: new_keychain_data, keychain_from_data",K+"keychain.rs"])
p("Mnemonic wallets hold the same keys as seed wallets",
  "A wallet created from an accepted phrase holds the same keys as the wallet created from the seed of that phrase; phrase and language are stored unchanged.",
  "all phrases, languages, passwords, managers","unbounded",[K+"manager.rs: keychain_data_from_mnemonic, keychain_data_from_seed"])
p("Changing the password preserves the wallet",
  "change_password with the right password yields data that opens under the new password to exactly the same wallet; with data that does not decrypt it fails with NotEnoughData/WrongPassword and produces nothing.",
  "all data, passwords, random sources","unbounded",[K+"manager.rs: change_password"])
p("Adding a network adds exactly that key",
  "add_network returns a wallet with the same seed, mnemonic, language and other keys plus the new network's key computed from the stored secret; it fails, in this order, for an unsupported network (before the password is even checked), undecryptable data, a network already present, a wallet without stored seed, and factory errors.",
  "all data, networks, managers","unbounded",[K+"manager.rs: add_network"])
p("Adding networks later equals having them from the start",
  "For seed wallets, creating with networks A and adding the networks of B one by one (in any order) holds exactly the keys of a wallet created with A and B from the start.",
  "all factory sets, seeds, orders","unbounded histories",[K+"manager.rs: add_network, new_keychain_data"])
p("Histories of wallet operations refine an abstract wallet",
  "After any sequence of successful or failed change_password/add_network/open operations starting from a created wallet, the current data opens under exactly the abstractly tracked password with exactly the abstractly tracked secret and key map.",
  "all operation sequences, random sources, iteration orders","unbounded histories",[K+"manager.rs"])
p("Unknown networks survive",
  "Opening a wallet with a manager lacking some of its networks hides exactly those keys and fails for no other reason; change_password and add_network through such a manager keep the hidden keys unchanged.",
  "all wallets and managers","unbounded",[K+"manager.rs: keychain_from_data, add_network, change_password"])
p("Keychain dispatch",
  "Keychain pub_key/sign/verify for network n answers exactly as the key of n, wrapping its error as KeyError(n, e), and fails with KeyDoesNotExist(n) exactly when has_network(n) is false; networks() lists exactly the networks with has_network, without duplicates.",
  "all key lists, networks, paths","unbounded",[K+"keychain.rs"])
p("Backup returns what was stored",
  "retrieve_mnemonic returns exactly the phrase and language the wallet was created with, after any sequence of password changes and network additions, and SeedIsNotSaved for seed and version-1 wallets; get_keys_data returns exactly the stored key map.",
  "all wallets and histories","unbounded histories",[K+"manager.rs: retrieve_mnemonic, get_keys_data"])
p("Adding a network can be impossible for short phrases",
  "Adding a network through a manager to a phrase wallet succeeds only if the phrase has that manager's word count: a 9-word wallet of a Cardano-only manager can never get Ethereum or Bitcoin added by any manager that supports them.",
  "all phrases and built-in managers","all managers and phrases",[K+"manager.rs: add_network, seed_from_data",K+"mnemonic.rs: seed_from_mnemonic"])
p("C error codes identify the error class",
  "The C error code is a function of the Rust error class, distinct classes get distinct codes, and code -1 is used exactly for panics.",
  "all errors","all error payloads",[C+"error.rs: ErrorPtr::error_type",C+"utils/panic.rs"])
p("C calls write exactly one output",
  "Every C entry point returning bool writes the value and leaves the error untouched when it returns true, and writes the error and leaves the value untouched when it returns false; a panic inside the call is reported as false with code -1.",
  "all results and previous out-parameter contents","all call outcomes",[C+"utils/result.rs: response",C+"utils/panic.rs: handle_exception_result"])
p("C buffers are freed exactly once with their own layout",
  "For any sequence of C create/delete calls on handles that are not copied, each data buffer, string, key backup, keychain and manager is released at most once and with the layout it was allocated with, a program that deletes what it got ends with nothing allocated, deleting twice is harmless (except for strings: deleting a string twice, or a null string, is undefined behaviour) and using a deleted keychain/manager is reported as an error instead of touching freed memory.",
  "all call sequences","unbounded histories; memory errors are not deterministic",[C+"utils/data.rs",C+"keychain_c.rs",C+"manager.rs",C+"backup.rs",C+"error.rs"])
p("Deleting a network list uses the wrong layout",
  "delete_networks releases a list of n > 0 networks with a layout of 16n bytes (8-byte aligned) although it was allocated with 4n bytes (4-byte aligned): undefined behaviour for every non-empty list; for the empty list nothing is released and it is harmless.",
  "all network lists","undefined behaviour is not observable deterministically",[C+"network.rs: NetworksPtr::free"])
p("C and Rust languages agree",
  "The C language code and the Rust language convert into each other without loss for all eight languages and the conversion never panics.",
  "all languages","-",[C+"manager.rs: Language::rust, From<RLanguage>",K+"mnemonic.rs: Language"])
p("Error text can escape the panic guard",
  "A C call lets a panic out exactly when the text of its error (or of its panic) contains a NUL character. With C-string inputs an error text contains one only in two cases: wallet data naming an unknown dictionary whose name contains NUL, and adding a network to a wallet whose stored phrase contains NUL. Both cases happen.",
  "all errors and inputs","requires adversarial wallet data",[C+"error.rs: ErrorPtr::new",C+"utils/panic.rs: handle_exception_result",C+"utils/string.rs: to_cstr"])
p("Concurrent callers share the random source safely",
  "When several threads encrypt through one manager, in every interleaving each call receives its own disjoint, consecutive chunks of the random stream (no chunk is given to two calls) each result decrypts to that call's plaintext and is the result the call alone would have with those bytes; no execution deadlocks or runs forever; if the random source fails, no call ever returns data made without random bytes.",
  "all numbers of threads and all interleavings","schedules cannot be enumerated",[K+"entropy.rs: OsEntropy::fill_bytes",K+"crypt.rs: encrypt"])
p("Results do not depend on hash-map order",
  "Wallet creation, opening, add_network and backup give the same result up to the order of listed networks for every iteration order of the internal hash maps; on failure only which of several failing networks is reported may differ.",
  "all iteration orders","iteration order is random per process",[K+"manager.rs",K+"keychain.rs",K+"data.rs: se_key_map"])
p("Size tables agree",
  "For every supported type, entropy bits + checksum bits = 11 * words and checksum bits = entropy bits / 32; the conversions from word count, entropy size and decimal text are exactly inverse to the ones back, and reject everything else.",
  "all usize values and strings","all inputs",[B+": Type"])
p("Which wallet operations can panic",
  "Creating a wallet and adding a network through a manager of built-in networks never panics for any input; opening panics only when the stored Cardano key has more than 96 bytes (and does so then unless another key is rejected), which authenticated but malformed data can contain.",
  "all inputs, random sources and iteration orders","attacker-controlled data",[K+"manager.rs: keychain_from_data",K+"networks/cardano/key.rs: from_data"])
with open('/verif/properties.jsonl','w') as f:
    for x in P: f.write(json.dumps(x)+'\n')
print(len(P))
