# Formal model of tesseract-one/Keychain.rs in Rocq (Coq 8.16.1)

The properties are listed in `properties.jsonl`, the theorem names per property
in `MANIFEST.json`, attempts to break the theorems with wrong programs in
`seeded/LOG.jsonl`.  Build: `cd rocq && coq_makefile -f _CoqProject -o Makefile && make -j4`.

## 1. Trusted base

1. **Coq's kernel** (8.16.1), including its virtual machine (`vm_compute` is
   used for finite tables, the word lists and the examples).  `coqchk` rechecks
   everything without the virtual machine.
2. **Assumptions.**  Every property theorem is followed by `Print Assumptions`;
   each one prints `Closed under the global context`.  No axioms are declared and
   none of the standard library is used.  (`coqchk` over all modules lists seven
   constants `Coq.ssr.ssrunder.Under_rel.*`.  They belong to the library module
   that implements the `under` tactic, are loaded by the standard library's
   `Setoid` module, and no theorem here uses them.)
3. **The model says what the code does.**  Sections 3 and 4 say which parts of
   the code are modelled, and where the model is simpler.
4. **The statements say what the properties say.**  A theorem in a
   `Properties*.v` file uses the model's functions and definitions from the
   `*Spec.v` files; those are short and do not use the model's helpers.

External crates are not assumed correct.  Where the code calls one, the model
takes a function from the record `prims` (Prims.v) and the theorems hold for
every value of that record.  Hypotheses that theorems do make about it:

| hypothesis | content | used in |
| --- | --- | --- |
| `prims_ok P` | sizes of outputs that the Rust types fix (a SHA-256 value has 32 bytes, ...), coordinates below 2^256, r and s below the group order | most |
| `secp_correct P` | a signature made by the curve verifies with the key's public key; proved for the published curve in C82 | C27 |
| `ed_correct P` | the same for Ed25519; proved in C83 | C27 |
| in the theorem itself | e.g. that the authentication tags made with different passwords differ, for histories with wrong passwords | C31, C41, C44 |

`Toy.v` has values of the record that meet these hypotheses (`toy_ok`,
`toy_secp`); the examples next to the theorems use them.  So no hypothesis is
contradictory.

`Std.v` has the algorithms the crates are meant to implement, written out from
their standards; C74 shows that they meet `prims_ok`.  Besides the values in
PropertiesStd.v, which the kernel checks, these slower computations were made
once outside the build: all 48 phrases of the repository's vectors; the BIP-39
seed of its first vector (2048 iterations); the Ethereum address at
m/44'/60'/0'/0/0 of the phrase "abandon ... about" through the model of the
wallet (0x9858EfFD232B4033E47d90003D41EC34EcaEda94, as other wallets show it); the
RFC 6979 signature of "sample"; test 2 of RFC 8032.  That the signature schemes
are correct (`secp_correct`, `ed_correct`) is proved for them in C82 and C83.

## 2. Layout of `rocq/theories`

Model files contain definitions only (no proofs except `Defined` ones needed to
define something).  Specifications are `*Spec.v`.  Proofs are in `*Facts.v`,
`*Theorems.v`, `*Check.v`, `DictWords.v`.  `Properties*.v` contain the property
theorems, each closed by `exact`, `Print Assumptions` and examples.

| model file | code | specification | properties |
| --- | --- | --- | --- |
| Base, Str | outcomes, integers, UTF-8, `str` methods of the standard library | CodingSpec | C59, C61 (PropertiesCoding) |
| Hex | bip39/src/util/hex.rs | HexSpec | C11, C12 (PropertiesHex) |
| Bits | bip39/src/util/bits.rs | BitsSpec | C01-C03 (PropertiesBits) |
| Bip39 | bip39/src/bip39.rs | Bip39Spec, ChecksumSpec | C04-C10, C57 (PropertiesBip39), C88 (PropertiesChecksum) |
| Values | bip39.rs: `Entropy` as an enum, printing, comparing and dropping of values; securemem.rs | ValuesSpec | C72 (PropertiesValues) |
| Order | bip39.rs, util/hex.rs: derived comparisons of phrases, word numbers and errors | OrderSpec | C87 (PropertiesOrder) |
| Target | the uses of `usize` arithmetic, on targets of any width | TargetSpec | C73 (PropertiesTarget) |
| StdHash, StdCipher, StdCurve, Std | none of the repository: the algorithms of the external crates by their standards; StdVectors holds its BIP-39 vectors | (the standards), CurveSpec (curves, SEC 1, RFC 8032), CipherSpec (RFC 8439 tags) | C74 (PropertiesStd), C82-C84 (PropertiesCurve), C85 (PropertiesCipher) |
| Dict, Dict*.v | bip39/src/dicts/*.txt, `Language` | DictSpec, NormalSpec | C62 (PropertiesDict), C89 (PropertiesNormal) |
| KeyPath | keychain/src/key_path.rs, networks/*/key_path.rs | KeyPathSpec | C13-C18 (PropertiesKeyPath) |
| Reads | the keys of networks/*/key.rs with a path whose getters are any code | ReadsSpec | C75 (PropertiesReads) |
| Prims, Toy | external crates | | |
| Lang | bip39.rs: the trait `Language` with any implementation | LangSpec | C68 (PropertiesLang) |
| LangCode | the same functions with an implementation that answers differently from call to call; `Entropy::generate` with any closure | LangCodeSpec | C80 (PropertiesLangCode) |
| Serde | bip39 `MnemonicString`, `Type`, `dictionary::Error`, `hex::Error` under the feature `generic-serialization`, keychain `Network`, `Language`: their derived `Serialize`/`Deserialize`, with serde_json | SerdeSpec | C81 (PropertiesSerde) |
| Errors | all error types and their conversions | | |
| XPrv | secp256k1_bip32/src | XPrvSpec (BIP-32) | C21-C25 (PropertiesXPrv) |
| Keys | keychain/src/{key,key_factory,network}.rs, networks/*/{key,factory,mod}.rs | KeysSpec | C19, C20, C26-C29 (PropertiesKeys), C66 (PropertiesSign) |
| Crypt | keychain/src/crypt.rs | CryptSpec | C30-C32 (PropertiesCrypt) |
| Base64, Json | base64 and the part of serde_json that is used | CodingSpec, JsonSpec (RFC 8259) | C59, C63 |
| Data | keychain/src/data.rs | DataSpec, DocumentSpec | C33, C34 (PropertiesData), C63 (PropertiesDocument) |
| FMap | `HashMap<Network, _>` | | C56 |
| Mnemonic | keychain/src/mnemonic.rs | Bip39Spec, ManagerSpec | C38, C65 (PropertiesPhrase) |
| Keychain, Manager | keychain/src/{keychain,manager}.rs | ManagerSpec, HistorySpec | C35-C40, C46 (PropertiesManager), C41-C45, C47, C48, C56, C58 (PropertiesHistory), C67 (InteropSpec, PropertiesInterop) |
| Features | cargo features of keychain/Cargo.toml and keychain-c/Cargo.toml; keychain-c/build.rs | FeatureSpec | C69 (PropertiesFeatures) |
| Conc | keychain/src/entropy.rs, threads | ConcSpec | C55 (PropertiesConc) |
| Display | all `Display` implementations of errors | TextSpec | C64 (PropertiesText) |
| Debug | the derived `Debug` implementations of errors, paths, `Network`, `SeedSize`, `Language`, `VersionedData`, phrases and word numbers | DebugSpec | C86 (PropertiesDebug) |
| Ffi | keychain-c/src | FfiSpec, FfiCallSpec | C49-C54 (PropertiesFfi), C60 (PropertiesCalls), C71 (FfiWalletSpec, PropertiesWallet) |
| Raw | the same functions with the pointers, lengths and numbers that C passes | RawSpec | C70 (PropertiesRaw) |
| Failing | the same functions when the random source can fail: entropy.rs, manager.rs:77-160 | FailingSpec | C76 (PropertiesFailing) |
| Threads | the same functions called by threads that share variables, managers and keychains | ThreadsSpec | C77 (PropertiesThreads) |
| RawThreads | threads with the pointers, lengths and numbers that C passes, and with the caller's own memory | RawThreadsSpec | C78 (PropertiesRawThreads) |
| Custom | manager.rs, keychain.rs, crypt.rs with factories, keys and a random source of the caller's own code (feature "custom-networks") | CustomSpec | C79 (PropertiesCustom) |

## 3. How the code is modelled

* A Rust function is a total Gallina function into `res E A`: `Ok`, `Err e`,
  `Panic` (unwinding), `Undef` (undefined behaviour).  `?`, `map`, `map_err`,
  `unwrap` are the functions of that name in Base.v.
* `u8` is `Byte.byte`.  Wider integers are `N`; where the code can overflow, the
  model wraps or panics according to the build profile, which is a parameter.
  `usize` has 64 bits (other widths: C73).
* `str` is the list of its Unicode scalar values; positions and lengths in bytes
  go through UTF-8, and slicing inside a character panics as in Rust.
* A trait object is a record of functions (`Key`, `KeyFactory`).  In Custom it is
  arbitrary code of the caller, whose answer depends on all that was asked before.
* A `HashMap` is the list of its entries by increasing key.  Where the code
  iterates, the model takes an arbitrary permutation (`order`) from its
  environment, a fresh one for every iteration.
* Randomness is an arbitrary infinite sequence of bytes; what an operation takes
  and what it leaves is explicit.
* Recursion of the code that is not structural (`XPrv::derive`) is a loop with a
  bound; C24_terminates shows that the bound is not what ends it.
* C callers see a store of variables and a heap of allocations with layouts; a
  program is any sequence of calls and deletes.
* Threads are interleaved at the granularity of single bytes drawn from the
  source; the mutex and its poisoning are explicit.  In C programs (Threads) a
  call is interleaved at its beginning, at every lock and release of the mutex,
  and at its end, where it writes the caller's variables.  With raw arguments
  (RawThreads) a call may read them at any time until it ends.

### Simplifications

* **Data errors.**  The errors of serde_json are two: "unknown variant", whose
  text repeats input, and all others.  Their texts are parameters (`texts`).
* **serde_json and base64.**  Their sources are not in the repository.  Json.v
  and Base64.v follow the documented behaviour of the versions in Cargo.lock;
  where configuration or version matters (depth limit of skipped values, `-0`,
  padding and trailing bits in base64), it is a parameter (`data_config`).
* **libsecp256k1.**  Secret keys are numbers, public keys pairs of coordinates;
  parsing a signature reduces r and s modulo the group order.
* **ed25519-bip32.**  Derivation, signing and verification are functions of the
  96-byte key; the structure of the key is checked as `from_bytes_verified` does.
* **Key paths from a caller's own type** answer the same values every time in
  Keys; Reads has getters that change their answers or panic (C75).  Likewise
  factories and keys are functions in Manager and Keychain, and Custom has any
  code of the caller (C79); languages are functions in Lang, and LangCode has any
  code (C80).  Code of the caller that calls the manager or the
  keychain again is not modelled; it runs while no lock is held (C79).  The
  theorems of C79 hold for every world, and the answers given during one
  operation are a finite sequence which some world gives; so for that operation
  it does not matter what else the answers depend on (time, other threads, calls
  the code makes itself), except that the random bytes are those which the source
  has when they are drawn.  Dropping the caller's objects runs no code.
* **Memory given by a C caller** (byte slices, strings) is passed as its contents
  in Ffi; Raw has pointers into the caller's and the library's memory, valid or
  not, and C70 reduces valid ones to Ffi.  Addresses are never reused, so that every use after free is
  visible as `Undef`.  A failing call has allocated nothing that it keeps.
* **Panics in threads** end the call, not the thread.
* **Steps of calls in threads.**  What a call does between the steps named above
  reads only its arguments, its manager or keychain and its own data; the crate
  has no mutable `static` and no interior mutability except the mutex of `OsEntropy`, and the
  allocator is taken to be safe for threads.  A delete function is one step.
* **Cargo features**: Manager has all networks on; Features takes the network
  features as a parameter, and C69 reduces every build to Manager.  The C library
  (Ffi, Raw, Failing) is modelled for every build (`build`: profile and network
  features).  The functions of the features `backup` and `custom-networks` are
  always there, as are the derived implementations of `generic-serialization`
  (JSON only), and so are the key path constructors of networks that a build
  lacks; a program that calls a function its build does not have does not link.

### Not modelled

* `Debug` output under `{:#?}` and with other flags; `Clone`, `Hash`,
  `AsRef`/`Deref` (identities in the model).  Wiping of memory is modelled for
  the bip39 crate only (C72; the other crates wipe nothing themselves).
* `lib.rs` re-exports, cbindgen, `keychain_init_library` (it installs
  a panic hook that prints nothing).
* Timing, memory exhaustion, failure of allocation, stack overflow.
* Computational security of the primitives.
* Tests in the sources.

## 4. The properties and how they are proved

Bits and phrases.

* **C01-C03** 8-state shift machine against lists of bits: one-step lemma over
  all states and values, then induction over the input.
* **C04-C06** BIP-39 over bit lists with an arbitrary 32-byte hash; built on
  C01-C03.  C06 is an exact acceptance condition.
* **C07, C62** The generated word lists: counts, no duplicates, sorted order,
  normal forms, four-letter prefixes, words shared between lists, computed in the
  kernel from the lists in the repository.
* **C08, C09** Splitting and joining phrases; the error names the first cause.
* **C10** The unchecked lookup is defined exactly below 2048; a value outside is
  shown to be undefined behaviour (refuted expectation).
* **C11, C12** Hexadecimal: induction with an accumulator; exact decoding.
* **C57** Tables of sizes by cases.
* **C65** Entropy of every size and length; phrases are injective in the entropy.
* **C68** Phrases in a caller's own language: splitting at a separator of any
  length against a relation; exact condition for reading back what was written.

Key paths.

* **C13, C14** The parser accepts exactly the grammar of KeyPathSpec; printing
  and parsing invert each other.
* **C15** The parser panics exactly on two classes of texts, by build profile.
* **C16** `'` on a number from 2^31: panics or wraps; refuted expectation.
* **C17-C20** Constructors and rules of the three networks over all `u32`.

Keys.

* **C21, C22** Byte layout of extended keys; parsing accepts exactly the layouts.
* **C23-C25** Derivation against BIP-32's CKDpriv; the exceptional cases exactly,
  with primitives that exhibit them; depth.
* **C26** Loading derives part of the path in advance; equal to deriving all of it.
* **C27, C29, C66** Signing and verifying, exact outcomes by length.
* **C28** Key data of a seed.

Storage.

* **C30-C32** Layout of the encrypted form; decryption inverts encryption, is
  total, and accepts only what has the right tag.
* **C33, C34, C59, C63** Printer and parser of the JSON documents: round trip, the
  exact text, and exactly which documents are accepted, over a grammar of RFC 8259.
* **C61** The encodings themselves by their published definitions.

Wallets.

* **C35-C40, C46, C65** Single operations of managers, exact outcomes.
* **C41-C45, C47, C48** Histories of operations follow an abstract wallet
  (a secret, a set of keys, a password): simulation, by induction over histories.
* **C67** End to end: after any history the wallet answers as the standards say
  for its phrase or seed; C26, C28, C39, C44 and C66 put together.
* **C69** Builds with some networks: by cases over the features, reduced to the
  managers of C36; networks added by another build from C38 and C42.  The header
  of the C library: its lines one after the other.
* **C56** No result depends on the order of hash maps.
* **C58** The exact condition under which opening a wallet panics.
* **C55** Any number of threads, any schedule: every byte of the source is used
  once, calls get disjoint consecutive pieces, no deadlock.

C bindings.

* **C49, C50, C53, C54, C60** Each exported function writes one output and
  computes what its Rust function computes; codes; when a text cannot be made.
* **C51, C52** Programs of calls and deletes: ownership invariant over the heap;
  deleting a list of networks uses the wrong layout (a defect of the code).
* **C70** Raw arguments: by cases over the first argument that is not valid;
  programs with valid ones are simulated by the programs of C51.
* **C71** Wallets through C from end to end: an invariant of the data (what it
  decodes to, made from which phrase or seed, with which networks) is kept by
  every successful call of either side and of every build; C60 and C67 give the
  answers.
* **C76** A failing random source: each of the five closures is a manager, an
  operation and a way to hand out its output; an operation either ends before it
  asks for bytes or asks for exactly 12, 16 or 44.  A call that panics is simulated
  by a call of C51 that panics, which gives safety; addresses are not reused,
  which gives that a new manager is usable.
* **C77** C programs with threads: an invariant over all interleavings.  Every
  call that is going on stands for a suffix of the call of C76, with the bytes it
  has got; since it does not clash with others, ending it now is the same as
  making it now.  Hence the order of ends is a serial order.  Deadlock freedom
  from the holder of the lock; termination by a measure on the places of threads;
  a history invariant names the failed source behind every panic.
* **C78** Threads with raw arguments: each event is the event of C77 on what the
  arguments lead to.  The ends of calls release nothing, and permitted deletes and
  writes leave alone what a call that is going on points to, so that its arguments
  always lead to the same.
* **C79** Networks of a caller's own code: every operation as a chain of questions;
  calls of one method for several objects by induction over the objects.  Objects
  that are functions: an order of the factories' names is carried to an order of
  the records through a permutation of positions.
* **C80** Languages of a caller's own code: reading and writing as chains of calls,
  described by a relation between the code, the outcome and the calls made, which
  holds exactly of what the model computes.
* **C81** JSON of single values: a general lemma for derived enums (variants
  with and without content) over the parsers of C63; each type is an instance.
  The feature `generic-serialization` is off by default, and no crate of the
  repository turns it on.  That a `MnemonicString` is a validated phrase is
  refuted: reading one checks nothing.
* **C64** Texts of errors.
* **C75** Path objects: the computation as a chain of questions; the talk so far
  and the questions asked are carried through each step.  With an object that
  always answers the same this is Keys.  That questions depend on earlier answers
  only is preserved by each way to combine computations (C75_next).
* **C74** The standard algorithms: sizes from the shape of the output, ranges from
  the final reduction, PBKDF2 by the invariant of its iteration; the rest are
  instances of C67 and of the shape of signatures.
* **C82-C84** The curves.  CurveSpec.v says by equations between numbers what a
  point, a sum, a multiple and a valid signature is.  Primality of the two field
  sizes and the two orders: Pocklington's criterion with certificates
  (PrimeFacts).  FpFacts builds the field of a prime; the group laws are proved
  over any field (EdwardsFacts; WeierstrassFacts goes through complete projective
  formulas) and instantiated (EdGroupFacts, SecpGroupFacts), where the order of
  the base point is computed.  The projective formulas of StdCurve.v
  represent group elements (EdSignFacts, SecpSignFacts); signatures then are
  linear equations modulo the order (SecpEcdsaFacts, EdCurveFacts); CurveFacts
  carries the results to keys, keychains and children.  That the nonces are those
  of RFC 6979 is an induction over the attempts (C82_nonce).
* **C85** The tag.  CipherSpec.v gives Poly1305 as a sum of powers.  Horner's rule
  gives the code's loop; a polynomial of degree n has at most n roots modulo the
  prime 2^130 - 5 (PolyFacts, synthetic division); the difference of two tags
  leaves eight values for the difference of the sums.
* **C86** `Debug` texts.  A value's view (names and contents) is apart from the
  writing of views.  Texts are the spelled-out ones by computation with the
  strings kept abstract; a reader of texts, by induction over views, shows that
  regular views have different texts.  C33 then gives the wallet.
* **C87** Comparisons.  UTF-8 keeps the order of characters, by the four lengths;
  words of sorted lists (checked by computation) joined by spaces keep the order
  of their numbers since a space is below all letters; groups of 11 bits of equal
  number compare as the number they spell, whose high part is the entropy.
* **C88** Last words.  The free bits of the last word fix the entropy and so the
  checksum, against which the code compares the other bits: one last word for each
  value.  Lists of all sentences are built by induction for the count; no hash is
  computed.
* **C89** Normal form.  Unicode's tables are a parameter of which only the rows for
  the scripts of the word lists are assumed (`unicode_ok`, an explicit hypothesis
  that a table with these rows meets).  By computation no word has a composed
  kana or two marks in a row, and a space between words is no mark; a phrase with
  a character no word has contains an unknown word.
* **C73** Widths of `usize`: multiplication wraps exactly when the product is out
  of range; otherwise the model for 64 bits applies.
* **C72** Values of the bip39 crate: the copying loop by induction; order by
  comparing big-endian numbers; texts by C11 and C12.

Theorems named `..._refuted` show that an expectation one may have is false of
the code; they are part of the description of what the code does.
No property is only partly proved.

## 5. Testing the theorems

`seeded/LOG.jsonl` has one line per wrong program.  An edit is applied to a copy
of the model; everything that depends on it is rebuilt, lemmas whose proofs break
are admitted in the copy, and the property theorems that then rest on an admitted
lemma count as failed.  An edit under which the English claim became false while
its theorem still went through led to a stronger theorem (`tightened`).  The
list `failed` is found by a script, not by hand.  It says that the proof of the
theorem no longer goes through, not that its statement was shown to be false: a
proof script can also break for another reason, so some entries of `failed` may be
theorems that still hold of the wrong program and only need another proof.  An
entry in `failed_examples` is stronger, since most examples are computations.  Only
a part of the failures, and all edits that nothing detected, were looked at one by
one; the latter have a `note`.
