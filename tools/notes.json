{
 "C04": "For every well-formed entropy and every hash of 32-byte output.",
 "C07": "All eight generated word lists; decided by computation inside the kernel.",
 "C10": "Exact safety boundary; the public tuple constructor lets an index outside it in.",
 "C14": "Both directions, against an inductive grammar; a failing number says whether a digit was bad or the value too large, whichever comes first.",
 "C19": "Any implementation of the key path trait is its five u32 values. Bitcoin has no purpose rule.",
 "C20": "Rejection is stated with the same rules that C19 ties to the keys.",
 "C22": "Every hash with 32-byte output.",
 "C23": "HMAC, hash and curve are arbitrary functions with the right output sizes.",
 "C24": "Complete list of outcomes; the refuted expectations exhibit primitives on which they fail.",
 "C25": "Stated for any path of at most 255 steps.",
 "C26": "Equations hold for every outcome, including derivation errors.",
 "C27": "Signature schemes are assumed correct where the claim is that verify returns true; C82 and C83 prove this for the published curves.",
 "C29": "Exact behaviour by length.",
 "C35": "Decoding only (keychain_data_from_bytes); opening keys is C58.",
 "C37": "Exact: fails only when the generated seed has no BIP-32 master key and Bitcoin or Ethereum is supported.",
 "C38": "Exact outcome for every text; the missing checksum check is shown by a theorem and a refutation.",
 "C39": "For arbitrary factories and, separately, for the built-in ones.",
 "C42": "Every outcome in the order of the checks; exhaustive.",
 "C43": "Phrases too, when the managers agree about the phrase length.",
 "C44": "Simulation by an abstract wallet; with wrong passwords in the history, the authentication is assumed to tell the passwords used apart (an explicit hypothesis), with right passwords nothing is assumed.",
 "C45": "C42 gives preservation by add_network (extended), C41 by change_password, C45_kept by whole histories.",
 "C47": "Through arbitrary histories and for version-1 data.",
 "C48": "Both the single call and all histories through built-in managers.",
 "C51": "Memory model with never-reused addresses, all programs of calls and deletes; the exceptions for strings are theorems too.",
 "C52": "A defect of the code, proved for every non-empty list.",
 "C54": "Exact, with a concrete witness for both escapes.",
 "C55": "Small-step interleaving of threads down to single bytes of the source, with the mutex and its poisoning; all operations of the manager that draw random bytes.",
 "C56": "Every iteration takes its own arbitrary permutation.",
 "C58": "Exact condition for the panic; the expectation that opening never panics is refuted.",
 "C59": "The decoder's two options cover the configurations of the base64 crate; which one is used is a parameter of the model.",
 "C60": "The Rust side is the model of the Rust functions (Manager.v, Keychain.v, KeyPath.v); errors whose text contains a NUL are C54.",
 "C61": "Decimal for numbers up to 2^64 - 1.",
 "C62": "Checked word by word by computation inside the proof, for the word lists in the repository.",
 "C63": "The grammar is that of RFC 8259; what serde_json lets through in skipped values (lone surrogates, any bytes), the nesting limit and -0 are as documented for the crate, the last two as parameters.",
 "C64": "Numbers within their types; parts of texts that come from serde_json are parameters.",
 "C65": "The sentence is that of C08's specification, without reference to the model's encoder.",
 "C66": "libsecp256k1's reduction of r and s on parsing is a documented behaviour of that crate, modelled in XPrv.v.",
 "C67": "Combines C26, C28, C39, C44, C66 over histories. Where BIP-32 does not define a key on the way, see C23. Cardano's key from the seed is the crate's own scheme, not the Icarus scheme of other Cardano wallets.",
 "C68": "Any implementation of the trait Language is modelled as a record of functions (Lang.v). The round trip holds exactly for separable words; two expectations are refuted: a separator that occurs in no word is not enough, and without a separator phrases cannot be read.",
 "C69": "All eight choices of network features. Opening wallets across builds is covered by C44, C45 and C67, which quantify over managers with any networks.",
 "C70": "The caller's memory is a set of blocks that only the caller changes; a library block of network numbers, backup elements or an object read as bytes counts as undefined. Slices longer than isize::MAX can not be in memory and are undefined here, too.",
 "C71": "Errors are those whose texts contain no NUL, given that the texts of the standard library and of serde_json have none (texts_ok).",
 "C72": "Freed memory means the contents of local vectors when they go out of scope (C72_left, C72_left_refuted); stack copies and reallocations are not modelled. That the compiler keeps the zeroing writes is assumed, as the source says.",
 "C74": "The standards are written out as definitions; that the crates implement them is not proved. Published values and some of the repository's vectors are checked in the kernel.",
 "C75": "A getter answers depending on the questions of the same call so far, or panics; getters with effects on the keychain itself are not modelled. C75_next ties the questions before a panic to those an object that goes on answering is asked.",
 "C76": "Calls follow one another (C55 has threads). The message of the panic is any text without NUL, as in C50 (with NUL: C54). The number of bytes a call asks for is exact: bytes after them do not matter.",
 "C77": "A call is interleaved at its beginning, at each lock and release of the mutex of its manager, and at its end, when it writes its variables; what lies between reads nothing that another permitted action can change. The panic on aborting (C54) ends the program and is allowed in C77_progress and C77_complete.",
 "C78": "All arguments are looked at when the call begins. The last part of C78_undefined says that a permitted-looking delete of what a call reads makes the next step of that call undefined; in the real library the delete itself may already be the race.",
 "C79": "The caller's code is a function of everything asked before; that it calls the keychain again is not modelled, but it runs while no lock is held. C79_functions relates it to Manager for objects that always answer alike. The two refuted expectations need factories that answer different networks.",
 "C80": "The answer of the language's code depends on the calls of its methods so far; it is of the method's type or a panic.",
 "C81": "serde_json as in C63 (Json.v follows its documented behaviour); other data formats are not modelled.",
 "C82": "About the published algorithms (StdCurve.v); that the crate implements them is not proved. What is valid is defined by relations on numbers (CurveSpec.v).",
 "C83": "As C82. Verification is the cofactorless equation.",
 "C84": "As C82. The code has no derivation from public keys; the theorems say what such a derivation would have to compute.",
 "C85": "About the published cipher (StdCipher.v). Says nothing about altered salts or nonces, whose one-time keys are unrelated numbers, nor about guessing passwords. That two passwords have different r is a hypothesis of the count, not a claim.",
 "C86": "Texts of {:?} only, not of {:#?} or other flags. The standard library's table of characters shown unescaped, its name of an overflow, and the texts of errors of custom networks and of serde_json are parameters. Entropy and Seed are in C72.",
 "C87": "PartialOrd's other methods (<, max, clamp) follow from cmp and are not spelled out. Entropy, Seed and Type are in C72.",
 "C88": "For any hash function: which last words are right depends on it, how many does not. Says nothing about changes of earlier words, whose detection depends on the hash.",
 "C89": "Unicode's tables are a parameter; unicode_ok states the rows used, which were compared with Unicode 14 outside of Coq. The passphrase is not normalised either; wallets always use the empty one."
}
