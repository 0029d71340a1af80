{
 "claims": [
  {
   "property": "C01",
   "status": "proved",
   "theorems": [
    "C01_writer_layout"
   ],
   "note": ""
  },
  {
   "property": "C02",
   "status": "proved",
   "theorems": [
    "C02_reader_groups"
   ],
   "note": ""
  },
  {
   "property": "C03",
   "status": "proved",
   "theorems": [
    "C03_read_back"
   ],
   "note": ""
  },
  {
   "property": "C04",
   "status": "proved",
   "theorems": [
    "C04_to_mnemonics"
   ],
   "note": "For every well-formed entropy and every hash of 32-byte output."
  },
  {
   "property": "C05",
   "status": "proved",
   "theorems": [
    "C05_entropy_round_trip"
   ],
   "note": ""
  },
  {
   "property": "C06",
   "status": "proved",
   "theorems": [
    "C06_checksum_exact",
    "C06_other_counts"
   ],
   "note": ""
  },
  {
   "property": "C07",
   "status": "proved",
   "theorems": [
    "C07_dictionary_bijection"
   ],
   "note": "All eight generated word lists; decided by computation inside the kernel."
  },
  {
   "property": "C08",
   "status": "proved",
   "theorems": [
    "C08_phrase_round_trip",
    "C08_string_new"
   ],
   "note": ""
  },
  {
   "property": "C09",
   "status": "proved",
   "theorems": [
    "C09_phrase_errors"
   ],
   "note": ""
  },
  {
   "property": "C10",
   "status": "proved",
   "theorems": [
    "C10_to_word_safe",
    "C10_index_new_safe",
    "C10_every_index_safe_refuted"
   ],
   "note": "Exact safety boundary; the public tuple constructor lets an index outside it in."
  },
  {
   "property": "C11",
   "status": "proved",
   "theorems": [
    "C11_hex_round_trip"
   ],
   "note": ""
  },
  {
   "property": "C12",
   "status": "proved",
   "theorems": [
    "C12_decode_exact"
   ],
   "note": ""
  },
  {
   "property": "C13",
   "status": "proved",
   "theorems": [
    "C13_round_trip",
    "C13_print_injective"
   ],
   "note": ""
  },
  {
   "property": "C14",
   "status": "proved",
   "theorems": [
    "C14_grammar"
   ],
   "note": "Both directions, against an inductive grammar; a failing number says whether a digit was bad or the value too large, whichever comes first."
  },
  {
   "property": "C15",
   "status": "proved",
   "theorems": [
    "C15_panics",
    "C15_defined",
    "C15_parse_total_refuted"
   ],
   "note": ""
  },
  {
   "property": "C16",
   "status": "proved",
   "theorems": [
    "C16_hardened_mark",
    "C16_mark_always_hardened_refuted"
   ],
   "note": ""
  },
  {
   "property": "C17",
   "status": "proved",
   "theorems": [
    "C17_constructors"
   ],
   "note": ""
  },
  {
   "property": "C18",
   "status": "proved",
   "theorems": [
    "C18_constructor_errors",
    "C18_address_error_names_address_refuted"
   ],
   "note": ""
  },
  {
   "property": "C19",
   "status": "proved",
   "theorems": [
    "C19_paths",
    "C19_bitcoin_checks_purpose_refuted"
   ],
   "note": "Any implementation of the key path trait is its five u32 values. Bitcoin has no purpose rule."
  },
  {
   "property": "C20",
   "status": "proved",
   "theorems": [
    "C20_constructed",
    "C20_testnet_usable_refuted"
   ],
   "note": "Rejection is stated with the same rules that C19 ties to the keys."
  },
  {
   "property": "C21",
   "status": "proved",
   "theorems": [
    "C21_round_trip"
   ],
   "note": ""
  },
  {
   "property": "C22",
   "status": "proved",
   "theorems": [
    "C22_parse_exact",
    "C22_accepts",
    "C22_total"
   ],
   "note": "Every hash with 32-byte output."
  },
  {
   "property": "C23",
   "status": "proved",
   "theorems": [
    "C23_ckd_priv",
    "C23_path",
    "C23_hardened"
   ],
   "note": "HMAC, hash and curve are arbitrary functions with the right output sizes."
  },
  {
   "property": "C24",
   "status": "proved",
   "theorems": [
    "C24_outcomes",
    "C24_terminates",
    "C24_soft_stays_soft_refuted",
    "C24_retries_bad_left_refuted"
   ],
   "note": "Complete list of outcomes; the refuted expectations exhibit primitives on which they fail."
  },
  {
   "property": "C25",
   "status": "proved",
   "theorems": [
    "C25_depth",
    "C25_from_seed",
    "C25_master"
   ],
   "note": "Stated for any path of at most 255 steps."
  },
  {
   "property": "C26",
   "status": "proved",
   "theorems": [
    "C26_secp",
    "C26_cardano",
    "C26_bip32"
   ],
   "note": "Equations hold for every outcome, including derivation errors."
  },
  {
   "property": "C27",
   "status": "proved",
   "theorems": [
    "C27_secp",
    "C27_cardano",
    "C27_verify_own_refuted"
   ],
   "note": "Signature schemes are assumed correct where the claim is that verify returns true; C82 and C83 prove this for the published curves."
  },
  {
   "property": "C28",
   "status": "proved",
   "theorems": [
    "C28_cardano_seed",
    "C28_secp_seed",
    "C28_seed_length"
   ],
   "note": ""
  },
  {
   "property": "C29",
   "status": "proved",
   "theorems": [
    "C29_key_data",
    "C29_signature",
    "C29_verify_total_refuted"
   ],
   "note": "Exact behaviour by length."
  },
  {
   "property": "C30",
   "status": "proved",
   "theorems": [
    "C30_round_trip",
    "C30_empty",
    "C30_all_plaintexts_refuted"
   ],
   "note": ""
  },
  {
   "property": "C31",
   "status": "proved",
   "theorems": [
    "C31_outcomes"
   ],
   "note": ""
  },
  {
   "property": "C32",
   "status": "proved",
   "theorems": [
    "C32_layout"
   ],
   "note": ""
  },
  {
   "property": "C33",
   "status": "proved",
   "theorems": [
    "C33_round_trip",
    "C33_text",
    "C33_read"
   ],
   "note": ""
  },
  {
   "property": "C34",
   "status": "proved",
   "theorems": [
    "C34_version_1",
    "C34_other_versions"
   ],
   "note": ""
  },
  {
   "property": "C35",
   "status": "proved",
   "theorems": [
    "C35_decoding"
   ],
   "note": "Decoding only (keychain_data_from_bytes); opening keys is C58."
  },
  {
   "property": "C36",
   "status": "proved",
   "theorems": [
    "C36_seed_size",
    "C36_unordered",
    "C36_builtin",
    "C36_factory_sizes"
   ],
   "note": ""
  },
  {
   "property": "C37",
   "status": "proved",
   "theorems": [
    "C37_generated"
   ],
   "note": "Exact: fails only when the generated seed has no BIP-32 master key and Bitcoin or Ethereum is supported."
  },
  {
   "property": "C38",
   "status": "proved",
   "theorems": [
    "C38_accepted",
    "C38_refused",
    "C38_checksum_not_checked",
    "C38_checksum_checked_refuted"
   ],
   "note": "Exact outcome for every text; the missing checksum check is shown by a theorem and a refutation."
  },
  {
   "property": "C39",
   "status": "proved",
   "theorems": [
    "C39_created",
    "C39_seed_size",
    "C39_builtin"
   ],
   "note": "For arbitrary factories and, separately, for the built-in ones."
  },
  {
   "property": "C40",
   "status": "proved",
   "theorems": [
    "C40_same_keys",
    "C40_stored"
   ],
   "note": ""
  },
  {
   "property": "C41",
   "status": "proved",
   "theorems": [
    "C41_cases",
    "C41_stored"
   ],
   "note": ""
  },
  {
   "property": "C42",
   "status": "proved",
   "theorems": [
    "C42_cascade",
    "C42_complete",
    "C42_success"
   ],
   "note": "Every outcome in the order of the checks; exhaustive."
  },
  {
   "property": "C43",
   "status": "proved",
   "theorems": [
    "C43_seed",
    "C43_phrase"
   ],
   "note": "Phrases too, when the managers agree about the phrase length."
  },
  {
   "property": "C44",
   "status": "proved",
   "theorems": [
    "C44_created_seed",
    "C44_created_phrase",
    "C44_history",
    "C44_right_passwords",
    "C44_deterministic",
    "C44_opening"
   ],
   "note": "Simulation by an abstract wallet; with wrong passwords in the history, the authentication is assumed to tell the passwords used apart (an explicit hypothesis), with right passwords nothing is assumed."
  },
  {
   "property": "C45",
   "status": "proved",
   "theorems": [
    "C45_hidden",
    "C45_kept"
   ],
   "note": "C42 gives preservation by add_network (extended), C41 by change_password, C45_kept by whole histories."
  },
  {
   "property": "C46",
   "status": "proved",
   "theorems": [
    "C46_dispatch",
    "C46_networks"
   ],
   "note": ""
  },
  {
   "property": "C47",
   "status": "proved",
   "theorems": [
    "C47_backup",
    "C47_fails",
    "C47_history",
    "C47_version1"
   ],
   "note": "Through arbitrary histories and for version-1 data."
  },
  {
   "property": "C48",
   "status": "proved",
   "theorems": [
    "C48_short",
    "C48_never"
   ],
   "note": "Both the single call and all histories through built-in managers."
  },
  {
   "property": "C49",
   "status": "proved",
   "theorems": [
    "C49_codes",
    "C49_numbers",
    "C49_panic"
   ],
   "note": ""
  },
  {
   "property": "C50",
   "status": "proved",
   "theorems": [
    "C50_one_output"
   ],
   "note": ""
  },
  {
   "property": "C51",
   "status": "proved",
   "theorems": [
    "C51_safe",
    "C51_no_leak",
    "C51_released",
    "C51_calls",
    "C51_twice",
    "C51_string_twice",
    "C51_string_null",
    "C51_deleted"
   ],
   "note": "Memory model with never-reused addresses, all programs of calls and deletes; the exceptions for strings are theorems too."
  },
  {
   "property": "C52",
   "status": "proved",
   "theorems": [
    "C52_layout",
    "C52_deleted"
   ],
   "note": "A defect of the code, proved for every non-empty list."
  },
  {
   "property": "C53",
   "status": "proved",
   "theorems": [
    "C53_languages",
    "C53_names"
   ],
   "note": ""
  },
  {
   "property": "C54",
   "status": "proved",
   "theorems": [
    "C54_escapes",
    "C54_texts",
    "C54_exactly",
    "C54_guard_refuted"
   ],
   "note": "Exact, with a concrete witness for both escapes."
  },
  {
   "property": "C55",
   "status": "proved",
   "theorems": [
    "C55_chunks",
    "C55_encrypt",
    "C55_operations",
    "C55_progress",
    "C55_ends",
    "C55_complete"
   ],
   "note": "Small-step interleaving of threads down to single bytes of the source, with the mutex and its poisoning; all operations of the manager that draw random bytes."
  },
  {
   "property": "C56",
   "status": "proved",
   "theorems": [
    "C56_create",
    "C56_open",
    "C56_add",
    "C56_backup"
   ],
   "note": "Every iteration takes its own arbitrary permutation."
  },
  {
   "property": "C57",
   "status": "proved",
   "theorems": [
    "C57_size_tables",
    "C57_texts"
   ],
   "note": ""
  },
  {
   "property": "C58",
   "status": "proved",
   "theorems": [
    "C58_panics",
    "C58_opening_never_panics_refuted"
   ],
   "note": "Exact condition for the panic; the expectation that opening never panics is refuted."
  },
  {
   "property": "C59",
   "status": "proved",
   "theorems": [
    "C59_base64"
   ],
   "note": "The decoder's two options cover the configurations of the base64 crate; which one is used is a parameter of the model."
  },
  {
   "property": "C60",
   "status": "proved",
   "theorems": [
    "C60_calls"
   ],
   "note": "The Rust side is the model of the Rust functions (Manager.v, Keychain.v, KeyPath.v); errors whose text contains a NUL are C54."
  },
  {
   "property": "C61",
   "status": "proved",
   "theorems": [
    "C61_utf8",
    "C61_big_endian",
    "C61_decimal"
   ],
   "note": "Decimal for numbers up to 2^64 - 1."
  },
  {
   "property": "C62",
   "status": "proved",
   "theorems": [
    "C62_words",
    "C62_four_letters",
    "C62_shared_words",
    "C62_shared_phrases"
   ],
   "note": "Checked word by word by computation inside the proof, for the word lists in the repository."
  },
  {
   "property": "C63",
   "status": "proved",
   "theorems": [
    "C63_envelope",
    "C63_document"
   ],
   "note": "The grammar is that of RFC 8259; what serde_json lets through in skipped values (lone surrogates, any bytes), the nesting limit and -0 are as documented for the crate, the last two as parameters."
  },
  {
   "property": "C64",
   "status": "proved",
   "theorems": [
    "C64_texts",
    "C64_kind",
    "C64_distinct",
    "C64_custom_refuted",
    "C64_too_long_refuted"
   ],
   "note": "Numbers within their types; parts of texts that come from serde_json are parameters."
  },
  {
   "property": "C65",
   "status": "proved",
   "theorems": [
    "C65_entropy",
    "C65_phrase",
    "C65_injective",
    "C65_manager"
   ],
   "note": "The sentence is that of C08's specification, without reference to the model's encoder."
  },
  {
   "property": "C66",
   "status": "proved",
   "theorems": [
    "C66_exact",
    "C66_canonical_refuted"
   ],
   "note": "libsecp256k1's reduction of r and s on parsing is a documented behaviour of that crate, modelled in XPrv.v."
  },
  {
   "property": "C67",
   "status": "proved",
   "theorems": [
    "C67_phrase",
    "C67_seed",
    "C67_wrong_passwords"
   ],
   "note": "Combines C26, C28, C39, C44, C66 over histories. Where BIP-32 does not define a key on the way, see C23. Cardano's key from the seed is the crate's own scheme, not the Icarus scheme of other Cardano wallets."
  },
  {
   "property": "C68",
   "status": "proved",
   "theorems": [
    "C68_reading",
    "C68_writing",
    "C68_round_trip",
    "C68_disjoint",
    "C68_one_character",
    "C68_read_back",
    "C68_entropy",
    "C68_string_new",
    "C68_empty_separator",
    "C68_default",
    "C68_separator_outside_words_refuted",
    "C68_no_separator_refuted"
   ],
   "note": "Any implementation of the trait Language is modelled as a record of functions (Lang.v). The round trip holds exactly for separable words; two expectations are refuted: a separator that occurs in no word is not enough, and without a separator phrases cannot be read."
  },
  {
   "property": "C69",
   "status": "proved",
   "theorems": [
    "C69_all",
    "C69_restricted",
    "C69_managers",
    "C69_default",
    "C69_header",
    "C69_phrase_across",
    "C69_seed_across"
   ],
   "note": "All eight choices of network features. Opening wallets across builds is covered by C44, C45 and C67, which quantify over managers with any networks."
  },
  {
   "property": "C70",
   "status": "proved",
   "theorems": [
    "C70_slice",
    "C70_string",
    "C70_valid",
    "C70_cases",
    "C70_undefined",
    "C70_refused",
    "C70_program",
    "C70_no_leak",
    "C70_handed_back",
    "C70_data",
    "C70_released",
    "C70_kept",
    "C70_null",
    "C70_own_memory",
    "C70_null_empty_refuted"
   ],
   "note": "The caller's memory is a set of blocks that only the caller changes; a library block of network numbers, backup elements or an object read as bytes counts as undefined. Slices longer than isize::MAX can not be in memory and are undefined here, too."
  },
  {
   "property": "C71",
   "status": "proved",
   "theorems": [
    "C71_going_on",
    "C71_generate",
    "C71_from_phrase",
    "C71_from_seed",
    "C71_open",
    "C71_use",
    "C71_retrieve",
    "C71_backup",
    "C71_change",
    "C71_add",
    "C71_wrong",
    "C71_session"
   ],
   "note": "Errors are those whose texts contain no NUL, given that the texts of the standard library and of serde_json have none (texts_ok)."
  },
  {
   "property": "C72",
   "status": "proved",
   "theorems": [
    "C72_enum",
    "C72_made",
    "C72_shown",
    "C72_order",
    "C72_drop",
    "C72_left",
    "C72_left_refuted",
    "C72_errors"
   ],
   "note": "Freed memory means the contents of local vectors when they go out of scope (C72_left, C72_left_refuted); stack copies and reallocations are not modelled. That the compiler keeps the zeroing writes is assumed, as the source says."
  },
  {
   "property": "C73",
   "status": "proved",
   "theorems": [
    "C73_small",
    "C73_readers",
    "C73_large",
    "C73_wrong_size_refuted",
    "C73_words",
    "C73_demand",
    "C73_seed_size"
   ],
   "note": ""
  },
  {
   "property": "C74",
   "status": "proved",
   "theorems": [
    "C74_standard",
    "C74_wallets",
    "C74_signatures"
   ],
   "note": "The standards are written out as definitions; that the crates implement them is not proved. Published values and some of the repository's vectors are checked in the kernel."
  },
  {
   "property": "C75",
   "status": "proved",
   "theorems": [
    "C75_secp",
    "C75_cardano",
    "C75_constant",
    "C75_anywhere",
    "C75_names_bad_value_refuted",
    "C75_questions",
    "C75_next",
    "C75_keychain"
   ],
   "note": "A getter answers depending on the questions of the same call so far, or panics; getters with effects on the keychain itself are not modelled. C75_next ties the questions before a panic to those an object that goes on answering is asked."
  },
  {
   "property": "C76",
   "status": "proved",
   "theorems": [
    "C76_call",
    "C76_others",
    "C76_stays",
    "C76_new_manager",
    "C76_working",
    "C76_states",
    "C76_safe"
   ],
   "note": "Calls follow one another (C55 has threads). The message of the panic is any text without NUL, as in C50 (with NUL: C54). The number of bytes a call asks for is exact: bytes after them do not matter."
  },
  {
   "property": "C77",
   "status": "proved",
   "theorems": [
    "C77_serial",
    "C77_order",
    "C77_grows",
    "C77_states",
    "C77_safe",
    "C77_exclusion",
    "C77_cut",
    "C77_works",
    "C77_alone",
    "C77_progress",
    "C77_waits",
    "C77_ends",
    "C77_complete",
    "C77_deleted"
   ],
   "note": "A call is interleaved at its beginning, at each lock and release of the mutex of its manager, and at its end, when it writes its variables; what lies between reads nothing that another permitted action can change. The panic on aborting (C54) ends the program and is allowed in C77_progress and C77_complete."
  },
  {
   "property": "C78",
   "status": "proved",
   "theorems": [
    "C78_threads",
    "C78_decoded",
    "C78_safe",
    "C78_stable",
    "C78_undefined",
    "C78_complete"
   ],
   "note": "All arguments are looked at when the call begins. The last part of C78_undefined says that a permitted-looking delete of what a call reads makes the next step of that call undefined; in the real library the delete itself may already be the race."
  },
  {
   "property": "C79",
   "status": "proved",
   "theorems": [
    "C79_built",
    "C79_created",
    "C79_creation_forms",
    "C79_opened",
    "C79_added",
    "C79_keychain",
    "C79_build_asks",
    "C79_create_asks",
    "C79_open_asks",
    "C79_add_asks",
    "C79_encrypt",
    "C79_generate",
    "C79_functions",
    "C79_functions_exist",
    "C79_networks_refuted",
    "C79_order_refuted"
   ],
   "note": "The caller's code is a function of everything asked before; that it calls the keychain again is not modelled, but it runs while no lock is held. C79_functions relates it to Manager for objects that always answer alike. The two refuted expectations need factories that answer different networks."
  },
  {
   "property": "C80",
   "status": "proved",
   "theorems": [
    "C80_reading",
    "C80_checking",
    "C80_writing",
    "C80_read_calls",
    "C80_write_calls",
    "C80_constant",
    "C80_wrapped",
    "C80_translated",
    "C80_generate",
    "C80_checked_refuted",
    "C80_safe_refuted",
    "C80_separators_refuted"
   ],
   "note": "The answer of the language's code depends on the calls of its methods so far; it is of the method's type or a panic."
  },
  {
   "property": "C81",
   "status": "proved",
   "theorems": [
    "C81_read",
    "C81_answers",
    "C81_unknown",
    "C81_written",
    "C81_round_trip",
    "C81_any_phrase",
    "C81_validated_refuted"
   ],
   "note": "serde_json as in C63 (Json.v follows its documented behaviour); other data formats are not modelled."
  },
  {
   "property": "C82",
   "status": "proved",
   "theorems": [
    "C82_group",
    "C82_order",
    "C82_public",
    "C82_verify",
    "C82_sign",
    "C82_nonce",
    "C82_valid_made",
    "C82_correct",
    "C82_recovers",
    "C82_one_key",
    "C82_own",
    "C82_key",
    "C82_keychain"
   ],
   "note": "About the published algorithms (StdCurve.v); that the crate implements them is not proved. What is valid is defined by relations on numbers (CurveSpec.v)."
  },
  {
   "property": "C83",
   "status": "proved",
   "theorems": [
    "C83_group",
    "C83_order",
    "C83_encoding",
    "C83_public",
    "C83_public_one",
    "C83_verify",
    "C83_correct",
    "C83_own",
    "C83_sign",
    "C83_keychain"
   ],
   "note": "As C82. Verification is the cofactorless equation."
  },
  {
   "property": "C84",
   "status": "proved",
   "theorems": [
    "C84_secp",
    "C84_secp_public",
    "C84_ed",
    "C84_ed_public",
    "C84_ed_bytes",
    "C84_ed_range"
   ],
   "note": "As C82. The code has no derivation from public keys; the theorems say what such a derivation would have to compute."
  },
  {
   "property": "C85",
   "status": "proved",
   "theorems": [
    "C85_tag",
    "C85_message",
    "C85_opens",
    "C85_differences",
    "C85_forgery",
    "C85_wallet"
   ],
   "note": "About the published cipher (StdCipher.v). Says nothing about altered salts or nonces, whose one-time keys are unrelated numbers, nor about guessing passwords. That two passwords have different r is a hypothesis of the count, not a claim."
  },
  {
   "property": "C86",
   "status": "proved",
   "theorems": [
    "C86_errors",
    "C86_other_errors",
    "C86_values",
    "C86_versioned",
    "C86_mnemonics",
    "C86_phrase",
    "C86_distinct",
    "C86_phrase_distinct",
    "C86_mnemonics_distinct",
    "C86_versioned_distinct",
    "C86_wallet",
    "C86_phrase_shown",
    "C86_paths",
    "C86_custom_refuted",
    "C86_type_refuted"
   ],
   "note": "Texts of {:?} only, not of {:#?} or other flags. The standard library's table of characters shown unescaped, its name of an overflow, and the texts of errors of custom networks and of serde_json are parameters. Entropy and Seed are in C72."
  },
  {
   "property": "C87",
   "status": "proved",
   "theorems": [
    "C87_phrases",
    "C87_others",
    "C87_words",
    "C87_entropy",
    "C87_words_refuted",
    "C87_length_refuted"
   ],
   "note": "PartialOrd's other methods (<, max, clamp) follow from cmp and are not spelled out. Entropy, Seed and Type are in C72."
  },
  {
   "property": "C88",
   "status": "proved",
   "theorems": [
    "C88_right",
    "C88_last_words",
    "C88_one_each",
    "C88_error_corrects",
    "C88_count",
    "C88_any_last_word"
   ],
   "note": "For any hash function: which last words are right depends on it, how many does not. Says nothing about changes of earlier words, whose detection depends on the hash."
  },
  {
   "property": "C89",
   "status": "proved",
   "theorems": [
    "C89_normal",
    "C89_composed",
    "C89_foreign",
    "C89_equivalent_refuted"
   ],
   "note": "Unicode's tables are a parameter; unicode_ok states the rows used, which were compared with Unicode 14 outside of Coq. The passphrase is not normalised either; wallets always use the empty one."
  }
 ]
}