{
 "claims": [
  {
   "property": "C01",
   "status": "proved",
   "theorems": [
    "C01_mechname_exact"
   ],
   "note": ""
  },
  {
   "property": "C02",
   "status": "partial",
   "theorems": [
    "C02_only_offered_refuted",
    "C02_only_offered_partial"
   ],
   "note": "Refuted for bare SCRAM with channel binding enabled when only -PLUS is offered (C02_only_offered_refuted); proved for every other case."
  },
  {
   "property": "C03",
   "status": "proved",
   "theorems": [
    "C03_highest_priority"
   ],
   "note": ""
  },
  {
   "property": "C04",
   "status": "proved",
   "theorems": [
    "C04_order_insensitive"
   ],
   "note": ""
  },
  {
   "property": "C05",
   "status": "proved",
   "theorems": [
    "C05_none_iff",
    "C05_always_greater",
    "C05_no_panic",
    "C05_custom_panics"
   ],
   "note": ""
  },
  {
   "property": "C06",
   "status": "proved",
   "theorems": [
    "C06_server_start"
   ],
   "note": ""
  },
  {
   "property": "C07",
   "status": "proved",
   "theorems": [
    "C07_authzid_sent",
    "C07_login_without_authzid"
   ],
   "note": "Registry::credentials: SCRAM-SHA-512/256/1 (no -PLUS), PLAIN and, only without authzid, LOGIN, all features enabled. Writers that never answer Ok(0) (see C20)."
  },
  {
   "property": "C08",
   "status": "proved",
   "theorems": [
    "C08_bare_flag",
    "C08_plus_flag"
   ],
   "note": ""
  },
  {
   "property": "C09",
   "status": "proved",
   "theorems": [
    "C09_downgrade_refused",
    "C09_accepts_without_plus"
   ],
   "note": ""
  },
  {
   "property": "C10",
   "status": "partial",
   "theorems": [
    "C10_insists_refuted",
    "C10_binding_partial"
   ],
   "note": "Refuted: a -PLUS server validates clients with flag 'n' (C10_insists_refuted). Proved: never with flag 'y', and an announced binding is verified."
  },
  {
   "property": "C11",
   "status": "partial",
   "theorems": [
    "C11_consumer_once_partial",
    "C11_value_lost_refuted",
    "C11_second_not_ok_refuted"
   ],
   "note": "Refuted as stated: a second satisfy call drops the value, returns EarlyReturn instead of Ok and evaluates its closure (C11_*_refuted). Proved for every callback: the consumer runs exactly once on the first value; for error-propagating callbacks C14 gives the full outcome."
  },
  {
   "property": "C12",
   "status": "proved",
   "theorems": [
    "C12_satisfy",
    "C12_action"
   ],
   "note": ""
  },
  {
   "property": "C13",
   "status": "proved",
   "theorems": [
    "C13_action"
   ],
   "note": ""
  },
  {
   "property": "C14",
   "status": "proved",
   "theorems": [
    "C14_need_with",
    "C14_maybe_need_with",
    "C14_no_early_return"
   ],
   "note": ""
  },
  {
   "property": "C15",
   "status": "proved",
   "theorems": [
    "C15_first_entry",
    "C15_absent",
    "C15_and",
    "C15_other"
   ],
   "note": ""
  },
  {
   "property": "C16",
   "status": "proved",
   "theorems": [
    "C16_protocol_first",
    "C16_callback_second",
    "C16_missing",
    "C16_provided"
   ],
   "note": ""
  },
  {
   "property": "C17",
   "status": "proved",
   "theorems": [
    "C17_first_value",
    "C17_kept",
    "C17_taken"
   ],
   "note": ""
  },
  {
   "property": "C18",
   "status": "proved",
   "theorems": [
    "C18_no_layer",
    "C18_gssapi_before_finish"
   ],
   "note": "GSSAPI: none until a step returned Finished; what is installed then is C51/C52."
  },
  {
   "property": "C19",
   "status": "proved",
   "theorems": [
    "C19_vectored"
   ],
   "note": ""
  },
  {
   "property": "C20",
   "status": "partial",
   "theorems": [
    "C20_complete_message_refuted",
    "C20_complete_message_partial"
   ],
   "note": "Refuted for writers answering Ok(0) (C20_complete_message_refuted: VectoredWriter treats it as success). Proved for error-propagating callbacks and writers that never answer Ok(0), and for every writer if the mechanism does not use vectored writes."
  },
  {
   "property": "C21",
   "status": "proved",
   "theorems": [
    "C21_step64_encoded",
    "C21_step64_no_input",
    "C21_step64_rejects"
   ],
   "note": "For writers that accept everything; base64's EncoderWriter is third-party code and modelled by its contract."
  },
  {
   "property": "C22",
   "status": "proved",
   "theorems": [
    "C22_decode_encode",
    "C22_canonical",
    "C22_encode_rfc4648",
    "C22_decode_rfc4648"
   ],
   "note": ""
  },
  {
   "property": "C23",
   "status": "proved",
   "theorems": [
    "C23_plain_message",
    "C23_plain_message_any_callback",
    "C23_plain_refuses",
    "C23_plain_complete"
   ],
   "note": ""
  },
  {
   "property": "C24",
   "status": "proved",
   "theorems": [
    "C24_plain_roundtrip"
   ],
   "note": "authzid and authcid are &str in the client, hence the UTF-8 hypotheses."
  },
  {
   "property": "C25",
   "status": "proved",
   "theorems": [
    "C25_plain_server",
    "C25_plain_server_no_input"
   ],
   "note": ""
  },
  {
   "property": "C26",
   "status": "proved",
   "theorems": [
    "C26_login_exchange",
    "C26_login_waits",
    "C26_login_bad_name"
   ],
   "note": ""
  },
  {
   "property": "C27",
   "status": "proved",
   "theorems": [
    "C27_external",
    "C27_anonymous",
    "C27_external_client",
    "C27_anonymous_client",
    "C27_external_server",
    "C27_anonymous_server"
   ],
   "note": ""
  },
  {
   "property": "C28",
   "status": "partial",
   "theorems": [
    "C28_xoauth2_roundtrip_partial",
    "C28_xoauth2_message",
    "C28_roundtrip_refuted",
    "C28_injection"
   ],
   "note": "Refuted for user names containing ^A (C28_roundtrip_refuted, C28_injection); proved for all others. UTF-8 hypotheses because the client's values are &str. Writers that never answer Ok(0) (see C20)."
  },
  {
   "property": "C29",
   "status": "proved",
   "theorems": [
    "C29_server",
    "C29_server_complete",
    "C29_server_refuses",
    "C29_client_success",
    "C29_client_error"
   ],
   "note": ""
  },
  {
   "property": "C30",
   "status": "partial",
   "theorems": [
    "C30_oauthbearer_roundtrip_partial",
    "C30_oauthbearer_message",
    "C30_token_refuted",
    "C30_separators_refuted"
   ],
   "note": "Refuted: the server's token keeps the prefix 'Bearer ' (C30_token_refuted), separators in values are sent unchecked (C30_separators_refuted). Proved: everything else about the round trip, for values without separators and error-propagating callbacks."
  },
  {
   "property": "C31",
   "status": "proved",
   "theorems": [
    "C31_escape_exact",
    "C31_injective",
    "C31_no_separators",
    "C31_charwise",
    "C31_refused"
   ],
   "note": "Stated for byte strings; on UTF-8 the byte-wise model agrees with the char-wise code (C31_charwise)."
  },
  {
   "property": "C32",
   "status": "partial",
   "theorems": [
    "C32_unescape_partial",
    "C32_terminates_refuted",
    "C32_panic_refuted"
   ],
   "note": "Refuted: unescape loops forever on every name with ',' or '=' (C32_terminates_refuted) and panics on a truncated escape (C32_panic_refuted); proved for names without them. unescape has no caller in the crate."
  },
  {
   "property": "C33",
   "status": "partial",
   "theorems": [
    "C33_identity_partial",
    "C33_identity_refuted"
   ],
   "note": "Refuted for names with ',' or '=': the server never unescapes (C33_identity_refuted). Proved: the server sees the escaped form, which equals the name if it has neither. Error-propagating client callbacks."
  },
  {
   "property": "C34",
   "status": "partial",
   "theorems": [
    "C34_client_first_written",
    "C34_client_first_partial",
    "C34_server_first",
    "C34_client_final",
    "C34_server_final",
    "C34_rewritten",
    "C34_client_first_refuted"
   ],
   "note": "Server-first, client-final and server-final proved in full. Client-first refuted for application-supplied channel binding names with ',' (C34_client_first_refuted), proved for legal names and error-propagating callbacks."
  },
  {
   "property": "C35",
   "status": "partial",
   "theorems": [
    "C35_panics_partial",
    "C35_live",
    "C35_server_refuted",
    "C35_client_refuted"
   ],
   "note": "Refuted: a fresh SCRAM server and a waiting SCRAM client panic on attributes shorter than two bytes (C35_server_refuted, C35_client_refuted). Proved: for all mechanisms there is no other cause, except application-supplied cached keys of the wrong length. crypto_ok: the hash functions return their documented lengths."
  },
  {
   "property": "C36",
   "status": "proved",
   "theorems": [
    "C36_complete"
   ],
   "note": ""
  },
  {
   "property": "C37",
   "status": "proved",
   "theorems": [
    "C37_server_sound"
   ],
   "note": ""
  },
  {
   "property": "C38",
   "status": "proved",
   "theorems": [
    "C38_client_verifies",
    "C38_rejects"
   ],
   "note": "A final message of fewer than two bytes panics (see C35); every other wrong message is an error."
  },
  {
   "property": "C39",
   "status": "partial",
   "theorems": [
    "C39_client_signs",
    "C39_server_signs_partial",
    "C39_server_refuted"
   ],
   "note": "Proved in full for the client. Refuted for the server: extensions are left out of its AuthMessage (C39_server_refuted); proved for messages without extensions."
  },
  {
   "property": "C40",
   "status": "proved",
   "theorems": [
    "C40_rfc_injective",
    "C40_signed_injective"
   ],
   "note": ""
  },
  {
   "property": "C41",
   "status": "proved",
   "theorems": [
    "C41_client_checks",
    "C41_server_checks",
    "C41_client_nonce",
    "C41_server_nonce",
    "C41_no_repeat"
   ],
   "note": ""
  },
  {
   "property": "C42",
   "status": "proved",
   "theorems": [
    "C42_bound",
    "C42_mismatch"
   ],
   "note": ""
  },
  {
   "property": "C43",
   "status": "proved",
   "theorems": [
    "C43_pretends",
    "C43_refused"
   ],
   "note": ""
  },
  {
   "property": "C44",
   "status": "partial",
   "theorems": [
    "C44_silent_partial",
    "C44_errors_refuted"
   ],
   "note": "Refuted only in that the client may panic instead of returning an error (C44_errors_refuted), and only on an attribute shorter than two bytes; writing nothing and asking nothing is proved for every message."
  },
  {
   "property": "C45",
   "status": "proved",
   "theorems": [
    "C45_equivalent",
    "C45_cached"
   ],
   "note": ""
  },
  {
   "property": "C46",
   "status": "partial",
   "theorems": [
    "C46_recoverable_refuted",
    "C46_recoverable_partial"
   ],
   "note": "Refuted: SCRAM loses its state on a call without data and panics on the next call (C46_recoverable_refuted, C46_then_panics); GSSAPI loses it too. Proved for every other mechanism. 'No new events' excludes an InputDataRequired error made up by a callback."
  },
  {
   "property": "C47",
   "status": "partial",
   "theorems": [
    "C47_at_most_once",
    "C47_gssapi",
    "C47_exactly_once_refuted",
    "C47_exactly_once_partial"
   ],
   "note": "Refuted for SCRAM: Finished without validation after a bad proof (C47_exactly_once_refuted). Proved: exactly once for every other mechanism, at most once including SCRAM. GSSAPI never calls validate and is excluded."
  },
  {
   "property": "C48",
   "status": "partial",
   "theorems": [
    "C48_fixed_refuted",
    "C48_fixed_partial"
   ],
   "note": "Refuted: OAUTHBEARER and SCRAM answer no AuthzId if the message has none (C48_fixed_refuted). Proved for every other property and mechanism. GSSAPI never validates."
  },
  {
   "property": "C49",
   "status": "proved",
   "theorems": [
    "C49_terminates"
   ],
   "note": "The bound is 2 Running results, for sessions in any state, with arbitrary failing calls between."
  },
  {
   "property": "C50",
   "status": "partial",
   "theorems": [
    "C50_refused_refuted",
    "C50_scram_client_panics",
    "C50_refused_partial",
    "C50_scram_server_partial"
   ],
   "note": "Refuted: e.g. PLAIN sends its message again (C50_refused_refuted); a finished SCRAM client panics (C50_scram_client_panics), a finished SCRAM server refuses once and then panics (C50_scram_server_partial). Proved for LOGIN, the OAuth clients and GSSAPI."
  },
  {
   "property": "C51",
   "status": "partial",
   "theorems": [
    "C51_confidentiality_refuted",
    "C51_layer_partial"
   ],
   "note": "Refuted: the client selects confidentiality without the context's CONF flag if it also accepts a weaker layer (C51_confidentiality_refuted). Proved: the layer is acceptable and offered, and CONF is guaranteed if the application answered and accepts only confidentiality. Error-propagating callbacks."
  },
  {
   "property": "C52",
   "status": "partial",
   "theorems": [
    "C52_offered_refuted",
    "C52_layer_partial"
   ],
   "note": "Refuted: the server tests 'intersects', so a client choosing several bits gets a layer that was not offered (C52_offered_refuted). Proved: what is offered, and that the layer was offered if the client selects a single one; no layer only if acceptable. Error-propagating callbacks."
  },
  {
   "property": "C53",
   "status": "partial",
   "theorems": [
    "C53_multi_leg_refuted",
    "C53_incomplete_lost",
    "C53_kept_partial"
   ],
   "note": "Refuted: the server drops a context that is not complete after its first token; the next step always fails with MechanismDone (C53_incomplete_lost). Proved: contexts complete after one token are kept."
  },
  {
   "property": "C54",
   "status": "proved",
   "theorems": [
    "C54_encode",
    "C54_decode",
    "C54_exactly_with_layer"
   ],
   "note": "wrap/unwrap are abstract (libgssapi). Covers client and server, every writer script."
  },
  {
   "property": "C55",
   "status": "proved",
   "theorems": [
    "C55_server",
    "C55_server_complete",
    "C55_client_success",
    "C55_client_error"
   ],
   "note": "JSON coding is serde_json, abstract; written as one write_all."
  },
  {
   "property": "C56",
   "status": "partial",
   "theorems": [
    "C56_written",
    "C56_posit_refuted",
    "C56_read_partial",
    "C56_read_back"
   ],
   "note": "Refuted: a plus sign and superfluous zeros are read (C56_posit_refuted). Proved: exactly what is read, what is written, and that it is read back."
  },
  {
   "property": "C57",
   "status": "proved",
   "theorems": [
    "C57_registered_name",
    "C57_legal",
    "C57_distinct"
   ],
   "note": "The names are compared with a table written from the IANA registry."
  },
  {
   "property": "C58",
   "status": "partial",
   "theorems": [
    "C58_order_refuted",
    "C58_order_partial",
    "C58_no_cleartext",
    "C58_binds"
   ],
   "note": "Refuted: GSSAPI has the priority of PLAIN (C58_order_refuted). Proved for all other mechanisms."
  },
  {
   "property": "C59",
   "status": "proved",
   "theorems": [
    "C59_credentials_order"
   ],
   "note": "SCRAM-SHA-256 is chosen over SCRAM-SHA-512: equal priority."
  },
  {
   "property": "C60",
   "status": "partial",
   "theorems": [
    "C60_initiator",
    "C60_begins",
    "C60_waits_refuted",
    "C60_waits_partial"
   ],
   "note": "Refuted: the LOGIN client runs without input (C60_waits_refuted); the EXTERNAL and ANONYMOUS servers treat no input as empty input. Proved for all other mechanisms."
  },
  {
   "property": "C61",
   "status": "partial",
   "theorems": [
    "C61_complete_refuted",
    "C61_complete_partial"
   ],
   "note": "Refuted: GSSAPI and the -PLUS mechanisms are missing from the default registry (C61_complete_refuted). All others are present once."
  },
  {
   "property": "C62",
   "status": "proved",
   "theorems": [
    "C62_undecodable_binding",
    "C62_wrong_binding",
    "C62_wrong_nonce",
    "C62_wrong_proof",
    "C62_undecodable_proof",
    "C62_unknown_user",
    "C62_client_told"
   ],
   "note": "The error values are compared with a table written from RFC 5802. For a writer that accepts everything."
  },
  {
   "property": "C63",
   "status": "partial",
   "theorems": [
    "C63_hidden_refuted",
    "C63_known_differs",
    "C63_first_partial"
   ],
   "note": "Refuted: e=unknown-user is sent exactly to unknown users (C63_hidden_refuted, C63_known_differs). Proved: the server-first message of one exchange is one that a known user could get. The made-up salt is drawn anew for each exchange (C43_pretends), so two exchanges tell, too."
  },
  {
   "property": "C64",
   "status": "partial",
   "theorems": [
    "C64_authzid_refuted",
    "C64_token_partial"
   ],
   "note": "Refuted: the server refuses every final token that is not exactly four octets long (C64_authzid_refuted). Proved: exactly which four-octet tokens are accepted."
  },
  {
   "property": "C65",
   "status": "partial",
   "theorems": [
    "C65_stored",
    "C65_cached_refuted",
    "C65_cached_partial"
   ],
   "note": "Proved for the server. The client panics instead of failing (C65_cached_refuted); C65_cached_partial shows that it always panics then and has sent nothing."
  },
  {
   "property": "C66",
   "status": "proved",
   "theorems": [
    "C66_utf8",
    "C66_shown"
   ],
   "note": "Assumes that saslprep maps text to text (its Rust type). Passwords are byte strings and not covered."
  },
  {
   "property": "C67",
   "status": "partial",
   "theorems": [
    "C67_documented",
    "C67_order_partial",
    "C67_transfers",
    "C67_order_refuted"
   ],
   "note": "Refuted for the order documented for SCRAM: the password is asked for only after the server's first message and the channel binding before AuthzId (C67_order_refuted). C67_order_partial gives the order the code follows instead, for every mechanism."
  },
  {
   "property": "C68",
   "status": "partial",
   "theorems": [
    "C68_plain_refuted",
    "C68_plain_partial",
    "C68_one_verdict",
    "C68_scram_sound",
    "C68_scram_complete",
    "C68_scram_sha1",
    "C68_client_refuted",
    "C68_client_partial",
    "C68_prefers"
   ],
   "note": "Refuted for server_plain.rs (C68_plain_refuted: without an authorization identity every client is turned down as AuthzBad, so the example's own first assertion fails) and for client_simple.rs (C68_client_refuted: line terminators are sent). Proved: the exact verdicts of server_plain.rs for non-empty authorization identities, soundness and completeness of server_scram.rs, the preference order."
  },
  {
   "property": "C69",
   "status": "partial",
   "theorems": [
    "C69_causes",
    "C69_mutual",
    "C69_mutual_side",
    "C69_foreign",
    "C69_early",
    "C69_input",
    "C69_missing",
    "C69_done_partial",
    "C69_outcome",
    "C69_kind_client",
    "C69_kind_server_partial",
    "C69_impl",
    "C69_done_refuted",
    "C69_parse_refuted",
    "C69_protocol_refuted",
    "C69_novalidate_refuted"
   ],
   "note": "Every error has a cause from an explicit list (C69_causes); proved as documented: mutual authentication, input, missing properties, foreign errors, outcome. Refuted: the GSSAPI server reports MechanismDone in the middle of an exchange (C69_done_refuted; proved for everything else), errors of kind Parse for well-formed messages (C69_parse_refuted), kind Protocol for malformed ones (C69_protocol_refuted), NoValidate is never reported (C69_novalidate_refuted)."
  },
  {
   "property": "C70",
   "status": "partial",
   "theorems": [
    "C70_empty_partial",
    "C70_mutual",
    "C70_final_partial",
    "C70_empty_refuted",
    "C70_final_refuted"
   ],
   "note": "Refuted for LOGIN (C70_empty_refuted, C70_final_refuted: the client answers without being asked and sends the password in the final step) and GSSAPI (C70_empty_example). Proved for all other mechanisms."
  },
  {
   "property": "C71",
   "status": "proved",
   "theorems": [
    "C71_bounded",
    "C71_last",
    "C71_silent",
    "C71_nothing"
   ],
   "note": ""
  },
  {
   "property": "C72",
   "status": "partial",
   "theorems": [
    "C72_functions",
    "C72_accepted_partial",
    "C72_zeros",
    "C72_long",
    "C72_password_refuted",
    "C72_name_refuted"
   ],
   "note": "Refuted: neither password nor user name is normalised (C72_password_refuted, C72_name_refuted). Proved for keys stored for the password as typed; the functions are modelled concretely, with sizes and Hi proved (C72_functions). A password followed by zero octets and the hash of an overlong one are accepted, too (C72_zeros, C72_long)."
  },
  {
   "property": "C73",
   "status": "proved",
   "theorems": [
    "C73_values",
    "C73_password"
   ],
   "note": "Relational: two runs with different PBKDF2 functions and passwords, or different validation values, have equal results, outputs and mechanism states (C73_password, C73_values)."
  },
  {
   "property": "C74",
   "status": "proved",
   "theorems": [
    "C74_words",
    "C74_outcome",
    "C74_plain",
    "C74_login",
    "C74_scram",
    "C74_scram_right",
    "C74_scram_unknown",
    "C74_reports",
    "C74_shown",
    "C74_split",
    "C74_binary",
    "C74_variables",
    "C74_offers"
   ],
   "note": "Two programs with buffers between them, every scheduling (always_end, Spec_Net.v). The stored entry is taken for the password of any stored_for environment; that it is the one of \"secret\" under SHA-256 was checked outside Rocq. How words are separated and how passwords that are no text are shown: C74_split, C74_binary."
  },
  {
   "property": "C75",
   "status": "proved",
   "theorems": [
    "C75_outcomes",
    "C75_unknown"
   ],
   "note": "Complete case analysis for an honest pair (C75_outcomes, C75_unknown); validation callback assumed not to fail."
  },
  {
   "property": "C76",
   "status": "partial",
   "theorems": [
    "C76_scram_refuted",
    "C76_scram_fails",
    "C76_program_sends",
    "C76_program_refuted",
    "C76_program_never",
    "C76_program_plain",
    "C76_partial",
    "C76_variables",
    "C76_trimmed",
    "C76_blanks"
   ],
   "note": "Refuted for SCRAM-SHA-1 and SCRAM-SHA-512 (C76_scram_refuted, C76_scram_fails for every password): the entry has keys of SHA-256 length. Refuted for bin/client.rs (C76_program_refuted, C76_program_never, C76_program_plain): it prints its messages instead of sending them. True for the test client with PLAIN, LOGIN, SCRAM-SHA-256 (C76_partial). Lines are trimmed of Unicode whitespace: C76_trimmed, C76_blanks."
  },
  {
   "property": "C77",
   "status": "proved",
   "theorems": [
    "C77_client",
    "C77_server",
    "C77_messages"
   ],
   "note": "Stated with the collision as the alternative, because assuming that there are none would contradict the fixed length of the values (pigeonhole). Needs a polite application and legal channel binding names on the client."
  },
  {
   "property": "C78",
   "status": "proved",
   "theorems": [
    "C78_message",
    "C78_proof",
    "C78_replay"
   ],
   "note": "C78_message and C78_replay need no assumption on the hash functions; C78_proof has the collision as the alternative."
  },
  {
   "property": "C79",
   "status": "proved",
   "theorems": [
    "C79_exchange",
    "C79_disagree",
    "C79_data"
   ],
   "note": "The GSS libraries are any two whose contexts are linked (Spec_GssPair.v). The server's set must be of known layers; the client's library must be as strong as its application insists."
  },
  {
   "property": "C80",
   "status": "partial",
   "theorems": [
    "C80_written",
    "C80_read_partial",
    "C80_read_refuted",
    "C80_roundtrip_partial",
    "C80_exchange_partial"
   ],
   "note": "False as stated (C80_read_refuted): the fields are borrowed strings, so an error in which anything is escaped is refused, even one the library's own server wrote; arrays are read as errors too. Proved: the writer; exactly which texts are read; an error arrives iff nothing in it needs escaping. serde_json itself is modelled from its documented behaviour (Json.v)."
  },
  {
   "property": "C81",
   "status": "proved",
   "theorems": [
    "C81_step",
    "C81_dialogue"
   ],
   "note": "Relational (two runs); bytes, results and histories up to the keys themselves. Timing is not modelled."
  },
  {
   "property": "C82",
   "status": "proved",
   "theorems": [
    "C82_step",
    "C82_session",
    "C82_only_these",
    "C82_layer"
   ],
   "note": "Numbers are the model's: one per nonce character or salt byte; how rand samples them is not modelled."
  },
  {
   "property": "C83",
   "status": "partial",
   "theorems": [
    "C83_recommended_refuted",
    "C83_any",
    "C83_shown_partial"
   ],
   "note": "Refuted: any count from 1 and an empty salt are accepted (C83_recommended_refuted, C83_any). Proved: the application sees salt and count with every request, and nothing is sent unless it gives a key."
  },
  {
   "property": "C84",
   "status": "partial",
   "theorems": [
    "C84_client_refuted",
    "C84_server_refuted",
    "C84_zero_refuted",
    "C84_ignored_partial"
   ],
   "note": "Refuted for client and server, and for the zero size. Proved: the size is ignored altogether; it changes neither the outcome nor anything encoded or decoded afterwards."
  },
  {
   "property": "C85",
   "status": "partial",
   "theorems": [
    "C85_client_first",
    "C85_client_final",
    "C85_mandatory",
    "C85_reads_refuted",
    "C85_server_first_extended",
    "C85_verifier_extended",
    "C85_error_extended",
    "C85_server_first_partial",
    "C85_verifier_partial",
    "C85_error_partial",
    "C85_only_server_refuted",
    "C85_only_client_refuted",
    "C85_client_first_exact_partial",
    "C85_server_first_exact_partial",
    "C85_client_final_exact_partial",
    "C85_server_final_exact_partial"
   ],
   "note": "Servers read every client message of the grammar, mandatory extensions are refused. Refuted: clients refuse server messages with optional extensions, and both sides accept messages outside the grammar; what is read is characterised exactly."
  },
  {
   "property": "C86",
   "status": "partial",
   "theorems": [
    "C86_reads_refuted",
    "C86_equals",
    "C86_reads_partial",
    "C86_only_refuted",
    "C86_exact_partial"
   ],
   "note": "Refuted: a response of the grammar in which the value of a key other than auth contains \"=\" is refused, and messages outside the grammar are read. The others are read as meant; what is read is characterised exactly."
  },
  {
   "property": "C87",
   "status": "proved",
   "theorems": [
    "C87_exact"
   ],
   "note": "Both directions, for every byte string."
  },
  {
   "property": "C88",
   "status": "partial",
   "theorems": [
    "C88_plain_reads",
    "C88_external_reads",
    "C88_anonymous_reads",
    "C88_plain_only_refuted",
    "C88_external_only_refuted",
    "C88_anonymous_only_refuted",
    "C88_anonymous_long",
    "C88_plain_only_partial",
    "C88_external_only_partial",
    "C88_anonymous_only_partial",
    "C88_plain_sends",
    "C88_external_sends_refuted",
    "C88_anonymous_sends_refuted"
   ],
   "note": "All messages of the grammars are read. Refuted: also accepted are passwords that are no text, identities with NUL and trace information of any length; EXTERNAL and ANONYMOUS clients send the latter two. Everything else holds. C88_plain_only_partial assumes that saslprep does not turn the empty string into a non-empty one."
  },
  {
   "property": "C89",
   "status": "proved",
   "theorems": [
    "C89_client",
    "C89_server",
    "C89_client_this_cb",
    "C89_server_this_cb",
    "C89_client_unbound",
    "C89_server_unbound"
   ],
   "note": "The collisions are of named values: the AuthMessages of the two views under the keys of the two ends, and the client key the server computes from the proof. C89_*_this_cb: with ThisCb at both ends the values are equal."
  },
  {
   "property": "C90",
   "status": "proved",
   "theorems": [
    "C90_calls",
    "C90_called",
    "C90_rejected",
    "C90_greatest"
   ],
   "note": "C90_calls with C90_called is exact for every preference function; candidates as in C02/C03. Among equals the last registered one is taken."
  },
  {
   "property": "C91",
   "status": "partial",
   "theorems": [
    "C91_aborts_partial",
    "C91_keys",
    "C91_aborts_refuted"
   ],
   "note": "Refuted: the SCRAM client ignores what the application returns when it is told its keys (C91_keys). Everywhere else the error is returned and only the application's own calls follow it."
  },
  {
   "property": "C92",
   "status": "partial",
   "theorems": [
    "C92_server_partial",
    "C92_client_partial",
    "C92_extended",
    "C92_server_refuted"
   ],
   "note": "Refuted for peers that send the optional extensions of RFC 5802 (C92_server_refuted, C92_extended); proved for all peers that send none, with iteration counts up to 2^32-1."
  },
  {
   "property": "C93",
   "status": "proved",
   "theorems": [
    "C93_evidence",
    "C93_value",
    "C93_clients"
   ],
   "note": "The verdict on a token may be negative (C93_refused_example, F37). LOGIN servers allow another password after the application refused one."
  },
  {
   "property": "C94",
   "status": "partial",
   "theorems": [
    "C94_over_refuted",
    "C94_guesses",
    "C94_stateless",
    "C94_scram_partial",
    "C94_gssapi_client_partial",
    "C94_gssapi_server_partial",
    "C94_others_partial",
    "C94_reported"
   ],
   "note": "False as stated (F38): C94_over_refuted. LOGIN servers validate password after password (C94_guesses), PLAIN, EXTERNAL and ANONYMOUS servers have no state (C94_stateless), OAuth servers finish after a failed step that reported a refusal (C94_reported). Holds for SCRAM, GSSAPI clients and, but for failing writers, GSSAPI servers; the others are over, unchanged, or have reported a refusal (C94_others_partial)."
  },
  {
   "property": "C95",
   "status": "partial",
   "theorems": [
    "C95_apart_refuted",
    "C95_text_refuted",
    "C95_xoauth2_partial",
    "C95_plain_partial",
    "C95_plain_only_partial",
    "C95_xoauth2_only_partial",
    "C95_oauthbearer_only_partial",
    "C95_scram_only_partial"
   ],
   "note": "False as stated (F39): C95_apart_refuted, C95_text_refuted. XOAUTH2 servers share no message with SCRAM and OAUTHBEARER servers, PLAIN servers take nothing without NUL, and the regular messages of each of the four mechanisms are taken by its servers only."
  },
  {
   "property": "C96",
   "status": "proved",
   "theorems": [
    "C96_credentials"
   ],
   "note": "From client_start and server_start to the end of the exchange; what a server shows its application depends on the mechanism (shows)."
  },
  {
   "property": "C97",
   "status": "proved",
   "theorems": [
    "C97_one_place",
    "C97_misplaced",
    "C97_reflected"
   ],
   "note": "What can be read in a place is defined by some session in that place reading it (understood), not by the parsers; failing may be the parser panic of finding F3 instead of an error."
  },
  {
   "property": "C98",
   "status": "partial",
   "theorems": [
    "C98_accepting_partial",
    "C98_prefix_partial",
    "C98_complete_refuted",
    "C98_short_refuted",
    "C98_willing_refuted",
    "C98_complete_partial",
    "C98_tail_partial"
   ],
   "note": "False as stated (F40): C98_complete_refuted (failure while the encoder is dropped), C98_short_refuted (short writes cut vectored messages), C98_willing_refuted (short writes make steps fail). Proved: what arrives is a prefix of the encoding; complete for accepting writers, for unfailing writers and mechanisms without vectored writes, for unfailing writers that take what they are offered; at most four characters missing for writers that take all or fail. EncoderWriter (third-party) is modelled from its documentation; how a vectored write is split is left open."
  },
  {
   "property": "C99",
   "status": "proved",
   "theorems": [
    "C99_step",
    "C99_calls",
    "C99_scram"
   ],
   "note": "Bound per step, per sequence of calls and for whole SCRAM sessions; equality reached in the example. GSSAPI tokens come from the library and are not covered."
  },
  {
   "property": "C100",
   "status": "partial",
   "theorems": [
    "C100_start",
    "C100_unoffered",
    "C100_credentials",
    "C100_credentials_choice",
    "C100_working_refuted"
   ],
   "note": "The last part is false (F41): C100_working_refuted. The rest is proved: C100_start (clients and servers start, priority never lower), C100_unoffered; for clients made from credentials also that exchanges complete with any features (C100_credentials, C100_credentials_choice)."
  },
  {
   "property": "C101",
   "status": "partial",
   "theorems": [
    "C101_available_partial",
    "C101_available_refuted",
    "C101_documented_refuted"
   ],
   "note": "False as stated (F41): C101_available_refuted; the example of the documentation is wrong in both directions, C101_documented_refuted. C101_available_partial says exactly what is available."
  },
  {
   "property": "C102",
   "status": "partial",
   "theorems": [
    "C102_order_partial",
    "C102_order_refuted"
   ],
   "note": "False as stated (F41): C102_order_refuted (SCRAM-SHA-256 and SCRAM-SHA-512 have the same priority). C102_order_partial: same priority always, same mechanism unless another candidate has its priority, same server sessions."
  },
  {
   "property": "C103",
   "status": "proved",
   "theorems": [
    "C103_satisfy",
    "C103_action",
    "C103_validate",
    "C103_context",
    "C103_provider"
   ],
   "note": "A model of the erased memory in which a wrong cast is undefined behaviour, proved to compute what the typed model (World.v, Types.v) says. Lifetimes are not modelled."
  },
  {
   "property": "C104",
   "status": "proved",
   "theorems": [
    "C104_first_value",
    "C104_kept",
    "C104_taken",
    "C104_answers",
    "C104_no_panic",
    "C104_no_early_return",
    "C104_builtin",
    "C104_every"
   ],
   "note": "Mechanisms are programs over the operations of MechanismData and the writer (Custom.v) that make finitely many calls on every path. That the mechanism itself follows the contract of Authentication::step (it validates, for example) is its own affair; for the built-in ones see C46, C47, C60, C70. C104_every: every built-in mechanism in every state is a program of this kind, step for step (C104_builtin names the states for all but SCRAM and GSSAPI)."
  },
  {
   "property": "C105",
   "status": "partial",
   "theorems": [
    "C105_message_refuted",
    "C105_message_partial",
    "C105_meaning"
   ],
   "note": "False as stated (F42): C105_message_refuted. C105_message_partial: what every client with these credentials sends; C105_meaning: the documented data is sent only by clients whose password is \"secret\" and a line feed."
  },
  {
   "property": "C106",
   "status": "proved",
   "theorems": [
    "C106_isolated",
    "C106_unaffected",
    "C106_replay"
   ],
   "note": "Calls are atomic, and the per-thread sources of rand count as one, in the order of use (Process.v). The application may change between calls: each call has its own environment."
  },
  {
   "property": "C107",
   "status": "partial",
   "theorems": [
    "C107_stream_refuted",
    "C107_stream_partial",
    "C107_pieces",
    "C107_whole",
    "C107_zero"
   ],
   "note": "False as stated (F43): C107_stream_refuted. C107_stream_partial: true if every token arrives in a piece of its own; C107_pieces: only then; C107_whole: decode never says InputDataRequired. C107_zero: encode does not return Ok(0) as mechanism.rs:82-83 recommends."
  },
  {
   "property": "C108",
   "status": "proved",
   "theorems": [
    "C108_exchange",
    "C108_disagree"
   ],
   "note": "C108_exchange, C108_disagree. Data over the layer: C79_data."
  },
  {
   "property": "C109",
   "status": "partial",
   "theorems": [
    "C109_outcome",
    "C109_determined",
    "C109_silent",
    "C109_own",
    "C109_error_refuted",
    "C109_error_partial"
   ],
   "note": "C109_outcome, C109_determined, C109_silent, C109_own. The last sentence is false (F44): C109_error_refuted; C109_error_partial: true if no start function returns an error."
  },
  {
   "property": "C110",
   "status": "partial",
   "theorems": [
    "C110_message_partial",
    "C110_reply",
    "C110_message_refuted",
    "C110_dummy_refuted"
   ],
   "note": "C110_message_partial: all sessions whose messages have a form. C110_message_refuted: EXTERNAL, ANONYMOUS and LOGIN clients, XOAUTH2 servers and GSSAPI may announce an empty message, as session.rs:488-492 says; C71_nothing is the other direction for all. C110_reply: the OAuth clients announce a message exactly after an error report, and write nothing; C110_dummy_refuted: RFC 7628 demands %x01 (F45)."
  },
  {
   "property": "C111",
   "status": "partial",
   "theorems": [
    "C111_client_partial",
    "C111_client_once",
    "C111_server_partial",
    "C111_server_once",
    "C111_salt_once",
    "C111_all_refuted"
   ],
   "note": "C111_client_partial and C111_server_partial: every word over \"!\" to \"y\" without the comma is reached (with any salt); C111_client_once, C111_server_once and C111_salt_once: by one choice of indices only. C111_all_refuted: words with z, {, |, } or ~, which RFC 5802 allows, are never drawn (F46)."
  },
  {
   "property": "C112",
   "status": "proved",
   "theorems": [
    "C112_done",
    "C112_input",
    "C112_ends",
    "C112_silence",
    "C112_scram",
    "C112_panics"
   ],
   "note": "C112_done, C112_input, C112_ends, C112_silence, C112_scram, C112_panics; that LOGIN goes on when the other side has stopped is C70_final_refuted."
  },
  {
   "property": "C113",
   "status": "proved",
   "theorems": [
    "C113_elsewhere",
    "C113_derived",
    "C113_once"
   ],
   "note": "C113_elsewhere, C113_derived, C113_once; stated as independence of the key derivation function everywhere else. That the iteration count has no upper limit but u32 is finding F30."
  },
  {
   "property": "C114",
   "status": "proved",
   "theorems": [
    "C114_printable",
    "C114_name",
    "C114_byte",
    "C114_known",
    "C114_mechname"
   ],
   "note": "C114_printable, C114_name, C114_byte, C114_known, C114_mechname; Display.v has the texts of all errors. The hypothesis about stringprep's text is needed: see finding F47."
  },
  {
   "property": "C115",
   "status": "partial",
   "theorems": [
    "C115_nothing_refuted",
    "C115_client_refuted",
    "C115_scram_refused",
    "C115_nothing_partial",
    "C115_plain",
    "C115_xoauth2",
    "C115_oauthbearer",
    "C115_gssapi"
   ],
   "note": "Refuted: C115_nothing_refuted, C115_client_refuted (SCRAM servers write their signature before they validate; finding F48). C115_nothing_partial lists all sessions that can have written; C115_scram_refused, C115_plain, C115_xoauth2, C115_oauthbearer, C115_gssapi say what those have written: never a password or token."
  },
  {
   "property": "C116",
   "status": "partial",
   "theorems": [
    "C116_server",
    "C116_client_partial",
    "C116_json",
    "C116_password_refuted",
    "C116_echo_refuted"
   ],
   "note": "Servers: C116_server, for every history and input. Clients: refuted by a binary password (C116_password_refuted) and by a SCRAM server with a binary nonce (C116_echo_refuted, finding F49); C116_client_partial is the claim with these two excepted. That the application's str values are UTF-8 (str_answers) is Rust's typing. C116_json discharges the hypothesis on the JSON library for the modelled writer."
  },
  {
   "property": "C117",
   "status": "partial",
   "theorems": [
    "C117_hidden_partial",
    "C117_clear",
    "C117_stripped_refuted"
   ],
   "note": "True if SCRAM is among the mechanisms the client is told (C117_hidden_partial). Refuted for a server that knows SCRAM when one in the middle passes on only a part of the list (C117_stripped_refuted, finding F50): without SCRAM in the list the client sends the password at once, for all credentials (C117_clear)."
  },
  {
   "property": "C118",
   "status": "partial",
   "theorems": [
    "C118_select",
    "C118_start",
    "C118_sessions",
    "C118_steps_refuted",
    "C118_panics",
    "C118_first_refuted",
    "C118_first_partial"
   ],
   "note": "Selection, start and the two functions: C118_select, C118_start, C118_sessions. Refuted: every step panics (C118_steps_refuted, C118_panics), and the client goes first in X-RSASLTEST-SF (C118_first_refuted, C118_first_partial); finding F51. Selection prefers -SF because it is the later one in the list."
  },
  {
   "property": "C119",
   "status": "partial",
   "theorems": [
    "C119_pieces",
    "C119_dialogue",
    "C119_interrupted_refuted",
    "C119_interrupted_partial"
   ],
   "note": "Pieces: C119_pieces, C119_dialogue (all mechanisms, however the steps end). Interruptions: refuted by a SCRAM client (C119_interrupted_refuted, finding F52); holds for the mechanisms that write by write_all (C119_interrupted_partial)."
  },
  {
   "property": "C120",
   "status": "proved",
   "theorems": [
    "C120_same",
    "C120_noise",
    "C120_shape",
    "C120_bounded",
    "C120_last",
    "C120_silent"
   ],
   "note": "For writers that accept everything; C98 has what goes wrong with others. Exchanges: C120_same; bad lines: C120_noise; shape: C120_shape; finishing together: C120_bounded, C120_last, C120_silent."
  },
  {
   "property": "C121",
   "status": "partial",
   "theorems": [
    "C121_custom_refuted",
    "C121_step_partial",
    "C121_dialogue_partial"
   ],
   "note": "Refuted for mechanisms of other crates (C121_custom_refuted, finding F53); holds for all built-in mechanisms (C121_step_partial, C121_dialogue_partial). That a callback returns is made visible by a last call of satisfy_with, whose evaluation is in the trace."
  },
  {
   "property": "C122",
   "status": "proved",
   "theorems": [
    "C122_client",
    "C122_server",
    "C122_told_client",
    "C122_told_server",
    "C122_first",
    "C122_client_value",
    "C122_unvalidated",
    "C122_unprovided",
    "C122_value",
    "C122_bound",
    "C122_bound_new"
   ],
   "note": "Api.v models the way from the builder to the session. Channel bindings can only be claimed if the application enables them (Inner::cb is always false). prefer and enable_channel_binding are taken to answer alike whenever they are asked."
  },
  {
   "property": "C123",
   "status": "partial",
   "theorems": [
    "C123_declines_partial",
    "C123_custom",
    "C123_demanded",
    "C123_faulty",
    "C123_declines_refuted"
   ],
   "note": "refuted for NoCallback: for every property the mechanisms can do without (AuthzId, AnonymousToken, OAuthBearerKV, OverrideCBType, ChannelBindings, ScramCachedPassword, SaltedPassword, ScramStoredPassword, the GSSAPI security layer) it ends the step where Ok goes on (C123_declines_refuted). C123_declines_partial: Ok and NoValue are the same for all requests, NoCallback too for the other properties, over whole dialogues. C123_demanded and C123_faulty: what a step does that asks for a property always declined, and what is wrong with the documented faulty example. C123_custom: Ok and NoValue are the same to mechanisms of other crates."
  },
  {
   "property": "C124",
   "status": "partial",
   "theorems": [
    "C124_scram_refuted",
    "C124_scram_partial",
    "C124_scram_right",
    "C124_scram_printed",
    "C124_plain_refuted",
    "C124_plain_partial",
    "C124_client_refuted",
    "C124_client_partial",
    "C124_selection"
   ],
   "note": "Refuted: server_plain.rs panics always (C124_plain_refuted), server_scram.rs with any credentials but its own (C124_scram_refuted, C124_scram_partial), client_simple.rs without input or with a NUL (C124_client_refuted). What each of them does is proved exactly."
  },
  {
   "property": "C125",
   "status": "partial",
   "theorems": [
    "C125_client_refuted",
    "C125_client_partial",
    "C125_scram",
    "C125_oauthbearer",
    "C125_oauthbearer_server",
    "C125_server_plain",
    "C125_server_external",
    "C125_server_scram",
    "C125_server_refuted",
    "C125_with_credentials"
   ],
   "note": "Refuted for the clients of SCRAM and OAUTHBEARER (C125_client_refuted, C125_scram, C125_oauthbearer) and for servers (C125_server_refuted); proved for whole dialogues of all other clients (C125_client_partial). C125_with_credentials: what it means for SASLConfig::with_credentials."
  },
  {
   "property": "C126",
   "status": "partial",
   "theorems": [
    "C126_server_refuted",
    "C126_server_partial",
    "C126_server_xoauth2",
    "C126_server_scram",
    "C126_client_refuted",
    "C126_client_plain_partial",
    "C126_client_scram_partial",
    "C126_client_xoauth2",
    "C126_login",
    "C126_scram"
   ],
   "note": "Refuted for servers by LOGIN (C126_server_refuted), and by XOAUTH2 and SCRAM for the name (C126_server_xoauth2, C126_server_scram); C126_server_partial: by no other, and PLAIN never. Refuted for clients by LOGIN and XOAUTH2 (C126_client_refuted, C126_client_xoauth2, C126_login) and, for the password, by SCRAM (C126_scram); proved for PLAIN and for SCRAM names."
  },
  {
   "property": "C127",
   "status": "partial",
   "theorems": [
    "C127_refuted",
    "C127_partial",
    "C127_seen",
    "C127_confused"
   ],
   "note": "Refuted by SCRAM, which shows escaped names (C127_refuted). C127_seen says what is shown in general: PLAIN's prepared name, SCRAM's escaped one, otherwise the client's; C127_partial: the client's name if saslprep leaves it alone and it contains neither ',' nor '='. C127_confused: the user b of PLAIN and the user of SCRAM whose escaped name is b are shown as the same user."
  },
  {
   "property": "C128",
   "status": "partial",
   "theorems": [
    "C128_refuted",
    "C128_partial",
    "C128_seen",
    "C128_tokens",
    "C128_passwords"
   ],
   "note": "Refuted by OAUTHBEARER, which shows the token with its scheme (C128_refuted). C128_seen says what is shown in general, and that the mechanisms not named in secret_as, SCRAM among them, show no secret; C128_partial: the client's secret, if the mechanism is not OAUTHBEARER and saslprep leaves secrets that are text alone. C128_tokens: every token is shown differently by XOAUTH2 and OAUTHBEARER; C128_passwords: PLAIN shows the prepared password, LOGIN the unprepared one."
  },
  {
   "property": "C129",
   "status": "proved",
   "theorems": [
    "C129_patient",
    "C129_complete",
    "C129_lines"
   ],
   "note": "What C20, C21 and C119 say of the built-in mechanisms, for mechanisms as in C104. For code that may also call write once, or an application that keeps the error to itself, the examples C129_example_once and C129_example_swallowed show that a success says less. step64 is that of a writer that accepts everything, as in Session.v."
  },
  {
   "property": "C130",
   "status": "proved",
   "theorems": [
    "C130_dialogue",
    "C130_kinds",
    "C130_credentials",
    "C130_transfers",
    "C130_custom"
   ],
   "note": "C130_dialogue compares callbacks on the events of the exchange only (concur), up to calls of satisfy, satisfy_with and get_action for other properties. C130_kinds combines this with C67. C130_credentials: for applications that offer a list of values, the first value for each documented property decides. Validation callbacks are compared likewise, up to calls for other Validation types (same_verdict). C130_transfers: security layers do not involve the application. Timing and memory are not modelled."
  }
 ]
}