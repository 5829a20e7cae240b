{"id": "C01", "title": "Mechanism names: exact acceptance set", "statement": "Mechname::parse succeeds exactly on the non-empty byte strings made of A-Z, 0-9, '-' and '_', and then returns the very bytes it was given; on failure it reports TooShort for the empty input and otherwise the index and value of the first offending byte.", "quantifier": "every byte string", "why_tests_cant": "The input space is unbounded; tests sample a handful of names.", "anchors": ["src/mechname.rs: Mechname::parse, is_valid"]}
{"id": "C02", "title": "Client never runs a mechanism the server did not offer", "statement": "If starting a client session succeeds, the chosen mechanism is in the client's registry, has a client implementation and its name is one of the names offered by the server.", "quantifier": "every registry, every offered list, every user preference function, channel binding enabled or not", "why_tests_cant": "Quantifies over all registries, offers and preference callbacks; the failing combination (only the -PLUS name offered, only the bare mechanism registered, channel binding on) is easy to miss.", "anchors": ["src/registry.rs: Registry::select, Selection, Matches", "src/mechanisms/scram/mechinfo.rs: ScramSelector1/256/512", "src/sasl.rs: client_start_suggested"]}
{"id": "C03", "title": "Default preference picks a maximal-priority mechanism", "statement": "With the default preference, the selected mechanism has the highest priority among all candidate mechanisms (registered and offered); among equal priorities the one registered last wins.", "quantifier": "every registry and every offered list", "why_tests_cant": "A fold over arbitrary lists; tests fix a few lists.", "anchors": ["src/callback.rs: SessionCallback::prefer", "src/registry.rs: Registry::select"]}
{"id": "C04", "title": "Selection does not depend on the order or repetition of the server's offers", "statement": "Two offered lists that contain the same names (in any order, any number of times) lead to the same selected mechanism, the same channel-binding flag and the same error.", "quantifier": "every registry, every two lists with equal element sets, every preference function", "why_tests_cant": "A relational (2-run) property over unbounded lists.", "anchors": ["src/registry.rs: Registry::select", "src/mechanisms/scram/mechinfo.rs"]}
{"id": "C05", "title": "NoSharedMechanism exactly when nothing is acceptable; selection never panics", "statement": "With the default preference client start fails with NoSharedMechanism exactly if no registered mechanism is a candidate; a preference function that always answers Greater makes every start fail; with built-in mechanisms selection never reaches an unwrap on a missing client or an unreachable!().", "quantifier": "every registry of built-in mechanisms, every offered list", "why_tests_cant": "Absence of panics over all registries/offers cannot be sampled.", "anchors": ["src/registry.rs: Registry::select, Selection::finalize", "src/mechanisms/scram/mechinfo.rs: finalize"]}
{"id": "C06", "title": "Server start honours exactly the registered server mechanisms", "statement": "Starting a server session with a name succeeds exactly if some registered mechanism with that name has a server implementation; the resulting session reports that very name and runs the first such registered mechanism; otherwise NoSharedMechanism.", "quantifier": "every registry and every selected name", "why_tests_cant": "All registries (incl. duplicates and client-only entries).", "anchors": ["src/sasl.rs: server_start_suggested, get_available"]}
{"id": "C07", "title": "An explicit authorization identity is never silently dropped", "statement": "A client configured with SASLConfig::with_credentials(Some(authzid), ..) never selects a mechanism that cannot transmit an authzid: every selectable mechanism puts the (escaped) authzid into its first message or fails; LOGIN is only ever selected without authzid.", "quantifier": "every authzid, authid, password, offered list", "why_tests_cant": "All credentials and all offers; a dropped authzid is a silent privilege confusion.", "anchors": ["src/config.rs: SASLConfig::with_credentials", "src/registry.rs: Registry::credentials", "src/mechanisms/login"]}
{"id": "C08", "title": "Channel binding flag tells the truth", "statement": "A non-PLUS SCRAM client sends flag 'n' if channel binding is disabled, 'y' if it is enabled and the server did not offer the -PLUS variant, 'n' if -PLUS was offered but the bare mechanism was selected, and never 'p'; a -PLUS client always sends 'p='.", "quantifier": "every registry, every offered list, every hash", "why_tests_cant": "State machine over the list of offered names in any order.", "anchors": ["src/mechanisms/scram/mechinfo.rs: ScramSelector*", "src/mechanisms/scram/client.rs: ScramClient::new, send_client_first"]}
{"id": "C09", "title": "SCRAM downgrade detection", "statement": "A SCRAM server whose configuration also contains the -PLUS variant fails on every client-first message carrying flag 'y': the session errors, nothing is written, no callback is asked and nothing is validated. A server without -PLUS accepts 'y'.", "quantifier": "every client-first message with flag y, every callback, every writer", "why_tests_cant": "Universally quantified over the rest of the message and over callbacks.", "anchors": ["src/mechanisms/scram/server.rs: handle_client_first", "src/mechanisms/scram/mechinfo.rs: server"]}
{"id": "C10", "title": "A -PLUS server insists on channel binding", "statement": "A session of a SCRAM-*-PLUS server can only validate a user if the client actually used channel binding (flag p=).", "quantifier": "every exchange", "why_tests_cant": "Quantifies over all client messages.", "anchors": ["src/mechanisms/scram/server.rs: new_plus, handle_client_first"]}
{"id": "C11", "title": "First satisfying value wins, exactly once", "statement": "When a callback satisfies the same request several times the first value is the one used, later calls return Ok and evaluate nothing, and the mechanism's consumer runs at most once.", "quantifier": "every callback program (any sequence of satisfy/satisfy_with/get_action calls with any reaction to their results)", "why_tests_cant": "User callbacks are arbitrary programs; tests only contain well-behaved ones that use `?`.", "anchors": ["src/callback.rs: ClosureCR::satisfy, Request::satisfy, Request::satisfy_with"]}
{"id": "C12", "title": "Requests are type safe", "statement": "satisfy/satisfy_with/get_action for a property other than the requested one (or of the other request kind) have no effect: they return Ok/None, do not run the consumer, do not evaluate the closure and do not change the outcome.", "quantifier": "every property pair, request kind and callback program", "why_tests_cant": "All combinations of properties and call sequences.", "anchors": ["src/callback.rs: Request", "src/typed.rs"]}
{"id": "C13", "title": "Actions are acknowledged exactly by get_action", "statement": "An action request succeeds exactly if the callback took the action value of that property (and did not fail); otherwise NoCallback for that property is reported; the value can be taken only once.", "quantifier": "every callback program", "why_tests_cant": "Arbitrary callback programs.", "anchors": ["src/session.rs: MechanismData::action", "src/callback.rs: Request::get_action"]}
{"id": "C14", "title": "Missing required properties are reported, optional ones are not", "statement": "need_with returns the consumer's value, or the callback's error, or NoCallback(P) if the callback provided nothing; maybe_need_with maps 'nothing provided' and NoValue to None; EarlyReturn never escapes.", "quantifier": "every error-propagating callback program, every consumer", "why_tests_cant": "Arbitrary callbacks/consumers.", "anchors": ["src/session.rs: need_with, maybe_need_with, callback"]}
{"id": "C15", "title": "Context lookup returns the provider's value", "statement": "Context::get_ref::<P> returns the value of the first provider entry for P, None if there is none; combining providers with `and` prefers the left one; providers for other properties never interfere.", "quantifier": "every provider composition and property", "why_tests_cant": "Unbounded compositions.", "anchors": ["src/context.rs: Provider, And, Demand::provide, Context::get_ref"]}
{"id": "C16", "title": "Channel binding data source precedence", "statement": "Channel binding data comes from the protocol's source if it knows the name; the user callback is consulted only otherwise and then sees the requested ChannelBindingName; if neither has it, MissingChannelBindingData(name) is returned.", "quantifier": "every name, protocol source and callback", "why_tests_cant": "Arbitrary sources.", "anchors": ["src/session.rs: maybe_need_cb_data, need_cb_data", "src/channel_bindings.rs"]}
{"id": "C17", "title": "Validation results: first value wins, delivered once", "statement": "The value returned by Session::validation is the first value finalised for the session's validation type; finalising another type or a second time changes nothing; after validation() returned a value it returns None until another validation happens.", "quantifier": "every validation callback program and every interleaving of step and validation calls", "why_tests_cant": "Arbitrary programs and histories.", "anchors": ["src/validate.rs: Validate::finalize, with", "src/session.rs: Session::validation"]}
{"id": "C18", "title": "No security layer without negotiation", "statement": "For every mechanism except GSSAPI, in every reachable state, has_security_layer is false and encode/decode fail with NoSecurityLayer without writing anything; for GSSAPI the same holds until the exchange finished having negotiated one.", "quantifier": "every mechanism, every state, every input", "why_tests_cant": "All states and inputs.", "anchors": ["src/mechanism.rs: Authentication::encode/decode/has_security_layer", "src/mechanisms/gssapi"]}
{"id": "C19", "title": "Vectored writing never duplicates, drops or reorders bytes", "statement": "Whatever short-write pattern the sink shows, the bytes it receives are a prefix of the concatenation of the buffers, the reported count is the length of that prefix, and the whole message is written if the sink neither errs nor returns Ok(0).", "quantifier": "every list of buffers, every sink behaviour", "why_tests_cant": "Every partition of the output into short writes.", "anchors": ["src/vectored_io.rs: VectoredWriter"]}
{"id": "C20", "title": "A successful step means the whole message was handed to the writer", "statement": "If step returns Ok(Running) or Ok(Finished(Yes)), the writer has received the complete message.", "quantifier": "every mechanism, every writer behaviour", "why_tests_cant": "Every writer behaviour, in particular writers returning Ok(0).", "anchors": ["src/vectored_io.rs: write_all_vectored", "src/mechanisms/scram/client.rs", "src/mechanisms/scram/server.rs"]}
{"id": "C21", "title": "step64 is step modulo base64", "statement": "step64 with base64 input behaves as step with the decoded input and writes the base64 of what step would write; input that is not canonical padded base64 is rejected before the mechanism or any callback runs and leaves the session unchanged.", "quantifier": "every session, every input", "why_tests_cant": "All inputs and sessions.", "anchors": ["src/session.rs: step64"]}
{"id": "C22", "title": "Base64 is exact", "statement": "decode(encode(b)) = b for every byte string, and the strict decoder accepts only canonical encodings (decode(s) = b implies s = encode(b)); so two different accepted attribute texts never denote the same data.", "quantifier": "every byte string", "why_tests_cant": "Unbounded inputs.", "anchors": ["src/mechanisms/scram/client.rs, server.rs, src/session.rs: uses of base64::engine::general_purpose::STANDARD"]}
{"id": "C23", "title": "PLAIN client message format", "statement": "A PLAIN client that finishes has written exactly authzid NUL authcid NUL password with the values supplied by the callback, where authcid and password are non-empty and none contains NUL; values containing NUL or empty required values are refused with an error.", "quantifier": "every callback answers, every writer", "why_tests_cant": "All strings, all callbacks.", "anchors": ["src/mechanisms/plain/client.rs: step"]}
{"id": "C24", "title": "PLAIN: what the server validates is what the client sent", "statement": "If the PLAIN client finishes, a server fed with its message validates exactly once, with AuthzId = the client's authzid, AuthId = saslprep(authcid), Password = saslprep(password) (or the raw bytes if it is not UTF-8), or fails because saslprep rejects them; never with a different split of the message.", "quantifier": "every credential triple the client accepts, every saslprep function", "why_tests_cant": "All credentials.", "anchors": ["src/mechanisms/plain/client.rs", "src/mechanisms/plain/server.rs"]}
{"id": "C25", "title": "PLAIN server rejects everything ill-formed", "statement": "The PLAIN server calls validate exactly if the message splits into authzid NUL authcid NUL password with exactly two NULs, valid UTF-8 identities and the length limits it checks; in every other case it errors without calling validate and without output.", "quantifier": "every byte string", "why_tests_cant": "All inputs.", "anchors": ["src/mechanisms/plain/server.rs: step"]}
{"id": "C26", "title": "LOGIN exchange", "statement": "Driving LOGIN client and server against each other, the server prompts twice and then validates exactly once with exactly the client's authid and password; a missing input is reported as InputDataRequired and may be retried without effect on the outcome; after finishing both report MechanismDone.", "quantifier": "every authid/password, any number of spurious empty-handed step calls", "why_tests_cant": "All credentials and interleavings.", "anchors": ["src/mechanisms/login/client.rs", "src/mechanisms/login/server.rs"]}
{"id": "C27", "title": "EXTERNAL and ANONYMOUS transmit the token verbatim", "statement": "The server validates exactly once with exactly the authzid/trace token the client's callback supplied (empty if none); invalid UTF-8 is an error and never validated.", "quantifier": "every token / byte string", "why_tests_cant": "All inputs.", "anchors": ["src/mechanisms/external", "src/mechanisms/anonymous"]}
{"id": "C28", "title": "XOAUTH2 round trip", "statement": "If the XOAUTH2 client finishes its first message, the server extracts exactly the client's user and token.", "quantifier": "every user and token", "why_tests_cant": "All strings, including those containing control bytes.", "anchors": ["src/mechanisms/xoauth2/client.rs", "src/mechanisms/xoauth2/server.rs"]}
{"id": "C29", "title": "XOAUTH2 error flow", "statement": "The XOAUTH2 server reports Finished without output if validation reports success; otherwise it writes exactly the error text returned by the callback, returns Running and finishes on the next message. The client treats an absent or empty server reply as success and otherwise hands exactly the received error to the application, failing if it is not handled.", "quantifier": "every error text and callback", "why_tests_cant": "All callbacks.", "anchors": ["src/mechanisms/xoauth2/client.rs", "src/mechanisms/xoauth2/server.rs"]}
{"id": "C30", "title": "OAUTHBEARER round trip", "statement": "If the OAUTHBEARER client sends its first message, the server extracts exactly the client's authzid, token and key/value pairs.", "quantifier": "every authzid, token and list of pairs", "why_tests_cant": "All strings, including those containing separators.", "anchors": ["src/mechanisms/oauthbearer/client.rs", "src/mechanisms/oauthbearer/parser.rs", "src/mechanisms/oauthbearer/server.rs"]}
{"id": "C31", "title": "SCRAM name escaping is unambiguous", "statement": "escape is injective, its output never contains ',' and contains '=' only as part of =2C/=3D, and RFC 5802 unescaping recovers the original name; names that are empty or contain NUL are refused.", "quantifier": "every string", "why_tests_cant": "All strings.", "anchors": ["src/mechanisms/scram/parser.rs: SaslName::escape"]}
{"id": "C32", "title": "SCRAM unescape inverts escape", "statement": "unescape(escape(name)) terminates and equals name for every non-empty NUL-free name; unescape never panics.", "quantifier": "every string", "why_tests_cant": "All strings.", "anchors": ["src/mechanisms/scram/parser.rs: SaslName::unescape"]}
{"id": "C33", "title": "The SCRAM server sees the identity the client sent", "statement": "The AuthId and AuthzId the server hands to its callbacks are exactly the strings supplied by the client's callback.", "quantifier": "every authid and authzid", "why_tests_cant": "All strings, including those with ',' and '='.", "anchors": ["src/mechanisms/scram/client.rs: send_client_first", "src/mechanisms/scram/server.rs: handle_client_first", "src/mechanisms/scram/parser.rs"]}
{"id": "C34", "title": "SCRAM messages parse back", "statement": "Each message the SCRAM implementation writes is parsed by the peer's parser to the same fields: client-first, server-first, client-final and server-final.", "quantifier": "every field value the writer can produce", "why_tests_cant": "Unbounded fields.", "anchors": ["src/mechanisms/scram/parser.rs"]}
{"id": "C35", "title": "Network input never panics a session", "statement": "No byte string received from the peer makes step panic, for any mechanism in any state reachable by a protocol-conforming caller.", "quantifier": "every input, every reachable state, every mechanism", "why_tests_cant": "Unbounded inputs; the crashing inputs are extremely short messages nobody writes a test for.", "anchors": ["src/mechanisms/scram/parser.rs: parse", "src/mechanisms/*/server.rs", "src/mechanisms/*/client.rs"]}
{"id": "C36", "title": "SCRAM completeness", "statement": "If the server's stored keys are derived from the client's password with the stored salt and iteration count, then for all nonces, names and channel bindings both sides finish, the server validates exactly once with the client's (escaped) identity and the client accepts the server's signature.", "quantifier": "every password, salt, iteration count 1..2^32-1, name, nonce, channel binding, hash/HMAC/PBKDF2 function with the right output length", "why_tests_cant": "Parametric in the cryptographic functions and all data.", "anchors": ["src/mechanisms/scram/client.rs", "src/mechanisms/scram/server.rs", "src/mechanisms/scram/tools.rs"]}
{"id": "C37", "title": "SCRAM server soundness", "statement": "The server validates or writes a v= verifier only if the client's proof P satisfies H(P xor HMAC(StoredKey, AuthMessage)) = StoredKey for the stored key the application supplied for that user, with the nonce and channel binding matching those of this session.", "quantifier": "every message pair, every callback, every crypto function", "why_tests_cant": "Quantifies over all attacker messages.", "anchors": ["src/mechanisms/scram/server.rs: handle_client_final", "src/mechanisms/scram/tools.rs: compute_signatures"]}
{"id": "C38", "title": "SCRAM client verifies the server", "statement": "A SCRAM client reports Finished only if the server's final message is v= followed by the base64 of HMAC(ServerKey, AuthMessage) of this exchange; error messages or wrong verifiers make it fail.", "quantifier": "every server message sequence, every callback", "why_tests_cant": "All attacker messages.", "anchors": ["src/mechanisms/scram/client.rs: handle_server_first, handle_server_final"]}
{"id": "C39", "title": "SCRAM signs the whole conversation", "statement": "The AuthMessage signed by either side is client-first-bare ',' server-first ',' client-final-without-proof of the messages actually exchanged (RFC 5802 section 3).", "quantifier": "every accepted message pair", "why_tests_cant": "All messages including ones with extensions.", "anchors": ["src/mechanisms/scram/tools.rs: compute_signatures", "src/mechanisms/scram/parser.rs: ClientFirstMessage::parse, ClientFinal::parse"]}
{"id": "C40", "title": "The AuthMessage binds every parameter", "statement": "Two exchanges with equal AuthMessage agree on user name, client nonce, full nonce, salt, iteration count and channel binding.", "quantifier": "every two parameter tuples of comma-free fields", "why_tests_cant": "Relational, unbounded.", "anchors": ["src/mechanisms/scram/tools.rs: compute_signatures"]}
{"id": "C41", "title": "SCRAM nonce freshness checks", "statement": "A client sends its proof only in answer to a server nonce that strictly extends its own nonce; a server accepts only the exact nonce it issued; each session uses freshly drawn nonces of 24 printable non-comma characters.", "quantifier": "every message, every random stream", "why_tests_cant": "All inputs and random streams.", "anchors": ["src/mechanisms/scram/client.rs: handle_server_first", "src/mechanisms/scram/server.rs: handle_client_final", "src/mechanisms/scram/tools.rs: generate_nonce"]}
{"id": "C42", "title": "SCRAM channel binding is verified", "statement": "If a server validates a client that announced p=name, the client's c= attribute decodes to the exact GS2 header followed by the server's own channel binding data for that name; different binding data on the two ends never validates.", "quantifier": "every message, every channel binding data", "why_tests_cant": "All data.", "anchors": ["src/mechanisms/scram/server.rs: handle_client_first, handle_client_final"]}
{"id": "C43", "title": "Unknown users are never validated", "statement": "If the application has no stored password for the user, the exchange still produces a well-formed server-first message, and ends with e=unknown-user without validating, whatever the client sends next.", "quantifier": "every client message", "why_tests_cant": "All continuations.", "anchors": ["src/mechanisms/scram/server.rs: bad_user, handle_client_final"]}
{"id": "C44", "title": "SCRAM client leaks nothing to a malformed server", "statement": "If the server-first message is malformed, has a wrong nonce, a bad iteration count or bad salt, the client errors having written nothing and without asking for any password or key.", "quantifier": "every server message", "why_tests_cant": "All messages.", "anchors": ["src/mechanisms/scram/client.rs: handle_server_first"]}
{"id": "C45", "title": "SCRAM cached keys are equivalent to the password", "statement": "Supplying the cached client/server keys or the salted password instead of the password leads to the same client-final message and the same acceptance of the server; the keys offered for caching after success are exactly the keys used.", "quantifier": "every password, salt, iteration count", "why_tests_cant": "All data, any hash.", "anchors": ["src/mechanisms/scram/client.rs: handle_server_first, handle_server_final"]}
{"id": "C46", "title": "InputDataRequired is recoverable", "statement": "A step that fails with InputDataRequired leaves the session as it was: calling step again with data behaves as if the failed call had not happened.", "quantifier": "every mechanism, state, and later input", "why_tests_cant": "Histories with spurious calls.", "anchors": ["src/mechanism.rs: Authentication::step docs", "src/mechanisms/scram", "src/mechanisms/gssapi"]}
{"id": "C47", "title": "Servers validate exactly once", "statement": "Every server-side step sequence that reaches Finished has called the validate callback exactly once; no sequence calls it more than once before finishing.", "quantifier": "every mechanism, every input sequence", "why_tests_cant": "All input sequences.", "anchors": ["src/mechanism.rs docs", "src/mechanisms/*/server.rs"]}
{"id": "C48", "title": "Context offers a fixed set of properties", "statement": "The set of properties a mechanism's validation context answers does not depend on the message (an absent authzid is reported as a sentinel, not as a missing property).", "quantifier": "every message", "why_tests_cant": "All messages.", "anchors": ["src/context.rs: Context::get_ref docs", "src/mechanisms/plain/server.rs", "src/mechanisms/scram/server.rs: Prov", "src/mechanisms/oauthbearer/server.rs: Prov"]}
{"id": "C49", "title": "Exchanges terminate", "statement": "Every session of a built-in mechanism other than GSSAPI returns Running at most a fixed number of times; afterwards every step finishes or fails.", "quantifier": "every mechanism, every input sequence", "why_tests_cant": "Infinite families of histories.", "anchors": ["src/mechanisms/*/client.rs", "src/mechanisms/*/server.rs"]}
{"id": "C50", "title": "Finished mechanisms refuse further steps", "statement": "After a mechanism returned Finished, every further step fails with MechanismDone and writes nothing.", "quantifier": "every mechanism and input", "why_tests_cant": "All histories.", "anchors": ["src/mechanisms"]}
{"id": "C51", "title": "GSSAPI client installs only an acceptable layer", "statement": "The security layer a GSSAPI client installs is both acceptable to the application and offered by the server, and confidentiality is only installed if the GSS context provides it.", "quantifier": "every GSS library behaviour, every server offer, every acceptable set", "why_tests_cant": "Oracle-quantified.", "anchors": ["src/mechanisms/gssapi/client.rs: step"]}
{"id": "C52", "title": "GSSAPI server installs only a layer it offered", "statement": "The security layer a GSSAPI server installs was in the set it offered; a server that does not accept 'no security layer' never finishes without one.", "quantifier": "every client reply, every GSS behaviour", "why_tests_cant": "Oracle-quantified.", "anchors": ["src/mechanisms/gssapi/server.rs: step"]}
{"id": "C53", "title": "GSSAPI server completes multi-leg contexts", "statement": "A GSSAPI server whose context needs several tokens keeps the context across steps until it is established.", "quantifier": "every GSS library behaviour", "why_tests_cant": "Needs a multi-leg GSS implementation.", "anchors": ["src/mechanisms/gssapi/server.rs: step"]}
{"id": "C54", "title": "GSSAPI encode/decode cover the whole input", "statement": "With a negotiated layer, encode/decode pass exactly the caller's bytes to the GSS wrap/unwrap operation with the negotiated confidentiality flag, write exactly its output and report the full input length.", "quantifier": "every input and GSS behaviour", "why_tests_cant": "Oracle-quantified.", "anchors": ["src/mechanisms/gssapi/client.rs: encode, decode", "src/mechanisms/gssapi/server.rs: encode, decode"]}
{"id": "C55", "title": "OAUTHBEARER error flow", "statement": "The OAUTHBEARER server reports Finished without output if validation reports success; otherwise it writes exactly the serialised error returned by the callback, returns Running and finishes on the next message. The client treats an absent or empty server reply as success and otherwise hands exactly the decoded error to the application, failing if it cannot be decoded or is not handled.", "quantifier": "every error value and callback", "why_tests_cant": "All callbacks and errors.", "anchors": ["src/mechanisms/oauthbearer/client.rs", "src/mechanisms/oauthbearer/server.rs"]}
{"id": "C56", "title": "Iteration counts are decimal numbers, written and read", "statement": "The iteration count in server-first is written in its one decimal notation without leading zeros, exactly the RFC 5802 posit-number notations of u32 values are read, and a written number is read back as itself.", "quantifier": "every u32 and every byte string", "why_tests_cant": "2^32 numbers and all strings.", "anchors": ["src/mechanisms/scram/client.rs: step, ServerFirst iteration count", "src/mechanisms/scram/server.rs: handle_client_first, itoa"]}
{"id": "C57", "title": "Built-in mechanisms go by their registered names", "statement": "Every built-in mechanism is registered under its IANA name, every one of these is a legal SASL mechanism name, and no two mechanisms share one.", "quantifier": "every built-in mechanism", "why_tests_cant": "Exhaustive over the table, tied to the name grammar.", "anchors": ["src/mechanisms/*/mod.rs: Mechanism::build", "src/mechname.rs"]}
{"id": "C58", "title": "The client prefers mechanisms in the documented order", "statement": "Whatever registry and offer, the mechanism chosen with the default preference is at least as high in the order documented in registry.rs (GSSAPI, SCRAM-SHA-256, SCRAM-SHA-1, PLAIN, LOGIN, ANONYMOUS/EXTERNAL) as every other mechanism both sides have; never a clear-text password mechanism if SCRAM is shared, never bare SCRAM if its -PLUS variant is a candidate.", "quantifier": "every registry and every offered list", "why_tests_cant": "All registries and offers.", "anchors": ["src/registry.rs:10-17", "src/mechanisms/*/mod.rs: priorities", "src/config.rs: select_mechanism"]}
{"id": "C59", "title": "with_credentials chooses in the documented order", "statement": "A client configured with credentials chooses, for every offer, the first offered mechanism of its documented list, and fails exactly if none is offered.", "quantifier": "every offered list", "why_tests_cant": "All offers.", "anchors": ["src/config.rs:116-127"]}
{"id": "C60", "title": "The side that goes first begins, the other one waits", "statement": "are_we_first names the side the mechanism's specification lets begin; that side does not need input for its first step; the other side fails without input.", "quantifier": "every mechanism, side, callback and writer", "why_tests_cant": "All configurations.", "anchors": ["src/session.rs:64-79", "src/mechanism.rs:35-49"]}
{"id": "C61", "title": "The default registry enables all known mechanisms", "statement": "The default registry contains every built-in mechanism exactly once.", "quantifier": "every built-in mechanism", "why_tests_cant": "Exhaustive over the table.", "anchors": ["src/registry.rs:5-6", "src/registry.rs:194-219"]}
{"id": "C62", "title": "A refusing SCRAM server names the cause, the client passes it on", "statement": "A SCRAM server answers a well-formed but wrong client-final message with the RFC 5802 error value for its fault (channel-bindings-dont-match, invalid-proof, unknown-user), fails for undecodable attributes, and never asks the application in these cases. A client that receives e=VALUE fails with exactly this value, or other-error for values RFC 5802 does not list.", "quantifier": "every state, message, proof and stored password", "why_tests_cant": "All faulty messages.", "anchors": ["src/mechanisms/scram/server.rs:280-378", "src/mechanisms/scram/parser.rs:510-587", "src/mechanisms/scram/client.rs:417-449"]}
{"id": "C63", "title": "SCRAM does not reveal whether a user exists", "statement": "The server's messages to a client that does not know the password are the same for existing and unknown users.", "quantifier": "every user, stored password and message", "why_tests_cant": "A relation between two runs, for all messages.", "anchors": ["src/mechanisms/scram/server.rs:190-226", "src/mechanisms/scram/server.rs:361-372"]}
{"id": "C64", "title": "A GSSAPI server accepts a final token with an authorization identity", "statement": "After the security layer negotiation the server accepts a client token that names a supported layer and carries a UTF-8 authorization identity behind the four octets, as RFC 4752 section 3.1 allows.", "quantifier": "every context, layer choice and identity", "why_tests_cant": "Unbounded token contents; depends on an abstract GSS library.", "anchors": ["src/mechanisms/gssapi/server.rs:104-139"]}
{"id": "C65", "title": "Key material of the wrong length is refused", "statement": "A SCRAM server given a stored password whose keys do not have the length of the hash, and a SCRAM client given such cached keys, fail with an error before sending anything.", "quantifier": "every message, key and callback", "why_tests_cant": "All lengths and all messages.", "anchors": ["src/mechanisms/scram/server.rs:164-188", "src/mechanisms/scram/client.rs:303-321"]}
{"id": "C66", "title": "Text shown to the application is UTF-8", "statement": "Every identity, anonymous token, OAuth token and key/value pair in a context a server hands to the application, and every channel binding name it looks up, is UTF-8 text (RFC 3629), after any history of steps with any input. One of these strings is made by from_utf8_unchecked, so its soundness depends on this.", "quantifier": "every server mechanism, history and input", "why_tests_cant": "Unbounded inputs and histories.", "anchors": ["src/mechanisms/scram/parser.rs:194-216", "src/mechanisms/scram/parser.rs:250-290", "src/mechanisms/oauthbearer/parser.rs:33-81", "src/mechanisms/xoauth2/server.rs:63-119", "src/mechanisms/plain/server.rs:28-88", "src/mechanisms/login/server.rs:43-96"]}
{"id": "C67", "title": "Mechanisms involve the application only as documented", "statement": "Whatever a step is fed and whatever the application answers, the mechanism asks for, announces and shows for validation only the properties mechanisms/mod.rs documents, with contexts that answer exactly the documented properties, and in the documented order; encoding and decoding involve the application not at all.", "quantifier": "every mechanism, state, input and callback", "why_tests_cant": "All states, inputs and callback behaviours.", "anchors": ["src/mechanisms/mod.rs:27-235", "src/mechanisms/scram/client.rs:154-346", "src/mechanisms/gssapi/client.rs:60-140", "src/mechanisms/oauthbearer/server.rs:60-150"]}
{"id": "C68", "title": "The example applications decide as they claim", "statement": "examples/server_plain.rs reaches the verdicts its assertions state (unknown user, wrong password, foreign authorization identity, accepted) for every message; examples/server_scram.rs accepts exactly clients that prove to know the password of \"username\" and gives no verdict about anybody else; examples/client_simple.rs sends the credentials typed in; clients made from credentials prefer the mechanisms in the documented order.", "quantifier": "every message, callback-visible environment, hash function and offer", "why_tests_cant": "All messages and all offers; the examples run one message each.", "anchors": ["examples/server_plain.rs:20-150", "examples/server_scram.rs:27-160", "examples/client_simple.rs:1-58", "examples/mechanism_selection.rs:1-18"]}
{"id": "C69", "title": "Errors mean what they are documented to mean", "statement": "Every error a step returns has a cause in the input, the application, the writer or the mechanism's state. In particular: failed mutual authentication is reported only to clients of mechanisms with mutual authentication, for a wrong server signature; required input only without input; a missing property only for a request or announcement that went unanswered; being finished only after finishing or failing; a missing validation whenever the application validated nothing; and mechanism errors are of kind Parse for syntactical errors, Protocol for semantical errors in well-formed messages and Outcome for a negative verdict.", "quantifier": "every mechanism, state, input, application and writer", "why_tests_cant": "Each error can arise in any step of any mechanism, and the absence of other causes is not observable.", "anchors": ["src/error.rs:10-120", "src/mechanisms/scram/client.rs:417-527", "src/mechanisms/scram/server.rs:41-60", "src/mechanisms/oauthbearer/properties.rs:10-30", "src/mechanisms/gssapi/server.rs:60-140"]}
{"id": "C70", "title": "A step without data keeps no exchange going", "statement": "A mechanism that waits for data and is stepped with none, or with empty data, never returns Running; the final step without input that session.rs demands after the other side declared the exchange complete writes nothing and finishes or fails; mechanisms that authenticate the server fail.", "quantifier": "every built-in mechanism, reachable state, application and writer", "why_tests_cant": "Every reachable state of every mechanism, with arbitrary applications.", "anchors": ["src/mechanism.rs:36-49", "src/session.rs:84-92", "src/mechanisms/login/client.rs:24-60"]}
{"id": "C71", "title": "A client and a server finish together", "statement": "When a client and a server of the same mechanism other than GSSAPI take turns, then, whatever their applications do, at most four messages are sent; Finished is only returned when no further message is to come: if a side finishes with a message, the other one does not answer it, and if a side finishes without one, the final step of the other one finishes too. In every mechanism, a step that finishes without a message has written nothing.", "quantifier": "every pair of applications and credentials, every built-in mechanism but GSSAPI", "why_tests_cant": "All combinations of answers of two applications; no test runs both sides of every mechanism.", "anchors": ["src/mechanism.rs:29-35", "src/session.rs:84-120", "src/session.rs:436-505"]}
{"id": "C72", "title": "SCRAM keys and names are those of RFC 5802", "statement": "With SHA-1, SHA-2, HMAC and PBKDF2 as the standards define them, a SCRAM user is accepted whose stored keys were made as RFC 5802 says, SaltedPassword = Hi(Normalize(password), salt, i), whatever form the password is typed in; the user name is looked up normalised (RFC 5802 sections 2.2, 3 and 5.1, Normalize = SASLprep).", "quantifier": "every name, password, salt, iteration count, hash, pair of applications", "why_tests_cant": "All passwords and salts; the tests use ASCII passwords, which normalise to themselves.", "anchors": ["src/mechanisms/scram/tools.rs:19-24", "src/mechanisms/scram/tools.rs:28-99", "src/mechanisms/scram/client.rs:334-346", "src/mechanisms/scram/server.rs:121-229"]}
{"id": "C73", "title": "What an exchange depends on", "statement": "The messages and results of a SCRAM client depend on the password only by way of the salted passwords PBKDF2 derives from it. In every mechanism, the value an application hands over in its validation callback influences neither messages nor results.", "quantifier": "every sequence of messages, writer and pair of applications that differ in these values only; every built-in mechanism", "why_tests_cant": "A relation between two runs, for all pairs of values.", "anchors": ["src/mechanisms/scram/client.rs:303-388", "src/mechanisms/scram/tools.rs:28-99", "src/validate.rs:120-164", "src/session.rs:121-166"]}
{"id": "C74", "title": "The interop programs work together", "statement": "The interop test client, with the credentials the interop server expects, and the interop server always end, however they are scheduled: with PLAIN, LOGIN and SCRAM-SHA-256 the client returns the line OK VALID with the identities and, where the server knows it, the password; with a wrong SCRAM password or user the server writes ERR NOTVALID. Whatever its client does, the server ends well only after a session of the mechanism named in the first line has finished, and its last line is the validation of that session.", "quantifier": "every interleaving of the two programs, every name and password of one line, all hash functions and nonces, every peer of the server", "why_tests_cant": "All interleavings and credentials; the tests in the repository run one login each.", "anchors": ["interop/src/bin/server.rs:21-96", "interop/src/bin/server.rs:131-250", "interop/src/tests/common/mod.rs:7-80", "interop/src/tests/plain.rs:7-13", "interop/src/tests/scram.rs:7-13"]}
{"id": "C75", "title": "How SCRAM exchanges end", "statement": "For every password of the client and every usable entry of the server, a SCRAM exchange ends in one of three ways: if the client's proof fits the stored key, the server validates and finishes, and the client finishes if the signature fits its own server key and reports EMutualAuthenticationFailed otherwise; if the proof does not fit, the server sends e=invalid-proof, does not validate, and the client reports that error. Without an entry it is e=unknown-user.", "quantifier": "every password, name, authorization identity, entry, channel binding, hash function, nonce", "why_tests_cant": "All combinations of credentials and entries; tests run the success case.", "anchors": ["src/mechanisms/scram/server.rs:121-452", "src/mechanisms/scram/client.rs:283-520"]}
{"id": "C76", "title": "Every listed mechanism works with the interop programs", "statement": "With the credentials the interop server knows, the client programs of the interop directory complete an exchange with the interop server for every mechanism that both list.", "quantifier": "every mechanism, environment, interleaving", "why_tests_cant": "Needs all mechanisms and both client programs; the repository tests three mechanisms with one of them.", "anchors": ["interop/src/bin/server.rs:35-52", "interop/src/bin/server.rs:140-156", "interop/src/bin/client.rs:140-238"]}
{"id": "C77", "title": "Both ends of SCRAM agree", "statement": "Whoever carries, changes or replaces the messages: if a client session accepts the message a server session wrote, or a server session accepts the proof a client session made (and has the stored key of the client's key), then both sessions hold the same user, authorization identity, nonces, salt, iteration count, channel binding flag and binding data, and the messages arrived unchanged except for attributes the server ignores - unless HMAC gives one value for the two different conversations, or the hash one for two keys.", "quantifier": "every attacker in the middle: all messages delivered are arbitrary; all applications, hash functions, nonces, channels", "why_tests_cant": "All ways to interfere with an exchange; tests deliver messages unchanged.", "anchors": ["src/mechanisms/scram/client.rs:283-520", "src/mechanisms/scram/server.rs:121-452", "src/mechanisms/scram/tools.rs:18-156"]}
{"id": "C78", "title": "SCRAM messages cannot be replayed", "statement": "A client-final message is accepted only by server sessions with the server nonce it was made for, and a client's proof only under one server nonce and in answer to one server-first message, whatever is written around it (up to a collision as in C77). So a recorded conversation is refused by a session that draws other random numbers.", "quantifier": "every pair of server sessions, recorded conversation, replayed message", "why_tests_cant": "All recorded conversations and later sessions.", "anchors": ["src/mechanisms/scram/server.rs:121-452"]}
{"id": "C79", "title": "GSSAPI peers agree on the layer and data arrives", "statement": "Over GSS libraries that work together, with one token each way and mutual authentication, a GSSAPI client and server finish with the strongest security layer both applications accept and the server's context can provide; if there is none the client refuses with BadContext. Afterwards any data sent in either direction, in any interleaving, arrives unchanged and in order.", "quantifier": "all applications, layer sets, context flags and linked GSS libraries; every sequence of data in both directions", "why_tests_cant": "All pairs of layer sets and all traffic afterwards; the tests need a Kerberos server.", "anchors": ["src/mechanisms/gssapi/client.rs:46-195", "src/mechanisms/gssapi/server.rs:50-174"]}
{"id": "C80", "title": "OAUTHBEARER error reports are JSON and arrive", "statement": "The OAUTHBEARER server writes every error its application returns as the JSON object of RFC 7628 section 3.2.2 (with the grammar of RFC 8259); the client reads exactly such objects; so the client's application is handed the error that the server's application returned.", "quantifier": "all errors of arbitrary text, all JSON texts", "why_tests_cant": "All strings and all JSON texts; the tests never send an error.", "anchors": ["src/mechanisms/oauthbearer/properties.rs:28-71", "src/mechanisms/oauthbearer/server.rs:58-83", "src/mechanisms/oauthbearer/client.rs:70-87"]}
{"id": "C81", "title": "A SCRAM server reveals nothing of the stored keys before the proof", "statement": "Two SCRAM servers whose stored passwords differ only in StoredKey and ServerKey send the same bytes and end every step the same way, whatever they receive, until a message contains the proof that one of them waits for.", "quantifier": "all stored passwords, all sequences of messages and writer behaviours, all hash functions of the right output length", "why_tests_cant": "Relates all pairs of keys and all message sequences; a test compares single runs.", "anchors": ["src/mechanisms/scram/server.rs:121-229", "src/mechanisms/scram/server.rs:280-378", "src/mechanisms/scram/server.rs:426-455"]}
{"id": "C82", "title": "Which random numbers a session uses", "statement": "Only the first step of SCRAM draws random numbers: 24 for the nonce of a client, 24 for that of a server and 32 more for the salt of an unknown user. A session draws in its first step or never, and what it sends and becomes depends on no other random numbers than those it drew; security layers draw none.", "quantifier": "all mechanisms, sessions, sequences of inputs, writer behaviours and sources of randomness", "why_tests_cant": "Quantifies over all sources of random numbers and message sequences; tests use one generator.", "anchors": ["src/mechanisms/scram/client.rs:458-470", "src/mechanisms/scram/server.rs:188-218", "src/mechanisms/scram/tools.rs:12-15"]}
{"id": "C83", "title": "SCRAM clients accept only a protecting salt and iteration count", "statement": "A SCRAM client proves its password only under a non-empty salt and an iteration count of at least 4096, as RFC 5802 and RFC 7677 recommend; it tells the application salt and count before it asks for the secret.", "quantifier": "all client sessions waiting for the server's first message, all messages, applications and writers", "why_tests_cant": "Quantifies over all salts, counts and applications; the tests use one well-formed message.", "anchors": ["src/mechanisms/scram/client.rs:265-346", "src/mechanisms/scram/client.rs:529-539"]}
{"id": "C84", "title": "GSSAPI respects announced message sizes", "statement": "A side of a GSSAPI exchange sends no protected message longer than the other side said it can receive, and refuses a non-zero size from a side that offers or selects no security layer (RFC 4752, section 3).", "quantifier": "all client and server sessions that wait for the token with layers and size, all tokens, all later sequences of encode and decode calls, all libraries and writers", "why_tests_cant": "Quantifies over all sizes, data and call sequences; no test uses GSSAPI.", "anchors": ["src/mechanisms/gssapi/client.rs:129-196", "src/mechanisms/gssapi/server.rs:119-175"]}
{"id": "C85", "title": "SCRAM reads the messages of RFC 5802", "statement": "A SCRAM session reads exactly the messages of the grammar in RFC 5802, section 7, ignores optional extensions, and refuses mandatory ones.", "quantifier": "all messages of the grammar with any number of extensions, all byte strings, all sessions waiting for them", "why_tests_cant": "Quantifies over all messages and extensions; the tests parse a handful of well-formed messages.", "anchors": ["src/mechanisms/scram/parser.rs:193-290", "src/mechanisms/scram/parser.rs:369-410", "src/mechanisms/scram/parser.rs:444-481", "src/mechanisms/scram/parser.rs:553-580"]}
{"id": "C86", "title": "OAUTHBEARER reads the client responses of RFC 7628", "statement": "An OAUTHBEARER server reads exactly the client responses of the grammar in RFC 7628, section 3.1, with one token, and asks the application about what they say.", "quantifier": "all responses of the grammar with any keys and values, all byte strings, all applications and writers", "why_tests_cant": "Quantifies over all responses and byte strings; the tests parse a handful of messages.", "anchors": ["src/mechanisms/oauthbearer/parser.rs:33-81", "src/mechanisms/oauthbearer/server.rs:43-83"]}
{"id": "C87", "title": "XOAUTH2 reads exactly its message format", "statement": "An XOAUTH2 server asks the application about user U and token T exactly if the message is user=U^Aauth=Bearer T^A^A with U and T UTF-8 text and no ^A in U, and refuses every other message before asking.", "quantifier": "all byte strings, all applications and writers", "why_tests_cant": "Quantifies over all byte strings; the tests use one message.", "anchors": ["src/mechanisms/xoauth2/server.rs:62-110"]}
{"id": "C88", "title": "PLAIN, EXTERNAL and ANONYMOUS keep to the grammar of their RFCs", "statement": "Servers accept exactly, and clients send only, the messages of RFC 4616 (PLAIN), RFC 4422 appendix A (EXTERNAL) and RFC 4505 (ANONYMOUS).", "quantifier": "all byte strings, all applications, saslprep functions and writers", "why_tests_cant": "Quantifies over all messages, also long ones; the tests use a few short ones.", "anchors": ["src/mechanisms/plain/server.rs:28-88", "src/mechanisms/plain/client.rs:12-58", "src/mechanisms/external/server.rs:23-33", "src/mechanisms/external/client.rs:11-24", "src/mechanisms/anonymous/server.rs:10-34", "src/mechanisms/anonymous/client.rs:11-22"]}
{"id": "C89", "title": "Channel binding keeps out one in the middle", "statement": "When a SCRAM client that uses channel binding accepts a server session, or a server session accepts a client's proof, with any attacker between them, both have the same binding data for the same binding name; a client that could have used channel binding but was told that the server cannot is not accepted by a server that offers it. Without binding data a -PLUS client sends nothing, and a server does not go on.", "quantifier": "all attackers, applications, channels, random numbers, hash and HMAC functions; up to a collision of the two AuthMessages or of the client key named in the theorem", "why_tests_cant": "Quantifies over all messages an attacker could substitute and all pairs of channels.", "anchors": ["src/channel_bindings.rs:5-41", "src/mechanisms/scram/client.rs:160-236", "src/mechanisms/scram/server.rs:140-175", "src/session.rs:378-416"]}
{"id": "C90", "title": "The client's preference decides which mechanism runs", "statement": "The preference function is called once for every registered mechanism the server's offer makes a candidate, in registry order, with the mechanism preferred so far; a mechanism it always answers with Greater is never started, and if it compares acceptable mechanisms by an order and refuses the others, a greatest acceptable one is started, or none if there is none.", "quantifier": "all registries, offers and preference functions", "why_tests_cant": "Preference functions and offers are unbounded; the tests use the default preference.", "anchors": ["src/callback.rs:93-113", "src/registry.rs:230-267"]}
{"id": "C91", "title": "Errors of the application end the exchange", "statement": "An error that the application returns from its callback, other than NoValue and EarlyReturn, or from its validation callback, ends the step at once and is what the step returns.", "quantifier": "all mechanisms, states, inputs, writers and applications", "why_tests_cant": "Quantifies over all applications and all points at which they can fail.", "anchors": ["src/callback.rs:115-130", "src/session.rs:313-394", "src/mechanisms/scram/client.rs:417-449", "src/error.rs:40-103"]}
{"id": "C92", "title": "SCRAM works with every peer that follows RFC 5802", "statement": "The SCRAM server accepts every client that knows the password and follows RFC 5802, and answers with the signature that client expects; the SCRAM client logs in to every server that has the keys of its password and follows RFC 5802.", "quantifier": "all peers described by the grammar and computations of RFC 5802, all users, passwords, salts, iteration counts and channel bindings", "why_tests_cant": "The peers are not rsasl but anything the RFC allows; the tests run rsasl against itself.", "anchors": ["src/mechanisms/scram/server.rs", "src/mechanisms/scram/client.rs", "src/mechanisms/scram/tools.rs", "src/mechanisms/scram/parser.rs"]}
{"id": "C93", "title": "Nobody is validated without the evidence of the mechanism", "statement": "Whatever calls were made on a server session before, a step asks the application to validate somebody only with the evidence the mechanism demands: user and password in the message (PLAIN), in the last accepted and this message (LOGIN), a text (EXTERNAL, ANONYMOUS), a verdict of the application on user and token of the message (XOAUTH2, OAUTHBEARER), a proof of the user's keys for the nonce this session drew in its only step before (SCRAM); a session has a validation value only if such a step produced it; clients and GSSAPI never validate.", "quantifier": "all server mechanisms, all histories of calls with any outcome, all inputs, writers and applications", "why_tests_cant": "Quantifies over all histories, also those with failed calls in between.", "anchors": ["src/session.rs:121-161", "src/mechanisms/plain/server.rs", "src/mechanisms/login/server.rs", "src/mechanisms/external/server.rs", "src/mechanisms/anonymous/server.rs", "src/mechanisms/xoauth2/server.rs", "src/mechanisms/oauthbearer/server.rs", "src/mechanisms/scram/server.rs"]}
{"id": "C94", "title": "A failed exchange is over", "statement": "Once a step has returned an error other than InputDataRequired, no later call on the session writes anything, involves the application or succeeds; every further step fails with MechanismDone or, as session.rs permits, panics.", "quantifier": "all mechanisms, all failing steps, all later calls, inputs, writers and applications", "why_tests_cant": "Quantifies over all later calls after any of the possible failures.", "anchors": ["src/session.rs:98-102", "src/mechanism.rs:27-33", "src/mechanisms/*/client.rs", "src/mechanisms/*/server.rs"]}
{"id": "C95", "title": "No message fits two mechanisms", "statement": "A first message that a server of PLAIN, XOAUTH2, OAUTHBEARER or SCRAM takes, that is, involves the application for, is not taken by a server of another one of these mechanisms.", "quantifier": "all messages, all servers waiting for their first message, all applications", "why_tests_cant": "Quantifies over all messages and pairs of mechanisms.", "anchors": ["src/mechanisms/plain/server.rs", "src/mechanisms/xoauth2/server.rs", "src/mechanisms/oauthbearer/parser.rs", "src/mechanisms/scram/parser.rs"]}
{"id": "C96", "title": "Credentials given once work with whatever is offered", "statement": "A client configured with SASLConfig::with_credentials (non-empty text without NUL that SASLprep leaves alone, names without comma and equals sign) and a server whose application has this user complete the exchange, whichever mechanisms the server offers, as long as one of the client's is among them: the client selects a mechanism the server can start, both sessions finish, and the server's application is asked to validate once, shown exactly these credentials.", "quantifier": "all credentials, offers, server registries and applications that have the user", "why_tests_cant": "Quantifies over all credentials and offers, and composes selection with the exchanges of all mechanisms.", "anchors": ["src/config.rs:110-172", "src/registry.rs", "src/sasl.rs", "src/lib.rs:118-175", "src/mechanisms/{plain,login,scram}"]}
{"id": "C97", "title": "SCRAM messages are read only in their place", "statement": "No message can be read in two of the four places of a SCRAM exchange (client-first, server-first, client-final, server-final). A session that is given a message made for another place, or one that a session sent in another place, fails to parse it (with an error, or the known panic of the parser), writes nothing and does not involve the application; in particular messages cannot be reflected to the side that sent them.", "quantifier": "all messages, environments, applications, sessions of all SCRAM mechanisms, writers", "why_tests_cant": "Quantifies over all messages and all sessions in each of the states; a test reflects one message.", "anchors": ["src/mechanisms/scram/parser.rs", "src/mechanisms/scram/client.rs", "src/mechanisms/scram/server.rs"]}
{"id": "C98", "title": "A successful step64 hands the whole encoded message to the writer", "statement": "If step64 succeeds, the writer has received the complete base64 encoding of the message of the step, whatever parts of it the writer takes at a time.", "quantifier": "all mechanisms, sessions, applications, inputs and writers (short writes, interruptions, failures)", "why_tests_cant": "Quantifies over all behaviours of the writer at every call; tests write to memory, which accepts everything.", "anchors": ["src/session.rs:228-245", "src/vectored_io.rs"]}
{"id": "C99", "title": "Servers answer with little more than they were sent", "statement": "Apart from what the application gives to be sent (salt and iteration count, error reports), a server writes nothing for PLAIN, EXTERNAL, ANONYMOUS, XOAUTH2 and OAUTHBEARER, at most a 10 byte prompt per step for LOGIN, and for SCRAM at most 73 bytes more than the first message it was sent and then one signature: however a session is called, it cannot be made to amplify traffic.", "quantifier": "all servers but GSSAPI (whose tokens are the library's), sessions, applications, inputs, sequences of calls and writers", "why_tests_cant": "A bound over all inputs, states and call sequences, including failing ones; tests measure single messages.", "anchors": ["src/mechanisms/scram/server.rs:121-378", "src/mechanisms/login/server.rs:43-96", "src/mechanisms/xoauth2/server.rs:63-119", "src/mechanisms/oauthbearer/server.rs:43-83"]}
{"id": "C100", "title": "Enabling more features does no harm", "statement": "Cargo builds rsasl with the features wanted by all crates of a program. Enabling more of them never makes a client unable to start, never makes it select a mechanism of lower priority, changes nothing if the added mechanisms are not offered, leaves servers as they are, and a client that worked keeps working.", "quantifier": "all sets of features, with and without the static registry, offers, applications", "why_tests_cant": "Features are decided at build time: a test binary has one set of features, the statement is about all pairs of sets.", "anchors": ["Cargo.toml:51-92", "src/registry.rs:155-219", "src/registry.rs:280-281"]}
{"id": "C101", "title": "Features select the available mechanisms", "statement": "The mechanisms available by default are exactly those whose features are enabled, as documented in mechanisms/mod.rs and Cargo.toml.", "quantifier": "all sets of features, with and without the static registry", "why_tests_cant": "One test binary has one set of features; the statement is about all of them.", "anchors": ["src/mechanisms/mod.rs:7-20", "Cargo.toml:51-70", "src/registry.rs:186-219"]}
{"id": "C102", "title": "The link order of the static registry does not matter", "statement": "With the static registry, whose order the linker decides, clients and servers start the same mechanism whatever the order.", "quantifier": "all sets of features, orders and offers", "why_tests_cant": "Each build has one link order, which tests cannot vary.", "anchors": ["src/registry.rs:186-191", "src/registry.rs:270-281", "src/mechanisms/scram/mechinfo.rs"]}
{"id": "C103", "title": "Type erasure never confuses types", "statement": "Requests, contexts and validations are passed through type-erased references and cast back without checks by the compiler (unsafe). As long as type ids are distinct, no value is ever seen as one of another type, and each call reaches exactly the values of its own property.", "quantifier": "all properties and their value types, all callbacks, providers (also ones that go on after a value was taken) and validation callbacks", "why_tests_cant": "Undefined behaviour shows only in the program that runs into it; quantifies over all code of other crates.", "anchors": ["src/typed.rs:12-80", "src/context.rs:70-118", "src/context.rs:168-183", "src/callback.rs:266-357", "src/callback.rs:415-503", "src/validate.rs:109-164"]}
{"id": "C104", "title": "Sessions keep their promises whatever the mechanism", "statement": "With a mechanism of another crate (feature unstable_custom_mechanism) that does anything with the writer and the MechanismData it is given: the session's result is still the first value the application's validation callback finalised and cannot be replaced or brought back; the mechanism is given at most one value for each time the application was asked; a step panics only if the mechanism's own code does; the internal early-return error never reaches the protocol.", "quantifier": "all mechanisms (any state, any order of calls, nested requests), all callbacks, inputs, writers and histories", "why_tests_cant": "Quantifies over code that does not exist yet.", "anchors": ["src/mechanism.rs:22-113", "src/session.rs:38-161", "src/session.rs:299-408", "src/callback.rs:221-263"]}
{"id": "C105", "title": "The documented PLAIN message", "statement": "The introduction of the crate shows the data PLAIN sends for the username \"username\" and the password \"secret\", base64-encoded as AHVzZXJuYW1lAHNlY3JldAo=, in IMAP, SMTP and XMPP alike. A PLAIN client with these credentials sends exactly that.", "quantifier": "all applications providing these credentials, all client sessions; conversely all applications whose client sends the documented data", "why_tests_cant": "The documentation is not compiled; no test compares it with the code, and what the shown message means for every application is not one run.", "anchors": ["src/lib.rs:33-76", "src/mechanisms/plain/client.rs:13-59", "src/session.rs:228-245"]}
{"id": "C106", "title": "Sessions of one program do not influence each other", "statement": "A program, such as a server with many connections, makes calls on its sessions in any order. Every session gives what it gives alone, called the same way: the same results, the same bytes, the same questions to the application. Of the common source of random numbers each session gets numbers that no other session gets. Sessions that need no random numbers give exactly the same. A SCRAM final message accepted by two sessions of a server shows that the source gave the same nonce at two different places.", "quantifier": "all numbers of sessions, mechanisms, orders of calls (step, step64, encode, decode, validation), applications, inputs, writers and sources", "why_tests_cant": "Quantifies over all interleavings of any number of sessions.", "anchors": ["src/session.rs:38-59", "src/session.rs:121-245", "src/sasl.rs:143-165", "src/mechanisms/scram/client.rs:455-475", "src/mechanisms/scram/server.rs:205-225", "src/mechanisms/scram/server.rs:430-440"]}
{"id": "C107", "title": "Protected data arrives over a stream", "statement": "Data one side of a security layer encodes reaches the other side over a stream, in pieces of any size. A receiver that follows the contract of Authentication::decode (keep what was read and read more while decode says InputDataRequired, which it MUST say when there is not enough input; drop what it reports as processed) gets exactly the data.", "quantifier": "all amounts of data, numbers of calls and sessions with a layer, all GSS libraries that deliver tokens in order, all ways of cutting the stream", "why_tests_cant": "No test has a security layer; the ways of cutting a stream are unbounded.", "anchors": ["src/mechanism.rs:65-108", "src/session.rs:168-212", "src/mechanisms/gssapi/client.rs:171-191", "src/mechanisms/gssapi/server.rs:154-174"]}
{"id": "C108", "title": "GSSAPI peers agree without a token of the server", "statement": "Over GSS libraries that work together, when the client's first token establishes both contexts and the server's library has no token to return, the server answers the client's token with its offer of layers at once. Client and server finish with the strongest security layer both applications accept and the server's context can provide, over linked contexts; if there is none the client refuses with BadContext.", "quantifier": "all applications, layer sets, context flags and linked GSS libraries without mutual authentication", "why_tests_cant": "All pairs of layer sets and flags; the tests need a Kerberos server.", "anchors": ["src/mechanisms/gssapi/client.rs:46-169", "src/mechanisms/gssapi/server.rs:50-147"]}
{"id": "C109", "title": "Selection keeps its promises whatever the selectors", "statement": "With mechanisms of other crates, which may come with any selector and any start function, a client asks its preference function about exactly the mechanisms that want to run after hearing the offered names in order, in the order of the registry, and starts the one it ends with in the way the selector says, and no other. Mechanisms that do not want to run change nothing. With rsasl's own mechanisms the result is that of C02-C05. NoSharedMechanism means that no mechanism that wants to run was acceptable.", "quantifier": "all registries, selectors with any state, start functions, preference functions and lists of offered names", "why_tests_cant": "Selectors and start functions are arbitrary code of other crates; no test has any.", "anchors": ["src/registry.rs:52-110", "src/registry.rs:230-360", "src/mechanisms/scram/mechinfo.rs:33-87", "src/error.rs:138-145"]}
{"id": "C110", "title": "The state tells whether there is a message to send", "statement": "A step of any session announces a message (Running, or Finished with MessageSent::Yes) exactly if it wrote one. The clients of XOAUTH2 and OAUTHBEARER announce a final message exactly if they received an error report; that of OAUTHBEARER is the single character %x01 that RFC 7628, section 3.2.3, demands.", "quantifier": "all sessions of all mechanisms in all states, callbacks, inputs and writers that take something of what they are offered", "why_tests_cant": "The claim relates the result to the written bytes for every state, input and callback.", "anchors": ["src/session.rs:115-120", "src/session.rs:436-495", "src/mechanisms/oauthbearer/client.rs:64-84", "src/mechanisms/xoauth2/client.rs:73-96"]}
{"id": "C111", "title": "Every nonce is as likely as any other", "statement": "A SCRAM client's nonce, and the part a SCRAM server appends to it, can be any word of 24 of the characters RFC 5802 allows in a nonce, and each word comes from exactly one choice of 24 random indices; so nonces are uniform if the indices are. The same holds of the 32 bytes of salt a server makes up for a user without stored password.", "quantifier": "all sessions waiting to send or to receive a client-first message, all callbacks, channels and random generators, all words of 24 characters", "why_tests_cant": "There are 88^24 nonces; a test sees a handful and cannot tell that none is missing or favoured.", "anchors": ["src/mechanisms/scram/tools.rs:8-15", "src/mechanisms/scram/client.rs:189-260", "src/mechanisms/scram/server.rs:121-229"]}
{"id": "C112", "title": "The documented client", "statement": "The client loop of the crate's documentation (lib.rs:123-172) never steps a session that is over and, while the other side keeps sending data, never one that lacks the input it needs. It asks for more data at most twice (GSSAPI excluded). If the other side stops instead, it writes nothing more and either finishes or reports the missing input (LOGIN and GSSAPI excluded). With SCRAM it ends without error only if the second message received proves knowledge of the server key for this exchange; what it wrote is the first message and the final one. Only SCRAM can panic in it.", "quantifier": "all registries, preferences, offered lists, callbacks, sequences of received data and writers (for SCRAM: writers that do not return Ok(0))", "why_tests_cant": "The documentation's example is compiled but never run; whether its loop suits every mechanism depends on all sequences of messages a server can send.", "anchors": ["src/lib.rs:123-172", "src/session.rs:84-110", "src/session.rs:463-466"]}
{"id": "C113", "title": "Keys are derived from a password once", "statement": "PBKDF2 is run only by a SCRAM client that waits for the server's first message; no server, no other mechanism and no other step of the client runs it. The client runs it only for a message that continues its nonce and has a valid salt and iteration count, and only with a password its callback has given in that step. A whole exchange runs it for at most one password, salt and iteration count, however often the session is stepped.", "quantifier": "all environments, key derivation functions, sessions, messages, writers and sequences of steps", "why_tests_cant": "A test observes results, not whether an expensive derivation was run for a message that was refused; that nothing else depends on it is a statement about all derivation functions.", "anchors": ["src/mechanisms/scram/client.rs:265-391", "src/mechanisms/scram/tools.rs:19-24", "src/mechanisms/scram/server.rs:115-232"]}
{"id": "C114", "title": "What is displayed of errors", "statement": "Every error of a step is displayed as one line of printable ASCII, whatever has been received, provided the texts that come from the application, stringprep and libgssapi are such lines. The only text of variable length in it is the name of a channel binding: the application's own, one of the two a client tries by itself, or the one the received message names, which then consists of letters, digits, dots and hyphens. A byte shown by a parse error of SCRAM is the first one of an attribute of the received message, or the first one not allowed in the name of a channel binding. Everything else comes from one finite list of texts, so no password, token, user name or key is displayed. Errors about names of mechanisms are printable too.", "quantifier": "all environments, sessions, messages, writers, and all texts of the application's and libraries' errors", "why_tests_cant": "A peer chooses the bytes that reach an error message; that none of its messages puts a line break or a secret into a log is a statement about all messages in all states.", "anchors": ["src/error.rs:40-103", "src/mechanisms/scram/parser.rs:7-21", "src/mechanisms/scram/parser.rs:157-216", "src/mechanisms/scram/client.rs:493-517", "src/mechanisms/scram/server.rs:48-55", "src/mechanisms/plain/mechinfo.rs:36-55", "src/mechname.rs:162-179"]}
{"id": "C115", "title": "A step that fails has sent nothing", "statement": "A step that fails for another reason than the writer has written nothing, so that an application which sends the written bytes before looking at the result does no harm. In particular no password or token is written by a step that then fails, and a server that refuses a client does not write what it would write to accept it.", "quantifier": "all error-propagating callbacks, sessions, messages and writers", "why_tests_cant": "Whether bytes reach the writer before an error depends on the state, the callback's answers and the order of requests and writes in every mechanism; a test fixes all of them.", "anchors": ["src/session.rs:95-119", "src/mechanisms/scram/server.rs:348-361", "src/mechanisms/plain/client.rs:18-60", "src/mechanisms/xoauth2/client.rs:46-71", "src/mechanisms/oauthbearer/client.rs:29-62", "src/mechanisms/gssapi/client.rs:79-123", "src/mechanisms/xoauth2/server.rs:63-140", "src/mechanisms/oauthbearer/server.rs:43-83"]}
{"id": "C116", "title": "What a session says is text", "statement": "Everything a session of a mechanism other than GSSAPI writes is UTF-8 text, whatever it hears from its peer and whether the step succeeds or fails.", "quantifier": "all mechanisms but GSSAPI, histories of a session, applications and messages of the peer", "why_tests_cant": "Messages are put together from the application's answers, random salts, signatures and parts of the peer's messages; tests try a few well-formed ones.", "anchors": ["src/mechanisms/scram/client.rs:154-388", "src/mechanisms/scram/server.rs:121-378", "src/mechanisms/scram/parser.rs:250-290", "src/mechanisms/scram/parser.rs:369-422", "src/mechanisms/plain/client.rs:14-61", "src/mechanisms/login/client.rs:26-51", "src/mechanisms/oauthbearer/server.rs:43-83", "src/mechanisms/xoauth2/server.rs:63-119"]}
{"id": "C117", "title": "When a password is sent in the clear", "statement": "A client made by SASLConfig::with_credentials never reveals its password itself, only keys derived from it, to whoever it talks to as long as the server knows a SCRAM mechanism.", "quantifier": "all credentials, lists of offers, messages received, writers and PBKDF2 functions", "why_tests_cant": "That nothing sent depends on the password except by way of the derived keys compares exchanges for all passwords and all that may be received; tests look at single transcripts.", "anchors": ["src/config.rs:115-170", "src/registry.rs:155-183", "src/registry.rs:230-267", "src/mechanisms/scram/client.rs:154-388", "src/mechanisms/plain/client.rs:14-61", "src/mechanisms/login/client.rs:26-51"]}
{"id": "C118", "title": "The utilities for testing work", "statement": "With client_config and server_config of feature testutils, a client selects a test mechanism that is offered, a server starts it, the side the mechanism's name says goes first, and steps of the session do not panic; client_session and server_session panic exactly for mechanisms that lack that side.", "quantifier": "all lists of offers, names, configurations, mechanisms, inputs and writers", "why_tests_cant": "The crate's own tests do not use these utilities; selection concerns all lists of offers.", "anchors": ["src/test/mechanism.rs:72-144", "src/test/config.rs:31-48", "src/test/mod.rs:20-42"]}
{"id": "C119", "title": "How the writer takes the bytes makes no difference", "statement": "A writer that takes the bytes of a message in pieces of any size (at least one byte each time), or that reports interruptions in between, which std::io::Write says to retry, leads to the same results, outputs and sessions as a writer that takes everything at once.", "quantifier": "all mechanisms, callbacks, sessions, inputs, exchanges and such writers", "why_tests_cant": "Tests write to Vec and Cursor, which take everything at once and are never interrupted; the ways to split the bytes are unbounded.", "anchors": ["src/vectored_io.rs:18-70", "src/session.rs:121-144", "src/mechanisms/scram/client.rs:223-224", "src/mechanisms/xoauth2/client.rs:56-64"]}
{"id": "C120", "title": "Exchanges over base64 lines", "statement": "An exchange with step64 is the exchange with step, each message encoded; lines that are no base64 are refused wherever they come and leave no trace in the session; what is written consists of groups of four base64 characters, hence never of '*' or '=' alone; and a client and a server that exchange such lines finish together.", "quantifier": "all mechanisms (finishing together: all but GSSAPI), callbacks, sessions, lists of lines and positions of bad lines", "why_tests_cant": "Tests of step64 cover single steps of two mechanisms; exchanges and places for bad lines are unbounded.", "anchors": ["src/session.rs:228-245", "interop/src/tests/common/mod.rs:14-79"]}
{"id": "C121", "title": "Callbacks are not called recursively", "statement": "A callback of the application or of the protocol is never called while the application's callback is running, so that an application may hold a lock while its callback runs (decision 0003, 'prevent recursive callbacks').", "quantifier": "all mechanisms (built-in and of other crates), applications that hold a lock, sessions, inputs, writers and exchanges", "why_tests_cant": "Tests' callbacks hold no locks, and the ways through the mechanisms that ask for properties are many.", "anchors": ["docs/decisions/0003-prevent-recursive-callbacks.md", "src/session.rs:319-408", "src/callback.rs:220-260"]}
{"id": "C122", "title": "Sessions are set up as configured", "statement": "A session started from a configuration made by the builder runs a fresh implementation of a mechanism of that configuration, on the side it was started for, and without a validation result. Callbacks are told the name of that mechanism and that side. A validation result is one that validate gave for the validation type of the session, and channel binding data is that of the session's channel binding callback, else the application's. Exactly one of client and server says that it goes first. A client session never has a validation result. If the application implements no validate, no session has one; if it implements no callback, clients finish only with EXTERNAL and ANONYMOUS, sending an empty message.", "quantifier": "all configurations (callbacks, registries, preferences), channel binding callbacks, validation types, offers, selected names, inputs, writers and dialogues; the last three for built-in mechanisms", "why_tests_cant": "Tests configure one callback and one mechanism each; that an implementation is never told of another name or side is a statement about all pairs of implementations and all dialogues.", "anchors": ["src/builder.rs:77-146", "src/config.rs:59-65", "src/config.rs:98-220", "src/sasl.rs:54-200", "src/session.rs:47-84", "src/session.rs:121-162", "src/session.rs:249-272", "src/callback.rs:78-148"]}
{"id": "C123", "title": "Declining a request", "statement": "An application that has nothing to answer to a request for a value may say so as it likes: returning Ok, NoValue or NoCallback makes no difference (callback.rs:72, 'While there exists an error NoCallback, returning Ok here is correct too').", "quantifier": "all pairs of applications that make the same calls and differ in how their callbacks end, all mechanisms, sessions, dialogues and writers", "why_tests_cant": "Compares two arbitrary applications over all dialogues; the tests' callbacks decline in one way only.", "anchors": ["src/callback.rs:72", "src/callback.rs:196-215", "src/callback.rs:383-412", "src/session.rs:319-376"]}
{"id": "C124", "title": "The example programs run to their end", "statement": "Each program in /repo/examples, run as its main function is written, ends by printing what it was written to show instead of panicking: server_plain.rs passes its five exchanges, server_scram.rs prints the validation outcome for whatever credentials are put in where its comment invites to change them, client_simple.rs prints the PLAIN message for whatever two lines are entered, mechanism_selection.rs selects SCRAM-SHA-256.", "quantifier": "for all surroundings (hash functions, random numbers, SASLprep), all credentials, all lines entered, all lists of mechanisms presented and any number of rounds of the loop", "why_tests_cant": "The examples are run with one set of credentials if at all (the comment in server_scram.rs invites to try others); none of them is part of the test suite.", "anchors": ["examples/server_scram.rs:102-162", "examples/server_plain.rs:90-173", "examples/client_simple.rs:11-59", "examples/mechanism_selection.rs:3-18", "src/error.rs:111-114"]}
{"id": "C125", "title": "An empty authorization identity is no authorization identity", "statement": "An application that answers the request for AuthzId with the empty string is treated like one that does not answer it, as the changelog says of PLAIN: every client sends the same messages, and every server shows its application the absence of an identity in the same way.", "quantifier": "for all clients in all states, all other answers of the application, all peers' messages and writers (clients); all messages without an identity (servers); all credentials and lists of offered mechanisms (with_credentials)", "why_tests_cant": "A test exists for the PLAIN client with two fixed values only (empty_authzid_is_no_authzid); no other mechanism is tried with an empty identity, and none is compared with another.", "anchors": ["CHANGELOG.md:191", "src/mechanisms/plain/client.rs:20-27", "src/mechanisms/external/client.rs:18-21", "src/mechanisms/scram/client.rs:202-208", "src/mechanisms/scram/parser.rs:103-107", "src/mechanisms/oauthbearer/client.rs:38-43", "src/mechanisms/oauthbearer/parser.rs:43-53", "src/mechanisms/plain/server.rs:13-22", "src/config.rs:130-168"]}
{"id": "C126", "title": "No logins with an empty name or password", "statement": "No client sends an empty user name or an empty password, and no server shows its application one, as the changelog says of PLAIN: an application that answers a request with the empty text gets an error, and a server refuses a message with an empty name or password before the application sees it.", "quantifier": "every server session in every state, every message, writer and application (servers); every state in which a client asks for a name or password (clients)", "why_tests_cant": "Tests try empty values with the PLAIN server only, for a few messages; that no input at all makes a server show an empty value, and which mechanisms do, needs all messages and states.", "anchors": ["CHANGELOG.md:191-193", "src/mechanisms/plain/client.rs:32-55", "src/mechanisms/plain/server.rs:52-78", "src/mechanisms/login/server.rs:43-96", "src/mechanisms/login/client.rs:26-51", "src/mechanisms/xoauth2/server.rs:63-119", "src/mechanisms/xoauth2/client.rs:46-96", "src/mechanisms/scram/parser.rs:99-130", "src/mechanisms/scram/parser.rs:250-290", "src/mechanisms/scram/client.rs:336-346"]}
{"id": "C127", "title": "A user goes by one name at all mechanisms", "statement": "Whatever mechanism the client and the server agree on, every authentication identity the server's application is shown in answer to a message of the client is one the client's application gave: a user is known to the server's application by the same name with PLAIN, LOGIN, XOAUTH2 and SCRAM.", "quantifier": "every mechanism, every configuration, every exchange between a client session and a server session (any number of messages, any writers that do not answer Ok(0)), every application of the server, every error-propagating application of the client", "why_tests_cant": "Tests look at one mechanism with one plain ASCII name; that names agree across mechanisms and at every point of every exchange needs all names, all exchanges and a comparison of mechanisms no test makes.", "anchors": ["src/mechanisms/plain/server.rs:45-78", "src/mechanisms/login/server.rs:43-96", "src/mechanisms/xoauth2/server.rs:63-119", "src/mechanisms/scram/client.rs:200-215", "src/mechanisms/scram/parser.rs:99-130", "src/mechanisms/scram/server.rs:121-229", "src/mechanisms/scram/server.rs:280-378", "src/mechanisms/mod.rs:100-101"]}
{"id": "C128", "title": "A secret looks the same to all servers", "statement": "Whatever mechanism the client and the server agree on, every password and every token the server's application is shown in answer to a message of the client is one the client's application gave, so that one stored secret serves PLAIN and LOGIN, and one token check serves XOAUTH2 and OAUTHBEARER.", "quantifier": "every mechanism, every configuration, every exchange between a client session and a server session (any number of messages, any writers that do not answer Ok(0)), every application of the server, every error-propagating application of the client whose answers can be sent", "why_tests_cant": "The tests feed each server hand-written messages and look at one mechanism at a time; the OAUTHBEARER test data even lacks the Bearer scheme the client sends. That secrets agree across mechanisms needs all secrets and a comparison of mechanisms.", "anchors": ["src/mechanisms/plain/server.rs:28-88", "src/mechanisms/login/client.rs:26-51", "src/mechanisms/login/server.rs:43-96", "src/mechanisms/xoauth2/server.rs:63-119", "src/mechanisms/oauthbearer/client.rs:29-87", "src/mechanisms/oauthbearer/parser.rs:55-70", "src/mechanisms/oauthbearer/server.rs:26-83"]}
{"id": "C129", "title": "Mechanisms of other crates hand over whole messages", "statement": "With a mechanism of another crate (feature unstable_custom_mechanism): if it writes with write_all, it makes no difference how the caller's writer takes the bytes and whether it is interrupted; if it moreover returns the errors it is given, and the application returns those of satisfy, a step that succeeds has written its whole message, whatever the writer did; and step64 is step with base64 around what is read and written, lines that are no base64 being refused without the mechanism noticing.", "quantifier": "all mechanisms that write so (any state, any order of calls, nested requests), all callbacks, inputs, histories, writers, and lines", "why_tests_cant": "Quantifies over code that does not exist yet, and over all ways a writer can take, refuse or interrupt a write.", "anchors": ["src/mechanism.rs:22-113", "src/session.rs:121-144", "src/session.rs:228-245", "src/session.rs:299-408", "src/callback.rs:221-263"]}
{"id": "C130", "title": "Only what an application is asked matters", "statement": "Two applications that do the same about everything they are asked for, told and shown in an exchange cannot be told apart by it: the messages, the results and the state in the end are the same, whatever they would have done otherwise. In particular an exchange depends only on the answers to the requests documented for its mechanism, what is done about its announcements, the validation callback on the server side, and, for SCRAM, the channel binding data; credentials provided for other mechanisms make no difference.", "quantifier": "every mechanism in every state (also those of other crates, step by step), every pair of applications and channel binding callbacks, every sequence of inputs and writers", "why_tests_cant": "Compares the runs of two arbitrary programs; the tests use one callback per test, with just the properties needed.", "anchors": ["src/session.rs:299-408", "src/callback.rs:221-263", "src/callback.rs:415-503", "src/mechanisms/mod.rs:1-220"]}
