# Formal model of rsasl in Rocq - design

Source: dequbed/rsasl, pinned in /repo (read as text only). Prover: Coq 8.16.1,
standard library only. Everything lives in `rocq/theories` (logical name `Verif`).

## How the code is modelled

* **Bytes.** `u8` is `Ascii.ascii` (8 booleans); `[u8]`, `Vec<u8>`, `str` and `String`
  are `list ascii`. A Rust `&str` is a byte list; that it is valid UTF-8 is either
  computed (`from_utf8` is modelled exactly) or an explicit hypothesis of a theorem.
* **Outcome.** Every step function returns `Ok`, `Err e` or `Panic`. Slice indexing,
  `unwrap`, `unreachable!`, `panic!`, `clone_from_slice` produce `Panic`.
* **State.** `&mut self` is a returned new state - on `Ok`, on `Err` and on `Panic`.
* **User callback.** An arbitrary function from the whole history of the session, the
  session data, the context and the request kind to an *interaction program* (`cbprog`)
  made of `satisfy`, `satisfy_with`, `get_action` calls, each with a continuation that
  may do anything with the result (propagate, ignore, retry). The validation callback is
  likewise an arbitrary program of `finalize`/`with` calls.
* **Writer.** An arbitrary script of responses `accept n bytes` (including 0), `fail`,
  `interrupted`; after the script everything is accepted. Every terminating run of an
  arbitrary `Write` is covered by some script.
* **Random numbers** are an arbitrary stream. **Crypto** (hash, HMAC, PBKDF2),
  **saslprep**, **JSON**, the **GSS library** and the protocol's channel-binding source
  are arbitrary functions, quantified over in every theorem (fields of a record `env`);
  theorems that need it assume only the output length of the hash functions. Sha.v defines the
  hash functions concretely, proves these lengths and reproduces published test vectors and the
  exchange of RFC 5802 (C72); no other theorem depends on it.
* **base64, UTF-8 validation, decimal formatting/parsing, `slice::split`, `strip_prefix`,
  `write_all`** are std/third-party code and are modelled concretely and exactly.

A property that the faithful model violates gets a `*_refuted` theorem (a concrete or
even universally quantified counterexample) and, beside it, the strongest true variant
with suffix `_partial`. Such properties have status `partial` in MANIFEST.json: the
violations are findings about the code, listed in the section "Findings".

## Plan per property

| id | modelled | proof |
|----|----------|-------|
| C01 | mechname.rs | induction on the input |
| C02-C05, C08 | registry.rs select, mechinfo.rs selectors, sasl.rs | fold invariants; C02 refuted for cb on |
| C06 | sasl.rs server_start_suggested | list lemma on `find` |
| C07 | config.rs with_credentials, registry credentials, PLAIN/SCRAM clients | composition of selection + client message theorems |
| C09, C10 | scram/server.rs | symbolic execution for every message; C10 refuted |
| C11-C14 | callback.rs, session.rs | induction over callback programs; C11 refuted |
| C15 | context.rs | induction over provider list |
| C16 | session.rs cb data | case analysis |
| C17 | validate.rs, Session::validation | induction over validation programs / call histories |
| C18 | mechanism.rs defaults, gssapi | case analysis over all mechanism states |
| C19, C20 | vectored_io.rs | induction over the writer script; C20 refuted |
| C21, C22 | session.rs step64, base64 STANDARD | bit-level; C21 for an all-accepting writer |
| C23-C25 | plain | symbolic execution; split/join lemmas |
| C26 | login | symbolic execution, invariance under spurious steps |
| C27 | external, anonymous | symbolic execution |
| C28-C30 | xoauth2, oauthbearer | parser/printer lemmas; C28, C30 refuted in general |
| C31, C32 | scram/parser.rs escape/unescape | induction; C32 refuted |
| C33 | scram client+server | refuted in general, partial for names without , and = |
| C34, C35 | scram/parser.rs | parser/printer; C35 refuted for SCRAM |
| C36-C45 | scram client, server, tools | symbolic execution over an abstract hash |
| C46-C50 | all mechanisms | case analysis over all states / histories |
| C51-C54 | gssapi | symbolic execution over an abstract GSS library |
| C55 | oauthbearer client + server | symbolic execution of the dialogue |
| C56 | decimal numbers of SCRAM | induction; reading is too liberal: refuted |
| C57-C59 | mechinfo.rs names and priorities, config.rs | case analysis, selection theorems; C58 refuted |
| C60, C61 | `Mechanism::first`, mechanism.rs contract, registry.rs defaults | case analysis; both refuted |
| C62, C63 | scram/server.rs errors | symbolic execution; C63 refuted |
| C64 | gssapi/server.rs final token | symbolic execution; refuted |
| C65 | key lengths in SCRAM | symbolic execution; refuted for the client |
| C66 | UTF-8 checks of all servers | arithmetic on RFC 3629; invariant over histories |
| C67 | mechanisms/mod.rs documentation | event invariant; request orders by derivatives; order refuted for SCRAM |
| C68 | /repo/examples | applications as callbacks (Apps.v); verdicts from C17, C24, C36, C37; PLAIN and client refuted |
| C69 | error.rs, every step | causes of errors as a relation (Spec_Errors.v), structural proof over the monad; kinds and MechanismDone partly refuted |
| C70 | contract of Authentication::step, session.rs documentation | control flow table of all mechanisms (step_after); refuted for LOGIN and GSSAPI |
| C71 | both sides of every mechanism | lockstep composition, invariant over stages |
| C72 | SHA-1, SHA-256, SHA-512, HMAC, PBKDF2 (Sha.v), scram | induction over rounds; instance of C36; refuted for texts that SASLprep changes |
| C73 | all mechanisms; scram/client.rs | relational: two runs related step by step (Proof_Flow.v) |
| C74 | /repo/interop: server program, test client (Interop.v) | two programs with buffers (Spec_Net.v), diamond property: one interleaving decides all; sessions from C24, C26, C75 |
| C75 | scram client + server | composition of the step theorems for any credentials |
| C76 | /repo/interop: all mechanisms, client program | refuted by the refusal of unusable entries (C65) and by an invariant on what the client program sends |
| C77 | scram client + server, attacker in between | views of both ends (Spec_Agree.v), injectivity of the signed text (C40) and of GS2 header plus binding data |
| C78 | scram server sessions | C77's server view: nonce and challenge are part of what is proven |
| C79 | gssapi client + server over linked libraries | forward run of both ends (Spec_GssPair.v), induction over traffic |
| C80 | oauthbearer properties.rs over serde_json (Json.v) | reader = grammar of RFC 8259 (Spec_Json.v), both directions; round trip; refuted for escaped strings |
| C81 | scram/server.rs | two runs with other keys side by side (Spec_Keys.v): same dialogue until a proof arrives |
| C82 | scram/*, session.rs | position in the random stream before and after (Spec_Random.v); two runs with sources that agree on the numbers drawn |
| C83 | scram/client.rs | requests of the second step and their contexts (Spec_Policy.v); refuted as stated (F30) |
| C84 | gssapi/* | two runs with other sizes side by side (Spec_Size.v); refuted as stated (F31) |
| C85 | scram/parser.rs | the ABNF of RFC 5802 as predicates (Spec_Grammar.v); refuted as stated for clients (F32) |
| C86 | oauthbearer/parser.rs, server.rs | the ABNF of RFC 7628 as a predicate (Spec_Bearer.v); refuted as stated (F33) |
| C87 | xoauth2/server.rs | exact acceptance set of the XOAUTH2 server |
| C88 | plain, external, anonymous | the grammars as predicates (Spec_SimpleText.v); refuted as stated (F34) |
| C89 | channel_bindings.rs, scram | the views of C77 with the source of the binding data at each end |
| C90 | registry.rs, callback.rs | the calls as an inductive relation over the candidates (Spec_Prefer.v) |
| C91 | all mechanisms | events at which the application fails (Spec_Abort.v); refuted as stated (F35) |
| C92 | scram | RFC 5802 peers as relations over the grammar (Spec_Peer.v); refuted as stated (F36) |
| C93 | all server mechanisms | invariants over histories; the evidence as an inductive predicate (Spec_Evidence.v) |
| C94 | all mechanisms, all calls after a failure | postconditions of failing steps (Triple.v), states that are over |
| C95 | first messages of four mechanisms, all servers | the exact languages of C86, C87, C34 and of PLAIN compared |
| C96 | config, registry, sasl, plain, login, scram | C59 and C06 composed with C24, C26 and C36 |
| C97 | scram parser, client, server | The first bytes each of the four parsers accepts are disjoint |
| C98 | session.rs step64, EncoderWriter, all mechanisms | Invariant of the encoder: received, kept output and kept input are the encoding of what was taken; C20 for the answers of the encoder |
| C99 | all server mechanisms but GSSAPI | Amortised triple: bytes written plus credit of the result are bounded by the budget and what the application supplied |
| C100 | Cargo.toml features, registry.rs lists (Features.v) | Registries as filters of the full list; C03's best candidate; C96 for each choice |
| C101 | Features.v | Case analysis on features and mechanisms |
| C102 | Features.v, static registry as any permutation | C100 in both directions |
| C103 | typed.rs, context.rs, callback.rs, validate.rs with untyped memory (Erased.v) | Refinement of run_satisfy, run_action, run_validate and get_ref by induction on the callback or provider |
| C104 | mechanism.rs, session.rs MechanismData with any mechanism (Custom.v) | induction over the mechanism's code; frames of C17; counting of requests and answers on every prefix; every built-in mechanism is written as such code, local variables becoming state (C104_every) |
| C105 | lib.rs introduction, PLAIN client, step64 | Completeness of PLAIN (C23) and injectivity of its message and of base64 |
| C106 | session.rs, rand::thread_rng: many sessions (Process.v) | A call at another place of a source that gives the same numbers does the same (a relational frame over the monad, Proof_Shift.v); induction over the schedule |
| C107 | mechanism.rs contract of encode and decode, GSSAPI layer | Receiver as an inductive relation; induction over the frames with a relation between the contexts; inversion for the converse |
| C108 | gssapi client + server when the server has no token | forward run of both ends; the negotiation is that of C79 from the offer on |
| C109 | registry.rs select with arbitrary selectors (Selectors.v) | selection as a relation (Spec_Selectors.v), shown to be a function; simulation between the two models for rsasl's own mechanisms |
| C110 | session.rs State/MessageSent over all mechanisms | bookkeeping of the written length over the monad (Proof_Sent.v), with C71_nothing for the other direction; refuted for OAUTHBEARER's %x01 |
| C111 | scram/tools.rs generate_nonce in the first steps of both sides | a second run of the step with another generator that spells the wanted word (Proof_Nonce.v); refuted for the characters after y |
| C112 | lib.rs:123-172 sasl_authenticate (DocLoop.v) | induction over the data received, with the theorems about single steps (Proof_DocLoop.v) |
| C113 | scram/client.rs handle_server_first, all mechanisms' steps | the step is the same with any other PBKDF2 that agrees at the one argument (Proof_Derive.v) |
| C114 | Display of SessionError and of the mechanisms' errors (Display.v) | texts are printable; names and bytes in them traced to the message by the causes of errors (C69) and a frame for channel binding events (Proof_Display.v) |
| C115 | step of all mechanisms | refuted by a refusing SCRAM server; a calculus of computations that write last (Proof_Early.v) for the rest, and a small Hoare logic for the pieces |
| C116 | step of all mechanisms but GSSAPI | a calculus of what computations say (Proof_Utter.v), state invariant for SCRAM clients; two refuting clients |
| C117 | with_credentials, select, SCRAM, PLAIN and LOGIN clients | C59 and C73 put together; PLAIN and LOGIN messages |
| C118 | test/mechanism.rs, test/config.rs, test/mod.rs (TestUtils.v) | induction over the offers; computation |
| C119 | vectored_io.rs, session.rs:121-144 | calculus relating a run to the run with a perfect writer; induction over the exchange |
| C120 | session.rs:228-245 (Session.v step64) | induction over the exchange; reduction to C21 and C71 |
| C121 | session.rs:319-408, decision 0003, all mechanisms | calculus for the state of a lock; consumers of answers cause no events |
| C122 | builder.rs, config.rs, sasl.rs, session.rs (Api.v) | reduction to dialogues of Session.v, C73 for callbacks that agree, C93 for clients, case analysis for callbacks that answer nothing |
| C123 | `session.rs` callback, need_with, action; `callback.rs` docs | equality of runs under two applications |
| C124 | examples/*.rs main | the mains over the API model (Mains.v); runs from C25/C74 lemmas; refuted for three of four |
| C125 | AuthzId in all mechanisms | a step relation blind for the history (Proof_Blind.v) for PLAIN, EXTERNAL and the clients that do not ask; refuted for SCRAM, OAUTHBEARER and servers |
| C126 | empty values in PLAIN, LOGIN, XOAUTH2, SCRAM | documented contexts (C67) and exact PLAIN server (C24) for servers; a computation that cannot succeed (stuck, halts in Proof_Empty.v) for clients; refuted for the others |
| C127 | names across mechanisms | an invariant of exchanges (chat in Spec_Names.v): what the server has been told and remembers; contexts by a frame on the server's computation (seen in Proof_ScramMain.v); refuted for SCRAM |
| C128 | secrets across mechanisms | the stage of the exchange (Proof_Talk.v) gives the client's message, a frame on the server's computation the contexts; refuted for OAUTHBEARER and for passwords saslprep changes |
| C129 | writers with any mechanism (Custom.v) | the simulations of C20 and C119, by induction over the mechanism's code |
| C130 | what of the application a session notices | two-run simulation along the first run's events, for built-in steps (unfolded) and for code of other crates (induction); C67 for the documented requests |

Nothing in the list is inexpressible.

## Files

* Model (no proofs): Bytes, Utf8, Base64, Num, Mechname, Types, World, Session, Simple
  (PLAIN, LOGIN, EXTERNAL, ANONYMOUS), OAuth (XOAUTH2, OAUTHBEARER), ScramParser, Scram,
  Gssapi, Step64, Registry, Features (Cargo features), Erased
  (type erasure), Custom (mechanisms of other crates), Process (many
  sessions), Apps (the example applications), Sha (hash functions), Interop (the interop programs).
* Specification vocabulary used by the theorem statements (no reference to proof
  helpers): CallbackSpec and every `Spec_*.v`. Spec_Wire.v writes down base64, decimal
  numbers, UTF-8 and xor from the RFCs, without the model's functions.
* Theorems: every `Props_*.v`. A theorem `Cnn_...` is about property Cnn; `Example`s next
  to it show that its hypotheses are met by non-trivial runs.
* Everything else (`*Facts.v`, `Proof_*.v`, Frame, Triple, Local, Sim, Calm, ...) is proof.

## Trusted base

* The kernel of Coq 8.16.1 (and `vm_compute`, used for the examples and some
  counterexamples).
* `Print Assumptions` stands below every property theorem; for each of them it prints
  "Closed under the global context": no axiom is used. No axiom, parameter, section-less
  variable, `Admitted` or switched-off check occurs in the development. `coqchk` and
  vcheck list seven library axioms `Coq.ssr.ssrunder.Under_rel.*` (the interface of a
  module type of the standard library that is loaded through `Lia`); no theorem depends
  on them.
* That the model says what the Rust code does. Each definition cites the lines it models.
  RepoTests.v replays the unit tests of /repo on the model: evidence, not proof.
* That the specification files say what the English properties mean.

### Assumed about code that is not rsasl's

Fields of the record `env` (World.v) stand for it, universally quantified. Theorems state
as hypotheses what they need:

* `crypto_ok`: output lengths of hash, HMAC and PBKDF2 (nothing else; in particular no
  collision resistance: C37 and C38 say which MAC values were compared).
* `prepares_text`: saslprep maps strings to strings (C66).
* `polite`, `bubbling`, `provides`, `withholds`: how the application's callback behaves.
  Theorems without such a hypothesis hold for every callback program.
* `no_zero`: the writer never answers `Ok(0)` to a non-empty write (Rust's contract allows
  it to; see finding F13). `script = []`: the writer accepts everything.
* Determinism: callbacks may depend on the whole history of the session and on nothing
  else, the GSS library on the operations performed on a context, JSON on its input.

### Modelled

mechname.rs; property.rs, context.rs (providers, `get_ref`, `And`, `ThisProvider`);
typed.rs (as equality of property tags); callback.rs (`Request`, `satisfy`,
`satisfy_with`, `get_action`, `ClosureCR`, error masking); validate.rs; session.rs
(`step`, `step64`, `encode`, `decode`, `validation`, `need_with` and friends, channel
binding lookup, `are_we_first`); mechanism.rs (dispatch, defaults); registry.rs and
mechinfo.rs of all mechanisms (names, priorities, sides, selectors, `select`); sasl.rs
(client and server start, available mechanisms); the programs in examples; config.rs (`with_credentials` and its
callback); builder.rs, config.rs and the construction of sessions (Api.v); vectored_io.rs; client and server of PLAIN, LOGIN, EXTERNAL, ANONYMOUS,
XOAUTH2, OAUTHBEARER, SCRAM-SHA-1/-256/-512 with and without -PLUS, GSSAPI, with
scram/parser.rs, scram/tools.rs, oauthbearer/parser.rs. Of std and third-party code,
exactly: `slice::split`, `strip_prefix`, `write_all`, `from_utf8`, integer formatting and
parsing, the base64 STANDARD engine (`encode`, `decode`, `decode_slice`).

### Not modelled

* Lifetimes (the `unsafe` in typed.rs, context.rs, callback.rs and validate.rs is in Erased.v), `Drop`,
  zeroing of secrets, concurrency within a call (a session is used by one thread at a time: `&mut self`; for many
  sessions see Process.v).
* Time and memory: timing side channels, recursion depth, allocation failure, integer
  overflow of lengths.
* `Debug` and `Error::source` implementations, and `Display` of anything but errors (the texts of errors are in Display.v); error values carry what the code inspects.
* lib.rs (documentation),
  feature gates other than those of mechanisms
  (Features.v; elsewhere all features are on), the test modules other than src/test (TestUtils.v). A `ChannelBindingCallback` is an
  arbitrary function from names to data; the two in channel_bindings.rs are in ChannelBindings.v.
* Custom mechanisms: in the registry they are described by name, priority, sides and the
  `Matches` selector; their steps are arbitrary programs (Custom.v, C104). The other
  properties are about sessions of the built-in mechanisms.
* serde_json (an arbitrary function; written in one piece), stringprep, the hash crates,
  libgssapi: arbitrary functions. Json.v is a model of what serde and serde_json do with the
  one type that is used (C80): written after their documentation, their source is not in /repo.
* step64 (Session.v) is for a writer that accepts everything; C21 says so. Step64.v has any writer:
  base64's `EncoderWriter` is modelled after its documentation and published source, which is not in
  /repo, and C98 relates the two.

Smaller simplifications are stated in the comment of the definition concerned.

## Findings

Where the code does not do what the property (its documentation or the RFC) says. "T"
names the theorem that shows it about the model.

F1. **A value can be consumed and lost.** A callback that calls `satisfy` twice drops the
result of the first (successful) call: the request ends as if nothing had been provided,
although the mechanism's closure ran (T C11_value_lost_refuted, C11_second_not_ok_refuted).
`satisfy` also returns `Err(EarlyReturn)` on success, so callbacks must use `?`. A callback
that swallows the consumer's error makes an optional request go on with partial output.

F2. **`unescape` of SCRAM names does not terminate** on valid escapes and panics on short
ones (T C32_terminates_refuted, C32_panic_refuted). It is not called, hence the server
reports escaped names to the application: `a=2Cb` instead of `a,b` (T C33_identity_refuted).

F3. **Malformed SCRAM messages panic**: `n,,n` at the server, `r=x,s` at the client, and
others with attributes shorter than two bytes (T C35_server_refuted, C35_client_refuted, C44_errors_refuted).
This is a remote denial of service before authentication.

F4. The first two bytes of the authorization identity part of a client-first message are
not compared with `a=` (field `two` in `client_first_fields`, C34).

F5. **Lost state.** A SCRAM step without input (InputDataRequired) loses the state: the next
step panics (T C46_recoverable_refuted). SCRAM clients panic when stepped after the end, so
do SCRAM servers on the second such step (T C50_scram_client_panics, C50_refused_refuted).
GSSAPI steps after the end destroy the installed security layer. PLAIN clients send the
password again when stepped again (C50).

F6. A client with channel binding data and only `-PLUS` offered may start the mechanism
without -PLUS, which was not offered (T C02_only_offered_refuted).

F7. A `-PLUS` server accepts clients that do not bind the channel (T C10_insists_refuted).

F8. SCRAM extensions are skipped and are not part of the server's AuthMessage
(T C39_server_refuted).

F9. The validation context omits an absent authorization identity in SCRAM and OAUTHBEARER
(T C48_fixed_refuted). A SCRAM server finishes with `Finished` on wrong proofs without any
validation call (T C47_exactly_once_refuted): applications must look at the validation
value, not at `Finished`. GSSAPI servers never validate (T C47_gssapi).

F10. SCRAM clients panic on cached keys of the wrong length (T C65_cached_refuted), accept
iteration counts like `+0042` (T C56_posit_refuted) and write unchecked application-chosen
channel binding names (T C34_client_first_refuted). The server sends `v=` before it asks
for validation, and pads short proofs with zeros.

F11. OAUTHBEARER servers hand out `Bearer TOKEN` as the token (T C30_token_refuted);
separators in client values are not escaped or refused (T C30_separators_refuted).

F12. XOAUTH2 clients put a `\x01` in the user name on the wire, which injects fields
(T C28_injection, C28_roundtrip_refuted).

F13. A writer answering `Ok(0)` makes the vectored writer report success with an incomplete
message (T C20_complete_message_refuted).

F14. LOGIN clients do not wait for the server's prompt (T C60_waits_refuted).

F15. GSSAPI clients may select confidentiality although the context has none
(T C51_confidentiality_refuted); servers accept layers they did not offer together with an
offered one (T C52_offered_refuted), fail if the context needs more than one leg
(T C53_multi_leg_refuted) and refuse final tokens that carry an authorization identity
(T C64_authzid_refuted).

F16. Selection: of two mechanisms with equal priority the later one wins; a custom mechanism
without client side panics when selected (T C05_custom_panics).

F17. GSSAPI is documented as preferred but has the priority of PLAIN (T C58_order_refuted);
the default registry lacks -PLUS and GSSAPI (T C61_complete_refuted).

F18. A SCRAM server tells whether a user exists: `e=unknown-user` and a salt that changes
with every attempt (T C63_hidden_refuted, C43_pretends).

F19. mechanisms/mod.rs:129 has SCRAM clients ask for AuthzId, AuthId and Password first and
for channel bindings afterwards; they ask for channel bindings first and for the password only
after the server's first message (T C67_order_refuted).

F20. examples/server_plain.rs takes a missing authorization identity for `None`, but PLAIN
contexts answer `Some("")` (context.rs:136 says so). `\0username\0secret` is therefore AuthzBad,
and an assertion fails in each of the first three exchanges of the example (T C68_plain_refuted). Nobody is accepted
who should not be (T C68_plain_partial).

F21. examples/client_simple.rs hands the lines returned by `read_line` to `with_credentials`
without removing the line terminators, so they are sent as part of user name and password
(T C68_client_refuted, C68_client_partial).

F22. Error kinds do not follow error.rs:10-23. Of kind Parse are also: the SCRAM server's refusal of a client that
does not bind although both could (scram/server.rs:56-60), a stored password of the wrong size supplied by the
application, and a failing writer while the OAUTHBEARER server sends its error (all T C69_parse_refuted and
C69_parse_example). Of kind Protocol is an iteration count that is not a number (T C69_protocol_refuted).

F23. `SessionError::NoValidate` is never reported: a server finishes successfully although its application validated
nothing (T C69_novalidate_refuted, C69_foreign).

F24. session.rs:88-92 demands a final step without input when the other side declares the exchange complete. If the
server does so right after the user name, that step makes the LOGIN client write the password and return
`Finished(MessageSent::Yes)` (T C70_final_refuted).

F25. SCRAM never applies SASLprep: the client hashes the password and sends the user name as typed, and the server looks
the name up as received, while PLAIN prepares both. A password with, say, a soft hyphen works with PLAIN and is refused
by SCRAM if the keys were stored as RFC 5802 prescribes (T C72_password_refuted, C72_name_refuted). Because nothing is
refused either, a password followed by NUL octets is as good as the password (T C72_zeros).

F26. The interop server lists SCRAM-SHA-1 and SCRAM-SHA-512 but answers every request for a stored password with one
entry made for SHA-256 (interop/src/bin/server.rs:35-52), which the SCRAM server refuses as MScramPasswordHashInvalid:
no login with these mechanisms can succeed (T C76_scram_fails). The server's callback does not look at the hash.

F27. The interop client program never sends anything but the name of the mechanism when it is given an address: the
output of every step is printed to standard output (interop/src/bin/client.rs:213-235). With PLAIN it even ends
successfully while the server has not seen a single message (T C76_program_never, C76_program_plain).

F28. The interop test client takes every line of the server for a SASL message until its own session finishes, and
panics at the text of an error (tests/common/mod.rs:52-75); after a SCRAM failure the outcome line is therefore never
read, and after a success the server never reads the client's final "-" (T C74_scram).

F29. OAuthBearerError holds `&str` and `Option<&str>` (oauthbearer/properties.rs:28-71). serde_json can lend a `&str`
only from text without escapes, so the client answers every error in which a quotation mark, a backslash or a control
character occurs, or a solidus is written `\/`, with a parse error instead of handing it to the application; the
library's own server writes such errors. A JSON array of one to three values is taken for an error object
(T C80_read_refuted, C80_roundtrip_partial).

F30. SCRAM clients accept an empty salt and any iteration count from 1 (scram/client.rs:286-301). Whoever poses as the
server obtains a proof that can be searched with one HMAC per guess and a table that serves for all users
(T C83_recommended_refuted, C83_any). The application can refuse: it is shown both values (T C83_shown_partial).

F31. GSSAPI ignores the maximal message size of the other side (gssapi/client.rs:129-166, gssapi/server.rs:119-145).
RFC 4752 lets a receiver limit the messages it gets and requires size 0 where there is no layer; rsasl sends
messages of any length and checks nothing (T C84_client_refuted, C84_server_refuted, C84_zero_refuted,
C84_ignored_partial).

F32. SCRAM clients refuse server messages with optional extensions (scram/parser.rs:400-402, 554-556), which RFC 5802
section 5.1 has them ignore: a server-first message fails to parse, a correct verifier fails to decode, and an error
becomes `other-error` (T C85_server_first_extended, C85_verifier_extended, C85_error_extended). Outside the grammar but
accepted are: an empty user name or client nonce and arbitrary bytes after it (T C85_only_server_refuted), and a server
nonce of arbitrary bytes (T C85_only_client_refuted).

F33. An OAUTHBEARER server refuses every response in which the value of a key other than `auth` contains "="
(oauthbearer/parser.rs:60-66 splits at every "="), although RFC 7628 allows it (T C86_equals, C86_reads_refuted). It
reads messages outside the grammar: keys that are not letters, values with control characters, anything after the
authorization identity, and several tokens, of which the last counts (T C86_only_refuted, C86_exact_partial).

F34. The ANONYMOUS server accepts trace information of any length (T C88_anonymous_long), although its error says
"invalid UTF-8 or longer than 255 chars" (anonymous/server.rs:11) and RFC 4505 limits it; the client sends any length.
The EXTERNAL server accepts and the client sends identities with NUL, which RFC 4422 excludes, and the PLAIN server
accepts passwords that are no UTF-8 (T C88_external_only_refuted, C88_plain_only_refuted).

F35. The SCRAM client ignores errors the application returns when it is told the derived keys
(scram/client.rs:434-441; the comment says that keys need not be saved), so a fatal error of the application there
does not abort the exchange (T C91_keys, C91_aborts_refuted).

F36. The SCRAM server refuses with `e=invalid-proof` clients that use the optional extensions of RFC 5802:
it reads the messages (F8) but computes the AuthMessage from user name and nonce alone, without the extensions
the client signed (T C92_extended, C92_server_refuted).

F37. XOAUTH2 and OAUTHBEARER servers ask the application to validate also when it has just refused the token, in a
context that does not contain the verdict; a value produced then is what `validation()` returns (C93_refused_example).
A comment says so for XOAUTH2 (xoauth2/server.rs:108-110); applications have to check the token twice.

F38. A failed exchange is not over. After the application refused a password, a LOGIN server session is still waiting for
one, and any number of passwords can be tried in it (C94_guesses); PLAIN, EXTERNAL and ANONYMOUS servers have no state
and start anew with every message (C94_stateless). An XOAUTH2 or OAUTHBEARER server whose step failed because the
application returned an error from its validation callback after refusing the token finishes with the next call
(C94_reported_example). A GSSAPI server whose writer failed while it sent the last token of the context goes on with
the next call as if the token had been sent (C94_gssapi_server_example). session.rs:98-102 forbids such calls; nothing
enforces it, except in SCRAM, where they panic.

F39. One message can be read by three mechanisms. SCRAM servers accept NUL in user names and ignore what follows the
nonce, OAUTHBEARER servers ignore what stands between the second comma and the first ^A, and PLAIN servers accept any
text between their NULs; the message of C95_apart_refuted is taken by all three (each reads other credentials in it).
Without extensions and NULs the formats are disjoint.

F40. `step64` lets the base64 encoder write its rest when it is dropped (session.rs:234-244, no `finish`), where errors
are ignored: if the connection fails at the last characters, the step still succeeds (C98_complete_refuted). With a writer
that takes only part of what it is offered, the encoder answers Ok(0) to the next write; `write_all` makes that an error
(C98_willing_refuted) and vectored writing the end of the message, so that SCRAM and OAuth clients report success after
sending a truncated message (C98_short_refuted).

F41. Features are not purely additive: a client with PLAIN whose application knows a password stops working when some
other crate of the program enables `xoauth2` and the server offers it, since XOAUTH2 has the same priority and is registered
later (C100_working_refuted). The default registry has neither the -PLUS mechanisms nor, without `registry_static`, GSSAPI,
although their features are on (C101_available_refuted); the example in mechanisms/mod.rs:15-20 is wrong both ways
(C101_documented_refuted: SCRAM-SHA-512 comes along, SCRAM-SHA-256-PLUS does not). With `registry_static` the linker
decides between mechanisms of equal priority (C102_order_refuted).

F42. The introduction in lib.rs:33-76 shows `AHVzZXJuYW1lAHNlY3JldAo=` as what PLAIN sends for "username" and "secret". It is
what PLAIN sends for the password "secret" followed by a line feed (C105_meaning); with the stated credentials every client
sends `AHVzZXJuYW1lAHNlY3JldA==` (C105_message_refuted, C105_message_partial).

F43. mechanism.rs:95-96 demands `InputDataRequired` from decode when there is not enough input. GSSAPI never returns it: a token
cut in two, or two tokens in one piece, end in an error of the GSS library (C107_stream_refuted, C107_pieces, C107_whole), and
no length is written before a token (RFC 4422, section 3.7). A protocol has to frame the tokens itself; then all data arrives
(C107_stream_partial). encode and decode report a writer that returns Ok(0) as an I/O error, not as Ok(0) (mechanism.rs:82, C107_zero).

F44. error.rs:140-143 says of `NoSharedMechanism` that no mechanism from the offered list is available. A start function of another
crate's mechanism can return nothing else (SASLError has one variant), and the client does not try another mechanism then:
it reports NoSharedMechanism although PLAIN, say, was offered, available and acceptable (T C109_error_refuted).

F45. RFC 7628, section 3.2.3, demands that an OAUTHBEARER client answers an error report with the single character %x01 (or
aborts). rsasl's client announces a message but writes nothing (oauthbearer/client.rs:78-84), so an empty response goes out.
rsasl's own server accepts anything there (T C110_dummy_refuted, C110_reply).

F46. PRINTABLE (scram/tools.rs:8-10) is documented as all the characters that are valid in a nonce, but stops at "y": z, {, |, } and ~
are missing. Nonces have 24 * log2 88 = 155 bits instead of 157, which does no harm (T C111_all_refuted, C111_client_partial).

F47. The PLAIN server runs `saslprep` over the received user name and password (plain/server.rs:54, 61) and hands the library's error on; `PlainError` displays its text (plain/mechinfo.rs:50-55). As published, stringprep 0.1.5 (not in /repo) displays the prohibited character itself, so a client can put a raw control character into a server's log this way, and a character of a mistyped password shows up there. C114_printable therefore has to assume that the text is printable. The other errors of this crate show bytes only as numbers.

F48. A SCRAM server writes its signature, the proof that it knows the user's keys and accepts the client, before it asks the application to validate (scram/server.rs:348-360). If the application refuses, `step` returns the error, but the bytes in the writer are those of a success, and a client that receives them finishes (T C115_client_refuted, C115_scram_refused). An application that hands `step` the connection as writer, or sends what was written before it looks at the result, tells a refused client that it is authenticated. XOAUTH2 and OAUTHBEARER servers ask for validation after they have written the report of a refusal as well. Clients of PLAIN, XOAUTH2, OAUTHBEARER and GSSAPI write piece by piece and can fail after the first pieces, before any password or token (T C115_plain, C115_xoauth2, C115_oauthbearer).

F49. A SCRAM client does not look at the characters of the server's nonce (scram/parser.rs:380-384; the server checks the client's, parser.rs:278) and repeats it in its last message: a server can make it send bytes that are not UTF-8 (T C116_echo_refuted). PLAIN and LOGIN clients send passwords as they are, also when those are not text (T C116_password_refuted); RFC 4616 demands UTF-8. What servers write is always UTF-8 (T C116_server).

F50. SASLConfig::with_credentials uses PLAIN and LOGIN whenever SCRAM is not in the list the server sent, without looking at the channel: who can change the list obtains the password (T C117_clear, C117_stripped_refuted). The documentation gives the order of preference but no warning, and there is no way to leave the two out.

F51. The test mechanisms of feature testutils cannot be used: RSaslTest::step is todo!(), so every session of client_config and server_config panics in its first step (T C118_panics), and X-RSASLTEST-SF, by its name the server-first variant, is declared with Side::Client (test/mechanism.rs:133; T C118_first_refuted).

F52. write_all_vectored does not retry when the writer reports Interrupted (vectored_io.rs:27,61), unlike write_all: SCRAM on both sides and the clients of XOAUTH2 and OAUTHBEARER fail on an interruption the other mechanisms do not notice, and a SCRAM client panics if stepped again (T C119_interrupted_refuted, pieces_fails).

F53. Decision 0003 (docs/decisions) was to let need_with and the like take &mut self, so that the compiler prevents recursive callbacks; they take &self (session.rs:331,350,359,378,396). A mechanism of another crate can ask for a property in the closure of another request, and an application that holds a lock meanwhile is called again (T C121_custom_refuted). No built-in mechanism does. CHANGELOG.md (v2.0.0) nevertheless announces the &mut self receivers as done.

F54. `NoCallback` (callback.rs:199-200, 'callback does not handle property') looks like the answer for a property an application does not handle, and callback.rs:72 presents it as equivalent to Ok. `maybe_need_with` (session.rs:370-374) ignores only NoValue: an application that returns NoCallback for what it does not handle cannot use PLAIN or SCRAM without an AuthzId, ANONYMOUS without a token, and a SCRAM server returning it for an unknown user aborts instead of going on (T C123_declines_refuted).

F55. examples/server_scram.rs invites to 'change the below authid/password to change the authentication outcome' (line 132), but with any other name or password the outcome is a panic: the server reports e=unknown-user or e=invalid-proof and returns Ok, the client's step then fails, and its `expect` (line 154-156) comes before the line that prints the validation (T C124_scram_partial). It can only ever print Some(Ok("username")) (T C124_scram_printed); AuthError::NoSuchUser and AuthzBad cannot come about. examples/server_plain.rs fails its first assertion on every run (T C124_plain_refuted; the cause is the empty authorization identity, see the finding about C68). examples/client_simple.rs panics at the end of input instead of reporting it (T C124_client_partial).

F56. The empty authorization identity is 'still treated as no authzid provided' (CHANGELOG.md:191) by the PLAIN and EXTERNAL clients only (T C125_client_partial). The SCRAM clients fail with SaslNameError::Empty before sending anything (T C125_scram), so SASLConfig::with_credentials(Some(""), ..) cannot log in at any server that offers SCRAM-SHA-256, -512 or -1, although it could with PLAIN (T C125_with_credentials). The OAUTHBEARER client sends 'n,a=,', which the GS2 grammar of RFC 5801 does not allow, and the server accepts it and shows its application an empty identity (T C125_oauthbearer, C125_oauthbearer_server). A server application must know both forms of absence: PLAIN and EXTERNAL show the empty text, SCRAM and OAUTHBEARER nothing (T C125_server_refuted).

F57. Only PLAIN refuses empty names and passwords (CHANGELOG.md:191-193; T C126_client_plain_partial, C126_server_partial). The LOGIN client sends them and the LOGIN server asks its application to validate the empty name with the empty password (T C126_login), which is dangerous where the application passes them on to a directory that takes an empty password for an anonymous bind. The XOAUTH2 client and server pass on an empty user and an empty token (T C126_client_xoauth2, C126_server_xoauth2). The SCRAM client refuses an empty name (T C126_client_scram_partial), but the server accepts 'n=,' and asks for the stored password of the empty name, although saslname has at least one character in RFC 5802 (T C126_server_scram): SaslName::unescape, which has the check, is not called. SCRAM proves an empty password like any other (T C126_scram).

F58. A user does not go by one name: a server's application is shown the saslprepped name with PLAIN, the unchanged one with LOGIN and XOAUTH2 and the escaped one with SCRAM (T C127_seen, C127_refuted). Where PLAIN and SCRAM are both offered two users are taken for one: 'a,b' logging in with SCRAM and 'a=2Cb' logging in with PLAIN are both shown as 'a=2Cb' (T C127_confused).

F59. A secret does not look the same to all servers: a token t is shown as t with XOAUTH2 and as 'Bearer t' with OAUTHBEARER, for every t (T C128_tokens, C128_refuted; see F11), and a password is shown prepared with saslprep with PLAIN and as it is with LOGIN (T C128_passwords). An application that compares them with one stored value rejects at one mechanism what it accepts at the other.
