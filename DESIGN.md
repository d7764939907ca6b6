# Formal model of sicpa-dlab/openid4vc-rs (crate `openid4vci`) in Rocq/Coq 8.16.1

This file is the plan and the trusted base. Paths like `jwt/mod.rs` are relative
to `/repo/crates/openid4vci/src`.

## 1. Shape of the development

`rocq/theories/`

| file(s) | content |
|---|---|
| `Model/*.v` | executable Gallina model, no proofs; every definition cites file and lines |
| `Model/Prelude.v` | strings, the three-valued `res`, `HashMap` as association list, splitting and joining |
| `Model/Utf8.v` `Base64.v` `Percent.v` `Float.v` `FloatCount.v` `Json.v` | UTF-8, base64 engines, `urlencoding`, `f64` (rounding, multiplication, division, `serde_json`'s reader and `ryu`'s shortest text), `serde_json` reader and writer |
| `Model/Types.v` `Errors.v` `Deps.v` `Chrono.v` | data types, the four error enums with `error_impl!` and `ReturnObject`, abstract functions of other crates |
| `Model/Serde.v` `SerdeOptions.v` `Wire.v` | derived `Serialize`/`Deserialize` of every type, and the text-level functions built from them |
| `Model/AccessToken.v` `Jwt.v` `CredentialIssuer.v` | the functions of the crate |
| `Model/Equality.v` | derived `PartialEq` of every type |
| `Model/Defaults.v` | `Default` of every type that has it |
| `Model/Hashing.v` | derived `Hash` of the four types that have it (what they feed to a hasher) |
| `Spec.v` `SpecToken.v` `SpecOffer.v` `SpecErrors.v` `SpecJwt.v` `SpecEvaluation.v` `SpecResponse.v` `SpecDocuments.v` `SpecJson.v` `SpecSession.v` `SpecWire.v` `SpecTime.v` `SpecEvidence.v` `SpecCodes.v` `SpecResults.v` `SpecNumber.v` `SpecServer.v` `SpecRelay.v` `SpecEquality.v` | specification vocabulary: relations and predicates that do not use the model's functions (only its data types). `SpecJson.v` is the RFC 8259 grammar as a relation, `SpecNumber.v` number tokens, their values, binary64 and its rounding over the rationals |
| `Proofs/*.v` | lemmas; `StrFacts`, `Utf8Facts`, `Base64Facts`, `Base64Bits`, `PercentFacts`, `JsonFacts` about the codecs; `FloatFacts`, `FloatText`, `NumberFacts`, `NumberValues`, `FloatCountFacts` about numbers; `ReaderFacts`, `GrammarFacts`, `KeptFacts`, `SpellingFacts` about the JSON reader against the grammar; `SerdeFacts`, `DocumentFacts`, `ShapeFacts`, `WireFacts`, `WrittenFacts` about documents, `TimeFacts`, `TimeDocs` about timestamps; `TokenFacts`, `OfferFacts`, `ErrorFacts`, `MessageFacts`, `ErrorTexts`, `JwtFacts`, `EvalFacts*`, `ResponseFacts`, `OrderFacts`, `SessionFacts`, `EvidenceFacts`, `CodeFacts`, `ResultFacts`, `ValidationFacts`, `MethodFacts`, `ErrorCompact` about the functions, `RelayFacts`, `RenumberFacts` about documents passed on, `EqualityFacts`, `SamenessFacts` about `==`, `PartyFacts`, `ServerFacts` about several parties, sessions and crashes, `AnyDepth`, `DepthFacts` about nesting; `OkTac` a tactic for the examples |
| `Examples.v` | a concrete instance of `deps` and concrete data used by the examples |
| `Conformance.v` | 52 of the 53 unit tests of /repo, run on the model with the results they assert (one assertion of credential_issuer/error.rs:104-121 contradicts the code and is noted there) |
| `Properties/*.v` | only the property theorems (`C01_...`), each closed by `exact lemma` (or `by_reader lemma`, which replaces the grammar relation by the reader), examples meeting the hypotheses, and `Print Assumptions` |

Outside `rocq/`: `tools/` generates `properties.jsonl` and `MANIFEST.json`;
`seeded/` holds the wrong programs (`mutants.py`), the runner (`run.py`) and the
log (`LOG.jsonl`).

Strings are byte lists (`str := list ascii`), i.e. the UTF-8 bytes of a Rust
`String`. `Result` is the three-valued type `res E A = Ok a | Err e | Panic`; a
panic path of the Rust code is the value `Panic`. `Utc::now()` is an argument.
`HashMap` is an association list without duplicate keys whose order is the
iteration order; equality of maps is equality up to permutation, so every
theorem about serialization holds for every iteration order.

Functions of other crates that the code calls:

* modelled concretely (their public contract, source not in /repo):
  `serde_json` (writer, reader, nesting limit 128), the `serde` derive output
  for each type, `base64` 0.21 engines, `urlencoding::encode`, `str` methods
  (`split`, `splitn`, `matches`, `to_lowercase`, `to_uppercase` over UTF-8),
  `u64::checked_ilog10`, `chrono` arithmetic on instants;
* abstract (a record `deps` of functions that every theorem quantifies over):
  `ssi_dids::DIDURL::try_from`, `Document::select_object`,
  `VerificationMethodMap::get_jwk`, `serde_json::from_str::<ssi_jwk::JWK>`,
  chrono's RFC 3339 text form of instants (parse/print), the non-ASCII part of
  the Unicode case tables. Facts assumed about them are premises of the theorems
  that need them, and a concrete instance satisfying the premises is exhibited.

## 2. Properties: what is modelled, how it is proved

The statements are in `properties.jsonl`. "Case analysis" means unfolding the
model and splitting on every branch; refuted claims are proved as
`..._refuted` with a concrete witness, and the strongest true form is proved
next to it.

| id | modelled | proof |
|---|---|---|
| C01 C02 C03 C06 | `evaluate_access_token_request` with its two closures | case analysis against an independent relation |
| C04 C05 | `checked_ilog10`, `GrantType::validate` | arithmetic on decimal digit counts; C04 refuted at 9 digits |
| C07 C08 | success response, its serde form, its `validate` | record equality, JSON round trip; C08 refuted |
| C09 C10 | the two string tables, token type | finite table plus string equality for all strings |
| C11 C12 | `ErrorResponse` serde form with `flatten` | C11 refuted (serde uses the Rust variant names), C12 refuted; exact form proved |
| C13 C14 C15 C21 C22 | `create_offer` | case analysis, list induction, byte-class invariant of the escape function; C22 refuted |
| C16 C17 C65 C66 C68 | serde form of offers, JSON writer/reader, percent codec | structural induction on JSON values and on byte lists; for values with any numbers (`Properties/Held.v`) the text is followed once with the numbers as read and once as they stand, the latter tells texts apart |
| C18 C19 C20 | metadata validation with the `HashSet` fold, `resolve`, `resolve_all` | induction with a generalised accumulator; permutations |
| C23 | `urlencoding::encode` and a decoder | induction, 256-byte sweep |
| C24 C25 C26 C27 C29 C33 | `ProofJwt::from_str`, `TryInto<String>`, serde form of header and claims | codec lemmas; C26, C27, C29, C33 refuted |
| C28 | both base64 engines | 3-byte-group induction, finite sweeps |
| C30 C48 | UTF-8 decoding, case mapping | induction over code points |
| C31 C32 | `verify` | linear arithmetic; C32 refuted |
| C34 C35 C36 C37 C38 C39 C40 C41 C53 C54 | `pre_evaluate_credential_request`, `evaluate_credential_request`, key extraction | case analysis against an independent relation; relational corollaries |
| C42 C43 | the same with `Panic` | C42 refuted (date overflow); exact panic condition proved |
| C44 C45 C46 C47 C49 C50 C52 | the same | refuted with concrete tokens; exact behaviour is C37/C51 |
| C51 | `to_signable_message`, `extract_signature` | string lemmas on first and second dot |
| C55 C56 C57 C58 C59 | `create_credential_success_response`, `TryFrom`, serde form | case analysis, round trip; C57, C58 refuted |
| C60 C61 C62 C63 C64 | the four error enums, `error_impl!`, `ReturnObject` | case analysis; induction on call sequences; C62 refuted; Proofs/AnyErrors.v drops the restriction to numbers read to themselves and the nesting limit (also for C11) |
| C67 C72 | serde form of token requests | round trip; OAuth form refuted; exact reading condition |
| C69 C70 C71 C73 | serde form of metadata, credential requests, options, nonces, parsed proofs | round trips by structural induction; C69 and C70 refuted |
| C74 C75 | every reading function | reader shown equivalent to the RFC 8259 grammar (`SpecJson.v`) by induction on the text; each reader factors through the members it knows; `shape` says, struct by struct and at every depth, which members are read and which are skipped, `alike` when two documents agree on the former |
| C76 | claims of a token | the positional form of derived structs; refuted, exact form proved |
| C77 | all calls of one issuance, with the wire formats between them (`SpecSession.v`) | composition of the round trips and of the exact acceptance conditions |
| C78 C79 C80 | histories of calls as a transition system whose state is what the caller must remember | invariant by induction on the history; C80 refuted with a concrete history |
| C81 C82 | one relation per type between JSON values and Rust values, used for reading and for writing (`SpecWire.v`) | `reads` combinators for members, lists, maps, structs, tagged enums; free-form values by uniqueness of sorted lists |
| C83 | the serde form and `Display` of `DateTime<Utc>` (`Chrono.v`), an instance `with_chrono d` of the abstract functions | calendar by arithmetic (`lia` on Euclidean division) against counting days; grammar by reader/writer lemmas |
| C84 C85 | `to_signable_message`, `extract_signature`, token reading, evaluation | refuted with two accepted tokens; positive part: texts of JSON objects are prefix-free (reader applied to a written object followed by anything) |
| C86 C87 | `evaluate_access_token_request`, `evaluate_credential_request`, error information | two runs of the same call that differ in the secret; C87 refuted, with the exact set of disclosing answers |
| C88 | the `From` conversions of credential lists, `create_offer` | induction over the list |
| C89 C91 | derived serde of the error codes and of `AuthorizationServerMetadata` | refuted with one document; positive part: exact texts, from the grammar lemmas |
| C90 | `to_signable_message`, `extract_signature`, evaluation; the signature scheme is any relation whose signatures have one length | the returned signature ends with the encoded one, which is longer than a signature; refuted for every accepted signed token |
| C92 | derived serde of the evaluation results (`SpecResults.v`) | the relations of C81 in writing direction; injectivity from functionality of these relations |
| C93 | both evaluation functions | two runs of the same call that agree on the named parts |
| C94 | reading and writing of numbers (`Float.v`) | the reader and the shortest-text search shown equivalent to relations over the rationals (`read_as`, `shortest_decimal`); relative errors of each rounding composed; spacing of binary64 against 10^-15; refuted for 16 digits |
| C95 | the `validate` functions of all types | case analysis; decimal logarithm against digit counts |
| C96 | reading of the documents the library writes, with the nesting limit of serde_json | the grammar is monotone in the allowed depth, so a written text is read as itself or not at all; depth of a value that is read as a whole is at most the allowed one; refuted with a context of 123 levels |
| C97 | the methods of a parsed proof and `get_format_name`, each on its own | case analysis against the relations of SpecEvaluation.v |
| C98 | two evaluations of one token | the checks of each (C36), one token parses to one proof |
| C99 | create_offer, both documents through JSON, resolve_all | C96, C69, C20 composed |
| C100 | histories of many sessions (`SpecServer.v`) | a trace projects to one history per session and histories glue to a trace; each token has one nonce |
| C101 | histories with restarts and lost writes (`SpecServer.v`) | C73 makes a restart the identity; invariant: the stored nonce was issued |
| C102 | callers that rotate nonces and drop redeemed offers (`SpecServer.v`) | C79; the multiset of created codes is an invariant; with crashes, a bound on uses that grows by one per lost write |
| C103 | acceptance at the end of any history, chains of fetches (`SpecServer.v`) | C37 at the state of the last issue; induction on the chain |
| C104 | reading, writing and reading again, for every document type (`SpecRelay.v`) | whatever a text spells (C81) meets the conditions of the round trips; every number that is read is written as one that is read again, up to the largest (`NumberAgain.v`), so nothing but numbers changes (`RenumberFacts.v`); a number that alternates between two texts refutes it for free-form numbers |
| C105 | writing and reading of values with any `f64` in their free-form parts (`SpecRelay.v`: `value_any`, `credential_numbers` and so on) | replacing numbers commutes with every encoder; all texts written for an `f64` are read (`NumberAgain.v`: scaling by a rounded power of ten does not overflow below the largest shortest decimal) |
| C106 | the derived `PartialEq` of every type (`Model/Equality.v`), sameness of contents as relations (`SpecEquality.v`) | comparisons of lists, options and maps decide the lifted relations (`EqualityFacts.v`); texts of `f64`s are equal exactly if the numbers are, apart from the two zeros; equivalence and survival of JSON by induction (`SamenessFacts.v`); hashed bytes are prefix-free because UTF-8 has no byte 0xff (`Model/Hashing.v`, `HashFacts.v`) |
| C107 | `Default` of every type that has it (`Model/Defaults.v`) | from C01, C13, C36, C38, C39; default options compute to no options; refuted for credential requests under a default offer |
| C108 | percent-encoding, base64, JSON reading and writing | exact lengths by induction; numbers of values and of bytes of strings (`SpecSizes.v`) against the grammar and the writer (`SizeFacts.v`) |
| C109 | metadata with further credentials anywhere in the list, any number of times (`SpecHistory.v`: `grown`) | ids stay distinct, first matches stay; evaluation does not look at the credentials |
| C110 | documents read from what others wrote (`SpecHistory.v`: `reaches`), with the evaluations at the end | C104 at every length of the way; the evaluations do not look at free-form numbers |
| C111 | the shortest decimal of an `f64` (`SpecNumber.v`) | the next grid of 17 digits is finer than the rounding interval; exponents are within -324 and 308 (`NumberSize.v`) |
| C112 | reading and writing of every document type, any number of times (`SpecSizes.v`: `not_amplified`) | each written member is paid for by a member that was read or by a constant for its name (`GrowthFacts.v`: `funded`); replacing numbers does not change the estimate, so it holds for every number of times; written dates have at most 33 characters (`DateSize.v`) |
| C113 | writing and reading of the documents of the protocol (`SpecKinds.v`: `written_as`, `read_as`) | false as stated: a credential request is read as a credential response without credential (refuted, and what is read is proved); that is the only confusion: every kind needs a member that no other kind writes (`KindFacts.v`) |
| C114 | reading and evaluation of a token request in which the PIN is written digit by digit (`SpecPin.v`: `pin_request`) | false as stated: no PIN with a leading zero is read (refuted); exact set of sequences read, and exact set that redeems an offer, by following the reader through the document |
| C115 | reading of every document of the protocol, with the objects found in it at every depth and the names looked up in each (`SpecTwice.v`: `read_object`, `times`) | false as stated for the key of a proof (refuted; the first one counts); no other name occurs twice, by inversion of the exact readings of `WireFacts.v` through every level (`TwiceFacts.v`) |
| C116 | readers of all document types, percent-decoding, base64, token parsing and evaluation, on a text and on any prefix of it (`SpecCut.v`: `whole_only`, `signature_cut`) | documents: an object, array or string is read in the same way whatever follows it, from the exactness of the reader on the grammar; URLs, base64 and tokens by lifting that through the decodings; false for the signature of a token (refuted) |
| C117 | reader of offers, on documents that follow the draft (`SpecDraft.v`: `draft_offer`, written from the draft and the doc comments, without the model) | false (refuted by an offer of ids without `grants`); if and only if, from the exact description of what is read (C81): every required member of the draft is there once, JSON-LD credentials lack `types`, other formats are unknown |
| C118 | reader of credential requests, on documents that follow the draft (`draft_request`, nested `claim_object`) | false (refuted by an ldp_vc request); if and only if as for C117, with the claims whose parts have unlucky names excluded |
| C119 | reader of issuer metadata, on documents that follow the draft (`draft_metadata`) | false (refuted by an entry in another format); if and only if as for C118, entry by entry |
| C120 | reader of credentials, on descriptions that follow the draft (`described_members`) and the claims in what is read (`claim_listed`, `displayed`) | false (refuted by a claim with a `value_type`); what is learnt is proved member by member |
| C121 | reader of token responses, on documents that follow the draft and RFC 6749 (`draft_token_response`) | false (refuted by `bearer`); if and only if |
| C122 | reader of credential responses, on documents that follow the draft (`draft_credential_response`) | false (refuted by an encoded credential); if and only if |
| C123 | reader of proof headers, on headers that follow the draft and RFC 7515 (`draft_header`) | false (refuted by a JWK); the key that is read is proved from the exact description of the header's reader |
| C124 | writers of offers, requests, metadata, token and credential responses and proof headers, against the draft (`SpecDraft.v`) | false for each of them (one refutation per kind); if and only if for each kind: the text stands for exactly one value (C66), whose members are looked up one by one |
| C125 | `Display` of the four error enums with chrono's `Display` of instants, against the characters of RFC 6749 5.2 (`SpecSendable.v`) | token errors by cases; refuted for evaluation of a credential request with a token that has a `jwk`; which descriptions can be sent: exactly those whose repeated text can (`repeats`), by cases and induction on digits; where the repeated text comes from: from the list of checks of C41 and C34 |
| C126 | serialization of error responses, against RFC 6749 5.2 (`SpecSendable.v`) | both kinds refuted by an answer without texts; the members of C11's text decide, for details of any content |
| C127 | evaluation, pre-evaluation and answers on requests whose proof follows the draft (`SpecInterop.v`); written claims | refuted with one token; the opposite for all of them: C33's rejection of a numeric `iat`, carried from the text of the request to the three calls; written claims from C82 |
| C128 | all readers on arbitrary bytes; `FromStr` of a token; evaluation of a request that was read | by inversion of the grammar each reader accepts (the soundness lemmas behind C104); splitting a UTF-8 text at a dot gives UTF-8 texts |
| C129 | all writers, error answers, `Display` of errors, offer links | by induction on JSON values: escaping keeps multi-byte characters whole; texts of numbers and percent-encoding are ASCII |
| C130 | `create_offer`, pre-evaluation, success responses run twice on arguments that agree where it matters (`SpecDepend.v`) | relational: both runs take the same branches |
| C131 | evaluation with a token of another time of issue or subject (`with_issue`) | refuted with accepted tokens of 2000 and 2100; the opposite for all tokens: the verdict is a function of the other claims (congruence behind C44, C45) |
| C132 | the calls and the errors they give (`reported`), errors inside errors (`within`), the codes listed per call (`codes_of`) | refuted for seven codes; upper bound by following every error path of each call, lower bound by a request for every code of every call |
| C133 | attackers as functions from the answers seen to the next request (`attacker`, `dialogue`), requests that send a code or PIN (`sends_code`, `sends_pin`) | refuted by one answer; upper bound by an explicit attacker and induction on its requests; lower bounds by keeping the set of secrets the answers so far fit: each request removes at most one |
| C134 | as C133, with credential requests, a clock and what the issuer shows of the outcome (`issuer_shows`, `everything`, `number_only`); properly signed requests (`signed_request`) | refuted by a wallet that takes over what each error names, for every issuer; with numbers only by the counting argument of C133 |
| C135 | the three calls on the same request | refuted by the proof type; otherwise from the check lists of C34, C37 and C48, and that encoding a credential never fails |
| C136 | the attackers of C133 and C134, with coins; secrets found within k requests (`finds`), number of cases (`at_most`, `lucky`) | the counting of C133 applied to the secrets that are found; for pairs by induction on k: the first request separates off one pair, one PIN's codes (or one code's PINs) and the rest |
| C137 | the wallets of C134; which proofs send nonce, client id, audience | noninterference: each request is refused before the secret is looked at, by the order of checks; lifted to dialogues as in C133 |
| C138 | the specifications of C01, C02, C05, C07, C09, C10, C13–C15, C18–C21, C25, C27, C31, C34, C37, C41, C42, C55, C95 and C97 as sets of allowed outcomes, for each of the 32 calls of C132 | each set has one member: the exact theorems for answers, errors and panics, put together |
| C139 | wallets that sign, sessions with nonces, an issuer that checks the decoded signature, attackers that choose everything else; signatures ideal: what verifies for a safe key was signed by its owner | invariant over histories (stored nonces were given, are unused and belong to one session); the message determines the proof as in C84; counting by the distinct nonces |
| C140 | a caller that combines evaluation with pre-evaluation, reading, verify, resolving, equality and decoding | the exact conditions of C31, C34, C37, C50, C106 and C139 put together, in both directions |
| C141 | a caller with a store and any number of requests in progress; steps of reading, evaluating, forgetting and stopping, in any order; for nonces and for offers | induction over schedules: how often a name is used, stored and in progress against how often it was given out; simulation by the sequential caller in both directions; a schedule of any width that reaches the bound |
| C142 | spellings of a token that differ by white space after the claims; callers that remember what they accepted, by text or by message | the grammar of claims allows trailing white space (lemmas of C24); base64url is injective, so the texts differ; the calls read a token only through its parsed form; histories of any length by induction; refuted claim with the accepted token of the examples |
| C143 | lists of versions of the metadata, each made from the last by publishing, withdrawing or editing, with and without reuse of ids; `create_offer`, `resolve_all` | induction over versions: an id that is never reused stands for one credential in all of them; refuted claim with a reused id |
| C144 | header documents with one more member, by the grammar of JSON texts; tokens that differ in that (`SpecCritical.v`) | a member can be put in front of any object text; the exact description of the header's reader is not changed by it; refuted claim with the accepted token of the examples |
| C145 | algorithms and the JWKs they are for (`SpecSuits.v`, RFC 7518, 8037, 8812); `evaluate_credential_request` | refuted with a MAC algorithm; any algorithm: the header is rewritten and encoded again, and the algorithm stands before the first dot, so the signature is the same; when it suits: from the exact description of keys (C53) |
| C146 | registries as functions from DIDs to documents (`SpecRegistry.v`; what `select_object` finds stays a parameter); `pre_evaluate_credential_request`, `evaluate_credential_request` | refuted with a document that names a key for a foreign DID URL; as told: agreement of the two calls (C35) and the exact description of keys (C53); only own keys: for every foreign key a token is written that is accepted |
| C147 | the network of C139 with a registry of documents that change (`SpecIdentity.v`); that signatures of safe keys cannot be forged is a premise of the step in which the issuer trusts the evidence; `pre_evaluate_credential_request`, `evaluate_credential_request` | refuted with the history of an impostor; otherwise induction on histories, C139 for what was signed and C146 for whose key it is |
| C148 | sessions that can go on, evidence with a signature that can be decoded (`SpecDots.v`); `evaluate_credential_request`; histories of C139 | refuted with https://issuer.example; exact: the dots of a document are those of its texts, evidence of C139 for one direction, a token that is written and evaluated for the other |
| C149 | histories as in C139, but with the signature of the token checked by the issuer (`SpecDirect.v`); `evaluate_credential_request` | proved: a token that is read has one signing input, which determines header and claims and is none of the other texts wallets sign; invariant of C139 for nonces; a token that is written and evaluated |
| C150 | the world of C147 with the token checked as in C149 (`SpecSound.v`); `pre_evaluate_credential_request`, `evaluate_credential_request` | proved: its histories are histories of C149, C146 for whose key it is, and pre-evaluation of the token written for C149 |

Refuted claims (the code does not have the property; the witness and the exact
behaviour are theorems): C04, C08, C11, C12, C22, C26, C27, C29, C32, C33, C42,
C44-C47, C49, C50, C52, C57, C58, C62, C67, C69, C70, C72, C76, C80, C84, C85, C87, C89-C91, C94, C96, C104,
C107, C113-C127, C131-C135, C141-C148. They are listed
as `partial` in `MANIFEST.json`, with a note.

## 3. Trusted base

* Coq 8.16.1's kernel (and `coqchk`).
* Axioms: none. `Print Assumptions` says "Closed under the global context" for
  each of the property theorems. `coqchk` lists seven entries
  `Coq.ssr.ssrunder.Under_rel.*` of the standard library: they are the interface
  of an opaque module loaded with `ssreflect` by `Lia`/`Ring` libraries, no
  theorem uses them.
* The reading of the Rust source recorded in the comments of `Model/*.v`.
* The contracts of other crates, whose source is not in /repo: `serde_json`
  (compact writer, reader, recursion limit 128), the output of `serde` derives
  (struct from map or sequence, duplicate fields rejected, unknown fields ignored,
  internally tagged, untagged and flattened forms), `base64` 0.21 (standard and
  URL-safe engines), `urlencoding` 2.1, what `Hash` of `str`, `u32` and `Option` feeds to a hasher, `chrono` instants as nanoseconds with the
  range of `DateTime<Utc>`.
* Premises about abstract functions, where a theorem has them: `dt_round_trips`
  (chrono reads back the RFC 3339 text it writes; proved for the functions of
  `Chrono.v`, C83), `lower_case_facts` and
  `upper_case_facts` (which non-ASCII characters map to ASCII letters),
  `dates_in_range` (what is read is an instant chrono can hold) and `whole_seconds`
  (some instant is written without a fraction; C148). The
  concrete `example_deps` uses the timestamps of `Chrono.v`.

* For C139, C147, C148_no_history, C149 and C150: what `network`, `world`, `checking` and `sound_world` allow, in particular
  that a signature which is good for a key that only its owner has was made by them,
  and, in C147 and C150, that a DID's document is changed by nobody else than its owner
  (`keeps_its_keys` says so of the keys in it).

* For C117 to C124 and C127 only: the reading of OpenID4VCI draft 11 in `SpecDraft.v` and `SpecInterop.v`. The
  draft is not in /repo; the crate's doc comments quote it, the rest (appendix E,
  the types of members) is written down from knowledge of it. The theorems hold for
  the predicates as they stand there. The same goes for the characters and codes of
  RFC 6749 in `SpecSendable.v` (C125, C126).

Simplifications, each noted at its definition:

* numbers that are not 64-bit integers are read to an `f64` as `serde_json` 1.0.96
  does with its default features (a 64-bit significand whose further digits are
  dropped, one multiplication or division by a power of ten) and written with the
  shortest digits; such a number in a JSON value is represented by the text written
  for it, so round trips (C16, C24, C59, C69 ...) are stated for values whose text
  is read to itself (`float_kept`), C94 says what happens to the others. An
  exponent is computed exactly, where the program counts in an `i32`
  (`FloatCount.v`): the same for texts of up to 2147482000 bytes
  (C94_exponent_in_32_bits). `Cargo.lock` records versions, not features. No crate of
  the lock file is `indexmap`, so `preserve_order` is off; that neither the crate nor
  the three others that use `serde_json` (`serde_jcs`, `ssi-dids`, `ssi-json-ld`)
  switch on `arbitrary_precision` or `float_roundtrip` is an assumption. What depends
  on it: C94, C105, the numbers in C104 and C106, the refuted claims that
  turn on a number. With `float_roundtrip` every written number is read to itself
  (C94_recovered), so the premise `float_kept` always holds. With
  `arbitrary_precision` numbers keep their text, and numeric fields inside flattened
  and internally tagged forms (`user_pin`, the nonce members of responses) would be
  read differently, which is not modelled;
* `Chrono.v` reads the RFC 3339 form only, chrono is more lenient (C83 does not
  claim that other texts are rejected).

Not modelled: `Debug` and `Clone` derives; the text of
`serde_json`, `base64`, `ssi` and `chrono` errors (arbitrary functions);
cryptographic verification, DID resolution, storage and transport, which the
crate leaves to its caller; memory
exhaustion and stack overflow.

## 4. Which theorems determine which public function

"Determine" means: for every input the theorems fix the result (value, error or
panic), in the vocabulary of the `Spec*.v` files.

| function | theorems |
|---|---|
| `AccessToken::evaluate_access_token_request` | C01, C02 (which error), C06 (panics) |
| `AccessToken::create_access_token_{success,error}_response` | C07, C11, C12 |
| `AccessTokenSuccessResponse::validate`, `AccessTokenRequest::validate` | C08, C04, C05, C95 |
| `AccessTokenErrorCode`, `CredentialIssuerErrorCode`, `AccessTokenType` conversions | C09, C10 |
| `CredentialOrId::resolve`, `CredentialOrIds::resolve_all` | C19, C20 |
| `CredentialIssuer::create_offer`, `CredentialOffer::url_encode` | C13, C14, C15, C21, C23 |
| `CredentialIssuer::pre_evaluate_credential_request` | C34 |
| `CredentialIssuer::evaluate_credential_request` | C37, C41, C42 |
| `CredentialIssuer::create_credential_{success,error}_response` | C55, C11, C12 |
| `CredentialFormatProfile::get_format_name`, `TryFrom<CredentialFormatProfile>` | C97, C56 |
| `CredentialIssuerMetadata::validate` | C18 |
| every other `Validatable::validate` | C95 |
| `ProofJwt::from_str`, `TryInto<String>` | C25, C27 |
| `ProofJwt::verify` | C31 |
| `ProofJwt::{check_nonce, check_iss, check_aud, extract_did, extract_key_and_alg, to_signable_message, extract_signature}` | C97 |
| `Base64`, `Base64Url` | C28 |
| `information()`, `Display` of the errors | C60, C61 |
| `ReturnObject::add_warning`, `to_return_object!` | C63, C64 |
| `Deserialize` of every type | C81 (which texts, and as what), C74, C75 |
| `Serialize` of every type | C82, C92 (which members), C66 (the text), C11, C61, C63, C64 for errors and return objects |
