{"id": "C01", "title": "Token request acceptance is exactly the pre-authorized rule", "statement": "AccessToken::evaluate_access_token_request returns Ok if and only if: the request uses the pre-authorized grant; its PIN (if any) passes length validation; a credential offer with a pre-authorized grant was supplied; the request's code equals the offer's code; a PIN is present exactly when the offer requires one; and a present PIN equals the expected PIN given in the options.", "quantifier": "every request, every optional offer (all four grant combinations), every optional expected PIN", "why_tests_cant": "The decision depends on a product of independent unbounded inputs (codes, PINs, grants, options); tests sample eight points.", "anchors": ["crates/openid4vci/src/access_token/mod.rs::AccessToken::evaluate_access_token_request", "crates/openid4vci/src/access_token/mod.rs::GrantType::validate"]}
{"id": "C02", "title": "Every token request rejection reports the right reason", "statement": "When evaluate_access_token_request rejects, the error is the first applicable in the order: PIN too long (ValidationError), authorization_code grant (AuthorizedFlowNotSupported), no offer (CredentialOfferMustBeSupplied), no grants (NoFlowSupportedInCredentialOffer), only authorized grant (InvalidGrantType), PIN sent but no expected PIN (OptionsAreRequiredForEvaluation), PIN differs (UserPinMismatch), wrong code or wrong PIN presence (InvalidPreAuthorizedCodeFlowValues carrying the two facts); with both grants in the offer the last group is wrapped in InvalidAuthorizedAndPreAuthorizedCodeFlow together with the authorized-flow InvalidGrantType error.", "quantifier": "every request, optional offer and options", "why_tests_cant": "Precedence between overlapping failure causes is a property of the whole input product, not of sampled points.", "anchors": ["crates/openid4vci/src/access_token/mod.rs::AccessToken::evaluate_access_token_request", "crates/openid4vci/src/access_token/error.rs::AccessTokenError"]}
{"id": "C03", "title": "An authorization_code token request is never accepted", "statement": "For an authorization_code grant evaluate_access_token_request always returns AuthorizedFlowNotSupported, whatever offer and options are supplied.", "quantifier": "every optional offer and options", "why_tests_cant": "Universal over offers and options.", "anchors": ["crates/openid4vci/src/access_token/mod.rs::AccessToken::evaluate_access_token_request"]}
{"id": "C04", "title": "A user PIN of more than 8 digits is rejected (documented bound)", "statement": "As documented ('string value MUST consist of maximum 8 numeric characters', 'When the user_pin has more than 8 characters'), a request whose PIN has more than 8 decimal digits is rejected by validation.", "quantifier": "every 64-bit PIN", "why_tests_cant": "The only test uses an 11-digit PIN; the boundary is an off-by-one in a logarithm.", "anchors": ["crates/openid4vci/src/access_token/mod.rs::GrantType::validate", "crates/openid4vci/src/access_token/mod.rs::AccessToken::evaluate_access_token_request"]}
{"id": "C05", "title": "Exact PIN length boundary and reported length", "statement": "Validation of a pre-authorized request fails if and only if its PIN is present and has at least 10 decimal digits, and the length reported in the message is the number of decimal digits minus one; the PIN 0 and a missing PIN always pass.", "quantifier": "every 64-bit PIN", "why_tests_cant": "2^64 inputs.", "anchors": ["crates/openid4vci/src/access_token/mod.rs::GrantType::validate"]}
{"id": "C06", "title": "An authorized grant in the offer never changes the verdict", "statement": "Adding or removing the authorized-code grant of an offer that has a pre-authorized grant changes neither acceptance nor, when rejecting, the pre-authorized reason reported.", "quantifier": "every request, options, pre-authorized grant and authorized grant", "why_tests_cant": "Relational property over pairs of runs.", "anchors": ["crates/openid4vci/src/access_token/mod.rs::AccessToken::evaluate_access_token_request"]}
{"id": "C07", "title": "Token success response carries its arguments and round-trips through JSON", "statement": "create_access_token_success_response always succeeds, every field equals the argument of the same name, the timestamp is the clock value, and deserializing the JSON of the response gives the same response.", "quantifier": "every argument tuple and every clock value", "why_tests_cant": "Eight independent arguments of unbounded type; a swapped pair of same-typed arguments is invisible to most samples.", "anchors": ["crates/openid4vci/src/access_token/mod.rs::AccessToken::create_access_token_success_response", "crates/openid4vci/src/access_token/mod.rs::AccessTokenSuccessResponse", "crates/openid4vci/src/types/token_type.rs"]}
{"id": "C08", "title": "Token success responses produced by the library pass the library's own validation", "statement": "A response returned by create_access_token_success_response passes AccessTokenSuccessResponse::validate.", "quantifier": "every argument tuple", "why_tests_cant": "Must hold for every combination of the nonce arguments.", "anchors": ["crates/openid4vci/src/access_token/mod.rs::AccessTokenSuccessResponse::validate", "crates/openid4vci/src/access_token/mod.rs::AccessToken::create_access_token_success_response"]}
{"id": "C09", "title": "Token error codes and their OAuth strings are in bijection", "statement": "Converting an AccessTokenErrorCode to &str and back gives the same code, no two codes share a string, and every string that is not one of those eight (including case or whitespace variants) is rejected by TryFrom<String>; AccessTokenType behaves the same with exactly 'Bearer'.", "quantifier": "every code and every string", "why_tests_cant": "Rejection ranges over all strings.", "anchors": ["crates/openid4vci/src/access_token/error_response.rs::AccessTokenErrorCode", "crates/openid4vci/src/types/token_type.rs::AccessTokenType"]}
{"id": "C10", "title": "Credential error codes and their strings are in bijection", "statement": "Converting a CredentialIssuerErrorCode to &str and back gives the same code, no two codes share a string, every other string is rejected, and the rejection message quotes the rejected string.", "quantifier": "every code and every string", "why_tests_cant": "Rejection ranges over all strings.", "anchors": ["crates/openid4vci/src/credential_issuer/error_code.rs::CredentialIssuerErrorCode"]}
{"id": "C11", "title": "A serialized error response carries the OAuth error string", "statement": "Serializing an error response created for a code c yields a JSON object whose `error` member is the protocol string of c (e.g. invalid_request), so that a client can convert it back with TryFrom<String>.", "quantifier": "every code of both error-code enums, every description, uri and details", "why_tests_cant": "Universal over codes and details; no test serializes an error response.", "anchors": ["crates/openid4vci/src/error_response.rs::ErrorResponse", "crates/openid4vci/src/access_token/error_response.rs::AccessTokenErrorCode", "crates/openid4vci/src/credential_issuer/error_code.rs::CredentialIssuerErrorCode", "crates/openid4vci/src/access_token/mod.rs::AccessToken::create_access_token_error_response", "crates/openid4vci/src/credential_issuer/mod.rs::CredentialIssuer::create_credential_error_response"]}
{"id": "C12", "title": "Error responses always serialize, to an object in which details cannot displace the standard members", "statement": "Serializing an error response succeeds for every accepted error_additional_details, and the resulting object contains error, error_description and error_uri exactly once each.", "quantifier": "every code, description, uri and every JSON value passed as details", "why_tests_cant": "Ranges over all JSON values.", "anchors": ["crates/openid4vci/src/error_response.rs::ErrorResponse", "crates/openid4vci/src/access_token/mod.rs::AccessToken::create_access_token_error_response", "crates/openid4vci/src/credential_issuer/mod.rs::CredentialIssuer::create_credential_error_response"]}
{"id": "C13", "title": "create_offer succeeds exactly when its preconditions hold", "statement": "create_offer returns Ok if and only if the ids present in the metadata's supported credentials are pairwise distinct, no authorized-code flow is passed, and every credential given by id is the id of some supported credential.", "quantifier": "every metadata (any number of entries), credential list, endpoint and flows", "why_tests_cant": "Unbounded lists on both sides.", "anchors": ["crates/openid4vci/src/credential_issuer/mod.rs::CredentialIssuer::create_offer", "crates/openid4vci/src/types/credential_issuer_metadata.rs::CredentialIssuerMetadata::validate"]}
{"id": "C14", "title": "A created offer contains exactly what was requested", "statement": "On success the returned offer has the metadata's credential_issuer, the given credentials in the given order, no authorized grant, and the given pre-authorized grant unchanged.", "quantifier": "every accepted argument tuple", "why_tests_cant": "Must hold for all lists and grants.", "anchors": ["crates/openid4vci/src/credential_issuer/mod.rs::CredentialIssuer::create_offer", "crates/openid4vci/src/credential_issuer/mod.rs::CredentialOffer::new"]}
{"id": "C15", "title": "Offer URL shape and alphabet", "statement": "On success the URL is `openid-credential-offer://` (no endpoint) or the endpoint followed by `?`, then `credential_offer=`, then a payload consisting only of unreserved URL characters and upper-case %XX escapes, so the payload can neither end the query nor introduce another parameter or a fragment.", "quantifier": "every accepted argument tuple, every byte of every string field", "why_tests_cant": "Quantifies over all byte contents of user-controlled strings.", "anchors": ["crates/openid4vci/src/credential_issuer/mod.rs::CredentialIssuer::create_offer", "crates/openid4vci/src/credential_issuer/mod.rs::CredentialOffer::url_encode"]}
{"id": "C16", "title": "The offer can be recovered from its URL", "statement": "Percent-decoding the payload of the URL and deserializing the JSON as a CredentialOffer gives an offer equal to the one returned (maps compared as Rust compares HashMaps).", "quantifier": "every accepted offer whose strings are UTF-8 and whose maps have distinct keys (as Rust guarantees), with free-form @context values nested at most 122 deep (serde_json's reader stops at 127), numbers in free-form values being integers or read to themselves (C94, the others: C105), and every HashMap iteration order", "why_tests_cant": "Round trip over unbounded recursive data, and over every hash iteration order.", "anchors": ["crates/openid4vci/src/credential_issuer/mod.rs::CredentialIssuer::create_offer", "crates/openid4vci/src/credential_issuer/mod.rs::CredentialOffer::url_encode", "crates/openid4vci/src/types/credential.rs::CredentialFormatProfile"]}
{"id": "C17", "title": "Two different offers never share a URL payload", "statement": "If two offers are encoded to the same string they are equal offers.", "quantifier": "every pair of offers", "why_tests_cant": "Quantifies over pairs of unbounded values.", "anchors": ["crates/openid4vci/src/credential_issuer/mod.rs::CredentialOffer::url_encode"]}
{"id": "C18", "title": "Issuer metadata validates exactly when supplied ids are unique", "statement": "CredentialIssuerMetadata::validate returns Ok if and only if no two supported credentials carry the same id (entries without id are unconstrained), independent of all other fields and of entry order.", "quantifier": "every list of supported credentials", "why_tests_cant": "Unbounded list; stateful closure in an iterator.", "anchors": ["crates/openid4vci/src/types/credential_issuer_metadata.rs::CredentialIssuerMetadata::validate"]}
{"id": "C19", "title": "Resolving a credential id", "statement": "CredentialOrId::resolve of an id returns the format of the first supported credential with that id and fails exactly when there is none; in validated metadata that entry is unique, so the result does not depend on the order of the entries. Resolving an inline credential returns it unchanged.", "quantifier": "every metadata, id and inline credential; every permutation of the entries", "why_tests_cant": "Quantifies over permutations.", "anchors": ["crates/openid4vci/src/credential_issuer/mod.rs::CredentialOrId::resolve"]}
{"id": "C20", "title": "resolve_all is pointwise and reports the first missing id", "statement": "CredentialOrIds::resolve_all returns the resolved formats in input order with the same length, or the error for the first entry (in input order) that cannot be resolved.", "quantifier": "every list and metadata", "why_tests_cant": "Unbounded lists.", "anchors": ["crates/openid4vci/src/credential_issuer/mod.rs::CredentialOrIds::resolve_all"]}
{"id": "C21", "title": "create_offer failure precedence", "statement": "create_offer reports duplicate metadata ids first, then an authorized flow, then the first unresolvable id; no other failure is possible.", "quantifier": "every argument tuple", "why_tests_cant": "Overlapping failure causes.", "anchors": ["crates/openid4vci/src/credential_issuer/mod.rs::CredentialIssuer::create_offer"]}
{"id": "C22", "title": "The offer URL puts credential_offer in a URL query component", "statement": "On success, the text of the URL after its first `?` is `credential_offer=<payload>` (OpenID4VCI 4.1: openid-credential-offer://?credential_offer=..., or the endpoint with the parameter added to its query).", "quantifier": "every endpoint, including none and endpoints that already have a query", "why_tests_cant": "Must hold for every endpoint.", "anchors": ["crates/openid4vci/src/credential_issuer/mod.rs::CredentialIssuer::create_offer"]}
{"id": "C23", "title": "Percent-encoding is lossless and injective", "statement": "For every byte string, percent-decoding the percent-encoded form gives the original, the encoded form is at most three times as long, and exactly the bytes that are not RFC 3986 unreserved characters are escaped, as % and two upper-case hexadecimal digits.", "quantifier": "every byte string", "why_tests_cant": "All byte strings.", "anchors": ["crates/openid4vci/src/credential_issuer/mod.rs::CredentialOffer::url_encode"]}
{"id": "C24", "title": "Every compact token built from a header, claims and signature parses back to them", "statement": "For any proof header, claims set and signature text without `.`, ProofJwt::from_str of base64url(header JSON).base64url(claims JSON)[.signature] returns exactly that header, those claims and that signature.", "quantifier": "every header, claims and optional signature", "why_tests_cant": "Round trip over unbounded strings and timestamps.", "anchors": ["crates/openid4vci/src/jwt/mod.rs::ProofJwt::from_str", "crates/openid4vci/src/jwt/mod.rs::ProofJwtHeader", "crates/openid4vci/src/jwt/mod.rs::ProofJwtBody"]}
{"id": "C25", "title": "What an accepted token must look like", "statement": "If ProofJwt::from_str accepts a string, its first two dot-separated segments are canonical unpadded base64url of JSON documents with exactly the members the returned header and claims are read from, and the returned signature is the third segment (none if there are two segments). It rejects every string with no dot.", "quantifier": "every input string", "why_tests_cant": "All strings, including adversarial ones.", "anchors": ["crates/openid4vci/src/jwt/mod.rs::ProofJwt::from_str"]}
{"id": "C26", "title": "Only two- or three-part tokens are accepted", "statement": "ProofJwt::from_str rejects strings with more than three dot-separated segments (JWS compact serialization has exactly three).", "quantifier": "every input string", "why_tests_cant": "All strings.", "anchors": ["crates/openid4vci/src/jwt/mod.rs::ProofJwt::from_str"]}
{"id": "C27", "title": "Converting a ProofJwt to a String gives a token that parses back", "statement": "For a ProofJwt j, the String produced by TryInto<String> is accepted by ProofJwt::from_str and gives j back.", "quantifier": "every ProofJwt", "why_tests_cant": "All headers, claims and signatures; no test converts a token back.", "anchors": ["crates/openid4vci/src/jwt/mod.rs::<&ProofJwt as TryInto<String>>", "crates/openid4vci/src/jwt/mod.rs::ProofJwt::from_str"]}
{"id": "C28", "title": "base64 and base64url wrappers are exact codecs", "statement": "For both alphabets decoding an encoding returns the bytes, and every accepted text is the encoding of what it decodes to (no two texts decode to the same bytes; missing or superfluous padding, foreign characters and non-zero trailing bits are rejected).", "quantifier": "every byte string and every text", "why_tests_cant": "All byte strings and texts; tests use one string.", "anchors": ["crates/openid4vci/src/base.rs::base64", "crates/openid4vci/src/base.rs::base64url"]}
{"id": "C29", "title": "kid, jwk and x5c are mutually exclusive in an accepted proof header", "statement": "A proof header containing more than one of kid, jwk, x5c is rejected ('MUST NOT be present if ...').", "quantifier": "every header JSON object", "why_tests_cant": "Ranges over JSON objects with arbitrary member order.", "anchors": ["crates/openid4vci/src/jwt/mod.rs::ProofJwtAdditionalHeader", "crates/openid4vci/src/jwt/mod.rs::ProofJwtHeader"]}
{"id": "C30", "title": "The proof typ check is exactly ASCII-case-insensitive equality", "statement": "Validation of a ProofJwt succeeds if and only if its typ equals openid4vci-proof+jwt up to ASCII letter case, for every Unicode string; every other typ gives a ValidationError.", "quantifier": "every UTF-8 string", "why_tests_cant": "Unicode lower-casing maps non-ASCII characters to ASCII (e.g. the Kelvin sign); all strings must be covered.", "anchors": ["crates/openid4vci/src/jwt/mod.rs::ProofJwtHeader::validate", "crates/openid4vci/src/types/credential_request.rs::OPENID4VCI_PROOF_TYPE"]}
{"id": "C31", "title": "ProofJwt::verify enforces the closed validity window", "statement": "verify returns Ok iff nbf (if present) <= now and now <= exp (if present); otherwise NotYetValid is reported in preference to NotValidAnymore, each carrying the claim and the clock value.", "quantifier": "every optional nbf, exp and every clock value", "why_tests_cant": "All instants.", "anchors": ["crates/openid4vci/src/jwt/mod.rs::ProofJwt::verify"]}
{"id": "C32", "title": "A token is not accepted at its expiration time", "statement": "As documented on expires_at ('the current date/time MUST be before the expiration date/time'), verify rejects when now equals exp.", "quantifier": "every exp", "why_tests_cant": "Boundary instant cannot be hit by a test that reads the real clock.", "anchors": ["crates/openid4vci/src/jwt/mod.rs::ProofJwt::verify", "crates/openid4vci/src/jwt/mod.rs::ProofJwtBody::expires_at"]}
{"id": "C33", "title": "Tokens with NumericDate timestamps are accepted", "statement": "As documented on iat/nbf/exp (RFC 7519, 'Its value MUST be a number containing a NumericDate value') a claims set whose iat is a JSON number is accepted by ProofJwt::from_str.", "quantifier": "every claims object with numeric iat", "why_tests_cant": "All claims objects.", "anchors": ["crates/openid4vci/src/jwt/mod.rs::ProofJwtBody", "crates/openid4vci/src/jwt/mod.rs::ProofJwt::from_str"]}
{"id": "C34", "title": "Pre-evaluation returns exactly the DID that must be resolved", "statement": "pre_evaluate_credential_request returns Ok with no DID for a request without proof or whose proof names no key; Ok with the DID part of kid when the proof is valid and kid is a DID URL; and fails for an invalid proof_type, token, typ, a jwk or x5c key or a kid that is not a DID URL.", "quantifier": "every credential request", "why_tests_cant": "All requests.", "anchors": ["crates/openid4vci/src/credential_issuer/mod.rs::CredentialIssuer::pre_evaluate_credential_request", "crates/openid4vci/src/jwt/mod.rs::ProofJwt::extract_did"]}
{"id": "C35", "title": "Pre-evaluation and evaluation agree on the subject", "statement": "If evaluation of a request succeeds and pre-evaluation of the same request succeeds, the DID that pre-evaluation asked to resolve is the subject_id that evaluation returns, and it is present.", "quantifier": "every request and all other evaluation inputs", "why_tests_cant": "Relational property over two API calls.", "anchors": ["crates/openid4vci/src/credential_issuer/mod.rs::CredentialIssuer::pre_evaluate_credential_request", "crates/openid4vci/src/credential_issuer/mod.rs::CredentialIssuer::evaluate_credential_request"]}
{"id": "C36", "title": "Evaluation success implies every check the issuer relies on", "statement": "If evaluate_credential_request returns Ok then: metadata ids are unique, an offer was supplied and no authorization server metadata; nonce options were supplied, the nonce has not expired and equals the claim nonce; the claim aud equals the metadata's credential_issuer; iss equals client_id when a client_id is given; typ is right; the key is a kid that is a DID URL found in the supplied DID document; the returned algorithm is the header's, the subject is the DID, the credential is the requested format.", "quantifier": "all inputs and every clock value", "why_tests_cant": "Conjunction over all inputs.", "anchors": ["crates/openid4vci/src/credential_issuer/mod.rs::CredentialIssuer::evaluate_credential_request"]}
{"id": "C37", "title": "Evaluation succeeds exactly under the documented conditions", "statement": "evaluate_credential_request returns Ok if and only if the conditions of a stated specification hold (completeness as well as soundness), and then the response is the specified one.", "quantifier": "all inputs and every clock value", "why_tests_cant": "Iff over all inputs.", "anchors": ["crates/openid4vci/src/credential_issuer/mod.rs::CredentialIssuer::evaluate_credential_request"]}
{"id": "C38", "title": "No credential request is accepted without an expected nonce", "statement": "If the options are absent or contain no nonce, evaluation never succeeds; with a proof that parses and has the right typ it reports NonceMismatch with expected_nonce = None.", "quantifier": "all inputs", "why_tests_cant": "Universal.", "anchors": ["crates/openid4vci/src/credential_issuer/mod.rs::CredentialIssuer::evaluate_credential_request", "crates/openid4vci/src/jwt/mod.rs::ProofJwt::check_nonce"]}
{"id": "C39", "title": "Nonce expiry is monotone in time and has the stated boundary", "statement": "Evaluation rejects with CNonceIsExpired exactly when created_at + expires_in is strictly before now (given the preceding checks pass); if a call fails because of expiry, the same call at any later time fails the same way, and if a call succeeds it succeeds at any earlier time with the same response.", "quantifier": "all inputs and all pairs of clock values", "why_tests_cant": "Quantifies over pairs of instants.", "anchors": ["crates/openid4vci/src/credential_issuer/mod.rs::CredentialIssuer::evaluate_credential_request"]}
{"id": "C40", "title": "The iss policy follows the documented algorithm", "statement": "With a supplied client_id, success requires iss = client_id; without client_id and with an offer that has only the pre-authorized grant, iss is not examined: changing it in a signed token never changes the outcome; without client_id and with any other grants iss must be absent.", "quantifier": "all inputs, and all pairs of tokens differing only in iss", "why_tests_cant": "Relational over token pairs.", "anchors": ["crates/openid4vci/src/credential_issuer/mod.rs::CredentialIssuer::evaluate_credential_request", "crates/openid4vci/src/jwt/mod.rs::ProofJwt::check_iss", "crates/openid4vci/src/credential_issuer/mod.rs::EvaluateCredentialRequestOptions"]}
{"id": "C41", "title": "The first failing check determines the evaluation error", "statement": "When evaluation fails, the error is the one of the first failing check in the order: metadata, offer, authorization server metadata, nonce expiry, missing proof, token syntax, typ, nonce, iss, aud, key, signature, DID.", "quantifier": "all inputs", "why_tests_cant": "Overlapping failure causes.", "anchors": ["crates/openid4vci/src/credential_issuer/mod.rs::CredentialIssuer::evaluate_credential_request"]}
{"id": "C42", "title": "Evaluation never panics", "statement": "evaluate_credential_request terminates without panicking for every input.", "quantifier": "all inputs, including attacker-controlled tokens and any nonce creation time", "why_tests_cant": "Crash points over all inputs.", "anchors": ["crates/openid4vci/src/credential_issuer/mod.rs::CredentialIssuer::evaluate_credential_request", "crates/openid4vci/src/jwt/mod.rs::ProofJwtHeader::extract_key_and_alg"]}
{"id": "C43", "title": "No attacker-controlled token can make evaluation panic", "statement": "Whether evaluation panics does not depend on the wallet's request: for nonce creation times whose expiry is representable and a resolver that returns verification methods, no request causes a panic, and all other public operations never panic.", "quantifier": "every credential request", "why_tests_cant": "Crash freedom over all strings.", "anchors": ["crates/openid4vci/src/credential_issuer/mod.rs::CredentialIssuer::evaluate_credential_request", "crates/openid4vci/src/credential_issuer/mod.rs::CredentialIssuer::pre_evaluate_credential_request"]}
{"id": "C44", "title": "Evaluation rejects proofs with algorithm none or a MAC algorithm", "statement": "As documented ('MUST NOT be none or an identifier for a symmetric algorithm'), a proof whose header alg is none, HS256, HS384 or HS512 never evaluates successfully.", "quantifier": "all inputs", "why_tests_cant": "Universal.", "anchors": ["crates/openid4vci/src/credential_issuer/mod.rs::CredentialIssuer::evaluate_credential_request", "crates/openid4vci/src/jwt/mod.rs::ProofJwtHeader"]}
{"id": "C45", "title": "Evaluation rejects expired or not-yet-valid proofs", "statement": "If the proof's exp is in the past or its nbf in the future, evaluation does not succeed ('When a JWT is inside the proof and is not valid').", "quantifier": "all inputs and clock values", "why_tests_cant": "All instants.", "anchors": ["crates/openid4vci/src/credential_issuer/mod.rs::CredentialIssuer::evaluate_credential_request", "crates/openid4vci/src/jwt/mod.rs::ProofJwt::verify"]}
{"id": "C46", "title": "Evaluation only accepts credentials the issuer supports and offered", "statement": "If evaluation succeeds, the requested credential is one of the metadata's supported credentials and one of the offered credentials (error InvalidRequestedCredential exists for this).", "quantifier": "all inputs", "why_tests_cant": "All metadata, offers and requests.", "anchors": ["crates/openid4vci/src/credential_issuer/mod.rs::CredentialIssuer::evaluate_credential_request", "crates/openid4vci/src/credential_issuer/error.rs::CredentialIssuerError::InvalidRequestedCredential"]}
{"id": "C47", "title": "Evaluation enforces proof_type", "statement": "If the request's proof_type is not `jwt` in any casing, evaluation does not succeed.", "quantifier": "all inputs", "why_tests_cant": "Universal over strings.", "anchors": ["crates/openid4vci/src/credential_issuer/mod.rs::CredentialIssuer::evaluate_credential_request", "crates/openid4vci/src/types/credential_request.rs::CredentialRequestProof::validate"]}
{"id": "C48", "title": "proof_type check is exactly ASCII-case-insensitive `jwt`, for pre-evaluation and success responses", "statement": "pre_evaluate_credential_request and create_credential_success_response fail for every request whose proof_type is not `jwt` up to ASCII case, for every Unicode string, and never fail because of proof_type otherwise.", "quantifier": "every UTF-8 string", "why_tests_cant": "Unicode upper-casing maps several non-ASCII characters to ASCII ones.", "anchors": ["crates/openid4vci/src/types/credential_request.rs::CredentialRequestProof::validate", "crates/openid4vci/src/credential_issuer/mod.rs::CredentialIssuer::pre_evaluate_credential_request"]}
{"id": "C49", "title": "The message returned for verification is the JWS signing input", "statement": "On success the returned message is the ASCII bytes of base64url(header).base64url(claims), i.e. the token text up to its second dot, which is what the wallet signed.", "quantifier": "all inputs", "why_tests_cant": "All tokens; the repository test pins a different value.", "anchors": ["crates/openid4vci/src/jwt/mod.rs::ProofJwt::to_signable_message", "crates/openid4vci/src/credential_issuer/mod.rs::CredentialIssuer::evaluate_credential_request"]}
{"id": "C50", "title": "The signature returned for verification is the token's signature segment", "statement": "On success the returned signature is the token's third segment (as text or decoded).", "quantifier": "all inputs", "why_tests_cant": "All tokens; the repository test pins a different value.", "anchors": ["crates/openid4vci/src/jwt/mod.rs::ProofJwt::extract_signature", "crates/openid4vci/src/credential_issuer/mod.rs::CredentialIssuer::evaluate_credential_request"]}
{"id": "C51", "title": "Exact meaning of the returned message and signature", "statement": "With t = header JSON . claims JSON [. signature]: the returned signature is the text of t after its second dot; the message is the text of t before its second dot if t has exactly two dots, and all of t otherwise; t is a function of the parsed token only.", "quantifier": "every token", "why_tests_cant": "All strings, any number of dots in claims.", "anchors": ["crates/openid4vci/src/jwt/mod.rs::ProofJwt::to_signable_message", "crates/openid4vci/src/jwt/mod.rs::ProofJwt::extract_signature", "crates/openid4vci/src/jwt/mod.rs::<&ProofJwt as TryInto<String>>"]}
{"id": "C52", "title": "A token without a signature is never evaluated successfully", "statement": "If the proof token has only two segments, evaluation does not succeed (SignatureNotInJwt).", "quantifier": "all inputs", "why_tests_cant": "Universal.", "anchors": ["crates/openid4vci/src/jwt/mod.rs::ProofJwt::extract_signature", "crates/openid4vci/src/credential_issuer/mod.rs::CredentialIssuer::evaluate_credential_request"]}
{"id": "C53", "title": "The returned public key is the one the DID document gives for kid", "statement": "On success the public key is the OKP public key, or for an EC key with algorithm EdDSA the x coordinate, of the verification method that the supplied DID document gives for kid; every other key type is rejected with UnsupportedAlgorithm (or EdDSAHasNoXCoordinate). It does not depend on any other part of the token.", "quantifier": "all inputs, every DID document and resolver behaviour", "why_tests_cant": "Universal over documents.", "anchors": ["crates/openid4vci/src/jwt/mod.rs::ProofJwtHeader::extract_key_and_alg", "crates/openid4vci/src/jwt/mod.rs::ProofJwtHeader::jwk_to_public_key_bytes"]}
{"id": "C54", "title": "Proofs keyed by jwk or x5c, or with no key, never evaluate successfully", "statement": "If the parsed proof header names its key by jwk or x5c, or names none, evaluation fails.", "quantifier": "all inputs", "why_tests_cant": "Universal.", "anchors": ["crates/openid4vci/src/credential_issuer/mod.rs::CredentialIssuer::evaluate_credential_request", "crates/openid4vci/src/jwt/mod.rs::ProofJwt::extract_did", "crates/openid4vci/src/jwt/mod.rs::ProofJwtHeader::extract_key_and_alg"]}
{"id": "C55", "title": "A credential success response never carries both a credential and an acceptance token", "statement": "create_credential_success_response succeeds if and only if the request validates; the response carries a credential iff one was passed, an acceptance token iff one was passed, never both; c_nonce and its lifetime are those passed (a lifetime never without a nonce); the timestamp is the clock value.", "quantifier": "every request, payload, nonce and clock value", "why_tests_cant": "All argument combinations.", "anchors": ["crates/openid4vci/src/credential_issuer/mod.rs::CredentialIssuer::create_credential_success_response"]}
{"id": "C56", "title": "An encoded credential can be recovered", "statement": "For jwt_vc_json, jwt_vc_json-ld and mso_mdoc the response contains a base64url text whose decoding deserializes to the passed credential; for ldp_vc it contains the credential itself.", "quantifier": "every credential and every HashMap iteration order", "why_tests_cant": "Round trip over unbounded data.", "anchors": ["crates/openid4vci/src/credential_issuer/mod.rs::CredentialIssuer::create_credential_success_response", "crates/openid4vci/src/types/credential.rs::<CredentialFormatProfileOrEncoded as TryFrom<CredentialFormatProfile>>"]}
{"id": "C57", "title": "The format of a success response is the format of the credential in it", "statement": "If the response contains a credential, its `format` member names that credential's format.", "quantifier": "every request and credential", "why_tests_cant": "Universal over pairs of formats; the repository test pins a mismatch without noticing.", "anchors": ["crates/openid4vci/src/credential_issuer/mod.rs::CredentialIssuer::create_credential_success_response"]}
{"id": "C58", "title": "Encoded credentials appear as a JSON string in the response", "statement": "Serializing a success response with a jwt_vc_json, jwt_vc_json-ld or mso_mdoc credential yields a `credential` member that is a JSON string, and for ldp_vc a JSON object that is the credential (OpenID4VCI Appendix E).", "quantifier": "every response", "why_tests_cant": "No test serializes the response.", "anchors": ["crates/openid4vci/src/credential_issuer/mod.rs::CredentialSuccessResponse", "crates/openid4vci/src/types/credential.rs::CredentialFormatProfileOrEncoded"]}
{"id": "C59", "title": "Credential success responses round-trip through JSON", "statement": "Deserializing the JSON of a credential success response gives an equal response.", "quantifier": "every response nested no deeper than the reader allows (C96), numbers in free-form values being integers or read to themselves (C94, the others: C105), and every HashMap iteration order", "why_tests_cant": "Round trip over unbounded data.", "anchors": ["crates/openid4vci/src/credential_issuer/mod.rs::CredentialSuccessResponse"]}
{"id": "C60", "title": "Error codes identify the error", "statement": "Across all four error enums no two variants share a numeric code, every code lies in its enum's range, and every variant of one enum has a distinct name.", "quantifier": "every error value of every enum (any payload)", "why_tests_cant": "All payloads.", "anchors": ["crates/openid4vci/src/macros.rs::error_impl", "crates/openid4vci/src/jwt/error.rs", "crates/openid4vci/src/credential_issuer/error.rs", "crates/openid4vci/src/access_token/error.rs", "crates/openid4vci/src/validate.rs"]}
{"id": "C61", "title": "Error information is complete", "statement": "information() of any error returns its code, its variant name, its display text, and additional information that is always present: JSON null for variants without fields, the payload's members for variants with fields, and the inner error's members for wrapped errors. Displayed, it is compact JSON of exactly these members, however deep errors are wrapped and whatever numbers a credential in it holds.", "quantifier": "every error value", "why_tests_cant": "All payloads.", "anchors": ["crates/openid4vci/src/macros.rs::error_impl", "crates/openid4vci/src/error.rs::ErrorInformation"]}
{"id": "C62", "title": "The description of a validation error contains its message", "statement": "information().description of a validation error (alone or wrapped in a credential issuer error) is the validation message, as the repository test asserts.", "quantifier": "every message", "why_tests_cant": "Universal over messages.", "anchors": ["crates/openid4vci/src/validate.rs::ValidationError", "crates/openid4vci/src/credential_issuer/error.rs::credential_issuer_error_tests::should_extract_correct_information_for_validation_error"]}
{"id": "C63", "title": "A return object carries exactly one of info and error", "statement": "to_return_object of any result has info = the value and no error for Ok, and the error's information and no info for Err; there are no warnings; its JSON has exactly the members that are present.", "quantifier": "every result of every error enum", "why_tests_cant": "All values.", "anchors": ["crates/openid4vci/src/macros.rs::error_impl", "crates/openid4vci/src/return_object.rs::ReturnObject"]}
{"id": "C64", "title": "Warnings accumulate in call order", "statement": "After any sequence of add_warning calls the warnings are the initial ones followed by the added ones in call order, and info and error are unchanged.", "quantifier": "every return object and every sequence of calls", "why_tests_cant": "Histories of unbounded length.", "anchors": ["crates/openid4vci/src/return_object.rs::ReturnObject::add_warning"]}
{"id": "C65", "title": "Offers issued by the library are redeemable, and only with their code and PIN", "statement": "For every offer created by create_offer with a pre-authorized grant, and read back from its URL, a token request is accepted exactly when it carries that grant's code and the PIN rule is met; an offer created without a grant is never redeemable.", "quantifier": "every accepted create_offer call and every token request", "why_tests_cant": "Composition of two API calls and a wire format over all inputs.", "anchors": ["crates/openid4vci/src/credential_issuer/mod.rs::CredentialIssuer::create_offer", "crates/openid4vci/src/access_token/mod.rs::AccessToken::evaluate_access_token_request"]}
{"id": "C66", "title": "JSON text produced by the library parses back", "statement": "For every JSON value of nesting depth at most 127, the JSON reader the library uses applied to the compact text the library writes gives the same value. At any depth the text is RFC 8259 JSON of as many levels as the value has, and denotes no other value; to the byte it is the form without white space in which characters are escaped only where they must be, by a letter if there is one and by lower-case hexadecimal digits otherwise. Values with numbers that are not read to themselves (C94) denote the value with the numbers as they are read, and different values have different texts all the same.", "quantifier": "every JSON value", "why_tests_cant": "Unbounded recursive data.", "anchors": ["crates/openid4vci/src/jwt/mod.rs::ProofJwt::from_str", "crates/openid4vci/src/credential_issuer/mod.rs::CredentialOffer::url_encode"]}
{"id": "C67", "title": "Token requests round-trip through JSON, and the wire form is the OAuth form", "statement": "Deserializing the JSON of an AccessTokenRequest gives the same request, and the JSON is a flat object with a string member grant_type (OpenID4VCI 6.1).", "quantifier": "every token request", "why_tests_cant": "All codes and PINs; no test serializes a request.", "anchors": ["crates/openid4vci/src/access_token/mod.rs::AccessTokenRequest", "crates/openid4vci/src/access_token/mod.rs::GrantType"]}
{"id": "C68", "title": "Hash iteration order does not matter", "statement": "Two equal offers (or credentials) whose maps iterate in different orders produce payloads that decode to equal offers, and every decision of the library is the same for both.", "quantifier": "every pair of iteration orders of every map", "why_tests_cant": "Randomised at run time by the hasher seed.", "anchors": ["crates/openid4vci/src/credential_issuer/mod.rs::CredentialOffer::url_encode", "crates/openid4vci/src/types/credential.rs::CredentialFormatProfile"]}
{"id": "C69", "title": "Issuer metadata survives being stored as JSON", "statement": "Reading the JSON of issuer metadata gives the same metadata, including its additional fields, and reading metadata from elsewhere keeps every member the library does not know.", "quantifier": "every issuer metadata value nested no deeper than the reader allows (C96), numbers in free-form values being integers or read to themselves (C94, the others: C105), and every metadata document", "why_tests_cant": "All documents; additional fields are a free-form map flattened into the same object.", "anchors": ["crates/openid4vci/src/types/credential_issuer_metadata.rs::CredentialIssuerMetadata"]}
{"id": "C70", "title": "The key binding methods of a supported credential are read and written", "statement": "The binding methods of a supported credential are those of the member cryptographic_binding_methods_supported (OpenID4VCI 10.2.3.1) of its metadata entry, both when reading and when writing.", "quantifier": "every metadata document and every supported credential", "why_tests_cant": "All documents.", "anchors": ["crates/openid4vci/src/types/credential_issuer_metadata.rs::CredentialSupported"]}
{"id": "C71", "title": "Credential requests survive JSON, and a proof without a type is a JWT proof", "statement": "Reading the JSON of a credential request gives the same request; a missing or null proof is no proof; a proof object without proof_type is handled like one of type jwt.", "quantifier": "every credential request nested no deeper than the reader allows (C96), numbers in free-form values being integers or read to themselves (C94, the others: C105), and every request document", "why_tests_cant": "All documents.", "anchors": ["crates/openid4vci/src/types/credential_request.rs::CredentialRequest", "crates/openid4vci/src/types/credential_request.rs::CredentialRequestProof"]}
{"id": "C72", "title": "Which token request documents are accepted", "statement": "A token request document is accepted exactly when its grant object names a known grant and, for the pre-authorized grant, has a code and at most one PIN; the PIN may be given as a string of digits (OpenID4VCI 6.1).", "quantifier": "every JSON text", "why_tests_cant": "All documents.", "anchors": ["crates/openid4vci/src/access_token/mod.rs::AccessTokenRequest", "crates/openid4vci/src/access_token/mod.rs::GrantType"]}
{"id": "C73", "title": "Options, nonces and parsed proofs survive being stored as JSON", "statement": "Reading the JSON of EvaluateAccessTokenRequestOptions, CNonce, EvaluateCredentialRequestOptions or ProofJwt gives the same value.", "quantifier": "every value of these types", "why_tests_cant": "All values.", "anchors": ["crates/openid4vci/src/access_token/mod.rs::EvaluateAccessTokenRequestOptions", "crates/openid4vci/src/credential_issuer/mod.rs::CNonce", "crates/openid4vci/src/credential_issuer/mod.rs::EvaluateCredentialRequestOptions", "crates/openid4vci/src/jwt/mod.rs::ProofJwt"]}
{"id": "C74", "title": "Documents are read by their JSON value, not by their spelling", "statement": "Every reading function accepts only JSON text (RFC 8259, at most 127 levels deep; the values of members a type does not know may nest deeper and may contain lone surrogate escapes), and two texts of the same JSON value, differing in white space, escapes or number position, are read to the same result.", "quantifier": "every text, every pair of texts of one document, every reading function", "why_tests_cant": "All texts of a recursive grammar.", "anchors": ["crates/openid4vci/src/jwt/mod.rs::ProofJwt::from_str", "crates/openid4vci/src/credential_issuer/mod.rs::CredentialOffer", "crates/openid4vci/src/access_token/mod.rs::AccessTokenRequest", "crates/openid4vci/src/types/credential_issuer_metadata.rs::CredentialIssuerMetadata"]}
{"id": "C75", "title": "Unknown members and member order do not change what is read", "statement": "For claims, token requests and responses, offers, credentials, credential requests and responses, options, nonces and parsed proofs, two documents that agree on the members the type knows are read to the same result, whatever other members they have and in whatever order; the same holds inside them, for the members of grants, flows, proofs, nonce options, claims and display entries.", "quantifier": "every pair of documents", "why_tests_cant": "All documents with any extra members.", "anchors": ["crates/openid4vci/src/jwt/mod.rs::ProofJwtBody", "crates/openid4vci/src/access_token/mod.rs::AccessTokenRequest", "crates/openid4vci/src/credential_issuer/mod.rs::CredentialOffer", "crates/openid4vci/src/types/credential.rs::CredentialFormatProfile"]}
{"id": "C76", "title": "The claims of a token are a JSON object", "statement": "The claims segment of an accepted token is a JSON object (RFC 7519, 7.2). Expected to fail: an array of the seven claim values in declaration order is read as well; nothing else is. The header segment is always an object.", "quantifier": "every accepted token", "why_tests_cant": "All texts in the claims segment.", "anchors": ["crates/openid4vci/src/jwt/mod.rs::ProofJwt::from_str", "crates/openid4vci/src/jwt/mod.rs::ProofJwtBody"]}
{"id": "C77", "title": "A wallet that follows the protocol gets its credential", "statement": "For every offer created with a pre-authorized grant: the wallet reads it from the URL, its token request with that code and the agreed PIN is accepted after travelling as JSON, the token response is read with its nonce, a signed proof for the offer's issuer and that nonce (kid resolvable to a usable key, iss the client id if there is one) passes pre-evaluation and evaluation at every time up to the nonce's expiry, with the DID, key and algorithm of the proof, and the credential put in the response is the one the wallet takes out of it.", "quantifier": "every metadata, offer, PIN, nonce, lifetime, key, algorithm, clock reading and credential", "why_tests_cant": "Composition of all API calls and wire formats over all inputs.", "anchors": ["crates/openid4vci/src/credential_issuer/mod.rs::CredentialIssuer::create_offer", "crates/openid4vci/src/access_token/mod.rs::AccessToken::evaluate_access_token_request", "crates/openid4vci/src/access_token/mod.rs::AccessToken::create_access_token_success_response", "crates/openid4vci/src/credential_issuer/mod.rs::CredentialIssuer::evaluate_credential_request", "crates/openid4vci/src/credential_issuer/mod.rs::CredentialIssuer::create_credential_success_response"]}
{"id": "C78", "title": "Accepted proofs are for the latest nonce, in time", "statement": "In every history of calls in which the caller passes on the nonce, lifetime and timestamp of the last response, each accepted proof carries the nonce issued last before it, and is accepted no later than that response's time plus the lifetime.", "quantifier": "every history of token responses, credential responses and evaluations, of any length", "why_tests_cant": "Unbounded histories.", "anchors": ["crates/openid4vci/src/credential_issuer/mod.rs::CredentialIssuer::evaluate_credential_request", "crates/openid4vci/src/credential_issuer/mod.rs::CredentialIssuer::create_credential_success_response", "crates/openid4vci/src/access_token/mod.rs::AccessToken::create_access_token_success_response"]}
{"id": "C79", "title": "A proof is not accepted again after a new nonce was issued", "statement": "In every such history whose issued nonces are pairwise different, no nonce was issued between two acceptances of the same proof token.", "quantifier": "every history of any length", "why_tests_cant": "Unbounded histories.", "anchors": ["crates/openid4vci/src/credential_issuer/mod.rs::CredentialIssuer::evaluate_credential_request"]}
{"id": "C80", "title": "Proofs and pre-authorized codes can be used once", "statement": "In every history a proof token, and a pre-authorized code, is accepted at most once. Expected to fail: the library keeps no state, so both are accepted any number of times; until the next nonce is issued nothing that happens in between makes an acceptable request unacceptable before its expiry.", "quantifier": "every history of any length", "why_tests_cant": "Unbounded histories.", "anchors": ["crates/openid4vci/src/credential_issuer/mod.rs::CredentialIssuer::evaluate_credential_request", "crates/openid4vci/src/access_token/mod.rs::AccessToken::evaluate_access_token_request"]}
{"id": "C81", "title": "Exactly which texts each document type is read from", "statement": "A text is read as an offer, credential, token request or response, credential request or response, issuer metadata, options value, nonce, proof JWT, header or claims value exactly when it is JSON text whose members have the names and types of that document: every required member once, optional ones at most once or null, unknown ones ignored (kept in metadata), the last of equal names winning in maps; and the value read is the one those members spell out.", "quantifier": "every text and every value, for thirteen types and everything nested in them", "why_tests_cant": "All texts; tests try a few documents and cannot rule out a renamed member or an over-lenient reader.", "anchors": ["crates/openid4vci/src/credential_issuer/mod.rs::CredentialOffer", "crates/openid4vci/src/types/credential.rs::CredentialFormatProfile", "crates/openid4vci/src/access_token/mod.rs::AccessTokenRequest", "crates/openid4vci/src/access_token/mod.rs::AccessTokenSuccessResponse", "crates/openid4vci/src/types/credential_request.rs::CredentialRequest", "crates/openid4vci/src/credential_issuer/mod.rs::CredentialSuccessResponse", "crates/openid4vci/src/types/credential_issuer_metadata.rs::CredentialIssuerMetadata", "crates/openid4vci/src/jwt/mod.rs::ProofJwt"]}
{"id": "C82", "title": "Exactly which members are written", "statement": "The text written for a value of these types is the compact JSON text (C66) of an object with exactly the documented members in declaration order, where absent values are null or left out as the type declares, at every level of nesting and whatever numbers free-form parts hold. Different values are never written alike (of metadata, absent and empty additional fields are).", "quantifier": "every value of thirteen types, with free-form parts of any nesting", "why_tests_cant": "All values.", "anchors": ["crates/openid4vci/src/credential_issuer/mod.rs::CredentialOffer", "crates/openid4vci/src/types/credential.rs::CredentialFormatProfile", "crates/openid4vci/src/access_token/mod.rs::AccessTokenRequest", "crates/openid4vci/src/access_token/mod.rs::AccessTokenSuccessResponse", "crates/openid4vci/src/types/credential_request.rs::CredentialRequest", "crates/openid4vci/src/credential_issuer/mod.rs::CredentialSuccessResponse", "crates/openid4vci/src/types/credential_issuer_metadata.rs::CredentialIssuerMetadata", "crates/openid4vci/src/jwt/mod.rs::ProofJwt"]}
{"id": "C83", "title": "Timestamps in documents are RFC 3339 texts", "statement": "Every instant in claims, options and errors is written as an RFC 3339 text in UTC whose date is the Gregorian date of that day (counted from 1970-01-01), signed outside the years 0 to 9999, with 0, 3, 6 or 9 fraction digits, as few as are exact; every RFC 3339 text, with any offset and number of fraction digits, is read as the one instant it denotes; what is written is read back to the same instant.", "quantifier": "every instant chrono can represent, every RFC 3339 text, every claims document", "why_tests_cant": "The calendar is infinite for a test: leap years, negative years, offsets across midnight.", "anchors": ["crates/openid4vci/src/jwt/mod.rs::ProofJwtBody", "crates/openid4vci/src/credential_issuer/mod.rs::CNonceOptions", "crates/openid4vci/src/jwt/error.rs::JwtError"]}
{"id": "C84", "title": "The returned message determines the header and the claims", "statement": "Two accepted tokens for which the same message is returned have the same header and the same claims, so checking a signature on the message checks both. Expected to fail for unsigned tokens: the message is cut at the second dot of the joined documents; with that dot in kid the claims are returned as the signature.", "quantifier": "every pair of accepted requests, clocks, documents and options", "why_tests_cant": "All pairs of tokens; prefix-freeness of JSON texts.", "anchors": ["crates/openid4vci/src/jwt/mod.rs::ProofJwt::to_signable_message", "crates/openid4vci/src/jwt/mod.rs::ProofJwt::extract_signature", "crates/openid4vci/src/credential_issuer/mod.rs::CredentialIssuer::evaluate_credential_request"]}
{"id": "C85", "title": "The returned message determines the claims document the wallet sent", "statement": "Two accepted tokens for which the same message is returned have claims documents with the same members. Expected to fail: members the library does not know are dropped before the message is made; the whole outcome depends only on what the library reads from the token.", "quantifier": "every pair of accepted tokens, every claims document", "why_tests_cant": "All extra members.", "anchors": ["crates/openid4vci/src/jwt/mod.rs::ProofJwtBody", "crates/openid4vci/src/credential_issuer/mod.rs::CredentialIssuer::evaluate_credential_request"]}
{"id": "C86", "title": "A rejected token request does not disclose the PIN or the code", "statement": "The answer to a token request with a wrong PIN is the same whatever the PIN and the code are; the answer to one with a wrong code is the same whatever the code is; without a supplied PIN the answer does not depend on the expected one (it does say whether the code is right).", "quantifier": "every request, offer, and pair of expected PINs or codes", "why_tests_cant": "Noninterference relates all pairs of secrets.", "anchors": ["crates/openid4vci/src/access_token/mod.rs::AccessToken::evaluate_access_token_request", "crates/openid4vci/src/access_token/error.rs::AccessTokenError"]}
{"id": "C87", "title": "A rejected proof does not disclose the expected nonce or client id", "statement": "The answer to a credential request with a wrong nonce is the same whatever the expected nonce is, and likewise for the client id. Expected to fail: the mismatch errors carry the expected value into additional_information, so any well-formed token with another nonce obtains the current one; no other answer depends on it.", "quantifier": "every request, token, pair of nonces and pair of client ids", "why_tests_cant": "Noninterference relates all pairs of secrets.", "anchors": ["crates/openid4vci/src/credential_issuer/mod.rs::CredentialIssuer::evaluate_credential_request", "crates/openid4vci/src/jwt/error.rs::JwtError::NonceMismatch", "crates/openid4vci/src/jwt/error.rs::JwtError::IssuerMismatch"]}
{"id": "C88", "title": "What the caller lists is what is offered", "statement": "create_offer called with a list of ids succeeds exactly when the metadata is valid and publishes every id, and the offer lists these ids in this order, repetitions included; called with profiles it offers them unchanged; slices of mixed entries are kept as they are.", "quantifier": "every metadata and every list of any length", "why_tests_cant": "All lists.", "anchors": ["crates/openid4vci/src/credential_issuer/mod.rs::CredentialIssuer::create_offer", "crates/openid4vci/src/credential_issuer/mod.rs::CredentialOrIds", "crates/openid4vci/src/credential_issuer/mod.rs::CredentialOrId"]}
{"id": "C89", "title": "An error code sent by a conforming server is read", "statement": "A JSON text with a code of OAuth 2.0 or OpenID4VCI (\"invalid_request\", \"invalid_grant\", ...) is deserialized as the error code it names. Expected to fail: the derived Deserialize knows only the Rust names, so every standard code is rejected; exactly the Rust names are read, as a string or as an object with a null, and what is written is read back.", "quantifier": "every JSON text and every code of both enums", "why_tests_cant": "All texts.", "anchors": ["crates/openid4vci/src/access_token/error_response.rs::AccessTokenErrorCode", "crates/openid4vci/src/credential_issuer/error_code.rs::CredentialIssuerErrorCode"]}
{"id": "C90", "title": "Evidence for a token the wallet signed verifies", "statement": "If the proof token is a JWS whose third part encodes a signature over its first two parts that verifies with the returned key, then the returned signature verifies with the returned key on the returned message. Expected to fail: the signature is returned encoded (and with part of the claims in front of it when they contain a dot), so for a signature algorithm of fixed length it never verifies for any key and message; decoded by the caller, it is checked against another message than the one signed.", "quantifier": "every signature scheme, accepted request, clock, document and options", "why_tests_cant": "All schemes, keys and tokens; no test verifies a signature.", "anchors": ["crates/openid4vci/src/jwt/mod.rs::ProofJwt::to_signable_message", "crates/openid4vci/src/jwt/mod.rs::ProofJwt::extract_signature", "crates/openid4vci/src/credential_issuer/mod.rs::CredentialIssuer::evaluate_credential_request"]}
{"id": "C91", "title": "Authorization server metadata keeps what it was read from", "statement": "Reading authorization server metadata and writing it gives the document back. Expected to fail: the type has no fields; every object (and the empty array) is read as the same value, written as {}.", "quantifier": "every text", "why_tests_cant": "All texts.", "anchors": ["crates/openid4vci/src/types/authorization_server_metadata.rs::AuthorizationServerMetadata"]}
{"id": "C92", "title": "Evaluation results in JSON carry exactly the evidence", "statement": "Written to JSON, the result of an accepted credential request is an object with exactly the members that are present: the algorithm under its registered name, the public key, message and signature as arrays of their byte values, the subject and the requested credential; two results with the same document are equal. The result of a pre-evaluation is {} or {\"did\": ...}.", "quantifier": "every result whose texts are Rust strings, with arbitrary bytes in the evidence", "why_tests_cant": "All byte strings and credentials.", "anchors": ["crates/openid4vci/src/credential_issuer/mod.rs::CredentialRequestEvaluationResponse", "crates/openid4vci/src/credential_issuer/mod.rs::ProofOfPossession", "crates/openid4vci/src/credential_issuer/mod.rs::PreEvaluateCredentialRequestResponse"]}
{"id": "C93", "title": "What an evaluation depends on", "statement": "The outcome of evaluating a credential request depends on nothing but the issuer identifier, the ids of the published credentials, which kinds of grants the offer has, the token text of the proof, the authorization server metadata, the document, the options and the clock; the requested credential is only copied to the result. The outcome of evaluating a token request depends on nothing in the offer but the kinds of grants, the pre-authorized code and whether a PIN is required.", "quantifier": "every two calls that agree on these parts", "why_tests_cant": "Pairs of calls.", "anchors": ["crates/openid4vci/src/credential_issuer/mod.rs::CredentialIssuer::evaluate_credential_request", "crates/openid4vci/src/access_token/mod.rs::AccessToken::evaluate_access_token_request"]}
{"id": "C94", "title": "Numbers keep their value", "statement": "A number in a free-form member (additional metadata fields, linked-data contexts) that is read and written again has the value it had. Expected to fail: numbers that are not 64-bit integers become f64, and the default reader of serde_json does not even round to the nearest, so 4000000000000010.0 comes out as 4000000000000009.5. Integers from -2^63 to 2^64-1 keep their text; up to 15 digits with a power of ten of at most 22 keep their value, and below 10^15 are not changed a second time; from 10^-307 on, the value changes by at most one part in 10^15; everything up to 10^308 is read and everything from 2*10^308 is rejected; whatever is written for a number that was read can itself be read, and a reader that rounds to the nearest gets from it the very f64 the library held.", "quantifier": "every JSON number of any number of digits and any exponent", "why_tests_cant": "All numbers; a test cannot enumerate digits and exponents.", "anchors": ["crates/openid4vci/src/types/credential_issuer_metadata.rs::CredentialIssuerMetadata", "crates/openid4vci/src/types/credential.rs::LinkedDataContext"]}
{"id": "C95", "title": "What validating a document on its own accepts", "statement": "validate() of a token request accepts exactly PINs below 10^9; of a credential request exactly the requests whose proof passes the checks of proof_type, token and typ, in this order, and otherwise reports the first that fails; of the key of a proof exactly kid, although a proof with a jwk or x5c key passes its own validation; of the header of a proof exactly the proof type, up to ASCII case; claims, offers, credentials and everything inside a published credential are always accepted.", "quantifier": "every document of these types", "why_tests_cant": "All documents.", "anchors": ["crates/openid4vci/src/validate.rs::Validatable", "crates/openid4vci/src/jwt/mod.rs::ProofJwtAdditionalHeader", "crates/openid4vci/src/types/credential_request.rs::CredentialRequest", "crates/openid4vci/src/access_token/mod.rs::AccessTokenRequest", "crates/openid4vci/src/types/credential_issuer_metadata.rs::CredentialSupported"]}
{"id": "C96", "title": "Whatever create_offer returns can be read", "statement": "Every offer that create_offer accepts can be read from its URL by the library's own type. Expected to fail: nothing limits the nesting of a linked-data context, and readers stop at 127 levels. Offers and success responses are read back exactly if no context value nests more than 122 levels (and are rejected otherwise), requests and credentials up to 124, metadata up to 122 in contexts and 126 in additional fields.", "quantifier": "every offer, request, response, credential and metadata whose texts are Rust strings, with contexts of any depth", "why_tests_cant": "All depths.", "anchors": ["crates/openid4vci/src/credential_issuer/mod.rs::CredentialIssuer::create_offer", "crates/openid4vci/src/credential_issuer/mod.rs::CredentialSuccessResponse", "crates/openid4vci/src/types/credential_request.rs::CredentialRequest", "crates/openid4vci/src/types/credential_issuer_metadata.rs::CredentialIssuerMetadata", "crates/openid4vci/src/types/credential.rs::LinkedDataContext"]}
{"id": "C97", "title": "Each check and extraction on a parsed proof", "statement": "On a parsed proof, check_nonce succeeds exactly if the expected nonce is given and equal, check_iss exactly if both issuers are absent or equal, check_aud exactly if the audience is the given URL, and each failure names the expected and the actual value. extract_did gives the DID of the kid, no DID for no key, and otherwise the error of C41. extract_key_and_alg gives the bytes of the key of kid or jwk with the algorithm of the header, or the error of C41, and panics exactly if the document has something else than a verification method under the kid. to_signable_message never fails; extract_signature fails exactly if the text of the proof has less than two dots. get_format_name gives the name under which the format is written.", "quantifier": "every proof, expected value, document and DID library", "why_tests_cant": "All proofs and documents.", "anchors": ["crates/openid4vci/src/jwt/mod.rs::ProofJwt", "crates/openid4vci/src/jwt/mod.rs::ProofJwtHeader::extract_key_and_alg", "crates/openid4vci/src/types/credential.rs::CredentialFormatProfile::get_format_name"]}
{"id": "C98", "title": "A proof serves one issuer, one nonce, one client and one subject", "statement": "If the same proof token is accepted by two evaluations, in whatever requests and at whatever times, then both issuers have the same identifier, expected the same nonce and, if both gave a client id, the same client id; both results name the same subject and carry the same algorithm, message and signature.", "quantifier": "every two evaluations of requests with the same token text, with any metadata, offers, documents, options and clocks", "why_tests_cant": "Pairs of calls over all tokens and issuers.", "anchors": ["crates/openid4vci/src/credential_issuer/mod.rs::CredentialIssuer::evaluate_credential_request", "crates/openid4vci/src/jwt/mod.rs::ProofJwt"]}
{"id": "C99", "title": "A wallet resolves an offer to what the issuer offered", "statement": "When create_offer succeeds and the wallet reads the offer from the URL and the issuer's metadata from its JSON, both documents are read, the offer names the issuer of the metadata, the metadata validates, and resolve_all gives, for each entry the issuer listed and in that order, the listed profile or the credential published under the listed id.", "quantifier": "every metadata and list of credentials within the readable depth and without additional fields named like standard ones", "why_tests_cant": "All metadata and offers.", "anchors": ["crates/openid4vci/src/credential_issuer/mod.rs::CredentialIssuer::create_offer", "crates/openid4vci/src/credential_issuer/mod.rs::CredentialOrIds::resolve_all", "crates/openid4vci/src/types/credential_issuer_metadata.rs::CredentialIssuerMetadata"]}
{"id": "C100", "title": "Sessions served at the same time do not affect each other", "statement": "A caller that keeps, for each session, the nonce of the last response it sent in that session can serve any number of sessions with the calls in any order: a sequence of calls is possible exactly if, for every session, the calls of that session alone are. If no nonce is issued twice, a proof token accepted in one session is never accepted in another.", "quantifier": "every schedule of calls of any number of sessions, of any length", "why_tests_cant": "All interleavings.", "anchors": ["crates/openid4vci/src/credential_issuer/mod.rs::CredentialIssuer::evaluate_credential_request", "crates/openid4vci/src/credential_issuer/mod.rs::CNonceOptions", "crates/openid4vci/src/access_token/mod.rs::AccessToken::create_access_token_success_response", "crates/openid4vci/src/credential_issuer/mod.rs::CredentialIssuer::create_credential_success_response"]}
{"id": "C101", "title": "Stopping and restarting at any point", "statement": "A caller that stores the evaluation options as JSON can always read them again and then has what it stored, so restarts between calls change nothing. If the process stops after a response was sent and before its nonce was stored, the session continues with the nonce stored before; whatever is accepted after any number of such crashes is a proof for a nonce that was issued earlier in the session, within its lifetime.", "quantifier": "every history of calls, every number of restarts and crashes at every point", "why_tests_cant": "All histories and crash points.", "anchors": ["crates/openid4vci/src/credential_issuer/mod.rs::EvaluateCredentialRequestOptions", "crates/openid4vci/src/credential_issuer/mod.rs::CNonceOptions", "crates/openid4vci/src/credential_issuer/mod.rs::CredentialIssuer::evaluate_credential_request"]}
{"id": "C102", "title": "Callers can make proofs and codes single-use", "statement": "The library keeps no state and cannot refuse a second use by itself (C80). If the caller issues a new, never repeated nonce between any two accepted proofs of a session, no token is accepted twice. If the caller drops an offer when a token request for it is accepted, then at any time the created codes are exactly the redeemed codes and the codes of the remaining offers, with multiplicities; so with distinct codes each is redeemed at most once. If crashes lose k of the nonces that were sent, or of the drops that were due, a proof or a code is used at most 1 + k times.", "quantifier": "every history of calls, of any length, with a crash at any point", "why_tests_cant": "All histories.", "anchors": ["crates/openid4vci/src/credential_issuer/mod.rs::CredentialIssuer::evaluate_credential_request", "crates/openid4vci/src/access_token/mod.rs::AccessToken::evaluate_access_token_request", "crates/openid4vci/src/credential_issuer/mod.rs::CredentialIssuer::create_offer"]}
{"id": "C103", "title": "A session can go on for as long as its proofs are current", "statement": "In a session, with validated metadata and an offer, a request is accepted exactly if it has a proof of the right type for the nonce issued last, within that nonce's lifetime, with the issuer as audience, an allowed iss, a kid for which the document has a usable key, and a signature (or a dot in its documents, C52); whatever was accepted, rejected or redeemed before makes no difference, and before the first nonce nothing is accepted. So any number of credentials can be fetched one after another, each with a proof for the nonce of the response before.", "quantifier": "every history of any length and every request at its end", "why_tests_cant": "All histories.", "anchors": ["crates/openid4vci/src/credential_issuer/mod.rs::CredentialIssuer::evaluate_credential_request", "crates/openid4vci/src/credential_issuer/mod.rs::CredentialIssuer::create_credential_success_response"]}
{"id": "C104", "title": "What was read can be written and read back unchanged", "statement": "If a text is read as a token request or response, token options, a nonce, proof header, proof claims, evaluation options or parsed proof, then the value read, written as JSON and read again, is the same value; so documents can be stored and passed on any number of times, whatever text they came from. For credentials, offers, credential requests and responses and metadata the same holds if the numbers in their free-form values (contexts, additional fields) are integers or read to themselves (C94). Without that it fails: there is metadata whose number changes back and forth each time it is passed on. But nothing else changes, and no document that was read is refused when it is passed on, however often.", "quantifier": "every text, of any length, nesting and spelling", "why_tests_cant": "All texts that are accepted.", "anchors": ["crates/openid4vci/src/credential_issuer/mod.rs::CredentialIssuer::create_offer", "crates/openid4vci/src/access_token/mod.rs::AccessTokenRequest", "crates/openid4vci/src/access_token/mod.rs::AccessTokenSuccessResponse", "crates/openid4vci/src/credential_issuer/mod.rs::EvaluateCredentialRequestOptions", "crates/openid4vci/src/credential_issuer/mod.rs::CredentialSuccessResponse", "crates/openid4vci/src/types/credential_request.rs::CredentialRequest", "crates/openid4vci/src/types/credential_issuer_metadata.rs::CredentialIssuerMetadata", "crates/openid4vci/src/jwt/mod.rs::ProofJwt"]}
{"id": "C105", "title": "Values in memory survive JSON whatever numbers they hold, except for those numbers", "statement": "A credential, offer, credential request, credential response or issuer metadata in memory, with any f64 numbers in its free-form values (contexts, additional fields) and nested within the limits of C96, is written as a text that is read, and the value read is the same except that each number other than an integer is the one its text is read to; an absent map of additional fields becomes an empty one (C69). The same holds for the offer in the URL that create_offer returns. Every finite f64 is written as a text that can be read, up to the largest.", "quantifier": "every value of these types with any numbers, and every finite f64", "why_tests_cant": "All values; the largest numbers are rounded twice when they are read, and no test of a few of them shows that none overflows.", "anchors": ["crates/openid4vci/src/credential_issuer/mod.rs::CredentialIssuer::create_offer", "crates/openid4vci/src/types/credential.rs::LinkedDataContext", "crates/openid4vci/src/credential_issuer/mod.rs::CredentialSuccessResponse", "crates/openid4vci/src/types/credential_request.rs::CredentialRequest", "crates/openid4vci/src/types/credential_issuer_metadata.rs::CredentialIssuerMetadata"]}
{"id": "C106", "title": "Equality of values is equality of contents", "statement": "Two credentials, supported credentials, offers, credential responses, evaluation results, errors or error responses compare equal with == exactly if their contents are the same: the same variant and fields, the same list elements in the same order, the same values under the same keys of maps in whatever iteration order, and the same numbers (0.0 and -0.0 are the same, 0 and 0.0 are not). Token requests and responses, options, nonces and evidence compare equal exactly if they are identical. So == is reflexive, symmetric and transitive on whatever the program can hold, in particular on whatever it has read. Values that compare equal are written as documents which are read to values that compare equal, and offers that compare equal are worth the same to both evaluations. Nonces, options and labels, which can be keys of hash maps, feed a hasher the same bytes exactly if they compare equal.", "quantifier": "every two (three) values the program can hold, every iteration order of their maps", "why_tests_cant": "All pairs of values.", "anchors": ["crates/openid4vci/src/credential_issuer/mod.rs::CredentialIssuer::create_offer", "crates/openid4vci/src/types/credential.rs::CredentialFormatProfile", "crates/openid4vci/src/types/credential.rs::LinkedDataContext", "crates/openid4vci/src/credential_issuer/mod.rs::CredentialSuccessResponse", "crates/openid4vci/src/credential_issuer/mod.rs::CredentialIssuerEvaluateRequestResponse", "crates/openid4vci/src/types/credential_issuer_metadata.rs::CredentialSupported", "crates/openid4vci/src/credential_issuer/error.rs::CredentialIssuerError", "crates/openid4vci/src/return_object.rs::ReturnObject"]}
{"id": "C107", "title": "Default values grant nothing", "statement": "An issuer that leaves parts of its state at their Default grants nothing by accident: no token request is accepted for a default offer, default evaluation options behave exactly like no options and accept no credential request, a default nonce expired in 1970 and every request is refused with that error, default metadata offers no credential by id and accepts only proofs for the empty audience, a proof with the default claims is accepted only by the empty issuer that expects the empty nonce, the default credential reference is the id \"\". But credential requests are accepted under a default offer, and a default pre-authorized flow is redeemed by exactly the request with the empty code and no PIN.", "quantifier": "every request, document, time and other argument beside the default value", "why_tests_cant": "All other arguments; a test of the defaults tries a few requests.", "anchors": ["crates/openid4vci/src/credential_issuer/mod.rs::CredentialOrId", "crates/openid4vci/src/credential_issuer/mod.rs::CredentialOffer", "crates/openid4vci/src/credential_issuer/mod.rs::PreAuthorizedCodeFlow", "crates/openid4vci/src/credential_issuer/mod.rs::EvaluateCredentialRequestOptions", "crates/openid4vci/src/credential_issuer/mod.rs::CNonceOptions", "crates/openid4vci/src/types/credential_issuer_metadata.rs::CredentialIssuerMetadata", "crates/openid4vci/src/jwt/mod.rs::ProofJwtBody", "crates/openid4vci/src/error.rs::ErrorInformation"]}
{"id": "C108", "title": "Sizes of the texts that are produced are bounded", "statement": "The URL of an offer has the length of its prefix, plus the length of the offer's JSON, plus two for every byte of it that is not an unreserved character, so at most three times the JSON; the base64 and base64url texts of n bytes have exactly 4*ceil(n/3) and ceil(4n/3) characters, and so has an issued credential; what a text of JSON spells has no more values and bytes of strings than the text has bytes; and writing a JSON value takes at most 6 bytes for each byte of its strings and 28 for each of its values, so at most 28 times the text it was read from.", "quantifier": "every offer, byte string, credential and JSON text of any length", "why_tests_cant": "All texts and values.", "anchors": ["crates/openid4vci/src/credential_issuer/mod.rs::CredentialIssuer::create_offer::url_encode", "crates/openid4vci/src/credential_issuer/mod.rs::CredentialIssuer::create_offer", "crates/openid4vci/src/credential_issuer/mod.rs::CredentialIssuer::create_credential_success_response", "crates/openid4vci/src/jwt/mod.rs::ProofJwt::from_str"]}
{"id": "C109", "title": "Publishing more credentials takes nothing away", "statement": "An issuer that adds credentials to its metadata, under new ids or none, keeps every verdict: the metadata is as valid as before, every reference that resolved still resolves to the same profile, every offer that could be created is created again with the same content and URL, and every credential request gets the same acceptance or error. A reused id makes the metadata invalid.", "quantifier": "every metadata, every list of additional credentials, at every position, any number of times", "why_tests_cant": "All metadata and all extensions of it.", "anchors": ["crates/openid4vci/src/types/credential_issuer_metadata.rs::CredentialIssuerMetadata", "crates/openid4vci/src/credential_issuer/mod.rs::CredentialOrIds::resolve_all", "crates/openid4vci/src/credential_issuer/mod.rs::CredentialIssuer::create_offer", "crates/openid4vci/src/credential_issuer/mod.rs::CredentialIssuer::evaluate_credential_request"]}
{"id": "C110", "title": "Documents that came through others get the same verdict", "statement": "If a credential request, a token request, metadata, an offer or the evaluation options have been read and written again by any number of parties before they reach the one that evaluates them, the verdict is the same as if they had come directly, with the numbers in free-form values replaced by the ones they are read to; and no document that was read at the start is lost on the way.", "quantifier": "every document, every number of parties in between, and every evaluation of what arrives", "why_tests_cant": "All chains of any length.", "anchors": ["crates/openid4vci/src/credential_issuer/mod.rs::CredentialIssuer::evaluate_credential_request", "crates/openid4vci/src/access_token/mod.rs::AccessToken::evaluate_access_token_request", "crates/openid4vci/src/credential_issuer/mod.rs::CredentialIssuer::create_offer", "crates/openid4vci/src/types/credential_request.rs::CredentialRequest", "crates/openid4vci/src/types/credential_issuer_metadata.rs::CredentialIssuerMetadata"]}
{"id": "C111", "title": "Numbers are written with at most 17 digits and 24 characters", "statement": "Every f64 in a document is written with at most 17 significant digits and in at most 24 characters, however many digits it was sent with. Both bounds are reached.", "quantifier": "every finite f64, every spelling of a number", "why_tests_cant": "There are 2^64 numbers and no bound on their spellings.", "anchors": ["crates/openid4vci/src/types/credential.rs::LinkedDataContext", "crates/openid4vci/src/types/credential_issuer_metadata.rs::CredentialIssuerMetadata"]}
{"id": "C112", "title": "Passing documents on does not blow them up", "statement": "However often a document is read and written again by parties that use the library, its text never has more than 240 times the length of the text it came from; the bound does not depend on the number of times. This holds for every document type: credentials, offers, credential requests and responses, metadata, token requests and responses, token options, nonces, proof headers, claims, evaluation options and parsed proofs. A date takes at most 33 characters.", "quantifier": "every text of any length, nesting and spelling, every number of times it is passed on", "why_tests_cant": "All texts and all numbers of times.", "anchors": ["crates/openid4vci/src/credential_issuer/mod.rs::CredentialIssuer::create_offer", "crates/openid4vci/src/access_token/mod.rs::AccessTokenRequest", "crates/openid4vci/src/access_token/mod.rs::AccessTokenSuccessResponse", "crates/openid4vci/src/credential_issuer/mod.rs::EvaluateCredentialRequestOptions", "crates/openid4vci/src/credential_issuer/mod.rs::CredentialSuccessResponse", "crates/openid4vci/src/types/credential_request.rs::CredentialRequest", "crates/openid4vci/src/types/credential_issuer_metadata.rs::CredentialIssuerMetadata", "crates/openid4vci/src/jwt/mod.rs::ProofJwt"]}
{"id": "C113", "title": "Documents of one kind are not taken for documents of another", "statement": "A document the library writes as an offer, issuer metadata, a credential request, response or error, a token request, response or error, a proof header or claims is not read as a document of another of these kinds, provided that members of the caller's choice (additional metadata, details of errors) do not use the names of the protocol. In particular no error is taken for a success, and a header not for claims.", "quantifier": "every value of every kind, any free-form values, every other kind", "why_tests_cant": "All values.", "anchors": ["crates/openid4vci/src/credential_issuer/mod.rs::CredentialSuccessResponse", "crates/openid4vci/src/types/credential_request.rs::CredentialRequest", "crates/openid4vci/src/credential_issuer/mod.rs::CredentialIssuer::create_offer", "crates/openid4vci/src/types/credential_issuer_metadata.rs::CredentialIssuerMetadata", "crates/openid4vci/src/access_token/mod.rs::AccessTokenSuccessResponse", "crates/openid4vci/src/error_response.rs::ErrorResponse", "crates/openid4vci/src/jwt/mod.rs::ProofJwtHeader", "crates/openid4vci/src/jwt/mod.rs::ProofJwtBody"]}
{"id": "C114", "title": "Every PIN of up to eight digits can be used", "statement": "A user who was given a PIN of up to eight digits can redeem the offer by sending exactly these digits in a token request document, and different sequences of digits are different PINs: an offer is redeemed by one sequence of digits only.", "quantifier": "every sequence of digits of any length, every code in every spelling, every offer and expected PIN", "why_tests_cant": "All sequences of digits, including those with leading zeros, which a test with one PIN does not show.", "anchors": ["crates/openid4vci/src/access_token/mod.rs::GrantType", "crates/openid4vci/src/access_token/mod.rs::AccessTokenRequest", "crates/openid4vci/src/access_token/mod.rs::EvaluateAccessTokenRequestOptions"]}
{"id": "C115", "title": "A member of the protocol that is given twice is refused", "statement": "In no document that is read (offer, metadata, credential request and response, token request and response, nonce, proof header, claims, parsed proof, evaluation options) is there an object, at any depth, in which a name the protocol looks up occurs twice; so no two readers can take different values from it. Names of the caller's choice may be repeated: of additional metadata the last one counts.", "quantifier": "every document text that is read, every object in it at any depth, every name that is looked up", "why_tests_cant": "All texts and all positions of the repetition.", "anchors": ["crates/openid4vci/src/credential_issuer/mod.rs::CredentialSuccessResponse", "crates/openid4vci/src/types/credential_request.rs::CredentialRequest", "crates/openid4vci/src/credential_issuer/mod.rs::CredentialIssuer::create_offer", "crates/openid4vci/src/types/credential_issuer_metadata.rs::CredentialIssuerMetadata", "crates/openid4vci/src/access_token/mod.rs::AccessTokenRequest", "crates/openid4vci/src/access_token/mod.rs::AccessTokenSuccessResponse", "crates/openid4vci/src/jwt/mod.rs::ProofJwtHeader", "crates/openid4vci/src/jwt/mod.rs::ProofJwtBody", "crates/openid4vci/src/jwt/mod.rs::ProofJwtAdditionalHeader"]}
{"id": "C116", "title": "A document or token that was cut off is refused", "statement": "If the end of a document is lost in transport or in a crash while it is stored, at any byte, the rest is not read, unless only white space was lost, and then as the same value; the same holds if something is added. This holds for every document type and for the offer in a URL. The rest of a token is not accepted as a token, and cutting off a token never turns a rejection into an acceptance.", "quantifier": "every text of every document type, every URL of a created offer, every token, and every point at which it is cut", "why_tests_cant": "All texts and all cut points.", "anchors": ["crates/openid4vci/src/credential_issuer/mod.rs::CredentialIssuer::create_offer", "crates/openid4vci/src/credential_issuer/mod.rs::CredentialIssuer::create_offer", "crates/openid4vci/src/credential_issuer/mod.rs::CredentialIssuer::evaluate_credential_request", "crates/openid4vci/src/types/credential_request.rs::CredentialRequest", "crates/openid4vci/src/types/credential_issuer_metadata.rs::CredentialIssuerMetadata", "crates/openid4vci/src/access_token/mod.rs::AccessTokenRequest", "crates/openid4vci/src/jwt/mod.rs::ProofJwt", "crates/openid4vci/src/jwt/mod.rs::ProofJwt::from_str"]}
{"id": "C117", "title": "An offer that follows the specification is read", "statement": "Every credential offer that follows OpenID4VCI draft 11 (4.1.1 and appendix E: `grants` is optional, JSON-LD credentials are described by a `credential_definition`) is deserialized. Expected to fail: `grants` is a required member and the types of JSON-LD credentials are looked for outside of `credential_definition`. Then: exactly the offers with `grants` whose credentials are ids, jwt_vc_json or mso_mdoc are read.", "quantifier": "every offer that follows the draft, with any further members, in any spelling", "why_tests_cant": "All documents a foreign issuer may send.", "anchors": ["crates/openid4vci/src/credential_issuer/mod.rs::CredentialIssuer::create_offer", "crates/openid4vci/src/credential_issuer/mod.rs::CredentialOfferGrants", "crates/openid4vci/src/types/credential.rs::CredentialFormatProfile"]}
{"id": "C118", "title": "A credential request that follows the specification is read", "statement": "Every credential request that follows OpenID4VCI draft 11 (7.2 and appendix E) is deserialized. Expected to fail for JSON-LD credentials, whose types are in a `credential_definition`, and for requests of claims that have parts called `mandatory`, `display` or `valueType`; exactly the others are read.", "quantifier": "every request that follows the draft, with any further members and any nesting of claims, in any spelling", "why_tests_cant": "All documents a foreign wallet may send.", "anchors": ["crates/openid4vci/src/types/credential_request.rs::CredentialRequest", "crates/openid4vci/src/types/credential.rs::CredentialFormatProfile"]}
{"id": "C119", "title": "Issuer metadata that follows the specification is read", "statement": "Every issuer metadata document that follows OpenID4VCI draft 11 (10.2.3 and appendix E) is deserialized. Expected to fail: one credential in a format the library does not know, or one claim with a part called `mandatory`, `display` or `valueType`, makes the whole document unreadable, and so does anything but a list of texts under the misspelt name of the binding methods (C70); exactly the others are read.", "quantifier": "every metadata document that follows the draft, with any further members and any nesting of claims, in any spelling", "why_tests_cant": "All documents a foreign issuer may publish.", "anchors": ["crates/openid4vci/src/types/credential_issuer_metadata.rs::CredentialIssuerMetadata", "crates/openid4vci/src/types/credential_issuer_metadata.rs::CredentialSupported", "crates/openid4vci/src/types/credential.rs::CredentialFormatProfile"]}
{"id": "C120", "title": "What metadata says about claims is kept", "statement": "What a description of a credential says about a claim (whether it is mandatory, the type of its value, how it is displayed) is what the deserialized credential says. Expected to fail: the type is looked for in `valueType` instead of `value_type` and lost, and for mso_mdoc, where claims are grouped by namespace, everything about claims is lost.", "quantifier": "every description of a credential that follows the draft, every claim in it", "why_tests_cant": "All documents and all claims.", "anchors": ["crates/openid4vci/src/types/credential.rs::CredentialSubject", "crates/openid4vci/src/types/credential.rs::CredentialSubjectDisplay", "crates/openid4vci/src/types/credential.rs::CredentialFormatProfile"]}
{"id": "C121", "title": "A token response that follows the specification is read", "statement": "Every successful token response that follows OpenID4VCI draft 11 (6.2) and RFC 6749 (5.1) is deserialized; the type of the token is case insensitive. Expected to fail: exactly the responses with the spelling `Bearer` and numbers of seconds below 2^32 are read.", "quantifier": "every token response that follows the draft, with any further members, in any spelling", "why_tests_cant": "All documents a foreign server may send.", "anchors": ["crates/openid4vci/src/access_token/mod.rs::AccessTokenSuccessResponse", "crates/openid4vci/src/access_token/mod.rs::AccessTokenType"]}
{"id": "C122", "title": "A credential response that follows the specification is read", "statement": "Every successful credential response that follows OpenID4VCI draft 11 (7.3 and appendix E) is deserialized. Expected to fail: exactly the responses without a credential, for deferred issuance, and with numbers of seconds below 2^32 are read.", "quantifier": "every credential response that follows the draft, with any further members, in any spelling", "why_tests_cant": "All documents a foreign issuer may send.", "anchors": ["crates/openid4vci/src/credential_issuer/mod.rs::CredentialSuccessResponse", "crates/openid4vci/src/types/credential.rs::CredentialFormatProfileOrEncoded"]}
{"id": "C123", "title": "The key in a proof header that follows the specification is found", "statement": "If the header of a proof names its key by `kid`, `jwk` (a JSON object, RFC 7515 4.1.3) or `x5c` (an array, 4.1.6), as OpenID4VCI 7.2.1.1 asks, then the deserialized header has that key. Expected to fail: a JWK or chain of certificates is dropped without an error; the key is the `kid` or there is none.", "quantifier": "every header that follows the draft, with any further members, in any spelling", "why_tests_cant": "All headers and all keys.", "anchors": ["crates/openid4vci/src/jwt/mod.rs::ProofJwtHeader", "crates/openid4vci/src/jwt/mod.rs::ProofJwtAdditionalHeader"]}
{"id": "C124", "title": "What the library writes follows the specification", "statement": "Every offer, credential request, issuer metadata, token response, credential response and key in a proof header that the library serializes follows OpenID4VCI draft 11 (4.1.1, 6.2, 7.2, 7.3, 10.2.3, appendix E), where an optional member without a value is left out. Expected to fail: many absent values are written as null. Then: exactly which values are written as documents that follow the draft: token responses with all optional members, requests with a proof of type `jwt` for jwt_vc_json or claimless mso_mdoc credentials, offers of these without an authorization code flow that lacks its state, metadata with all optional members and no jwt_vc_json-ld, keys that are a `kid`, and no credential response.", "quantifier": "every value of each kind, with any claims, contexts and additional members", "why_tests_cant": "All values; a test sees that one of them is written in the expected way.", "anchors": ["crates/openid4vci/src/credential_issuer/mod.rs::CredentialOffer", "crates/openid4vci/src/credential_issuer/mod.rs::CredentialSuccessResponse", "crates/openid4vci/src/types/credential_request.rs::CredentialRequest", "crates/openid4vci/src/types/credential_issuer_metadata.rs::CredentialIssuerMetadata", "crates/openid4vci/src/access_token/mod.rs::AccessTokenSuccessResponse", "crates/openid4vci/src/jwt/mod.rs::ProofJwtHeader"]}
{"id": "C125", "title": "Descriptions of errors can be sent as error_description", "statement": "The description of every error that evaluating a token request or a credential request, pre-evaluating one, or creating a response or an offer can give is a text that RFC 6749 5.2 allows in `error_description`: printable ASCII without double quotes and backslashes. Expected to fail for the credential endpoint: a description can repeat the `jwk` or `x5c` of the wallet's token, and repeats the name of an unsupported algorithm in double quotes; the description of a failed offer repeats the unknown id. Only then, and never at the token endpoint, it cannot be sent.", "quantifier": "every error, every request, document, option and instant (of any year), any text in the wallet's token", "why_tests_cant": "All texts a wallet can send and all errors.", "anchors": ["crates/openid4vci/src/error.rs", "crates/openid4vci/src/credential_issuer/error.rs::CredentialIssuerError", "crates/openid4vci/src/jwt/error.rs::JwtError", "crates/openid4vci/src/access_token/error.rs::AccessTokenError", "crates/openid4vci/src/macros.rs::error_impl"]}
{"id": "C126", "title": "Error answers follow RFC 6749", "statement": "The error responses that the library serializes have the form of RFC 6749 5.2: one of the registered codes in `error`, a permitted text in `error_description` and in `error_uri` if they are there, and no member twice. Expected to fail: the code never is a registered one (C11), and null is written for texts that are not given. Apart from the code, exactly the answers with both texts, of permitted characters, and without details that repeat a standard member have that form.", "quantifier": "every code, description, uri and details of any content, for both endpoints", "why_tests_cant": "All texts and all details.", "anchors": ["crates/openid4vci/src/error_response.rs::ErrorResponse", "crates/openid4vci/src/access_token/error_response.rs::AccessTokenErrorCode", "crates/openid4vci/src/credential_issuer/error_code.rs::CredentialIssuerErrorCode"]}
{"id": "C127", "title": "A proof of possession that follows the specification is accepted", "statement": "A credential request whose proof follows OpenID4VCI draft 11 (7.2.1.1), with `iat` as a NumericDate (RFC 7519), can be evaluated, pre-evaluated and answered, and the claims that the library writes follow the specification. Expected to fail, and for every one of them: no token with a numeric `iat` is read, so no such request is accepted by any of the three calls whatever the other arguments, and no claims that are written follow the specification.", "quantifier": "every token and request that follows the draft, with any further members, in any spelling; all issuers, documents, options and times; all claims", "why_tests_cant": "All wallets that follow the specification; a test can only show one of them.", "anchors": ["crates/openid4vci/src/credential_issuer/mod.rs::CredentialIssuer::evaluate_credential_request", "crates/openid4vci/src/jwt/mod.rs::ProofJwt", "crates/openid4vci/src/jwt/mod.rs::ProofJwtBody"]}
{"id": "C128", "title": "Whatever bytes arrive, what is read is well-formed", "statement": "If a document or token is read at all, from bytes that need not be UTF-8, then every text in the value is UTF-8, PINs fit 64 bits, lifetimes fit 32, dates are instants chrono can hold, no map has a key twice, numbers are ones an `f64` is written as, and free-form values are nested no deeper than 127 levels allow. The evidence that evaluation returns for such a request consists of UTF-8 texts too, although the parts of the token encode arbitrary bytes.", "quantifier": "every sequence of bytes, each of the thirteen documents, every token; all arguments of evaluation", "why_tests_cant": "All byte sequences an attacker can send.", "anchors": ["crates/openid4vci/src/access_token/mod.rs::AccessTokenRequest", "crates/openid4vci/src/types/credential_request.rs::CredentialRequest", "crates/openid4vci/src/types/credential_issuer_metadata.rs::CredentialIssuerMetadata", "crates/openid4vci/src/credential_issuer/mod.rs::CredentialOffer", "crates/openid4vci/src/jwt/mod.rs::ProofJwt", "crates/openid4vci/src/jwt/mod.rs::ProofJwt::to_signable_message", "crates/openid4vci/src/jwt/mod.rs::ProofJwt::extract_signature"]}
{"id": "C129", "title": "Everything written is UTF-8", "statement": "Every document, error answer, error text and offer link that the library writes is valid UTF-8, for values with any texts: escaping never splits or alters a multi-byte character. Of the link everything after `credential_offer=` is ASCII, whatever is offered.", "quantifier": "every value of each kind with any UTF-8 texts and any free-form members", "why_tests_cant": "All texts, including all scripts and control characters.", "anchors": ["crates/openid4vci/src/access_token/mod.rs::AccessTokenSuccessResponse", "crates/openid4vci/src/credential_issuer/mod.rs::CredentialOffer::url_encode", "crates/openid4vci/src/credential_issuer/mod.rs::CredentialIssuer::create_offer", "crates/openid4vci/src/error_response.rs::ErrorResponse", "crates/openid4vci/src/error.rs::ErrorInformation"]}
{"id": "C130", "title": "What offers, pre-evaluation and answers depend on", "statement": "Creating an offer looks at the issuer's URL and the listed ids only: endpoints, formats, display data and further fields of the metadata change neither the offer, the link nor the error. Whether it fails depends neither on the endpoint nor on the code and PIN. Pre-evaluation looks at the proof type and the header of a readable token only, not at its claims, its signature or the requested credential. A success response looks at these and at the format; the clock changes only the instant returned with it.", "quantifier": "all pairs of metadata, requests and instants that agree on what is looked at", "why_tests_cant": "A relation between two runs for all pairs of inputs.", "anchors": ["crates/openid4vci/src/credential_issuer/mod.rs::CredentialIssuer::create_offer", "crates/openid4vci/src/credential_issuer/mod.rs::CredentialIssuer::pre_evaluate_credential_request", "crates/openid4vci/src/credential_issuer/mod.rs::CredentialIssuer::create_credential_success_response"]}
{"id": "C131", "title": "An accepted proof was issued for this session", "statement": "If evaluation accepts a proof, then its time of issue `iat` is not in the future and not before the nonce was created, and a `sub` in it is the subject that is returned. Expected to fail: neither claim is examined, whatever the other arguments.", "quantifier": "all proofs, nonces, issuers, documents and instants", "why_tests_cant": "All claims and all times; the refutation holds for every request, not just the example.", "anchors": ["crates/openid4vci/src/credential_issuer/mod.rs::CredentialIssuer::evaluate_credential_request", "crates/openid4vci/src/jwt/mod.rs::ProofJwtBody"]}
{"id": "C132", "title": "Which errors each call reports", "statement": "Every published error can be met by some application. Expected to fail: seven codes (104, 105, 106, 107, 110, 300 and 312) are reported by no call, neither directly nor inside another error. For each of the 32 calls that return a `Result` the exact set of codes an application can meet is given: no input leads to another one, and every one listed is met. An application that handles those has handled everything.", "quantifier": "every call with all arguments and all behaviour of the dependencies; every error and the errors inside it", "why_tests_cant": "That an error never occurs cannot be tested.", "anchors": ["crates/openid4vci/src/access_token/mod.rs::AccessToken::evaluate_access_token_request", "crates/openid4vci/src/credential_issuer/mod.rs::CredentialIssuer::create_offer", "crates/openid4vci/src/credential_issuer/mod.rs::CredentialIssuer::pre_evaluate_credential_request", "crates/openid4vci/src/credential_issuer/mod.rs::CredentialIssuer::evaluate_credential_request", "crates/openid4vci/src/credential_issuer/mod.rs::CredentialIssuer::create_credential_success_response", "crates/openid4vci/src/jwt/mod.rs::ProofJwt::from_str", "crates/openid4vci/src/jwt/mod.rs::ProofJwt::verify", "crates/openid4vci/src/jwt/error.rs::JwtError", "crates/openid4vci/src/credential_issuer/error.rs::CredentialIssuerError", "crates/openid4vci/src/access_token/error.rs::AccessTokenError"]}
{"id": "C133", "title": "Code and PIN have to be guessed together", "statement": "Someone who has neither the pre-authorized code nor the PIN learns nothing about the PIN as long as the code is wrong. Expected to fail: whatever the code, the answer to a PIN says exactly whether it is right, so one attacker finds every offer's code and PIN with fewer requests than there are candidate PINs and codes added up, not multiplied. Nothing else helps: until one of two codes (PINs) is sent, the answers to every adaptive attacker are the same for both, and every attacker needs as many requests as there are codes, even with the PIN, and as many as there are PINs, even with the code. Offers with both grants, of whose errors only the numbers are shown, do need the product; with one grant the number alone judges the PIN.", "quantifier": "every adaptive attacker, any number of requests, all offers (with one grant or both), any candidates", "why_tests_cant": "All attackers and all sequences of requests.", "anchors": ["crates/openid4vci/src/access_token/mod.rs::AccessToken::evaluate_access_token_request", "crates/openid4vci/src/access_token/mod.rs::GrantType::validate"]}
{"id": "C134", "title": "A wallet that was not told the nonce has to guess it", "statement": "A wallet that was not told the expected nonce needs, in the worst case, as many requests as there are possible nonces. Expected to fail when the issuer passes the library's error on: a wallet with a resolvable key that knows neither nonce, client id nor issuer URL, and signs every request properly, is accepted after at most three rejections, each of which names one of them, and no wallet does with fewer in general. If only the number of the error is passed on it holds, for every adaptive wallet, and for the client id as for the nonce.", "quantifier": "every adaptive wallet, any number of requests, all issuers, documents, offers, clients and clocks before the expiry", "why_tests_cant": "All wallets and all sequences of requests.", "anchors": ["crates/openid4vci/src/credential_issuer/mod.rs::CredentialIssuer::evaluate_credential_request", "crates/openid4vci/src/jwt/mod.rs::ProofJwt::check_nonce", "crates/openid4vci/src/jwt/mod.rs::ProofJwt::check_iss", "crates/openid4vci/src/jwt/mod.rs::ProofJwt::check_aud"]}
{"id": "C135", "title": "Pre-evaluation, evaluation and answering agree", "statement": "A credential request that evaluation accepts can be pre-evaluated, with the same subject, and answered with any content. Expected to fail for requests with another proof type, which evaluation does not look at; true for all others. Whatever pre-evaluation accepts can be answered, and a request that cannot be answered is refused by pre-evaluation with the same error, so a caller that pre-evaluates first never gets stuck. Whether a request can be answered depends on neither content, nonce nor time. What pre-evaluation refuses for another reason than the proof type is accepted by no issuer, with no document, nonce or time.", "quantifier": "all requests, issuers, documents, options, contents and instants", "why_tests_cant": "A relation between three calls for all inputs.", "anchors": ["crates/openid4vci/src/credential_issuer/mod.rs::CredentialIssuer::pre_evaluate_credential_request", "crates/openid4vci/src/credential_issuer/mod.rs::CredentialIssuer::evaluate_credential_request", "crates/openid4vci/src/credential_issuer/mod.rs::CredentialIssuer::create_credential_success_response"]}
{"id": "C136", "title": "A limit on the number of requests limits the chance to guess", "statement": "Someone who may send k requests, adaptively and flipping coins, and sees every answer with its error, finds a code in at most k of N equally likely cases per coin, whether or not they know the PIN; a PIN likewise, even knowing the code; and code and PIN together in at most 1 + 2 + ... + k of the pairs, which one attacker does reach. If only the numbers of errors are passed on, at most k of the pairs in offers with both grants, and at the credential endpoint at most k of the nonces and at most k of the client ids.", "quantifier": "every adaptive, randomized attacker, every number of requests, all offers, codes, PINs, nonces and client ids", "why_tests_cant": "All attackers and coins, and all numbers of requests.", "anchors": ["crates/openid4vci/src/access_token/mod.rs::AccessToken::evaluate_access_token_request", "crates/openid4vci/src/credential_issuer/mod.rs::CredentialIssuer::evaluate_credential_request"]}
{"id": "C137", "title": "Only someone who has the nonce learns about the rest", "statement": "As long as a wallet has not sent the expected nonce, the answers to its credential requests, errors included, are the same whatever the expected client id, the issuer's URL and metadata, the offer and the wallet's DID document are. As long as it has not sent an expected client id, they are the same whatever the URL, metadata, offer and document are. As long as no proof has nonce, client id and URL right, they are the same whatever keys the document has.", "quantifier": "every adaptive wallet, any number of requests, all pairs of issuers, offers, documents, clients", "why_tests_cant": "All wallets, sequences of requests and pairs of secrets.", "anchors": ["crates/openid4vci/src/credential_issuer/mod.rs::CredentialIssuer::evaluate_credential_request", "crates/openid4vci/src/jwt/mod.rs::ProofJwt::check_nonce", "crates/openid4vci/src/jwt/mod.rs::ProofJwt::check_iss", "crates/openid4vci/src/jwt/mod.rs::ProofJwt::check_aud"]}
{"id": "C138", "title": "Each call has exactly one allowed outcome", "statement": "For each of the 32 calls that return a `Result`, the conditions stated elsewhere for its answers, errors and panics allow, for every input, one outcome and no second one: which answer with which content, which error with which data, or a panic. A program of which they are true therefore behaves like the library on every input, so two versions for which they hold cannot be told apart through these calls.", "quantifier": "all arguments of these calls and all behaviour of the dependencies", "why_tests_cant": "That a set of rules is complete and free of contradictions on all inputs cannot be tested.", "anchors": ["crates/openid4vci/src/access_token/mod.rs::AccessToken::evaluate_access_token_request", "crates/openid4vci/src/credential_issuer/mod.rs::CredentialIssuer::evaluate_credential_request", "crates/openid4vci/src/credential_issuer/mod.rs::CredentialIssuer::pre_evaluate_credential_request", "crates/openid4vci/src/credential_issuer/mod.rs::CredentialIssuer::create_credential_success_response", "crates/openid4vci/src/credential_issuer/mod.rs::CredentialIssuer::create_offer", "crates/openid4vci/src/credential_issuer/mod.rs::CredentialOrIds::resolve_all", "crates/openid4vci/src/jwt/mod.rs::ProofJwt::verify", "crates/openid4vci/src/jwt/mod.rs::ProofJwtHeader::extract_key_and_alg"]}
{"id": "C139", "title": "Whoever gets a credential for a key has it", "statement": "An issuer that evaluates requests, decodes the returned signature and checks it with the returned key and message gives out a credential for a key only if the key's owner has signed, before, a proof for this issuer, this nonce and this client, with a key id of the subject the credential goes to. If it does not reuse nonces and forgets a used one, no second credential is given out for the same nonce, in any session, so there are never more credentials for a key than proofs its owner signed. This holds whichever of three texts the owner signs: the signing input of RFC 7515, the two documents, or what the library says is to be signed. It also holds in an unwanted way: a wallet that signs as RFC 7515 says never gets a credential, and only tokens without a dot in header and claims give evidence whose signature can be decoded.", "quantifier": "all histories of any number of sessions, wallets and attackers who choose requests, documents, metadata, offers and clocks; unforgeable signatures", "why_tests_cant": "All attackers, histories and interleavings.", "anchors": ["crates/openid4vci/src/credential_issuer/mod.rs::CredentialIssuer::evaluate_credential_request", "crates/openid4vci/src/jwt/mod.rs::ProofJwt::to_signable_message", "crates/openid4vci/src/jwt/mod.rs::ProofJwt::extract_signature"]}
{"id": "C140", "title": "Callers can make up for the checks that evaluation leaves out", "statement": "A caller that, next to evaluating, also pre-evaluates the request, reads the token and verifies it at the same instant, refuses evidence with a MAC algorithm or none, decodes the signature, and looks for the credential among those supported and those the offer resolves to, serves exactly the requests that evaluation accepts and whose proof type is jwt in any casing, whose token is within its validity, asymmetric and signed, has no dot in header or claims, and asks for a credential that is supported and offered, of an offer whose ids are all known. Nothing else gets through, and nothing of that kind is turned away.", "quantifier": "all requests, issuers, offers, documents, nonces, clients and instants", "why_tests_cant": "An equivalence for all requests.", "anchors": ["crates/openid4vci/src/credential_issuer/mod.rs::CredentialIssuer::evaluate_credential_request", "crates/openid4vci/src/credential_issuer/mod.rs::CredentialIssuer::pre_evaluate_credential_request", "crates/openid4vci/src/jwt/mod.rs::ProofJwt::verify", "crates/openid4vci/src/credential_issuer/mod.rs::CredentialOrIds::resolve_all", "crates/openid4vci/src/types/credential.rs::CredentialFormatProfile"]}
{"id": "C141", "title": "Requests handled at the same time", "statement": "A caller that reads a stored nonce (or offer), evaluates a request with it and forgets it when the request is accepted accepts each proof (or code) once, although other requests are handled in between. Expected to fail: the library keeps no state, so it is accepted as often as requests are handled at the same time, and not more often. If the caller takes the nonce or offer out of its store first, or evaluates and then serves only if it was still there, each is accepted once under every schedule. In the second case the caller behaves exactly like one that handles one request after another, and refused requests cost nothing: whoever has an acceptable request can still be served. If it is taken first, one refused request is enough to lose it.", "quantifier": "every schedule of reading, evaluating and forgetting, any number of requests of which any number are in progress at a time, requests that stop at any point", "why_tests_cant": "All interleavings of any number of requests.", "anchors": ["crates/openid4vci/src/credential_issuer/mod.rs::CredentialIssuer::evaluate_credential_request", "crates/openid4vci/src/access_token/mod.rs::AccessToken::evaluate_access_token_request"]}
{"id": "C142", "title": "Remembering accepted tokens does not prevent their reuse", "statement": "A caller that remembers the text of each token it accepted and accepts none twice gets each proof of possession once. Expected to fail: white space added to the claims makes another text, with another signing input, that is read as the same proof, and no call tells the two apart, so whatever is accepted once is accepted as often as wanted with the same message, signature and subject. A caller that remembers the message to be verified instead accepts no proof in two spellings.", "quantifier": "all tokens and all their spellings, every number of requests, all histories of accepted requests with any metadata, offer, document, client and clock", "why_tests_cant": "All spellings of all tokens and all histories.", "anchors": ["crates/openid4vci/src/credential_issuer/mod.rs::CredentialIssuer::evaluate_credential_request", "crates/openid4vci/src/jwt/mod.rs::ProofJwt::from_str"]}
{"id": "C143", "title": "What an offer stands for while the metadata change", "statement": "An offer created under one version of the metadata stands for the same credentials under every later version that is valid and resolves it, while credentials are published and withdrawn and other data are edited. Expected to fail: the id of a withdrawn credential can be given to another one, and the offer then stands for that one without any error. If no id is ever given to a second credential, the offer resolves to the same credentials under all versions in which its ids are known, and otherwise a withdrawn id that it names is reported. A caller that makes the checks of C140 under a later version then serves only what the offer stood for when it was created. One withdrawal stops the offers that name the id and no others; credentials given in full are not affected by any change.", "quantifier": "all histories of publications, withdrawals and edits, of any length; all offers created at any time and resolved at any other", "why_tests_cant": "All histories and offers.", "anchors": ["crates/openid4vci/src/credential_issuer/mod.rs::CredentialOrIds::resolve_all", "crates/openid4vci/src/credential_issuer/mod.rs::CredentialIssuer::create_offer", "crates/openid4vci/src/types/credential_issuer_metadata.rs::CredentialIssuerMetadata"]}
{"id": "C144", "title": "A proof with critical header extensions is refused", "statement": "RFC 7515 lets a header list extensions in `crit`, and a recipient that does not understand them must refuse the token; the library understands none, so no request with such a proof is accepted. Expected to fail: any accepted token can be marked with any list of names and is accepted with the same result. No extension is seen at all, marked or not: a token with one more header member is read as the same proof, and no call tells the two apart, so callers have to look at the header themselves. Headers that the library writes have no extensions.", "quantifier": "all tokens, header members and lists of names; all requests, issuers, offers, documents and options", "why_tests_cant": "All tokens and extensions.", "anchors": ["crates/openid4vci/src/credential_issuer/mod.rs::CredentialIssuer::evaluate_credential_request", "crates/openid4vci/src/jwt/mod.rs::ProofJwt::from_str", "crates/openid4vci/src/jwt/mod.rs::ProofJwtHeader"]}
{"id": "C145", "title": "The algorithm in the evidence suits the key", "statement": "If evaluation accepts a request, the algorithm it returns is one that the returned key is for: EdDSA for octet keys, ES256, ES384, ES512 or ES256K for elliptic curve keys, and the algorithm the key in the document states, if any. Expected to fail: the algorithm is copied from the header and never compared with the key, so whatever is accepted is accepted with each of the other algorithms, with the same key, signature and subject, for instance a MAC with a public key. It suits exactly if it is EdDSA and the key is an octet key that states EdDSA or nothing; callers whose documents have no key with an algorithm of another type therefore have to take evidence with EdDSA only.", "quantifier": "all requests, issuers, offers, documents, options and instants; all algorithms", "why_tests_cant": "All accepted requests, and all algorithms.", "anchors": ["crates/openid4vci/src/credential_issuer/mod.rs::CredentialIssuer::evaluate_credential_request", "crates/openid4vci/src/jwt/mod.rs::ProofJwtHeader::extract_key_and_alg", "crates/openid4vci/src/jwt/mod.rs::ProofJwtAlgorithm"]}
{"id": "C146", "title": "The key in the evidence is one of the subject", "statement": "If evaluation accepts a request with a DID document out of a registry, the returned key is one that the registry gives for the returned subject. Expected to fail: the subject is the DID in kid, the key is looked up in whatever document was supplied, and the two are not compared, so the document of one DID with a key for a DID URL of another one makes the first be taken for the second. If the caller supplies the document of the DID that pre-evaluation named for this request, the subject is that DID and the key is one of its keys, and pre-evaluation names the subject of every request with the right proof type that would be accepted. With another document it is so exactly if the document has usable keys for DID URLs of its own DID only.", "quantifier": "all registries, documents, requests, issuers, offers, options and instants", "why_tests_cant": "All registries and documents.", "anchors": ["crates/openid4vci/src/credential_issuer/mod.rs::CredentialIssuer::evaluate_credential_request", "crates/openid4vci/src/credential_issuer/mod.rs::CredentialIssuer::pre_evaluate_credential_request", "crates/openid4vci/src/jwt/mod.rs::ProofJwtHeader::extract_key_and_alg", "crates/openid4vci/src/jwt/mod.rs::ProofJwt::extract_did"]}
{"id": "C147", "title": "A credential in somebody's name was asked for by them", "statement": "An issuer that evaluates requests with documents out of a registry, decodes the returned signature and checks it gives out a credential for a DID only if, with a key that the DID has at that time, a proof was signed before for this issuer, this nonce and this client, with a key id of the DID; provided that only the DID's owner has the keys it has or had. Anyone may register documents of their own, with whatever keys in them, and documents change. Expected to fail if the caller supplies any document: somebody else's document with a key for a DID URL of the victim gets a credential in the victim's name. It holds if the caller supplies the document of the DID that pre-evaluation names. Then a lost key is also of no use once its DID has a document without it. If the caller keeps documents in a cache, the owner has still asked, but perhaps with a key that was replaced, and a lost key can still be used.", "quantifier": "all histories of registrations, signatures, nonces and evaluations, of any length, with any number of wallets, sessions and attackers; all documents, requests, offers, metadata and clocks", "why_tests_cant": "All histories, with attackers that choose everything else.", "anchors": ["crates/openid4vci/src/credential_issuer/mod.rs::CredentialIssuer::evaluate_credential_request", "crates/openid4vci/src/credential_issuer/mod.rs::CredentialIssuer::pre_evaluate_credential_request", "crates/openid4vci/src/jwt/mod.rs::ProofJwtHeader::extract_key_and_alg", "crates/openid4vci/src/jwt/mod.rs::ProofJwt::extract_did"]}
{"id": "C148", "title": "Issuers with a domain name get evidence they can check", "statement": "In every session that can go on, a wallet with a usable key can send a request for which evaluation returns evidence with a signature that can be decoded and checked. Expected to fail: the evidence is cut out of the joined documents at dots, so, as some timestamps are written without a fraction, a signature that can be decoded is obtained if and only if there is no dot in the issuer's identifier, in the nonce, in the client id, and in some key id for which the document has a usable key. Then the wallet can do so for each such key, and the decoded signature is whatever it signs the returned message with. An issuer whose identifier has a dot, such as a URL with a domain name, never gets such evidence, and in no history does it give out a credential because of a signature.", "quantifier": "all issuers, offers, documents, nonces, client ids, instants and requests; all histories of any length", "why_tests_cant": "All requests and histories.", "anchors": ["crates/openid4vci/src/credential_issuer/mod.rs::CredentialIssuer::evaluate_credential_request", "crates/openid4vci/src/jwt/mod.rs::ProofJwt::extract_signature", "crates/openid4vci/src/jwt/mod.rs::ProofJwt::to_signable_message"]}
{"id": "C149", "title": "Issuers that check the token themselves are safe and serve everyone", "statement": "An issuer that leaves the returned message and signature aside, and checks the token that was sent as RFC 7515 says, with the returned key, gives out a credential for a key that only its owner has only if the owner signed before, as RFC 7515 says, a proof for this issuer, this nonce and this client with a key id of the subject; the nonce was given to that session and nothing else is given out for it, and there are never more credentials for a key than its owner signed proofs. Whatever has happened before, a wallet with a usable key gets a credential in every session that can go on, by signing and sending a token as RFC 7515 says; dots in the issuer's identifier or elsewhere do not matter.", "quantifier": "all histories of signatures, nonces and evaluations, of any length, with any number of wallets, sessions and attackers; all requests, documents, offers, metadata and clocks", "why_tests_cant": "All histories, with attackers that choose everything else.", "anchors": ["crates/openid4vci/src/credential_issuer/mod.rs::CredentialIssuer::evaluate_credential_request", "crates/openid4vci/src/jwt/mod.rs::ProofJwt::from_str", "crates/openid4vci/src/jwt/mod.rs::ProofJwtHeader::extract_key_and_alg"]}
{"id": "C150", "title": "How to give out credentials in somebody's name, and to them", "statement": "An issuer that pre-evaluates each request, evaluates it with the document that the named DID has at that time, and checks the token that was sent as RFC 7515 says, with the returned key, gives out a credential for a DID whose keys only its owner has only if its owner asked for it: with a key that the DID has then, a proof for this issuer, this nonce and this client, with a key id of the DID, was signed before. Every credential has a subject, a lost key is of no use once the DID has a document without it, the nonce was given to that session and nothing else is given out for it. And, whatever has happened before, the owner of a DID gets a credential in its name in every session that can go on, by signing and sending a token as RFC 7515 says. Anyone may register documents of their own, with whatever keys in them, and documents change.", "quantifier": "all histories of registrations, signatures, nonces and evaluations, of any length, with any number of wallets, sessions and attackers; all documents, requests, offers, metadata and clocks", "why_tests_cant": "All histories, with attackers that choose everything else.", "anchors": ["crates/openid4vci/src/credential_issuer/mod.rs::CredentialIssuer::evaluate_credential_request", "crates/openid4vci/src/credential_issuer/mod.rs::CredentialIssuer::pre_evaluate_credential_request", "crates/openid4vci/src/jwt/mod.rs::ProofJwt::from_str", "crates/openid4vci/src/jwt/mod.rs::ProofJwt::extract_did", "crates/openid4vci/src/jwt/mod.rs::ProofJwtHeader::extract_key_and_alg"]}
