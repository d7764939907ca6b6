"""Write MANIFEST.json: the theorems C<nn>_* of theories/Properties, with the
status and notes below. A property with a theorem ..._refuted is partial."""
import json, pathlib, re

ROOT = pathlib.Path(__file__).resolve().parent.parent
NOTES = {
    "C04": "REFUTED: a nine-digit PIN passes validation and can be redeemed; the exact boundary (ten digits) is C05.",
    "C08": "REFUTED: a nonce lifetime without a nonce is accepted by create and rejected by validate; exact condition proved.",
    "C11": "REFUTED: the `error` member is the Rust variant name (e.g. InvalidRequest), which TryFrom<String> rejects, for every code of both enums; the exact text is proved.",
    "C12": "REFUTED twice: details that are not an object do not serialize, and an object can repeat error/error_description/error_uri; both exact conditions are proved.",
    "C22": "REFUTED: without an endpoint the URL has no `?`; with an endpoint the claim holds exactly if the endpoint has no `?` (proved).",
    "C26": "REFUTED: everything after a third dot is ignored (proved for all tokens).",
    "C27": "REFUTED for every token: the text is raw JSON joined by dots and ProofJwt::from_str always rejects it; exact text proved.",
    "C29": "REFUTED: the first of kid, jwk, x5c in document order is used and later ones are ignored (proved for all headers).",
    "C32": "REFUTED: a token is accepted at its expiration time (proved for every exp); the exact window is C31.",
    "C33": "REFUTED: every claims object whose iat is not a JSON string is rejected (proved for all tokens).",
    "C42": "REFUTED twice: a nonce whose expiry is beyond the clock's range panics, and so does a document in which the kid selects something other than a verification method; the exact panic condition is proved.",
    "C44": "REFUTED: alg none is accepted; proved that alg is never examined (same verdict for every alg).",
    "C45": "REFUTED: an expired proof is accepted; proved that nbf and exp are never examined.",
    "C46": "REFUTED: an unsupported credential is accepted; proved that the requested credential, the supported credentials and the offered credentials are never examined.",
    "C47": "REFUTED: proof_type cwt is accepted by evaluation; proved that evaluation never looks at proof_type (pre-evaluation does, C48).",
    "C49": "REFUTED for every request: the message is never the signing input (proved); C51 gives the exact message.",
    "C50": "REFUTED: dots in the header or claims move the signature; the claim holds exactly if both are without dots (proved).",
    "C52": "REFUTED: a dot in the header or claims (e.g. in aud) stands in for the signature segment; tokens without such dots are rejected (proved, partial), and the exact condition is proved.",
    "C57": "REFUTED: the member names the format of the request, which need not be that of the credential; the claim holds exactly if they agree (proved).",
    "C58": "REFUTED: the member is the object {Encoded: text} or {CredentialFormatProfile: credential} (exact form proved for all responses).",
    "C62": "REFUTED: the description is a fixed text whatever the message (so the assertion of the repository's own test does not follow); the message is proved to be in additional_information.",
    "C67": "Round trip proved. REFUTED: the wire form nests grant_type inside a grant_type object, for every request.",
    "C69": "REFUTED: metadata without additional fields is read back with an empty map; the exact result is proved, as is that a clashing name makes the text unreadable and that reading keeps unknown members.",
    "C70": "REFUTED: the member is spelt cryptographic_binding_mehtods_supported, both when reading and when writing (proved for all documents).",
    "C72": "Exact condition proved (for arbitrary documents: C81_token_request). REFUTED: a PIN given as text is always rejected, and so is the member name pre-authorized_code.",
    "C76": "REFUTED: an array of the seven claim values is read as the claims. Proved: an object or exactly seven values in order, nothing else; the header is always an object.",
    "C80": "REFUTED for proofs and for codes: a history in which both are accepted twice. Proved: the repeated request is accepted until the nonce expires or a new one is issued, whatever happens in between (and C79: not after a new nonce).",
    "C84": "REFUTED for unsigned tokens (two accepted tokens, different exp, same message). Proved: exactly when the message contains both documents; then it determines them, against signed and unsigned tokens; in particular for every signed token.",
    "C85": "REFUTED: tokens that differ in an unknown claim have the same message. Proved: the outcome is a function of what is read from the token.",
    "C87": "REFUTED: the rejection contains the expected nonce; proved that every well-formed token with another nonce obtains it, and that no other answer depends on the nonce or the client id.",
    "C89": "REFUTED for every code of both standards: only the Rust names are read; proved exactly which texts are.",
    "C90": "REFUTED: for a signature algorithm of fixed length the returned signature verifies for no key and message; proved for every accepted signed token, and what happens if the caller decodes it.",
    "C94": "REFUTED: 4000000000000010.0 is written as 4000000000000009.5. Proved: exact for 64-bit integers and for 15 digits with a power of ten of at most 22, otherwise within 10^-15; which numbers are accepted.",
    "C96": "REFUTED: an offer with a context of 123 levels is created and cannot be read; the exact limit of every document type is proved.",
    "C113": "REFUTED for one pair of kinds: every credential request is also read as a credential response without credential. Proved: no other pair of kinds is confused, and exactly what is read in that one.",
    "C114": "REFUTED: a PIN that starts with zero (0123) cannot be sent; the number 123 stands for both. Proved: exactly which sequences of digits are read and as what, exactly which redeem an offer, and that no two redeem the same one.",
    "C115": "REFUTED for the key of a proof: kid (or jwk, x5c) can be given twice, and the first one counts, where many JSON readers take the last. Proved: no other name, at any depth of any document; that whatever follows the first key is not looked at; and that of additional metadata the last one counts.",
    "C116": "REFUTED for tokens: a token without its signature, or with part of it, is read. Proved: every document type and offer URL; that a cut token has the header and claims of the whole one, so that only its signature can be missing or shorter; and that whatever is accepted without its end is accepted, with the same subject and key, with it.",
    "C117": "REFUTED: an offer without grants is refused, and so is an offer with a JSON-LD credential, described by a credential_definition. Proved: which of the offers that follow the draft are read (if and only if).",
    "C118": "REFUTED for JSON-LD credentials and claims with unlucky parts. Proved: which of the requests that follow the draft are read (if and only if).",
    "C119": "REFUTED: one credential in another format, or with an unluckily named part of a claim, makes the document unreadable. Proved: which of the metadata documents that follow the draft are read (if and only if).",
    "C120": "REFUTED: value_type is not read. Proved: what exactly is learnt about each claim; that value types are always lost; that for mso_mdoc nothing is learnt about any claim.",
    "C121": "REFUTED: token_type bearer is refused, although it is case insensitive. Proved: which of the responses that follow the draft are read (if and only if).",
    "C122": "REFUTED: a response with a credential is refused. Proved: exactly the responses without one (deferred issuance, numbers below 2^32) are read.",
    "C123": "REFUTED: a jwk object or x5c array is dropped silently. Proved: every header that follows the draft is read, with its kid or without any key.",
    "C124": "REFUTED for every kind of document: a value that is not there is written as null, JSON-LD credentials are written without credential_definition (and jwt_vc_json-ld without @context), claims of mso_mdoc without namespaces, a credential inside of an object named after a Rust variant, keys as texts. Proved: exactly which values are written according to the draft (if and only if, credential responses never).",
    "C125": "REFUTED for the credential endpoint (a jwk or x5c of the wallet's token and the quoted name of an algorithm are repeated); proved for the token endpoint, for created responses, and exactly which descriptions of all other errors can be sent and where the offending text is from.",
    "C126": "REFUTED (null is written for absent texts, and no written code is a registered one); proved: exactly which answers have the form of RFC 6749 apart from the code, and that the code never is registered.",
    "C127": "REFUTED, and the opposite proved: no token that follows the specification is read, no request with one is evaluated, pre-evaluated or answered, and no written claims follow the specification.",
    "C131": "False of the code, and proved false for each of the three parts. Neither `iat` nor `sub` is looked at: C131_not_examined shows that changing them never changes the verdict.",
    "C132": "False of the code: seven published errors are never reported. Proved instead: for each call exactly which codes are met (C132_no_other_errors, C132_listed_errors), and that the seven are the only exceptions (C132_published_errors).",
    "C133": "False of the code: the PIN is judged before the code. Proved instead: what each answer says about the PIN (C133_pin_judged_with_any_code), an attacker that needs fewer requests than PINs and codes together (C133_requests_enough), and that no adaptive attacker gets by with fewer requests than there are codes, or PINs (C133_codes_needed, C133_pins_needed). The full statement holds for offers with both grants if only error numbers are shown (C133_together_with_both_grants_partial), not for others (C133_number_judges_pin).",
    "C134": "False of the code when errors are passed on: each names what was expected. Proved instead: a wallet that knows only its key is accepted after at most three rejections (C134_three_rejections_suffice), and none with fewer in general (C134_three_rejections_needed); and with only the numbers of the errors shown, the full statement (C134_numbers_keep_the_nonce_partial), for the client id too (C134_numbers_keep_the_client_id).",
    "C135": "False of the code: evaluation accepts proofs of any type, pre-evaluation and answering do not. Proved for all requests of the right proof type (C135_accepted_can_be_answered_partial); the other directions are proved without restriction.",
    "C141": "False of the code for callers that forget afterwards, which the library's stateless interface suggests: a token or code is accepted as often as requests overlap (C141_that_often_it_happens), and that is also the bound (C141_as_often_as_at_the_same_time). Proved instead for callers that claim what they read: once, as if requests were handled one after another, and without loss by refused requests; taking it first also gives once, but C141_taken_first_refuted shows the loss.",
    "C142": "False of the code: C142_texts_remembered_refuted. What is accepted once is accepted in as many spellings as wanted (C142_as_often_as_wanted). Proved instead: remembering messages catches every spelling of an accepted proof (C142_messages_remembered, C142_spellings_caught).",
    "C143": "False of the code when ids are reused: C143_ids_reused_refuted. Proved instead for issuers that never reuse an id (C143_ids_not_reused), for single withdrawals, for credentials given in full, and, for any change, exactly when the meaning is kept (C143_kept_exactly_when).",
    "C144": "False of the code: C144_critical_refuted; every accepted token can be marked (C144_accepted_if_marked). Proved instead: no extension is seen by any call (C144_extensions_not_seen, C144_same_outcome), and none is written (C144_none_written).",
    "C145": "False of the code: C145_algorithm_refuted; any algorithm can be stated for any accepted proof (C145_any_algorithm). Proved instead: exactly when it suits (C145_right_exactly), and what callers can rely on if they take EdDSA only (C145_take_EdDSA_only).",
    "C146": "False of the code: C146_any_document_refuted. Proved instead: it holds if the document is that of the DID which pre-evaluation named (C146_document_as_told, C146_always_told), and with other documents exactly if they have keys of their own DID only (C146_own_keys, C146_own_keys_only).",
    "C147": "False if callers supply any document: C147_any_document_refuted; lost keys stay usable if documents are cached: C147_lost_keys_with_a_cache_refuted. Proved for callers that supply the document of the DID which pre-evaluation names (C147_asked_for, C147_key_of_that_time, C147_lost_keys), and with a cache for keys that are kept (C147_asked_for_with_a_cache).",
    "C148": "False of the code: C148_domain_names_refuted. Proved instead: exactly when it is possible (C148_exactly_without_dots, C148_whatever_is_signed), and that it never is with a dot (C148_dots, C148_no_history).",
    "C107": "REFUTED for credential requests under a default offer (evaluation only looks at its grants, C46); what each default value allows is proved exactly.",
    "C104": "REFUTED for numbers: metadata with 4.6428839496425715e91 becomes 4.642883949642571e91 and back, for ever. Proved: every document that was read can be written and read again, any number of times, and nothing but such numbers changes.",
    "C91": "REFUTED: the type has no fields; proved exactly which texts are read, all as one value.",
}
EXTRA_PARTIAL = set()

def main():
    thms = {}
    for f in sorted((ROOT / "rocq/theories/Properties").glob("*.v")):
        for name in re.findall(r"^Theorem (C\d+_\w+)", f.read_text(), re.M):
            thms.setdefault(name.split("_")[0], []).append(name)
    ids = [json.loads(l)["id"] for l in (ROOT / "properties.jsonl").read_text().splitlines() if l.strip()]
    unknown = set(thms) - set(ids)
    assert not unknown, unknown
    claims = []
    for i in ids:
        if i not in thms:
            print("no theorem for", i)
            continue
        partial = i in EXTRA_PARTIAL or any(t.endswith(("_refuted", "_partial")) for t in thms[i])
        if partial:
            assert i in NOTES, i
        claims.append({"property": i, "status": "partial" if partial else "proved",
                       "theorems": thms[i], "note": NOTES.get(i, "")})
    (ROOT / "MANIFEST.json").write_text(json.dumps({"claims": claims}, indent=1) + "\n")
    print(len(claims), "claims", sum(len(c["theorems"]) for c in claims), "theorems")

main()
