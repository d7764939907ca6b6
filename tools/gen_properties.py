#!/usr/bin/env python3
"""Writes ../properties.jsonl. Kept so that the list stays valid JSON as it grows."""
import json, os
P = []
AT = "crates/openid4vci/src/access_token/mod.rs"
ATE = "crates/openid4vci/src/access_token/error.rs"
ATR = "crates/openid4vci/src/access_token/error_response.rs"
CI = "crates/openid4vci/src/credential_issuer/mod.rs"
CIE = "crates/openid4vci/src/credential_issuer/error.rs"
CIC = "crates/openid4vci/src/credential_issuer/error_code.rs"
JW = "crates/openid4vci/src/jwt/mod.rs"
JWE = "crates/openid4vci/src/jwt/error.rs"
MD = "crates/openid4vci/src/types/credential_issuer_metadata.rs"
CR = "crates/openid4vci/src/types/credential_request.rs"
CRED = "crates/openid4vci/src/types/credential.rs"
TT = "crates/openid4vci/src/types/token_type.rs"
MAC = "crates/openid4vci/src/macros.rs"
RO = "crates/openid4vci/src/return_object.rs"
ERR = "crates/openid4vci/src/error.rs"
ER = "crates/openid4vci/src/error_response.rs"
VAL = "crates/openid4vci/src/validate.rs"
BASE = "crates/openid4vci/src/base.rs"
def p(title, statement, quantifier, why, *anchors):
    P.append(dict(id="C%02d" % (len(P)+1), title=title, statement=statement, quantifier=quantifier,
                  why_tests_cant=why, anchors=list(anchors)))

exec(open(os.path.join(os.path.dirname(os.path.abspath(__file__)), "properties_src.py")).read())
out = os.path.join(os.path.dirname(os.path.abspath(__file__)), "..", "properties.jsonl")
with open(out, "w") as f:
    for x in P:
        f.write(json.dumps(x, ensure_ascii=False) + "\n")
print(len(P), "properties")
