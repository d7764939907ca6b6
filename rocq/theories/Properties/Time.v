(** Timestamps in documents. Theorems only; proofs are in Proofs/TimeFacts.v and
    Proofs/TimeDocs.v, vocabulary in SpecTime.v. *)
From Verif Require Import Model.Prelude Model.Json Model.Types Model.Deps Model.Chrono Model.Wire
  Spec SpecToken SpecJwt SpecJson SpecEvaluation SpecTime
  Proofs.StrFacts Proofs.GrammarFacts Proofs.OkTac Proofs.TimeFacts Proofs.TimeDocs Examples Properties.Jwt.

(** * C83 *)
(** Every day has one date, and every existing date one day. *)
Theorem C83_calendar : forall n, exists x, day_number x n /\ forall y, day_number y n -> y = x.
Proof. exact calendar_bijective. Qed.
Print Assumptions C83_calendar.

Theorem C83_date_has_one_day : forall x, valid_date x -> exists n, day_number x n /\ forall k, day_number x k -> k = n.
Proof. exact date_has_one_day. Qed.
Print Assumptions C83_date_has_one_day.

(** The instants that exist for chrono are those of the years -262144 to 262143;
    an expiry outside of them cannot be computed (C42). *)
Theorem C83_representable : forall t,
  representable t <->
  exists x c n, valid_date x /\ valid_clock c /\ day_number x n
    /\ (-262144 <= year x <= 262143)%Z /\ t = instant_of n c 0.
Proof. exact representable_years. Qed.
Print Assumptions C83_representable.

Theorem C83_range : forall t, in_instant_range t = true <-> representable t.
Proof. exact instant_range_representable. Qed.
Print Assumptions C83_range.

(** How an instant is written, and in messages displayed. *)
Theorem C83_written : forall d t, written_form (dt_print (with_chrono d) t) t.
Proof. exact (fun _ => chrono_print_form). Qed.
Print Assumptions C83_written.

Theorem C83_displayed : forall d t, exists on at_time,
  written_form (on ++ lit "T" ++ at_time ++ lit "Z") t
  /\ dt_display (with_chrono d) t = on ++ lit " " ++ at_time ++ lit " UTC".
Proof. exact (fun _ => chrono_display_form). Qed.
Print Assumptions C83_displayed.

(** Every RFC 3339 text is read as the instant it denotes, whatever its offset
    and number of fraction digits. *)
Theorem C83_read : forall d s t, timestamp s t -> dt_parse (with_chrono d) s = Some t.
Proof. exact (fun _ s t => proj2 (chrono_parse_iff s t)). Qed.
Print Assumptions C83_read.

Theorem C83_one_instant : forall s t t', timestamp s t -> timestamp s t' -> t = t'.
Proof. exact timestamp_unique. Qed.
Print Assumptions C83_one_instant.

(** What is written is read back; the premise of the other theorems holds. *)
Theorem C83_read_back : forall d, dt_round_trips (with_chrono d).
Proof. exact chrono_round_trips. Qed.
Print Assumptions C83_read_back.

(** The claims of a proof. *)
Theorem C83_claims_written : forall d b, body_ok b -> body_instants_ok b ->
  exists m, json_text (claims_to_json (with_chrono d) b) (JObj m) /\ claims_with written_form m b.
Proof. by_reader claims_written_chrono. Qed.
Print Assumptions C83_claims_written.

Theorem C83_claims_read : forall d text m b, json_text text (JObj m) -> claims_with timestamp m b ->
  claims_from_json (with_chrono d) text = Some b.
Proof. by_reader claims_read_chrono. Qed.
Print Assumptions C83_claims_read.

Example C83_texts :
  timestamp (lit "2018-09-14T21:19:10Z") 1536959950000000000%Z
  /\ timestamp (lit "2018-09-14T23:19:10.000+02:00") 1536959950000000000%Z
  /\ timestamp (lit "2024-02-29T23:30:00.5-01:30") 1709254800500000000%Z
  /\ timestamp (lit "-0001-12-31T23:59:59.999999999Z") (-62167219200000000001)%Z
  /\ timestamp (lit "2000-01-01T00:00:00.1234567899Z") 946684800123456789%Z.
Proof. repeat split; apply chrono_parse_iff; reflexivity. Qed.

Example C83_not_texts : forall t,
  ~ timestamp (lit "2023-02-29T00:00:00Z") t /\ ~ timestamp (lit "2023-01-01T24:00:00Z") t
  /\ ~ timestamp (lit "2023-01-01T00:00:00") t /\ ~ timestamp (lit "1683000000") t.
Proof. intros t. repeat split; intros H; apply chrono_parse_iff in H; discriminate H. Qed.

Example C83_written_texts :
  map chrono_print [0; 1683000000000000000; -1; 253402300800000000000; 1500000000; 1500000; 1500]%Z
  = map lit ["1970-01-01T00:00:00Z"; "2023-05-02T04:00:00Z"; "1969-12-31T23:59:59.999999999Z";
             "+10000-01-01T00:00:00Z"; "1970-01-01T00:00:01.500Z"; "1970-01-01T00:00:00.001500Z";
             "1970-01-01T00:00:00.000001500Z"]%string.
Proof. reflexivity. Qed.

Example C83_claims_case : exists m b,
  json_text (lit "{""aud"":""a"",""nonce"":""n"",""iat"":""2023-05-02T06:00:00+02:00"",""exp"":""2023-05-02T04:00:00Z""}") (JObj m)
  /\ claims_with timestamp m b /\ b_exp b = Some (b_iat b).
Proof.
  exists [(lit "aud", JStr (lit "a")); (lit "nonce", JStr (lit "n"));
          (lit "iat", JStr (lit "2023-05-02T06:00:00+02:00")); (lit "exp", JStr (lit "2023-05-02T04:00:00Z"))],
    {| b_iss := None; b_aud := lit "a"; b_sub := None; b_iat := 1683000000000000000%Z;
       b_nonce := lit "n"; b_nbf := None; b_exp := Some 1683000000000000000%Z |}.
  split; [apply parse_json_iff; vm_compute; reflexivity|]. split; [|reflexivity].
  apply (claims_of_chrono example_deps).
  apply (C24_claims_document _ (lit "{""aud"":""a"",""nonce"":""n"",""iat"":""2023-05-02T06:00:00+02:00"",""exp"":""2023-05-02T04:00:00Z""}"));
    [apply parse_json_iff|]; vm_compute; reflexivity.
Qed.
