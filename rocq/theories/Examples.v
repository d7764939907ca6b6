(** A concrete instance of the abstract dependencies, used to show that the
    premises of the theorems can be met. Timestamps are
    those of Chrono.v; the rest is not a model of ssi. *)
From Coq Require Import Lia ZifyBool ZifyN ZifyNat.
From Verif Require Import Model.Prelude Model.Utf8 Model.Json Model.Types Model.Deps Model.Chrono
  Spec SpecJwt Proofs.StrFacts Proofs.Utf8Facts Proofs.JsonFacts Proofs.TimeFacts.

(** DID URL syntax: [did:] prefix, the fragment after the first [#]. *)
Definition ex_did_url (s : str) : str + didurl :=
  match expect (lit "did:") s with
  | None => inl (lit "invalid DID URL")
  | Some _ =>
      match cut "#"%char s with
      | Some (a, f) => inr {| du_did := a; du_path := []; du_query := None; du_fragment := Some f |}
      | None => inr {| du_did := s; du_path := []; du_query := None; du_fragment := None |}
      end
  end.

(** A document is a list of keys by DID URL. *)
Definition ex_document : Type := list (str * jwk).
Definition ex_select (doc : ex_document) (u : didurl) : str + resource jwk :=
  match assoc (didurl_to_string u) doc with
  | Some k => inr (RVerificationMethod k)
  | None => inl (lit "not found")
  end.

Definition example_deps : deps := {|
  Document := ex_document;
  VerificationMethod := jwk;
  did_url_try_from := ex_did_url;
  select_object := ex_select;
  get_jwk := fun k => inr k;
  jwk_from_str := fun s =>
    if str_eqb s (lit "key") then inr {| jwk_algorithm := Some JAEdDSA; jwk_parameters := POKP (lit "k") |}
    else inl (lit "invalid JWK");
  dt_parse := chrono_parse;
  dt_print := chrono_print;
  dt_display := chrono_display;
  base64_error := fun _ => lit "base64";
  serde_error := fun _ => lit "serde";
  lower_table := fun _ c after =>
    if c =? 8490 then [107]
    else if c =? 931 then match after with [] => [962] | _ => [963] end else [c];
  upper_table := fun c =>
    if c =? 305 then [73] else if c =? 383 then [83] else if c =? 223 then [83; 83] else [c];
  flatten_unit_ok := true |}.

(** The same with a resolver that finds something that is not a key. *)
Definition example_deps_other : deps := {|
  Document := ex_document;
  VerificationMethod := jwk;
  did_url_try_from := ex_did_url;
  select_object := fun _ _ => inr ROther;
  get_jwk := fun k => inr k;
  jwk_from_str := jwk_from_str example_deps;
  dt_parse := chrono_parse;
  dt_print := chrono_print;
  dt_display := chrono_display;
  base64_error := fun _ => lit "base64";
  serde_error := fun _ => lit "serde";
  lower_table := lower_table example_deps;
  upper_table := upper_table example_deps;
  flatten_unit_ok := false |}.

Lemma example_dt_round_trips : dt_round_trips example_deps.
Proof. exact (chrono_round_trips example_deps). Qed.

Lemma example_other_dt_round_trips : dt_round_trips example_deps_other.
Proof. exact (chrono_round_trips example_deps_other). Qed.

Lemma example_lower_case_facts : lower_case_facts example_deps.
Proof.
  intros before c after Hc Hs. cbn. destruct (c =? 8490) eqn:E.
  - exists 107. split; [now left|]. now right.
  - destruct (c =? 931) eqn:E2; [destruct after|].
    { exists 962. split; [now left|]. left. split; [lia|unfold scalar_value; lia]. }
    { exists 963. split; [now left|]. left. split; [lia|unfold scalar_value; lia]. }
    exists c. split; [now left|]. left. auto.
Qed.

Lemma example_upper_case_facts : upper_case_facts example_deps.
Proof.
  intros c Hc Hs. cbn. destruct (c =? 305); [exists 73; split; [now left|]; tauto|].
  destruct (c =? 383); [exists 83; split; [now left|]; tauto|].
  destruct (c =? 223); [exists 83; split; [now left|]; tauto|].
  exists c. split; [now left|]. left. auto.
Qed.
