(** Reading error codes and authorization server metadata: proofs for Properties/Codes.v. *)
From Verif Require Import Model.Prelude Model.Json Model.Types Model.Deps Model.Serde Model.SerdeOptions
  Spec SpecToken SpecErrors SpecJson SpecCodes Proofs.StrFacts Proofs.JsonFacts Proofs.GrammarFacts Proofs.ShapeFacts.

Lemma assoc_names {A : Type} (rust : A -> string -> Prop) (name : A -> str) all :
  (forall a n, rust a n <-> name a = lit n) -> (forall a, exists n, rust a n) ->
  (forall a, In a all) -> (forall a b, name a = name b -> a = b) ->
  forall k a, assoc k (map (fun a => (name a, a)) all) = Some a <-> exists n, rust a n /\ k = lit n.
Proof.
  intros HR HE HA HI k a.
  assert (assoc k (map (fun a => (name a, a)) all) = Some a <-> k = name a) as ->.
  { specialize (HA a). induction all as [|b all IH]; [destruct HA|]. cbn [map assoc].
    destruct (str_eqb k (name b)) eqn:E.
    - apply str_eqb_eq in E. subst k. split; [now intros [= ->]|]. intros E. now apply HI in E as ->.
    - destruct HA as [->|HA]; [|now apply IH]. split.
      + intros H. exfalso. revert H. clear -E HI.
        induction all as [|b all IH]; cbn [map assoc]; [discriminate|].
        destruct (str_eqb k (name b)) eqn:E'; [|exact IH]. intros [= ->]. congruence.
      + intros ->. rewrite str_eqb_refl in E. discriminate. }
  split.
  - intros ->. destruct (HE a) as [n Hn]. exists n. split; [exact Hn|]. now apply HR.
  - intros (n & Hn & ->). symmetry. now apply HR.
Qed.

Lemma unit_variant_texts {A : Type} (rust : A -> string -> Prop) (tbl : list (str * A)) :
  (forall k a, assoc k tbl = Some a <-> exists n, rust a n /\ k = lit n) ->
  forall s a, opt_bind (parse_json s) (de_unit_variant tbl) = Some a
    <-> exists n, rust a n /\ names_variant s n.
Proof.
  intros HT s a. unfold names_variant. split.
  - destruct (parse_json s) as [j|] eqn:E; [|discriminate]. cbn [opt_bind]. apply parse_json_iff in E.
    destruct j as [| | | |k| |m]; cbn [de_unit_variant]; try discriminate.
    + intros H. apply HT in H. destruct H as (n & Hn & ->). eauto.
    + destruct m as [|[k v] [|]]; try discriminate; destruct v; try discriminate.
      intros H. apply HT in H. destruct H as (n & Hn & ->). eauto.
  - intros (n & Hn & [H|H]); apply parse_json_iff in H; rewrite H; cbn [opt_bind de_unit_variant];
      apply HT; eauto.
Qed.

Lemma token_rust_iff a n : token_rust_name a n <-> token_code_variant a = lit n.
Proof.
  split; [now destruct 1|].
  destruct a; cbn [token_code_variant]; intros E; apply lit_inj in E; subst n; constructor.
Qed.
Lemma issuer_rust_iff a n : issuer_rust_name a n <-> issuer_code_variant a = lit n.
Proof.
  split; [now destruct 1|].
  destruct a; cbn [issuer_code_variant]; intros E; apply lit_inj in E; subst n; constructor.
Qed.

Lemma token_code_texts s c : token_code_from_json s = Some c <-> exists n, token_rust_name c n /\ names_variant s n.
Proof.
  apply unit_variant_texts, (assoc_names token_rust_name).
  - exact token_rust_iff.
  - intros a. destruct a; eexists; constructor.
  - intros a. destruct a; cbn; tauto.
  - intros a b. destruct a, b; try reflexivity; discriminate.
Qed.
Lemma issuer_code_texts s c : issuer_code_from_json s = Some c <-> exists n, issuer_rust_name c n /\ names_variant s n.
Proof.
  apply unit_variant_texts, (assoc_names issuer_rust_name).
  - exact issuer_rust_iff.
  - intros a. destruct a; eexists; constructor.
  - intros a. destruct a; cbn; tauto.
  - intros a b. destruct a, b; try reflexivity; discriminate.
Qed.

Lemma token_code_round_trip c : token_code_from_json (token_code_to_json c) = Some c.
Proof. destruct c; reflexivity. Qed.
Lemma issuer_code_round_trip c : issuer_code_from_json (issuer_code_to_json c) = Some c.
Proof. destruct c; reflexivity. Qed.

(** A text has one value, so the standard's name is never read. *)
Lemma token_code_unread c name s : oauth_code c name -> names_variant s name -> token_code_from_json s = None.
Proof.
  intros H HV. destruct (token_code_from_json s) as [c'|] eqn:E; [|reflexivity]. exfalso.
  apply token_code_texts in E. destruct E as (n & Hn & [T|T]); destruct HV as [V|V];
    apply parse_json_iff in T, V; rewrite T in V; try discriminate V;
    injection V as V; apply lit_inj in V; subst n; destruct H; inversion Hn.
Qed.
Lemma issuer_code_unread c name s : vci_code c name -> names_variant s name -> issuer_code_from_json s = None.
Proof.
  intros H HV. destruct (issuer_code_from_json s) as [c'|] eqn:E; [|reflexivity]. exfalso.
  apply issuer_code_texts in E. destruct E as (n & Hn & [T|T]); destruct HV as [V|V];
    apply parse_json_iff in T, V; rewrite T in V; try discriminate V;
    injection V as V; apply lit_inj in V; subst n; destruct H; inversion Hn.
Qed.

Lemma asm_texts s : (exists a, auth_server_metadata_from_json s = Some a) <-> any_object_text s.
Proof.
  unfold auth_server_metadata_from_json, any_object_text, de_auth_server_metadata. split.
  - intros [a H]. destruct (parse_struct [] s) as [v|] eqn:E; [|discriminate]. cbn [opt_bind] in H.
    exists v. split; [now apply parse_struct_iff|].
    destruct v as [| | | | |[|x l]|m]; try discriminate H; eauto.
  - intros (v & Hs & Hv). apply parse_struct_iff in Hs. rewrite Hs. exists tt.
    destruct Hv as [->|[m ->]]; reflexivity.
Qed.

Lemma asm_forgets s s' a a' : auth_server_metadata_from_json s = Some a ->
  auth_server_metadata_from_json s' = Some a' -> a = a' /\ auth_server_metadata_to_json a = lit "{}".
Proof. intros _ _. now destruct a, a'. Qed.
