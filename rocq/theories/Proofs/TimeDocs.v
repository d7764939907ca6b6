(** Timestamps inside documents. *)
From Coq Require Import Lia.
From Verif Require Import Model.Prelude Model.Json Model.Types Model.Deps Model.Chrono Model.Serde Model.Wire
  Spec SpecToken SpecJwt SpecJson SpecEvaluation SpecDocuments SpecWire SpecTime
  Proofs.StrFacts Proofs.JsonFacts Proofs.ReaderFacts Proofs.GrammarFacts Proofs.SerdeFacts
  Proofs.JwtFacts Proofs.WireFacts Proofs.WrittenFacts Proofs.TimeFacts.

Lemma claims_with_mono (T T' : str -> instant -> Prop) m b :
  (forall s t, T s t -> T' s t) -> claims_with T m b -> claims_with T' m b.
Proof.
  intros H (H1 & H2 & H3 & (v & Hv & s & Es & Ht) & H5 & H6 & H7).
  assert (O : forall k o, optional_member m k (fun v t => exists s, v = JStr s /\ T s t) o ->
                optional_member m k (fun v t => exists s, v = JStr s /\ T' s t) o).
  { intros k [t|]; [|exact (fun x => x)]. intros (w & Hw & x & Ex & Hx). exists w. split; [exact Hw|]. eauto. }
  unfold claims_with. cbv zeta. repeat split; auto; try (apply H2); try (apply H5).
  exists v. split; [exact Hv|]. eauto.
Qed.

Lemma claims_of_chrono d m b : claims_of (with_chrono d) m b <-> claims_with timestamp m b.
Proof.
  change (claims_of (with_chrono d) m b) with (claims_with (fun s t => chrono_parse s = Some t) m b).
  split; apply claims_with_mono; intros s t; apply chrono_parse_iff.
Qed.

Lemma claims_read_chrono d text m b :
  parse_json text = Some (JObj m) -> claims_with timestamp m b -> claims_from_json (with_chrono d) text = Some b.
Proof. intros H C. apply (claims_from_json_iff _ _ _ _ H). now apply claims_of_chrono. Qed.

Lemma time_here t : exists s, JStr (chrono_print t) = JStr s /\ written_form s t.
Proof. eexists. split; [reflexivity|apply chrono_print_form]. Qed.
#[local] Hint Resolve time_here : written.

Lemma claims_members_chrono d b :
  exists m, ser_body (with_chrono d) b = JObj m /\ claims_with written_form m b.
Proof.
  eexists. split; [reflexivity|].
  destruct b as [iss a s i n nbf exp]. unfold claims_with. cbv zeta.
  cbn [b_iss b_aud b_sub b_iat b_nonce b_nbf b_exp].
  destruct iss, s, nbf, exp; cbn [field_opt ser_opt]; conj_split; try member_here;
    (eexists; split; [here|apply time_here]).
Qed.

Lemma claims_written_chrono d b : body_ok b -> body_instants_ok b ->
  exists m, parse_json (claims_to_json (with_chrono d) b) = Some (JObj m) /\ claims_with written_form m b.
Proof.
  intros H Hi. destruct (claims_members_chrono d b) as (m & E & C). exists m. split; [|exact C].
  rewrite <- E. unfold claims_to_json. apply (read_written 1); [|repeat constructor].
  apply good_body; [apply chrono_round_trips|assumption|assumption].
Qed.

(** The instants chrono has are those of the years -262144 to 262143. *)
Lemma instant_range_years t :
  in_instant_range t = true <->
  exists x c n, valid_date x /\ valid_clock c /\ day_number x n
    /\ (-262144 <= year x <= 262143)%Z /\ t = instant_of n c 0.
Proof.
  split.
  - intros R. destruct (clock_of_spec t) as [C E].
    exists (date_at (day_of t)), (clock_of t), (day_of t).
    destruct (date_at_spec (day_of t)) as [V _]. pose proof (day_number_total (day_of t)) as DN.
    split; [exact V|]. split; [exact C|]. split; [exact DN|]. split; [|exact E].
    apply (year_range _ _ DN). unfold in_instant_range in R.
    apply andb_true_iff in R. rewrite !Z.leb_le in R. destruct R as [A B].
    split; (apply Z.div_le_mono; [reflexivity|]); (apply Z.div_le_mono; [reflexivity|]); assumption.
  - intros (x & c & n & V & C & DN & Y & ->).
    apply day_number_valid in DN. destruct DN as [_ <-]. pose proof (days_year x V) as D.
    unfold valid_clock in C. unfold in_instant_range, instant_of, instant_min, instant_max.
    assert (-96465658 <= days x <= 95026601)%Z as B.
    { unfold days_before_year, epoch_days in D. Z.div_mod_to_equations. lia. }
    apply andb_true_iff. rewrite !Z.leb_le. lia.
Qed.

Lemma representable_years t :
  representable t <->
  exists x c n, valid_date x /\ valid_clock c /\ day_number x n
    /\ (-262144 <= year x <= 262143)%Z /\ t = instant_of n c 0.
Proof.
  rewrite <- instant_range_years. unfold representable, in_instant_range.
  now rewrite andb_true_iff, !Z.leb_le.
Qed.

Lemma instant_range_representable t : in_instant_range t = true <-> representable t.
Proof. now rewrite representable_years, instant_range_years. Qed.
