(** Documents passed on any number of times (C104). *)
From Verif Require Import Model.Prelude Model.Json Model.Types Model.Wire Spec SpecRelay SpecHops
  Proofs.JsonFacts Proofs.StrFacts Proofs.RenumberFacts.

(* ---------------- replacing numbers twice ---------------- *)

Section Twice.
Context (r q : str -> str).

Lemma json_twice j : json_numbers r (json_numbers q j) = json_numbers (fun s => r (q s)) j.
Proof.
  induction j as [|b|z|s|s|l IH|m IH] using json_ind'; try reflexivity; cbn [json_numbers]; f_equal;
    rewrite Forall_forall in IH; rewrite map_map; apply map_ext_in.
  - exact IH.
  - intros [k v] I. cbn [fst snd]. f_equal. exact (IH _ I).
Qed.
Lemma map_twice h : map_numbers r (map_numbers q h) = map_numbers (fun s => r (q s)) h.
Proof. unfold map_numbers. rewrite map_map. apply map_ext. intros [k v]. cbn [fst snd]. now rewrite json_twice. Qed.
Lemma context_twice c : context_numbers r (context_numbers q c) = context_numbers (fun s => r (q s)) c.
Proof. destruct c; cbn [context_numbers]; [reflexivity|]. now rewrite map_twice. Qed.
Lemma credential_twice c : credential_numbers r (credential_numbers q c) = credential_numbers (fun s => r (q s)) c.
Proof.
  destruct c; cbn [credential_numbers]; try reflexivity. f_equal. rewrite map_map. apply map_ext. exact context_twice.
Qed.
Lemma offer_twice x : offer_numbers r (offer_numbers q x) = offer_numbers (fun s => r (q s)) x.
Proof.
  unfold offer_numbers. cbn [co_credential_issuer co_credentials co_grants]. f_equal. rewrite map_map. apply map_ext.
  intros [s|c]; cbn [offered_numbers]; [reflexivity|]. now rewrite credential_twice.
Qed.
Lemma request_twice x : request_numbers r (request_numbers q x) = request_numbers (fun s => r (q s)) x.
Proof. unfold request_numbers. cbn [cr_format cr_proof]. now rewrite credential_twice. Qed.
Lemma response_twice x : response_numbers r (response_numbers q x) = response_numbers (fun s => r (q s)) x.
Proof.
  unfold response_numbers. cbn [cs_format cs_credential cs_acceptance_token cs_c_nonce cs_c_nonce_expires_in].
  destruct (cs_credential x) as [[c|s]|]; cbn [option_map issued_numbers]; try reflexivity. now rewrite credential_twice.
Qed.
Lemma supported_twice x : supported_numbers r (supported_numbers q x) = supported_numbers (fun s => r (q s)) x.
Proof.
  unfold supported_numbers. cbn [sup_format sup_id sup_binding_methods sup_suites sup_display]. now rewrite credential_twice.
Qed.
Lemma metadata_twice x : metadata_numbers r (metadata_numbers q x) = metadata_numbers (fun s => r (q s)) x.
Proof.
  unfold metadata_numbers. cbn [im_credential_issuer im_authorization_server im_credential_endpoint
    im_batch_credential_endpoint im_credentials_supported im_additional_fields]. f_equal.
  - rewrite map_map. apply map_ext. exact supported_twice.
  - destruct (im_additional_fields x); cbn [option_map]; [|reflexivity]. now rewrite map_twice.
Qed.
End Twice.

(* ---------------- leaving them as they are ---------------- *)

Lemma map_same {A} (f : A -> A) l : (forall x, f x = x) -> map f l = l.
Proof. intros H. rewrite <- (map_id l) at 2. now apply map_ext. Qed.
Lemma entries_same h : map_numbers (fun s => s) h = h.
Proof. apply map_same. intros [k v]. cbn [fst snd]. now rewrite numbers_same. Qed.
Lemma credential_same c : credential_numbers (fun s => s) c = c.
Proof.
  destruct c; cbn [credential_numbers]; try reflexivity. f_equal. apply map_same.
  intros [s|h]; cbn [context_numbers]; [reflexivity|]. now rewrite entries_same.
Qed.
Lemma offer_same x : offer_numbers (fun s => s) x = x.
Proof.
  destruct x as [i c g]. unfold offer_numbers. cbn [co_credential_issuer co_credentials co_grants]. f_equal. apply map_same.
  intros [s|f]; cbn [offered_numbers]; [reflexivity|]. now rewrite credential_same.
Qed.
Lemma request_same x : request_numbers (fun s => s) x = x.
Proof. destruct x as [f p]. unfold request_numbers. cbn [cr_format cr_proof]. now rewrite credential_same. Qed.
Lemma response_same x : response_numbers (fun s => s) x = x.
Proof.
  destruct x as [f [[c|s]|] a n e]; unfold response_numbers;
    cbn [cs_format cs_credential cs_acceptance_token cs_c_nonce cs_c_nonce_expires_in option_map issued_numbers]; try reflexivity.
  now rewrite credential_same.
Qed.
Lemma metadata_same x : metadata_numbers (fun s => s) x = x.
Proof.
  destruct x as [i a e b c f]. unfold metadata_numbers. cbn [im_credential_issuer im_authorization_server
    im_credential_endpoint im_batch_credential_endpoint im_credentials_supported im_additional_fields]. f_equal.
  - apply map_same. intros [g d m u p]. unfold supported_numbers.
    cbn [sup_format sup_id sup_binding_methods sup_suites sup_display]. now rewrite credential_same.
  - destruct f; cbn [option_map]; [|reflexivity]. now rewrite entries_same.
Qed.

(* ---------------- any number of times ---------------- *)

Section Hops.
Context {A : Type} (read : str -> option A) (write : A -> str) (numbers : (str -> str) -> A -> A).
Hypothesis once : forall r s x, rereads r -> read s = Some x -> read (write x) = Some (numbers r x).
Hypothesis twice : forall r q x, numbers r (numbers q x) = numbers (fun s => r (q s)) x.
Hypothesis same : forall x, numbers (fun s => s) x = x.

Lemma many_times r n s x : rereads r -> read s = Some x ->
  passed_on read write (S n) s = Some (write (numbers (times n r) x))
  /\ read (write (numbers (times n r) x)) = Some (numbers (times (S n) r) x).
Proof.
  intros Hr. revert s x. induction n as [|n IH]; intros s x H.
  - cbn [passed_on]. rewrite H. change (times 0 r) with (fun s : str => s). rewrite same. split; [reflexivity|].
    exact (once r s x Hr H).
  - destruct (IH (write x) (numbers r x) (once r s x Hr H)) as (E & R). rewrite !twice in E. rewrite !twice in R.
    split; [|exact R]. change (passed_on read write (S (S n)) s)
      with (match read s with Some x => passed_on read write (S n) (write x) | None => None end). now rewrite H.
Qed.
End Hops.

Section Settled.
Context {A : Type} (read : str -> option A) (write : A -> str).
Hypothesis once : forall s x, read s = Some x -> read (write x) = Some x.
Lemma settles n s x : read s = Some x -> passed_on read write (S n) s = Some (write x).
Proof.
  revert s x. induction n as [|n IH]; intros s x H; [cbn [passed_on]; now rewrite H|].
  change (passed_on read write (S (S n)) s)
    with (match read s with Some x => passed_on read write (S n) (write x) | None => None end).
  rewrite H. apply IH. exact (once s x H).
Qed.
End Settled.

Lemma passed_step {A} (read : str -> option A) write n s t : option_map write (read s) = Some t ->
  passed_on read write (S n) s = passed_on read write n t /\ exists x, read s = Some x.
Proof.
  intros H. change (passed_on read write (S n) s)
    with (match read s with Some x => passed_on read write n (write x) | None => None end).
  destruct (read s) as [x|]; [|discriminate H]. cbn [option_map] in H. apply some_inj in H. rewrite H. eauto.
Qed.
