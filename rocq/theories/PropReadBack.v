(** Properties C85, C86: when exactly the signer's output is indented as configured, and
    when it is read back as the signature reported. *)

From Coq Require Import String List Permutation.
From Verif Require Import Base Utf8 Canon BodyHash Header Domain Signature Crypto TagList Format Sign Verify
  SpecText SpecCanon SpecHash SpecHeader SpecTag SpecDomain SpecSig SpecFormat SpecSign SpecOutput
  DomainProofs SignProofs HeaderProofs OutputProofs OutputParse OutputExact IndentExact OriginalProofs WidthProofs Lib Sample
  PropDomain PropSign PropOutput.
Import ListNotations.
Open Scope N_scope.

(** ** C86 *)

(** Continuation lines start with the indentation exactly if those in the values
    of additional tags do. *)
Theorem C86_indentation : forall E headers chunks clock j r o, idna_ok (env_idna E) ->
  signed_output E headers chunks clock j r o ->
  let Q := fun w => w = of_indentation (r_format E r) in
  indented Q (so_header_value o) <-> Forall (indented Q) (map snd (r_ext_tags E r)).
Proof.
  intros E headers chunks clock j r o IO H Q. destruct (signed_output_of _ _ _ _ _ _ _ H) as (pre & post & n & b64 & O).
  exact (indent_exact E _ _ _ _ _ _ _ _ _ _ _ IO O).
Qed.
Print Assumptions C86_indentation.

(** line breaks of its own, but the same indentation *)
Definition tab_request : SignRequest ascii_env :=
  odd_request TsNow [(lit "y", lit "a" ++ [13; 10; 9] ++ lit "b"); (lit "z1", [])].

Example C86_example :
  signed_output ascii_env sample_headers output_chunks (fun _ => 1000) 0 tab_request (odd_output tab_request sample_headers)
  /\ Forall (indented (fun w => w = of_indentation (r_format ascii_env tab_request))) (map snd (r_ext_tags ascii_env tab_request))
  /\ indented (fun w => w = of_indentation (r_format ascii_env tab_request)) (so_header_value (odd_output tab_request sample_headers)).
Proof.
  assert (signed_output ascii_env sample_headers output_chunks (fun _ => 1000) 0 tab_request (odd_output tab_request sample_headers)) as S.
  { apply ascii_signed; try (vm_compute; auto; fail). exact sample_header_fields. }
  assert (Forall (indented (fun w => w = of_indentation (r_format ascii_env tab_request))) (map snd (r_ext_tags ascii_env tab_request))) as I.
  { constructor; [|constructor; [|constructor]].
    - exists (lit "a"), [[9] ++ lit "b"]. split; [reflexivity|]. split; [repeat constructor; unfold visible; cbn; lia|].
      constructor; [|constructor]. exists [9], 98, []. split; [reflexivity|]. split; [reflexivity|]. split; [unfold visible; lia|constructor].
    - exists [], []. split; [reflexivity|]. split; constructor. }
  split; [exact S|]. split; [exact I|].
  exact (proj2 (C86_indentation ascii_env _ _ _ _ _ _ ascii_idna_ok S) I).
Qed.

(** ** C85 *)

(** values as they exist in a Rust program: strings are made of Unicode characters,
    rsa-sha1 only exists in builds with feature pre-rfc8301, numbers have 64 bits *)
Definition rust_values (E : Env) (r : SignRequest E) (now : N) : Prop :=
  (Forall is_scalar (r_domain E r) /\ Forall is_scalar (r_selector E r)
    /\ forall i, r_identity E r = Some i -> Forall is_scalar (id_domain i))
  /\ (r_algorithm E r = RsaSha1 -> env_pre E = true)
  /\ (forall t, time_of E r now = Some t -> t < 2^64) /\ now < 2^64.

(** The header value is read back as the signature reported exactly if the local
    part of the identity is one, no additional tag is named q, x= could be chosen
    greater than t=, and the names of the copied fields contain no = or |. *)
Theorem C85_read_back : forall E headers chunks clock j r o, idna_ok (env_idna E) -> crypto_nonempty (env_crypto E) ->
  signed_output E headers chunks clock j r o -> rust_values E r (clock j) ->
  (exists sig', sig_from_str (env_pre E) (env_idna E) (so_header_value o) = Val (Ok sig')
    /\ written_signature (env_idna E) (r_format E r) (so_signature o) sig')
  <-> (forall i l, r_identity E r = Some i -> id_local_part i = Some l -> local_part l)
      /\ ~ In (lit "q") (map fst (r_ext_tags E r))
      /\ (forall t, time_of E r (clock j) = Some t -> r_valid_duration E r <> None -> t < 2^64 - 1)
      /\ copied_names_safe (so_signature o).
Proof.
  intros E headers chunks clock j r o IO NE H (V1 & V2 & V3 & V4).
  destruct (signed_output_of _ _ _ _ _ _ _ H) as (pre & post & n & b64 & O). eapply output_exact; eassumption.
Qed.
Print Assumptions C85_read_back.

(** It is accepted by the parser at all exactly if, with such names of copied
    fields, the local part is one or empty, a tag q= contains dns/txt, and x= is
    greater than t=. *)
Theorem C85_accepted : forall E headers chunks clock j r o, idna_ok (env_idna E) -> crypto_nonempty (env_crypto E) ->
  signed_output E headers chunks clock j r o -> rust_values E r (clock j) -> copied_names_safe (so_signature o) ->
  (exists sig', sig_from_str (env_pre E) (env_idna E) (so_header_value o) = Val (Ok sig'))
  <-> (forall i l, r_identity E r = Some i -> id_local_part i = Some l -> l = [] \/ local_part l)
      /\ (forall v, In (lit "q", v) (r_ext_tags E r) ->
            exists ms, query_methods_text v ms /\ exists m, In m ms /\ named m "dns/txt")
      /\ (forall t, time_of E r (clock j) = Some t -> r_valid_duration E r <> None -> t < 2^64 - 1).
Proof.
  intros E headers chunks clock j r o IO NE H (V1 & V2 & V3 & V4) C.
  destruct (signed_output_of _ _ _ _ _ _ _ H) as (pre & post & n & b64 & O). eapply output_accepted; try eassumption. apply V1.
Qed.
Print Assumptions C85_accepted.

(** Both sides of both equivalences hold for the sample output. *)
Example C85_example : signed_output ascii_env sample_headers output_chunks (fun _ => 1000) 0 output_request output_sample
  /\ rust_values ascii_env output_request 1000
  /\ exists sig', sig_from_str false ascii_idna (so_header_value output_sample) = Val (Ok sig')
       /\ written_signature ascii_idna (r_format ascii_env output_request) (so_signature output_sample) sig'.
Proof.
  destruct C35_example as (IO & NE & S & R & C & _). split; [exact S|]. split.
  - split; [apply R|]. split; [apply R|]. split; [intros t H; apply (rr_time _ _ _ R t H)|reflexivity].
  - exact (C35_output_parses_partial ascii_env _ _ _ _ _ _ IO NE S R eq_refl C).
Qed.

(** An additional tag q=dns/txt: accepted, but not reported as an additional tag. *)
Definition q_request : SignRequest ascii_env := odd_request TsNow [(lit "q", lit "foo:dns/txt")].
Definition q_output : SigningOutput := odd_output q_request sample_headers.

Example C85_q_example : signed_output ascii_env sample_headers output_chunks (fun _ => 1000) 0 q_request q_output
  /\ rust_values ascii_env q_request 1000
  /\ (exists sig', sig_from_str false ascii_idna (so_header_value q_output) = Val (Ok sig'))
  /\ ~ exists sig', sig_from_str false ascii_idna (so_header_value q_output) = Val (Ok sig')
       /\ written_signature ascii_idna (r_format ascii_env q_request) (so_signature q_output) sig'.
Proof.
  assert (signed_output ascii_env sample_headers output_chunks (fun _ => 1000) 0 q_request q_output) as S.
  { apply ascii_signed; try (vm_compute; auto; fail). exact sample_header_fields. }
  assert (rust_values ascii_env q_request 1000) as V.
  { split; [|split; [discriminate|split; [intros t T; injection T as <-; reflexivity|reflexivity]]].
    cbn [r_domain r_selector r_identity q_request odd_request]. repeat split; try (repeat constructor; cbn; lia). discriminate. }
  split; [exact S|]. split; [exact V|]. split.
  - eexists. vm_compute. reflexivity.
  - intros X. apply (C85_read_back ascii_env _ _ _ _ _ _ ascii_idna_ok sized_nonempty S V) in X as (_ & Q & _). apply Q. left. reflexivity.
Qed.
