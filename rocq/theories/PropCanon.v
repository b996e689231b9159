(** Properties C01-C09: canonicalization.  Statements use [SpecCanon] (the
    specification) and the modelled functions only. *)

From Verif Require Import Base Utf8 Canon SpecCanon CanonProofs CanonShape HeaderCanonProofs Sample.
From Coq Require Import String List.
Import ListNotations.
Open Scope N_scope.

(** C01 *)
Theorem C01_chunking_independence : forall alg chunks,
  canonicalize_body alg chunks = canonicalize_body alg [concat chunks].
Proof. exact chunking_irrelevant. Qed.
Print Assumptions C01_chunking_independence.

Theorem C01_same_body : forall alg chunks1 chunks2,
  concat chunks1 = concat chunks2 ->
  canonicalize_body alg chunks1 = canonicalize_body alg chunks2.
Proof.
  intros alg c1 c2 H. rewrite (chunking_irrelevant alg c1), (chunking_irrelevant alg c2), H. reflexivity.
Qed.
Print Assumptions C01_same_body.

Example C01_example :
  canonicalize_body Relaxed [[97; 32]; []; [9; 13]; [10]; [13]; [10; 98; 13; 10; 13]; [10]]
  = Val [97; 13; 10; 13; 10; 98; 13; 10].
Proof. reflexivity. Qed.

(** C02.  What the code computes, for every body. *)
Theorem C02_simple_body_exact : forall chunks,
  canonicalize_body Simple chunks =
    Val (let body := concat chunks in
         if only_crlfs body then [] else rfc_simple_body body).
Proof. exact simple_body_spec. Qed.
Print Assumptions C02_simple_body_exact.

(** The claim of RFC 6376, section 3.4.3, holds except for bodies made of CRLFs
    only.  Missing from the full claim: those bodies (next theorem). *)
Theorem C02_simple_body_partial : forall chunks,
  only_crlfs (concat chunks) = false ->
  canonicalize_body Simple chunks = Val (rfc_simple_body (concat chunks)).
Proof. intros chunks H. rewrite simple_body_spec. unfold impl_simple_body. rewrite H. reflexivity. Qed.
Print Assumptions C02_simple_body_partial.

Theorem C02_simple_body_refuted : forall chunks,
  only_crlfs (concat chunks) = true ->
  canonicalize_body Simple chunks = Val [] /\ rfc_simple_body (concat chunks) = [13; 10].
Proof.
  intros chunks H. rewrite simple_body_spec. unfold impl_simple_body. rewrite H. split; [reflexivity|].
  unfold only_crlfs in H. apply andb_prop in H. destruct H as [_ H].
  unfold rfc_simple_body. destruct (strip_trailing_crlfs (concat chunks)); [reflexivity|discriminate].
Qed.
Print Assumptions C02_simple_body_refuted.

Example C02_refuted_witness : only_crlfs [13; 10; 13; 10] = true.
Proof. reflexivity. Qed.
Example C02_example :
  only_crlfs [97; 13; 10; 13; 10] = false
  /\ canonicalize_body Simple [[97; 13]; [10; 13; 10]] = Val [97; 13; 10].
Proof. split; reflexivity. Qed.

(** C03 *)
Theorem C03_relaxed_body_exact : forall chunks,
  canonicalize_body Relaxed chunks =
    Val (let body := concat chunks in
         if ends_in_wsp_line body then rfc_relaxed_body body ++ [13; 10]
         else rfc_relaxed_body body).
Proof. exact relaxed_body_spec. Qed.
Print Assumptions C03_relaxed_body_exact.

(** The claim of RFC 6376, section 3.4.4, holds except for bodies whose last
    line is not terminated and consists of WSP.  Missing from the full claim:
    those bodies (next theorem). *)
Theorem C03_relaxed_body_partial : forall chunks,
  ends_in_wsp_line (concat chunks) = false ->
  canonicalize_body Relaxed chunks = Val (rfc_relaxed_body (concat chunks)).
Proof. intros chunks H. rewrite relaxed_body_spec. unfold impl_relaxed_body. rewrite H. reflexivity. Qed.
Print Assumptions C03_relaxed_body_partial.

Theorem C03_relaxed_body_refuted : exists chunks,
  canonicalize_body Relaxed chunks = Val [97; 13; 10; 13; 10]
  /\ rfc_relaxed_body (concat chunks) = [97; 13; 10].
Proof. exists [[97; 13; 10; 32]]. vm_compute. split; reflexivity. Qed.
Print Assumptions C03_relaxed_body_refuted.

Example C03_example :
  ends_in_wsp_line [97; 32; 9; 98; 32; 13; 10; 32; 13; 10] = false
  /\ canonicalize_body Relaxed [[97; 32; 9; 98]; [32; 13; 10; 32; 13; 10]] = Val [97; 32; 98; 13; 10].
Proof. split; reflexivity. Qed.

(** C04 *)
Theorem C04_no_unreachable : forall alg chunks, canonicalize_body alg chunks <> Panic.
Proof.
  intros [] chunks H; [rewrite simple_body_spec in H|rewrite relaxed_body_spec in H]; discriminate.
Qed.
Print Assumptions C04_no_unreachable.

(** C05.  Proved: the end of the canonical body, and clean lines. *)
Theorem C05_empty_or_crlf : forall alg chunks out,
  canonicalize_body alg chunks = Val out -> out = [] \/ ends_in_crlf out.
Proof. exact body_end. Qed.
Print Assumptions C05_empty_or_crlf.

Theorem C05_relaxed_lines_clean : forall chunks out,
  canonicalize_body Relaxed chunks = Val out -> Forall clean_line (lines out).
Proof. exact relaxed_body_clean. Qed.
Print Assumptions C05_relaxed_lines_clean.

(** The canonical form does not end in an empty line: false for the empty body
    (simple) and in the corner case of C03 (relaxed). *)
Theorem C05_simple_empty_line_end_iff : forall chunks out,
  canonicalize_body Simple chunks = Val out ->
  (ends_in_empty_line out <-> concat chunks = []).
Proof.
  intros chunks out H. split.
  - intros E. destruct (concat chunks) as [|c s] eqn:C; [reflexivity|]. exfalso.
    refine (simple_body_no_empty_end chunks out H _ E). rewrite C. discriminate.
  - intros C. rewrite simple_body_spec, C in H. injection H as <-. left. reflexivity.
Qed.
Print Assumptions C05_simple_empty_line_end_iff.

Theorem C05_relaxed_empty_line_end_iff : forall chunks out,
  canonicalize_body Relaxed chunks = Val out ->
  (ends_in_empty_line out <-> ends_in_wsp_line (concat chunks) = true).
Proof. exact relaxed_body_empty_end. Qed.
Print Assumptions C05_relaxed_empty_line_end_iff.

(** Idempotence holds exactly outside the corner cases. *)
Theorem C05_simple_idempotent_iff : forall chunks out,
  canonicalize_body Simple chunks = Val out ->
  (canonicalize_body Simple [out] = Val out <-> strip_trailing_crlfs (concat chunks) <> []).
Proof. exact simple_idempotent. Qed.
Print Assumptions C05_simple_idempotent_iff.

Theorem C05_relaxed_idempotent_iff : forall chunks out,
  canonicalize_body Relaxed chunks = Val out ->
  (canonicalize_body Relaxed [out] = Val out <-> ends_in_wsp_line (concat chunks) = false).
Proof. exact relaxed_idempotent. Qed.
Print Assumptions C05_relaxed_idempotent_iff.

Theorem C05_idempotent_refuted : forall alg, exists chunks out,
  canonicalize_body alg chunks = Val out /\ canonicalize_body alg [out] <> Val out.
Proof.
  intros []; [exists [[13; 10]], []|exists [[32]], [13; 10]]; vm_compute; split; congruence.
Qed.
Print Assumptions C05_idempotent_refuted.

(** C06 *)
Theorem C06_relaxed_header : forall name value, valid_name name ->
  canonicalize_header Relaxed name value = lower name ++ [58] ++ unwords (words value).
Proof. exact (canonicalize_header_spec Relaxed). Qed.
Print Assumptions C06_relaxed_header.

Theorem C06_same_form_iff : forall n1 v1 n2 v2, valid_name n1 -> valid_name n2 ->
  (canonicalize_header Relaxed n1 v1 = canonicalize_header Relaxed n2 v2
   <-> lower n1 = lower n2 /\ words v1 = words v2).
Proof. exact relaxed_header_iff. Qed.
Print Assumptions C06_same_form_iff.

Theorem C06_refolding : forall name a b ws1 ws2, valid_name name ->
  ws1 <> [] -> ws2 <> [] -> forallb white ws1 = true -> forallb white ws2 = true ->
  canonicalize_header Relaxed name (a ++ ws1 ++ b) = canonicalize_header Relaxed name (a ++ ws2 ++ b).
Proof.
  intros name a b ws1 ws2 Hn H1 H2 H3 H4. apply relaxed_header_iff; auto. split; auto.
  apply words_refold; auto.
Qed.
Print Assumptions C06_refolding.

Theorem C06_idempotent : forall name value out v', valid_name name ->
  canonicalize_header Relaxed name value = out -> out = lower name ++ [58] ++ v' ->
  canonicalize_header Relaxed (lower name) v' = out.
Proof. intros name value. exact (proj2 (relaxed_header_idempotent name value)). Qed.
Print Assumptions C06_idempotent.

Example C06_example :
  valid_name (lit "SubJect")
  /\ canonicalize_header Relaxed (lit "SubJect") ([32; 9] ++ lit "a  b" ++ [13; 10; 9] ++ lit "c" ++ [13; 10])
     = lit "subject:a b c".
Proof. split; [split; [easy|repeat constructor; easy]|reflexivity]. Qed.

(** C07 *)
Theorem C07_simple_header : forall name value, valid_name name ->
  canonicalize_header Simple name value = name ++ [58] ++ value.
Proof. exact (canonicalize_header_spec Simple). Qed.
Print Assumptions C07_simple_header.

Theorem C07_simple_injective : forall n1 v1 n2 v2, valid_name n1 -> valid_name n2 ->
  canonicalize_header Simple n1 v1 = canonicalize_header Simple n2 v2 ->
  n1 = n2 /\ v1 = v2.
Proof. intros. apply simple_header_iff; auto. Qed.
Print Assumptions C07_simple_injective.

(** C08.  [header_hash_input] is in [SpecCanon]. *)
Theorem C08_bottom_up_selection : forall alg headers names,
  Forall (fun f => valid_name (fst f)) headers ->
  canonicalize_headers alg headers names = header_hash_input alg headers names.
Proof. exact canonicalize_headers_spec. Qed.
Print Assumptions C08_bottom_up_selection.

Definition C08_headers : list HeaderField :=
  [(lit "From", lit " a"); (lit "To", lit " b"); (lit "FROM", lit " c"); (lit "from", lit " d")].

Example C08_example :
  Forall (fun f => valid_name (fst f)) C08_headers
  /\ contributed C08_headers [] [lit "from"; lit "x"; lit "From"; lit "to"; lit "to"]
     = [(lit "from", lit " d"); (lit "FROM", lit " c"); (lit "To", lit " b")].
Proof.
  split; [|reflexivity]. repeat constructor; try easy.
Qed.

(** C09 *)
Theorem C09_agree_same_input : forall alg h1 h2 names,
  Forall (fun f => valid_name (fst f)) h1 -> Forall (fun f => valid_name (fst f)) h2 ->
  agree_on names h1 h2 ->
  canonicalize_headers alg h1 names = canonicalize_headers alg h2 names.
Proof. exact headers_agree. Qed.
Print Assumptions C09_agree_same_input.

Theorem C09_unsigned_names_irrelevant : forall alg a f b names,
  Forall (fun f => valid_name (fst f)) (a ++ f :: b) ->
  (forall n, In n names -> same_nameb (fst f) n = false) ->
  canonicalize_headers alg (a ++ b) names = canonicalize_headers alg (a ++ f :: b) names.
Proof.
  intros alg a f b names Hv H. apply headers_agree; auto.
  - apply Forall_app in Hv. destruct Hv as [H1 H2]. inversion H2; subst. apply Forall_app. auto.
  - apply agree_unrelated. auto.
Qed.
Print Assumptions C09_unsigned_names_irrelevant.

Theorem C09_instances_above_irrelevant : forall alg extra headers names,
  Forall (fun f => valid_name (fst f)) (extra ++ headers) ->
  (forall n, In n names -> (exists f, In f extra /\ same_nameb (fst f) n = true) ->
     (occurrences n names <= length (filter (fun f => same_nameb (fst f) n) headers))%nat) ->
  canonicalize_headers alg headers names = canonicalize_headers alg (extra ++ headers) names.
Proof.
  intros alg extra headers names Hv H. apply headers_agree; auto.
  - apply Forall_app in Hv. tauto.
  - apply agree_above. auto.
Qed.
Print Assumptions C09_instances_above_irrelevant.

Example C09_example :
  canonicalize_headers Relaxed C08_headers [lit "From"]
  = canonicalize_headers Relaxed ((lit "From", lit " evil") :: (lit "X", lit " y") :: C08_headers) [lit "From"]
  /\ canonicalize_headers Relaxed C08_headers [lit "From"] <> [].
Proof. split; [reflexivity|discriminate]. Qed.
