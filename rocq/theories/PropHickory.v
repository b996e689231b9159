(** Property C59: lookups with the Hickory resolver. *)

From Coq Require Import String List Permutation.
From Verif Require Import Base Utf8 Canon BodyHash Header Domain Signature KeyRecord Crypto TagList Format Sign Verify Hickory
  SpecText SpecCanon SpecHash SpecHeader SpecTag SpecDomain SpecSig SpecRecord SpecFormat SpecSign SpecOutput SpecVerify SpecHickory
  VerifyRun VerifyFacts HickoryProofs Lib Sample PropDomain PropSign PropOutput PropVerify.
Import ListNotations.
Open Scope N_scope.

(** ** C59 *)

(** The result of a signature with nothing wrong until its key is looked up, by what
    Hickory says about the name at which the key should be. *)
Theorem C59_no_key : forall E w h headers config chunks rs i name value r s sig p,
  w_resolver w = hickory_resolver h -> world_ok w -> header_fields headers ->
  verify_message E w headers config chunks = Val (Some rs) -> result_for config headers rs i name value r ->
  in_progress E headers config (w_clock w i) value s sig -> lookup_pair E sig p ->
  (hk_from_ascii h (key_name p) = None -> vr_status r = Failure InvalidKeyDomain)
  /\ forall n, hk_from_ascii h (key_name p) = Some n ->
     ((forall j, exists e, hk_txt_lookup h j n = Err e /\ hk_no_records_found h e = true) -> vr_status r = Failure NoKeyFound)
     /\ ((forall j, hk_txt_lookup h j n = Ok []) -> vr_status r = Failure NoKeyFound)
     /\ (forall k x, (forall j, exists e, hk_txt_lookup h j n = Err e /\ hk_no_records_found h e = false /\ hk_io_kind h e = k) ->
           lookup_error k x -> vr_status r = Failure x).
Proof. exact hickory_no_key. Qed.
Print Assumptions C59_no_key.

(** Otherwise the records are tried whose text is the concatenation of the
    character strings of each TXT record. *)
Theorem C59_records : forall E w h headers config chunks rs i name value r s sig p n txts,
  w_resolver w = hickory_resolver h -> world_ok w -> header_fields headers ->
  verify_message E w headers config chunks = Val (Some rs) -> result_for config headers rs i name value r ->
  in_progress E headers config (w_clock w i) value s sig -> lookup_pair E sig p ->
  hk_from_ascii h (key_name p) = Some n -> (forall j, hk_txt_lookup h j n = Ok txts) -> txts <> [] ->
  let accepts strings k := record_accepts E headers config sig name s (Ok (concat strings)) k in
  vr_signature r = Some sig /\
  ((exists before strings after k, consulted txts = before ++ strings :: after
      /\ Forall (fun x => forall k', ~ accepts x k') before /\ accepts strings k
      /\ vr_status r = body_status E config sig (concat chunks) /\ vr_key_record r = Some k)
   \/ (exists before strings e, consulted txts = before ++ [strings]
      /\ Forall (fun x => forall k', ~ accepts x k') (consulted txts)
      /\ record_outcome E headers config sig name s (Ok (concat strings)) (vr_key_record r) (Some e) /\ vr_status r = Failure e)).
Proof. exact hickory_records. Qed.
Print Assumptions C59_records.

(** How records are split into character strings has no effect. *)
Theorem C59_split : forall E w w' h h' headers config chunks, w_resolver w = hickory_resolver h -> w_resolver w' = hickory_resolver h' ->
  world_ok w -> world_ok w' -> header_fields headers -> (forall i, w_clock w i = w_clock w' i) -> same_dns h h' ->
  verify_message E w headers config chunks = verify_message E w' headers config chunks.
Proof. exact hickory_split. Qed.
Print Assumptions C59_split.

(** a resolver that splits the sample records, knows one name, and fails for names
    that begin with a dot *)
Definition sample_hickory (pieces : list (list (list byte))) : Hickory :=
  mkHickory str N (fun s => match s with 46 :: _ => None | _ => Some s end)
    (fun _ n => if leqb n sample_key_name then Ok pieces else Err 3)
    (fun e => e =? 3) (fun _ => TimedOut) (fun _ _ => 5).
Definition split_records : list (list (list byte)) := [[lit "ju"; lit "nk"]; [lit "p=A"; []; lit "Q"; lit "c="]].
Definition hickory_world (h : Hickory) : World := mkWorld (hickory_resolver h) (fun _ => 1003) (@rev _) (@rev _).
Definition hickory_results (h : Hickory) : list VerificationResult :=
  match verify_message ascii_env (hickory_world h) signed_headers default_config output_chunks with Val (Some rs) => rs | _ => [] end.

Example C59_example :
  let h := sample_hickory split_records in let h' := sample_hickory (map (fun l => [concat l]) split_records) in
  world_ok (hickory_world h) /\ same_dns h h'
  /\ map vr_status (hickory_results h) = map vr_status (sample_results default_config good_records)
  /\ In Success (map vr_status (hickory_results h))
  /\ map vr_status (hickory_results (sample_hickory [])) = hd Success (map vr_status (hickory_results h)) :: [Failure NoKeyFound; Failure NoKeyFound].
Proof.
  split; [split; intros x; cbn; symmetry; apply Permutation_rev|].
  split; [|split; [vm_compute; reflexivity|split; [vm_compute; auto|vm_compute; reflexivity]]].
  intros j j' name. cbn [sample_hickory hk_from_ascii hk_txt_lookup hk_no_records_found hk_io_kind].
  set (n := match name with 46 :: _ => None | _ => Some name end). destruct n as [n|]; [|exact I].
  destruct (leqb n sample_key_name); [reflexivity|]. auto.
Qed.

(** Lookups take the time that Hickory takes. *)
Theorem C59_time : forall E w h headers config v log t, w_resolver w = hickory_resolver h -> world_ok w -> header_fields headers ->
  verify_header E w headers config = Val (Some (v, log, t)) ->
  t = fold_left (fun t x => t + x) (map (fun '(n, (_, name, _)) => hk_latency h n name) (combine (seq 0 (length log)) log)) 0.
Proof. exact hickory_time. Qed.
Print Assumptions C59_time.

Example C59_time_example : exists v log,
  verify_header ascii_env (hickory_world (sample_hickory split_records)) signed_headers default_config = Val (Some (v, log, 5))
  /\ length log = 1%nat.
Proof. eexists _, _. split; vm_compute; reflexivity. Qed.
