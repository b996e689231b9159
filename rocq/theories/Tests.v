(** The unit tests of the library, run against the model.  These are tests, not
    proofs: they check that the model computes what the library's own tests say. *)

From Coq Require Import String List.
From Verif Require Import Base Utf8 Canon BodyHash Parse Header QP Base64 TagList Domain Signature
  KeyRecord Crypto Format Sign Verify Sample.

Local Notation "a =! b" := (a = b) (at level 70, only parsing).
Ltac t := vm_compute; reflexivity.

Definition cat (l : list str) : str := List.concat l.
Definition R : str := CRLF.

(** src/canonicalize.rs:416-443 *)
Example canonicalize_headers_relaxed_ok :
  canonicalize_headers Relaxed
    [(lit "from", cat [lit " Good "; [TAB]; lit " "]); (lit "to", lit " see   me");
     (lit "Date", cat [lit " Fri 24"; R; [TAB]; lit "foo"]); (lit "To", lit " another one")]
    [lit "to"; lit "from"; lit "to"]
  = cat [lit "to:another one"; R; lit "from:Good"; R; lit "to:see me"; R].
Proof. t. Qed.

Example canonicalize_header_relaxed_dkim_sig :
  canonicalize_header Relaxed (lit "Dkim-Signature") (crlf_lines (lit "v=1; a=rsa-sha256; d=example.net; s=brisbane;
  c=simple; q=dns/txt; i=@eng.example.net;
  h=from:to:subject:date;
  bh=MTIzNDU2Nzg5MDEyMzQ1Njc4OTAxMjM0NTY3ODkwMTI=;
  b=dzdV...   "))
  = lit "dkim-signature:v=1; a=rsa-sha256; d=example.net; s=brisbane; c=simple; q=dns/txt; i=@eng.example.net; h=from:to:subject:date; bh=MTIzNDU2Nzg5MDEyMzQ1Njc4OTAxMjM0NTY3ODkwMTI=; b=dzdV...".
Proof. t. Qed.

Example body_canon_simple_ok :
  canonicalize_body Simple
    [cat [lit "well  hello "; R]; cat [R; [CR]; lit "? what's up "; R; R]; R]
  = Val (cat [lit "well  hello "; R; R; [CR]; lit "? what's up "; R]).
Proof. t. Qed.

Example body_canon_relaxed_basic :
  canonicalize_body Relaxed
    [cat [lit "well  hello "; R]; cat [R; lit " what's up "; R; R]; R]
  = Val (cat [lit "well hello"; R; R; lit " what's up"; R]).
Proof. t. Qed.

Example body_canon_relaxed_small_chunks :
  canonicalize_body Relaxed
    [lit "well "; lit " hello "; [CR]; [LF; CR]; cat [[LF]; lit " what's up "; R; R]; R]
  = Val (cat [lit "well hello"; R; R; lit " what's up"; R]).
Proof. t. Qed.

Example body_canon_relaxed_initial_empty_lines :
  canonicalize_body Relaxed
    [cat [R; R]; cat [[CR]; lit "a "; [CR]]; cat [[LF]; lit "b  "]; lit "c"]
  = Val (cat [R; R; [CR]; lit "a"; R; lit "b c"; R]).
Proof. t. Qed.

(** src/message_hash.rs tests *)
Definition key_simple : BodyHasherKey := (None, Sha256, Simple).
Definition key_relaxed : BodyHasherKey := (None, Sha256, Relaxed).
Definition build (f : bool) (ks : list BodyHasherKey) : BodyHasher :=
  let b := fold_left bhb_register ks (bhb_new f) in bhb_build b (bhb_registrations b).
Definition run (f : bool) (ks : list BodyHasherKey) (chunks : list (list byte)) :=
  let! (sts, bh) := hash_chunks (build f ks) chunks in
  let! rs := bh_finish toy_hash bh in
  Val (sts, map (results_get rs) ks).

Example body_hasher_simple :
  run false [key_simple; key_relaxed] [cat [lit "abc "; R]]
  = Val ([Interested], [Some (Ok (toy_hash Sha256 (cat [lit "abc "; R]), 6));
                        Some (Ok (toy_hash Sha256 (cat [lit "abc"; R]), 5))]).
Proof. t. Qed.

Example body_hasher_fail_on_partial :
  run true [(Some 4, Sha256, Relaxed)] [lit "ab"; lit "c"]
  = Val ([Interested; Interested], [Some (Err InputTruncated)]).
Proof. t. Qed.

Example body_hasher_hash_with_length :
  run false [(Some 28, Sha256, Simple)]
    [cat [lit "well  hello "; R]; cat [R; lit " what's up "; [CR]]; cat [[LF]; R]]
  = Val ([Interested; Interested; Done],
         [Some (Ok (toy_hash Sha256 (cat [lit "well  hello "; R; R; lit " what's up "; [CR]]), 28))]).
Proof. t. Qed.

(** src/parse.rs tests *)
Example strip_fws_ok :
  map strip_fws [[]; lit "x"; lit " x"; R; lit " " ++ R; cat [lit " "; R; lit "x"];
                 cat [lit " "; R; lit " "]; cat [lit " "; R; lit " x"]; R ++ lit "x"; R ++ lit " x"]
  = [None; None; Some (lit "x"); None; Some R; Some (R ++ lit "x"); Some []; Some (lit "x"); None;
     Some (lit "x")].
Proof. t. Qed.

Example rstrip_fws_ok :
  map rstrip_fws [[]; lit "x"; lit "x "; R; cat [lit "x"; R; lit " "]; cat [lit "x "; R; lit " "]]
  = [None; None; Some (lit "x"); None; Some (lit "x"); Some (lit "x")].
Proof. t. Qed.

(** src/quoted_printable.rs tests *)
Definition qp_bytes : list byte := cat [lit "a=|; b"; [10; 240; 159; 143; 160; 254]; lit "c"].
Example encode_basic :
  (qp_encode qp_bytes None, qp_encode qp_bytes (Some 124), qp_encode_ascii_only qp_bytes None,
   qp_encode_ascii_only qp_bytes (Some 124))
  = (u "a=3D|=3B=20b=0A🏠=FEc", u "a=3D=7C=3B=20b=0A🏠=FEc", lit "a=3D|=3B=20b=0A=F0=9F=8F=A0=FEc",
     lit "a=3D=7C=3B=20b=0A=F0=9F=8F=A0=FEc").
Proof. t. Qed.

Example decode_basic :
  map qp_decode
    [[]; [TAB]; cat [[TAB]; R; [TAB]]; lit " ab "; lit " ab cd "; cat [lit " ab"; R; lit " cd "];
     u "abc我"; cat [[TAB]; R]; cat [[TAB]; R; [TAB]; R; [TAB]]; lit "ab;cd"]
  = [Val (Some []); Val (Some []); Val (Some []); Val (Some (lit "ab")); Val (Some (lit "abcd"));
     Val (Some (lit "abcd")); Val (Some (lit "abc" ++ [230; 136; 145])); Val None; Val None; Val None].
Proof. t. Qed.

Example decode_tag_list :
  qp_decode (cat [lit "=20v=20 =3     D=20=FF1="; R; [TAB];
                  u "3B我=0D=0A=09a=3Drsa-sha256=3B=20s=3Dbrisbane=3B"])
  = Val (Some (cat [lit " v = "; [255]; lit "1;"; [230; 136; 145]; R; [TAB];
                    lit "a=rsa-sha256; s=brisbane;"])).
Proof. t. Qed.

Example decode_qp_section_ok :
  decode_qp_section (u " wha i☮ ef o=92fj") = Val (Some (cat [lit " wha i☮ ef o"; [146]; lit "fj"])).
Proof. t. Qed.

(** src/tag_list.rs tests *)
Example tag_list_from_str_ok :
  match tag_list_from_str (u (" v = 1 ; a=rsa-sha256;d=example.net; s=brisbane;")%string
    ++ crlf_lines (u "
  c=simple; q=dns/txt; i=中文@eng.example.net;
  t=1117574938; x=1118006938;
  h=from:to:subject:date;
  z=From:foo@eng.example.net|To:joe@example.com|
   Subject:demo=20run|Date:July=205,=202005=203:44:08=20PM=20-0700
   ;
  bh=MTIzNDU2Nzg5MDEyMzQ1Njc4OTAxMjM0NTY3ODkwMTI=;
  b=dzdVyOfAKCdLXdJOc9G2q8LoXSlEniSbav+yuU4zGeeruD00lszZVoG4ZHRNiYzR")) with
  | Ok tags => map tag_name tags
  | Err _ => []
  end = map lit ["v"; "a"; "d"; "s"; "c"; "q"; "i"; "t"; "x"; "h"; "z"; "bh"; "b"]%string.
Proof. t. Qed.

Example parse_colon_separated_value_ok :
  (parse_colon_separated_value (cat [lit "ab:"; R; [TAB]; lit "c"; R; [TAB]; lit "d"; R; [TAB]; lit ":e"]),
   parse_colon_separated_value [])
  = ([lit "ab"; cat [lit "c"; R; [TAB]; lit "d"]; lit "e"], [[]]).
Proof. t. Qed.

Example parse_base64_value_ok :
  (parse_base64_value [], parse_base64_value (lit "TQ==")) = (Some [], Some (lit "M")).
Proof. t. Qed.

Example parse_quoted_printable_header_field_ok :
  parse_quoted_printable_header_field
    (cat [lit " Date:=20July=205,=0D=0A=092005=20"; R; [TAB]; lit "3:44:08=20PM=20-0700 "])
  = Val (Some (lit "Date", cat [lit " July 5,"; R; [TAB]; lit "2005 3:44:08 PM -0700"])).
Proof. t. Qed.

(** src/header.rs tests *)
Example field_name_ok :
  map (fun s => is_some (field_name_new (lit s))) ["abc"; ""; "abc "; "a:c"]%string
  = [true; false; false; false].
Proof. t. Qed.

Example field_body_ok_test :
  map (fun s => is_some (field_body_new s))
    [[]; lit "abc"; cat [lit " ab"; R; [TAB]; lit "cd "]; cat [R; [TAB]; lit "a"]; lit "  ";
     cat [lit " "; R; lit "a"]; cat [lit " "; R; R; lit " a"]; cat [lit " "; R; lit " "; R; lit " a"];
     cat [lit " "; [CR]; lit "a"]; cat [lit " "; [LF]; lit "a"]; lit " abc" ++ R]
  = [true; true; true; true; true; false; false; false; false; false; false].
Proof. t. Qed.

Example split_crlf_ok :
  map split_crlf
    [[]; lit "a"; [CR]; [CR] ++ lit "b"; R; lit "a" ++ R; R ++ lit "b"; R ++ R;
     cat [lit "ab"; R; R; lit "c"; [CR]; R; [CR]; lit "de"; [CR]]]
  = [[[]]; [lit "a"]; [[CR]]; [[CR] ++ lit "b"]; [[]; []]; [lit "a"; []]; [[]; lit "b"]; [[]; []; []];
     [lit "ab"; []; lit "c" ++ [CR]; cat [[CR]; lit "de"; [CR]]]].
Proof. t. Qed.

(** src/signature.rs tests *)
Example domain_name_ok :
  (forallb (fun s => match domain_new sample_idna (u s) with Val (Some _) => true | _ => false end)
    ["com"; "com123"; "example.com"; "_abc.example.com"; "中国"; "example.中国"; "☕.example.中国";
     "xn--53h.example.xn--fiqs8s"]%string,
   forallb (fun s => match domain_new sample_idna (u s) with Val None => true | _ => false end)
    [""; "-com"; "c,m"; "c;m"; "123"; "com."; "example..com"; "example-.com"; "example.123";
     "_$@.example.com"; "example.com."; "ex mple.com"; "xn---y.example.com"]%string)
  = (true, true).
Proof. t. Qed.

Example domain_name_eq_or_subdomain :
  map (fun p => eq_or_subdomain_of sample_idna (u (fst p)) (u (snd p)))
    [("eXaMpLe.CoM", "example.com"); ("mAiL.eXaMpLe.CoM", "example.com");
     ("XaMpLe.CoM", "example.com"); ("meXaMpLe.CoM", "example.com");
     ("例子.xn--fiqs8s", "xn--fsqu00a.中国"); ("☕.例子.xn--fiqs8s", "xn--fsqu00a.中国")]%string
  = [Val true; Val true; Val false; Val false; Val true; Val true].
Proof. t. Qed.

Example identity_ok :
  map (fun s => match identity_new sample_idna (u s) with Val (Some _) => true | _ => false end)
    ["我@☕.example.中国"; """我""@☕.example.中国"; "me@@☕.example.中国"]%string
  = [true; true; false].
Proof. t. Qed.

Example identity_repr_ok :
  forallb (fun s => match identity_new sample_idna (u s) with
                    | Val (Some i) => leqb (identity_display i) (u s) | _ => false end)
    ["@example.org"; "Me@Example.Org"; "我.x#!@example.中国"; """x #$我\""""@example.org"]%string
  = true.
Proof. t. Qed.

Definition b64 (s : string) : list byte := unwrap_or (decode_base64 (lit s)) [].

Example rfc_example_signature :
  sig_from_str false sample_idna (crlf_lines (u " v=1; a=rsa-sha256; d=example.net; s=brisbane;
   c=simple; q=dns/txt; i=@eng.example.net;
   t=1117574938; x=1118006938;
   h=from:to:subject:date;
   z=From:foo@eng.example.net|To:joe@example.com|
    Subject:demo=20run|Date:July=205,=202005=203:44:08=20PM=20-0700;
   bh=MTIzNDU2Nzg5MDEyMzQ1Njc4OTAxMjM0NTY3ODkwMTI=;
   b=dzdVyOfAKCdLXdJOc9G2q8LoXSlEniSbav+yuU4zGeeruD00lszZVoG4ZHRNiYzR"))
  = Val (Ok (mkSig RsaSha256
      (b64 "dzdVyOfAKCdLXdJOc9G2q8LoXSlEniSbav+yuU4zGeeruD00lszZVoG4ZHRNiYzR")
      (b64 "MTIzNDU2Nzg5MDEyMzQ1Njc4OTAxMjM0NTY3ODkwMTI=")
      (mkCanon Simple Simple) (lit "example.net")
      [lit "from"; lit "to"; lit "subject"; lit "date"]
      (Some (mkIdentity None (lit "eng.example.net"))) None (lit "brisbane")
      (Some 1117574938) (Some 1118006938)
      [(lit "From", lit "foo@eng.example.net"); (lit "To", lit "joe@example.com");
       (lit "Subject", lit "demo run"); (lit "Date", lit "July 5, 2005 3:44:08 PM -0700")] [])).
Proof. t. Qed.

Example complicated_i18n_example_signature :
  sig_from_str false sample_idna (crlf_lines (u " v = 1 ; a=rsa-sha256;d=example.net; s=brisbane;
   c=simple; q=dns/txt; i=中文=40en
    g.example =2E net;
   t=1117574938; x=1118006938;  y= curious
    value; zz=;
   h=from:to:subject:date;
   bh=MTIzNDU2Nzg5MDEyMzQ1Njc4OTAxMjM0NTY3ODkwMTI=;
   b=dzdVyOfAKCdLXdJOc9G2q8LoXSlEniSbav+yuU4zGeeruD00lszZVoG4ZHRNiYzR"))
  = Val (Ok (mkSig RsaSha256
      (b64 "dzdVyOfAKCdLXdJOc9G2q8LoXSlEniSbav+yuU4zGeeruD00lszZVoG4ZHRNiYzR")
      (b64 "MTIzNDU2Nzg5MDEyMzQ1Njc4OTAxMjM0NTY3ODkwMTI=")
      (mkCanon Simple Simple) (lit "example.net")
      [lit "from"; lit "to"; lit "subject"; lit "date"]
      (Some (mkIdentity (Some (u "中文")) (lit "eng.example.net"))) None (lit "brisbane")
      (Some 1117574938) (Some 1118006938) []
      [(lit "y", crlf_lines (lit "curious
    value")); (lit "zz", [])])).
Proof. t. Qed.

(** src/record.rs tests *)
Example dkim_key_record_from_tag_list_ok :
  record_from_str false (lit "v=DKIM1; p=YWJj; s = email; n = highly=20interesting;")
  = Val (Ok (mkKeyRecord (all_hash_algs false) Rsa (Some (lit "highly interesting")) (lit "abc")
               [SvcEmail] [] [])).
Proof. t. Qed.

Example dkim_key_record_from_str_broken :
  match record_from_str false (lit "v=DKIM1; h=sha256; k=rsa;
	  p=MIIBIjANBgkqhkiG9w0BAQEFAAOCAQ8AMIIBCgKCAQEAxjVprCb") with
  | Val (Err _) => true | _ => false end = true.
Proof. t. Qed.

(** src/signer/mod.rs tests *)
Example select_headers_ok :
  select_headers (map (fun n => (lit n, [])) ["From"; "Aa"; "Bb"; "Aa"; "Dd"]%string)
    (fun n => existsb (name_eqb n) (map lit ["from"; "aa"; "bb"; "cc"]%string))
  = map lit ["Aa"; "Bb"; "Aa"; "From"]%string.
Proof. t. Qed.

(** src/signer/format.rs tests *)
Example format_tag_h_ok :
  format_tag_h ([], 0%nat) (mkFmt 10 (lit "  ") false false) [lit "Ribbit"]
  = Val (lit " h=Ribbit;", 10%nat).
Proof. t. Qed.

Example format_tag_z_ok :
  format_tag_z ([], 0%nat) (mkFmt 10 (lit " ") false false)
    [(lit "From", lit " Me <x@gluet.ch>"); (lit "To", lit " ♥")]
  = Val (cat [lit " z=From:=2"; R; lit " 0Me=20<x@"; R; lit " gluet.ch>"; R; u " |To:=20♥;"], 10%nat).
Proof. t. Qed.

(** src/verifier/header.rs tests *)
Definition hs (s : string) : list HeaderField :=
  match header_fields_from_str (u s) with Some h => h | None => [] end.

Example find_signatures_empty :
  find_signatures toy_env (hs "From: me
To: you
") default_config (fun _ => 0) = Val None.
Proof. t. Qed.

Example find_signatures_ok :
  match find_signatures toy_env (hs "a: aaa
dkim-signature: broken~~
b: bb
dkim-signature: v=1; d=example.com; s=sel; a=rsa-sha256;
  h=From:To; bh=YWJjCg==; b=ZGVmCg==;
dkim-signature: v=1; d=example.com; s=sel; a=rsa-sha256;
  h=From:To; i=@example.org; bh=YWJjCg==; b=ZGVmCg==;
c: ccc cc
dkim-signature: v=2; d=example.com; s=sel; x=y
") (mkConfig 10 3 [] [lit "From"] 1024 false false false false 300 None) (fun _ => 0) with
  | Val (Some ts) => map (fun t => match vt_status t with
                                   | Failed (DkimSignatureFormat e) => Some (se_kind e)
                                   | Failed _ => Some EUtf8Encoding
                                   | _ => None end) ts
  | _ => []
  end = [Some ETagListFormat; None; Some EDomainMismatch].
Proof. t. Qed.

Example validate_signed_headers_ok :
  map (fun signed => validate_signed_headers (map (fun n => (lit n, [])) ["a"; "b"; "a"; "c"]%string)
                       [] [lit "a"; lit "d"] (map lit signed))
    [["a"; "b"; "a"; "a"]; ["a"; "b"; "a"]; ["a"; "b"]]%string
  = [None; None; Some (Policy UnsignedHeaderOccurrence)].
Proof. t. Qed.

(** src/verifier/verify.rs:132-137 *)
Example make_original_dkim_sig_basic :
  map (fun s => make_original_dkim_sig (lit s))
    [" a = 1 ; b = 2 ; c = 3 "; " a = 1 ; b = 2 ;"; " a = 1 ; b = 2 "; " a = 1 ; b ="]%string
  = map lit [" a = 1 ; b =; c = 3 "; " a = 1 ; b =;"; " a = 1 ; b ="; " a = 1 ; b ="]%string.
Proof. t. Qed.

(** src/crypto/hash.rs:127-152 *)
Definition upd (h : CountingHasher) (s : string) : outcome (HashStatus * bool * CountingHasher) :=
  let! (st, h) := ch_update h (lit s) in Val (st, ch_is_done h, h).
Example counting_hasher_ok :
  (let! (s1, d1, h) := upd (ch_new Sha256 (Some 3)) "ab" in
   let! (s2, d2, h) := upd h "" in
   let! (s3, d3, h) := upd h "c" in
   let! (s4, d4, h) := upd h "" in
   let! (s5, d5, h) := upd h "de" in
   Val ([s1; s2; s3; s4; s5], [d1; d2; d3; d4; d5], ch_finish toy_hash h))
  = Val ([AllConsumed; AllConsumed; AllConsumed; AllConsumed; Truncated],
         [false; false; true; true; true], Some (toy_hash Sha256 (lit "abc"), 3))
  /\ (let! (_, _, h) := upd (ch_new Sha256 (Some 3)) "ab" in Val (ch_finish toy_hash h)) = Val None.
Proof. split; t. Qed.
