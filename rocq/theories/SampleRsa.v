(** A RSA key of 1024 bits and its encodings, for examples.  It has many primes, so that
    it can be checked here that they are. *)

From Coq Require Import String List Lia ZArith NArith.
From Verif Require Import Base Base64 SpecText SpecRsa Concrete Lib Base64Proofs NumberProofs ConcreteProofs RsaProofs PrimeProofs.
Import ListNotations.
Open Scope N_scope.

(** ** The key *)

Definition sample_primes : list N :=
  [65521; 65519; 65497; 65479; 65449; 65447; 65437; 65423; 65419; 65413; 65407; 65393; 65381; 65371; 65357;
   65353; 65327; 65323; 65309; 65293; 65287; 65269; 65267; 65257; 65239; 65213; 65203; 65183; 65179; 65173;
   65171; 65167; 65147; 65141; 65129; 65123; 65119; 65111; 65101; 65099; 65089; 65071; 65063; 65053; 65033;
   65029; 65027; 65011; 65003; 64997; 64969; 64951; 64937; 64927; 64921; 64919; 64901; 64891; 64879; 64877;
   64871; 64853; 64849; 64817].
Definition sample_n : N := Eval vm_compute in product sample_primes.
Definition sample_e : N := 65537.
Definition sample_d : N :=
  589410337523379087310314617020304846375941191787012372587233205781538701070123105350335864943966224249893955882929234622344079533699320206525370716716348322251858817803689140719833933463510651940398273.

Lemma small_pair : forall ps e d, NoDup ps -> 1 <= e * d ->
  forallb (fun p => (1 <? p) && (p <? 65536) && undivided p (seq 2 256) && ((e * d - 1) mod (p - 1) =? 0)) ps = true ->
  rsa_pair (product ps) e d.
Proof.
  intros ps e d N P X. exists ps. split; [reflexivity|]. split; [exact N|]. split; [exact P|].
  rewrite forallb_forall in X. apply Forall_forall. intros p Hp. specialize (X p Hp). rewrite !Bool.andb_true_iff in X.
  destruct X as (((X1 & X2) & X3) & X4). apply N.ltb_lt in X1, X2. apply N.eqb_eq in X4. split.
  - apply (small_prime p 256); [exact X1|exact X2|exact X3].
  - apply N.mod_divide; [lia|exact X4].
Qed.

Lemma sample_pair : rsa_pair sample_n sample_e sample_d.
Proof.
  change sample_n with (product sample_primes). apply small_pair.
  - apply (NoDup_count_occ' N.eq_dec). intros x. cbn [In sample_primes]. intros X.
    repeat (destruct X as [<-|X]; [vm_compute; reflexivity|]). destruct X.
  - vm_compute. discriminate.
  - vm_compute. reflexivity.
Qed.

Lemma sample_long : 2 ^ 1016 <= sample_n.
Proof. apply N.leb_le. vm_compute. reflexivity. Qed.

Lemma sample_accepted : rsa_accepted sample_n sample_e.
Proof. apply limits_spec. vm_compute. reflexivity. Qed.

(** ** Encodings *)

Definition der_write (tag : byte) (c : list byte) : list byte :=
  let n := N.of_nat (length c) in
  if n <? 128 then tag :: n :: c
  else if n <? 256 then tag :: 129 :: n :: c
  else tag :: 130 :: n / 256 :: n mod 256 :: c.

Lemma der_written : forall tag c, N.of_nat (length c) < 65536 -> der_element tag c (der_write tag c).
Proof.
  intros tag c H. unfold der_write. cbv zeta. destruct (N.ltb_spec (N.of_nat (length c)) 128).
  - apply de_short. lia.
  - destruct (N.ltb_spec (N.of_nat (length c)) 256).
    + apply (de_long tag c [N.of_nat (length c)]); cbn [hd length]; [lia| |lia|lia].
      pose proof (be_byte [] 0 (N.of_nat (length c)) be_nil) as X. rewrite N.mul_0_r, N.add_0_l in X. apply X. unfold is_byte. lia.
    + pose proof (N.div_mod (N.of_nat (length c)) 256 ltac:(lia)) as D. pose proof (N.mod_lt (N.of_nat (length c)) 256 ltac:(lia)) as M.
      set (h := N.of_nat (length c) / 256) in *. set (l := N.of_nat (length c) mod 256) in *.
      apply (de_long tag c [h; l]); cbn [hd length]; [lia| |lia|lia]. rewrite D.
      apply (be_byte [h] h l); [|unfold is_byte; lia].
      pose proof (be_byte [] 0 h be_nil) as X. rewrite N.mul_0_r, N.add_0_l in X. apply X. unfold is_byte. lia.
Qed.

Definition number_bytes (n : N) : list byte := to_be (N.to_nat (N.size n / 8 + 1)) n.
Definition integer_write (n : N) : list byte := der_write 2 (number_bytes n).

Definition number_ok (n : N) : bool :=
  let c := number_bytes n in
  (from_be c =? n) && (hd 0 c <? 128) && match c with 0 :: b :: _ => 128 <=? b | _ => true end && (N.of_nat (length c) <? 65536).

Lemma integer_written : forall n, number_ok n = true -> der_integer n (integer_write n).
Proof.
  intros n H. unfold number_ok in H. cbv zeta in H. rewrite !Bool.andb_true_iff in H. destruct H as (((H1 & H2) & H3) & H4).
  exists (number_bytes n). split; [apply N.eqb_eq in H1; rewrite <- H1 at 2; apply from_big_endian; apply to_be_bytes|].
  split; [|split; [apply N.ltb_lt; exact H2|split]].
  - intros X. apply (f_equal (@length _)) in X. unfold number_bytes in X. rewrite to_be_length in X. cbn in X. lia.
  - intros b c' X. rewrite X in H3. apply N.leb_le. exact H3.
  - apply der_written. apply N.ltb_lt. exact H4.
Qed.

Definition rsa_algorithm : list byte := [6; 9; 42; 134; 72; 134; 247; 13; 1; 1; 1; 5; 0].
Definition public_write (n e : N) : list byte := der_write 48 (integer_write n ++ integer_write e).
Definition info_write (n e : N) : list byte :=
  der_write 48 (der_write 48 rsa_algorithm ++ der_write 3 (0 :: public_write n e)).
Definition private_write (n e d : N) : list byte :=
  der_write 48 (concat (map integer_write [1; n; e; d])).
Definition private_info_write (n e d : N) : list byte :=
  der_write 48 (integer_write 0 ++ der_write 48 rsa_algorithm ++ der_write 4 (private_write n e d)).

Definition sample_public : list byte := Eval vm_compute in public_write sample_n sample_e.
Definition sample_info : list byte := Eval vm_compute in info_write sample_n sample_e.
Definition sample_private_info : list byte := Eval vm_compute in private_info_write sample_n sample_e sample_d.

Lemma sample_public_der : rsa_public_der sample_n sample_e sample_public.
Proof.
  exists (integer_write sample_n), (integer_write sample_e).
  split; [apply integer_written; vm_compute; reflexivity|]. split; [apply integer_written; vm_compute; reflexivity|].
  change sample_public with (public_write sample_n sample_e). apply der_written. apply N.ltb_lt. vm_compute. reflexivity.
Qed.

Lemma sample_info_der : rsa_info_der sample_n sample_e sample_info.
Proof.
  exists sample_public, (der_write 48 rsa_algorithm), (der_write 3 (0 :: sample_public)).
  split; [exact sample_public_der|]. split; [apply der_written; apply N.ltb_lt; vm_compute; reflexivity|].
  split; [apply der_written; apply N.ltb_lt; vm_compute; reflexivity|].
  change sample_info with (der_write 48 (der_write 48 rsa_algorithm ++ der_write 3 (0 :: sample_public))).
  apply der_written. apply N.ltb_lt. vm_compute. reflexivity.
Qed.

Lemma sample_private_der : rsa_private_info_der sample_n sample_e sample_d sample_private_info.
Proof.
  exists (integer_write 0), (der_write 48 rsa_algorithm), (private_write sample_n sample_e sample_d),
    (der_write 4 (private_write sample_n sample_e sample_d)).
  split; [apply integer_written; vm_compute; reflexivity|]. split; [apply der_written; apply N.ltb_lt; vm_compute; reflexivity|].
  split.
  { exists 1, (map integer_write [1; sample_n; sample_e; sample_d]), []. split; [|split; [constructor|]].
    - repeat (constructor; [apply integer_written; vm_compute; reflexivity|]). constructor.
    - rewrite app_nil_r. apply der_written. apply N.ltb_lt. vm_compute. reflexivity. }
  split; [apply der_written; apply N.ltb_lt; vm_compute; reflexivity|].
  change sample_private_info with (private_info_write sample_n sample_e sample_d).
  apply der_written. apply N.ltb_lt. vm_compute. reflexivity.
Qed.

(** PEM, in lines of 64 *)
Definition pem_lines (bs : list byte) : list str := let s := encode_base64 bs in groups (length s) 64 s.
Definition pem_write (label : str) (bs : list byte) : str :=
  lit "-----BEGIN " ++ label ++ lit "-----" ++ [10] ++ flat_map (fun l => l ++ [10]) (pem_lines bs)
  ++ lit "-----END " ++ label ++ lit "-----" ++ [10].

Lemma pem_written : forall label bs, Forall is_byte bs -> concat (pem_lines bs) = encode_base64 bs ->
  forallb (fun l => Nat.ltb 0 (length l) && Nat.leb (length l) 64) (pem_lines bs) = true ->
  pem_text label bs (pem_write label bs).
Proof.
  intros label bs F H L. exists (pem_lines bs). split; [rewrite H; apply encode_base64_spec; exact F|]. split; [|reflexivity].
  rewrite forallb_forall in L. apply Forall_forall. intros l Hl. specialize (L l Hl). apply andb_prop in L. destruct L as (A & B).
  apply Nat.ltb_lt in A. apply Nat.leb_le in B. lia.
Qed.

Definition sample_pem_text : str := Eval vm_compute in pem_write (lit "PRIVATE KEY") sample_private_info.

Lemma sample_pem_written : pem_text (lit "PRIVATE KEY") sample_private_info sample_pem_text.
Proof.
  change sample_pem_text with (pem_write (lit "PRIVATE KEY") sample_private_info). apply pem_written.
  - apply all_bytes. vm_compute. reflexivity.
  - vm_compute. reflexivity.
  - vm_compute. reflexivity.
Qed.

(** the key record *)
Definition sample_key_record : str := Eval vm_compute in lit "v=DKIM1; k=rsa; p=" ++ encode_base64 sample_info.

(** ** A key of 1017 bits *)

Definition short_primes : list N := Eval vm_compute in 367 :: firstn 63 sample_primes.
Definition short_n : N := Eval vm_compute in product short_primes.
Definition short_d : N :=
  89745966766832542723523611555046160615871579857836792826438658823820880483381225838091269939958827778839210827395001029350636889470490699696906284233425882328551787734184316584466247468713603798273.

Lemma short_pair : rsa_pair short_n sample_e short_d.
Proof.
  change short_n with (product short_primes). apply small_pair.
  - apply (NoDup_count_occ' N.eq_dec). intros x. cbn [In short_primes]. intros X.
    repeat (destruct X as [<-|X]; [vm_compute; reflexivity|]). destruct X.
  - vm_compute. discriminate.
  - vm_compute. reflexivity.
Qed.

Lemma short_bits : 2 ^ 1016 <= short_n < 2 ^ 1017.
Proof. split; [apply N.leb_le|apply N.ltb_lt]; vm_compute; reflexivity. Qed.

Lemma short_accepted : rsa_accepted short_n sample_e.
Proof. apply limits_spec. vm_compute. reflexivity. Qed.

Definition short_public : list byte := Eval vm_compute in public_write short_n sample_e.

Lemma short_public_der : rsa_public_der short_n sample_e short_public.
Proof.
  exists (integer_write short_n), (integer_write sample_e).
  split; [apply integer_written; vm_compute; reflexivity|]. split; [apply integer_written; vm_compute; reflexivity|].
  change short_public with (public_write short_n sample_e). apply der_written. apply N.ltb_lt. vm_compute. reflexivity.
Qed.

Definition short_key_record : str := Eval vm_compute in lit "p=" ++ encode_base64 short_public.
