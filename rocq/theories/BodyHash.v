(** Model of src/crypto/hash.rs and src/message_hash.rs.  Definitions only.

    A streaming digest is represented by the list of bytes it has been fed:
    [DynDigest::update] appends, [finalize] applies the digest function
    [hash : HashAlg -> list byte -> list byte], a parameter. *)

From Verif Require Import Base Utf8 Canon.

(** src/crypto/mod.rs:130-137 [HashAlgorithm]; [Sha1] exists only with feature
    [pre-rfc8301] *)
Inductive HashAlg := Sha256 | Sha1.

Definition hash_alg_eqb (a b : HashAlg) : bool :=
  match a, b with
  | Sha256, Sha256 | Sha1, Sha1 => true
  | _, _ => false
  end.

(** length of a byte slice as [usize] *)
Definition len (bs : list byte) : N := N.of_nat (length bs).

(** src/crypto/hash.rs:57-62 [HashStatus] *)
Inductive HashStatus := AllConsumed | Truncated.

(** src/crypto/hash.rs:65-69 [CountingHasher] *)
Record CountingHasher := mkCH {
  ch_alg : HashAlg;
  ch_data : list byte;        (* what the digest has been fed *)
  ch_length : option N;
  ch_bytes_written : N
}.

(** src/crypto/hash.rs:72-84 [new] *)
Definition ch_new (alg : HashAlg) (length : option N) : CountingHasher := mkCH alg [] length 0.

(** src/crypto/hash.rs:86-110 [update] *)
Definition ch_update (h : CountingHasher) (bytes : list byte) : outcome (HashStatus * CountingHasher) :=
  match ch_length h with
  | Some n =>
      if ch_bytes_written h <=? n then
        let left := n - ch_bytes_written h in
        if len bytes <=? left then
          Val (AllConsumed,
               mkCH (ch_alg h) (ch_data h ++ bytes) (ch_length h) (ch_bytes_written h + len bytes))
        else
          let partial := firstn (N.to_nat left) bytes in
          Val (Truncated,
               mkCH (ch_alg h) (ch_data h ++ partial) (ch_length h)
                    (ch_bytes_written h + len partial))
      else Panic
  | None =>
      Val (AllConsumed,
           mkCH (ch_alg h) (ch_data h ++ bytes) (ch_length h) (ch_bytes_written h + len bytes))
  end.

(** src/crypto/hash.rs:122-124 [is_done] *)
Definition ch_is_done (h : CountingHasher) : bool :=
  match ch_length h with
  | Some n => n =? ch_bytes_written h
  | None => false
  end.

(** src/message_hash.rs:223-226 [BodyHashError] *)
Inductive BodyHashError := InsufficientInput | InputTruncated.

(** src/message_hash.rs:240 [BodyHashResult] *)
Definition BodyHashResult := result (list byte * N) BodyHashError.

Section WithHash.
Variable hash : HashAlg -> list byte -> list byte.

(** src/crypto/hash.rs:27-41 [digest] *)
Definition digest (alg : HashAlg) (bytes : list byte) : list byte := hash alg bytes.

(** src/crypto/hash.rs:112-120 [finish]; [None] is [InsufficientInput] *)
Definition ch_finish (h : CountingHasher) : option (list byte * N) :=
  if is_some (ch_length h) && negb (ch_is_done h) then None
  else Some (hash (ch_alg h) (ch_data h), ch_bytes_written h).

(** src/message_hash.rs:32-53 [compute_data_hash] *)
Definition compute_data_hash (hash_alg : HashAlg) (canon_alg : CanonAlg)
    (headers : list HeaderField) (selected : list FieldName)
    (dkim_sig_header_name formatted_value : str) : list byte :=
  let cheaders := canonicalize_headers canon_alg headers selected in
  let cheaders :=
    cheaders ++ canonicalize_header canon_alg dkim_sig_header_name (as_bytes formatted_value) in
  digest hash_alg cheaders.

(** src/message_hash.rs:58-73 [BodyHasherStance] *)
Inductive Stance := Interested | Done.

(** src/message_hash.rs:76 [BodyHasherKey] *)
Definition BodyHasherKey := (option N * HashAlg * CanonAlg)%type.

Definition key_eqb (k1 k2 : BodyHasherKey) : bool :=
  let '(l1, h1, c1) := k1 in
  let '(l2, h2, c2) := k2 in
  match l1, l2 with
  | Some a, Some b => a =? b
  | None, None => true
  | _, _ => false
  end && hash_alg_eqb h1 h2 && canon_alg_eqb c1 c2.

(** src/message_hash.rs:89-92 [BodyHasherBuilder]; the [HashSet] of
    registrations is a list without duplicates *)
Record BodyHasherBuilder := mkBHB {
  bhb_fail_on_truncate : bool;
  bhb_registrations : list BodyHasherKey
}.

(** src/message_hash.rs:95-100 [new] *)
Definition bhb_new (fail_on_partially_hashed_input : bool) : BodyHasherBuilder :=
  mkBHB fail_on_partially_hashed_input [].

(** src/message_hash.rs:102-109 [register_canonicalization] *)
Definition bhb_register (b : BodyHasherBuilder) (k : BodyHasherKey) : BodyHasherBuilder :=
  if existsb (key_eqb k) (bhb_registrations b) then b
  else mkBHB (bhb_fail_on_truncate b) (bhb_registrations b ++ [k]).

(** an entry of the [hashers] map: key, hasher, truncated flag *)
Definition HasherEntry := (BodyHasherKey * (CountingHasher * bool))%type.

(** src/message_hash.rs:131-138 [BodyHasher]; the list order of [bh_hashers] is
    the iteration order of the hash map *)
Record BodyHasher := mkBH {
  bh_fail_on_truncate : bool;
  bh_hashers : list HasherEntry;
  bh_simple : BodyCanon;
  bh_relaxed : BodyCanon
}.

(** src/message_hash.rs:114-116 *)
Definition new_entry (key : BodyHasherKey) : HasherEntry :=
  let '(length, alg, _) := key in (key, (ch_new alg length, false)).

(** src/message_hash.rs:111-124 [build], for an iteration order [order] of the
    registrations (any permutation of them) *)
Definition bhb_build (b : BodyHasherBuilder) (order : list BodyHasherKey) : BodyHasher :=
  mkBH (bhb_fail_on_truncate b) (map new_entry order) (bc_new Simple) (bc_new Relaxed).

(** src/message_hash.rs:147-149 and 187: whether a hasher still wants input *)
Definition entry_active (fail_on_truncate : bool) (hasher : CountingHasher) (truncated : bool) : bool :=
  negb (ch_is_done hasher) || (fail_on_truncate && negb truncated).

(** The lazily computed canonicalized chunk together with its canonicalizer. *)
Record LazyChunk := mkLazy { lz_chunk : option (list byte); lz_canon : BodyCanon }.

(** src/message_hash.rs:153-156 [get_or_insert_with] *)
Definition lazy_chunk (chunk : list byte) (lz : LazyChunk) : outcome (list byte * LazyChunk) :=
  match lz_chunk lz with
  | Some c => Val (c, lz)
  | None =>
      let! (c, bc) := canonicalize_chunk (lz_canon lz) chunk in
      Val (c, mkLazy (Some c) bc)
  end.

(** src/message_hash.rs:151-169: the loop over the (active) hashers; the result
    is the updated entries, both canonicalizers, and [all_done] *)
Fixpoint hash_entries (fot : bool) (chunk : list byte) (ls lr : LazyChunk)
    (es : list HasherEntry) : outcome (list HasherEntry * LazyChunk * LazyChunk * bool) :=
  match es with
  | [] => Val ([], ls, lr, true)
  | (key, (hasher, truncated)) :: es' =>
      if entry_active fot hasher truncated then
        let '(_, _, canon) := key in
        let! (cchunk, ls1, lr1) :=
          match canon with
          | Simple => let! (c, ls1) := lazy_chunk chunk ls in Val (c, ls1, lr)
          | Relaxed => let! (c, lr1) := lazy_chunk chunk lr in Val (c, ls, lr1)
          end in
        let! (status, hasher1) := ch_update hasher cchunk in
        let '(truncated1, done1) :=
          match status with
          | AllConsumed => (truncated, negb (fot || negb (ch_is_done hasher1)))
          | Truncated => (true, true)
          end in
        let! (es1, ls2, lr2, done2) := hash_entries fot chunk ls1 lr1 es' in
        Val ((key, (hasher1, truncated1)) :: es1, ls2, lr2, done1 && done2)
      else
        let! (es1, ls2, lr2, done2) := hash_entries fot chunk ls lr es' in
        Val ((key, (hasher, truncated)) :: es1, ls2, lr2, done2)
  end.

(** src/message_hash.rs:141-176 [hash_chunk] *)
Definition hash_chunk (bh : BodyHasher) (chunk : list byte) : outcome (Stance * BodyHasher) :=
  let! (es, ls, lr, all_done) :=
    hash_entries (bh_fail_on_truncate bh) chunk
      (mkLazy None (bh_simple bh)) (mkLazy None (bh_relaxed bh)) (bh_hashers bh) in
  Val (if all_done then Done else Interested,
       mkBH (bh_fail_on_truncate bh) es (lz_canon ls) (lz_canon lr)).

(** src/message_hash.rs:179-182, 189-200: the [FnOnce] closures finishing the
    canonicalizers, and the cached chunk: [Some bc] means not taken yet *)
Record FinishChunk := mkFin { fn_todo : option BodyCanon; fn_chunk : option (list byte) }.

Definition finish_chunk (f : FinishChunk) : outcome (list byte * FinishChunk) :=
  match fn_todo f with
  | Some bc => let! c := bc_finish bc in Val (c, mkFin None (Some c))
  | None =>
      match fn_chunk f with
      | Some c => Val (c, f)
      | None => Panic
      end
  end.

(** src/message_hash.rs:186-215 *)
Fixpoint finish_entries (fot : bool) (fs fr : FinishChunk) (es : list HasherEntry)
    : outcome (list (BodyHasherKey * BodyHashResult)) :=
  match es with
  | [] => Val []
  | (key, (hasher, truncated)) :: es' =>
      let! (hasher1, truncated1, fs1, fr1) :=
        if entry_active fot hasher truncated then
          let '(_, _, canon) := key in
          let! (cchunk, fs1, fr1) :=
            match canon with
            | Simple => let! (c, fs1) := finish_chunk fs in Val (c, fs1, fr)
            | Relaxed => let! (c, fr1) := finish_chunk fr in Val (c, fs, fr1)
            end in
          let! (status, hasher1) := ch_update hasher cchunk in
          Val (hasher1,
               match status with Truncated => true | AllConsumed => truncated end, fs1, fr1)
        else Val (hasher, truncated, fs, fr) in
      let res :=
        if fot && truncated1 then Err InputTruncated
        else match ch_finish hasher1 with
             | Some r => Ok r
             | None => Err InsufficientInput
             end in
      let! rest := finish_entries fot fs1 fr1 es' in
      Val ((key, res) :: rest)
  end.

(** src/message_hash.rs:244-246 [BodyHashResults] *)
Definition BodyHashResults := list (BodyHasherKey * BodyHashResult).

(** src/message_hash.rs:178-218 [finish] *)
Definition bh_finish (bh : BodyHasher) : outcome BodyHashResults :=
  finish_entries (bh_fail_on_truncate bh)
    (mkFin (Some (bh_simple bh)) None) (mkFin (Some (bh_relaxed bh)) None) (bh_hashers bh).

(** src/message_hash.rs:248-252 [get] *)
Definition results_get (rs : BodyHashResults) (k : BodyHasherKey) : option BodyHashResult :=
  option_map snd (find (fun e => key_eqb k (fst e)) rs).

(** Feeding a sequence of chunks; the result is the list of stances reported
    and the final hasher. *)
Fixpoint hash_chunks (bh : BodyHasher) (chunks : list (list byte))
    : outcome (list Stance * BodyHasher) :=
  match chunks with
  | [] => Val ([], bh)
  | c :: chunks' =>
      let! (st, bh1) := hash_chunk bh c in
      let! (sts, bh2) := hash_chunks bh1 chunks' in
      Val (st :: sts, bh2)
  end.

End WithHash.
