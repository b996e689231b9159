(** Model of the counters of type [usize] that count parts of a body.  Bodies are
    processed in chunks and not kept in memory, hence these counters can overflow:
    [empty_lines] of the canonicalizer (src/canonicalize.rs:141) and [bytes_written] of
    the hasher (src/crypto/hash.rs:68).  The functions of Canon.v, BodyHash.v, Sign.v and
    Verify.v that involve them, where these are unbounded numbers, once more.
    Definitions only. *)

From Verif Require Import Base Utf8 Canon BodyHash Domain Signature Crypto Format Sign Verify.

Section Usize.
(** [usize::MAX], and whether there are overflow checks (as in debug builds) *)
Variable max : N.
Variable checks : bool.

(** the sum of two [usize], if it is [n] mathematically *)
Definition usize (n : N) : outcome N :=
  if n <=? max then Val n else if checks then Panic else Val (n mod (max + 1)).

(** src/canonicalize.rs:180, 244, 266: [self.empty_lines += 1] *)
Definition bc_usize (bc : BodyCanon) : outcome BodyCanon :=
  let! n := usize (N.of_nat (bc_empty_lines bc)) in
  Val (mkBodyCanon (bc_kind bc) (bc_state bc) (bc_blank_line bc) (N.to_nat n)).

(** src/canonicalize.rs:156-301 [canonicalize_chunk] *)
Fixpoint canonicalize_chunk_usize (bc : BodyCanon) (bytes : list byte) : outcome (list byte * BodyCanon) :=
  match bytes with
  | [] => Val ([], bc)
  | b :: bytes' =>
      let! (out, bc1) := canon_step bc b in
      let! bc1 := bc_usize bc1 in
      let! (out', bc2) := canonicalize_chunk_usize bc1 bytes' in
      Val (out ++ out', bc2)
  end.

(** src/crypto/hash.rs:86-110 [update]; [self.bytes_written += …] in 95, 100, 106 *)
Definition ch_update_usize (h : CountingHasher) (bytes : list byte) : outcome (HashStatus * CountingHasher) :=
  let! (status, h1) := ch_update h bytes in
  let! n := usize (ch_bytes_written h1) in
  Val (status, mkCH (ch_alg h1) (ch_data h1) (ch_length h1) n).

(** src/message_hash.rs:153-156 [get_or_insert_with] *)
Definition lazy_chunk_usize (chunk : list byte) (lz : LazyChunk) : outcome (list byte * LazyChunk) :=
  match lz_chunk lz with
  | Some c => Val (c, lz)
  | None =>
      let! (c, bc) := canonicalize_chunk_usize (lz_canon lz) chunk in
      Val (c, mkLazy (Some c) bc)
  end.

(** src/message_hash.rs:151-169 *)
Fixpoint hash_entries_usize (fot : bool) (chunk : list byte) (ls lr : LazyChunk)
    (es : list HasherEntry) : outcome (list HasherEntry * LazyChunk * LazyChunk * bool) :=
  match es with
  | [] => Val ([], ls, lr, true)
  | (key, (hasher, truncated)) :: es' =>
      if entry_active fot hasher truncated then
        let '(_, _, canon) := key in
        let! (cchunk, ls1, lr1) :=
          match canon with
          | Simple => let! (c, ls1) := lazy_chunk_usize chunk ls in Val (c, ls1, lr)
          | Relaxed => let! (c, lr1) := lazy_chunk_usize chunk lr in Val (c, ls, lr1)
          end in
        let! (status, hasher1) := ch_update_usize hasher cchunk in
        let '(truncated1, done1) :=
          match status with
          | AllConsumed => (truncated, negb (fot || negb (ch_is_done hasher1)))
          | Truncated => (true, true)
          end in
        let! (es1, ls2, lr2, done2) := hash_entries_usize fot chunk ls1 lr1 es' in
        Val ((key, (hasher1, truncated1)) :: es1, ls2, lr2, done1 && done2)
      else
        let! (es1, ls2, lr2, done2) := hash_entries_usize fot chunk ls lr es' in
        Val ((key, (hasher, truncated)) :: es1, ls2, lr2, done2)
  end.

(** src/message_hash.rs:141-176 [hash_chunk] *)
Definition hash_chunk_usize (bh : BodyHasher) (chunk : list byte) : outcome (Stance * BodyHasher) :=
  let! (es, ls, lr, all_done) :=
    hash_entries_usize (bh_fail_on_truncate bh) chunk
      (mkLazy None (bh_simple bh)) (mkLazy None (bh_relaxed bh)) (bh_hashers bh) in
  Val (if all_done then Done else Interested,
       mkBH (bh_fail_on_truncate bh) es (lz_canon ls) (lz_canon lr)).

Fixpoint hash_chunks_usize (bh : BodyHasher) (chunks : list (list byte)) : outcome BodyHasher :=
  match chunks with
  | [] => Val bh
  | c :: chunks' => let! (_, bh1) := hash_chunk_usize bh c in hash_chunks_usize bh1 chunks'
  end.

(** src/message_hash.rs:186-215 *)
Fixpoint finish_entries_usize (hash : HashAlg -> list byte -> list byte) (fot : bool) (fs fr : FinishChunk)
    (es : list HasherEntry) : outcome (list (BodyHasherKey * BodyHashResult)) :=
  match es with
  | [] => Val []
  | (key, (hasher, truncated)) :: es' =>
      let! (hasher1, truncated1, fs1, fr1) :=
        if entry_active fot hasher truncated then
          let '(_, _, canon) := key in
          let! (cchunk, fs1, fr1) :=
            match canon with
            | Simple => let! (c, fs1) := finish_chunk fs in Val (c, fs1, fr)
            | Relaxed => let! (c, fr1) := finish_chunk fr in Val (c, fs, fr1)
            end in
          let! (status, hasher1) := ch_update_usize hasher cchunk in
          Val (hasher1,
               match status with Truncated => true | AllConsumed => truncated end, fs1, fr1)
        else Val (hasher, truncated, fs, fr) in
      let res :=
        if fot && truncated1 then Err InputTruncated
        else match ch_finish hash hasher1 with
             | Some r => Ok r
             | None => Err InsufficientInput
             end in
      let! rest := finish_entries_usize hash fot fs1 fr1 es' in
      Val ((key, res) :: rest)
  end.

(** src/message_hash.rs:178-218 [finish] *)
Definition bh_finish_usize (hash : HashAlg -> list byte -> list byte) (bh : BodyHasher) : outcome BodyHashResults :=
  finish_entries_usize hash (bh_fail_on_truncate bh)
    (mkFin (Some (bh_simple bh)) None) (mkFin (Some (bh_relaxed bh)) None) (bh_hashers bh).

End Usize.

Section WithEnv.
Variable E : Env.
Variable checks : bool.
Notation C := (env_crypto E).
Notation max := (env_usize_max E).

(** signing as in src/signer/mod.rs:539-630 *)
Definition sign_message_usize (order : list BodyHasherKey -> list BodyHasherKey)
    (headers : list HeaderField) (rs : list (SignRequest E)) (chunks : list (list byte))
    (clock : nat -> N) : outcome (result (list (result SigningOutput SigningError)) RequestError) :=
  let! p := prepare_signing E order headers rs in
  match p with
  | Err e => Val (Err e)
  | Ok s =>
      let! bh := hash_chunks_usize max checks (sg_body_hasher E s) chunks in
      let! results := bh_finish_usize max checks (hash_fn C) bh in
      let! rs := sign_tasks E clock 0 (sg_headers E s) results (sg_tasks E s) in
      Val (Ok rs)
  end.

(** verification as in src/verifier/mod.rs:602-703 *)
Definition verify_message_usize (w : World) (headers : list HeaderField) (config : Config)
    (chunks : list (list byte)) : outcome (option (list VerificationResult)) :=
  let! r := verify_header E w headers config in
  match r with
  | None => Val None
  | Some (v, _, _) =>
      let! bh := hash_chunks_usize max checks (vf_body_hasher v) chunks in
      let! results := bh_finish_usize max checks (hash_fn C) bh in
      let! rs := finish_tasks max results (vf_tasks v) in
      Val (Some rs)
  end.

End WithEnv.
