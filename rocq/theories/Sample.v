(** A sample environment, used only in examples: a toy IDNA table and toy
    cryptography.  Nothing in the theorems depends on it. *)

From Coq Require Import String List.
From Verif Require Import Base Utf8 Canon BodyHash Domain Signature Crypto.

(** A string literal in UTF-8. *)
Definition u (s : string) : str := unwrap_or (from_utf8 (lit s)) [].

(** Line feeds of a (multi-line) literal replaced by CRLF. *)
Fixpoint crlf_lines (s : list N) : list N :=
  match s with
  | [] => []
  | c :: s' => if c =? 10 then CR :: LF :: crlf_lines s' else c :: crlf_lines s'
  end.

Fixpoint join_dot (ps : list str) : str :=
  match ps with
  | [] => []
  | [p] => p
  | p :: ps' => p ++ [46] ++ join_dot ps'
  end.

Definition idna_table : list (str * str) :=
  [(u "中国", lit "xn--fiqs8s"); (u "例子", lit "xn--fsqu00a"); (u "☕", lit "xn--53h")].

Definition label_to_ascii (l : str) : option str :=
  if forallb is_ascii l then
    let a := to_ascii_lowercase l in
    if leqb (firstn 4 a) (lit "xn--") then
      if existsb (fun p => leqb (snd p) a) idna_table then Some a else None
    else Some a
  else option_map snd (find (fun p => leqb (fst p) l) idna_table).

Fixpoint all_some {A} (l : list (option A)) : option (list A) :=
  match l with
  | [] => Some []
  | None :: _ => None
  | Some x :: l' => option_map (cons x) (all_some l')
  end.

Definition label_to_unicode (l : str) : str :=
  let a := if forallb is_ascii l then to_ascii_lowercase l else l in
  match find (fun p => leqb (snd p) a) idna_table with
  | Some p => fst p
  | None => a
  end.

Definition sample_idna : Idna :=
  mkIdna (fun s => option_map join_dot (all_some (map label_to_ascii (split_on 46 s))))
         (fun s => (join_dot (map label_to_unicode (split_on 46 s)),
                    is_some (all_some (map label_to_ascii (split_on 46 s))))).

(** A toy hash: the algorithm, and a checksum of four bytes. *)
Definition toy_hash (alg : HashAlg) (bs : list byte) : list byte :=
  let n := fold_left (fun acc b => (acc * 257 + b + 1) mod 4294967291) bs
             (match alg with Sha256 => 1 | Sha1 => 2 end) in
  [n / 16777216 mod 256; n / 65536 mod 256; n / 256 mod 256; n mod 256].

Definition toy_read (data : list byte) : option N := hd_error data.

Definition toy_sign (k : N) (d : list byte) : list byte := map (fun b => b mod 256) (k :: d).

Definition toy_crypto : Crypto :=
  mkCrypto toy_hash N N N N
    (fun _ => 5%nat)
    (fun _ k d => if k =? 0 then None else Some (toy_sign k d))
    toy_sign
    (fun data => match data with 1 :: k :: _ => Some k | _ => None end)
    (fun data => match data with 2 :: k :: _ => Some k | _ => None end)
    toy_read toy_read
    (fun k => 32 * k)
    (fun pk _ d s => leqb s (toy_sign pk d))
    (fun pk d s => leqb s (toy_sign pk d)).

Definition toy_env : Env := mkEnv false u64_max sample_idna toy_crypto.
