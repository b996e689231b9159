(** Concrete cryptography: SHA-1, SHA-256, SHA-512, RSA with PKCS #1 v1.5 padding,
    Ed25519.  It is an instance of the parameters of the model, for running the
    library's own examples against it (Vectors.v).  Written from the standards; the
    theorems that depend on it are those with [real_crypto], [real_env] or a function of
    this file in their statements. *)

From Coq Require Import String List.
From Verif Require Import Base Base64 BodyHash Domain Signature Crypto Pem.
Import ListNotations.
Open Scope N_scope.

(** ** Numbers and bytes *)

Definition obind {A B} (f : A -> option B) (o : option A) : option B :=
  match o with Some a => f a | None => None end.
Definition default {A} (a : A) (o : option A) : A := match o with Some a => a | None => a end.

Definition from_be (bs : list byte) : N := fold_left (fun a b => N.shiftl a 8 + b) bs 0.
Fixpoint to_le (n : nat) (x : N) : list byte :=
  match n with
  | O => []
  | S n => N.land x 255 :: to_le n (N.shiftr x 8)
  end.
Definition to_be (n : nat) (x : N) : list byte := rev (to_le n x).
Definition from_le (bs : list byte) : N := from_be (rev bs).

Fixpoint groups (fuel size : nat) (bs : list byte) : list (list byte) :=
  match fuel, bs with
  | S fuel, _ :: _ => firstn size bs :: groups fuel size (skipn size bs)
  | _, _ => []
  end.

(** words of [w] bits, sums modulo 2^w *)
Definition add (w a b : N) : N := N.land (a + b) (N.ones w).
Definition rotr (w n x : N) : N := N.lor (N.shiftr x n) (N.land (N.shiftl x (w - n)) (N.ones w)).
Definition rotl (w n x : N) : N := rotr w (w - n) x.
Definition flip_bits (w x : N) : N := N.lxor x (N.ones w).

(** a message with one bit, zeros and its length, in blocks of words *)
Definition blocks (word block : nat) (msg : list byte) : list (list N) :=
  let n := length msg in
  let zeros := ((2 * block - 1 - 2 * word - n mod block) mod block)%nat in
  let padded := msg ++ [128] ++ repeat 0 zeros ++ to_be (2 * word) (8 * N.of_nat n) in
  map (fun b => map from_be (groups (length b) word b)) (groups (length padded) block padded).

(** ** FIPS 180-4: SHA-256 and SHA-512 *)

Definition K256 : list N :=
[1116352408; 1899447441; 3049323471; 3921009573; 961987163; 1508970993; 2453635748; 2870763221; 3624381080;
   310598401; 607225278; 1426881987; 1925078388; 2162078206; 2614888103; 3248222580; 3835390401; 4022224774;
   264347078; 604807628; 770255983; 1249150122; 1555081692; 1996064986; 2554220882; 2821834349; 2952996808;
   3210313671; 3336571891; 3584528711; 113926993; 338241895; 666307205; 773529912; 1294757372; 1396182291;
   1695183700; 1986661051; 2177026350; 2456956037; 2730485921; 2820302411; 3259730800; 3345764771;
   3516065817; 3600352804; 4094571909; 275423344; 430227734; 506948616; 659060556; 883997877; 958139571;
   1322822218; 1537002063; 1747873779; 1955562222; 2024104815; 2227730452; 2361852424; 2428436474;
   2756734187; 3204031479; 3329325298].
Definition H256 : list N :=
[1779033703; 3144134277; 1013904242; 2773480762; 1359893119; 2600822924; 528734635; 1541459225].
Definition K512 : list N :=
[4794697086780616226; 8158064640168781261; 13096744586834688815; 16840607885511220156; 4131703408338449720;
   6480981068601479193; 10538285296894168987; 12329834152419229976; 15566598209576043074;
   1334009975649890238; 2608012711638119052; 6128411473006802146; 8268148722764581231; 9286055187155687089;
   11230858885718282805; 13951009754708518548; 16472876342353939154; 17275323862435702243;
   1135362057144423861; 2597628984639134821; 3308224258029322869; 5365058923640841347; 6679025012923562964;
   8573033837759648693; 10970295158949994411; 12119686244451234320; 12683024718118986047;
   13788192230050041572; 14330467153632333762; 15395433587784984357; 489312712824947311; 1452737877330783856;
   2861767655752347644; 3322285676063803686; 5560940570517711597; 5996557281743188959; 7280758554555802590;
   8532644243296465576; 9350256976987008742; 10552545826968843579; 11727347734174303076;
   12113106623233404929; 14000437183269869457; 14369950271660146224; 15101387698204529176;
   15463397548674623760; 17586052441742319658; 1182934255886127544; 1847814050463011016; 2177327727835720531;
   2830643537854262169; 3796741975233480872; 4115178125766777443; 5681478168544905931; 6601373596472566643;
   7507060721942968483; 8399075790359081724; 8693463985226723168; 9568029438360202098; 10144078919501101548;
   10430055236837252648; 11840083180663258601; 13761210420658862357; 14299343276471374635;
   14566680578165727644; 15097957966210449927; 16922976911328602910; 17689382322260857208;
   500013540394364858; 748580250866718886; 1242879168328830382; 1977374033974150939; 2944078676154940804;
   3659926193048069267; 4368137639120453308; 4836135668995329356; 5532061633213252278; 6448918945643986474;
   6902733635092675308; 7801388544844847127].
Definition H512 : list N :=
[7640891576956012808; 13503953896175478587; 4354685564936845355; 11912009170470909681; 5840696475078001361;
   11170449401992604703; 2270897969802886507; 6620516959819538809].

Record Sha2 := mkSha2 { sh_w : N; sh_k : list N; sh_s0 : N * N * N; sh_s1 : N * N * N; sh_e0 : N * N * N; sh_e1 : N * N * N }.
Definition params256 : Sha2 := mkSha2 32 K256 (7, 18, 3) (17, 19, 10) (2, 13, 22) (6, 11, 25).
Definition params512 : Sha2 := mkSha2 64 K512 (1, 8, 7) (19, 61, 6) (28, 34, 39) (14, 18, 41).

Section Sha2.
Variable P : Sha2.
Let w := sh_w P.
Definition small (p : N * N * N) (x : N) : N :=
  let '(a, b, c) := p in N.lxor (N.lxor (rotr w a x) (rotr w b x)) (N.shiftr x c).
Definition big (p : N * N * N) (x : N) : N :=
  let '(a, b, c) := p in N.lxor (N.lxor (rotr w a x) (rotr w b x)) (rotr w c x).

(** the message schedule, the last sixteen words being kept, latest first *)
Fixpoint schedule (n : nat) (last : list N) : list N :=
  match n with
  | O => []
  | S n =>
      let at_ i := nth i last 0 in
      let x := add w (add w (small (sh_s1 P) (at_ 1%nat)) (at_ 6%nat)) (add w (small (sh_s0 P) (at_ 14%nat)) (at_ 15%nat)) in
      x :: schedule n (x :: firstn 15 last)
  end.

Fixpoint rounds (kw : list (N * N)) (s : list N) : list N :=
  match kw, s with
  | (k, x) :: kw, [a; b; c; d; e; f; g; h] =>
      let ch := N.lxor (N.land e f) (N.land (flip_bits w e) g) in
      let maj := N.lxor (N.lxor (N.land a b) (N.land a c)) (N.land b c) in
      let t1 := add w (add w h (big (sh_e1 P) e)) (add w ch (add w k x)) in
      let t2 := add w (big (sh_e0 P) a) maj in
      rounds kw [add w t1 t2; a; b; c; add w d t1; e; f; g]
  | _, _ => s
  end.

Definition compress (h block : list N) : list N :=
  let words := block ++ schedule (length (sh_k P) - 16) (rev block) in
  map (fun p => add w (fst p) (snd p)) (combine h (rounds (combine (sh_k P) words) h)).
End Sha2.

Definition sha256 (msg : list byte) : list byte :=
  flat_map (to_be 4) (fold_left (compress params256) (blocks 4 64 msg) H256).
Definition sha512 (msg : list byte) : list byte :=
  flat_map (to_be 8) (fold_left (compress params512) (blocks 8 128 msg) H512).

(** ** FIPS 180-4: SHA-1 *)

Fixpoint schedule1 (n : nat) (last : list N) : list N :=
  match n with
  | O => []
  | S n =>
      let at_ i := nth i last 0 in
      let x := rotl 32 1 (N.lxor (N.lxor (at_ 2%nat) (at_ 7%nat)) (N.lxor (at_ 13%nat) (at_ 15%nat))) in
      x :: schedule1 n (x :: firstn 15 last)
  end.

Fixpoint rounds1 (t : nat) (ws : list N) (s : list N) : list N :=
  match ws, s with
  | x :: ws, [a; b; c; d; e] =>
      let parity := N.lxor (N.lxor b c) d in
      let '(f, k) :=
        match Nat.div t 20 with
        | 0%nat => (N.lxor (N.land b c) (N.land (flip_bits 32 b) d), 1518500249)
        | 1%nat => (parity, 1859775393)
        | 2%nat => (N.lxor (N.lxor (N.land b c) (N.land b d)) (N.land c d), 2400959708)
        | _ => (parity, 3395469782)
        end in
      rounds1 (S t) ws [add 32 (add 32 (rotl 32 5 a) f) (add 32 e (add 32 k x)); a; rotl 32 30 b; c; d]
  | _, _ => s
  end.

Definition compress1 (h block : list N) : list N :=
  map (fun p => add 32 (fst p) (snd p)) (combine h (rounds1 0 (block ++ schedule1 64 (rev block)) h)).

Definition sha1 (msg : list byte) : list byte :=
  flat_map (to_be 4)
    (fold_left compress1 (blocks 4 64 msg) [1732584193; 4023233417; 2562383102; 271733878; 3285377520]).

(** ** DER, as far as needed *)

(** the size in the first bytes, in the shortest form; the rest *)
Definition der_size (bs : list byte) : option (N * list byte) :=
  match bs with
  | l :: bs =>
      if l <? 128 then Some (l, bs)
      else
        let k := N.to_nat (l - 128) in
        let n := from_be (firstn k bs) in
        if (l <? 255) && Nat.leb k (length bs) && (128 <=? n) && negb (hd 0 bs =? 0)
        then Some (n, skipn k bs) else None
  | [] => None
  end.

(** one element with this tag: content, rest *)
Definition der (tag : N) (bs : list byte) : option (list byte * list byte) :=
  match bs with
  | t :: bs =>
      if t =? tag then
        match der_size bs with
        | Some (n, bs) =>
            if N.of_nat (length bs) <? n then None else Some (firstn (N.to_nat n) bs, skipn (N.to_nat n) bs)
        | None => None
        end
      else None
  | [] => None
  end.

(** the content of an integer in the shortest form, not negative *)
Definition whole (bs : list byte) : bool :=
  match bs with
  | [] => false
  | [b] => b <? 128
  | b :: c :: _ => (b <? 128) && ((0 <? b) || (128 <=? c))
  end.
Definition der_int (bs : list byte) : option (N * list byte) :=
  match der 2 bs with
  | Some (c, bs) => if whole c then Some (from_be c, bs) else None
  | None => None
  end.

(** a public key info for an algorithm *)
Definition spki (algorithm bs : list byte) : option (list byte) :=
  match der 48 bs with
  | Some (bs, []) =>
      match der 48 bs with
      | Some (a, bs) =>
          if leqb a algorithm then
            match der 3 bs with
            | Some (0 :: key, []) => Some key
            | _ => None
            end
          else None
      | None => None
      end
  | _ => None
  end.

(** ** RFC 8017: RSA *)

Record RsaKey := mkRsaKey { rk_n : N; rk_e : N }.
Definition rsa_bytes (k : RsaKey) : nat := N.to_nat ((N.size (rk_n k) + 7) / 8).

(** the crate rsa, which refuses other public keys *)
Definition rsa_limits (n e : N) : bool :=
  (N.size n <=? 4096) && N.odd n && N.odd e && (2 <=? e) && (e <? 2 ^ 33) && (e <? n).

Definition rsa_pkcs1 (bs : list byte) : option RsaKey :=
  match der 48 bs with
  | Some (bs, []) =>
      match der_int bs with
      | Some (n, bs) =>
          match der_int bs with
          | Some (e, []) => if rsa_limits n e then Some (mkRsaKey n e) else None
          | _ => None
          end
      | None => None
      end
  | _ => None
  end.

Definition rsa_spki (bs : list byte) : option RsaKey :=
  match spki ([6; 9; 42; 134; 72; 134; 247; 13; 1; 1; 1] ++ [5; 0]) bs with
  | Some bs => rsa_pkcs1 bs
  | None => None
  end.

Fixpoint power (m b : N) (e : positive) : N :=
  match e with
  | xH => b mod m
  | xO e => let x := power m b e in (x * x) mod m
  | xI e => let x := power m b e in (((x * x) mod m) * b) mod m
  end.

(** the encoded digest *)
Definition emsa (a : HashAlg) (len : nat) (digest : list byte) : list byte :=
  let t := match a with
           | Sha256 => [48; 49; 48; 13; 6; 9; 96; 134; 72; 1; 101; 3; 4; 2; 1; 5; 0; 4; 32]
           | Sha1 => [48; 33; 48; 9; 6; 5; 43; 14; 3; 2; 26; 5; 0; 4; 20]
           end ++ digest in
  [0; 1] ++ repeat 255 (len - 3 - length t) ++ [0] ++ t.

(** the digest has the size of the algorithm's, and there is room for it *)
Definition emsa_fits (a : HashAlg) (len : nat) (digest : list byte) : bool :=
  forallb (fun b => b <? 256) digest
  && match a with
     | Sha256 => Nat.eqb (length digest) 32 && Nat.leb 62 len
     | Sha1 => Nat.eqb (length digest) 20 && Nat.leb 46 len
     end.

Definition rsa_check (k : RsaKey) (a : HashAlg) (digest sig : list byte) : bool :=
  let len := rsa_bytes k in
  emsa_fits a len digest
  && Nat.eqb (length sig) len
  && (from_be sig <? rk_n k)
  && match rk_e k with
     | Npos e => leqb (to_be len (power (rk_n k) (from_be sig) e)) (emsa a len digest)
     | 0 => false
     end.

(** ** RFC 8032: Ed25519 *)

Definition p : N := 2 ^ 255 - 19.
Definition order : N := 2 ^ 252 + 27742317777372353535851937790883648493.
(** modulo [p]: first, 2^255 is 19 *)
Definition red (x : N) : N :=
  let y := N.land x (N.ones 255) + 19 * N.shiftr x 255 in
  let z := N.land y (N.ones 255) + 19 * N.shiftr y 255 in
  if p <=? z then z - p else z.
Definition mul (a b : N) : N := red (a * b).
Definition plus (a b : N) : N := red (a + b).
Definition minus (a b : N) : N := red (a + p - b).
Fixpoint pow (b : N) (e : positive) : N :=
  match e with
  | xH => b
  | xO e => let x := pow b e in mul x x
  | xI e => let x := pow b e in mul (mul x x) b
  end.
Definition powN (b e : N) : N := match e with Npos e => pow b e | 0 => 1 end.
Definition inv (x : N) : N := powN x (p - 2).
Definition d : N := mul (p - 121665) (inv 121666).

(** extended coordinates *)
Definition Point := (N * N * N * N)%type.
Definition neutral : Point := (0, 1, 1, 0).
Definition padd (a b : Point) : Point :=
  let '(x1, y1, z1, t1) := a in
  let '(x2, y2, z2, t2) := b in
  let aa := mul (minus y1 x1) (minus y2 x2) in
  let bb := mul (plus y1 x1) (plus y2 x2) in
  let cc := mul (mul (plus t1 t1) d) t2 in
  let dd := mul (plus z1 z1) z2 in
  let e := minus bb aa in
  let f := minus dd cc in
  let g := plus dd cc in
  let h := plus bb aa in
  (mul e f, mul g h, mul f g, mul e h).
Fixpoint times (k : positive) (a : Point) : Point :=
  match k with
  | xH => a
  | xO k => let q := times k a in padd q q
  | xI k => let q := times k a in padd (padd q q) a
  end.
Definition scale (k : N) (a : Point) : Point := match k with 0 => neutral | Npos k => times k a end.
Definition same (a b : Point) : bool :=
  let '(x1, y1, z1, _) := a in
  let '(x2, y2, z2, _) := b in
  (mul x1 z2 =? mul x2 z1) && (mul y1 z2 =? mul y2 z1).
Definition encode (a : Point) : list byte :=
  let '(x, y, z, _) := a in
  let i := inv z in
  to_le 32 (mul y i + N.shiftl (N.land (mul x i) 1) 255).
(** a square root of [u / v] *)
Definition root_candidate (u v : N) : N :=
  let v3 := mul v (mul v v) in
  mul (mul u v3) (powN (mul u (mul v3 (mul v v3))) ((p - 5) / 8)).
Definition root (u v : N) : option N :=
  let x := root_candidate u v in
  let w := mul v (mul x x) in
  if w =? u then Some x
  else if w =? minus 0 u then Some (mul x (powN 2 ((p - 1) / 4)))
  else None.
Definition with_sign (y sign x : N) : option Point :=
  if (x =? 0) && (sign =? 1) then None
  else
    let x := if N.land x 1 =? sign then x else p - x in
    Some (x, y, 1, mul x y).
Definition decode_y (y sign : N) : option Point :=
  if p <=? y then None
  else
    obind (with_sign y sign) (root (minus (mul y y) 1) (plus (mul d (mul y y)) 1)).
Definition decode (bs : list byte) : option Point :=
  if Nat.eqb (length bs) 32
  then decode_y (N.land (from_le bs) (N.ones 255)) (N.shiftr (from_le bs) 255)
  else None.
(** Public keys are read as in ed25519-dalek (as far as known; its source was not at
    hand): without checking that y is less than p, and x = 0 has either sign. *)
Definition with_parity (y sign x : N) : Point :=
  let x := if N.land x 1 =? sign then x else minus 0 x in
  (x, y, 1, mul x y).
Definition read_point (bs : list byte) : option Point :=
  if Nat.eqb (length bs) 32
  then
    let y := N.land (from_le bs) (N.ones 255) mod p in
    option_map (with_parity y (N.shiftr (from_le bs) 255)) (root (minus (mul y y) 1) (plus (mul d (mul y y)) 1))
  else None.
Definition base : Point :=
  default neutral (decode (88 :: repeat 102 31)).

(** the scalar and prefix of a private key *)
Definition expand (key : list byte) : N * list byte :=
  let h := sha512 key in
  let s := from_le (firstn 32 h) in
  (N.lor (N.land s (2 ^ 254 - 8)) (2 ^ 254), skipn 32 h).
Definition ed_public (key : list byte) : list byte := encode (scale (fst (expand key)) base).
Definition ed_sign_with (s : N) (prefix msg : list byte) : list byte :=
  let a := encode (scale s base) in
  let r := from_le (sha512 (prefix ++ msg)) mod order in
  let rr := encode (scale r base) in
  let k := from_le (sha512 (rr ++ a ++ msg)) mod order in
  rr ++ to_le 32 ((r + k * s) mod order).
Definition ed25519_sign (key msg : list byte) : list byte :=
  ed_sign_with (fst (expand key)) (snd (expand key)) msg.
Definition ed_check (a : list byte) (q : Point) (msg sig : list byte) (rr : Point) : bool :=
  let s := from_le (skipn 32 sig) in
  let k := from_le (sha512 (firstn 32 sig ++ a ++ msg)) mod order in
  if s <? order then same (scale s base) (padd rr (scale k q)) else false.
Definition ed25519_verify (key : list byte * Point) (msg sig : list byte) : bool :=
  if Nat.eqb (length sig) 64
  then default false (option_map (ed_check (fst key) (snd key) msg sig) (decode (firstn 32 sig)))
  else false.
Definition ed_key (bs : list byte) : option (list byte * Point) := option_map (pair bs) (read_point bs).

(** ** The instance *)

(** An RSA private key has the public one, the private exponent, and signatures made
    with it earlier: one of these is taken when the public key confirms it (long keys
    would take long here). *)
Record RsaSecret := mkRsaSecret { rs_public : RsaKey; rs_d : N; rs_known : list (list byte) }.
Definition rsa_sign_digest (a : HashAlg) (k : RsaSecret) (digest : list byte) : option (list byte) :=
  match find (fun sig => forallb (fun b => b <? 256) sig && rsa_check (rs_public k) a digest sig) (rs_known k), rs_d k with
  | Some sig, _ => Some sig
  | None, Npos e =>
      let len := rsa_bytes (rs_public k) in
      if emsa_fits a len digest
      then Some (to_be len (power (rk_n (rs_public k)) (from_be (emsa a len digest)) e))
      else None
  | None, 0 => None
  end.

Definition real_crypto : Crypto :=
  mkCrypto (fun a => match a with Sha256 => sha256 | Sha1 => sha1 end)
    RsaSecret (list byte) RsaKey (list byte * Point)
    (fun k => rsa_bytes (rs_public k))
    rsa_sign_digest
    ed25519_sign
    rsa_spki rsa_pkcs1
    ed_key
    (fun bs => obind ed_key (spki [6; 3; 43; 101; 112] bs))
    (fun k => N.of_nat (rsa_bytes k))
    rsa_check
    ed25519_verify.

Definition real_env (pre : bool) (usize_max : N) (idna : Idna) : Env := mkEnv pre usize_max idna real_crypto.

(** ** Keys in PEM *)

Fixpoint lines (s : str) : list str :=
  match s with
  | [] => [[]]
  | c :: s =>
      match lines s with
      | l :: ls => if c =? 10 then [] :: l :: ls else (c :: l) :: ls
      | [] => []
      end
  end.
(** the text between these ends of a line *)
Definition between (a b s : str) : option str :=
  let n := (length s - length a - length b)%nat in
  let m := firstn n (skipn (length a) s) in
  if leqb s (a ++ m ++ b) then Some m else None.
Definition pem_document (s : str) : option (str * list byte) :=
  match filter (fun l => negb (is_nil l)) (lines s) with
  | first :: rest =>
      match between (lit "-----BEGIN ") (lit "-----") first, rev rest with
      | Some label, last :: content =>
          if leqb last (lit "-----END " ++ label ++ lit "-----")
          then option_map (pair label) (decode_base64 (concat (rev content)))
          else None
      | _, _ => None
      end
  | [] => None
  end.

(** RFC 5208: algorithm and key *)
Definition private_key_info (bs : list byte) : option (list byte * list byte) :=
  obind (fun p =>
    obind (fun p =>
      obind (fun p => option_map (fun q => (fst p, fst q)) (der 4 (snd p))) (der 48 (snd p)))
      (der_int (fst p)))
    (der 48 bs).
Definition rsa_secret (i : list byte * list byte) : option RsaSecret :=
  if leqb (fst i) [6; 9; 42; 134; 72; 134; 247; 13; 1; 1; 1; 5; 0] then
    obind (fun p =>
      obind (fun v => obind (fun n => obind (fun e => option_map (fun d =>
        mkRsaSecret (mkRsaKey (fst n) (fst e)) (fst d) [])
        (der_int (snd e))) (der_int (snd n))) (der_int (snd v))) (der_int (fst p)))
      (der 48 (snd i))
  else None.
Definition ed_secret (i : list byte * list byte) : option (list byte) :=
  if leqb (fst i) [6; 3; 43; 101; 112] then
    match der 4 (snd i) with
    | Some (key, []) => if Nat.eqb (length key) 32 then Some key else None
    | _ => None
    end
  else None.

Definition real_pem : Pkcs8 real_crypto :=
  mkPkcs8 real_crypto (list byte * list byte) pem_document (leqb (lit "PRIVATE KEY"))
    private_key_info rsa_secret ed_secret.
