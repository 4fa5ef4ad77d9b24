(** The hash functions the code calls in Go's standard library and golang.org/x/crypto:
    SHA-1, SHA-256 and SHA-512 (FIPS 180-4), HMAC (FIPS 198-1), and PBKDF2 (RFC 8018)
    with one iteration, as scrypt uses it. They are called at common/auth/totp.go:232,
    :236, common/auth/session.go:42 and :112 (HMAC), exp/fcrypt/fcrypt.go:416 (SHA-256)
    and within scrypt and Ed25519. Words are integers below 2^32 or 2^64. No proofs here. *)
From Verif Require Export Bytes.
Local Open Scope Z_scope.

(** *** Words *)
(** The sum of words of [n] bits; rotation to the right. *)
Definition wadd (n x y : Z) : Z := (x + y) mod 2 ^ n.
Definition rotr (n k x : Z) : Z := Z.lor (Z.shiftr x k) (Z.shiftl (x mod 2 ^ k) (n - k)).
(** The complement of a word. *)
Definition wnot (n x : Z) : Z := 2 ^ n - 1 - x.
(** The first [n] pieces of [k] bytes. *)
Fixpoint pieces (n k : nat) (l : bytes) : list bytes :=
  match n with O => [] | S n => take k l :: pieces n k (drop k l) end.
Definition bewords (n k : nat) (l : bytes) : list Z := map unbe (pieces n k l).

(** Padding to blocks of [b] bytes with a length of [q] bytes: FIPS 180-4, section 5.1. *)
Definition hash_pad (b q : nat) (m : bytes) : bytes :=
  m ++ [x80] ++ zeros (Z.to_nat ((- (zlen m + 1 + Z.of_nat q)) mod Z.of_nat b)) ++ be q (8 * zlen m).
(** Folding the compression function over the blocks. *)
Definition hash_blocks {S} (b : nat) (f : S -> bytes -> S) (s : S) (m : bytes) : S :=
  fold_left f (pieces (length m / b) b m) s.

(** *** SHA-256 and SHA-512 *)
Inductive st8 := St8 (a b c d e f g h : Z).
(** What tells the two apart: the bits of a word, the rotations, the constants. *)
Record sha2 := Sha2 { shBits : Z; shBig0 : Z * Z * Z; shBig1 : Z * Z * Z; shSmall0 : Z * Z * Z; shSmall1 : Z * Z * Z; shK : list Z; shInit : st8 }.
Definition big (n : Z) (r : Z * Z * Z) (x : Z) : Z :=
  let '(a, b, c) := r in Z.lxor (Z.lxor (rotr n a x) (rotr n b x)) (rotr n c x).
Definition small (n : Z) (r : Z * Z * Z) (x : Z) : Z :=
  let '(a, b, c) := r in Z.lxor (Z.lxor (rotr n a x) (rotr n b x)) (Z.shiftr x c).
(** One round, with the constant and the word of the schedule. *)
Definition sha2_round (v : sha2) (s : st8) (k w : Z) : st8 :=
  let n := shBits v in
  let 'St8 a b c d e f g h := s in
  let t1 := wadd n (wadd n (wadd n h (big n (shBig1 v) e)) (Z.lxor (Z.land e f) (Z.land (wnot n e) g))) (wadd n k w) in
  let t2 := wadd n (big n (shBig0 v) a) (Z.lxor (Z.lxor (Z.land a b) (Z.land a c)) (Z.land b c)) in
  St8 (wadd n t1 t2) a b c (wadd n d t1) e f g.
(** All rounds: [win] holds the next sixteen words of the schedule. *)
Fixpoint sha2_rounds (v : sha2) (ks win : list Z) (s : st8) : st8 :=
  match ks, win with
  | k :: ks, w :: rest =>
      let n := shBits v in
      let next := wadd n (wadd n (small n (shSmall1 v) (nth 14 win 0)) (nth 9 win 0)) (wadd n (small n (shSmall0 v) (nth 1 win 0)) w) in
      sha2_rounds v ks (rest ++ [next]) (sha2_round v s k w)
  | _, _ => s
  end.
Definition st8_add (n : Z) (s t : st8) : st8 :=
  let 'St8 a b c d e f g h := s in
  let 'St8 a' b' c' d' e' f' g' h' := t in
  St8 (wadd n a a') (wadd n b b') (wadd n c c') (wadd n d d') (wadd n e e') (wadd n f f') (wadd n g g') (wadd n h h').
Definition sha2_block (v : sha2) (s : st8) (blk : bytes) : st8 :=
  st8_add (shBits v) s (sha2_rounds v (shK v) (bewords 16 (Z.to_nat (shBits v / 8)) blk) s).
Definition st8_bytes (q : nat) (s : st8) : bytes :=
  let 'St8 a b c d e f g h := s in be q a ++ be q b ++ be q c ++ be q d ++ be q e ++ be q f ++ be q g ++ be q h.

Definition sha256_v : sha2 := Sha2 32 (2, 13, 22) (6, 11, 25) (7, 18, 3) (17, 19, 10)
  [0x428a2f98; 0x71374491; 0xb5c0fbcf; 0xe9b5dba5; 0x3956c25b; 0x59f111f1; 0x923f82a4; 0xab1c5ed5;
   0xd807aa98; 0x12835b01; 0x243185be; 0x550c7dc3; 0x72be5d74; 0x80deb1fe; 0x9bdc06a7; 0xc19bf174;
   0xe49b69c1; 0xefbe4786; 0x0fc19dc6; 0x240ca1cc; 0x2de92c6f; 0x4a7484aa; 0x5cb0a9dc; 0x76f988da;
   0x983e5152; 0xa831c66d; 0xb00327c8; 0xbf597fc7; 0xc6e00bf3; 0xd5a79147; 0x06ca6351; 0x14292967;
   0x27b70a85; 0x2e1b2138; 0x4d2c6dfc; 0x53380d13; 0x650a7354; 0x766a0abb; 0x81c2c92e; 0x92722c85;
   0xa2bfe8a1; 0xa81a664b; 0xc24b8b70; 0xc76c51a3; 0xd192e819; 0xd6990624; 0xf40e3585; 0x106aa070;
   0x19a4c116; 0x1e376c08; 0x2748774c; 0x34b0bcb5; 0x391c0cb3; 0x4ed8aa4a; 0x5b9cca4f; 0x682e6ff3;
   0x748f82ee; 0x78a5636f; 0x84c87814; 0x8cc70208; 0x90befffa; 0xa4506ceb; 0xbef9a3f7; 0xc67178f2]
  (St8 0x6a09e667 0xbb67ae85 0x3c6ef372 0xa54ff53a 0x510e527f 0x9b05688c 0x1f83d9ab 0x5be0cd19).
Definition sha512_v : sha2 := Sha2 64 (28, 34, 39) (14, 18, 41) (1, 8, 7) (19, 61, 6)
  [0x428a2f98d728ae22; 0x7137449123ef65cd; 0xb5c0fbcfec4d3b2f; 0xe9b5dba58189dbbc;
   0x3956c25bf348b538; 0x59f111f1b605d019; 0x923f82a4af194f9b; 0xab1c5ed5da6d8118;
   0xd807aa98a3030242; 0x12835b0145706fbe; 0x243185be4ee4b28c; 0x550c7dc3d5ffb4e2;
   0x72be5d74f27b896f; 0x80deb1fe3b1696b1; 0x9bdc06a725c71235; 0xc19bf174cf692694;
   0xe49b69c19ef14ad2; 0xefbe4786384f25e3; 0x0fc19dc68b8cd5b5; 0x240ca1cc77ac9c65;
   0x2de92c6f592b0275; 0x4a7484aa6ea6e483; 0x5cb0a9dcbd41fbd4; 0x76f988da831153b5;
   0x983e5152ee66dfab; 0xa831c66d2db43210; 0xb00327c898fb213f; 0xbf597fc7beef0ee4;
   0xc6e00bf33da88fc2; 0xd5a79147930aa725; 0x06ca6351e003826f; 0x142929670a0e6e70;
   0x27b70a8546d22ffc; 0x2e1b21385c26c926; 0x4d2c6dfc5ac42aed; 0x53380d139d95b3df;
   0x650a73548baf63de; 0x766a0abb3c77b2a8; 0x81c2c92e47edaee6; 0x92722c851482353b;
   0xa2bfe8a14cf10364; 0xa81a664bbc423001; 0xc24b8b70d0f89791; 0xc76c51a30654be30;
   0xd192e819d6ef5218; 0xd69906245565a910; 0xf40e35855771202a; 0x106aa07032bbd1b8;
   0x19a4c116b8d2d0c8; 0x1e376c085141ab53; 0x2748774cdf8eeb99; 0x34b0bcb5e19b48a8;
   0x391c0cb3c5c95a63; 0x4ed8aa4ae3418acb; 0x5b9cca4f7763e373; 0x682e6ff3d6b2b8a3;
   0x748f82ee5defb2fc; 0x78a5636f43172f60; 0x84c87814a1f0ab72; 0x8cc702081a6439ec;
   0x90befffa23631e28; 0xa4506cebde82bde9; 0xbef9a3f7b2c67915; 0xc67178f2e372532b;
   0xca273eceea26619c; 0xd186b8c721c0c207; 0xeada7dd6cde0eb1e; 0xf57d4f7fee6ed178;
   0x06f067aa72176fba; 0x0a637dc5a2c898a6; 0x113f9804bef90dae; 0x1b710b35131c471b;
   0x28db77f523047d84; 0x32caab7b40c72493; 0x3c9ebe0a15c9bebc; 0x431d67c49c100d4c;
   0x4cc5d4becb3e42b6; 0x597f299cfc657e2a; 0x5fcb6fab3ad6faec; 0x6c44198c4a475817]
  (St8 0x6a09e667f3bcc908 0xbb67ae8584caa73b 0x3c6ef372fe94f82b 0xa54ff53a5f1d36f1 0x510e527fade682d1 0x9b05688c2b3e6c1f 0x1f83d9abfb41bd6b 0x5be0cd19137e2179).
Definition sha_256 (m : bytes) : bytes := st8_bytes 4 (hash_blocks 64 (sha2_block sha256_v) (shInit sha256_v) (hash_pad 64 8 m)).
Definition sha_512 (m : bytes) : bytes := st8_bytes 8 (hash_blocks 128 (sha2_block sha512_v) (shInit sha512_v) (hash_pad 128 16 m)).

(** *** SHA-1 *)
Inductive st5 := St5 (a b c d e : Z).
(** The function and the constant of a round. *)
Definition sha1_f (t : nat) (b c d : Z) : Z :=
  if decide (t < 20)%nat then Z.lxor (Z.land b c) (Z.land (wnot 32 b) d)
  else if decide (40 <= t < 60)%nat then Z.lxor (Z.lxor (Z.land b c) (Z.land b d)) (Z.land c d)
  else Z.lxor (Z.lxor b c) d.
Definition sha1_k (t : nat) : Z :=
  if decide (t < 20)%nat then 0x5a827999 else if decide (t < 40)%nat then 0x6ed9eba1
  else if decide (t < 60)%nat then 0x8f1bbcdc else 0xca62c1d6.
Fixpoint sha1_rounds (ts : list nat) (win : list Z) (s : st5) : st5 :=
  match ts, win with
  | t :: ts, w :: rest =>
      let 'St5 a b c d e := s in
      let next := rotr 32 31 (Z.lxor (Z.lxor (nth 13 win 0) (nth 8 win 0)) (Z.lxor (nth 2 win 0) w)) in
      let x := wadd 32 (wadd 32 (wadd 32 (rotr 32 27 a) (sha1_f t b c d)) (wadd 32 e (sha1_k t))) w in
      sha1_rounds ts (rest ++ [next]) (St5 x a (rotr 32 2 b) c d)
  | _, _ => s
  end.
Definition sha1_block (s : st5) (blk : bytes) : st5 :=
  let 'St5 a b c d e := s in
  let 'St5 a' b' c' d' e' := sha1_rounds (seq 0 80) (bewords 16 4 blk) s in
  St5 (wadd 32 a a') (wadd 32 b b') (wadd 32 c c') (wadd 32 d d') (wadd 32 e e').
Definition sha_1 (m : bytes) : bytes :=
  let 'St5 a b c d e := hash_blocks 64 sha1_block (St5 0x67452301 0xefcdab89 0x98badcfe 0x10325476 0xc3d2e1f0) (hash_pad 64 8 m) in
  be 4 a ++ be 4 b ++ be 4 c ++ be 4 d ++ be 4 e.

(** *** HMAC, for hashes with blocks of 64 bytes *)
Definition xor_with (c : Z) (l : bytes) : bytes := map (fun b => zb (Z.lxor (bz b) c)) l.
Definition hmac (h : bytes -> bytes) (key m : bytes) : bytes :=
  let k := copy_into 64 (if decide (64 < length key)%nat then h key else key) in
  h (xor_with 0x5c k ++ h (xor_with 0x36 k ++ m)).

(** *** PBKDF2 with HMAC-SHA-256 and one iteration: [n] bytes *)
Definition pbkdf2 (pass salt : bytes) (n : nat) : bytes :=
  take n (concat (map (fun i => hmac sha_256 pass (salt ++ be 4 (Z.of_nat i))) (seq 1 (n / 32 + 1)))).
