(** What a YubiKey does, after FIPS 197 and Yubico's description of its tokens, apart from
    the model of the library that reads them. *)
From Verif Require Export Bytes.
Local Open Scope Z_scope.

(** *** FIPS 197 *)
(** Exclusive or of bytes and of strings of bytes. *)
Definition bx (a b : byte) : byte := zb (Z.lxor (bz a) (bz b)).
Definition sx (a b : bytes) : bytes := zip_with bx a b.
(** 4.2: bytes as polynomials modulo x^8 + x^4 + x^3 + x + 1. *)
Definition reduce (a : Z) : Z := if Z.testbit a 8 then Z.lxor a 0x11b else a.
Fixpoint poly_mul (n : nat) (a b : Z) : Z :=
  match n with
  | O => 0
  | S n => Z.lxor (if Z.odd a then b else 0) (poly_mul n (a / 2) (reduce (2 * b)))
  end.
Definition gmul (a b : byte) : byte := zb (poly_mul 8 (bz a) (bz b)).
(** 5.1.1: the multiplicative inverse, zero for zero, as the square of the 127th power. *)
Definition ginv (a : byte) : byte := let p := Nat.iter 6 (fun x => gmul a (gmul x x)) a in gmul p p.
(** 5.1.1: bit [i] is the sum of bits i, i+4, i+5, i+6, i+7 of the inverse and of 0x63. *)
Definition affine (b : byte) : byte :=
  zb (foldr (fun i z => 2 * z +
    Z.b2z (foldr xorb (Z.testbit 0x63 i) (map (fun j => Z.testbit (bz b) ((i + j) mod 8)) [0; 4; 5; 6; 7]))) 0 [0; 1; 2; 3; 4; 5; 6; 7]).
Definition sub_byte (a : byte) : byte := affine (ginv a).
Definition sub_bytes (s : bytes) : bytes := map sub_byte s.
(** 3.4: byte [r + 4 c] of the input is row [r], column [c]. 5.1.2: row [r] moves [r] to the left. *)
Definition at_ (s : bytes) (r c : nat) : byte := nth (r + 4 * (c mod 4)) s x00.
Definition by_column (f : nat -> nat -> byte) : bytes := flat_map (fun c => map (fun r => f r c) [0; 1; 2; 3]%nat) [0; 1; 2; 3]%nat.
Definition shift_rows (s : bytes) : bytes := by_column (fun r c => at_ s r (c + r)).
(** 5.1.3 *)
Definition mix_columns (s : bytes) : bytes :=
  by_column (fun r c => bx (bx (gmul x02 (at_ s r c)) (gmul x03 (at_ s ((r + 1) mod 4) c)))
                           (bx (at_ s ((r + 2) mod 4) c) (at_ s ((r + 3) mod 4) c))).
(** 5.2: the words w[0], w[1], … *)
Definition rcon (i : nat) : bytes := [Nat.iter (i - 1) (gmul x02) x01; x00; x00; x00].
Definition rot_word (w : bytes) : bytes := match w with a :: w => w ++ [a] | [] => [] end.
Fixpoint key_words (k : bytes) (n : nat) : list bytes :=
  match n with
  | O => [take 4 k; take 4 (drop 4 k); take 4 (drop 8 k); drop 12 k]
  | S n =>
      let w := key_words k n in
      let i := (n + 4)%nat in
      let t := nth (i - 1) w [] in
      let t := if decide (i mod 4 = 0)%nat then sx (sub_bytes (rot_word t)) (rcon (i / 4)) else t in
      w ++ [sx (nth (i - 4) w []) t]
  end.
Definition round_key (k : bytes) (r : nat) : bytes := concat (take 4 (drop (4 * r) (key_words k 40))).
(** 5.1: the cipher. *)
Fixpoint main_rounds (k : bytes) (n : nat) (s : bytes) : bytes :=
  match n with
  | O => sx s (round_key k 0)
  | S n => sx (mix_columns (shift_rows (sub_bytes (main_rounds k n s)))) (round_key k (S n))
  end.
Definition aes_128 (k m : bytes) : bytes := sx (shift_rows (sub_bytes (main_rounds k 9 m))) (round_key k 10).

(** *** The token *)
(** ISO 13239: the remainder of [l], bits in order of transmission, by x^16 + x^12 + x^5 + 1. *)
Definition crc_step (c : Z) (bit : bool) : Z :=
  let s := Z.shiftr c 1 in if xorb (Z.odd c) bit then Z.lxor s 0x8408 else s.
Definition bits_of (b : byte) : list bool := map (Z.testbit (bz b)) [0; 1; 2; 3; 4; 5; 6; 7].
Definition iso13239 (l : bytes) : Z := foldl crc_step 0xffff (flat_map bits_of l).
(** Numbers go low byte first. *)
Definition le2 (z : Z) : bytes := [zb z; zb (z / 256)].
Record press := Press {
  pr_private : bytes; (* six bytes *)
  pr_session : Z;     (* power-ups so far, 15 bits *)
  pr_caps : bool;     (* pressed by the caps lock key rather than touched *)
  pr_time : bytes;    (* three bytes *)
  pr_use : byte;      (* uses in this session *)
  pr_random : bytes   (* two bytes *)
}.
Definition wf_press (p : press) : Prop :=
  length (pr_private p) = 6%nat /\ 0 <= pr_session p < 2 ^ 15 /\ length (pr_time p) = 3%nat /\ length (pr_random p) = 2%nat.
Definition payload (p : press) : bytes := pr_private p ++ le2 (pr_session p + 32768 * Z.b2z (pr_caps p)) ++ pr_time p ++ [pr_use p] ++ pr_random p.
(** The checksum is stored complemented. *)
Definition with_crc (b : bytes) : bytes := b ++ le2 (0xffff - iso13239 b).
Definition modhex_char (z : Z) : byte := nth (Z.to_nat z) (bs "cbdefghijklnrtuv") x00.
Definition to_modhex (b : bytes) : bytes := flat_map (fun x => [modhex_char (bz x / 16); modhex_char (bz x mod 16)]) b.
(** What the key types: its public identity, then the encrypted token. *)
Definition typed_otp (key public : bytes) (p : press) : bytes :=
  to_modhex public ++ to_modhex (aes_128 key (with_crc (payload p))).
