(** bcrypt after Provos and Mazieres, "A Future-Adaptable Password Scheme" (1999), on Blowfish
    after Schneier (1994), and the text it is written as; apart from the model of the library. *)
From Verif Require Export SpecWritten PiDigits.
Local Open Scope Z_scope.

(** *** Blowfish *)
(** One row of 18 + 4 * 256 words: P1 … P18, then the boxes S1 … S4. *)
Definition row_init : list Z := pi_p ++ pi_s0 ++ pi_s1 ++ pi_s2 ++ pi_s3.
Definition P_ (m : list Z) (i : nat) : Z := nth (i - 1) m 0.
Definition S_ (m : list Z) (box : nat) (x : byte) : Z := nth (18 + 256 * (box - 1) + Z.to_nat (bz x)) m 0.
(** F(xL) = ((S1,a + S2,b mod 2^32) xor S3,c) + S4,d mod 2^32, for the four bytes of xL. *)
Definition F_ (m : list Z) (x : Z) : Z :=
  match be 4 x with
  | [a; b; c; d] => (Z.lxor ((S_ m 1 a + S_ m 2 b) mod 2 ^ 32) (S_ m 3 c) + S_ m 4 d) mod 2 ^ 32
  | _ => 0
  end.
(** Rounds 1 to [n]: xL := xL xor Pi, xR := F(xL) xor xR, exchange. *)
Fixpoint feistel (m : list Z) (n : nat) (b : Z * Z) : Z * Z :=
  match n with
  | O => b
  | S n => let '(l, r) := feistel m n b in let l := Z.lxor l (P_ m (S n)) in (Z.lxor (F_ m l) r, l)
  end.
(** The last exchange is undone, then xR := xR xor P17, xL := xL xor P18. *)
Definition blowfish (m : list Z) (b : Z * Z) : Z * Z :=
  let '(r, l) := feistel m 16 b in (Z.lxor l (P_ m 18), Z.lxor r (P_ m 17)).

(** *** The key schedule *)
(** Word [n] of a string repeated without end. *)
Definition word_of (k : bytes) (n : nat) : Z := unbe (take 4 (drop (4 * n) (concat (replicate (4 * n + 4) k)))).
(** ExpandKey: the key goes into P; then the row is overwritten pair by pair with what
    Blowfish, as far as it has got, makes of the previous pair and of the halves of the salt in turn. *)
Definition with_key (key : bytes) (m : list Z) : list Z := map (fun i => Z.lxor (nth i m 0) (word_of key i)) (seq 0 18) ++ drop 18 m.
Fixpoint overwrite (salt : nat -> Z) (n : nat) (m : list Z) : list Z * (Z * Z) :=
  match n with
  | O => (m, (0, 0))
  | S t =>
      let '(m, (l, r)) := overwrite salt t m in
      let '(l, r) := blowfish m (Z.lxor l (salt (2 * t)%nat), Z.lxor r (salt (2 * t + 1)%nat)) in
      (<[(2 * t + 1)%nat := r]> (<[(2 * t)%nat := l]> m), (l, r))
  end.
Definition expand_key (salt : option bytes) (key : bytes) (m : list Z) : list Z :=
  fst (overwrite (match salt with Some s => word_of s | None => fun _ => 0 end) 521 (with_key key m)).
(** EksBlowfishSetup *)
Definition eks_setup (cost : Z) (salt key : bytes) : list Z :=
  Nat.iter (Z.to_nat (2 ^ cost)) (fun m => expand_key None salt (expand_key None key m)) (expand_key (Some salt) key row_init).

(** *** bcrypt *)
(** "OrpheanBeholderScryDoubt", three blocks, 64 times; the last byte is not kept. *)
Definition magic : list (Z * Z) :=
  map (fun b => (unbe (take 4 b), unbe (drop 4 b))) [bs "OrpheanB"; bs "eholderS"; bs "cryDoubt"].
Definition bcrypt_23 (cost : Z) (salt key : bytes) : bytes :=
  take 23 (flat_map (fun b => be 4 (fst b) ++ be 4 (snd b)) (Nat.iter 64 (map (blowfish (eks_setup cost salt key))) magic)).

(** *** The text *)
Definition bcrypt_alphabet : bytes := bs "./ABCDEFGHIJKLMNOPQRSTUVWXYZabcdefghijklmnopqrstuvwxyz0123456789".
(** Written: zero bits to fill up the last character, no padding. *)
Definition radix64_written (s b : bytes) : Prop := exists vs, Forall2 (digit bcrypt_alphabet) s vs /\ exact_bits 6 vs b.
Definition decimal (c : byte) (v : Z) : Prop := digit (bs "0123456789") c v.
Definition bcrypt_text (cost : Z) (salt key s : bytes) : Prop :=
  exists a b x y ss hs, s = bs "$2a$" ++ [a; b] ++ bs "$" ++ ss ++ hs /\
    decimal a x /\ decimal b y /\ cost = 10 * x + y /\
    radix64_written ss salt /\ radix64_written hs (bcrypt_23 cost salt key).
(** Read: the major version is at most 2; the minor version and the separators are not
    looked at; the cost may have a plus sign; line breaks are skipped in the salt; what
    comes after the hash does not matter. *)
Definition cost_text (a b : byte) (cost : Z) : Prop :=
  exists y, decimal b y /\ ((a = x2b /\ cost = y) \/ exists x, decimal a x /\ cost = 10 * x + y).
Definition salt_text (ss salt : bytes) : Prop :=
  exists vs, Forall2 (digit bcrypt_alphabet) (no_breaks ss) vs /\ (length (no_breaks ss) mod 4 = 2)%nat /\ packed 6 vs salt.
Definition bcrypt_accepts (h pw : bytes) : Prop :=
  exists major minor a b sep ss hs rest cost salt,
    h = x24 :: major :: minor ++ [a; b; sep] ++ ss ++ hs ++ rest /\ bz major <= 50 /\
    (minor = [x24] \/ exists c d, minor = [c; d] /\ c <> x24) /\
    length ss = 22%nat /\ length hs = 31%nat /\
    cost_text a b cost /\ 4 <= cost <= 31 /\ salt_text ss salt /\
    radix64_written hs (bcrypt_23 cost salt (pw ++ [x00])).
