(** golang.org/x/crypto/bcrypt and /blowfish, as common/auth/password.go:20 (GenerateFromPassword)
    and :36 (CompareHashAndPassword) call them; modelled from the sources of both. With
    [Aes] this gives the whole of [AuthLib]. No proofs here. *)
From Verif Require Export Aes Hash Base64 PiDigits.
Local Open Scope Z_scope.

(** *** Blowfish *)
(** [Cipher]: the round keys and the four boxes; [initCipher]: the tables one starts from. *)
Record bf := Bf { bfP : list Z; bf0 : list Z; bf1 : list Z; bf2 : list Z; bf3 : list Z }.
Definition bf_init : bf := Bf pi_p pi_s0 pi_s1 pi_s2 pi_s3.
Definition bf_f (c : bf) (x : Z) : Z :=
  let at_ l k := nth (Z.to_nat (Z.shiftr x k mod 256)) l 0 in
  wadd 32 (Z.lxor (wadd 32 (at_ (bf0 c) 24) (at_ (bf1 c) 16)) (at_ (bf2 c) 8)) (at_ (bf3 c) 0).
(** [encryptBlock]: the halves change places in every round. *)
Definition bf_encrypt (c : bf) (l r : Z) : Z * Z :=
  let step (s : Z * Z) k := let '(a, b) := s in (Z.lxor (Z.lxor b (bf_f c a)) k, a) in
  let '(a, b) := fold_left step (take 16 (drop 1 (bfP c))) (Z.lxor l (nth 0 (bfP c) 0), r) in
  (Z.lxor b (nth 17 (bfP c) 0), a).
(** [getNextWord], the [n]th time: the bytes are read cyclically. *)
Definition bf_word (k : bytes) (n : nat) : Z := unbe (map (fun i => nth ((4 * n + i) mod length k) k x00) [0; 1; 2; 3]%nat).
(** What is filled, two words at a time: table 0 is the round keys. *)
Definition bf_slots : list (nat * nat) :=
  map (fun i => (0, 2 * i)%nat) (seq 0 9) ++ flat_map (fun b => map (fun i => (b, 2 * i)%nat) (seq 0 128)) [1; 2; 3; 4]%nat.
Definition bf_put (c : bf) (b i : nat) (l r : Z) : bf :=
  let put t := <[S i := r]> (<[i := l]> t) in
  match b with
  | 0%nat => Bf (put (bfP c)) (bf0 c) (bf1 c) (bf2 c) (bf3 c)
  | 1%nat => Bf (bfP c) (put (bf0 c)) (bf1 c) (bf2 c) (bf3 c)
  | 2%nat => Bf (bfP c) (bf0 c) (put (bf1 c)) (bf2 c) (bf3 c)
  | 3%nat => Bf (bfP c) (bf0 c) (bf1 c) (put (bf2 c)) (bf3 c)
  | _ => Bf (bfP c) (bf0 c) (bf1 c) (bf2 c) (put (bf3 c))
  end.
(** The words of the salt come in by turns; without a salt they are zero. *)
Fixpoint bf_fill (salt : nat -> Z) (slots : list (nat * nat)) (n : nat) (l r : Z) (c : bf) : bf :=
  match slots with
  | [] => c
  | (b, i) :: slots =>
      let '(l, r) := bf_encrypt c (Z.lxor l (salt n)) (Z.lxor r (salt (S n))) in
      bf_fill salt slots (S (S n)) l r (bf_put c b i l r)
  end.
Definition bf_keyed (key : bytes) (c : bf) : bf :=
  Bf (zip_with Z.lxor (bfP c) (map (bf_word key) (seq 0 18))) (bf0 c) (bf1 c) (bf2 c) (bf3 c).
(** [ExpandKey] and [expandKeyWithSalt]. *)
Definition bf_expand (key : bytes) (c : bf) : bf := bf_fill (fun _ => 0) bf_slots 0 0 0 (bf_keyed key c).
Definition bf_expand_salted (key salt : bytes) (c : bf) : bf := bf_fill (bf_word salt) bf_slots 0 0 0 (bf_keyed key c).

(** *** bcrypt *)
(** [expensiveBlowfishSetup]: the key is the password and a zero byte. *)
Definition bc_setup (cost : Z) (salt key : bytes) : bf :=
  Pos.iter (fun c => bf_expand salt (bf_expand key c)) (bf_expand_salted key salt bf_init) (Z.to_pos (2 ^ cost)).
(** [bcrypt]: a text enciphered 64 times, 23 bytes of it. *)
Definition bc_block (c : bf) (b : bytes) : bytes :=
  let '(l, r) := Nat.iter 64 (fun s => bf_encrypt c (fst s) (snd s)) (unbe (take 4 b), unbe (drop 4 b)) in be 4 l ++ be 4 r.
Definition bc_raw (cost : Z) (salt key : bytes) : bytes :=
  let c := bc_setup cost salt key in
  take 23 (bc_block c (bs "OrpheanB") ++ bc_block c (bs "eholderS") ++ bc_block c (bs "cryDoubt")).

(** bcrypt's own base64 (base64.go): another alphabet, and no padding is written. *)
Definition bc_alphabet : bytes := bs "./ABCDEFGHIJKLMNOPQRSTUVWXYZabcdefghijklmnopqrstuvwxyz0123456789".
Definition bc_char (n : Z) : byte := nth (Z.to_nat n) bc_alphabet x00.
Fixpoint bc_encode (b : bytes) : bytes :=
  match b with
  | [] => []
  | [x] => let v := bz x * 16 in [bc_char (v / 64); bc_char (v mod 64)]
  | [x; y] => let v := (bz x * 256 + bz y) * 4 in [bc_char (v / 4096); bc_char (v / 64 mod 64); bc_char (v mod 64)]
  | x :: y :: z :: r =>
      let v := (bz x * 256 + bz y) * 256 + bz z in
      bc_char (v / 262144) :: bc_char (v / 4096 mod 64) :: bc_char (v / 64 mod 64) :: bc_char (v mod 64) :: bc_encode r
  end.
(** [base64Decode]: padding is added and Go's decoder called, here that of the standard
    alphabet with the characters renamed. It skips line breaks. *)
Definition bc_std (c : byte) : byte :=
  match list_find (fun d => d = c) bc_alphabet with
  | Some (i, _) => b64char (Z.of_nat i)
  | None => if decide (c = x0a \/ c = x0d \/ c = x3d) then c else x00
  end.
Definition bc_decode (s : bytes) : option bytes := b64_decode (map bc_std s ++ repeat x3d (4 - length s mod 4)).

(** [hashed.Hash]: version 2a, cost, salt, hash. *)
Definition bc_digit (n : Z) : byte := zb (48 + n).
Definition bc_join (cost : Z) (salt hash : bytes) : bytes :=
  bs "$2a$" ++ [bc_digit (cost / 10); bc_digit (cost mod 10)] ++ bs "$" ++ bc_encode salt ++ bc_encode hash.
(** [GenerateFromPassword] *)
Definition bcrypt_string (cost : Z) (salt key : bytes) : bytes := bc_join cost salt (bc_raw cost salt key).
(** [strconv.Atoi] of two characters. *)
Definition bc_num (c : byte) : option Z := if decide (48 <= bz c <= 57) then Some (bz c - 48) else None.
Definition bc_cost (a b : byte) : option Z :=
  match bc_num b with
  | None => None
  | Some y =>
      if decide (a = x2b) then Some y else if decide (a = x2d) then Some (- y) else
      match bc_num a with Some x => Some (10 * x + y) | None => None end
  end.
(** [CompareHashAndPassword] = nil, with [newFromHash], [decodeVersion] and [decodeCost]. The
    strings compared are rebuilt by [hashed.Hash] and agree but for the last 31 bytes. *)
Definition bcrypt_compare (h pw : bytes) : bool :=
  if decide (length h < 59)%nat then false else
  if decide (nth 0 h x00 <> x24) then false else
  if decide (bz x32 < bz (nth 1 h x00)) then false else
  let n := if decide (nth 2 h x00 = x24) then 3%nat else 4%nat in
  match bc_cost (nth n h x00) (nth (S n) h x00) with
  | None => false
  | Some cost =>
      if decide (cost < 4 \/ 31 < cost) then false else
      match bc_decode (take 22 (drop (n + 3) h)) with
      | None => false
      | Some salt => bool_decide (copy_into 31 (drop (n + 25) h) = bc_encode (bc_raw cost salt (pw ++ [x00])))
      end
  end.

(** The third-party packages of common/auth. *)
Definition real_auth : AuthLib := yubico bcrypt_string bcrypt_compare.
