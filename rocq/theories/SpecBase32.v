(** Base32 after RFC 4648, section 6. *)
From Verif Require Export Base32.
Local Open Scope Z_scope.

(** The alphabet, table 3. *)
Definition b32_alphabet : bytes := bs "ABCDEFGHIJKLMNOPQRSTUVWXYZ234567".
(** A group of up to five bytes as characters: its bits, filled with zeros to a
    multiple of five, five at a time. *)
Definition b32_chars (g : bytes) : bytes :=
  let n := ((8 * length g + 4) / 5)%nat in
  let v := unbe g * 2 ^ (5 * Z.of_nat n - 8 * zlen g) in
  map (fun i => nth (Z.to_nat (v / 32 ^ (Z.of_nat n - 1 - Z.of_nat i) mod 32)) b32_alphabet x00) (seq 0 n).
(** [b32 k s]: [s] is the encoding of [k], without padding. *)
Inductive b32 : bytes -> bytes -> Prop :=
  | b32_last g : (length g < 5)%nat -> b32 g (b32_chars g)
  | b32_more g k s : length g = 5%nat -> b32 k s -> b32 (g ++ k) (b32_chars g ++ s).
(** With padding to a multiple of eight characters. *)
Definition b32_padded (k t : bytes) : Prop :=
  exists s n, b32 k s /\ t = s ++ repeat x3d n /\ (n < 8)%nat /\ (length t mod 8 = 0)%nat.

Definition ascii (s : bytes) : Prop := Forall (fun c => bz c < 128) s.
(** Upper case of ASCII letters. *)
Definition upper (b : byte) : byte := if decide (97 <= bz b <= 122) then zb (bz b - 32) else b.
(** What is assumed of [bytes.ToUpper]: ASCII text is mapped letter by letter. *)
Definition ascii_upper (up : bytes -> bytes) : Prop := forall s, ascii s -> up s = map upper s.
(** A letter of the alphabet, or padding. *)
Definition b32_letter (c : byte) : Prop := c ∈ b32_alphabet \/ c = x3d.
