(** The textual encodings after RFC 4648 and RFC 7468, as the readers of the Go
    library take them: what a text denotes, by its value as one large number. *)
From Verif Require Export SpecJson SpecBase32.
Local Open Scope Z_scope.

(** The alphabets: a digit is worth its place. *)
Definition b64_alphabet : bytes := bs "ABCDEFGHIJKLMNOPQRSTUVWXYZabcdefghijklmnopqrstuvwxyz0123456789+/".
Definition digit (alphabet : bytes) (c : byte) (v : Z) : Prop := 0 <= v /\ alphabet !! Z.to_nat v = Some c.
(** The number that digits of base [base] denote, most significant first. *)
Definition radix (base : Z) (vs : list Z) : Z := fold_left (fun a v => a * base + v) vs 0.
(** [packed w vs b]: the bits of the digits, [w] of each, are those of the bytes and
    fewer than eight more, which may be anything. *)
Definition packed (w : Z) (vs : list Z) (b : bytes) : Prop :=
  exists k e, 0 <= k < 8 /\ w * Z.of_nat (length vs) = 8 * zlen b + k /\ 0 <= e < 2 ^ k /\ radix (2 ^ w) vs = unbe b * 2 ^ k + e.

Definition no_breaks (s : bytes) : bytes := List.filter (fun c => negb (bool_decide (c = x0a \/ c = x0d))) s.
(** Base64: line breaks anywhere, padding to a multiple of four by at most two. *)
Definition base64_text (s b : bytes) : Prop :=
  exists ds vs n, no_breaks s = ds ++ replicate n x3d /\ Forall2 (digit b64_alphabet) ds vs /\
    (n <= 2)%nat /\ ((length ds + n) mod 4 = 0)%nat /\ packed 6 vs b.
(** Base32: line breaks anywhere, padding of the last group of eight, and then anything
    that keeps the rest from the first padding character on within eight. *)
Definition base32_text (s b : bytes) : Prop :=
  exists ds vs n junk, no_breaks s = ds ++ replicate n x3d ++ junk /\ Forall2 (digit b32_alphabet) ds vs /\ packed 5 vs b /\
    (n = 0 /\ junk = [] /\ length ds mod 8 = 0 \/
     length ds mod 8 + n = 8 /\ (n = 1 \/ n = 3 \/ n = 4 \/ n = 6) /\ n + length junk <= 8)%nat.
(** Hexadecimal: an even number of digits of either case. *)
Definition hex_text (s b : bytes) : Prop :=
  exists vs, Forall2 hexval s vs /\ length s = (2 * length b)%nat /\ radix 16 vs = unbe b.

(** PEM: lines, and blanks at their ends. *)
Definition at_line (before : bytes) : Prop := before = [] \/ exists q, before = q ++ [x0a].
Definition blank_end (w : bytes) : Prop := exists t cr, w = t ++ cr /\ Forall (fun b => b = x20 \/ b = x09) t /\ (cr = [] \/ cr = [x0d]).
(** The rest of the line the text starts in is blank. *)
Definition blank_to_end (s : bytes) : Prop :=
  Forall (fun b => b = x20 \/ b = x09) s \/ exists w r, s = w ++ x0a :: r /\ blank_end w.
Definition header_line (h : bytes) : Prop := exists l, h = l ++ [x0a] /\ x0a ∉ l /\ x3a ∈ l.
Definition no_blanks (s : bytes) : bytes := List.filter (fun b => negb (bool_decide (b = x20 \/ b = x09))) s.
(** [pem_block ty b s]: [s] starts with a block of that type and contents. *)
Definition pem_block (ty b s : bytes) : Prop :=
  exists w hs body rest,
    s = bs "-----BEGIN " ++ ty ++ bs "-----" ++ w ++ [x0a] ++ concat hs ++ body ++ bs "-----END " ++ ty ++ bs "-----" ++ rest /\
    blank_end w /\ x0a ∉ ty /\ Forall header_line hs /\ at_line body /\ base64_text (no_blanks body) b /\ blank_to_end rest.
(** No block starts in what comes before. *)
Definition no_marker (pre : bytes) : Prop := forall u v, pre <> u ++ bs "-----BEGIN " ++ v.
