(** Specification vocabulary for the URL an authenticator app reads: RFC 3986, the form
    encoding of queries, and the Key URI format with its defaults. *)
From Verif Require Export TotpUrl SpecAuth SpecBase32.
Local Open Scope Z_scope.

(** Percent encoding; [plus]: a plus stands for a blank. *)
Inductive pct (plus : bool) : bytes -> bytes -> Prop :=
  | pct_nil : pct plus [] []
  | pct_hex a b h l s t : unhexdigit a = Some h -> unhexdigit b = Some l -> pct plus s t -> pct plus (x25 :: a :: b :: s) (zb (16 * h + l) :: t)
  | pct_plus s t : plus = true -> pct plus s t -> pct plus (x2b :: s) (x20 :: t)
  | pct_char c s t : c <> x25 -> (plus = true -> c <> x2b) -> pct plus s t -> pct plus (c :: s) (c :: t).
(** name=value, name=value, … with ampersands between. *)
Definition pair_text (k v : bytes) (p : bytes * bytes) : Prop := x26 ∉ k /\ x3d ∉ k /\ x26 ∉ v /\ pct true k (fst p) /\ pct true v (snd p).
Inductive form : bytes -> list (bytes * bytes) -> Prop :=
  | fm_one k v p : pair_text k v p -> form (k ++ [x3d] ++ v) [p]
  | fm_more k v p q ps : pair_text k v p -> form q ps -> form (k ++ [x3d] ++ v ++ [x26] ++ q) (p :: ps).
(** [u] is a TOTP key URI for [label] with parameters [ps]. *)
Definition key_uri (u label : bytes) (ps : list (bytes * bytes)) : Prop :=
  exists p q, u = bs "otpauth://totp/" ++ p ++ [x3f] ++ q /\ x3f ∉ p /\ x23 ∉ p ++ q /\ pct false p label /\ form q ps.
(** The value of a parameter, or its default. *)
Definition param (ps : list (bytes * bytes)) (n : bytes) : option bytes := snd <$> List.find (fun p => bool_decide (fst p = n)) ps.
Definition number_param (ps : list (bytes * bytes)) (n : bytes) (d z : Z) : Prop :=
  match param ps n with None => z = d | Some v => Forall is_digit v /\ v <> [] /\ z = dval v end.
Section WithCrypto.
Context `{C : Crypto}.
(** The code that an app which has read [u] shows at time [t]. *)
Definition app_code (u : bytes) (t : Z) (s : bytes) : Prop :=
  exists label ps secret key digits period, key_uri u label ps /\ param ps (bs "secret") = Some secret /\ b32_padded key secret /\
    number_param ps (bs "digits") 6 digits /\ number_param ps (bs "period") 30 period /\
    (param ps (bs "algorithm") = None \/ param ps (bs "algorithm") = Some (bs "SHA1")) /\
    hotp key (t / period) (Z.to_nat digits) s.
End WithCrypto.
(** A label without the slash it may start with. *)
Definition unslashed (label : bytes) : bytes := match label with c :: l => if decide (c = x2f) then l else label | [] => [] end.
(** The parameters the URL of a configuration carries. *)
Definition carried (c : totp) (secret digits : bytes) : list (bytes * bytes) :=
  (if decide (tSize c = 6) then [] else [(bs "digits", digits)]) ++
  (if decide (tProvider c = []) then [] else [(bs "provider", tProvider c)]) ++ [(bs "secret", secret)].
(** Letters, digits and the marks RFC 3986 allows. *)
Definition uri_char (c : byte) : Prop :=
  97 <= bz c <= 122 \/ 65 <= bz c <= 90 \/ 48 <= bz c <= 57 \/ c ∈ bs "-._~:/?#[]@!$&'()*+,;=%".
