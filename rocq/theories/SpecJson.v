(** JSON texts, from RFC 8259, with the two places where Go is more lenient than
    the RFC (stray bytes and lone surrogates read as U+FFFD) spelled out. *)
From Verif Require Export SpecStore SpecText.
Local Open Scope Z_scope.

Definition blank (w : bytes) : Prop := Forall (fun b => b = x20 \/ b = x09 \/ b = x0a \/ b = x0d) w.

(** Four hexadecimal digits, and the letters of the short escapes. *)
Inductive hexval : byte -> Z -> Prop :=
  | hv_digit b : 48 <= bz b <= 57 -> hexval b (bz b - 48)
  | hv_lower b : 97 <= bz b <= 102 -> hexval b (bz b - 97 + 10)
  | hv_upper b : 65 <= bz b <= 70 -> hexval b (bz b - 65 + 10).
Definition quad (ds : bytes) (u : Z) : Prop :=
  exists a b c d x y z w, ds = [a; b; c; d] /\ hexval a x /\ hexval b y /\ hexval c z /\ hexval d w /\
    u = 4096 * x + 256 * y + 16 * z + w.
Definition short_escapes : list (byte * byte) :=
  [(x22, x22); (x5c, x5c); (x2f, x2f); (x62, x08); (x66, x0c); (x6e, x0a); (x72, x0d); (x74, x09)].
Definition high_surrogate (u : Z) : Prop := 55296 <= u <= 56319.
Definition low_surrogate (u : Z) : Prop := 56320 <= u <= 57343.

(** [jchars s v rest]: [s] is the contents of a string denoting [v], the closing
    quotation mark, and [rest]. *)
Inductive jchars : bytes -> bytes -> bytes -> Prop :=
  | jc_end rest : jchars (x22 :: rest) [] rest
  | jc_plain r c s v rest : scalar r -> 32 <= r -> r <> 34 -> r <> 92 -> rfc3629 r c -> jchars s v rest -> jchars (c ++ s) (c ++ v) rest
  | jc_stray b s v rest : (forall r c, scalar r -> rfc3629 r c -> ~ c `prefix_of` b :: s) -> jchars s v rest ->
      jchars (b :: s) (xef :: xbf :: xbd :: v) rest
  | jc_short e c s v rest : (e, c) ∈ short_escapes -> jchars s v rest -> jchars (x5c :: e :: s) (c :: v) rest
  | jc_unit ds u c s v rest : quad ds u -> scalar u -> rfc3629 u c -> jchars s v rest -> jchars (x5c :: x75 :: ds ++ s) (c ++ v) rest
  | jc_pair ds u ds' u' c s v rest : quad ds u -> quad ds' u' -> high_surrogate u -> low_surrogate u' ->
      rfc3629 (65536 + 1024 * (u - 55296) + (u' - 56320)) c -> jchars s v rest ->
      jchars (x5c :: x75 :: ds ++ x5c :: x75 :: ds' ++ s) (c ++ v) rest
  | jc_lone ds u s v rest : quad ds u -> high_surrogate u \/ low_surrogate u ->
      (high_surrogate u -> forall ds' u' s', s = x5c :: x75 :: ds' ++ s' -> quad ds' u' -> ~ low_surrogate u') ->
      jchars s v rest -> jchars (x5c :: x75 :: ds ++ s) (xef :: xbf :: xbd :: v) rest.
Definition jstring (s v : bytes) : Prop := exists t, s = x22 :: t /\ jchars t v [].

Definition digit_run (d : bytes) : Prop := d <> [] /\ Forall is_digit d.
Definition jnumber (n : bytes) : Prop :=
  exists sg i fr ex, n = sg ++ i ++ fr ++ ex /\ (sg = [] \/ sg = [x2d]) /\
    (i = [x30] \/ digit_run i /\ head i <> Some x30) /\
    (fr = [] \/ exists d, fr = x2e :: d /\ digit_run d) /\
    (ex = [] \/ exists e es d, ex = e :: es ++ d /\ (e = x65 \/ e = x45) /\ (es = [] \/ es = [x2b] \/ es = [x2d]) /\ digit_run d).

(** A value without white space around it, the values of an array, the members
    of an object. *)
Inductive jvalue : bytes -> json -> Prop :=
  | jv_null : jvalue (bs "null") JNull
  | jv_true : jvalue (bs "true") (JBool true)
  | jv_false : jvalue (bs "false") (JBool false)
  | jv_number n : jnumber n -> jvalue n (JNum n)
  | jv_string s v : jstring s v -> jvalue s (JStr v)
  | jv_array0 w : blank w -> jvalue (x5b :: w ++ [x5d]) (JArr [])
  | jv_array s l : jvalues s l -> jvalue (x5b :: s ++ [x5d]) (JArr l)
  | jv_object0 w : blank w -> jvalue (x7b :: w ++ [x7d]) (JObj [])
  | jv_object s l : jmembers s l -> jvalue (x7b :: s ++ [x7d]) (JObj l)
with jvalues : bytes -> list json -> Prop :=
  | jvs_one w s j w' : blank w -> jvalue s j -> blank w' -> jvalues (w ++ s ++ w') [j]
  | jvs_more w s j w' t l : blank w -> jvalue s j -> blank w' -> jvalues t l -> jvalues (w ++ s ++ w' ++ x2c :: t) (j :: l)
with jmembers : bytes -> list (bytes * json) -> Prop :=
  | jms_one w1 k key w2 w3 s j w4 : blank w1 -> jstring k key -> blank w2 -> blank w3 -> jvalue s j -> blank w4 ->
      jmembers (w1 ++ k ++ w2 ++ x3a :: w3 ++ s ++ w4) [(key, j)]
  | jms_more w1 k key w2 w3 s j w4 t l : blank w1 -> jstring k key -> blank w2 -> blank w3 -> jvalue s j -> blank w4 -> jmembers t l ->
      jmembers (w1 ++ k ++ w2 ++ x3a :: w3 ++ s ++ w4 ++ x2c :: t) ((key, j) :: l).

(** Arrays and objects within one another, [n] levels at most. *)
Inductive levels : Z -> json -> Prop :=
  | lv_null n : levels n JNull
  | lv_bool n b : levels n (JBool b)
  | lv_num n l : levels n (JNum l)
  | lv_str n s : levels n (JStr s)
  | lv_arr n l : 0 < n -> (forall j, j ∈ l -> levels (n - 1) j) -> levels n (JArr l)
  | lv_obj n l : 0 < n -> (forall k j, (k, j) ∈ l -> levels (n - 1) j) -> levels n (JObj l).
(** Go reads no text with more than 10000 levels. *)
Definition json_text (s : bytes) (j : json) : Prop :=
  exists w t w', s = w ++ t ++ w' /\ blank w /\ jvalue t j /\ blank w' /\ levels 10000 j.
