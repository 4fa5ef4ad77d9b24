(** Model of encoding/json (Go 1.23) as far as the code uses it: syntax, string
    quoting with Go's treatment of invalid UTF-8, and the printer. Decoding into
    the Go types of each package is in the file of that package. No proofs here. *)
From Verif Require Export Base64.
From stdpp Require Export sorting.
Local Open Scope Z_scope.

(** [utf8.DecodeRune]: the length of the well-formed character a byte string
    starts with; 0 where Go returns RuneError with width 1. *)
Definition cont (lo hi : Z) (b : byte) : bool := bool_decide (lo <= bz b <= hi).
Definition utf8_len (s : bytes) : nat :=
  match s with
  | [] => 0
  | a :: r =>
      let n := bz a in
      if decide (n < 128) then 1%nat
      else if decide (194 <= n <= 223) then
        match r with b :: _ => if cont 128 191 b then 2%nat else 0%nat | _ => 0%nat end
      else if decide (224 <= n <= 239) then
        match r with
        | b :: c :: _ =>
            if cont (if decide (n = 224) then 160 else 128) (if decide (n = 237) then 159 else 191) b && cont 128 191 c
            then 3%nat else 0%nat
        | _ => 0%nat
        end
      else if decide (240 <= n <= 244) then
        match r with
        | b :: c :: d :: _ =>
            if cont (if decide (n = 240) then 144 else 128) (if decide (n = 244) then 143 else 191) b
               && cont 128 191 c && cont 128 191 d
            then 4%nat else 0%nat
        | _ => 0%nat
        end
      else 0%nat
  end.

(** [utf8.EncodeRune]. *)
Definition utf8_enc (r : Z) : bytes :=
  if decide (r < 128) then [zb r]
  else if decide (r < 2048) then [zb (192 + r / 64); zb (128 + r mod 64)]
  else if decide (r < 65536) then [zb (224 + r / 4096); zb (128 + r / 64 mod 64); zb (128 + r mod 64)]
  else [zb (240 + r / 262144); zb (128 + r / 4096 mod 64); zb (128 + r / 64 mod 64); zb (128 + r mod 64)].

(** The Unicode replacement character. *)
Definition fffd : bytes := [xef; xbf; xbd].

(** A byte string cut into well-formed characters and stray bytes. *)
Fixpoint chunks_fuel (f : nat) (s : bytes) : list bytes :=
  match f, s with
  | O, _ | _, [] => []
  | S f, a :: r =>
      match utf8_len s with
      | O => [a] :: chunks_fuel f r
      | n => take n s :: chunks_fuel f (drop n s)
      end
  end.
Definition chunks (s : bytes) : list bytes := chunks_fuel (length s) s.
(** What JSON transport makes of a Go string: stray bytes become U+FFFD. *)
Definition san_chunk (c : bytes) : bytes := match utf8_len c with O => fffd | _ => c end.
Definition san (s : bytes) : bytes := flat_map san_chunk (chunks s).

(** [appendString], encoding/json/encode.go, with HTML escaping. *)
Definition u00 (b : byte) : bytes := bs "\u00" ++ [hexdigit (bz b / 16); hexdigit (bz b mod 16)].
Definition quote_chunk (c : bytes) : bytes :=
  match c with
  | [b] =>
      if decide (bz b >= 128) then x5c :: bs "ufffd"
      else if decide (b = x22 \/ b = x5c) then [x5c; b]
      else if decide (b = x08) then bs "\b"
      else if decide (b = x0c) then bs "\f"
      else if decide (b = x0a) then bs "\n"
      else if decide (b = x0d) then bs "\r"
      else if decide (b = x09) then bs "\t"
      else if decide (bz b < 32 \/ b = x3c \/ b = x3e \/ b = x26) then u00 b
      else [b]
  | _ =>
      if decide (c = [xe2; x80; xa8]) then x5c :: bs "u2028"
      else if decide (c = [xe2; x80; xa9]) then x5c :: bs "u2029"
      else c
  end.
Definition quote (s : bytes) : bytes := x22 :: flat_map quote_chunk (chunks s) ++ [x22].

(** JSON values; strings are unquoted, numbers kept as text. *)
Inductive json :=
  | JNull | JBool (b : bool) | JNum (lit : bytes) | JStr (s : bytes)
  | JArr (l : list json) | JObj (l : list (bytes * json)).

(** [json.Marshal] of a value. *)
Definition sep (l : list bytes) : bytes :=
  match l with [] => [] | x :: r => x ++ flat_map (fun y => x2c :: y) r end.
Fixpoint print (j : json) : bytes :=
  match j with
  | JNull => bs "null"
  | JBool true => bs "true"
  | JBool false => bs "false"
  | JNum l => l
  | JStr s => quote s
  | JArr l => x5b :: sep (map print l) ++ [x5d]
  | JObj l => x7b :: sep (map (fun kv => quote (fst kv) ++ x3a :: print (snd kv)) l) ++ [x7d]
  end.

(** The integer literal printed for an int or int64. *)
Definition jint (z : Z) : json := JNum (if decide (z < 0) then x2d :: show (- z) else show z).
(** A []byte: null for nil, else the base64 string. *)
Definition jbytes (b : option bytes) : json :=
  match b with None => JNull | Some b => JStr (b64_encode b) end.

(** *** Parsing *)
Definition is_ws (b : byte) : bool := bool_decide (b = x20 \/ b = x09 \/ b = x0a \/ b = x0d).
Fixpoint skip_ws (s : bytes) : bytes :=
  match s with b :: r => if is_ws b then skip_ws r else s | [] => [] end.

(** Four hexadecimal digits ([getu4]). *)
Definition hex4 (s : bytes) : option (Z * bytes) :=
  match s with
  | a :: b :: c :: d :: r =>
      match unhexdigit a, unhexdigit b, unhexdigit c, unhexdigit d with
      | Some a, Some b, Some c, Some d => Some (((a * 16 + b) * 16 + c) * 16 + d, r)
      | _, _, _, _ => None
      end
  | _ => None
  end.
Definition u4 (s : bytes) : option (Z * bytes) :=
  match s with
  | a :: b :: r => if decide (a = x5c /\ b = x75) then hex4 r else None
  | _ => None
  end.

(** [unquoteBytes] together with the scanner's string states, after the opening
    quote: the contents and what follows the closing quote. *)
Definition escape (e : byte) : option byte :=
  if decide (e = x22 \/ e = x5c \/ e = x2f) then Some e
  else if decide (e = x62) then Some x08
  else if decide (e = x66) then Some x0c
  else if decide (e = x6e) then Some x0a
  else if decide (e = x72) then Some x0d
  else if decide (e = x74) then Some x09
  else None.
Definition uescape (r : bytes) : option (bytes * bytes) :=
  match hex4 r with
  | None => None
  | Some (u, r) =>
      if decide (55296 <= u <= 57343) then
        match u4 r with
        | Some (v, r') =>
            if decide (u <= 56319 /\ 56320 <= v <= 57343)
            then Some (utf8_enc ((u - 55296) * 1024 + (v - 56320) + 65536), r')
            else Some (fffd, r)
        | None => Some (fffd, r)
        end
      else Some (utf8_enc u, r)
  end.
(** One character of a string: its bytes and the rest. *)
Definition pchar (s : bytes) : option (bytes * bytes) :=
  match s with
  | [] => None
  | b :: r =>
      if decide (b = x5c) then
        match r with
        | [] => None
        | e :: r =>
            if decide (e = x75) then uescape r
            else match escape e with Some c => Some ([c], r) | None => None end
        end
      else if decide (bz b < 32) then None
      else match utf8_len s with
           | O => Some (fffd, r)
           | n => Some (take n s, drop n s)
           end
  end.
Fixpoint pstr (f : nat) (s : bytes) : option (bytes * bytes) :=
  match f with
  | O => None
  | S f =>
      match s with
      | [] => None
      | b :: r =>
          if decide (b = x22) then Some ([], r) else
          match pchar s with
          | None => None
          | Some (p, r) => match pstr f r with Some (t, rest) => Some (p ++ t, rest) | None => None end
          end
      end
  end.

(** Numbers. *)
Definition is_dig (b : byte) : bool := bool_decide (48 <= bz b <= 57).
Fixpoint digits (s : bytes) : bytes * bytes :=
  match s with
  | b :: r => if is_dig b then let '(d, r') := digits r in (b :: d, r') else ([], s)
  | [] => ([], [])
  end.
Definition psign (s : bytes) : bytes * bytes :=
  match s with b :: r => if decide (b = x2d) then ([b], r) else ([], s) | [] => ([], s) end.
Definition pint (s : bytes) : option (bytes * bytes) :=
  match s with
  | [] => None
  | b :: r => if decide (b = x30) then Some ([b], r) else if is_dig b then Some (digits s) else None
  end.
Definition pfrac (s : bytes) : option (bytes * bytes) :=
  match s with
  | [] => Some ([], s)
  | b :: r =>
      if decide (b = x2e) then match digits r with ([], _) => None | (d, r') => Some (b :: d, r') end
      else Some ([], s)
  end.
Definition pexp (s : bytes) : option (bytes * bytes) :=
  match s with
  | [] => Some ([], s)
  | e :: r =>
      if decide (e = x65 \/ e = x45) then
        let '(es, r) := match r with c :: r' => if decide (c = x2b \/ c = x2d) then ([c], r') else ([], r) | [] => ([], r) end in
        match digits r with ([], _) => None | (d, r') => Some (e :: es ++ d, r') end
      else Some ([], s)
  end.
Definition pnum (s : bytes) : option (bytes * bytes) :=
  let '(sg, s) := psign s in
  match pint s with None => None | Some (i, s) =>
  match pfrac s with None => None | Some (fr, s) =>
  match pexp s with None => None | Some (ex, s) => Some (sg ++ i ++ fr ++ ex, s)
  end end end.

Definition eat (p s : bytes) : option bytes :=
  if decide (take (length p) s = p) then Some (drop (length p) s) else None.
Definition eats (p : bytes) (j : json) (s : bytes) : option (json * bytes) :=
  match eat p s with Some r => Some (j, r) | None => None end.

(** The string after a quote, with enough fuel. *)
Definition pstring (s : bytes) : option (bytes * bytes) :=
  match s with
  | b :: r => if decide (b = x22) then pstr (length r) r else None
  | [] => None
  end.

(** A value, leading white space skipped; array and object bodies. *)
Fixpoint pval (f : nat) (s : bytes) : option (json * bytes) :=
  match f with
  | O => None
  | S f =>
    match skip_ws s with
    | [] => None
    | b :: r =>
        if decide (b = x22) then match pstring (b :: r) with Some (t, r) => Some (JStr t, r) | None => None end
        else if decide (b = x5b) then
          if decide (head (skip_ws r) = Some x5d) then Some (JArr [], drop 1 (skip_ws r))
          else match parr f r with Some (l, r) => Some (JArr l, r) | None => None end
        else if decide (b = x7b) then
          if decide (head (skip_ws r) = Some x7d) then Some (JObj [], drop 1 (skip_ws r))
          else match pobj f r with Some (l, r) => Some (JObj l, r) | None => None end
        else if decide (b = x6e) then eats (bs "ull") JNull r
        else if decide (b = x74) then eats (bs "rue") (JBool true) r
        else if decide (b = x66) then eats (bs "alse") (JBool false) r
        else match pnum (b :: r) with Some (n, r) => Some (JNum n, r) | None => None end
    end
  end
with parr (f : nat) (s : bytes) : option (list json * bytes) :=
  match f with
  | O => None
  | S f =>
    match pval f s with
    | None => None
    | Some (j, r) =>
        match skip_ws r with
        | [] => None
        | b :: r =>
            if decide (b = x5d) then Some ([j], r)
            else if decide (b = x2c) then match parr f r with Some (l, r) => Some (j :: l, r) | None => None end
            else None
        end
    end
  end
with pobj (f : nat) (s : bytes) : option (list (bytes * json) * bytes) :=
  match f with
  | O => None
  | S f =>
    match pstring (skip_ws s) with
    | None => None
    | Some (k, r) =>
        match eat [x3a] (skip_ws r) with
        | None => None
        | Some r =>
            match pval f r with
            | None => None
            | Some (j, r) =>
                match skip_ws r with
                | [] => None
                | b :: r =>
                    if decide (b = x7d) then Some ([(k, j)], r)
                    else if decide (b = x2c) then
                      match pobj f r with Some (l, r) => Some ((k, j) :: l, r) | None => None end
                    else None
                end
            end
        end
    end
  end.

(** How deep arrays and objects are nested: the most entries [scanner.parseState]
    ever has (scanner.go, [pushParseState]). *)
Fixpoint depth (j : json) : Z :=
  match j with
  | JArr l => 1 + fold_right (fun x d => Z.max (depth x) d) 0 l
  | JObj l => 1 + fold_right (fun kv d => Z.max (depth (snd kv)) d) 0 l
  | _ => 0
  end.

(** The whole input must be one value and white space ([checkValid]), nested no
    deeper than [maxNestingDepth]. *)
Definition parse_json (s : bytes) : option json :=
  match pval (S (2 * length s)) s with
  | Some (j, r) => match skip_ws r with [] => if decide (depth j <= 10000) then Some j else None | _ => None end
  | None => None
  end.

(** *** Decoding into Go values: what the reflection code of decode.go does.
    [None] is a non-nil error (type errors are collected while decoding goes on,
    but every caller here discards the value on error). *)
(** [foldName]: ASCII upper case; the long s and the Kelvin sign are the only
    other characters that fold to ASCII. *)
Fixpoint fold_name (s : bytes) : bytes :=
  match s with
  | [] => []
  | a :: r =>
      match r with
      | b :: r2 =>
          if decide (a = xc5 /\ b = xbf) then x53 :: fold_name r2
          else match r2 with
               | c :: r3 =>
                   if decide (a = xe2 /\ b = x84 /\ c = xaa) then x4b :: fold_name r3
                   else (if decide (97 <= bz a <= 122) then zb (bz a - 32) else a) :: fold_name r
               | [] => (if decide (97 <= bz a <= 122) then zb (bz a - 32) else a) :: fold_name r
               end
      | [] => [if decide (97 <= bz a <= 122) then zb (bz a - 32) else a]
      end
  end.
(** Does a key select the field of that (ASCII) name? *)
Definition field_is (name key : bytes) : bool := bool_decide (fold_name key = fold_name name).

(** The literal as an integer ([strconv.ParseInt]/[ParseUint] before the range check). *)
Definition lit_int (l : bytes) : option Z :=
  let '(sg, d) := psign l in
  if decide (d = []) then None else
  if forallb is_dig d then
    let v := fold_left (fun a b => 10 * a + (bz b - 48)) d 0 in
    Some (match sg with [] => v | _ => - v end)
  else None.
(** Into an int or int64 holding [cur]. *)
Definition dec_int (cur : Z) (j : json) : option Z :=
  match j with
  | JNull => Some cur
  | JNum l => match lit_int l with
              | Some z => if decide (- 2 ^ 63 <= z < 2 ^ 63) then Some z else None
              | None => None
              end
  | _ => None
  end.
Definition dec_str (cur : bytes) (j : json) : option bytes :=
  match j with JNull => Some cur | JStr s => Some s | _ => None end.
Definition dec_bool (cur : bool) (j : json) : option bool :=
  match j with JNull => Some cur | JBool b => Some b | _ => None end.
(** Into a []byte: base64 text, or an array of numbers. Simplification: a null
    inside such an array gives the byte at that index of [cur], or 0. *)
Definition dec_u8 (cur : byte) (j : json) : option byte :=
  match j with
  | JNull => Some cur
  | JNum l => if decide (head l = Some x2d) then None else
              match lit_int l with
              | Some z => if decide (0 <= z < 256) then Some (zb z) else None
              | None => None
              end
  | _ => None
  end.
Fixpoint dec_u8s (cur : bytes) (l : list json) : option bytes :=
  match l with
  | [] => Some []
  | j :: l =>
      match dec_u8 (default x00 (head cur)) j, dec_u8s (tail cur) l with
      | Some b, Some r => Some (b :: r)
      | _, _ => None
      end
  end.
Definition dec_bytes (cur : option bytes) (j : json) : option (option bytes) :=
  match j with
  | JNull => Some None
  | JStr s => match b64_decode s with Some b => Some (Some b) | None => None end
  | JArr l => match dec_u8s (default [] cur) l with Some b => Some (Some b) | None => None end
  | _ => None
  end.
(** Into a map whose elements are decoded from their zero value; an existing map
    is extended. *)
Fixpoint dec_elems {A} (dec : json -> option A) (l : list (bytes * json)) (m : gmap bytes A) : option (gmap bytes A) :=
  match l with
  | [] => Some m
  | (k, j) :: l => match dec j with Some v => dec_elems dec l (<[k := v]> m) | None => None end
  end.
Definition dec_map {A} (dec : json -> option A) (cur : option (gmap bytes A)) (j : json)
  : option (option (gmap bytes A)) :=
  match j with
  | JNull => Some None
  | JObj l => match dec_elems dec l (default ∅ cur) with Some m => Some (Some m) | None => None end
  | _ => None
  end.
(** Into a struct: the fields in order of appearance. *)
Fixpoint dec_fields {A} (f : bytes -> json -> A -> option A) (l : list (bytes * json)) (cur : A) : option A :=
  match l with
  | [] => Some cur
  | (k, j) :: l => match f k j cur with Some c => dec_fields f l c | None => None end
  end.
Definition dec_struct {A} (f : bytes -> json -> A -> option A) (cur : A) (j : json) : option A :=
  match j with JNull => Some cur | JObj l => dec_fields f l cur | _ => None end.
(** Into a pointer that is nil: null leaves it nil, anything else allocates. *)
Definition dec_ptr {A} (dec : json -> option A) (j : json) : option (option A) :=
  match j with
  | JNull => Some None
  | _ => match dec j with Some v => Some (Some v) | None => None end
  end.

(** *** Encoding maps: keys in byte order. *)
Fixpoint bytes_leb (a b : bytes) : bool :=
  match a, b with
  | [], _ => true
  | _ :: _, [] => false
  | x :: a, y :: b => if decide (x = y) then bytes_leb a b else bool_decide (bz x < bz y)
  end.
Definition key_le {A} (x y : bytes * A) : Prop := bytes_leb (fst x) (fst y) = true.
Global Instance key_le_dec {A} : RelDecision (@key_le A).
Proof. intros x y. unfold key_le. apply _. Defined.
Definition sorted_entries {A} (m : gmap bytes A) : list (bytes * A) := merge_sort key_le (map_to_list m).
Definition jmap {A} (enc : A -> json) (m : option (gmap bytes A)) : json :=
  match m with
  | None => JNull
  | Some m => JObj (map (fun kv => (fst kv, enc (snd kv))) (sorted_entries m))
  end.
