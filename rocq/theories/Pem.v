(** Model of encoding/pem (Go 1.23). No proofs here. A block is its type and its
    bytes: no caller in /repo reads the headers of a decoded block. *)
From Verif Require Export Base64.
Local Open Scope Z_scope.

Definition pem_start : bytes := x0a :: bs "-----BEGIN ".
Definition pem_end : bytes := x0a :: bs "-----END ".
Definition dashes : bytes := bs "-----".

(** [bytes.HasPrefix], [bytes.HasSuffix]. *)
Definition has_prefix (p s : bytes) : bool := bool_decide (take (length p) s = p).
Definition has_suffix (p s : bytes) : bool :=
  bool_decide (length p <= length s)%nat && bool_decide (drop (length s - length p) s = p).

(** [bytes.Cut]: what is before and after the first occurrence. *)
Fixpoint cut (p s : bytes) : option (bytes * bytes) :=
  if has_prefix p s then Some ([], drop (length p) s) else
  match s with
  | [] => None
  | b :: s => match cut p s with Some (u, v) => Some (b :: u, v) | None => None end
  end.

(** [bytes.TrimRight(s, " \t")]. *)
Fixpoint trim_right (s : bytes) : bytes :=
  match s with
  | [] => []
  | b :: r =>
      match trim_right r with
      | [] => if decide (b = x20 \/ b = x09) then [] else [b]
      | t => b :: t
      end
  end.

(** [getLine]: the line without its end, trailing blanks trimmed; the rest. *)
Definition drop_cr (s : bytes) : bytes := if decide (last s = Some x0d) then take (length s - 1) s else s.
Definition get_line (s : bytes) : bytes * bytes :=
  match cut [x0a] s with
  | None => (trim_right s, [])
  | Some (l, rest) => (trim_right (drop_cr l), rest)
  end.

(** [removeSpacesAndTabs]. *)
Definition remove_blanks (s : bytes) : bytes := List.filter (fun b => negb (bool_decide (b = x20 \/ b = x09))) s.

(** The header loop of [Decode]: were there headers, and what follows them;
    [None] is its "return nil". Fuel: every line shortens the rest. *)
Fixpoint pem_headers (f : nat) (any : bool) (rest : bytes) : option (bool * bytes) :=
  match f with
  | O => None
  | S f =>
      if decide (rest = []) then None else
      let '(line, next) := get_line rest in
      match cut [x3a] line with
      | None => Some (any, rest)
      | Some _ => pem_headers f true next
      end
  end.

(** What is before the END line and what follows its "-----END ". *)
Definition pem_find_end (headers : bool) (rest : bytes) : option (bytes * bytes) :=
  if negb headers && has_prefix (drop 1 pem_end) rest then Some ([], drop (length pem_end - 1) rest)
  else cut pem_end rest.
(** The END line repeats the type and ends with five dashes. *)
Definition pem_tail_ok (ty trailer : bytes) : bool :=
  let n := (length ty + length dashes)%nat in
  if decide (length trailer < n)%nat then false else
  has_prefix ty (take n trailer) && has_suffix dashes (take n trailer)
  && bool_decide (fst (get_line (drop n trailer)) = []).

(** [pem.Decode]. Fuel: every round consumes a BEGIN marker. *)
Fixpoint pem_loop (f : nat) (rest : bytes) : option (bytes * bytes) :=
  match f with
  | O => None
  | S f =>
      let start :=
        if has_prefix (drop 1 pem_start) rest then Some (drop (length pem_start - 1) rest)
        else match cut pem_start rest with Some (_, after) => Some after | None => None end in
      match start with
      | None => None
      | Some rest =>
          let '(line, rest) := get_line rest in
          if negb (has_suffix dashes line) then pem_loop f rest else
          let ty := take (length line - length dashes) line in
          match pem_headers (S (length rest)) false rest with
          | None => None
          | Some (headers, rest) =>
              match pem_find_end headers rest with
              | None => pem_loop f rest
              | Some (body, trailer) =>
                  if pem_tail_ok ty trailer then
                    match b64_decode (remove_blanks body) with
                    | Some b => Some (ty, b)
                    | None => pem_loop f rest
                    end
                  else pem_loop f rest
              end
          end
      end
  end.
Definition pem_decode (data : bytes) : option (bytes * bytes) := pem_loop (S (length data)) data.

(** [lineBreaker]: lines of 64 characters. *)
Fixpoint pem_lines (f : nat) (s : bytes) : bytes :=
  match f with
  | O => []
  | S f => if decide (s = []) then [] else take 64 s ++ x0a :: pem_lines f (drop 64 s)
  end.
(** [writeHeader]. *)
Definition pem_header (kv : bytes * bytes) : bytes := fst kv ++ bs ": " ++ snd kv ++ [x0a].
(** [pem.EncodeToMemory] for headers given in the order in which they are written
    (the code uses none or one, and no key with a colon). *)
Definition pem_encode (ty : bytes) (headers : list (bytes * bytes)) (b : bytes) : bytes :=
  let e := b64_encode b in
  drop 1 pem_start ++ ty ++ dashes ++ [x0a]
  ++ (if decide (headers = []) then [] else flat_map pem_header headers ++ [x0a])
  ++ pem_lines (length e) e
  ++ drop 1 pem_end ++ ty ++ dashes ++ [x0a].
