(** What secretscli's commands show, and what its dialogues leave. *)
From Verif Require Export SpecCli SpecText.
Local Open Scope Z_scope.

(** *** Text *)
(** The order of Go's strings. *)
Inductive str_lt : bytes -> bytes -> Prop :=
  | sl_short y s : str_lt [] (y :: s)
  | sl_first a b s s' : bz a < bz b -> str_lt (a :: s) (b :: s')
  | sl_rest a s s' : str_lt s s' -> str_lt (a :: s) (a :: s').
(** A whole number in decimal: no leading zeros, a minus sign when negative. *)
Definition natural_text (t : bytes) (n : Z) : Prop :=
  t <> [] /\ Forall is_digit t /\ dval t = n /\ (head t = Some x30 -> t = [x30]).
Definition integer_text (t : bytes) (z : Z) : Prop :=
  natural_text t z \/ exists d, t = x2d :: d /\ natural_text d (- z) /\ z < 0.
(** The number of characters; a byte that begins none counts for one. *)
Inductive characters : bytes -> nat -> Prop :=
  | ch_nil : characters [] 0
  | ch_char r c s n : scalar r -> rfc3629 r c -> characters s n -> characters (c ++ s) (S n)
  | ch_stray b s n : (forall r c, scalar r -> rfc3629 r c -> ~ c `prefix_of` b :: s) -> characters s n -> characters (b :: s) (S n).
(** Hexadecimal, in lower case. *)
Definition nibble (c : byte) (n : Z) : Prop := 0 <= n < 10 /\ bz c = 48 + n \/ 10 <= n < 16 /\ bz c = 87 + n.
Inductive hexes : bytes -> bytes -> Prop :=
  | hx_nil : hexes [] []
  | hx_byte b c1 c2 s t : nibble c1 (bz b / 16) -> nibble c2 (bz b mod 16) -> hexes s t -> hexes (b :: s) (c1 :: c2 :: t).

(** *** The labels a listing shows, and how *)
Definition chosen_label (s : sstore) (pats : list bytes) (k : bytes) : Prop :=
  is_Some (slot s k) /\ (pats = [] \/ exists p a b, p ∈ pats /\ k = a ++ p ++ b).
Inductive rows (n : Z) : list bytes -> bytes -> Prop :=
  | rw_nil : rows n [] []
  | rw_one k c j : characters k c -> j = Z.to_nat (n - Z.of_nat c) -> rows n [k] ([x09] ++ k ++ replicate j x20 ++ [x0a])
  | rw_two k k' c j ks t : characters k c -> j = Z.to_nat (n - Z.of_nat c) -> rows n ks t ->
      rows n (k :: k' :: ks) ([x09] ++ k ++ replicate j x20 ++ k' ++ [x0a] ++ t).
Definition layout (width : Z) (ks : list bytes) (t : bytes) : Prop :=
  (exists k, k ∈ ks /\ width < zlen k) /\ t = concat (map (fun k => k ++ [x0a]) ks) \/
  (forall k, k ∈ ks -> zlen k <= width) /\ rows (Z.abs (width / 2 - 8)) ks t.
Definition listing (width : Z) (s : sstore) (pats : list bytes) (t : bytes) : Prop :=
  exists ks n body, StronglySorted str_lt ks /\ (forall k, k ∈ ks <-> chosen_label s pats k) /\
    natural_text n (zlen ks) /\ layout width ks body /\ t = bs "Key store: " ++ n ++ bs " keys" ++ [x0a] ++ body.

(** *** Secrets and metadata *)
Definition missing_line (l : bytes) : bytes := bs "[!] " ++ l ++ bs " not found." ++ [x0a].
Inductive shown (hx many : bool) (s : sstore) (l : bytes) : bytes -> Prop :=
  | sn_none : slot s l = None -> shown hx many s l (missing_line l)
  | sn_some r x : slot s l = Some (Some r) -> (if hx then hexes (default [] (rSecret r)) x else x = default [] (rSecret r)) ->
      shown hx many s l ((if many then l ++ bs ": " else []) ++ x ++ [x0a]).
Inductive described (time_text : Z -> bytes) (s : sstore) (l : bytes) : bytes -> Prop :=
  | ds_none : slot s l = None -> described time_text s l (missing_line l)
  | ds_some r n es : slot s l = Some (Some r) -> integer_text n (rTime r) -> es ≡ₚ map_to_list (default ∅ (rMeta r)) ->
      described time_text s l
        (bs "Record: " ++ l ++ [x0a; x09] ++ bs "Last modification: " ++ time_text (rTime r) ++ bs " (timestamp " ++ n ++ bs ")" ++ [x0a] ++
         match es with
         | [] => []
         | _ => [x09] ++ bs "Metadata:" ++ [x0a] ++ concat (map (fun kv => [x09; x09] ++ fst kv ++ bs ": " ++ default [] (snd kv) ++ [x0a]) es)
         end).
(** The labels asked for, up to the first whose record is nil. *)
Definition whole (s : sstore) (args : list bytes) : Prop := Forall (fun l => slot s l <> Some None) args.

(** *** The commands there are *)
Definition verbs : list bytes :=
  map bs ["clear"; "help"; "list"; "quit"; "passwd"; "rmeta"; "show"; "showhex"; "store"; "wmeta"; "write"]%string.

(** *** A dialogue that ends with the input instead of an empty line *)
Inductive breaks_off : stdin -> list bytes -> stdin -> Prop :=
  | bo_end i i' : read_line i = (None, i') -> breaks_off i [] i'
  | bo_line i l i1 ls i' : read_line i = (Some l, i1) -> l <> [] -> breaks_off i1 ls i' -> breaks_off i (l :: ls) i'.
