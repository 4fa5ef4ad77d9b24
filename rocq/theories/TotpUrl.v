(** Model of what common/auth/totp.go exports to the user: the otpauth URL and the text
    of the key. The drawing of the picture is a function of the URL. No proofs here. *)
From Verif Require Export Login.
Local Open Scope Z_scope.

(** *** net/url *)
(** [upperhex]. *)
Definition upperhex (n : Z) : byte := zb (if decide (n < 10) then 48 + n else 55 + n).
(** The bytes [shouldEscape] never escapes. *)
Definition unreserved (c : byte) : bool :=
  let n := bz c in
  bool_decide (97 <= n <= 122) || bool_decide (65 <= n <= 90) || bool_decide (48 <= n <= 57) || bool_decide (c ∈ bs "-_.~").
(** [shouldEscape] in mode encodePath leaves these too. *)
Definition path_plain (c : byte) : bool := unreserved c || bool_decide (c ∈ bs "$&+,/:;=@").
(** [escape]; [plus]: mode encodeQueryComponent, a blank becomes a plus. *)
Definition url_escape (plus : bool) (plain : byte -> bool) (s : bytes) : bytes :=
  flat_map (fun c => if plus && bool_decide (c = x20) then [x2b] else if plain c then [c]
                     else [x25; upperhex (bz c / 16); upperhex (bz c mod 16)]) s.
(** [Values.Encode] on pairs sorted by name. *)
Fixpoint query_encode (ps : list (bytes * bytes)) : bytes :=
  match ps with
  | [] => []
  | (k, v) :: rest =>
      url_escape true unreserved k ++ [x3d] ++ url_escape true unreserved v ++ match rest with [] => [] | _ => [x26] ++ query_encode rest end
  end.
(** [URL.EscapedPath] without RawPath. *)
Definition escaped_path (p : bytes) : bytes := if decide (p = bs "*") then p else url_escape false path_plain p.
(** [URL.String] with a scheme, a host without special bytes and a query. *)
Definition url_string (scheme host path query : bytes) : bytes :=
  let p := escaped_path path in
  scheme ++ bs "://" ++ host ++
  match p with [] => [] | c :: _ => if decide (c = x2f) then p else x2f :: p end ++
  match query with [] => [] | _ => x3f :: query end.
(** [%d] of an int. *)
Definition show_int (z : Z) : bytes := if decide (z < 0) then x2d :: show (- z) else show z.

(** *** totp.go *)
(** [TOTPConfig.generateURL], common/auth/totp.go:69-97. *)
Definition generate_url (c : totp) (label : bytes) : bytes :=
  url_string (bs "otpauth") (bs "totp") label
    (query_encode ((if decide (tSize c <> 6) then [(bs "digits", show_int (tSize c))] else []) ++
                   (if decide (tProvider c <> []) then [(bs "provider", tProvider c)] else []) ++
                   [(bs "secret", b32_encode (tKey c))])).
(** [TOTPConfig.ExportQR], common/auth/totp.go:100-107; [draw] makes the picture of a text. *)
Definition export_qr (draw : bytes -> option bytes) (c : totp) (label : bytes) : option bytes := draw (generate_url c label).
(** [ExportUserTOTP], common/auth/totp.go:176-198: the text of the key, and the picture if
    there is a label; [None] is an error. *)
Definition export_totp (draw : bytes -> option bytes) (a : option auth) (label : bytes) : outcome (option (bytes * option bytes)) :=
  match a with
  | None => Ret None
  | Some a =>
      if decide (aType a <> TypeTOTP) then Ret None else
      let! c := parse_totp (aSecret a) in
      Ret match c with
          | None => None
          | Some c =>
              if decide (label = []) then Some (b32_encode (tKey c), None) else
              match export_qr draw c label with None => None | Some p => Some (b32_encode (tKey c), Some p) end
          end
  end.
(** [NewGoogleTOTP], common/auth/totp.go:259-272. *)
Definition new_google_user `{C : Crypto} (draw : bytes -> option bytes) (provider label : bytes) (now : Z) (g : rng)
  : outcome (option (auth * (bytes * option bytes)) * rng) :=
  let! r := new_google provider now g in
  match r with
  | (None, g) => Ret (None, g)
  | (Some a, g) =>
      let! u := export_totp draw (Some a) label in
      Ret (match u with None => None | Some u => Some (a, u) end, g)
  end.
