(** Model of encoding/base64 StdEncoding, as used by encoding/json for byte
    slices and by encoding/pem. No proofs here. *)
From Verif Require Export Text.
Local Open Scope Z_scope.

(** The alphabet of [base64.StdEncoding]. *)
Definition b64char (n : Z) : byte :=
  zb (if decide (n < 26) then 65 + n
      else if decide (n < 52) then 97 + (n - 26)
      else if decide (n < 62) then 48 + (n - 52)
      else if decide (n = 62) then 43 else 47).
Definition unb64 (c : byte) : option Z :=
  let n := bz c in
  if decide (65 <= n <= 90) then Some (n - 65)
  else if decide (97 <= n <= 122) then Some (n - 97 + 26)
  else if decide (48 <= n <= 57) then Some (n - 48 + 52)
  else if decide (n = 43) then Some 62
  else if decide (n = 47) then Some 63
  else None.

(** [StdEncoding.Encode]: groups of three bytes, padded with '='. *)
Fixpoint b64_encode (b : bytes) : bytes :=
  match b with
  | [] => []
  | [x] => let v := bz x * 16 in [b64char (v / 64); b64char (v mod 64); x3d; x3d]
  | [x; y] =>
      let v := (bz x * 256 + bz y) * 4 in
      [b64char (v / 4096); b64char (v / 64 mod 64); b64char (v mod 64); x3d]
  | x :: y :: z :: r =>
      let v := (bz x * 256 + bz y) * 256 + bz z in
      b64char (v / 262144) :: b64char (v / 4096 mod 64) :: b64char (v / 64 mod 64) :: b64char (v mod 64)
        :: b64_encode r
  end.

(** [StdEncoding.Decode] once the '\r' and '\n' it skips are gone: groups of
    four, padding only at the end, the unused low bits not checked. *)
Fixpoint b64_groups (s : bytes) : option bytes :=
  match s with
  | [] => Some []
  | a :: b :: c :: d :: r =>
      match unb64 a, unb64 b with
      | Some a, Some b =>
          match unb64 c, unb64 d with
          | Some c, Some d =>
              let v := ((a * 64 + b) * 64 + c) * 64 + d in
              match b64_groups r with
              | Some l => Some (zb (v / 65536) :: zb (v / 256 mod 256) :: zb (v mod 256) :: l)
              | None => None
              end
          | Some c, None =>
              if decide (d = x3d /\ r = []) then
                let v := ((a * 64 + b) * 64 + c) / 4 in Some [zb (v / 256); zb (v mod 256)]
              else None
          | None, _ =>
              if decide (c = x3d /\ d = x3d /\ r = []) then Some [zb ((a * 64 + b) / 16)] else None
          end
      | _, _ => None
      end
  | _ => None
  end.
Definition b64_decode (s : bytes) : option bytes :=
  b64_groups (List.filter (fun c => negb (bool_decide (c = x0a \/ c = x0d))) s).
