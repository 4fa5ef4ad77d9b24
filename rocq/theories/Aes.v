(** AES-128 decryption (FIPS 197) and the YubiKey token of github.com/conformal/yubikey,
    which common/auth/yubikey.go:69-89 and :118-131 call. No proofs here. *)
From Verif Require Export Auth.
Local Open Scope Z_scope.

Definition aes_sbox : bytes :=
  [x63; x7c; x77; x7b; xf2; x6b; x6f; xc5; x30; x01; x67; x2b; xfe; xd7; xab; x76;
   xca; x82; xc9; x7d; xfa; x59; x47; xf0; xad; xd4; xa2; xaf; x9c; xa4; x72; xc0;
   xb7; xfd; x93; x26; x36; x3f; xf7; xcc; x34; xa5; xe5; xf1; x71; xd8; x31; x15;
   x04; xc7; x23; xc3; x18; x96; x05; x9a; x07; x12; x80; xe2; xeb; x27; xb2; x75;
   x09; x83; x2c; x1a; x1b; x6e; x5a; xa0; x52; x3b; xd6; xb3; x29; xe3; x2f; x84;
   x53; xd1; x00; xed; x20; xfc; xb1; x5b; x6a; xcb; xbe; x39; x4a; x4c; x58; xcf;
   xd0; xef; xaa; xfb; x43; x4d; x33; x85; x45; xf9; x02; x7f; x50; x3c; x9f; xa8;
   x51; xa3; x40; x8f; x92; x9d; x38; xf5; xbc; xb6; xda; x21; x10; xff; xf3; xd2;
   xcd; x0c; x13; xec; x5f; x97; x44; x17; xc4; xa7; x7e; x3d; x64; x5d; x19; x73;
   x60; x81; x4f; xdc; x22; x2a; x90; x88; x46; xee; xb8; x14; xde; x5e; x0b; xdb;
   xe0; x32; x3a; x0a; x49; x06; x24; x5c; xc2; xd3; xac; x62; x91; x95; xe4; x79;
   xe7; xc8; x37; x6d; x8d; xd5; x4e; xa9; x6c; x56; xf4; xea; x65; x7a; xae; x08;
   xba; x78; x25; x2e; x1c; xa6; xb4; xc6; xe8; xdd; x74; x1f; x4b; xbd; x8b; x8a;
   x70; x3e; xb5; x66; x48; x03; xf6; x0e; x61; x35; x57; xb9; x86; xc1; x1d; x9e;
   xe1; xf8; x98; x11; x69; xd9; x8e; x94; x9b; x1e; x87; xe9; xce; x55; x28; xdf;
   x8c; xa1; x89; x0d; xbf; xe6; x42; x68; x41; x99; x2d; x0f; xb0; x54; xbb; x16].
Definition aes_inv_sbox : bytes :=
  [x52; x09; x6a; xd5; x30; x36; xa5; x38; xbf; x40; xa3; x9e; x81; xf3; xd7; xfb;
   x7c; xe3; x39; x82; x9b; x2f; xff; x87; x34; x8e; x43; x44; xc4; xde; xe9; xcb;
   x54; x7b; x94; x32; xa6; xc2; x23; x3d; xee; x4c; x95; x0b; x42; xfa; xc3; x4e;
   x08; x2e; xa1; x66; x28; xd9; x24; xb2; x76; x5b; xa2; x49; x6d; x8b; xd1; x25;
   x72; xf8; xf6; x64; x86; x68; x98; x16; xd4; xa4; x5c; xcc; x5d; x65; xb6; x92;
   x6c; x70; x48; x50; xfd; xed; xb9; xda; x5e; x15; x46; x57; xa7; x8d; x9d; x84;
   x90; xd8; xab; x00; x8c; xbc; xd3; x0a; xf7; xe4; x58; x05; xb8; xb3; x45; x06;
   xd0; x2c; x1e; x8f; xca; x3f; x0f; x02; xc1; xaf; xbd; x03; x01; x13; x8a; x6b;
   x3a; x91; x11; x41; x4f; x67; xdc; xea; x97; xf2; xcf; xce; xf0; xb4; xe6; x73;
   x96; xac; x74; x22; xe7; xad; x35; x85; xe2; xf9; x37; xe8; x1c; x75; xdf; x6e;
   x47; xf1; x1a; x71; x1d; x29; xc5; x89; x6f; xb7; x62; x0e; xaa; x18; xbe; x1b;
   xfc; x56; x3e; x4b; xc6; xd2; x79; x20; x9a; xdb; xc0; xfe; x78; xcd; x5a; xf4;
   x1f; xdd; xa8; x33; x88; x07; xc7; x31; xb1; x12; x10; x59; x27; x80; xec; x5f;
   x60; x51; x7f; xa9; x19; xb5; x4a; x0d; x2d; xe5; x7a; x9f; x93; xc9; x9c; xef;
   xa0; xe0; x3b; x4d; xae; x2a; xf5; xb0; xc8; xeb; xbb; x3c; x83; x53; x99; x61;
   x17; x2b; x04; x7e; xba; x77; xd6; x26; xe1; x69; x14; x63; x55; x21; x0c; x7d].
Definition subst (t : bytes) (b : byte) : byte := nth (Z.to_nat (bz b)) t x00.
Definition xorb_ (a b : byte) : byte := zb (Z.lxor (bz a) (bz b)).

(** *** The round keys *)
(** The next four words from the last four; [rc] is the round constant. *)
Definition next_key (rc : byte) (k : bytes) : bytes :=
  match k with
  | [a0; a1; a2; a3; b0; b1; b2; b3; c0; c1; c2; c3; d0; d1; d2; d3] =>
      let e0 := xorb_ (xorb_ a0 (subst aes_sbox d1)) rc in
      let e1 := xorb_ a1 (subst aes_sbox d2) in
      let e2 := xorb_ a2 (subst aes_sbox d3) in
      let e3 := xorb_ a3 (subst aes_sbox d0) in
      let f := zip_with xorb_ [b0; b1; b2; b3] [e0; e1; e2; e3] in
      let g := zip_with xorb_ [c0; c1; c2; c3] f in
      let h := zip_with xorb_ [d0; d1; d2; d3] g in
      [e0; e1; e2; e3] ++ f ++ g ++ h
  | _ => k
  end.
(** All eleven, the last first. *)
Definition round_keys (k : bytes) : list bytes :=
  fold_left (fun ks rc => next_key rc (hd [] ks) :: ks) [x01; x02; x04; x08; x10; x20; x40; x80; x1b; x36] [k].

(** *** The rounds, backwards; a state is sixteen bytes, column after column *)
(** Multiplication by x in the field of 256 elements. *)
Definition xtime (a : Z) : Z := let b := 2 * a in if decide (256 <= b) then Z.lxor b 0x11b else b.
Definition inv_column (c : bytes) : bytes :=
  match c with
  | [a; b; c; d] =>
      let m k y := (* [k] times [y], for k = 9, 11, 13, 14 *)
        let y1 := bz y in let y2 := xtime y1 in let y4 := xtime y2 in let y8 := xtime y4 in
        Z.lxor y8 (if decide (k = 9) then y1 else if decide (k = 11) then Z.lxor y2 y1 else if decide (k = 13) then Z.lxor y4 y1 else Z.lxor y4 y2) in
      let row i j k l := zb (Z.lxor (Z.lxor (m i a) (m j b)) (Z.lxor (m k c) (m l d))) in
      [row 14 11 13 9; row 9 14 11 13; row 13 9 14 11; row 11 13 9 14]
  | _ => c
  end.
Definition inv_mix (s : bytes) : bytes :=
  inv_column (take 4 s) ++ inv_column (take 4 (drop 4 s)) ++ inv_column (take 4 (drop 8 s)) ++ inv_column (drop 12 s).
Definition inv_shift (s : bytes) : bytes :=
  map (fun i => nth i s x00) [0; 13; 10; 7; 4; 1; 14; 11; 8; 5; 2; 15; 12; 9; 6; 3]%nat.
Definition inv_bytes (s : bytes) : bytes := map (subst aes_inv_sbox) s.
Fixpoint inv_rounds (ks : list bytes) (s : bytes) : bytes :=
  match ks with
  | [] => s
  | [k] => zip_with xorb_ (inv_bytes (inv_shift s)) k
  | k :: ks => inv_rounds ks (inv_mix (zip_with xorb_ (inv_bytes (inv_shift s)) k))
  end.
Definition aes_decrypt (k c : bytes) : bytes :=
  match round_keys k with [] => [] | k0 :: ks => inv_rounds ks (zip_with xorb_ c k0) end.

(** *** The token *)
(** Modhex: [ParseOTPString] splits off the last 32 characters, and decodes. *)
Definition modhex_digit (c : byte) : option Z :=
  match list_find (fun d => d = c) (bs "cbdefghijklnrtuv") with Some (i, _) => Some (Z.of_nat i) | None => None end.
Fixpoint modhex (s : bytes) : option bytes :=
  match s with
  | [] => Some []
  | a :: b :: s =>
      match modhex_digit a, modhex_digit b, modhex s with
      | Some x, Some y, Some r => Some (zb (16 * x + y) :: r)
      | _, _, _ => None
      end
  | _ => None
  end.
Definition split_otp (s : bytes) : option (bytes * bytes) :=
  if decide (length s < 32)%nat then None else
  match modhex (take (length s - 32) s), modhex (drop (length s - 32) s) with
  | Some p, Some o => Some (p, o)
  | _, _ => None
  end.
(** The checksum, ISO 13239, over all sixteen bytes; a token is valid when it is 0xf0b8. *)
Definition crc_bit (c : Z) : Z := if Z.odd c then Z.lxor (Z.shiftr c 1) 0x8408 else Z.shiftr c 1.
Definition crc16 (l : bytes) : Z := fold_left (fun c b => Nat.iter 8 crc_bit (Z.lxor c (bz b))) l 0xffff.
(** [OTP.Parse]: six bytes of private identity, the counter, three of time, the use. *)
Definition open_token (key o : bytes) : option token :=
  let t := aes_decrypt key o in
  if decide (length t = 16%nat /\ crc16 t = 0xf0b8) then Some (Token (nth 6 t x00) (nth 7 t x00) (nth 11 t x00)) else None.
(** The library as common/auth uses it; bcrypt stays a parameter. *)
Definition yubico (hash : Z -> bytes -> bytes -> bytes) (cmp : bytes -> bytes -> bool) : AuthLib :=
  {| bcrypt_hash := hash; bcrypt_cmp := cmp; yk_parse := split_otp; yk_token := open_token |}.
