(** A toy implementation of the primitives. It is only used to show that the
    hypotheses of the theorems ([CryptoLaws] and others) can be met; it is not a
    model of the real ones. *)
From Verif Require Export Crypto BytesFacts.
Local Open Scope Z_scope.

(** Not modelling anything in /repo: a checksum. *)
Definition toy_hash (n : nat) (l : bytes) : bytes := be n (foldr (fun c a => (bz c + 3 * a) mod 65521) (1 + zlen l) l * 0x1000100010001000100010001000100010001000100010001000100010001).

(** Not modelling anything in /repo. *)
Definition xor_bytes (a b : bytes) : bytes := zip_with (fun x y => zb (Z.lxor (bz x) (bz y))) a b.

Global Instance toy : Crypto := {|
  sbox_seal k n m := toy_hash 16 (k ++ n ++ m) ++ m;
  sbox_open k n c :=
    if decide (c = toy_hash 16 (k ++ n ++ drop 16 c) ++ drop 16 c) then Some (drop 16 c) else None;
  scrypt_raw p s N r q := toy_hash 32 (p ++ x00 :: s ++ be 4 N ++ be 1 r ++ be 1 q);
  box_pub k := copy_into 32 k;
  box_shared p k := copy_into 32 (xor_bytes p k);
  ed_pub s := copy_into 32 s;
  ed_sign k m := copy_into 32 k ++ toy_hash 32 m;
  ed_verify p m s := bool_decide (s = p ++ toy_hash 32 m);
  hmac_sha1 k m := toy_hash 20 (k ++ m);
  hmac_sha256 k m := toy_hash 32 (k ++ m);
  sha256 m := toy_hash 32 m;
|}.

Lemma xor_bytes_comm a b : xor_bytes a b = xor_bytes b a.
Proof.
  unfold xor_bytes. revert b; induction a as [|x a IH]; intros [|y b]; cbn; auto.
  rewrite IH. f_equal. f_equal. apply Z.lxor_comm.
Qed.

Global Instance toy_laws : CryptoLaws.
Proof.
  constructor; cbn [toy sbox_seal sbox_open scrypt_raw box_pub box_shared ed_pub ed_sign ed_verify hmac_sha1 hmac_sha256 sha256]; unfold toy_hash; intros;
    rewrite ?app_length, ?length_be, ?length_copy_into; try lia; try reflexivity.
  - split.
    + case_decide as E; [|discriminate]. intros [= <-]. exact E.
    + intros ->. rewrite drop_app_alt by (rewrite length_be; reflexivity).
      rewrite decide_True; auto.
  - rewrite (copy_into_id 32 a), (copy_into_id 32 b) by assumption. f_equal. apply xor_bytes_comm.
  - apply bool_decide_eq_true. f_equal.
    rewrite (copy_into_id 32 s) by assumption.
    unfold copy_into. rewrite take_app_alt by (symmetry; assumption).
    rewrite app_length, H. cbn. apply app_nil_r.
Qed.
