(** A toy bcrypt and YubiKey library, only to show that the hypotheses of the
    theorems about common/auth can be met. *)
From Verif Require Export Toy Auth.
Local Open Scope Z_scope.

Global Instance toy_auth : AuthLib := {|
  bcrypt_hash cost salt key := zb cost :: salt ++ key;
  bcrypt_cmp h q := bool_decide (h = take 17 h ++ bkey q);
  yk_parse otp := match otp with p :: o => Some ([p], o) | [] => None end;
  yk_token key o :=
    match o with
    | [k; lo; hi; u] => if decide (head key = Some k) then Some (Token lo hi u) else None
    | _ => None
    end;
|}.

Global Instance toy_auth_laws : AuthLibLaws.
Proof.
  constructor. intros cost salt pw q _ Hs. cbn [toy_auth bcrypt_cmp bcrypt_hash].
  change (zb cost :: salt ++ bkey pw) with ((zb cost :: salt) ++ bkey pw).
  rewrite take_app_alt by (cbn [length]; lia).
  apply bool_decide_ext. change (zb cost :: salt ++ bkey q) with ((zb cost :: salt) ++ bkey q).
  split; intros E; symmetry; exact E.
Qed.
