(** Property C72: the JSON reader behind LoadKeyStore and UnmarshalSecretStore. *)
From Verif Require Export JsonText.
Local Open Scope Z_scope.

Theorem C72_exact :
  forall s j,
    parse_json s = Some j <-> json_text s j.
Proof. exact @parse_json_exact. Qed.
Print Assumptions C72_exact.

Theorem C72_unambiguous :
  forall s j j',
    json_text s j -> json_text s j' -> j = j'.
Proof. exact @json_text_fun. Qed.
Print Assumptions C72_unambiguous.

Theorem C72_printed :
  forall j,
    int_json j -> levels 10000 j -> parse_json (print j) = Some (san_json j).
Proof. intros j I L. apply parse_print; [exact I|]. apply levels_depth; [lia|exact L]. Qed.
Print Assumptions C72_printed.

(** A value nested more deeply is printed all the same, and the text is not read
    again. *)
Theorem C72_too_deep :
  forall j,
    int_json j -> ~ levels 10000 j -> parse_json (print j) = None.
Proof. intros j I N. apply parse_deep; [exact I|]. intros D. apply N, levels_depth; [lia|exact D]. Qed.
Print Assumptions C72_too_deep.

Example C72_too_deep_nonvacuous : forall n, 10000 < Z.of_nat n ->
  parse_json (print (Nat.iter n (fun j => JArr [j]) JNull)) = None.
Proof.
  intros n Hn.
  assert (forall m, int_json (Nat.iter m (fun j => JArr [j]) JNull) /\ depth (Nat.iter m (fun j => JArr [j]) JNull) = Z.of_nat m) as H.
  { intros m. induction m as [|m [I D]]; [split; [exact I|reflexivity]|]. rewrite Nat.iter_succ. cbn [int_json depth fold_right].
    split; [split; [exact I|exact Logic.I]|]. rewrite D. lia. }
  destruct (H n) as [I D]. apply C72_too_deep; [exact I|]. intros L. apply levels_depth in L; [|lia]. lia.
Qed.

(** U+1F600 written as a surrogate pair, U+00E9 as an escape. *)
Example C72_nonvacuous :
  parse_json (bs " [ ""\ud83D\ude00\u00e9\n"" , -1.5e+3 , { } ] ") =
    Some (JArr [JStr [xf0; x9f; x98; x80; xc3; xa9; x0a]; JNum (bs "-1.5e+3"); JObj []]).
Proof. vm_compute. reflexivity. Qed.
