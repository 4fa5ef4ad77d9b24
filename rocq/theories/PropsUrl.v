(** Property C74: what the user's app gets. *)
From Verif Require Export TotpUrlClaims ToyAuth PropsAuth.
Local Open Scope Z_scope.

(** C74. The URL of a TOTP configuration, and the codes of an app that reads it. *)
Theorem C74_reads :
  forall c label,
    label <> [] -> exists secret, b32_padded (tKey c) secret /\
      key_uri (generate_url c label) (unslashed label) (carried c secret (show_int (tSize c))).
Proof. exact url_reads. Qed.
Print Assumptions C74_reads.

Theorem C74_reads_one :
  forall u l ps l' ps', key_uri u l ps -> key_uri u l' ps' -> l = l' /\ ps = ps'.
Proof. exact key_uri_det. Qed.
Print Assumptions C74_reads_one.

Theorem C74_text :
  forall c label, Forall uri_char (generate_url c label).
Proof. exact url_ascii. Qed.
Print Assumptions C74_text.

Theorem C74_tells :
  forall c c' label label',
    label <> [] -> label' <> [] -> 0 <= tSize c -> 0 <= tSize c' -> generate_url c label = generate_url c' label' ->
    tKey c = tKey c' /\ tSize c = tSize c' /\ tProvider c = tProvider c' /\ unslashed label = unslashed label'.
Proof. exact url_tells. Qed.
Print Assumptions C74_tells.

Theorem C74_slash_refuted :
  forall c label,
    label <> [] -> head label <> Some x2f -> label <> bs "*" -> generate_url c (x2f :: label) = generate_url c label.
Proof. exact url_slash. Qed.
Print Assumptions C74_slash_refuted.

Theorem C74_app :
  forall (C : Crypto) c label t s,
    label <> [] -> usable_totp c -> tStart c = 0 -> tStep c = 30 -> 0 <= t < 2 ^ 64 ->
    app_code (generate_url c label) t s <-> totp_code c t s.
Proof. exact @app_agrees. Qed.
Print Assumptions C74_app.

Theorem C74_app_any :
  forall (C : Crypto) c label t s,
    label <> [] -> 0 <= tSize c -> app_code (generate_url c label) t s <-> hotp (tKey c) (t / 30) (Z.to_nat (tSize c)) s.
Proof. exact @app_code_iff. Qed.
Print Assumptions C74_app_any.

Theorem C74_accepted :
  forall (C : Crypto) (L : CryptoLaws) c label lbl lst t t' s g,
    label <> [] -> usable_totp c -> tStart c = 0 -> tStep c = 30 -> 0 <= t <= t' -> t' < 2 ^ 64 -> t' / 30 <= t / 30 + 1 ->
    app_code (generate_url c label) t s -> s <> lst ->
    validate_totp t' (Some (Auth (bs "TOTP") lbl lst (totp_bytes c))) s g = Ret (VRes (Some (Auth (bs "TOTP") lbl s (totp_bytes c))) true None g).
Proof. exact @app_accepted. Qed.
Print Assumptions C74_accepted.

(** The app is not told of another step or start. *)
Theorem C74_step_refuted :
  exists (C : Crypto) (L : CryptoLaws) c label t s lbl lst g,
    usable_totp c /\ label <> [] /\ tStart c = 0 /\ tStep c = 60 /\ 0 <= t < 2 ^ 32 /\ app_code (generate_url c label) t s /\ s <> lst /\
    validate_totp t (Some (Auth (bs "TOTP") lbl lst (totp_bytes c))) s g = Ret (VRes (Some (Auth (bs "TOTP") lbl lst (totp_bytes c))) false (Some EValidationFail) g).
Proof.
  exists toy, toy_laws, (Totp (bs "12345678901234567890") 0 60 6 3 (bs "example")), (bs "me"), 2000, (bs "896727"), [], [], [].
  split; [vm_compute; repeat split; congruence|]. split; [discriminate|]. split; [reflexivity|]. split; [reflexivity|]. split; [lia|]. split.
  - destruct (otp_at_code (C:=toy) (L:=toy_laws) C28_config 2000) as (s & E & H); [vm_compute; congruence|vm_compute; split; congruence|reflexivity|].
    replace (bs "896727") with s.
    { apply (app_agrees (C:=toy) C28_config (bs "me")) in H; [exact H|discriminate|vm_compute; repeat split; congruence|reflexivity|reflexivity|lia]. }
    assert (otp_at (C:=toy) C28_config 2000 = Ret (Some (bs "896727"))) as E2 by (vm_compute; reflexivity). rewrite E2 in E. injection E as <-. reflexivity.
  - split; [discriminate|]. vm_compute. reflexivity.
Qed.
Print Assumptions C74_step_refuted.

Theorem C74_start_refuted :
  exists (C : Crypto) (L : CryptoLaws) c label t s lbl lst g,
    usable_totp c /\ label <> [] /\ tStart c = 1000 /\ tStep c = 30 /\ 1000 <= t < 2 ^ 32 /\ app_code (generate_url c label) t s /\ s <> lst /\
    validate_totp t (Some (Auth (bs "TOTP") lbl lst (totp_bytes c))) s g = Ret (VRes (Some (Auth (bs "TOTP") lbl lst (totp_bytes c))) false (Some EValidationFail) g).
Proof.
  exists toy, toy_laws, (Totp (bs "12345678901234567890") 1000 30 6 3 (bs "example")), (bs "me"), 2000, (bs "896727"), [], [], [].
  split; [vm_compute; repeat split; congruence|]. split; [discriminate|]. split; [reflexivity|]. split; [reflexivity|]. split; [lia|]. split.
  - destruct (otp_at_code (C:=toy) (L:=toy_laws) C28_config 2000) as (s & E & H); [vm_compute; congruence|vm_compute; split; congruence|reflexivity|].
    replace (bs "896727") with s.
    { apply (app_agrees (C:=toy) C28_config (bs "me")) in H; [exact H|discriminate|vm_compute; repeat split; congruence|reflexivity|reflexivity|lia]. }
    assert (otp_at (C:=toy) C28_config 2000 = Ret (Some (bs "896727"))) as E2 by (vm_compute; reflexivity). rewrite E2 in E. injection E as <-. reflexivity.
  - split; [discriminate|]. vm_compute. reflexivity.
Qed.
Print Assumptions C74_start_refuted.

Theorem C74_export :
  forall draw c lbl lst label,
    usable_totp c -> exists text, b32_padded (tKey c) text /\
      export_totp draw (Some (Auth (bs "TOTP") lbl lst (totp_bytes c))) label =
      Ret (if decide (label = []) then Some (text, None) else match draw (generate_url c label) with None => None | Some p => Some (text, Some p) end).
Proof. exact export_usable. Qed.
Print Assumptions C74_export.

Theorem C74_export_refuses :
  forall draw a label, (forall x, a = Some x -> aType x <> bs "TOTP") -> export_totp draw a label = Ret None.
Proof. exact export_refuses. Qed.
Print Assumptions C74_export_refuses.

Theorem C74_new :
  forall (C : Crypto) (L : CryptoLaws) draw prov label now g key g',
    length key = 20%nat -> delivers g key g' -> zlen prov < 2 ^ 29 ->
    let c := Totp key 0 30 6 3 prov in
    exists code text, totp_code c now code /\ b32_padded key text /\
      new_google_user draw prov label now g =
      Ret (match (if decide (label = []) then Some None else match draw (generate_url c label) with None => None | Some p => Some (Some p) end) with
           | None => None | Some p => Some (Auth (bs "TOTP") [] code (totp_bytes c), (text, p)) end, g').
Proof. exact @new_user. Qed.
Print Assumptions C74_new.

Theorem C74_new_starved :
  forall (C : Crypto) draw prov label now g, starved g 20 -> exists g', new_google_user draw prov label now g = Ret (None, g').
Proof. exact @new_user_starved. Qed.
Print Assumptions C74_new_starved.

Example C74_url :
  generate_url C28_config (bs "me@work, 1?") = bs "otpauth://totp/me@work,%201%3F?provider=example&secret=GEZDGNBVGY3TQOJQGEZDGNBVGY3TQOJQ" /\
  generate_url (Totp (bs "foobar") 0 30 8 3 (bs "a b+c")) (bs "*") = bs "otpauth://totp/*?digits=8&provider=a+b%2Bc&secret=MZXW6YTBOI%3D%3D%3D%3D%3D%3D".
Proof. split; vm_compute; reflexivity. Qed.
Example C74_nonvacuous : exists s, usable_totp C28_config /\ app_code (C:=toy) (generate_url C28_config (bs "me")) 59 s.
Proof.
  destruct (otp_at_code (C:=toy) (L:=toy_laws) C28_config 59) as (s & _ & H); [vm_compute; congruence|vm_compute; split; congruence|reflexivity|].
  exists s. split; [vm_compute; repeat split; congruence|]. apply (app_agrees (C:=toy)); [discriminate|vm_compute; repeat split; congruence|reflexivity|reflexivity|lia|exact H].
Qed.
