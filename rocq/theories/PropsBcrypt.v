(** C84: bcrypt as the passwords of common/auth use it. *)
From Verif Require Import BcryptClaims AuthFacts AuthRuns.
Local Open Scope Z_scope.

(** The tables of the library make a row; with it its cipher is Blowfish. *)
Theorem C84_blowfish :
  forall (c : bf) l r,
    length (bfP c) = 18%nat -> length (bf0 c) = 256%nat -> length (bf1 c) = 256%nat -> length (bf2 c) = 256%nat -> length (bf3 c) = 256%nat ->
    bf_encrypt c l r = blowfish (bfP c ++ bf0 c ++ bf1 c ++ bf2 c ++ bf3 c) (l, r).
Proof. intros c l r H H0 H1 H2 H3. apply (encrypt_is c l r). repeat split; assumption. Qed.
Print Assumptions C84_blowfish.

(** Schneier's first test vector: key and block of zeros. *)
Theorem C84_blowfish_vector : blowfish (expand_key None (replicate 8 x00) row_init) (0, 0) = (0x4ef99745, 0x6198dd78).
Proof.
  destruct (expand_is (replicate 8 x00) bf_init wf_init ltac:(discriminate)) as (A & W). rewrite row_init_is in A. rewrite <- A, <- encrypt_is by exact W.
  vm_compute. reflexivity.
Qed.
Print Assumptions C84_blowfish_vector.

Theorem C84_bcrypt :
  forall cost salt key, 0 <= cost -> key <> [] -> salt <> [] -> bc_raw cost salt key = bcrypt_23 cost salt key.
Proof. exact raw_is. Qed.
Print Assumptions C84_bcrypt.

(** The text made, and nothing else. *)
Theorem C84_text_written :
  forall cost salt key s, 0 <= cost < 100 -> salt <> [] -> key <> [] -> s = bcrypt_string cost salt key <-> bcrypt_text cost salt key s.
Proof. exact string_text. Qed.
Print Assumptions C84_text_written.

(** Of the password only what its key schedule takes matters. *)
Theorem C84_key_schedule :
  forall cost salt pw, 0 <= cost -> salt <> [] -> bcrypt_23 cost salt (pw ++ [x00]) = bcrypt_23 cost salt (bkey pw).
Proof.
  intros cost salt pw Hc Hs. rewrite <- !raw_is; [apply raw_bkey|exact Hc| |exact Hs|exact Hc|destruct pw; discriminate|exact Hs].
  intros E. pose proof (length_bkey pw) as L. rewrite E in L. discriminate.
Qed.
Print Assumptions C84_key_schedule.

(** What [ValidatePassword] accepts and refuses. *)
Theorem C84_accepts_exactly :
  forall a pw g, aType a = bs "password" ->
    (validate_password (A := real_auth) (Some a) pw g = Ret (VRes (Some a) false None g) <-> bcrypt_accepts (aSecret a) pw) /\
    (validate_password (A := real_auth) (Some a) pw g = Ret (VRes (Some a) false (Some EValidationFail) g) <-> ~ bcrypt_accepts (aSecret a) pw).
Proof. exact validate_exact. Qed.
Print Assumptions C84_accepts_exactly.

(** What [NewPassword] makes. *)
Theorem C84_creation :
  forall pw cost g a g', new_password (A := real_auth) pw cost g = (Some a, g') ->
    exists salt, length salt = 16%nat /\ delivers g salt g' /\ aType a = bs "password" /\ length (aSecret a) = 60%nat /\
      bcrypt_text (if decide (4 <= cost <= 31) then cost else 14) salt (bkey pw) (aSecret a) /\ bcrypt_accepts (aSecret a) pw.
Proof.
  intros pw cost g a g' E. apply (new_password_exact (A := real_auth)) in E as (_ & salt & L & D & ->).
  exists salt. cbn [aType aSecret]. change (@bcrypt_hash real_auth) with bcrypt_string.
  assert (4 <= effective_cost cost <= 31) as Hc by (unfold effective_cost; case_decide; lia).
  change (if decide (4 <= cost <= 31) then cost else 14) with (effective_cost cost). revert Hc. generalize (effective_cost cost). intros c Hc.
  split; [exact L|]. split; [exact D|]. split; [reflexivity|]. split; [apply string_length, L|]. split.
  - apply string_text; [lia|destruct salt; discriminate| |reflexivity]. intros Ek. pose proof (length_bkey pw) as Lk. rewrite Ek in Lk. discriminate.
  - rewrite <- (app_nil_r (bcrypt_string c salt (bkey pw))). apply made_accepted; assumption.
Qed.
Print Assumptions C84_creation.

(** The law assumed of bcrypt elsewhere (C71 and the runs of common/auth) holds. *)
Theorem C84_law :
  forall cost salt pw q, 4 <= cost <= 31 -> length salt = 16%nat ->
    bcrypt_cmp (AuthLib := real_auth) (bcrypt_hash (AuthLib := real_auth) cost salt (bkey pw)) q =
    bool_decide (bcrypt_hash (AuthLib := real_auth) cost salt (bkey q) = bcrypt_hash (AuthLib := real_auth) cost salt (bkey pw)).
Proof. exact real_law. Qed.
Print Assumptions C84_law.

(** Passwords of the same key schedule are one password to every stored text. *)
Theorem C84_same_key : forall h p q, bkey p = bkey q -> bcrypt_accepts h p <-> bcrypt_accepts h q.
Proof. exact same_key_same. Qed.
Print Assumptions C84_same_key.

(** A wiped password authenticator refuses every password. *)
Theorem C84_wiped :
  forall a pw g, aType a = bs "password" ->
    validate_password (A := real_auth) (Some (auth_zero a)) pw g = Ret (VRes (Some (auth_zero a)) false (Some EValidationFail) g).
Proof. exact wiped_password_refuses. Qed.
Print Assumptions C84_wiped.

(** That only the text made is accepted is false: what follows it is ignored. *)
Theorem C84_canonical_refuted :
  forall cost salt pw rest, 4 <= cost <= 31 -> length salt = 16%nat -> bcrypt_accepts (bcrypt_string cost salt (bkey pw) ++ rest) pw.
Proof. exact made_accepted. Qed.
Print Assumptions C84_canonical_refuted.

Example C84_nonvacuous :
  (forall pw, exists h, length h = 60%nat /\ bcrypt_accepts h pw) /\
  cost_text x2b x35 5 /\ salt_text (bs "CCCCCCCCCCCCCCCCCC" ++ [x0a; x0a; x0d; x0d]) (map zb [16; 65; 4; 16; 65; 4; 16; 65; 4; 16; 65; 4; 16]) /\
  bc_encode (map zb (seqZ 0 16)) = bs "..CA.uOD/eaGAOmJB.yMBu" /\
  bkey (bs "ab") = bkey (bs "ab" ++ [x00] ++ bs "ab").
Proof.
  split; [|split; [|split; [|split]]].
  - intros pw. exists (bcrypt_string 4 (replicate 16 x01) (bkey pw) ++ []). split; [rewrite app_nil_r; apply string_length; reflexivity|]. apply made_accepted; [lia|reflexivity].
  - exists 5. split; [split; [lia|reflexivity]|]. left. auto.
  - exists (replicate 18 4). replace (no_breaks _) with (replicate 18 x43) by (vm_compute; reflexivity).
    split; [apply Forall2_replicate; split; [lia|reflexivity]|]. split; [reflexivity|]. exists 4, 4. split; [lia|]. split; [reflexivity|]. split; [lia|]. vm_compute. reflexivity.
  - vm_compute. reflexivity.
  - symmetry. apply bkey_doubled.
Qed.
