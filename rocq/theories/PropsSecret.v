(** Property theorems about common/util, common/secret and cmd/migrate-store
    (C07-C14). Only statements, each closed by a lemma of SecretFacts.v. *)
From Verif Require Import SecretFacts Toy.
Local Open Scope Z_scope.

(** C07. *)
Theorem C07_rand_bytes :
  forall size g,
    (size < 0 -> rand_bytes size g = Panic) /\
    (forall p g', rand_bytes size g = Ret (Some p, g') <-> zlen p = size /\ delivers g p g') /\
    (0 <= size -> ((exists g', rand_bytes size g = Ret (None, g')) <-> starved g (Z.to_nat size))).
Proof. exact rand_bytes_exact. Qed.
Print Assumptions C07_rand_bytes.

Theorem C07_new_nonce :
  forall g,
    (forall p g', new_nonce g = (Some p, g') <-> length p = 24%nat /\ delivers g p g') /\
    ((exists g', new_nonce g = (None, g')) <-> starved g 24).
Proof. exact new_nonce_exact. Qed.
Print Assumptions C07_new_nonce.

Theorem C07_generate_key :
  forall g,
    (forall k g', generate_key g = (Some k, g') <-> length k = 32%nat /\ delivers g k g') /\
    ((exists g', generate_key g = (None, g')) <-> starved g 32).
Proof. exact generate_key_exact. Qed.
Print Assumptions C07_generate_key.

(** A source that works for 3 bytes, fails once, then goes on. *)
Definition C07_source : rng := map Some (bs "abc") ++ [None] ++ map Some (bs "defgh").
Example C07_nonvacuous :
  delivers C07_source (bs "ab") ([Some x63; None] ++ map Some (bs "defgh")) /\
  starved C07_source 4 /\ read_full 4 C07_source = (None, map Some (bs "defgh")).
Proof.
  split; [reflexivity|]. split; [|reflexivity]. apply read_full_none. eexists. reflexivity.
Qed.

(** C08. *)
Theorem C08_roundtrip :
  forall (C : Crypto) (L : CryptoLaws) k msg g,
    (forall nonce g', length nonce = 24%nat -> delivers g nonce g' ->
       exists c, encrypt (Some k) msg g = Ret (Some c, g') /\ decrypt (Some k) c = Ret (Some msg) /\
                 sealed_with k nonce msg c /\ length c = (length msg + 40)%nat) /\
    (starved g 24 -> exists g', encrypt (Some k) msg g = Ret (None, g')).
Proof. exact @encrypt_roundtrip. Qed.
Print Assumptions C08_roundtrip.

Example C08_nonvacuous :
  delivers (map Some (bs "abcdefghijklmnopqrstuvwxyz")) (bs "abcdefghijklmnopqrstuvwx") (map Some (bs "yz"))
  /\ encrypt (Some (bs "key")) (bs "hello") (map Some (bs "abcdefghijklmnopqrstuvwxyz")) <> Panic.
Proof. split; [reflexivity|]. vm_compute. discriminate. Qed.

(** C09. *)
Theorem C09_accepts_exactly :
  forall (C : Crypto) (L : CryptoLaws) k c m,
    decrypt (Some k) c = Ret (Some m) <-> exists nonce, sealed_with k nonce m c.
Proof. exact @decrypt_exact. Qed.
Print Assumptions C09_accepts_exactly.

Theorem C09_rejects_exactly :
  forall (C : Crypto) (L : CryptoLaws) k c,
    (length c < 40)%nat \/ (forall nonce m, ~ sealed_with k nonce m c) <-> decrypt (Some k) c = Ret None.
Proof. exact @decrypt_rejects. Qed.
Print Assumptions C09_rejects_exactly.

Theorem C09_never_panics :
  forall (C : Crypto) k c, exists r, decrypt (Some k) c = Ret r.
Proof. exact @decrypt_total. Qed.
Print Assumptions C09_never_panics.

Theorem C09_one_message :
  forall (C : Crypto) (L : CryptoLaws) k nonce nonce' m m' c,
    sealed_with k nonce m c -> sealed_with k nonce' m' c -> nonce = nonce' /\ m = m'.
Proof. exact @sealed_unique. Qed.
Print Assumptions C09_one_message.

Theorem C09_tampering_detected :
  forall (C : Crypto) (L : CryptoLaws) k nonce m c c',
    sealed_with k nonce m c -> take 24 c' = nonce -> c' <> c -> decrypt (Some k) c' <> Ret (Some m).
Proof. exact @decrypt_tamper. Qed.
Print Assumptions C09_tampering_detected.

(** C10. *)
Theorem C10_derivation :
  forall (C : Crypto) (L : CryptoLaws) pass salt m,
    (m = 0 -> derive_key_strength pass salt m = Some (scrypt_raw pass salt (2 ^ 20) 8 2)) /\
    (m = 1 -> derive_key_strength pass salt m = Some (scrypt_raw pass salt (2 ^ 14) 8 1)) /\
    (m <> 0 -> m <> 1 -> derive_key_strength pass salt m = None) /\
    (forall k, derive_key_strength pass salt m = Some k -> length k = 32%nat) /\
    derive_key pass salt = derive_key_strength pass salt 0.
Proof. exact @derive_exact. Qed.
Print Assumptions C10_derivation.

(** C11. *)
Theorem C11_roundtrip :
  forall (C : Crypto) (L : CryptoLaws) w f name pass d g r,
    encrypt_file w f name pass d g = Ret r ->
    only_changes name f (ef_fs r) /\
    (ef_err r = None -> decrypt_file (ef_fs r) name pass = Ret (inr d)).
Proof. exact @encrypt_file_roundtrip. Qed.
Print Assumptions C11_roundtrip.

Theorem C11_succeeds :
  forall (C : Crypto) (L : CryptoLaws) f name pass d g salt nonce g',
    length salt = 32%nat -> length nonce = 24%nat -> delivers g (salt ++ nonce) g' ->
    exists r, encrypt_file WOk f name pass d g = Ret r /\ ef_err r = None /\ ef_rng r = g' /\
      exists data, ef_fs r !! name = Some data /\ file_format (2 ^ 20) 8 2 pass salt nonce d data.
Proof. exact @encrypt_file_succeeds. Qed.
Print Assumptions C11_succeeds.

Theorem C11_failed_write_is_reported :
  forall (C : Crypto) (L : CryptoLaws) w f name pass d g r,
    encrypt_file w f name pass d g = Ret r -> w <> WOk -> ef_err r <> None.
Proof. exact @encrypt_file_bad_write. Qed.
Print Assumptions C11_failed_write_is_reported.

Theorem C11_encrypt_never_panics :
  forall (C : Crypto) (L : CryptoLaws) w f name pass d g, exists r, encrypt_file w f name pass d g = Ret r.
Proof. exact @encrypt_file_total. Qed.
Print Assumptions C11_encrypt_never_panics.

Theorem C11_accepts_exactly :
  forall (C : Crypto) (L : CryptoLaws) f name pass m,
    decrypt_file f name pass = Ret (inr m) <->
    exists data, f !! name = Some data /\ genuine_file pass m data.
Proof. exact @decrypt_file_exact. Qed.
Print Assumptions C11_accepts_exactly.

Theorem C11_panics_exactly :
  forall (C : Crypto) (L : CryptoLaws) f name pass,
    decrypt_file f name pass = Panic <-> exists data, f !! name = Some data /\ (length data < 32)%nat.
Proof. exact @decrypt_file_panics. Qed.
Print Assumptions C11_panics_exactly.

Theorem C11_errors :
  forall (C : Crypto) (L : CryptoLaws) f name pass,
    (f !! name = None -> decrypt_file f name pass = Ret (inl ERead)) /\
    (forall data, f !! name = Some data -> (32 <= length data)%nat -> (forall m, ~ genuine_file pass m data) ->
       decrypt_file f name pass = Ret (inl EDecrypt)).
Proof. exact @decrypt_file_errors. Qed.
Print Assumptions C11_errors.

Definition C11_source : rng := map Some (bs "0123456789abcdef0123456789abcdefABCDEFGHIJKLMNOPQRSTUVWX").
Example C11_nonvacuous :
  match encrypt_file (C:=toy) WOk ∅ (bs "f") (bs "pw") (bs "data") C11_source with
  | Ret r => ef_err r = None | Panic => False end.
Proof. vm_compute. reflexivity. Qed.

(** C12. *)
Theorem C12_wipes :
  forall (C : Crypto) (L : CryptoLaws) w f name pass d g r,
    encrypt_file w f name pass d g = Ret r ->
    (starved g 32 -> ef_buf r = d /\ ef_fs r = f /\ ef_err r = Some ESalt) /\
    (~ starved g 32 -> ef_buf r = replicate (length d) x00).
Proof. exact @encrypt_file_wipes. Qed.
Print Assumptions C12_wipes.

Example C12_nonvacuous : ~ starved C11_source 32 /\ starved C11_source 57.
Proof.
  split.
  - intros H. apply (H (take 32 (bs "0123456789abcdef0123456789abcdefABCDEFGHIJKLMNOPQRSTUVWX")) (drop 32 C11_source)); reflexivity.
  - apply read_full_none. eexists. vm_compute. reflexivity.
Qed.

(** C13. The states a crash can leave, and what a reader then sees. *)
Theorem C13_encrypt_file_states :
  forall (C : Crypto) (L : CryptoLaws) w f name pass d g r,
    encrypt_file w f name pass d g = Ret r ->
    ef_fs r = f \/ exists salt nonce data, file_format (2 ^ 20) 8 2 pass salt nonce d data /\
                     ef_fs r ∈ write_states f name data.
Proof. exact @encrypt_file_states. Qed.
Print Assumptions C13_encrypt_file_states.

Theorem C13_crash_states :
  forall f path data f',
    f' ∈ write_states f path data <->
    f' = f \/ exists p, p `prefix_of` data /\ f' = <[path := p]> f.
Proof. exact write_states_exact. Qed.
Print Assumptions C13_crash_states.

Theorem C13_reader :
  forall (C : Crypto) (L : CryptoLaws) f name pass salt nonce m data f',
    file_format (2 ^ 20) 8 2 pass salt nonce m data ->
    no_truncated_box (scrypt_raw pass salt (2 ^ 20) 8 2) nonce m ->
    f' ∈ write_states f name data ->
    f' = f \/ (exists p, f' = <[name := p]> f /\ p `prefix_of` data /\
      ((p = data /\ decrypt_file f' name pass = Ret (inr m)) \/
       (p <> data /\ (length p < 32)%nat /\ decrypt_file f' name pass = Panic) \/
       (p <> data /\ (32 <= length p)%nat /\ decrypt_file f' name pass = Ret (inl EDecrypt)))).
Proof. exact @crash_read. Qed.
Print Assumptions C13_reader.

(** The replacement is not atomic. *)
Theorem C13_atomic_replacement_refuted :
  forall f path old data,
    f !! path = Some old -> old <> [] ->
    exists f', f' ∈ write_states f path data /\ f' !! path = Some [] /\ only_changes path f f'.
Proof. exact write_loses_old. Qed.
Print Assumptions C13_atomic_replacement_refuted.

Example C13_nonvacuous : no_truncated_box (C:=toy) (bs "k") (bs "n") (bs "message").
Proof.
  intros m' [s E]. cbn [sbox_seal toy] in E. unfold toy_hash in E.
  rewrite <- app_assoc in E. apply app_inj_1 in E as [E1 E2]; [|reflexivity].
  destruct (decide (length m' = 7)%nat) as [Hl|Hl].
  - pose proof (take_app m' s) as T. rewrite <- E2, Hl in T. symmetry. exact T.
  - exfalso. assert (length m' < 7)%nat as H7 by (apply (f_equal length) in E2; rewrite app_length in E2; cbn in E2; lia).
    pose proof (take_app m' s) as T. rewrite <- E2 in T.
    assert (In (length m') (seq 0 7)) as Hin by (apply in_seq; lia).
    rewrite <- T in E1. revert E1 Hin. generalize (length m'). clear. intros n E1 Hin.
    repeat (destruct Hin as [<-|Hin]; [vm_compute in E1; discriminate|]). destruct Hin.
Qed.

(** C14. *)
Theorem C14_migrates :
  forall (C : Crypto) (L : CryptoLaws) args f g f' g',
    NoDup (map arg_path args) -> migrate_main args f g = (Running, f', g') ->
    Forall (fun a => exists p data m, arg_pass a = Some p /\ f !! arg_path a = Some data /\
       genuine_legacy_file p m data /\ decrypt_file f' (arg_path a) p = Ret (inr m)) args.
Proof. exact @migrate_main_ok. Qed.
Print Assumptions C14_migrates.

Theorem C14_one_succeeds :
  forall (C : Crypto) (L : CryptoLaws) f path pass m data g salt nonce g',
    f !! path = Some data -> genuine_legacy_file pass m data ->
    length salt = 32%nat -> length nonce = 24%nat -> delivers g (salt ++ nonce) g' ->
    exists f', migrate_store WOk path (Some pass) f g = (Running, f', g') /\
      decrypt_file f' path pass = Ret (inr m) /\ only_changes path f f'.
Proof. exact @migrate_store_succeeds. Qed.
Print Assumptions C14_one_succeeds.

Theorem C14_fails_safely :
  forall (C : Crypto) (L : CryptoLaws) args f g st f' g',
    migrate_main args f g = (st, f', g') -> st <> Running ->
    exists done a rest f1, args = done ++ a :: rest /\
      (exists g1, migrate_main done f g = (Running, f1, g1)) /\
      only_changes (arg_path a) f1 f' /\
      ((forall p data m, arg_pass a = Some p -> f1 !! arg_path a = Some data -> ~ genuine_legacy_file p m data) -> f' = f1).
Proof. exact @migrate_main_stops. Qed.
Print Assumptions C14_fails_safely.

Theorem C14_other_files_untouched :
  forall (C : Crypto) (L : CryptoLaws) args f g st f' g' q,
    migrate_main args f g = (st, f', g') -> q ∉ map arg_path args -> f' !! q = f !! q.
Proof. exact @migrate_main_others. Qed.
Print Assumptions C14_other_files_untouched.

(** Files written by the legacy package are what the migration expects. *)
Theorem C14_legacy_files_are_genuine :
  forall (C : Crypto) (L : CryptoLaws) f name pass d g salt nonce g',
    length salt = 32%nat -> length nonce = 24%nat -> delivers g (salt ++ nonce) g' ->
    exists r data, legacy_encrypt_file WOk f name pass d g = Ret r /\ ef_err r = None /\
      ef_fs r = <[name := data]> f /\ genuine_legacy_file pass d data.
Proof. exact @legacy_encrypt_file_ok. Qed.
Print Assumptions C14_legacy_files_are_genuine.

Example C14_nonvacuous :
  match legacy_encrypt_file (C:=toy) WOk ∅ (bs "f") (bs "pw") (bs "data") C11_source with
  | Ret r => fst (fst (migrate_main (C:=toy) [(bs "f", Some (bs "pw"), WOk)] (ef_fs r) C11_source)) = Running
  | Panic => False end.
Proof. vm_compute. reflexivity. Qed.
