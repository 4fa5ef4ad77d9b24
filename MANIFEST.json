{
 "claims": [
  {
   "property": "C01",
   "status": "proved",
   "theorems": [
    "C01_roundtrip",
    "C01_wire_format",
    "C01_empty_bytes_refuted",
    "C01_large_buffer_refuted"
   ],
   "note": "Full round trip under the exact side conditions; the unrestricted version is refuted (empty byte slice, buffers of 2^31 bytes or more)."
  },
  {
   "property": "C02",
   "status": "proved",
   "theorems": [
    "C02_injective",
    "C02_prefix_free"
   ],
   "note": ""
  },
  {
   "property": "C03",
   "status": "proved",
   "theorems": [
    "C03_panics_exactly",
    "C03_never_panics_refuted",
    "C03_reads_beyond_length_refuted"
   ],
   "note": "Exact panic condition, plus witnesses that Decode panics on 5-byte inputs and can read past the visible length."
  },
  {
   "property": "C04",
   "status": "proved",
   "theorems": [
    "C04_value_exactly",
    "C04_untouched_exactly",
    "C04_tag_mismatch_is_error"
   ],
   "note": ""
  },
  {
   "property": "C05",
   "status": "proved",
   "theorems": [
    "C05_progress",
    "C05_loop_bound",
    "C05_empty_record_spins"
   ],
   "note": ""
  },
  {
   "property": "C06",
   "status": "proved",
   "theorems": [
    "C06_encode_total",
    "C06_length",
    "C06_decoder_zero"
   ],
   "note": ""
  },
  {
   "property": "C07",
   "status": "proved",
   "theorems": [
    "C07_rand_bytes",
    "C07_new_nonce",
    "C07_generate_key"
   ],
   "note": ""
  },
  {
   "property": "C08",
   "status": "proved",
   "theorems": [
    "C08_roundtrip"
   ],
   "note": ""
  },
  {
   "property": "C09",
   "status": "proved",
   "theorems": [
    "C09_accepts_exactly",
    "C09_rejects_exactly",
    "C09_never_panics",
    "C09_one_message",
    "C09_tampering_detected"
   ],
   "note": ""
  },
  {
   "property": "C10",
   "status": "proved",
   "theorems": [
    "C10_derivation"
   ],
   "note": ""
  },
  {
   "property": "C11",
   "status": "proved",
   "theorems": [
    "C11_roundtrip",
    "C11_succeeds",
    "C11_failed_write_is_reported",
    "C11_encrypt_never_panics",
    "C11_accepts_exactly",
    "C11_panics_exactly",
    "C11_errors"
   ],
   "note": ""
  },
  {
   "property": "C12",
   "status": "proved",
   "theorems": [
    "C12_wipes"
   ],
   "note": ""
  },
  {
   "property": "C13",
   "status": "proved",
   "theorems": [
    "C13_encrypt_file_states",
    "C13_crash_states",
    "C13_reader",
    "C13_atomic_replacement_refuted"
   ],
   "note": "Crash states of util.WriteFile/EncryptFile are exact; that a truncated box does not open takes the hypothesis no_truncated_box, stated in the theorem. Atomic replacement is refuted."
  },
  {
   "property": "C14",
   "status": "proved",
   "theorems": [
    "C14_migrates",
    "C14_one_succeeds",
    "C14_fails_safely",
    "C14_other_files_untouched",
    "C14_legacy_files_are_genuine"
   ],
   "note": "Interactive prompts are modelled as given answers."
  },
  {
   "property": "C15",
   "status": "proved",
   "theorems": [
    "C15_public_accepts_exactly",
    "C15_public_value",
    "C15_public_roundtrip",
    "C15_public_inverse",
    "C15_private_roundtrip",
    "C15_invalid_rejected",
    "C15_valid_means"
   ],
   "note": ""
  },
  {
   "property": "C16",
   "status": "proved",
   "theorems": [
    "C16_accepts_exactly",
    "C16_panics_exactly",
    "C16_field_is_record",
    "C16_zero_key_refuted",
    "C16_zero"
   ],
   "note": "Exact acceptance and panic conditions; that only real keys are accepted is refuted by the 5-byte all-zero key."
  },
  {
   "property": "C17",
   "status": "proved",
   "theorems": [
    "C17_new_session_never_succeeds",
    "C17_new_session_panics",
    "C17_generate_key_never_succeeds"
   ],
   "note": "GenerateKey slices nil array pointers, so it panics on every healthy random source; therefore NewSession never succeeds either."
  },
  {
   "property": "C18",
   "status": "proved",
   "theorems": [
    "C18_roundtrip"
   ],
   "note": "Complete classification by message length."
  },
  {
   "property": "C19",
   "status": "proved",
   "theorems": [
    "C19_encrypt_failures",
    "C19_output_complete",
    "C19_encrypt_is",
    "C19_encrypt_and_sign_is"
   ],
   "note": ""
  },
  {
   "property": "C20",
   "status": "proved",
   "theorems": [
    "C20_accepts_exactly",
    "C20_panics_exactly"
   ],
   "note": ""
  },
  {
   "property": "C21",
   "status": "proved",
   "theorems": [
    "C21_sign_then_verify",
    "C21_sign_exactly",
    "C21_verify_exactly"
   ],
   "note": ""
  },
  {
   "property": "C22",
   "status": "proved",
   "theorems": [
    "C22_roundtrip",
    "C22_accepts_exactly",
    "C22_invalid_signer_refused"
   ],
   "note": ""
  },
  {
   "property": "C23",
   "status": "proved",
   "theorems": [
    "C23_signed_not_plain",
    "C23_plain_not_signed"
   ],
   "note": ""
  },
  {
   "property": "C24",
   "status": "proved",
   "theorems": [
    "C24_recipient_not_bound"
   ],
   "note": ""
  },
  {
   "property": "C25",
   "status": "proved",
   "theorems": [
    "C25_lock_unlock",
    "C25_lock_fails",
    "C25_unlock_accepts_exactly",
    "C25_unlock_rejects",
    "C25_pem_roundtrip",
    "C25_pem_fails",
    "C25_pem_accepts_exactly",
    "C25_pem_rejects"
   ],
   "note": ""
  },
  {
   "property": "C26",
   "status": "proved",
   "theorems": [
    "C26_agreement"
   ],
   "note": ""
  },
  {
   "property": "C27",
   "status": "proved",
   "theorems": [
    "C27_discipline",
    "C27_unknown_rejected",
    "C27_password_never_updates",
    "C27_each_validator_checks_its_type",
    "C27_session_checks_its_type",
    "C27_yubikey_checks_its_type",
    "C27_password_checks_its_type"
   ],
   "note": ""
  },
  {
   "property": "C28",
   "status": "proved",
   "theorems": [
    "C28_code_is_rfc",
    "C28_code_unique",
    "C28_panics_exactly",
    "C28_errors_exactly",
    "C28_zero_digits"
   ],
   "note": ""
  },
  {
   "property": "C29",
   "status": "proved",
   "theorems": [
    "C29_window_exactly",
    "C29_previous_step",
    "C29_histories",
    "C29_replay_after_other_code",
    "C29_import_google"
   ],
   "note": ""
  },
  {
   "property": "C30",
   "status": "proved",
   "theorems": [
    "C30_roundtrip",
    "C30_empty_key",
    "C30_empty_key_panics"
   ],
   "note": ""
  },
  {
   "property": "C31",
   "status": "proved",
   "theorems": [
    "C31_accepts_exactly",
    "C31_otherwise_unchanged",
    "C31_client_accepted",
    "C31_otp_and_callers_slice",
    "C31_key_session_agrees",
    "C31_hex_roundtrip"
   ],
   "note": ""
  },
  {
   "property": "C32",
   "status": "proved",
   "theorems": [
    "C32_replay_exactly",
    "C32_histories",
    "C32_each_otp_once"
   ],
   "note": ""
  },
  {
   "property": "C33",
   "status": "proved",
   "theorems": [
    "C33_accepts_exactly",
    "C33_histories",
    "C33_new_yubikey"
   ],
   "note": ""
  },
  {
   "property": "C34",
   "status": "proved",
   "theorems": [
    "C34_alternating_replay",
    "C34_what_is_refused",
    "C34_use_counter_ignored"
   ],
   "note": "The wanted property (each OTP accepted once) is false; alternating replay is proved for every number of rounds."
  },
  {
   "property": "C35",
   "status": "proved",
   "theorems": [
    "C35_roundtrip",
    "C35_only_16_byte_keys",
    "C35_other_keys_rejected",
    "C35_wrong_key_makes_useless_authenticator"
   ],
   "note": ""
  },
  {
   "property": "C36",
   "status": "proved",
   "theorems": [
    "C36_add",
    "C36_update",
    "C36_has",
    "C36_histories",
    "C36_each_step",
    "C36_never_overwritten",
    "C36_presence"
   ],
   "note": ""
  },
  {
   "property": "C37",
   "status": "proved",
   "theorems": [
    "C37_newest_wins",
    "C37_reported_labels",
    "C37_order_irrelevant",
    "C37_panics_exactly",
    "C37_reports_keys_refuted"
   ],
   "note": "For stores without nil records (all that this package builds); exact panic condition for the rest. The reported list holds record labels, not map keys: refuted as stated in C37_reports_keys_refuted."
  },
  {
   "property": "C38",
   "status": "proved",
   "theorems": [
    "C38_idempotent",
    "C38_associative",
    "C38_converges",
    "C38_ties_diverge_refuted"
   ],
   "note": "Convergence fails on equal timestamps with different contents, with witness."
  },
  {
   "property": "C39",
   "status": "proved",
   "theorems": [
    "C39_marshal",
    "C39_roundtrip",
    "C39_labels_collapse_refuted"
   ],
   "note": "Exact equality for UTF-8 labels and keys; for others the reload relation is exact and the loss of a record is proved on a witness. JSON encoder and decoder are modelled in full."
  },
  {
   "property": "C40",
   "status": "proved",
   "theorems": [
    "C40_accepts_exactly",
    "C40_never_panics",
    "C40_wrong_key",
    "C40_accepts_invalid_store_refuted"
   ],
   "note": "Acceptance is exact; that an accepted store is valid is refuted (a file holding null). The wrong-key claim carries the ideal-secretbox hypothesis for the one box concerned."
  },
  {
   "property": "C41",
   "status": "proved",
   "theorems": [
    "C41_wipes",
    "C41_zero",
    "C41_second_marshal"
   ],
   "note": ""
  },
  {
   "property": "C42",
   "status": "proved",
   "theorems": [
    "C42_opens_under_new",
    "C42_changes_nothing_else",
    "C42_copies"
   ],
   "note": "If the caller passes the store's own passphrase slice it has been wiped before it is copied; the theorem excludes exactly that array."
  },
  {
   "property": "C43",
   "status": "proved",
   "theorems": [
    "C43_add_refines",
    "C43_add_keeps_wf",
    "C43_update_refines",
    "C43_merge_refines",
    "C43_zero_refines",
    "C43_add_keeps_references",
    "C43_zero_wipes_caller",
    "C43_merge_shares",
    "C43_merge_update_shared",
    "C43_new_copies",
    "C43_unmarshal_copies",
    "C43_marshal_wipes"
   ],
   "note": "Heap model with slices, metadata maps and record pointers; refinement to the value model is proved for every operation. UpdateSecret refines it when no other label shares the record."
  },
  {
   "property": "C44",
   "status": "proved",
   "theorems": [
    "C44_chain_sound",
    "C44_audit_sound",
    "C44_self_record_refuted"
   ],
   "note": "Sound when no record is labelled \"self\" (true of all stores built through the API, C45_invariant); refuted for tampered files by C44_self_record_refuted."
  },
  {
   "property": "C45",
   "status": "proved",
   "theorems": [
    "C45_invariant",
    "C45_complete"
   ],
   "note": ""
  },
  {
   "property": "C46",
   "status": "proved",
   "theorems": [
    "C46_never_ends",
    "C46_self_loop",
    "C46_reachable"
   ],
   "note": "Exact condition as an equivalence, plus a concrete history reaching such a store for all key pairs."
  },
  {
   "property": "C47",
   "status": "proved",
   "theorems": [
    "C47_import_sound",
    "C47_import_possible",
    "C47_import_certain",
    "C47_import_unchanged",
    "C47_import_total",
    "C47_add_inv",
    "C47_add_works",
    "C47_pem_same"
   ],
   "note": "With duplicate keys in the store acceptance depends on map iteration order: sound for all orders, possible for some, certain for distinct keys."
  },
  {
   "property": "C48",
   "status": "proved",
   "theorems": [
    "C48_binds",
    "C48_lengths_needed",
    "C48_sign_is_certificate"
   ],
   "note": ""
  },
  {
   "property": "C49",
   "status": "proved",
   "theorems": [
    "C49_locked_refuses",
    "C49_lock",
    "C49_lock_with",
    "C49_no_key_held",
    "C49_public_same",
    "C49_export"
   ],
   "note": ""
  },
  {
   "property": "C50",
   "status": "proved",
   "theorems": [
    "C50_roundtrip",
    "C50_unlock_exact",
    "C50_unlocked_any",
    "C50_lock_loses",
    "C50_new_store",
    "C50_lock_with_forgets"
   ],
   "note": "Ed25519, box and scrypt are abstract with laws as hypotheses."
  },
  {
   "property": "C51",
   "status": "proved",
   "theorems": [
    "C51_public_only",
    "C51_determines",
    "C51_dump_keystore",
    "C51_reload",
    "C51_loads_exactly",
    "C51_loaded",
    "C51_keyless",
    "C51_new_panics"
   ],
   "note": ""
  },
  {
   "property": "C52",
   "status": "proved",
   "theorems": [
    "C52_encrypt",
    "C52_sign",
    "C52_signcrypt"
   ],
   "note": "Messages of 1 to 2^31-1 bytes (2^31-70 for signed ones), the limits of the int32 length fields."
  },
  {
   "property": "C53",
   "status": "proved",
   "theorems": [
    "C53_roundtrip",
    "C53_body_exact",
    "C53_body_roundtrip",
    "C53_type_mismatch",
    "C53_not_pem"
   ],
   "note": "DER and PEM codecs are modelled; DER reader exact against a separate element relation."
  },
  {
   "property": "C54",
   "status": "proved",
   "theorems": [
    "C54_read_only",
    "C54_failures",
    "C54_other_files",
    "C54_show",
    "C54_store",
    "C54_store_refuses",
    "C54_store_works",
    "C54_remove",
    "C54_passwd",
    "C54_merge",
    "C54_init",
    "C54_init_replaces"
   ],
   "note": "Whole runs of main after option parsing. A failing write to the disk (which can truncate the file, see C13) is excluded from the failure theorem by disk_ok. init is shown to replace an existing store."
  },
  {
   "property": "C55",
   "status": "proved",
   "theorems": [
    "C55_multi",
    "C55_multi_does",
    "C55_multi_cut",
    "C55_meta",
    "C55_meta_does",
    "C55_remove_meta",
    "C55_remove_meta_spins",
    "C55_multi_ends",
    "C55_meta_ends"
   ],
   "note": "The dialogue of multi is proved in both directions against an inductive description of the answers."
  },
  {
   "property": "C56",
   "status": "proved",
   "theorems": [
    "C56_words",
    "C56_store",
    "C56_quit_saves",
    "C56_write_works",
    "C56_write_destroys",
    "C56_failed_write_wipes",
    "C56_wmeta",
    "C56_wmeta_refused"
   ],
   "note": "Lines are split as strings.Fields does (exact against a word relation). That the original passphrase no longer opens the file is proved under the stated no-collision condition on the sealed text, as in C40_wrong_key. A write refused by the disk wipes the session too."
  },
  {
   "property": "C57",
   "status": "proved",
   "theorems": [
    "C57_passwd_lost",
    "C57_passwd_in_session"
   ],
   "note": "Over every interleaving of reader, loop and timer."
  },
  {
   "property": "C58",
   "status": "proved",
   "theorems": [
    "C58_open",
    "C58_closed",
    "C58_quit_in_command",
    "C58_realised",
    "C58_exclusive",
    "C58_progress",
    "C58_nothing_after_exit",
    "C58_nothing_after_return",
    "C58_timeout_saves",
    "C58_every_line_refuted",
    "C58_eof_ends",
    "C58_eof_closes"
   ],
   "note": "Simulation in both directions between the threads and the sequential session. The desirable 'every line read is run' is refuted for a line held when the timer fires (C58_every_line_refuted); it is the only line lost."
  },
  {
   "property": "C59",
   "status": "proved",
   "theorems": [
    "C59_edit",
    "C59_write",
    "C59_show",
    "C59_read_only",
    "C59_failures",
    "C59_other_files",
    "C59_init",
    "C59_edit_not_merged",
    "C59_no_silent_loss_refuted"
   ],
   "note": "edit, write, show and init stated exactly, on success; every other outcome leaves the file. Silent loss through the retitle path is a liveness theorem (C59_no_silent_loss_refuted), as is the loss of an edit on merging (C59_edit_not_merged). The editor and its temporary file are an arbitrary function of the contents."
  },
  {
   "property": "C60",
   "status": "proved",
   "theorems": [
    "C60_list",
    "C60_complete",
    "C60_any_title",
    "C60_null_panics"
   ],
   "note": "For every iteration order. C60_complete gives the exact condition; C60_any_title shows that the printed title is not determined by the store."
  },
  {
   "property": "C61",
   "status": "proved",
   "theorems": [
    "C61_shape",
    "C61_upper",
    "C61_idempotent",
    "C61_valid_unchanged",
    "C61_decodes",
    "C61_decoder",
    "C61_keeps_key_refuted"
   ],
   "note": "bytes.ToUpper is assumed to map ASCII text letter by letter; for other text only the shape is claimed. The decoded key is kept for every RFC 4648 text, padded or not, in any case and spacing (C61_decodes). It is not kept for texts with line ends or with letters after the padding (C61_keeps_key_refuted)."
  },
  {
   "property": "C62",
   "status": "proved",
   "theorems": [
    "C62_store",
    "C62_no_overwrite",
    "C62_unknown_type",
    "C62_totp_refused",
    "C62_google_shown",
    "C62_hotp_stored",
    "C62_hotp_next",
    "C62_hotp_shown",
    "C62_show",
    "C62_qr",
    "C62_qr_other_files",
    "C62_failures",
    "C62_other_files",
    "C62_numbers"
   ],
   "note": "github.com/gokyle/twofactor is an arbitrary record of functions; where its URLs must read back this is a hypothesis on the label (url_reads). C62_show also shows that a record whose URL names another label replaces that label's record. printTOTP and printGTOTP never return, so a recognised time-based token is the outcome Spin."
  },
  {
   "property": "C63",
   "status": "proved",
   "theorems": [
    "C63_round_trip",
    "C63_pack",
    "C63_pack_succeeds",
    "C63_pack_only_output",
    "C63_pack_nothing",
    "C63_read_back",
    "C63_too_large",
    "C63_list",
    "C63_complete_refuted"
   ],
   "note": "compress/gzip is an arbitrary pair of functions; that reading undoes writing is an explicit hypothesis of C63_round_trip only. The file tree has no links and nine permission bits; system calls fail by an arbitrary list of fates. C63_complete_refuted: the walk function ignores its error, so a directory whose names cannot be read is packed as if empty and the command succeeds."
  },
  {
   "property": "C64",
   "status": "proved",
   "theorems": [
    "C64_touches",
    "C64_inside",
    "C64_inside_refuted",
    "C64_exact",
    "C64_tail_left",
    "C64_clean",
    "C64_clean_idempotent",
    "C64_clean_leads",
    "C64_join_leads"
   ],
   "note": "C64_inside_refuted is the escape by leading .. components; C64_inside is the part that holds. C64_exact assumes paths like those packed (tidy): a file's path ends in a name and a rooted path has no .. ."
  },
  {
   "property": "C65",
   "status": "proved",
   "theorems": [
    "C65_exact"
   ],
   "note": "Exactly the modes without execute bits; the example shows 0755 giving 066."
  },
  {
   "property": "C66",
   "status": "proved",
   "theorems": [
    "C66_http",
    "C66_bad_body",
    "C66_audit_pause",
    "C66_serial",
    "C66_life",
    "C66_answer",
    "C66_effect",
    "C66_real_time",
    "C66_fifo",
    "C66_never_exits",
    "C66_can_answer",
    "C66_no_hang",
    "C66_answered_refuted"
   ],
   "note": "The server is a transition system with any number of clients, the dispatcher, the audit runner and a clock; TLS, routing and logging are left out. C66_serial with C66_effect and C66_real_time is linearisability. Every reached state from which the dispatcher is not inside an endless audit can answer every request (C66_can_answer). It can be inside one: C66_answered_refuted uploads a stored key's own certificate under a second label, after which the audit never ends and no request is ever answered; with distinct keys this cannot happen (C66_no_hang)."
  },
  {
   "property": "C67",
   "status": "proved",
   "theorems": [
    "C67_keeps",
    "C67_uploaded",
    "C67_dump_quiet",
    "C67_busy_unwritten",
    "C67_other_files",
    "C67_file",
    "C67_can_write",
    "C67_written",
    "C67_torn_refuted",
    "C67_lost_refuted",
    "C67_start",
    "C67_start_again",
    "C67_start_missing",
    "C67_leaves",
    "C67_lives",
    "C67_cut",
    "C67_cut_stays"
   ],
   "note": "C67_busy_unwritten: nothing is written while replies come less than ten minutes apart. C67_lost_refuted: an acknowledged upload is lost by a kill. C67_torn_refuted: a kill during the write leaves a file that cannot be loaded. C67_start_missing: because of the panic of GenerateKey (C17) the server never starts without a key store file. C67_lives: the history over restarts; C67_cut: a dump cut anywhere cannot be loaded; C67_cut_stays: once so, the server never starts again. The labels uploaded are UTF-8 there and clock times fit in 64 bits."
  },
  {
   "property": "C68",
   "status": "proved",
   "theorems": [
    "C68_files",
    "C68_failing",
    "C68_no_store",
    "C68_too_few",
    "C68_no_command",
    "C68_remove",
    "C68_torn_refuted",
    "C68_import",
    "C68_import_certain",
    "C68_untrusted",
    "C68_untrusted_silent_refuted",
    "C68_untrusted_refused",
    "C68_untrusted_agreed",
    "C68_check",
    "C68_orphan",
    "C68_removal_orphans",
    "C68_list",
    "C68_export_self",
    "C68_export",
    "C68_export_certain",
    "C68_export_import",
    "C68_verify",
    "C68_sign_verify",
    "C68_encrypt_decrypt",
    "C68_signcrypt",
    "C68_decrypt_sound",
    "C68_write_lost_refuted",
    "C68_never_chosen",
    "C68_signcrypt_armoured",
    "C68_store_file",
    "C68_cut_refuted"
   ],
   "note": "C68_untrusted_silent_refuted: end of input at the question of an untrusted import ends with success and rewrites the store without the key. C68_write_lost_refuted: signing and encrypting reports success when the output could not be written. C68_torn_refuted, C68_cut_refuted: a write of the store that is cut short, anywhere, leaves a file that cannot be loaded; C68_store_file: whatever the command, the store's file is the one found, unloadable, or a whole store. C68_no_store: fcrypt never creates a store, since GenerateKey panics (C17). Without armour the round trips need that the first bytes (random key bytes, or a signature) do not look like armour. C68_never_chosen: the command decryptsigned cannot be selected by any flags."
  },
  {
   "property": "C69",
   "status": "proved",
   "theorems": [
    "C69_roundtrip",
    "C69_refuses",
    "C69_export_only",
    "C69_not_pem"
   ],
   "note": "PEM decoding refuses data without a BEGIN marker; other malformed data is refused whenever the decoder finds no block."
  },
  {
   "property": "C70",
   "status": "proved",
   "theorems": [
    "C70_line",
    "C70_total",
    "C70_trim_unique",
    "C70_end",
    "C70_terminal",
    "C70_piped_loses",
    "C70_piped_script"
   ],
   "note": ""
  },
  {
   "property": "C71",
   "status": "proved",
   "theorems": [
    "C71_creation_exactly",
    "C71_own_password_accepted",
    "C71_others_rejected",
    "C71_doubled_password_equivalent",
    "C71_long_password_equivalent",
    "C71_ordinary_passwords_distinct"
   ],
   "note": ""
  },
  {
   "property": "C72",
   "status": "proved",
   "theorems": [
    "C72_exact",
    "C72_unambiguous",
    "C72_printed",
    "C72_too_deep"
   ],
   "note": "Includes encoding/json's limit of 10000 nested levels."
  },
  {
   "property": "C73",
   "status": "proved",
   "theorems": [
    "C73_run",
    "C73_register",
    "C73_register_fails",
    "C73_process",
    "C73_lifetime",
    "C73_totp",
    "C73_password",
    "C73_right_code",
    "C73_empty_name",
    "C73_null_registers",
    "C73_null_admits",
    "C73_null_user_refuted",
    "C73_spaced_password_refuted",
    "C73_strange_name_refuted",
    "C73_torn_refuted",
    "C73_damaged",
    "C73_usage"
   ],
   "note": "C73_register also shows that a name on file is replaced without asking, and that of the types offered yubikey cannot be chosen. C73_strange_name_refuted: a name that is not UTF-8 is reported as registered and unknown to every later process. C73_spaced_password_refuted: a password with white space around it is registered and never accepted, since typed lines are trimmed. C73_null_user_refuted: a null user crashes the program. C73_torn_refuted: a write cut short leaves a file that no process loads. A file holding null registers nobody (C73_null_registers) and admits nobody (C73_null_admits); the empty name can be registered and never used (C73_empty_name)."
  },
  {
   "property": "C74",
   "status": "proved",
   "theorems": [
    "C74_reads",
    "C74_reads_one",
    "C74_text",
    "C74_tells",
    "C74_slash_refuted",
    "C74_app",
    "C74_app_any",
    "C74_accepted",
    "C74_step_refuted",
    "C74_start_refuted",
    "C74_export",
    "C74_export_refuses",
    "C74_new",
    "C74_new_starved"
   ],
   "note": "The drawing of the picture (rsc.io/qr) is an arbitrary function of the URL. app_code is an app that follows the Key URI format: period 30, six digits and SHA-1 unless told otherwise. C74_step_refuted, C74_start_refuted: a configuration with another step or start gives codes that are rejected. C74_slash_refuted: two labels with the same URL. The parameter is called provider, not issuer as in the format, so apps ignore it (it is in carried)."
  },
  {
   "property": "C75",
   "status": "proved",
   "theorems": [
    "C75_one_reading",
    "C75_no_help",
    "C75_secrets",
    "C75_secrets_help",
    "C75_secrets_refuses",
    "C75_secrets_files",
    "C75_secrets_init_wins",
    "C75_late_option_refuted",
    "C75_secrets_order",
    "C75_journal",
    "C75_journal_help",
    "C75_journal_refuses",
    "C75_journal_files",
    "C75_otpc",
    "C75_otpc_help",
    "C75_otpc_refuses",
    "C75_otpc_files",
    "C75_fcrypt",
    "C75_fcrypt_help",
    "C75_fcrypt_refuses",
    "C75_fcrypt_verbs",
    "C75_passcrypt",
    "C75_passcrypt_help",
    "C75_passcrypt_refuses",
    "C75_login",
    "C75_login_help",
    "C75_login_refuses",
    "C75_migrate",
    "C75_migrate_help",
    "C75_migrate_refuses",
    "C75_keysrv",
    "C75_keysrv_else",
    "C75_cli",
    "C75_duration",
    "C75_duration_reads",
    "C75_duration_wraps_refuted",
    "C75_fraction",
    "C75_fraction_long",
    "C75_fraction_vectors",
    "C75_fraction_cut_refuted"
   ],
   "note": "Packages flag and time.ParseDuration of Go 1.23 are modelled from their sources; what the usage texts say is not. C75_late_option_refuted: an option after the first argument is taken as an argument, so the default store is changed. C75_secrets_init_wins: -init replaces the store whatever else is asked. C75_duration_wraps_refuted: the sum of amounts is taken modulo 2^64. C75_fraction and C75_fraction_long give the meaning of one number with a point, in IEEE doubles, if at most 22 digits after the point count (those whose number is at most 2^63; the others are lost); fractions with more zeros in front, and sums of several numbers with points, are modelled but only tested on vectors of the standard library (C75_fraction_vectors). C75_fraction_cut_refuted: 0.99999999999999999h is an hour. For keysrv only the loading of the key store is tied to the line."
  },
  {
   "property": "C76",
   "status": "proved",
   "theorems": [
    "C76_laws",
    "C76_derive",
    "C76_encrypt",
    "C76_decrypt",
    "C76_encrypt_file",
    "C76_decrypt_file",
    "C76_nonce_reuse",
    "C76_totp",
    "C76_session",
    "C76_pub_encrypt",
    "C76_pub_decrypt",
    "C76_sign",
    "C76_verify",
    "C76_one_scalar",
    "C76_key_exchange",
    "C76_sha",
    "C76_hmac",
    "C76_rfc6238",
    "C76_scrypt",
    "C76_secretbox",
    "C76_yubikey"
   ],
   "note": "The primitives are defined from their standards and give the published vectors (examples beside the theorems). Here the arithmetic of X25519 and of Ed25519's group is a parameter; theorems that take CurveLaws need its group laws, the others hold for any curve. C80 gives the real one and proves the laws. ed_valid is the check of Go's ed25519: the encoding is recomputed and compared, without multiplying by the cofactor. C76_nonce_reuse is what a repeated nonce gives away; the nonce is random, and the source is a parameter. bcrypt stays an uninterpreted predicate."
  },
  {
   "property": "C77",
   "status": "proved",
   "theorems": [
    "C77_list",
    "C77_show",
    "C77_show_panics",
    "C77_rmeta",
    "C77_rmeta_panics",
    "C77_no_labels",
    "C77_help",
    "C77_help_on",
    "C77_unknown",
    "C77_clear",
    "C77_list_tells_refuted"
   ],
   "note": "Terminal width, the text of a time in the local zone and the order of Go's maps are parameters (class Tty), the first and the last depending on the output so far, so that they may change between uses. Prompts, notices of success and standard error are not modelled. C77_list_tells_refuted is a defect: a label that fills its column is followed by the next without a space, so two different stores can be listed alike."
  },
  {
   "property": "C78",
   "status": "proved",
   "theorems": [
    "C78_base64",
    "C78_base32",
    "C78_hex",
    "C78_pem_sound",
    "C78_pem_found"
   ],
   "note": "The readers are those of Go 1.23: base64.StdEncoding, base32.StdEncoding, hex.DecodeString and pem.Decode. Headers of a PEM block are skipped, as the code ignores them."
  },
  {
   "property": "C79",
   "status": "proved",
   "theorems": [
    "C79_secret_record",
    "C79_secret_store",
    "C79_key_record",
    "C79_key_store",
    "C79_users"
   ],
   "note": "encoding/json of Go 1.23 for the struct types of the stores; which names select a field is defined for names of ASCII letters, as all of them are."
  },
  {
   "property": "C80",
   "status": "proved",
   "theorems": [
    "C80_primes",
    "C80_points",
    "C80_coordinates",
    "C80_sum",
    "C80_group",
    "C80_multiples",
    "C80_base",
    "C80_order",
    "C80_encode",
    "C80_decode",
    "C80_x25519",
    "C80_clamp",
    "C80_dh",
    "C80_laws",
    "C80_roundtrip",
    "C80_sign",
    "C80_key_exchange"
   ],
   "note": "The curve in affine coordinates, the ladder as in RFC 7748 with the second exchange of each step done at once; Go's limbs, extended coordinates and constant-time selection are not modelled. Decoding is Go's (SetBytes), more lenient than RFC 8032. C80_x25519 covers the points of the curve, not those of its twist, and not u = 0. The published vectors (RFC 7748, 5.2, first; RFC 8032, 7.1, public key of test 1) were evaluated once with the virtual machine; they are not part of the build, as the checker would take many minutes."
  },
  {
   "property": "C81",
   "status": "proved",
   "theorems": [
    "C81_aes",
    "C81_sbox",
    "C81_fips197",
    "C81_modhex",
    "C81_checksum",
    "C81_otp_exactly",
    "C81_distinct",
    "C81_enrol",
    "C81_accepts",
    "C81_accepts_only",
    "C81_refuses_old_sessions",
    "C81_private_identity_ignored",
    "C81_life",
    "C81_replay"
   ],
   "note": "The yubikey library is modelled from memory of its sources (DESIGN, 2.4); the specification side (SpecAes) is written from FIPS 197 and Yubico's manual and shares nothing with the model but bytes. FIPS 197's vector C.1 is C81_fips197. That the private identity is not compared is what the code does (C81_private_identity_ignored)."
  },
  {
   "property": "C82",
   "status": "proved",
   "theorems": [
    "C82_base64",
    "C82_hex",
    "C82_pem",
    "C82_pem_header",
    "C82_determined",
    "C82_export_private"
   ],
   "note": "The readers' side is C78. Base32 as written is part of C73."
  },
  {
   "property": "C83",
   "status": "proved",
   "theorems": [
    "C83_read_input",
    "C83_read_file",
    "C83_write",
    "C83_exists",
    "C83_decoder_length",
    "C83_zero",
    "C83_zeroed_refuses",
    "C83_zeroed_session",
    "C83_zeroed_session_refuted"
   ],
   "note": "C83_zeroed_session gives the exact condition; the desirable version is refuted by C83_zeroed_session_refuted. For passwords see C84_wiped."
  },
  {
   "property": "C84",
   "status": "proved",
   "theorems": [
    "C84_blowfish",
    "C84_blowfish_vector",
    "C84_bcrypt",
    "C84_text_written",
    "C84_key_schedule",
    "C84_accepts_exactly",
    "C84_creation",
    "C84_law",
    "C84_same_key",
    "C84_wiped",
    "C84_canonical_refuted"
   ],
   "note": "C84_accepts_exactly gives the exact condition; that only the text made is accepted is refuted by C84_canonical_refuted. The digits of pi in PiDigits are shared by model and specification; C84_blowfish_vector checks them."
  },
  {
   "property": "C85",
   "status": "proved",
   "theorems": [
    "C85_strings",
    "C85_archive_exactly",
    "C85_listed_exactly",
    "C85_written_read",
    "C85_one_reading",
    "C85_utf8_paths_refuted",
    "C85_one_text_refuted"
   ],
   "note": "The desirable versions that are false of the code: C85_utf8_paths_refuted, C85_one_text_refuted. The armour around an archive is read as in C78."
  },
  {
   "property": "C86",
   "status": "proved",
   "theorems": [
    "C86_shown",
    "C86_which",
    "C86_totp_current",
    "C86_totp_lines",
    "C86_counter_refuted",
    "C86_google_start",
    "C86_google_lines",
    "C86_google_apart",
    "C86_google_fresh",
    "C86_google_late_refuted",
    "C86_rfc"
   ],
   "note": "A run is cut off after any number of rounds; every sequence of clock readings is allowed, timed says which are plausible. C86_google_late_refuted and C86_counter_refuted refute the guarantees one would want."
  },
  {
   "property": "C87",
   "status": "proved",
   "theorems": [
    "C87_same_run",
    "C87_gone",
    "C87_left_exactly",
    "C87_other_files",
    "C87_read_back",
    "C87_warning",
    "C87_warning_true_refuted",
    "C87_command_line",
    "C87_killed",
    "C87_killed_last",
    "C87_killed_clear_refuted",
    "C87_unwritten_refuted"
   ],
   "note": "C87_same_run carries the theorems of C59 and C60 over to the model with files. Refuted wishes: C87_warning_true_refuted, C87_killed_clear_refuted, C87_unwritten_refuted."
  },
  {
   "property": "C88",
   "status": "proved",
   "theorems": [
    "C88_calendar",
    "C88_minute",
    "C88_second",
    "C88_range",
    "C88_any_time_refuted",
    "C88_layouts",
    "C88_read_second",
    "C88_read_minute",
    "C88_distinct",
    "C88_distinct_refuted",
    "C88_order",
    "C88_order_minute_refuted",
    "C88_order_zones_refuted",
    "C88_journal_list"
   ],
   "note": "Package time is modelled as far as Unix and Format with these two layouts go; a location is any function. Wishes that are false of the code: C88_any_time_refuted, C88_distinct_refuted, C88_order_minute_refuted, C88_order_zones_refuted."
  },
  {
   "property": "C89",
   "status": "proved",
   "theorems": [
    "C89_list",
    "C89_list_reveals",
    "C89_labels_refuted",
    "C89_show",
    "C89_same_list",
    "C89_same_show",
    "C89_keys",
    "C89_unknown_refuted"
   ],
   "note": "Refuted wishes: C89_labels_refuted, C89_unknown_refuted. C89_same_list and C89_same_show carry C54 over."
  },
  {
   "property": "C90",
   "status": "proved",
   "theorems": [
    "C90_same_effect",
    "C90_quiet",
    "C90_line",
    "C90_pack",
    "C90_unpack",
    "C90_forged_refuted"
   ],
   "note": "Refuted wish: C90_forged_refuted. C90_same_effect carries C63 to C65 over."
  },
  {
   "property": "C91",
   "status": "proved",
   "theorems": [
    "C91_pages",
    "C91_moved",
    "C91_moved_once",
    "C91_reachable",
    "C91_uploaded_reachable",
    "C91_label",
    "C91_every_key_refuted",
    "C91_own_fingerprint_refuted"
   ],
   "note": "gorilla/mux is modelled from its documented behaviour (cleanPath, first matching route, variables match [^/]+). Refuted wishes: C91_every_key_refuted, C91_own_fingerprint_refuted."
  }
 ]
}