{
 "C01": {
  "note": "Full round trip under the exact side conditions; the unrestricted version is refuted (empty byte slice, buffers of 2^31 bytes or more)."
 },
 "C03": {
  "note": "Exact panic condition, plus witnesses that Decode panics on 5-byte inputs and can read past the visible length."
 },
 "C13": {
  "note": "Crash states of util.WriteFile/EncryptFile are exact; that a truncated box does not open takes the hypothesis no_truncated_box, stated in the theorem. Atomic replacement is refuted."
 },
 "C14": {
  "note": "Interactive prompts are modelled as given answers."
 },
 "C16": {
  "note": "Exact acceptance and panic conditions; that only real keys are accepted is refuted by the 5-byte all-zero key."
 },
 "C17": {
  "note": "GenerateKey slices nil array pointers, so it panics on every healthy random source; therefore NewSession never succeeds either."
 },
 "C18": {
  "note": "Complete classification by message length."
 },
 "C34": {
  "note": "The wanted property (each OTP accepted once) is false; alternating replay is proved for every number of rounds."
 },
 "C37": {
  "note": "For stores without nil records (all that this package builds); exact panic condition for the rest. The reported list holds record labels, not map keys: refuted as stated in C37_reports_keys_refuted."
 },
 "C38": {
  "note": "Convergence fails on equal timestamps with different contents, with witness."
 },
 "C39": {
  "note": "Exact equality for UTF-8 labels and keys; for others the reload relation is exact and the loss of a record is proved on a witness. JSON encoder and decoder are modelled in full."
 },
 "C40": {
  "note": "Acceptance is exact; that an accepted store is valid is refuted (a file holding null). The wrong-key claim carries the ideal-secretbox hypothesis for the one box concerned."
 },
 "C42": {
  "note": "If the caller passes the store's own passphrase slice it has been wiped before it is copied; the theorem excludes exactly that array."
 },
 "C43": {
  "note": "Heap model with slices, metadata maps and record pointers; refinement to the value model is proved for every operation. UpdateSecret refines it when no other label shares the record."
 },
 "C44": {
  "note": "Sound when no record is labelled \"self\" (true of all stores built through the API, C45_invariant); refuted for tampered files by C44_self_record_refuted."
 },
 "C46": {
  "note": "Exact condition as an equivalence, plus a concrete history reaching such a store for all key pairs."
 },
 "C47": {
  "note": "With duplicate keys in the store acceptance depends on map iteration order: sound for all orders, possible for some, certain for distinct keys."
 },
 "C50": {
  "note": "Ed25519, box and scrypt are abstract with laws as hypotheses."
 },
 "C52": {
  "note": "Messages of 1 to 2^31-1 bytes (2^31-70 for signed ones), the limits of the int32 length fields."
 },
 "C53": {
  "note": "DER and PEM codecs are modelled; DER reader exact against a separate element relation."
 },
 "C72": {
  "note": "Includes encoding/json's limit of 10000 nested levels."
 },
 "C54": {
  "note": "Whole runs of main after option parsing. A failing write to the disk (which can truncate the file, see C13) is excluded from the failure theorem by disk_ok. init is shown to replace an existing store."
 },
 "C55": {
  "note": "The dialogue of multi is proved in both directions against an inductive description of the answers."
 },
 "C69": {
  "note": "PEM decoding refuses data without a BEGIN marker; other malformed data is refused whenever the decoder finds no block."
 },
 "C56": {
  "note": "Lines are split as strings.Fields does (exact against a word relation). That the original passphrase no longer opens the file is proved under the stated no-collision condition on the sealed text, as in C40_wrong_key. A write refused by the disk wipes the session too."
 },
 "C57": {
  "note": "Over every interleaving of reader, loop and timer."
 },
 "C58": {
  "note": "Simulation in both directions between the threads and the sequential session. The desirable 'every line read is run' is refuted for a line held when the timer fires (C58_every_line_refuted); it is the only line lost."
 },
 "C59": {
  "note": "edit, write, show and init stated exactly, on success; every other outcome leaves the file. Silent loss through the retitle path is a liveness theorem (C59_no_silent_loss_refuted), as is the loss of an edit on merging (C59_edit_not_merged). The editor and its temporary file are an arbitrary function of the contents."
 },
 "C60": {
  "note": "For every iteration order. C60_complete gives the exact condition; C60_any_title shows that the printed title is not determined by the store."
 },
 "C61": {
  "note": "bytes.ToUpper is assumed to map ASCII text letter by letter; for other text only the shape is claimed. The decoded key is kept for every RFC 4648 text, padded or not, in any case and spacing (C61_decodes). It is not kept for texts with line ends or with letters after the padding (C61_keeps_key_refuted)."
 },
 "C62": {
  "note": "github.com/gokyle/twofactor is an arbitrary record of functions; where its URLs must read back this is a hypothesis on the label (url_reads). C62_show also shows that a record whose URL names another label replaces that label's record. printTOTP and printGTOTP never return, so a recognised time-based token is the outcome Spin."
 },
 "C63": {
  "note": "compress/gzip is an arbitrary pair of functions; that reading undoes writing is an explicit hypothesis of C63_round_trip only. The file tree has no links and nine permission bits; system calls fail by an arbitrary list of fates. C63_complete_refuted: the walk function ignores its error, so a directory whose names cannot be read is packed as if empty and the command succeeds."
 },
 "C64": {
  "note": "C64_inside_refuted is the escape by leading .. components; C64_inside is the part that holds. C64_exact assumes paths like those packed (tidy): a file's path ends in a name and a rooted path has no .. ."
 },
 "C65": {
  "note": "Exactly the modes without execute bits; the example shows 0755 giving 066."
 },
 "C66": {
  "note": "The server is a transition system with any number of clients, the dispatcher, the audit runner and a clock; TLS, routing and logging are left out. C66_serial with C66_effect and C66_real_time is linearisability. Every reached state from which the dispatcher is not inside an endless audit can answer every request (C66_can_answer). It can be inside one: C66_answered_refuted uploads a stored key's own certificate under a second label, after which the audit never ends and no request is ever answered; with distinct keys this cannot happen (C66_no_hang)."
 },
 "C67": {
  "note": "C67_busy_unwritten: nothing is written while replies come less than ten minutes apart. C67_lost_refuted: an acknowledged upload is lost by a kill. C67_torn_refuted: a kill during the write leaves a file that cannot be loaded. C67_start_missing: because of the panic of GenerateKey (C17) the server never starts without a key store file. C67_lives: the history over restarts; C67_cut: a dump cut anywhere cannot be loaded; C67_cut_stays: once so, the server never starts again. The labels uploaded are UTF-8 there and clock times fit in 64 bits."
 },
 "C68": {
  "note": "C68_untrusted_silent_refuted: end of input at the question of an untrusted import ends with success and rewrites the store without the key. C68_write_lost_refuted: signing and encrypting reports success when the output could not be written. C68_torn_refuted, C68_cut_refuted: a write of the store that is cut short, anywhere, leaves a file that cannot be loaded; C68_store_file: whatever the command, the store's file is the one found, unloadable, or a whole store. C68_no_store: fcrypt never creates a store, since GenerateKey panics (C17). Without armour the round trips need that the first bytes (random key bytes, or a signature) do not look like armour. C68_never_chosen: the command decryptsigned cannot be selected by any flags."
 },
 "C73": {
  "note": "C73_register also shows that a name on file is replaced without asking, and that of the types offered yubikey cannot be chosen. C73_strange_name_refuted: a name that is not UTF-8 is reported as registered and unknown to every later process. C73_spaced_password_refuted: a password with white space around it is registered and never accepted, since typed lines are trimmed. C73_null_user_refuted: a null user crashes the program. C73_torn_refuted: a write cut short leaves a file that no process loads. A file holding null registers nobody (C73_null_registers) and admits nobody (C73_null_admits); the empty name can be registered and never used (C73_empty_name)."
 },
 "C74": {
  "note": "The drawing of the picture (rsc.io/qr) is an arbitrary function of the URL. app_code is an app that follows the Key URI format: period 30, six digits and SHA-1 unless told otherwise. C74_step_refuted, C74_start_refuted: a configuration with another step or start gives codes that are rejected. C74_slash_refuted: two labels with the same URL. The parameter is called provider, not issuer as in the format, so apps ignore it (it is in carried)."
 },
 "C75": {
  "note": "Packages flag and time.ParseDuration of Go 1.23 are modelled from their sources; what the usage texts say is not. C75_late_option_refuted: an option after the first argument is taken as an argument, so the default store is changed. C75_secrets_init_wins: -init replaces the store whatever else is asked. C75_duration_wraps_refuted: the sum of amounts is taken modulo 2^64. C75_fraction and C75_fraction_long give the meaning of one number with a point, in IEEE doubles, if at most 22 digits after the point count (those whose number is at most 2^63; the others are lost); fractions with more zeros in front, and sums of several numbers with points, are modelled but only tested on vectors of the standard library (C75_fraction_vectors). C75_fraction_cut_refuted: 0.99999999999999999h is an hour. For keysrv only the loading of the key store is tied to the line."
 },
 "C76": {
  "note": "The primitives are defined from their standards and give the published vectors (examples beside the theorems). Here the arithmetic of X25519 and of Ed25519's group is a parameter; theorems that take CurveLaws need its group laws, the others hold for any curve. C80 gives the real one and proves the laws. ed_valid is the check of Go's ed25519: the encoding is recomputed and compared, without multiplying by the cofactor. C76_nonce_reuse is what a repeated nonce gives away; the nonce is random, and the source is a parameter. bcrypt stays an uninterpreted predicate."
 },
 "C77": {
  "note": "Terminal width, the text of a time in the local zone and the order of Go's maps are parameters (class Tty), the first and the last depending on the output so far, so that they may change between uses. Prompts, notices of success and standard error are not modelled. C77_list_tells_refuted is a defect: a label that fills its column is followed by the next without a space, so two different stores can be listed alike."
 },
 "C78": {
  "note": "The readers are those of Go 1.23: base64.StdEncoding, base32.StdEncoding, hex.DecodeString and pem.Decode. Headers of a PEM block are skipped, as the code ignores them."
 },
 "C79": {
  "note": "encoding/json of Go 1.23 for the struct types of the stores; which names select a field is defined for names of ASCII letters, as all of them are."
 },
 "C80": {
  "note": "The curve in affine coordinates, the ladder as in RFC 7748 with the second exchange of each step done at once; Go's limbs, extended coordinates and constant-time selection are not modelled. Decoding is Go's (SetBytes), more lenient than RFC 8032. C80_x25519 covers the points of the curve, not those of its twist, and not u = 0. The published vectors (RFC 7748, 5.2, first; RFC 8032, 7.1, public key of test 1) were evaluated once with the virtual machine; they are not part of the build, as the checker would take many minutes."
 },
 "C81": {
  "note": "The yubikey library is modelled from memory of its sources (DESIGN, 2.4); the specification side (SpecAes) is written from FIPS 197 and Yubico's manual and shares nothing with the model but bytes. FIPS 197's vector C.1 is C81_fips197. That the private identity is not compared is what the code does (C81_private_identity_ignored)."
 },
 "C82": {
  "note": "The readers' side is C78. Base32 as written is part of C73."
 },
 "C83": {
  "note": "C83_zeroed_session gives the exact condition; the desirable version is refuted by C83_zeroed_session_refuted. For passwords see C84_wiped."
 },
 "C84": {
  "note": "C84_accepts_exactly gives the exact condition; that only the text made is accepted is refuted by C84_canonical_refuted. The digits of pi in PiDigits are shared by model and specification; C84_blowfish_vector checks them."
 },
 "C85": {
  "note": "The desirable versions that are false of the code: C85_utf8_paths_refuted, C85_one_text_refuted. The armour around an archive is read as in C78."
 },
 "C86": {
  "note": "A run is cut off after any number of rounds; every sequence of clock readings is allowed, timed says which are plausible. C86_google_late_refuted and C86_counter_refuted refute the guarantees one would want."
 },
 "C87": {
  "note": "C87_same_run carries the theorems of C59 and C60 over to the model with files. Refuted wishes: C87_warning_true_refuted, C87_killed_clear_refuted, C87_unwritten_refuted."
 },
 "C88": {
  "note": "Package time is modelled as far as Unix and Format with these two layouts go; a location is any function. Wishes that are false of the code: C88_any_time_refuted, C88_distinct_refuted, C88_order_minute_refuted, C88_order_zones_refuted."
 },
 "C89": {
  "note": "Refuted wishes: C89_labels_refuted, C89_unknown_refuted. C89_same_list and C89_same_show carry C54 over."
 },
 "C90": {
  "note": "Refuted wish: C90_forged_refuted. C90_same_effect carries C63 to C65 over."
 },
 "C91": {
  "note": "gorilla/mux is modelled from its documented behaviour (cleanPath, first matching route, variables match [^/]+). Refuted wishes: C91_every_key_refuted, C91_own_fingerprint_refuted."
 }
}