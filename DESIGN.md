# Formal model of kisom/cryptutils in Rocq (Coq 8.16.1)

Source: `/repo` (Go), read as text, never built or run. Everything below is about
the model in `rocq/theories`; the only tie to the Go code is the reading of the
source, recorded as `file:lines` in a comment on every model definition.

## 1. Approach

* The model is executable Gallina: one function per Go function.
* A Go call that can panic returns `outcome A := Ret a | Panic`. Loops that may
  not terminate run on explicit fuel (`None` or `Spin` when it is used up);
  theorems either exclude it or (for non-termination findings) state it for every
  fuel. Other fuel is a bound that is proved to suffice.
* `(T, bool)` and `(T, error)` are `option T`; error texts are kept only where
  a client sees them (keysrv).
* `[]byte` and `string` are `list byte` (`Coq.Init.Byte.byte`, 256 constructors,
  so range is by type). Where `nil` and empty differ, `option bytes` is used.
  Where slice capacity matters (TLV decoder), a slice is visible + hidden bytes.
* Fixed-width integers are `Z` with the wrap written explicitly.
* Random source: a list of `option byte`, `None` being a failing read.
  Quantifying over the list covers every failure point.
* Time: an argument `now : Z`, or for whole commands an arbitrary stream of
  readings of the clock.
* Go maps: std++ `gmap`; `range` order is a list argument which is any
  permutation of `map_to_list m`, so theorems quantify over every order.
* Pointers: values, except in the heap model of the secret store, where aliasing
  is the subject.
* Files: `gmap path content`. In-place `WriteFile` is truncate, then append
  bytes; a crash may happen after any prefix.
* Concurrency (secretscli loop, keysrv): labelled transition systems; theorems
  quantify over every trace.

## 2. Trusted base

1. Coq's kernel (8.16.1) and `coqchk`.
2. Axioms: none. `Print Assumptions` stands under every theorem of every
   `Props*.v` file, and for each of them prints "Closed under the global context".
   Libraries: Coq's standard library and std++.
3. The faithfulness of the transcription: the comment on each model definition
   cites the file and lines it models and says what is simplified.
4. Laws of primitives that are not modelled. They are *hypotheses* of the
   theorems (the fields of the `Prop` class `CryptoLaws` over an arbitrary
   `Crypto`), never axioms. The toy instance of `Toy.v` shows that they can hold
   together; it is what the examples run on.
   They are also *proved*: `Hash`, `Salsa` and `Curve` define the primitives as the
   standards do (checked against published vectors in `PropsReal.v`), C76_laws
   derives `CryptoLaws` from the laws of the two groups alone (`CurveLaws`: X25519
   commutes on its base point and gives 32 bytes; Ed25519's points form a group whose
   base point has the given prime order, and encode injectively in 32 bytes), and
   C80_laws proves those of the curve itself (`Ed25519`), down to the primality of
   2^255 - 19 and of the order.
   * NaCl secretbox: `open k n c = Some m <-> c = seal k n m`; a seal is 16 bytes
     longer than its message. Box: keys of 32 bytes, Diffie-Hellman symmetry.
   * Ed25519: lengths, and that what was signed verifies. Unforgeability is not
     assumed; "valid signature" is a predicate.
   * scrypt: 32 bytes (the parameter check is modelled). HMAC, SHA-256: lengths.
   * bcrypt: that comparing recomputes the hash with the stored cost and salt
     (`AuthLibLaws`). C84_law proves it of golang.org/x/crypto/bcrypt (`Bcrypt`, from its
     sources; C84 relates it to the published algorithm). The digits of pi that Blowfish
     starts from (`PiDigits`) are data that model and specification share.
   * Where a statement needs more (a truncated box does not open, two keys do not
     open the same box) it is a hypothesis written out in that theorem.
   * conformal/yubikey (not vendored): modelled from memory of its sources, with
     the token layout given by the YubiKey manual. The theorems hold for any such
     library; with AES-128, modhex and the checksum of `Aes` in its place the model
     passes the tests of `yubikey_test.go` (C76_yubikey), and C81 proves it right: it
     accepts what a YubiKey as Yubico and FIPS 197 describe it types, and nothing else.
   * gorilla/mux (not vendored): modelled from memory of its sources as far as the
     four routes of keysrv go (`Routes`).
   * gokyle/twofactor, `time.ParseDuration`, `bytes.ToUpper` (otpc) and
     compress/gzip (passcrypt): arbitrary functions; the few theorems that need a
     law of one state it as a hypothesis.
5. Semantics of Go assumed by the model: nil-array-pointer slicing panics,
   `s[:n]` is bounded by capacity, integer conversion truncates, deferred
   arguments are evaluated at the `defer` statement, `int` is 64 bits; the
   standard library is that of Go 1.23 (encoding/json, pem, asn1, hex, base32,
   base64, bufio, flag, path/filepath, strings.TrimSpace and Fields,
   time.ParseDuration with SpecFloat's IEEE numbers), modelled from its sources.

## 3. What is modelled

| code | model | left out or simplified |
|------|-------|------------------------|
| common/tlv | `Tlv` | reflection: the targets are an enumeration |
| common/util | `Util`, `ReadLine` | prompts and messages; terminal echo; a read from standard input fails only by the end of input |
| common/secret, cmd/migrate-store | `Secret` | file permissions; prompts are given answers |
| common/public | `Public`, `PemKeys`, `Pem` | headers of a decoded PEM block (never read) |
| common/auth | `Auth`, `TotpUrl` | the QR image is a function of the URL |
| common/store/secretstore.go | `SecretStore` (values), `StoreHeap` (references) | JSON: nulls inside byte arrays |
| common/store/keystore.go | `KeyStore` | receivers are non-nil; JSON: nulls inside byte arrays |
| encoding/json, base64, pem, asn1, hex, base32, filepath | `Json`, `Base64`, `Pem`, `Der`, `Text`, `Base32`, `Path` | only the types and options the code uses |
| SHA, HMAC, PBKDF2, scrypt, Salsa20, Poly1305, secretbox, box, Ed25519, AES, YubiKey tokens, bcrypt | `Hash`, `Salsa`, `Curve`, `Fp`, `Ed25519`, `Aes`, `Bcrypt` | the representation of field elements and points |
| package time (Unix, Format) | `Calendar` | the two layouts used, taken apart; a location is a function of the instant to abbreviation and offset |
| package flag, the commands' mains | `Flag`, `Duration`, `Mains` | usage texts; what is printed for a wrong line |
| cmd/secrets | `Cmd`, `CmdSecrets`, `Listings` | standard output never fails; times and metadata as printed only in `Listings`; the order of the map in merge is fixed (C37_order_irrelevant) |
| cmd/secretscli | `CmdCli`, `Display` | prompts, notices of success, standard error; terminal width, time zone and map order are parameters |
| cmd/journal | `CmdJournal`, `JournalTmp` | the editor is a function of the text (`CmdJournal`) or of command line and files (`JournalTmp`); time formatting is a function, in C88 that of `Calendar` |
| cmd/otpc | `CmdOtp`, `OtpShow`, `Base32` | twofactor is a record of functions; the zone's offset is fixed while a display runs |
| cmd/passcrypt | `Passcrypt`, `Path`, `Verbose` | no symbolic links, nine permission bits, permissions never refuse a call (calls fail by an arbitrary list of fates), MkdirAll by components; -v only in `Verbose` |
| exp/keysrv, gorilla/mux | `KeySrv`, `Routes` | TLS, log; of a request only path and body, of an answer only status and body; the four patterns are taken apart by hand; the target of a redirect is not escaped |
| common/auth/examples/login | `Login` | prompts, time stamps of the log and its fixed lines; the picture is a function of the configuration; regYubiKey (never called); a failed read of the store other than by absence |
| exp/fcrypt | `Fcrypt`, `Listings` | of the messages only those that are a result; stat(2) errors other than absence |

Not modelled: `exp/rocli` (all commented out), help texts, memory
copies made by the Go runtime, garbage collection.

## 4. Plan per property

| id | model | proof |
|----|-------|-------|
| C01 | `Tlv.encode`, `Tlv.decode` on slices | induction over the list of values |
| C02 | same | prefix-freeness of one record, induction |
| C03 | same, `Panic` outcome | case analysis; `iff` |
| C04 | same | case analysis against a separate wire-format relation |
| C05 | same | suffix lemma, measure; refutation of progress for empty records |
| C06 | same, `Other` constructor for unsupported values | direct |
| C07 | `Util.rand_bytes` over a stream | direct |
| C08–C09 | `Secret.encrypt/decrypt` over ideal secretbox | algebra |
| C10 | `Secret.derive_key_strength`, parameter table and scrypt's check | direct |
| C11–C12 | `Secret.encrypt_file/decrypt_file` over a file map and in-place write | direct |
| C13 | write as a sequence of crash points | exact set of reachable contents |
| C14 | `Secret`, migration | induction over the files |
| C15–C16 | `Public` marshal/unmarshal over the TLV model | via C01/C03 |
| C17 | `Public.generate_key` with nil V and S pointers | direct |
| C18–C24 | `Public` encrypt/decrypt/sign | algebra over ideal box + TLV lemmas |
| C25 | `Public.lock_key/unlock_key`, PEM codec | composition |
| C26 | DH law | direct |
| C27 | `Auth.validate` dispatch | case analysis |
| C28 | `Auth`, TOTP codes; spec from RFC 4226 text | bit-level lemmas, decimal printing |
| C29 | `Auth`, TOTP | exact acceptance + history witness |
| C30 | `Auth`, TOTP configuration | via C01 |
| C31–C32 | `Auth`, sessions, with concrete hex codec | exact acceptance, induction over history |
| C33–C35 | `Auth`, YubiKey | invariant over histories, witness for all token pairs |
| C36–C38 | `SecretStore` on `gmap` | map laws, fold over permutation |
| C39–C40 | `SecretStore.marshal/unmarshal` over a JSON codec | concrete JSON codec |
| C41–C42 | same | direct |
| C43 | heap model of slices, maps and records | heap lemmas |
| C44–C46 | `KeyStore.verify_chain` with fuel and iteration order | path relation, invariant over histories |
| C47–C53 | `KeyStore` | case analysis, invariants, codec laws (ASN.1 DER + PEM) |
| C54–C55 | `CmdSecrets` with input script | exact file effect per command |
| C56–C58 | `CmdCli` session machine and LTS | trace induction |
| C59–C60 | `CmdJournal` | direct |
| C61–C62 | `CmdOtp`, `Base32` | list induction, case analysis |
| C63–C65 | `Passcrypt`, `Path` | induction over components, bit arithmetic |
| C66–C67 | `KeySrv` LTS | trace induction, simulation by sequential execution; induction over processes |
| C68 | `Fcrypt` | whole runs of main, by command |
| C69 | PEM codec | composition |
| C70 | `ReadLine.read_line` over a chunked stream | direct |
| C71 | `Auth`, static passwords over bcrypt's key material | exact acceptance |
| C72 | `Json` reader | equivalence with a grammar from RFC 8259, and Go's limit of 10000 levels |
| C73 | `Login` | history relation over processes, induction; prefixes of JSON objects |
| C74 | `TotpUrl`, net/url's escaping | a relational reader of URIs, shown functional |
| C75 | `Flag`, `Duration`, `Mains` | a grammar of command lines; exact correspondence; fractions in doubles (`SpecFraction`) |
| C76 | `Hash`, `Salsa`, `Curve` | the laws from those of the group; instances of the earlier theorems |
| C77 | `Display`, `CmdCli` | induction over labels; sortedness; UTF-8 scanner against RFC 3629 |
| C78 | `Base64`, `Base32`, `Text`, `Pem` | digits as one large number, uniqueness of division; PEM by lines |
| C79 | `Json` decoders of `SecretStore`, `KeyStore`, `Login` | equivalence with relations, one rule per field |
| C80 | `Fp`, `Ed25519` | Pocklington certificates; the Edwards addition law over a field where d is not a square; projective multiples of the base point; the ladder against (1+y)/(1-y) |
| C81 | `Aes`; spec from FIPS 197 | 256-case checks of bytes, linearity of the columns, bijections composed |
| C82 | `Base64`, `Text`, `Pem`, `PemKeys` | digits as one large number; induction over lines |
| C83 | `Cmd`, `Auth`, `Tlv` | direct |
| C84 | `Bcrypt`; spec from Schneier, Provos and Mazieres | five tables as one row; the key as an endless repetition; 256-case checks of characters |
| C85 | `Passcrypt`, `Der`; spec from X.690 and X.680 | exactness of the fields, induction over the entries |
| C86 | `OtpShow`: traces of readings, prints and waits | induction over the rounds of the loops |
| C87 | `JournalTmp`: the files while the editor runs | refinement to `CmdJournal`; map laws |
| C88 | `Calendar`; spec: the day after a day | day numbers of the Gregorian calendar, linear arithmetic; runs of digits |
| C89 | `Listings` | strictly sorted lists are unique; C68 for the keys |
| C90 | `Verbose` | the system calls do not look at the output; induction over walk and loop |
| C91 | `Routes` over `KeySrv` and `Path` | mux's cleanPath is the walk of C64's spec; a label is found as it is iff it names something |

Properties that the code violates are stated as what the code does (exact
condition), with a `_refuted` theorem for the desirable version.

## 5. Findings

Each is a theorem, named here.

* TLV: `Decode` panics on five-byte inputs and can read beyond the visible length
  of a slice (C03_never_panics_refuted, C03_reads_beyond_length_refuted); an empty
  byte slice does not survive a round trip (C01_empty_bytes_refuted).
* Files are replaced in place: a crash can lose both versions
  (C13_atomic_replacement_refuted, C67_torn_refuted, C67_cut, C68_torn_refuted, C68_cut_refuted,
  C73_torn_refuted).
* `public.GenerateKey` slices nil array pointers: it panics whenever the random source
  works, so new sessions and new key stores are never made (C17).
* `UnmarshalPrivate` accepts a five-byte text as the all-zero key
  (C16_zero_key_refuted).
* YubiKey: two recorded tokens replay for ever in alternation (C34); the private identity
  inside a token is not compared (C81_private_identity_ignored).
* `Zero` on a session's authenticator leaves one that accepts the answer computed with an
  all-zero key (C83_zeroed_session_refuted).
* Passwords: whatever follows the hash in a stored text is ignored, and so are its minor
  version and separators (C84_canonical_refuted, C84_accepts_exactly).
* Secret store: merging does not converge on equal times
  (C38_ties_diverge_refuted), labels that are not UTF-8 collapse
  (C39_labels_collapse_refuted), a file holding `null` is accepted
  (C40_accepts_invalid_store_refuted).
* Key store: a tampered file with a record called "self" passes a chain check
  (C44_self_record_refuted); a cycle of signatures makes `VerifyChain` run for ever, which
  one key under two labels suffices for (C46, C66_answered_refuted).
* secrets: -init replaces an existing store without asking (C54_init_replaces); a
  pipe loses every line after the first of a read (C70_piped_loses), and removing
  metadata at the end of input spins (C55_remove_meta_spins).
* secretscli: list runs columns together, so different stores can look alike (C77).
* secretscli: changes after an explicit write destroy the store (C56); passwd alone
  is not saved (C57); a line held when the timer fires is lost
  (C58_every_line_refuted).
* journal: the retitle path overwrites an entry without asking
  (C59_no_silent_loss_refuted); entries with equal times share a title in the list (C60);
  a failed write of the temporary file is not noticed, so editing truncates the entry
  (C87_unwritten_refuted); a kill leaves it in the clear (C87_killed_clear_refuted).
* Times: the first 258 years a file can hold are shown as the far future
  (C88_any_time_refuted); texts of journal, secrets and fcrypt do not sort by time
  (C88_order_minute_refuted).
* secrets and fcrypt: labels with line ends forge lines of a listing (C89_labels_refuted); a key
  named `<unknown>` signs like an unknown one (C89_unknown_refuted).
* otpc: stored TOTP tokens cannot be shown (C62); some texts change their key when
  sanitised (C61_keeps_key_refuted); the display of Google tokens can miss every change by one
  second (C86_google_late_refuted); a counter-based token shown as TOTP spends two codes a
  second unrecorded (C86_counter_refuted).
* passcrypt: paths with leading `..` escape the output directory
  (C64_inside_refuted); an unreadable directory is packed as an empty one
  (C63_complete_refuted); directory bits 1, 8 and 64 are added, not set, so 0755
  gives 066 (C65); archives may hold paths that are not UTF-8, which cannot be written
  (C85_utf8_paths_refuted), and anything after an entry's fields (C85_one_text_refuted).
* keysrv: an acknowledged upload is lost if the process is killed within the ten
  minutes before it is written, and never written while replies keep coming
  (C67_lost_refuted, C67_busy_unwritten); keys whose label holds a slash, or is `.` or `..`, cannot be
  asked for (C91_every_key_refuted), and there is no page for the server's own fingerprint
  (C91_own_fingerprint_refuted).
* fcrypt: the end of input at "are you sure" ends with success
  (C68_untrusted_silent_refuted); a failed write of a signed and encrypted file is
  no error (C68_write_lost_refuted).
* login example: names that are not UTF-8 and passwords with white space around them are
  registered and never accepted (C73_strange_name_refuted, C73_spaced_password_refuted);
  registering a name again replaces its authenticator without asking (C73_register).
* The otpauth URL does not carry step, start and hash function, so an app computes codes
  that are rejected unless these are the defaults (C74_step_refuted, C74_start_refuted); a
  label and the same label after a slash have one URL (C74_slash_refuted).
* passcrypt -v and -l print names as they are, line ends included (C90_forged_refuted).
* Command lines: an option after the first argument is not an option, so secrets -s label
  -f other changes the default store (C75_late_option_refuted); -init wins over every
  other option (C75_secrets_init_wins); durations are added modulo 2^64
  (C75_duration_wraps_refuted); a fraction of a unit is computed in doubles and may be
  rounded up (C75_fraction_cut_refuted).

## 6. Files

Model files contain no proofs (table of section 3, and `Bytes`, `Crypto`) but for membership in a
record type. `Prime`, `Primes`, `Edwards` and `Ed*.v` hold the mathematics of C80. `Spec*.v`
hold the vocabulary of the statements, written without the model's helper
functions. `*Facts.v`, `*Runs.v`, `*Claims.v`, `*State.v`, `*Start.v`, `*Store.v`,
`*Files.v`, `*Locks.v`, `*Certs.v`, `*More.v`, `*Torn.v`, `*Lives.v` and `*Text.v` hold lemmas. `Props*.v` hold only
the property theorems (nearly all closed by `exact`) with `Print Assumptions`, and the
`Example`s showing that their hypotheses can be met. `Toy.v`, `ToyAuth.v` and `ToyCurve.v` are the
instances the examples use.

`seeded/LOG.jsonl`: wrong programs tried against the theorems. Each edit was made in
a scratch copy; `failed` lists the theorems that then depended on a proof that no
longer went through.
