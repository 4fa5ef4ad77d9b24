{"id": "C01", "title": "TLV round trip for record sequences", "statement": "Any sequence of values written with Encode (8/16/32/64-bit signed and unsigned integers, and non-empty byte slices shorter than 2^31), with the whole buffer shorter than 2^31+5 bytes, is read back by Decode, in the same order with matching target types, as exactly the same values; each Decode consumes exactly its own record, whatever bytes follow, and after the last one what remains is what followed the sequence. An empty byte slice is not read back, and a buffer whose body has 2^31 to 2^32-1 bytes is always rejected.", "quantifier": "every finite sequence of values of every supported type, every suffix, every hidden slice capacity", "why_tests_cant": "Sequence length, byte lengths and integer values are unbounded or huge; sampled values cannot exclude a bad length or sign boundary.", "anchors": ["common/tlv/tlv.go: Encoder.Encode, Decoder.Decode, Decoder.Length"]}
{"id": "C02", "title": "TLV encoding is unambiguous", "statement": "Two sequences of values (byte slices shorter than 2^32) whose encodings are equal are the same sequence, types included; no encoding of a sequence is a proper prefix-confusion of another (equal concatenations with arbitrary suffixes split identically record by record).", "quantifier": "all pairs of value sequences and all suffixes", "why_tests_cant": "Injectivity is a statement about all pairs of inputs.", "anchors": ["common/tlv/tlv.go: Encoder.Encode"]}
{"id": "C03", "title": "TLV decoding of hostile data: exact panic condition", "statement": "Decode on an arbitrary buffer returns (value or error) unless (a) the record is tagged like the target and its wire length is negative as an int32, or (b) the target is an integer and too few bytes follow the header: a one-byte integer needs a visible byte, a wider one needs its width within the slice's capacity; in exactly those cases it panics. In particular Decode does panic on some inputs of 5 bytes, so it is not safe on untrusted data without a recover, and a short record can read bytes beyond the visible length.", "quantifier": "every byte buffer, every slice capacity, every target type", "why_tests_cant": "Fuzzing samples buffers; only a proof gives the exact set of panicking inputs.", "anchors": ["common/tlv/tlv.go: Decoder.Decode"]}
{"id": "C04", "title": "TLV type safety and the empty-record exception", "statement": "If Decode returns nil then either the record's tag is the tag of the target's type and the target receives the value the wire bytes denote, or the record is an empty byte record, in which case the target is left untouched whatever its type and the decoder does not advance. A tag mismatch on any other record gives an error and changes neither target nor decoder.", "quantifier": "every buffer and every target type and previous target value", "why_tests_cant": "A test fixes finitely many inputs; the claim is about all of them.", "anchors": ["common/tlv/tlv.go: Decoder.Decode"]}
{"id": "C05", "title": "TLV decoder never goes backwards or past the end", "statement": "A successful Decode leaves a decoder whose remaining data is a suffix of what it was; it is strictly shorter except for records whose wire length field is consumed as the empty byte record, so a loop of Decode calls over a buffer without empty byte records terminates within length/5 calls, while an empty byte record makes the loop spin forever at the same position.", "quantifier": "every buffer, every sequence of Decode calls", "why_tests_cant": "Termination for all inputs is not observable by running finitely many.", "anchors": ["common/tlv/tlv.go: Decoder.Decode"]}
{"id": "C06", "title": "TLV Encode rejects unsupported types without side effects", "statement": "Encode of any value not of a supported type reports an error and leaves the encoded data unchanged; Encode of a supported value never fails and only appends, with Length growing by exactly 5 plus the payload size; Zero leaves an encoder with no data; Decoder.Zero overwrites exactly the visible bytes of the caller's buffer with zeros and leaves a decoder from which every Decode fails.", "quantifier": "every encoder state and every value", "why_tests_cant": "A test fixes finitely many inputs; the claim is about all of them.", "anchors": ["common/tlv/tlv.go: Encoder.Encode, Encoder.Length, Encoder.Zero"]}
{"id": "C07", "title": "Random bytes are all or nothing", "statement": "RandBytes(n), NewNonce, and secret.GenerateKey either return exactly the requested number of bytes taken in order from the random source, or nil; never a short, padded or partially filled value.", "quantifier": "every random source (every finite byte stream, failing after any number of bytes) and every size", "why_tests_cant": "The failure point of the source ranges over every byte position.", "anchors": ["common/util/util.go: RandBytes, NewNonce", "common/secret/crypto.go: GenerateKey"]}
{"id": "C08", "title": "Secret-key encryption round trip", "statement": "For every 32-byte key and message, if the random source yields a nonce, Encrypt succeeds and Decrypt under the same key returns the message; the output is exactly 40 bytes longer than the message. If the source fails Encrypt reports failure and returns no data.", "quantifier": "every key, message and random source", "why_tests_cant": "A test fixes finitely many inputs; the claim is about all of them.", "anchors": ["common/secret/crypto.go: Encrypt, Decrypt"]}
{"id": "C09", "title": "Secret-key decryption accepts only genuine ciphertexts", "statement": "Decrypt(k, c) succeeds with m exactly when c is a 24-byte nonce followed by the sealed box of m under k and that nonce (ideal secretbox); hence any c shorter than 40 bytes is rejected, no ciphertext decrypts to two messages, changing any byte of the nonce or box makes the result differ from a valid encryption of the same message under that nonce, and Decrypt never panics.", "quantifier": "every key and every byte string", "why_tests_cant": "Acceptance set is infinite.", "anchors": ["common/secret/crypto.go: Decrypt"]}
{"id": "C10", "title": "Key derivation depends only on passphrase, salt and mode, and fails closed on unknown modes", "statement": "DeriveKeyStrength returns a 32-byte key computed with N=2^20,r=8,p=2 for standard mode and N=2^14,r=8,p=1 for interactive mode, and nil for every other mode value; MarshalSecretStore/UnmarshalSecretStore with an unknown mode fail without panicking.", "quantifier": "every passphrase, salt and integer mode value", "why_tests_cant": "A test fixes finitely many inputs; the claim is about all of them.", "anchors": ["common/secret/crypto.go: DeriveKeyStrength, DeriveKey, scryptMode"]}
{"id": "C11", "title": "File encryption round trip and exact failure behaviour", "statement": "After EncryptFile(f, p, d) reports success, DecryptFile(f, p) returns d. DecryptFile returns an error (and no data) for every file of at least 32 bytes that is not a genuine encryption under the passphrase, and panics exactly for existing files shorter than 32 bytes.", "quantifier": "every file content, passphrase, data and random source", "why_tests_cant": "A test fixes finitely many inputs; the claim is about all of them.", "anchors": ["common/secret/crypto.go: EncryptFile, DecryptFile"]}
{"id": "C12", "title": "EncryptFile wipes the caller's plaintext", "statement": "Whenever EncryptFile gets past salt generation, on success and on every failure, the caller's plaintext buffer is all zero afterwards; when salt generation fails, the buffer and the file are untouched.", "quantifier": "every plaintext, random source failure point, and file system outcome", "why_tests_cant": "All failure points must be covered.", "anchors": ["common/secret/crypto.go: EncryptFile"]}
{"id": "C13", "title": "Crash and failed-write behaviour of file replacement", "statement": "Files are replaced in place: a crash or write failure during EncryptFile, writeStore or a store dump can leave any prefix of the new contents (including nothing), so the previous contents are not recoverable from every crash point; a reader of such a file never obtains wrong plaintext: it gets an error (or a panic for DecryptFile under 32 bytes), or the complete new contents (for a truncated box this takes the explicit hypothesis that cutting bytes off the end of this box does not yield another valid box under the same key and nonce).", "quantifier": "every crash point, old contents and new contents", "why_tests_cant": "Crash points cannot be enumerated by unit tests.", "anchors": ["common/secret/crypto.go: EncryptFile", "common/util/util.go: WriteFile", "cmd/secrets/secrets.go: writeStore", "common/store/secretstore.go: UnmarshalSecretStore"]}
{"id": "C14", "title": "Legacy store migration preserves contents and fails safely", "statement": "migrate-store on a file readable under the legacy parameters leaves (if it reports success) a file that DecryptFile reads back to the same plaintext under the same passphrase; if the passphrase is wrong or the file is damaged the file is byte-for-byte unchanged and no later file is touched.", "quantifier": "every list of files, contents, passphrases and random source", "why_tests_cant": "A test fixes finitely many inputs; the claim is about all of them.", "anchors": ["cmd/migrate-store/migrate-store.go: migrateStore, main", "cmd/migrate-store/legacy/crypto.go: DecryptFile"]}
{"id": "C15", "title": "Public and private key serialisation round trips", "statement": "UnmarshalPublic succeeds exactly on 64-byte inputs and is inverse to MarshalPublic; UnmarshalPrivate(MarshalPrivate(k)) = k for every valid key; marshalling an invalid (nil-containing) key gives an error.", "quantifier": "every key value, including nil components", "why_tests_cant": "A test fixes finitely many inputs; the claim is about all of them.", "anchors": ["common/public/crypto.go: MarshalPublic, UnmarshalPublic, MarshalPrivate, UnmarshalPrivate, Valid"]}
{"id": "C16", "title": "Private key parsing of arbitrary input", "statement": "UnmarshalPrivate never returns a key unless the input starts with four byte records (or stops at an empty byte record); it accepts wrong-sized fields by truncating or zero padding, ignores trailing data, accepts the 5-byte input 03 00 00 00 00 as the all-zero key, and panics exactly on a byte record with a length of 2^31 or more among the first four; PrivateKey.Zero clears both secret arrays and drops them, and a second Zero panics.", "quantifier": "every byte string", "why_tests_cant": "A test fixes finitely many inputs; the claim is about all of them.", "anchors": ["common/public/crypto.go: UnmarshalPrivate", "common/tlv/tlv.go: Decoder.Decode"]}
{"id": "C17", "title": "Key generation", "statement": "public.GenerateKey returns an error if the random source fails while producing the encryption key or signing seed and otherwise panics (nil dereference): it never returns a key. Hence creating a session and creating a fresh keystore never succeed.", "quantifier": "every random source", "why_tests_cant": "All random sources must be covered.", "anchors": ["common/public/crypto.go: GenerateKey", "common/auth/session.go: NewSession", "common/store/keystore.go: LoadKeyStore"]}
{"id": "C18", "title": "Public-key encryption round trip", "statement": "For every matching key pair and every message, if the random source yields 32+24 bytes then Encrypt succeeds with len(m)+77 bytes of output, and Decrypt with the private key returns m if m has 1 to 2^31-1 bytes, panics if len(m) mod 2^32 is at least 2^31, and otherwise reports failure (in particular the empty message encrypts but never decrypts).", "quantifier": "every key pair, message and random source", "why_tests_cant": "A test fixes finitely many inputs; the claim is about all of them.", "anchors": ["common/public/crypto.go: Encrypt, Decrypt"]}
{"id": "C19", "title": "Public-key encryption failure modes", "statement": "Encrypt and EncryptAndSign report failure for an invalid recipient key or if the random source fails during ephemeral key generation, and panic exactly when the source fails between the ephemeral key and the end of the nonce; they never return output with a missing nonce.", "quantifier": "every random source failure point and key", "why_tests_cant": "Failure point ranges over all positions.", "anchors": ["common/public/crypto.go: encrypt, EncryptAndSign", "common/util/util.go: NewNonce"]}
{"id": "C20", "title": "Public-key decryption accepts exactly sealed records", "statement": "Decrypt(k, c) succeeds with m exactly when c is at least 72 bytes and opens (ideal box) to a single byte record holding m with nothing after it; on every other input it reports failure (it panics only for an authenticated payload whose record length is at least 2^31).", "quantifier": "every byte string and key", "why_tests_cant": "A test fixes finitely many inputs; the claim is about all of them.", "anchors": ["common/public/crypto.go: Decrypt, decrypt"]}
{"id": "C21", "title": "Signatures verify, and only as 64-byte signatures over the exact message", "statement": "Verify(pub, m, Sign(priv, m)) holds for every matching valid key pair; signatures of length other than 64 are rejected for every message and key; Sign fails exactly for invalid keys.", "quantifier": "every key pair, message and candidate signature", "why_tests_cant": "A test fixes finitely many inputs; the claim is about all of them.", "anchors": ["common/public/crypto.go: Sign, Verify"]}
{"id": "C22", "title": "Signcryption round trip and authenticity", "statement": "DecryptAndVerify(EncryptAndSign(m)) returns m for matching keys and every message of 1..2^31-70 bytes (never for any other length, in particular the empty message); whenever DecryptAndVerify returns m, the ciphertext opened under the recipient's key and carried a 64-byte signature valid for m under the named sender.", "quantifier": "every pair of key pairs, messages and ciphertexts", "why_tests_cant": "A test fixes finitely many inputs; the claim is about all of them.", "anchors": ["common/public/crypto.go: EncryptAndSign, DecryptAndVerify"]}
{"id": "C23", "title": "Plain and signed ciphertexts are not confusable", "statement": "Decrypt never accepts the output of EncryptAndSign and DecryptAndVerify never accepts the output of Encrypt, for any keys and messages.", "quantifier": "every key pair and message (including messages crafted to look like records)", "why_tests_cant": "An adversarial message could be chosen for which confusion happens; tests sample.", "anchors": ["common/public/crypto.go: Decrypt, DecryptAndVerify, EncryptAndSign"]}
{"id": "C24", "title": "Signcryption does not bind the recipient", "statement": "A recipient of a signcrypted message can re-encrypt the opened payload to any third party so that DecryptAndVerify by the third party still names the original sender (the signature covers the message only).", "quantifier": "every sender, first recipient, third party and message", "why_tests_cant": "Universally quantified attack.", "anchors": ["common/public/crypto.go: EncryptAndSign, DecryptAndVerify, encrypt"]}
{"id": "C25", "title": "Locked private keys", "statement": "UnlockKey(LockKey(k, p), p) = k for every valid key and passphrase when the random source yields 56 bytes; LockKey fails for invalid keys and source failure; UnlockKey of data that is not salt plus a genuine box under the derived key reports failure; the same through the PEM forms ExportPrivate/ImportPrivate.", "quantifier": "every key, passphrase, random source and locked blob", "why_tests_cant": "A test fixes finitely many inputs; the claim is about all of them.", "anchors": ["common/public/crypto.go: LockKey, UnlockKey, ExportPrivate, ImportPrivate"]}
{"id": "C26", "title": "Key exchange agrees", "statement": "KeyExchange(a, pub b) = KeyExchange(b, pub a) for every two generated key pairs, so both ends of a session compute the same MAC key.", "quantifier": "every two key pairs", "why_tests_cant": "A test fixes finitely many inputs; the claim is about all of them.", "anchors": ["common/public/crypto.go: KeyExchange", "common/auth/session.go: KeySession"]}
{"id": "C27", "title": "Validation outcome discipline", "statement": "For every authenticator type, if Validate reports an error it returns false and leaves the stored authenticator unchanged; if it returns true there is no error and the one-time value was replaced; unknown types and nil are rejected. A correct static password yields no error but the boolean is always false.", "quantifier": "every authenticator, OTP/password, time and random source", "why_tests_cant": "A test fixes finitely many inputs; the claim is about all of them.", "anchors": ["common/auth/authenticator.go: Validate", "common/auth/totp.go: ValidateTOTP", "common/auth/session.go: ValidateSession", "common/auth/yubikey.go: ValidateYubiKey", "common/auth/password.go: ValidatePassword"]}
{"id": "C28", "title": "TOTP codes are RFC 6238/4226 codes of the exact configured width", "statement": "For a SHA-1 configuration with 1..10 digits and a non-zero step, the generated code is the RFC 4226 dynamic truncation of HMAC-SHA-1 of the big-endian 8-byte step counter, reduced modulo 10^digits and printed with exactly that many decimal digits; code generation panics exactly when the step is zero or the digit count is outside 0..10, and reports an error exactly for other hashes.", "quantifier": "every key, start, step, size, algorithm and time (64-bit wrap-around included)", "why_tests_cant": "A test fixes finitely many inputs; the claim is about all of them.", "anchors": ["common/auth/totp.go: generateOTPAt, truncate, oathDigits"]}
{"id": "C29", "title": "TOTP acceptance window and replay", "statement": "ValidateTOTP accepts exactly the codes of the current and the previous step that differ from the last accepted one. The last accepted code is never accepted again immediately; but a code accepted earlier within its window is accepted again after another code was accepted in between.", "quantifier": "every configuration, every time, every history of validations", "why_tests_cant": "Replay freedom is a property of histories.", "anchors": ["common/auth/totp.go: ValidateTOTP"]}
{"id": "C30", "title": "TOTP configuration serialisation", "statement": "ParseTOTPConfig(Bytes(c)) = c for every configuration with a non-empty key, size within int32 and algorithm within int8; with an empty key the parse silently yields the all-zero configuration, and validating against such an authenticator panics with a division by zero.", "quantifier": "every configuration", "why_tests_cant": "A test fixes finitely many inputs; the claim is about all of them.", "anchors": ["common/auth/totp.go: Bytes, ParseTOTPConfig, ImportGoogleTOTP, ValidateTOTP"]}
{"id": "C31", "title": "Session authentication accepts exactly the right response and advances", "statement": "ValidateSession accepts an OTP exactly when it is hex (either case) for the stored 32-byte challenge followed by its HMAC-SHA-256 under the shared secret and the random source yields a new challenge; on success the stored challenge is the fresh 32 bytes; a client computing Session.OTP on the published challenge with the agreed key is always accepted; on random failure nothing changes.", "quantifier": "every secret, challenge, OTP string and random source", "why_tests_cant": "A test fixes finitely many inputs; the claim is about all of them.", "anchors": ["common/auth/session.go: ValidateSession, Session.OTP, KeySession"]}
{"id": "C32", "title": "Session responses cannot be replayed", "statement": "After a successful ValidateSession, the same OTP is accepted again in a later step exactly when a later challenge repeats the old 32-byte value; along every history in which challenges are distinct each OTP is accepted at most once.", "quantifier": "every history of validation attempts", "why_tests_cant": "History property.", "anchors": ["common/auth/session.go: ValidateSession"]}
{"id": "C33", "title": "YubiKey counter monotonicity", "statement": "Along every history of validations the stored counter never decreases and every accepted OTP decrypts to a token whose counter is at least the stored one and whose public identity matches; a failed validation changes nothing.", "quantifier": "every history of OTP strings", "why_tests_cant": "History property.", "anchors": ["common/auth/yubikey.go: ValidateYubiKey, getTokenCounter"]}
{"id": "C34", "title": "YubiKey same-session replay", "statement": "The per-session use counter does not contribute to the comparison (it is shifted out of its 8-bit type), so two different OTPs from the same power-up session can be replayed alternately for ever; only an OTP equal to the immediately preceding accepted one, or from an older session, is rejected.", "quantifier": "every pair of OTPs with equal session counter", "why_tests_cant": "Exhibiting the replay needs a history; exactness needs all tokens.", "anchors": ["common/auth/yubikey.go: getTokenCounter, ValidateYubiKey"]}
{"id": "C35", "title": "YubiKey configuration serialisation", "statement": "ParseYubiKeyConfig(Bytes(c)) = c for every configuration with a 16-byte key; keys of any other length are rejected; the counter round-trips over all 32-bit values.", "quantifier": "every configuration", "why_tests_cant": "A test fixes finitely many inputs; the claim is about all of them.", "anchors": ["common/auth/yubikey.go: Bytes, ParseYubiKeyConfig"]}
{"id": "C36", "title": "Secret store behaves as a map: adds never overwrite", "statement": "AddRecord succeeds exactly for valid stores without that label, then the label maps to the given secret, metadata and current time and every other label is unchanged; otherwise nothing changes. UpdateSecret succeeds exactly for present labels, changing only that record's secret and timestamp. Has reports exactly the labels added and not removed, along every history.", "quantifier": "every store and every history of operations", "why_tests_cant": "Histories are unbounded.", "anchors": ["common/store/secretstore.go: AddRecord, UpdateSecret, Has, Valid"]}
{"id": "C37", "title": "Merge takes the newest record per label", "statement": "After s.Merge(o), each label present in either store maps to the record with the strictly newer timestamp from o, and otherwise to s's own; no label disappears and no record is invented; the result does not depend on map iteration order; the reported list is exactly the labels of records taken from o, each once.", "quantifier": "every pair of stores and every map iteration order", "why_tests_cant": "Go map order is random; all orders must be covered.", "anchors": ["common/store/secretstore.go: SecretStore.Merge, SecretRecord.Merge"]}
{"id": "C38", "title": "Merge is idempotent, and convergent up to timestamp ties", "statement": "Merging the same store twice changes no record and reports nothing the second time; merging is associative; two stores merged in either order hold the same records for every label whose timestamps differ.", "quantifier": "every pair/triple of stores", "why_tests_cant": "A test fixes finitely many inputs; the claim is about all of them.", "anchors": ["common/store/secretstore.go: SecretStore.Merge"]}
{"id": "C39", "title": "Secret store serialisation round trip", "statement": "If MarshalSecretStore succeeds, UnmarshalSecretStore with the same passphrase and mode yields a store with the same version, timestamp and records (for labels and metadata keys that are valid UTF-8), and the same passphrase. With invalid UTF-8 labels, distinct labels can collapse into one on reload.", "quantifier": "every valid store, mode, and random source", "why_tests_cant": "A test fixes finitely many inputs; the claim is about all of them.", "anchors": ["common/store/secretstore.go: MarshalSecretStore, UnmarshalSecretStore"]}
{"id": "C40", "title": "Secret store authenticity", "statement": "UnmarshalSecretStore succeeds only on salt plus a genuine box under the key derived from the given passphrase, salt and mode; the store it gives is what encoding/json makes of the text in the box; it never panics on any input; in particular a store sealed under one derived key is rejected whenever the derived keys differ and boxes under distinct keys are distinct (ideal secretbox).", "quantifier": "every byte string, passphrase and mode", "why_tests_cant": "A test fixes finitely many inputs; the claim is about all of them.", "anchors": ["common/store/secretstore.go: UnmarshalSecretStore"]}
{"id": "C41", "title": "Marshalling wipes the store in memory", "statement": "When MarshalSecretStore succeeds every secret byte, metadata byte and passphrase byte held by the in-memory store is zero afterwards (lengths preserved) and labels are kept; when it fails nothing in the store changes. Consequently marshalling the same store again writes all-zero secrets under an all-zero passphrase.", "quantifier": "every store, mode and random source", "why_tests_cant": "A test fixes finitely many inputs; the claim is about all of them.", "anchors": ["common/store/secretstore.go: MarshalSecretStore, SecretStore.Zero, SecretRecord.Zero"]}
{"id": "C42", "title": "Password change takes effect at the next marshal", "statement": "After ChangePassword(p') a successful marshal opens under p' with the same records, and ChangePassword changes no record and does not alias the caller's buffer.", "quantifier": "every store and passphrase", "why_tests_cant": "A test fixes finitely many inputs; the claim is about all of them.", "anchors": ["common/store/secretstore.go: ChangePassword, MarshalSecretStore"]}
{"id": "C43", "title": "Aliasing between a store and its callers", "statement": "The byte slices and metadata map handed to AddRecord are kept by reference: later writes through the caller's references, and Zero/Marshal of the store, are visible on the other side; after s.Merge(o), zeroing o wipes the records s took from o. NewSecretStore, ChangePassword and Unmarshal copy their passphrase.", "quantifier": "every heap and every later write", "why_tests_cant": "Aliasing bugs depend on later writes by the caller.", "anchors": ["common/store/secretstore.go: AddRecord, Merge, Zero, NewSecretStore"]}
{"id": "C44", "title": "Keystore trust is sound", "statement": "In every store holding no record whose Label field is \"self\": if VerifyChain(l) reports true then l is \"self\" or there is a finite chain of stored keys starting at l in which each key's stored signature over key, signer and time verifies under the next key, ending with a signature under the owner's key; KeyAudit true means this for every stored label. For files written by someone else this is false: a keystore file containing a record labelled \"self\" loads, VerifyChain accepts keys with no chain to the owner, and further certificates of the attacker are imported.", "quantifier": "every keystore (however produced) and every map iteration order", "why_tests_cant": "Quantifies over all stores and chains of any length.", "anchors": ["common/store/keystore.go: VerifyChain, VerifyKeySignature, KeyAudit, FindPublic"]}
{"id": "C45", "title": "Keystore trust is complete for stores built through the API", "statement": "In every keystore built from NewPrivateKeyStore by AddKey, ImportVerified, ImportVerifiedKey, Lock, LockWith, Unlock and dump/reload, every stored label differs from \"self\", matches its record and has a chain to the owner; with pairwise distinct keys (none equal to the owner's), VerifyChain terminates with true for every stored label, and KeyAudit returns true, whatever the map iteration order.", "quantifier": "every history of API operations", "why_tests_cant": "History property with nondeterministic iteration.", "anchors": ["common/store/keystore.go: AddKey, ImportVerified, VerifyChain, KeyAudit"]}
{"id": "C46", "title": "Chain verification can fail to terminate", "statement": "For some map iteration order VerifyChain(l) never terminates, exactly when the store is valid and following signers from l enters a cycle of verifying signatures. Such a store is reached by AddKey of a peer and ImportVerifiedKey of that peer's self-signed certificate under a second label; after removing the first label (as fcrypt does) no order terminates.", "quantifier": "every fuel bound / all executions", "why_tests_cant": "Non-termination cannot be observed by a test.", "anchors": ["common/store/keystore.go: VerifyChain", "exp/fcrypt/fcrypt.go: removeKey"]}
{"id": "C47", "title": "Key import accepts exactly certified keys", "statement": "ImportVerified(l, data) succeeds only when the store is valid, l is absent and not \"self\", data parses to a certificate whose signer is the owner or a stored key whose own signature verifies, and the certificate's signature verifies under that signer; then exactly that record is added under l and all others are unchanged. AddKey needs an unlocked store, an absent label and a 64-byte key. No operation adds or replaces \"self\". Conversely such a certificate is accepted for some map order, and for every order when stored keys are distinct; a stored signer whose label is the empty string is never found.", "quantifier": "every store, label and data", "why_tests_cant": "A test fixes finitely many inputs; the claim is about all of them.", "anchors": ["common/store/keystore.go: ImportVerified, ImportVerifiedKey, AddKey, Has"]}
{"id": "C48", "title": "Certificates bind key, signer and time, but not purpose", "statement": "Signature data determines the subject key, signer key and time whenever signers are 64 bytes long, so a certificate cannot be reinterpreted; but an ordinary KeyStore.Sign on attacker-chosen bytes yields a signature that ImportVerified accepts as a certificate for an attacker's key.", "quantifier": "every pair of certificates; every attacker key", "why_tests_cant": "A test fixes finitely many inputs; the claim is about all of them.", "anchors": ["common/store/keystore.go: SignatureData, Sign, ImportVerified"]}
{"id": "C49", "title": "A locked keystore performs no private-key operation", "statement": "While Locked() is true, Sign, Decrypt, EncryptAndSignTo, DecryptAndVerify, AddKey and ExportVerified all fail and leave the store unchanged; after Lock or LockWith succeed no private key is held in memory; public operations (EncryptTo, Verify) behave the same locked and unlocked.", "quantifier": "every store and every history of operations", "why_tests_cant": "History property.", "anchors": ["common/store/keystore.go: Lock, LockWith, Sign, Decrypt, EncryptAndSignTo, DecryptAndVerify, AddKey, ExportVerified"]}
{"id": "C50", "title": "Lock/unlock round trip and passphrase exactness", "statement": "LockWith(p) then Unlock(p) restores the same private key and the ability to sign; Unlock on a locked store succeeds only if the stored blob opens under the derived key; Lock without a previous LockWith on a new store loses the private key irrecoverably; LockWith on an already locked store reports success without changing the passphrase. A LockWith failing for lack of randomness drops the stored locked key; Unlock on an unlocked store succeeds for every passphrase.", "quantifier": "every store, passphrase and random source", "why_tests_cant": "A test fixes finitely many inputs; the claim is about all of them.", "anchors": ["common/store/keystore.go: Lock, LockWith, Unlock"]}
{"id": "C51", "title": "Serialised keystores never contain the plaintext private key", "statement": "Dump and DumpKeyStore output depends only on the public fields (version, timestamp, keys, locked blob, public key, export key): two stores that differ only in the unlocked private key or lock state serialise identically with Dump; reloading gives a locked store with the same public fields when a locked blob is present. For UTF-8 stores the dump determines the public fields. A store dumped before any LockWith reloads without its private key and not locked, and Verify(\"self\") then panics; LoadKeyStore asked to make a new store panics whenever the random source works. LoadKeyStore accepts exactly the files whose text is JSON that encoding/json makes a store of, with version 1 and a time other than 0.", "quantifier": "every keystore", "why_tests_cant": "Non-interference: quantifies over pairs of stores.", "anchors": ["common/store/keystore.go: Dump, DumpKeyStore, LoadKeyStore"]}
{"id": "C52", "title": "Keystore messaging round trips between stores", "statement": "A message encrypted by EncryptTo(l) decrypts with the keystore owning key l; EncryptAndSignTo / DecryptAndVerify round-trip between two stores that have each other's keys; Sign / Verify likewise.", "quantifier": "every pair of keystores and messages", "why_tests_cant": "A test fixes finitely many inputs; the claim is about all of them.", "anchors": ["common/store/keystore.go: EncryptTo, Decrypt, EncryptAndSignTo, DecryptAndVerify, Sign, Verify, getPublic"]}
{"id": "C53", "title": "Certificate serialisation round trip", "statement": "ParseVerifiedKey(Serialise(v)) = v for every certificate, and ImportVerifiedKey of it behaves as ImportVerified of its body; PEM type mismatch or non-PEM input is rejected.", "quantifier": "every certificate and every byte string", "why_tests_cant": "A test fixes finitely many inputs; the claim is about all of them.", "anchors": ["common/store/keystore.go: Serialise, ParseVerifiedKey, ImportVerifiedKey"]}
{"id": "C54", "title": "secrets: the store file changes only as commanded", "statement": "For every run of the secrets command: show and list never change the store file; a run that ends with an error or a panic never changes any file (if the disk takes writes); only the store file is ever changed (by export, only the output); store without -w never changes an existing entry; a successful store changes exactly its label, to the typed secret or the dictated metadata; a successful remove deletes exactly the label; passwd keeps all records and makes the new passphrase the one that opens the file; merge leaves the newest record of each label; init leaves an empty store and replaces whatever was there.", "quantifier": "every store file, arguments, user input, random source", "why_tests_cant": "All interactions of flags, inputs and failures.", "anchors": ["cmd/secrets/secrets.go: main, addSecret, remove, chpass, list, showSecret, writeStore, loadStore"]}
{"id": "C55", "title": "secrets multi-entry and metadata dialogues", "statement": "multi adds exactly the entered (name, password) pairs in order, skipping existing names unless overwriting and empty passwords; if input ends before an empty name nothing is saved; metadata becomes exactly what the lines dictate. removeMeta removes exactly the named keys and never terminates once input ends without an empty line; the other dialogues end on every input.", "quantifier": "every input script", "why_tests_cant": "Unbounded scripts; non-termination.", "anchors": ["cmd/secrets/secrets.go: multi, addMeta, removeMeta"]}
{"id": "C56", "title": "secretscli: explicit write followed by more changes destroys the store", "statement": "In secretscli, after a successful write of a modified store, any further change followed by write or quit replaces the file with records whose previously held secrets are all zero, sealed under an all-zero passphrase, so the original passphrase does not open it (unless it seals alike); the same after a write the disk refused. Without an intermediate write, quit saves exactly the session's records, and labels not named by a store or wmeta line keep their records. A metadata dialogue that ends with an empty line stores exactly the pairs dictated, keeps the secret and marks the session as changed; one that the input breaks off changes the record in memory only and does not mark it.", "quantifier": "every session (sequence of commands)", "why_tests_cant": "History property.", "anchors": ["cmd/secretscli/secretscli.go: writeStore, shutdown", "cmd/secretscli/commands.go: storeSingleSecret, cmdWriteStore", "common/store/secretstore.go: MarshalSecretStore"]}
{"id": "C57", "title": "secretscli: passwd alone is not saved", "statement": "A session consisting of passwd (and read-only commands) then quit leaves the file byte-for-byte unchanged, so the old passphrase still opens it and the new one does not take effect.", "quantifier": "every session of passwd and read-only commands", "why_tests_cant": "History property.", "anchors": ["cmd/secretscli/commands.go: passwd", "cmd/secretscli/secretscli.go: writeStore"]}
{"id": "C58", "title": "secretscli: idle timeout and command hand-off", "statement": "The reader and the command loop alternate strictly: lines are processed in order, each at most once, and no command runs concurrently with another, with the reader, or after shutdown started; every state is that of the sequential session, up to blank lines and at most one line read ahead. Only a line held when the idle timer fires (or quit) is read but not run. On idle timeout the store is saved if modified. No reachable state is stuck before the process exits. At the end of the input the session ends at once, without waiting for the timeout.", "quantifier": "every interleaving of reader, loop and timer", "why_tests_cant": "Scheduling.", "anchors": ["cmd/secretscli/secretscli.go: readCommands, inputLoop, processCommands, shutdown"]}
{"id": "C59", "title": "journal: entries are not lost silently, except through the retitle path", "statement": "edit and write keep every other entry unchanged; write under a fresh title adds exactly that entry; but when the title exists and the user supplies another existing title, that entry is overwritten without confirmation; edit does not update the entry's timestamp, so merging the edited journal into a copy that has the entry as it was before leaves the old text. list and show never change the file, nor does any failure on a working disk.", "quantifier": "every journal and input script", "why_tests_cant": "A test fixes finitely many inputs; the claim is about all of them.", "anchors": ["cmd/journal/journal.go: writeNew, editEntry, newEntry"]}
{"id": "C60", "title": "journal: listing drops entries with equal timestamps", "statement": "list prints as many lines as entries, newest first, but entries sharing a timestamp are all printed with one title among them (any of them, depending on iteration order); it is complete exactly when timestamps are pairwise distinct. A null record makes it panic.", "quantifier": "every journal and iteration order", "why_tests_cant": "Iteration order is random.", "anchors": ["cmd/journal/journal.go: listEntries"]}
{"id": "C61", "title": "otpc: secret sanitisation", "statement": "sanitiseSecret yields text without spaces whose length is a multiple of 8, and upper-case ASCII for ASCII input; on ASCII it is idempotent. It leaves alone any text without line ends that base32 decodes and whose length is a multiple of 8, and it turns every RFC 4648 encoding of a key, padded or not, in any case and with any spaces, into text that decodes to that key. Refuted: that every text which decodes still decodes to the same key (a line end counts as a character; letters after the padding are ignored by the decoder until more padding is added).", "quantifier": "every byte string", "why_tests_cant": "A test fixes finitely many inputs; the claim is about all of them.", "anchors": ["cmd/otpc/otpc.go: sanitiseSecret"]}
{"id": "C62", "title": "otpc: stored TOTP tokens cannot be shown; HOTP counters", "statement": "store adds exactly one record under a fresh label, with the URL of the token, the text of its key, its type and the confirmation code, and fails without touching the file when the label exists or the type is unknown. What was stored as TOTP is always refused by show, what was stored as GOOGLE is recognised. For HOTP, storing saves the counter after the confirmation code, and each show prints the next code and saves the counter after it, so successive shows give successive codes. show replaces the record of the label given and of the label in its URL, and no other; qr writes the named file and nothing else; failures leave the store alone.", "quantifier": "every label, secret, store, world and two-factor library", "why_tests_cant": "A test fixes finitely many inputs; the claim is about all of them.", "anchors": ["cmd/otpc/otpc.go: addSecret, showSecret, parseOTPKind"]}
{"id": "C63", "title": "passcrypt: archive round trip", "statement": "If packing succeeds, the output holds, under the passphrase typed and a fresh salt and nonce, the DER list of exactly the directories and regular files at and below the given paths, in walk order, with their cleaned paths, modes and compressed contents; nothing else changes. Unpacking it with the same passphrase into a fresh directory, for roots that do not climb or overlap and archives under 2 GiB, yields exactly a copy of every root: paths, contents, and modes lowered by the umask; armoured or not. Packing succeeds exactly if all names are UTF-8. Archives of 2 GiB or more cannot be read back. A directory whose names cannot be read is packed as if empty, without an error.", "quantifier": "every file tree, list of paths, passphrase, random stream, output and output directory", "why_tests_cant": "A test fixes finitely many inputs; the claim is about all of them.", "anchors": ["cmd/passcrypt/passcrypt.go: packFiles, unpackFiles, main"]}
{"id": "C64", "title": "passcrypt: unpacking can escape the output directory", "statement": "Unpacking creates missing directories on the way to the output directory and to the entries, and writes the files named by the entries; it changes nothing else, whenever it stops. Entries without .. components stay inside the output directory; an entry with at least as many leading .. as the output directory is deep is written below the root of the file system. If all entries fit the tree the result is exact, and otherwise unpacking fails. Extracting over a longer existing file leaves its tail. filepath.Clean and Join are the lexical normal forms.", "quantifier": "every archive, file tree, entry path and output directory", "why_tests_cant": "A test fixes finitely many inputs; the claim is about all of them.", "anchors": ["cmd/passcrypt/passcrypt.go: unpackFile, unpackFiles"]}
{"id": "C65", "title": "passcrypt: directory permissions", "statement": "dirPerm gives search permission to exactly the classes that have any permission, and changes nothing else, if and only if the mode has no execute bit; for all other modes the additions carry into neighbouring bits.", "quantifier": "every file mode", "why_tests_cant": "All 2^32 modes.", "anchors": ["cmd/passcrypt/passcrypt.go: dirPerm"]}
{"id": "C66", "title": "keysrv: requests are serialised and answered", "statement": "With any number of concurrent clients, each request is processed at most once against the keystore, the outcome is that of one sequential order of the requests which agrees with real time, each answered client receives the response to its own request, and at every moment all waiting requests can still be answered unless an audit runs for ever, which needs two labels for one key. The status and body each client sees are those its request calls for on the store at its place in that order, a request whose body cannot be read is refused and never processed, and four hours at least lie between the end of an audit and the request for the next.", "quantifier": "every interleaving of clients, dispatcher and audit runner", "why_tests_cant": "Scheduling.", "anchors": ["exp/keysrv/keysrv.go: keystoreDispatch, sendCommand, process"]}
{"id": "C67", "title": "keysrv: uploads and durability", "statement": "An upload never alters an existing key or the server's own key, and an accepted upload is served back as the same certificate; the keystore file is written only after ten minutes without any request, so if requests keep arriving more often uploads are never persisted; a completed write loads back as the store being served, and starting the server with the right passphrase restores it; over any number of processes started one after another with a passphrase that opens the same key, the file is always either one that cannot be loaded (and then never is again) or the store that results from a beginning of the commands each process dealt with, in order.", "quantifier": "every request history and timing", "why_tests_cant": "Timing and history.", "anchors": ["exp/keysrv/keysrv.go: keystoreDispatch, checkUpload, process"]}
{"id": "C68", "title": "fcrypt: key store writes and file formats", "statement": "A run of fcrypt changes no file but the one named for its output and, for import and remove (and for a check of a store that has no certificate of its own), the key store; on a working disk a run that fails changes nothing. Removal takes away exactly the named record, never the owner's key, and the written store loads again; an import adds exactly one record, which its certificate and the store's keys justify, and names the signer; an untrusted import adds a key only after showing its fingerprint and hearing yes, and then does add it; a check that succeeds means every key is trusted, and one with a key whose signer was removed never succeeds. An export of a label writes a certificate of exactly that key by the owner, which every store that has the owner's key endorsed can import; a command with too few arguments fails and touches nothing. Verify says OK exactly when the key under the label signed the message; sign/verify, encrypt/decrypt and sign-and-encrypt/decrypt round-trip through files with and without armour; what decrypt reports as signed is signed; a signed and encrypted message without armour is never decrypted. Not so: an end of input at the question of an untrusted import counts as success; a signed and encrypted message that could not be written counts as written; an interrupted write leaves no key store, wherever it was cut.", "quantifier": "every command, store and message", "why_tests_cant": "A test fixes finitely many inputs; the claim is about all of them.", "anchors": ["exp/fcrypt/fcrypt.go: main, encryptFile, decryptFile, signFile, verifyFile, cryptSignFile, removeKey"]}
{"id": "C69", "title": "secrets PEM export/import round trip", "statement": "Importing an exported store restores the store file byte for byte; import of non-PEM data or a wrong PEM type leaves the store file unchanged.", "quantifier": "every store file content (any bytes)", "why_tests_cant": "A test fixes finitely many inputs; the claim is about all of them.", "anchors": ["cmd/secrets/secrets.go: exportStore, importStore"]}
{"id": "C70", "title": "Loading user input line by line", "statement": "ReadLine returns the first line without surrounding white space; because every call makes a new buffered reader, with piped input everything already buffered beyond the first line is lost to later calls (up to the buffer size), so scripted dialogues do not see later lines.", "quantifier": "every input stream and every chunking of reads", "why_tests_cant": "Depends on read chunking by the OS.", "anchors": ["common/util/util.go: ReadLine"]}
{"id": "C71", "title": "Static passwords: what the stored hash accepts", "statement": "NewPasswordAuth succeeds exactly for passwords of at most 72 bytes with 16 random bytes available, using cost 14 whenever the requested cost is outside 4..31; ValidatePassword accepts the own password and every password with the same 72-byte bcrypt key material, and nothing else when the hash is injective: so password, zero byte, password is accepted for the password, and bytes after the 72nd are ignored, while two ordinary passwords shorter than 72 bytes without zero bytes are never confused.", "quantifier": "every password, every cost, every random source", "why_tests_cant": "Quantifies over all passwords and equivalence classes of bcrypt key material.", "anchors": ["common/auth/password.go: NewPasswordAuth, ValidatePassword"]}
{"id": "C72", "title": "The JSON reader accepts exactly RFC 8259 texts", "statement": "The reader under LoadKeyStore and UnmarshalSecretStore accepts a byte string exactly when it is a JSON text of RFC 8259 (white space, literals, numbers, strings with short, \\u and surrogate-pair escapes, arrays, objects), with stray bytes and lone surrogates read as U+FFFD as Go does, nested no more than 10000 levels deep, and yields the value that text denotes; each text denotes one value; printing a value and reading it gives it back, or an error if it is nested more deeply.", "quantifier": "all byte strings and all JSON values", "why_tests_cant": "The input space is all byte strings; a wrong escape or surrogate rule only shows on inputs nobody wrote down.", "anchors": ["common/store/secretstore.go: UnmarshalSecretStore", "common/store/keystore.go: LoadKeyStore"]}
{"id": "C73", "title": "The login example: who gets in, over any number of processes on one file", "statement": "Over any sequence of processes of the login example on one store file (any arguments, any typed UTF-8 lines, any way of ending, with a disk that works), the messages printed are a history of attempts and registrations in which each attempt is judged by the user on file then: strangers are refused, a TOTP user gets in exactly with a code of the current or the previous time step that is not the code last accepted, the accepted code is on file before success is reported, a password user gets in with the password and, if the hash is injective, only with its 72-byte key material; registration puts exactly the new user on file and prints the base32 key; a damaged store file and a missing or unknown command end with failure and change nothing. Violated as follows: names that are not UTF-8 and passwords with white space around them are registered and never accepted, a null user crashes the program, an interrupted write leaves a file no later process loads.", "quantifier": "every sequence of processes, every input, clock, random source and store file", "why_tests_cant": "Quantifies over unbounded sequences of processes and all inputs, including every cut of a write.", "anchors": ["common/auth/examples/login/login.go: main, login, register, regPassword, regTOTP, loadStore, writeStore", "common/auth/totp.go: ExportUserTOTP"]}
{"id": "C74", "title": "The exported TOTP URL: the user's app and the server agree", "statement": "For every configuration and label the URL that ExportQR draws is a key URI made of URI characters only, read in one way: the label (less one leading slash), the base32 text of the key, the number of digits unless six, and the provider; two URLs are equal only for equal key, digits, provider and label. An app that reads the URL of a SHA-1 configuration counting from the epoch by 30 seconds shows at every time exactly the configuration's code, and a code it shows is accepted then and during the next step unless it was the last one accepted. ExportUserTOTP and NewGoogleTOTP hand out exactly that key and URL. Not so: step, start and hash are not in the URL, so for another step or start the app's codes are rejected; a label with a leading slash gives the URL of the label without it.", "quantifier": "every configuration, label, time and random source", "why_tests_cant": "A test fixes finitely many labels, keys and times; escaping must be right for every byte string.", "anchors": ["common/auth/totp.go: generateURL, ExportQR, ExportKey, ExportUserTOTP, NewGoogleTOTP, ValidateTOTP"]}
{"id": "C75", "title": "Command lines: what the commands do with their options", "statement": "Every command line of secrets, journal, otpc, fcrypt, passcrypt, login, migrate-store, keysrv and secretscli is of exactly one kind: in order (options -name, -name=value, -name value with one or two dashes, then arguments), a request for help, or refused; it is read in one way. A line in order runs the command on the file named by the last -f, or the default in the home directory, in the mode of the last -i; help and refused lines touch no file and ask for nothing. secrets changes no file but that one, and only if an option that writes is on, or the file exported to; journal and otpc likewise. Options set once may come in any order. An option after the first argument is not an option: -s label -f other changes only the default store. -init comes before every other command. secretscli begins a session exactly if the line is in order, the timeout is at most twelve hours and the store opens. Durations without a decimal point are read exactly if their sum fits; but two amounts of 2^63 ns cancel unnoticed. A number with a decimal point is its whole part times the unit plus digits * (unit / 10^k) in doubles, cut to whole nanoseconds, for the k digits whose number is at most 2^63 (k at most 22; further digits are lost); so a fraction just under one unit may count as one.", "quantifier": "every command line, environment, file system and input", "why_tests_cant": "Command lines are arbitrary lists of byte strings; tests try a few.", "anchors": ["cmd/secrets/secrets.go: main", "cmd/journal/journal.go: main", "cmd/otpc/otpc.go: main", "cmd/passcrypt/passcrypt.go: main", "cmd/secretscli/secretscli.go: main", "cmd/migrate-store/migrate-store.go: main", "exp/fcrypt/fcrypt.go: main", "exp/keysrv/keysrv.go: main", "common/auth/examples/login/login.go: main"]}
{"id": "C76", "title": "Over the real primitives: what is written is what the standards say", "statement": "Defined as their standards define them (SHA-1, SHA-256, SHA-512, HMAC, PBKDF2, scrypt, XSalsa20, Poly1305, secretbox, and, over the curve's group, box and Ed25519), the primitives obey every law the other properties assume. Encrypt and EncryptFile write exactly salt, nonce, Poly1305 tag and the message under the XSalsa20 stream of the key, which for a file is scrypt with N=2^20, r=8, p=2, and Decrypt and DecryptFile accept exactly that, for every message whatever its length. Two messages of one length sealed from the same randomness show their difference. TOTP codes are RFC 4226's truncation of HMAC-SHA-1, session responses the challenge and its HMAC-SHA-256. Public-key messages are boxes under HSalsa20 of X25519, and so is the result of KeyExchange on both sides. Verify accepts exactly the signatures RFC 8032 calls valid with a reduced scalar, Sign gives one, and for a key, message and first half there is at most one second half.", "quantifier": "every curve with the group laws, every key, password, message, ciphertext, file and source of randomness", "why_tests_cant": "Tests check a few vectors; the laws and formats are about all byte strings.", "anchors": ["common/secret/crypto.go: Encrypt, Decrypt, DeriveKey, DeriveKeyStrength", "common/secret/crypto.go: EncryptFile, DecryptFile", "common/public/crypto.go: Encrypt, Decrypt, Sign, Verify, KeyExchange", "common/auth/totp.go: generateOTP", "common/auth/session.go: OTP"]}
{"id": "C77", "title": "secretscli: what the session shows", "statement": "list prints the number of the labels that contain one of the words given, and these labels in byte order, one per line when one is longer than the terminal is wide and in two padded columns otherwise; show and showhex print for each label in turn its secret, in hexadecimal for showhex, or that it was not found; rmeta prints time and all metadata of each label; help lists every command there is and knows no other; clear prints the escape sequence; none of these, nor a word that is no command, changes the session, and only a label whose record is nil makes one of them panic, after printing what comes before it. That a listing tells what the labels are is refuted: columns can run into one another.", "quantifier": "every store, every line, every terminal width, every map order", "why_tests_cant": "All stores, label sets, widths and non-UTF-8 labels; map iteration order is random.", "anchors": ["cmd/secretscli/commands.go: clearTerm, dumpKeys, dumpFmtKeys, listSecrets, showSecret, showSecretHex, readMeta", "cmd/secretscli/help.go: help, printCommands"]}
{"id": "C78", "title": "The readers of base64, base32, hexadecimal and PEM", "statement": "A text is read as base64, base32 or hexadecimal exactly when it is digits of the alphabet with the right padding, line breaks apart, and the bytes are then those whose bits the digits have, left-over bits being ignored; base32 also ignores junk after the padding that stays within eight characters. A PEM reader returns a type and contents only if a block of that type and contents starts at some line of the text, and it finds the first block whenever there is one, unless the block has nothing in it and a colon in its type, or headers and no body.", "quantifier": "every byte string", "why_tests_cant": "Round trips only try texts the encoder writes; the claim is about every text, and about what is refused.", "anchors": ["common/store/keystore.go: ParseVerifiedKey, ImportVerifiedKey", "common/public/crypto.go: ImportPrivate", "common/auth/session.go: ValidateSession", "common/auth/examples/login/login.go: regYubiKey", "cmd/otpc/otpc.go: addSecret", "cmd/secrets/secrets.go: importStore", "cmd/passcrypt/passcrypt.go: main", "exp/fcrypt/fcrypt.go: main"]}
{"id": "C79", "title": "What encoding/json makes of a store file", "statement": "For the secret store, the key store and the login example's users: a JSON document becomes a store exactly by these rules. Every member in turn sets the field whose name it spells, whatever the case, later ones overriding earlier ones and unknown names being ignored; null leaves numbers, strings and structs as they were and makes pointers, maps and byte strings nil; integers need a literal without fraction or exponent within 64 bits; byte strings are base64 or arrays of numbers up to 255; anything else is an error.", "quantifier": "every JSON document", "why_tests_cant": "All documents, including repeated and respelt members and values of wrong kinds.", "anchors": ["common/store/secretstore.go: UnmarshalSecretStore, SecretStore, SecretRecord", "common/store/keystore.go: LoadKeyStore, KeyStore, PublicKeyRecord", "common/auth/examples/login/login.go: loadStore"]}
{"id": "C80", "title": "Curve25519 and Ed25519, with nothing assumed", "statement": "2^255 - 19 and the order of Ed25519's base point are prime. The points are exactly the solutions of the curve's equation; the sum of two is the pair the addition formulas of RFC 8032 determine, they form a commutative group, and the multiples of the base point that vanish are those by multiples of the order. The encoding of a point is 32 bytes, y with the parity of x, and a string decodes to a point exactly if it is 32 bytes long and agrees with it modulo the prime in y and, unless x is 0, in the parity. X25519 of a scalar and the u-coordinate of a point (other than 0) is the u-coordinate of the multiple of the point by the clamped scalar; hence two parties compute the same secret. So every law the other properties assume of the primitives holds of the real ones: encryption to a public key is undone by the private key, what is signed verifies, and key exchange agrees, with no hypothesis left.", "quantifier": "every scalar, byte string and point of the curve; every key, message and random source", "why_tests_cant": "Test vectors try a handful of the 2^255 points; associativity, completeness of the addition formulas and correctness of the ladder are statements about all of them, and primality cannot be tested at all.", "anchors": ["common/public/crypto.go: GenerateKey, Encrypt, Decrypt, Sign, Verify, KeyExchange"]}
{"id": "C81", "title": "A YubiKey against the code that reads its one-time passwords", "statement": "AES-128 as FIPS 197 defines it (field inversion, affine map, rows, columns, key schedule) and the table-driven decryption undo each other on every block under every key. The modhex reader accepts exactly what the key types, and the checksum test passes exactly if the last two bytes are the complement of the ISO 13239 remainder of the others. So the one-time passwords that the code takes for a given key, public identity and session are exactly the texts a YubiKey with that secret types in that session, and two presses never type the same. NewYubiKey enrols the key at the session of the press; ValidateYubiKey accepts exactly the presses of the stored or a later session other than the last text, whatever private identity they carry; presses of an older session are refused. A key used in order is let in for ever; whoever recorded two presses of the session in force can alternate them for ever.", "quantifier": "every key, public identity, press (identity, session, time stamp, use, random), and sequence of attempts", "why_tests_cant": "The tests replay a dozen recorded passwords of one key; that nothing else is accepted is a statement about all 2^128 blocks, and that no press is misread about all keys.", "anchors": ["common/auth/yubikey.go: NewYubiKey, ValidateYubiKey", "common/auth/yubikey_test.go: the recorded passwords"]}
{"id": "C82", "title": "The texts written are the canonical ones", "statement": "Base64 and lower-case hexadecimal are written as RFC 4648 says, with zero bits in the last digit and padding to four: a text is what is written for a byte string exactly if it meets these conditions, and they determine it. A PEM block is its first line, at most one header and an empty line, the base64 text in lines of 64 characters, and its last line. ExportPrivate gives the block of type CRYPTUTIL PRIVATE KEY with the header Version: 1.1.0 around what LockKey gives, and succeeds exactly if that does.", "quantifier": "every byte string, block type, header, key, passphrase and random source", "why_tests_cant": "Round-trip tests pass with any self-consistent encoding; that other programs can read the text needs its exact form for every length.", "anchors": ["common/public/crypto.go: ExportPrivate", "common/auth/session.go: OTP, NewSession"]}
{"id": "C83", "title": "Reading, writing and wiping", "statement": "util.ReadFile of \"-\" gives what arrives on standard input until a read gives nothing and leaves the rest; of another path, the file and nothing else changes. WriteFile to \"-\" appends to the output; to another path it replaces the file, or leaves it, or leaves a prefix, and reports success only for the first. Exists holds exactly for the files there. A decoder's Length is what is left. Zero overwrites an authenticator's or a session's secret by as many zeros and keeps type, label and last value. A wiped TOTP or YubiKey authenticator refuses everything; a wiped session authenticator accepts exactly the response computed with the all-zero key, which anyone can compute.", "quantifier": "every file system, input, path, fate of a write, authenticator, password, time and random source", "why_tests_cant": "No test uses an authenticator after Zero, and the accepted response has to be sought: random ones are refused.", "anchors": ["common/util/util.go: ReadFile, WriteFile, Exists", "common/auth/authenticator.go: Zero", "common/auth/session.go: Zero, ValidateSession", "common/tlv/tlv.go: Length"]}
{"id": "C84", "title": "bcrypt passwords", "statement": "The hash of a password authenticator is bcrypt as published on Blowfish as published: the text NewPassword makes is version 2a, two digits of cost, the salt and 23 bytes of hash in bcrypt's alphabet, 60 characters. ValidatePassword accepts exactly the texts of that shape whose hash is that of the password, where the major version may be smaller, the minor version and the separators are not looked at, the cost may have a plus sign, line breaks in the salt are skipped and what follows the hash is ignored. Passwords with the same 72 bytes of key material are the same to every text. A wiped password authenticator refuses every password.", "quantifier": "every authenticator, stored text, password, cost, salt and random source", "why_tests_cant": "The tests make one hash and compare it with one right and one wrong password; stored texts other than those made, and the agreement with the published algorithm for every input, are out of reach.", "anchors": ["common/auth/password.go: NewPassword, ValidatePassword", "common/auth/authenticator.go: Zero", "golang.org/x/crypto/bcrypt, blowfish"]}
{"id": "C85", "title": "What passcrypt reads as an archive", "statement": "The decrypted bytes are an archive exactly if they start with a DER sequence, shorter than two gigabytes, of sequences that start with a string, an integer of 64 bits and an octet string; what follows these in an entry, and what follows the archive, is ignored. The string may be of any of the seven types encoding/asn1 knows, and the text each denotes is determined: BMP strings are UTF-16 with stray surrogates replaced and one final zero unit dropped. A text has one reading; what packing writes is among the texts read. Paths that are not UTF-8 are read although they cannot be written.", "quantifier": "every byte string, list of entries, file system, passphrase and path", "why_tests_cant": "passcrypt has no tests; the reader's leniency concerns texts the packer never writes, of which there are infinitely many.", "anchors": ["cmd/passcrypt/passcrypt.go: unpackFiles, main", "encoding/asn1"]}
{"id": "C86", "title": "otpc's endless displays", "statement": "otpc keeps running exactly for records whose type (or whose URL, if no type is stored) is TOTP or Google. For a time-based token printTOTP prints only codes of the clock reading just before, and whenever it waits, one second at a time, the code on the screen is that of its latest reading; a further line appears only after a reading whose code differs from the last line. printGTOTP first prints the current code and the number of seconds, 1 to 30, until the next half minute; after that it prints only after a reading on second 0 or 30, codes at least half a minute apart. If the process is never late it shows at every moment the code of that moment. One second of delay at each reading is enough for it never to show another code (refuted as a general guarantee). A counter-based token whose record says TOTP spends two codes a second and records none.", "quantifier": "for all token libraries, stores, tokens, zone offsets, sequences of clock readings and numbers of rounds of the loops", "why_tests_cant": "The functions never return and depend on when the clock is read; a test sees one schedule of a few seconds, and the stale display needs a particular drift that persists.", "anchors": ["cmd/otpc/otpc.go:284-301", "cmd/otpc/otpc.go:303-314", "cmd/otpc/otpc.go:366-400"]}
{"id": "C87", "title": "The plaintext file journal edits", "statement": "While the editor runs, the entry lies in the clear in a temporary file, and nowhere else. However the command ends (success, error or panic) that file is gone if the first of the two removals can be done; in one session it remains exactly if both fail and the editor left it. Other files are not touched, at any moment a kill may hit, unless by the editor. The result is what the editor left, if it ended with success. The warning is printed exactly if the first removal fails, so also about files that are not there. The editor is run with the blank-separated words of its name and the file as the last argument. With a fresh file and a well-behaved editor the run equals that of C59 in all files and output. Refuted: a killed process leaves the entry in the clear; a failed write of the temporary file is not noticed, and editing then replaces the entry by what was written of it.", "quantifier": "every command, store, file system, editor (any function of command line and files), fate of the write, the read and the two removals", "why_tests_cant": "journal has no tests; the guarantee is about all ways to end, disk failures and kills between any two steps.", "anchors": ["cmd/journal/journal.go:202-242", "cmd/journal/journal.go:244-294", "cmd/journal/journal.go:187-200"]}
{"id": "C88", "title": "The times the commands show", "statement": "Where journal, secrets and fcrypt show a time (\"2006-01-2 15:04 MST\") and where secretscli does (\"2006-01-02 15:04:05 MST\"), the text is exactly: year, month and day of the Gregorian calendar, hour, minute (and second) of that instant in the zone in use, each number with the stated width, and the zone's abbreviation, or its offset where there is none. Two texts of secretscli are equal only if zone name and time on the zone's clocks are; to the minute exactly if those agree to the minute. In one zone and the years 0 to 9999, secretscli's texts sort as the times do. Refuted: times before about the year -292277022399, which a file can hold, are shown out by 584 thousand million years; one text can stand for two times where one abbreviation has stood for two offsets; the texts of journal, secrets and fcrypt do not sort as the times do, for the day has no leading zero; nor do those of secretscli where clocks are put back.", "quantifier": "every 64-bit time in the range stated, every zone (any function of the instant to abbreviation and offset), every store", "why_tests_cant": "No test formats a time; the calendar has a period of 400 years and the range is 584 thousand million; the failures need extreme times or particular zones.", "anchors": ["cmd/journal/journal.go:109", "cmd/journal/journal.go:131-149", "cmd/secrets/secrets.go:119", "cmd/secretscli/commands.go:178-204", "exp/fcrypt/fcrypt.go:462-491"]}
{"id": "C89", "title": "What secrets and fcrypt print about a store", "statement": "secrets -l prints the time of the store, the number of entries and all labels in order, or \"no passwords\"; the text depends on nothing but the set of labels and the time of the store, so it reveals no secret, no metadata and no entry's time. secrets with a label prints the secret; with -clip the secret and nothing else, whatever -m says; with -m also the time and each entry of the metadata once. These runs end as those of C54 and differ from them in nothing but the text. fcrypt -k prints the time of the store, the number of keys, the owner's fingerprint, and for each key its label, times, fingerprint and signer: \"self\", the label of a key of the store that is the signer's, or \"<unknown>\" if there is none; it needs no passphrase. Refuted: the labels cannot always be read from the listing, for a label may hold line ends; \"<unknown>\" may be the name of a known key.", "quantifier": "every store, label, option, zone, order in which Go walks its maps", "why_tests_cant": "The commands have no tests; that a text depends on nothing else is a statement about pairs of all stores.", "anchors": ["cmd/secrets/secrets.go:121-142", "cmd/secrets/secrets.go:212-233", "exp/fcrypt/fcrypt.go:464-491"]}
{"id": "C90", "title": "What passcrypt -v prints", "statement": "With -v, passcrypt ends as without it and leaves the same files, and without -v nothing is added. While packing it prints one line for each entry of the archive, \"Pack directory\" or \"Pack file\" and the entry's name, in the archive's order; the entry for a path of the command line is named as it was typed, all others as in the archive. If packing fails, such lines and nothing else have been printed. While unpacking it prints \"Unpack\" and the name for each entry up to and with the one that fails, each folder followed by the line \"Directory:\" that is printed in any case. -l prints the same with -v. Refuted: the lines do not say what was unpacked, for one entry whose name holds a line end prints what two entries print.", "quantifier": "every command line, file tree, archive, passphrase, sequence of failing system calls", "why_tests_cant": "The command has no tests; that an option changes nothing else is a statement about pairs of all runs.", "anchors": ["cmd/passcrypt/passcrypt.go:104-149", "cmd/passcrypt/passcrypt.go:151-199", "cmd/passcrypt/passcrypt.go:201-339"]}
{"id": "C91", "title": "The pages of the key server", "statement": "A request reaches a handler of keysrv exactly when its decoded path is /public/, or /public/, /fingerprint/ or /upload/ followed by a label that is one path component other than \".\" and \"..\"; the handler then gets that label, whatever the method. A path that is not in its simplest form is answered by a redirect to that form (where a walk along the path leads, with a final slash if it had one), and no redirect leads to another. Every other path is not found. So the keys that can be asked for are those with such a label, an uploaded key is among them, and no command is ever sent without a label. Refuted: keys stored under a label with a slash or \".\" cannot be asked for; the server's own fingerprint, which getFingerprint gives if there is no label, has no page.", "quantifier": "every path and body of a request, every label", "why_tests_cant": "The server has no tests, and the claim is about all byte strings a client may send as a path.", "anchors": ["exp/keysrv/keysrv.go:312-315", "exp/keysrv/keysrv.go:34-98"]}
