(** C85: which byte strings passcrypt reads as an archive. *)
From Verif Require Import ArchiveClaims PasscryptClaims PasscryptDerFacts BytesFacts.
Local Open Scope Z_scope.

(** The string types, and the text each denotes. *)
Theorem C85_strings : forall tag c s, string_of tag c = Some s <-> string_text tag c s.
Proof. exact string_exact. Qed.
Print Assumptions C85_strings.

Theorem C85_archive_exactly : forall s es, parse_files s = Some es <-> archive_text s es.
Proof. exact archive_exact. Qed.
Print Assumptions C85_archive_exactly.

(** Listing succeeds exactly on such a file under the passphrase typed. *)
Theorem C85_listed_exactly :
  forall (C : Crypto) (L : CryptoLaws) arch w b w', ready w -> pc_list arch w = (b, w') -> qFate w = [] ->
    b = true <-> reaches w arch /\ exists m d c pass pws s es,
      qFs w !! loc w arch = Some (Reg m d) /\ enclosed d c /\ qPw w = Some pass :: pws /\ genuine_file pass s c /\ archive_text s es.
Proof.
  intros C L arch w b w' R H F. destruct (list_exact arch w b w' R H) as (_ & _ & _ & X). rewrite (X F). clear X. unfold holds_entries. split.
  - intros (es & Re & m & d & c & pass & pws & s & A & B & D & E & P). split; [exact Re|]. exists m, d, c, pass, pws, s, es. rewrite <- archive_exact. auto.
  - intros (Re & m & d & c & pass & pws & s & es & A & B & D & E & P). exists es. split; [exact Re|]. exists m, d, c, pass, pws, s. rewrite archive_exact. auto 6.
Qed.
Print Assumptions C85_listed_exactly.

(** What is written is read, whatever follows it. *)
Theorem C85_written_read :
  forall es s junk, Forall go_file es -> files_der es s -> zlen s < 2 ^ 31 -> archive_text (s ++ junk) es.
Proof. exact files_der_archive. Qed.
Print Assumptions C85_written_read.

(** A text has one reading. *)
Theorem C85_one_reading : forall s es es', archive_text s es -> archive_text s es' -> es = es'.
Proof. intros s es es' H H'. apply archive_exact in H, H'. congruence. Qed.
Print Assumptions C85_one_reading.

(** Paths need not be UTF-8, although such a path is never written; and entries may be
    followed by anything. *)
Definition C85_entry (path : bytes) (extra : bytes) : bytes :=
  der_element x30 (der_element x14 path ++ der_int 420 ++ der_octets [] ++ extra).
Theorem C85_utf8_paths_refuted :
  archive_text (der_element x30 (C85_entry [xff] [])) [File [xff] 420 []] /\ ~ utf8_text [xff] /\ der_files [File [xff] 420 []] = None.
Proof.
  split; [apply archive_exact; vm_compute; reflexivity|]. split; [|vm_compute; reflexivity].
  intros U. apply utf8_valid_iff in U. vm_compute in U. discriminate.
Qed.
Print Assumptions C85_utf8_paths_refuted.
Theorem C85_one_text_refuted :
  forall extra, zlen extra < 2 ^ 16 -> archive_text (der_element x30 (C85_entry (bs "a") extra)) [File (bs "a") 420 []].
Proof.
  intros extra B. pose proof (zlen_nonneg extra). assert (zlen (der_element x14 (bs "a")) = 3) as L1 by reflexivity. assert (zlen (der_int 420) = 4) as L2 by reflexivity. assert (zlen (der_octets []) = 2) as L3 by reflexivity.
  assert (zlen (der_element x14 (bs "a") ++ der_int 420 ++ der_octets [] ++ extra) < 2 ^ 17) as B1 by (rewrite !zlen_app, L1, L2, L3; lia).
  assert (zlen (C85_entry (bs "a") extra) < 2 ^ 31) as B2.
  { unfold C85_entry, der_element at 1. unfold zlen in *. cbn [length]. rewrite app_length. assert (forall n, (length (der_length n) <= 9)%nat) as Ld.
    { intros n. unfold der_length. case_decide; [|cbn; lia]. cbn [length]. rewrite length_be. enough (forall f i, (length_length f i <= S f)%nat) as X by (specialize (X 7%nat n); lia).
      induction f as [|f IH]; intros i; cbn [length_length]; [lia|]. case_decide; [specialize (IH (i / 256)); lia|lia]. }
    match goal with |- context [der_length ?n] => specialize (Ld n) end. lia. }
  exists [C85_entry (bs "a") extra], (der_element x30 (C85_entry (bs "a") extra)), []. cbn [concat]. rewrite !app_nil_r.
  split; [|split; [exact B2|split; [apply der_element_is; lia|reflexivity]]].
  constructor; [|constructor]. exists x14, (bs "a"), (der_element x14 (bs "a")), (be 2 420), (der_int 420), (der_octets []), extra. cbn [fPath fMode fData].
  split; [apply st_t61|]. split; [apply der_element_is; reflexivity|]. split; [unfold int64; lia|]. split; [exists 1%nat; split; [reflexivity|split; [cbn; lia|intros _; cbn; lia]]|].
  split; [apply der_element_is; reflexivity|]. split; [apply der_element_is; reflexivity|]. apply der_element_is. lia.
Qed.
Print Assumptions C85_one_text_refuted.

Example C85_nonvacuous :
  string_text x1e [x00; x41; xd8; x3d; xde; x00; xd8; x00; x00; x00] (bs "A" ++ [xf0; x9f; x98; x80] ++ [xef; xbf; xbd]) /\
  string_text x13 (bs "a*b") (bs "a*b") /\ ~ (exists s, string_text x13 (bs "a_b") s) /\
  archive_text [x30; x00; x07] [] /\ ~ (exists es, archive_text [x30; x80; x00; x00] es).
Proof.
  split; [apply string_exact; vm_compute; reflexivity|]. split; [apply string_exact; vm_compute; reflexivity|].
  split; [intros (s & H); apply string_exact in H; vm_compute in H; discriminate|]. split; [apply archive_exact; vm_compute; reflexivity|].
  intros (es & H). apply archive_exact in H. vm_compute in H. discriminate.
Qed.
