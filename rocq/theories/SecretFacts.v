(** Lemmas about the models of common/util and common/secret. *)
From Verif Require Export SpecSecret BytesFacts.
Local Open Scope Z_scope.

Lemma read_full_some n g p g' :
  read_full n g = (Some p, g') <-> length p = n /\ delivers g p g'.
Proof.
  unfold delivers. revert g p; induction n as [|n IH]; intros g p; cbn.
  - split.
    + intros [= <- <-]. auto.
    + intros [Hl ->]. destruct p; [|discriminate]. reflexivity.
  - destruct g as [|[b|] g]; cbn.
    + split; [discriminate|]. intros [Hl E]. destruct p; [discriminate|]. discriminate.
    + destruct (read_full n g) as [[l|] g''] eqn:E.
      * split.
        -- intros [= <- <-]. apply IH in E as [Hl ->]. cbn. auto.
        -- intros [Hl Eg]. destruct p as [|x p]; [discriminate|]. cbn in *.
           injection Eg as -> ->. assert (read_full n (map Some p ++ g') = (Some p, g')) as R by (apply IH; split; auto; lia).
           rewrite R in E. injection E as -> ->. reflexivity.
      * split; [discriminate|]. intros [Hl Eg]. destruct p as [|x p]; [discriminate|]. cbn in *.
        injection Eg as -> ->. assert (read_full n (map Some p ++ g') = (Some p, g')) as R by (apply IH; split; auto; lia).
        rewrite R in E. discriminate.
    + split; [discriminate|]. intros [Hl E]. destruct p; [discriminate|]. discriminate.
Qed.

Lemma read_full_none n g :
  (exists g', read_full n g = (None, g')) <-> starved g n.
Proof.
  unfold starved. split.
  - intros [g' E] p g'' Hl D. assert (read_full n g = (Some p, g'')) as R by (apply read_full_some; auto).
    congruence.
  - intros H. destruct (read_full n g) as [[p|] g'] eqn:E; [|eauto].
    apply read_full_some in E as [Hl D]. destruct (H p g' Hl D).
Qed.

Lemma rand_delivers n g p g' : length p = n -> delivers g p g' -> rand n g = (Some p, g').
Proof. intros. apply read_full_some. auto. Qed.
Lemma rand_starved n g : starved g n -> exists g', rand n g = (None, g').
Proof. apply read_full_none. Qed.

Lemma rand_bytes_exact size g :
  (size < 0 -> rand_bytes size g = Panic) /\
  (forall p g', rand_bytes size g = Ret (Some p, g') <-> zlen p = size /\ delivers g p g') /\
  (0 <= size -> ((exists g', rand_bytes size g = Ret (None, g')) <-> starved g (Z.to_nat size))).
Proof.
  unfold rand_bytes. repeat split.
  - intros. rewrite decide_True; auto.
  - case_decide; [discriminate|]. injection H as H. apply read_full_some in H as [Hl _]. unfold zlen. lia.
  - case_decide; [discriminate|]. injection H as H. apply read_full_some in H as [_ D]. exact D.
  - intros [Hz D]. rewrite decide_False by (unfold zlen in Hz; lia).
    f_equal. apply read_full_some. split; auto. unfold zlen in Hz. lia.
  - intros [g' E]. rewrite decide_False in E by lia. apply read_full_none. injection E as E. eauto.
  - intros S. rewrite decide_False by lia. apply read_full_none in S as [g' E]. exists g'. congruence.
Qed.

Lemma new_nonce_exact g :
  (forall p g', new_nonce g = (Some p, g') <-> length p = 24%nat /\ delivers g p g') /\
  ((exists g', new_nonce g = (None, g')) <-> starved g 24).
Proof.
  unfold new_nonce, rand. split.
  - intros p g'. destruct (read_full NonceSize g) as [[q|] h] eqn:E.
    + pose proof E as E'. apply read_full_some in E as [Hl D]. rewrite copy_into_id by assumption.
      rewrite <- read_full_some. unfold NonceSize in *. rewrite E'. split; congruence.
    + rewrite <- read_full_some. unfold NonceSize in *. rewrite E. split; discriminate.
  - rewrite <- read_full_none. unfold NonceSize. destruct (read_full 24 g) as [[q|] h].
    + split; intros [? ?]; discriminate.
    + split; intros [? ?]; eauto.
Qed.

Lemma generate_key_exact g :
  (forall k g', generate_key g = (Some k, g') <-> length k = 32%nat /\ delivers g k g') /\
  ((exists g', generate_key g = (None, g')) <-> starved g 32).
Proof.
  unfold generate_key, rand. split.
  - intros p g'. destruct (read_full KeySize g) as [[q|] h] eqn:E.
    + pose proof E as E'. apply read_full_some in E as [Hl D]. rewrite decide_False by lia.
      rewrite copy_into_id by assumption.
      rewrite <- read_full_some. unfold KeySize in *. rewrite E'. split; congruence.
    + rewrite <- read_full_some. unfold KeySize in *. rewrite E. split; discriminate.
  - rewrite <- read_full_none. unfold KeySize. destruct (read_full 32 g) as [[q|] h] eqn:E.
    + apply read_full_some in E as [Hl D]. rewrite decide_False by lia.
      split; intros [? ?]; discriminate.
    + split; intros [? ?]; eauto.
Qed.

Lemma new_nonce_delivers g p g' : length p = 24%nat -> delivers g p g' -> new_nonce g = (Some p, g').
Proof. intros. apply new_nonce_exact. auto. Qed.
Lemma new_nonce_starved g : starved g 24 -> exists g', new_nonce g = (None, g').
Proof. apply new_nonce_exact. Qed.

Lemma delivers_or_starved g n : (exists p g', length p = n /\ delivers g p g') \/ starved g n.
Proof.
  destruct (read_full n g) as [[p|] g'] eqn:E.
  - left. apply read_full_some in E. eauto.
  - right. apply read_full_none. eauto.
Qed.

Lemma zero_zeros b : zero b = zeros (length b).
Proof.
  unfold zero, zeros. induction b as [|x b IH]; cbn; [reflexivity|].
  rewrite IH. f_equal. unfold bxor. rewrite Z.lxor_nilpotent. reflexivity.
Qed.

(** ** Key derivation *)
Section WithCrypto.
Context `{C : Crypto} {L : CryptoLaws}.

Lemma scrypt_ok_standard : scrypt_params_ok (2 ^ 20) 8 2 = true.
Proof. reflexivity. Qed.
Lemma scrypt_ok_interactive : scrypt_params_ok (2 ^ 14) 8 1 = true.
Proof. reflexivity. Qed.
Lemma scrypt_ok_legacy : scrypt_params_ok (2 ^ 15) 8 4 = true.
Proof. reflexivity. Qed.

Lemma derive_standard pass salt :
  derive_key_strength pass salt ScryptStandard = Some (scrypt_raw pass salt (2 ^ 20) 8 2).
Proof.
  unfold derive_key_strength, scrypt_mode. rewrite decide_True by reflexivity. cbn [sN sr sp].
  unfold scrypt_key. change 1048576 with (2 ^ 20). rewrite scrypt_ok_standard.
  rewrite copy_into_id by apply scrypt_length. reflexivity.
Qed.
Lemma derive_interactive pass salt :
  derive_key_strength pass salt ScryptInteractive = Some (scrypt_raw pass salt (2 ^ 14) 8 1).
Proof.
  unfold derive_key_strength, scrypt_mode. rewrite decide_False by discriminate.
  rewrite decide_True by reflexivity. cbn [sN sr sp].
  unfold scrypt_key. change 16384 with (2 ^ 14). rewrite scrypt_ok_interactive.
  rewrite copy_into_id by apply scrypt_length. reflexivity.
Qed.
Lemma derive_unknown pass salt m :
  m <> ScryptStandard -> m <> ScryptInteractive -> derive_key_strength pass salt m = None.
Proof.
  intros. unfold derive_key_strength, scrypt_mode. rewrite !decide_False by assumption. reflexivity.
Qed.
Lemma derive_key_is pass salt : derive_key pass salt = Some (scrypt_raw pass salt (2 ^ 20) 8 2).
Proof. apply derive_standard. Qed.
Lemma legacy_derive_key_is pass salt : legacy_derive_key pass salt = Some (scrypt_raw pass salt (2 ^ 15) 8 4).
Proof.
  unfold legacy_derive_key, scrypt_key. change 32768 with (2 ^ 15). rewrite scrypt_ok_legacy.
  rewrite copy_into_id by apply scrypt_length. reflexivity.
Qed.

Lemma derive_exact pass salt m :
  (m = 0 -> derive_key_strength pass salt m = Some (scrypt_raw pass salt (2 ^ 20) 8 2)) /\
  (m = 1 -> derive_key_strength pass salt m = Some (scrypt_raw pass salt (2 ^ 14) 8 1)) /\
  (m <> 0 -> m <> 1 -> derive_key_strength pass salt m = None) /\
  (forall k, derive_key_strength pass salt m = Some k -> length k = 32%nat) /\
  derive_key pass salt = derive_key_strength pass salt 0.
Proof.
  repeat split.
  - intros ->. apply derive_standard.
  - intros ->. apply derive_interactive.
  - apply derive_unknown.
  - intros k. unfold derive_key_strength. destruct (scrypt_key _ _ _ _ _); [|discriminate].
    intros [= <-]. apply length_copy_into.
Qed.

(** ** Encrypt / Decrypt *)
Lemma encrypt_delivers k msg g nonce g' :
  length nonce = 24%nat -> delivers g nonce g' ->
  encrypt (Some k) msg g = Ret (Some (nonce ++ sbox_seal k nonce msg), g').
Proof.
  intros Hl D. unfold encrypt. rewrite (new_nonce_delivers _ _ _ Hl D).
  rewrite copy_into_id by assumption. reflexivity.
Qed.
Lemma encrypt_starved k msg g : starved g 24 -> exists g', encrypt k msg g = Ret (None, g').
Proof. intros [g' E]%new_nonce_starved. unfold encrypt. rewrite E. eauto. Qed.

Lemma encrypt_inv k msg g r g' :
  encrypt (Some k) msg g = Ret (r, g') ->
  (r = None /\ starved g 24) \/
  exists nonce, length nonce = 24%nat /\ delivers g nonce g' /\ r = Some (nonce ++ sbox_seal k nonce msg).
Proof.
  destruct (delivers_or_starved g 24) as [(p & h & Hl & D)|S].
  - rewrite (encrypt_delivers _ _ _ _ _ Hl D). intros [= <- <-]. right. eauto.
  - destruct (encrypt_starved (Some k) msg g S) as [h ->]. intros [= <- <-]. auto.
Qed.

Lemma decrypt_exact k c m :
  decrypt (Some k) c = Ret (Some m) <-> exists nonce, sealed_with k nonce m c.
Proof.
  unfold decrypt, sealed_with, nonceSize. split.
  - case_decide as H1; [discriminate|]. cbn zeta.
    case_decide as H2; [discriminate|]. intros [= E]. apply sbox_exact in E.
    exists (take 24 c). split; [rewrite take_length; lia|].
    unfold copy_into in E. replace (24 - length c)%nat with 0%nat in E by lia.
    cbn [zeros replicate] in E. rewrite app_nil_r in E. rewrite <- E.
    symmetry. apply take_drop.
  - intros (nonce & Hl & ->). assert (length (nonce ++ sbox_seal k nonce m) = 40 + length m)%nat as HL
      by (rewrite app_length, sbox_length; lia).
    rewrite decide_False by lia. cbn zeta.
    rewrite drop_app_alt by auto. rewrite decide_False by (rewrite sbox_length; lia).
    f_equal. apply sbox_exact. f_equal.
    unfold copy_into. rewrite take_app_alt by auto.
    replace (24 - length (nonce ++ sbox_seal k nonce m))%nat with 0%nat by lia.
    symmetry. apply app_nil_r.
Qed.

Lemma decrypt_total k c : exists r, decrypt (Some k) c = Ret r.
Proof. unfold decrypt. repeat (case_decide; [eauto|]); eauto. Qed.

Lemma sealed_length k nonce m c : sealed_with k nonce m c -> length c = (40 + length m)%nat.
Proof. intros [Hl ->]. rewrite app_length, sbox_length. lia. Qed.

Lemma sbox_seal_inj k n m m' : sbox_seal k n m = sbox_seal k n m' -> m = m'.
Proof.
  intros E. assert (sbox_open k n (sbox_seal k n m) = Some m) as A by (apply sbox_exact; auto).
  assert (sbox_open k n (sbox_seal k n m) = Some m') as B by (apply sbox_exact; auto). congruence.
Qed.

Lemma sealed_unique k nonce nonce' m m' c :
  sealed_with k nonce m c -> sealed_with k nonce' m' c -> nonce = nonce' /\ m = m'.
Proof.
  intros [H1 ->] [H2 E]. apply app_inj_1 in E as [-> E]; [|congruence].
  apply sbox_seal_inj in E. auto.
Qed.

Lemma encrypt_roundtrip k msg g :
  (forall nonce g', length nonce = 24%nat -> delivers g nonce g' ->
     exists c, encrypt (Some k) msg g = Ret (Some c, g') /\ decrypt (Some k) c = Ret (Some msg) /\
               sealed_with k nonce msg c /\ length c = (length msg + 40)%nat) /\
  (starved g 24 -> exists g', encrypt (Some k) msg g = Ret (None, g')).
Proof.
  split.
  - intros nonce g' Hl D. eexists. split; [apply encrypt_delivers; eauto|].
    assert (sealed_with k nonce msg (nonce ++ sbox_seal k nonce msg)) as S by (split; auto).
    split; [apply decrypt_exact; eauto|]. split; auto.
    apply sealed_length in S. lia.
  - apply encrypt_starved.
Qed.

Lemma decrypt_rejects k c :
  (length c < 40)%nat \/ (forall nonce m, ~ sealed_with k nonce m c) <-> decrypt (Some k) c = Ret None.
Proof.
  split.
  - intros H. destruct (decrypt_total k c) as [[m|] E]; auto.
    apply decrypt_exact in E as [nonce S]. destruct H as [H|H].
    + apply sealed_length in S. lia.
    + destruct (H _ _ S).
  - intros E. right. intros nonce m S.
    assert (decrypt (Some k) c = Ret (Some m)) by (apply decrypt_exact; eauto). congruence.
Qed.

Lemma decrypt_tamper k nonce m c c' :
  sealed_with k nonce m c -> take 24 c' = nonce -> c' <> c -> decrypt (Some k) c' <> Ret (Some m).
Proof.
  intros [Hl ->] Hn Hc E. apply decrypt_exact in E as (n' & Hl' & ->).
  rewrite take_app_alt in Hn by auto. subst n'. congruence.
Qed.

(** ** Files *)
Lemma decrypt_file_exact f name pass m :
  decrypt_file f name pass = Ret (inr m) <->
  exists data, f !! name = Some data /\ genuine_file pass m data.
Proof.
  unfold decrypt_file, read_file, genuine_file, file_format. split.
  - destruct (f !! name) as [data|]; [|discriminate]. case_decide as H; [discriminate|]. cbn zeta.
    rewrite derive_key_is. destruct (decrypt _ _) as [[r|]|] eqn:E; cbn; try discriminate.
    intros [= <-]. apply decrypt_exact in E as [nonce S].
    exists data. split; auto. exists (take SaltSize data), nonce.
    split; [rewrite take_length; unfold SaltSize in *; lia|]. eexists. split; [exact S|].
    symmetry; apply take_drop.
  - intros (data & -> & salt & nonce & Hl & c & S & ->).
    rewrite decide_False by (rewrite app_length; unfold SaltSize; lia). cbn zeta.
    unfold SaltSize. rewrite take_app_alt, drop_app_alt by auto. rewrite derive_key_is.
    assert (decrypt (Some (scrypt_raw pass salt (2 ^ 20) 8 2)) c = Ret (Some m)) as -> by (apply decrypt_exact; eauto).
    reflexivity.
Qed.

Lemma decrypt_file_panics f name pass :
  decrypt_file f name pass = Panic <-> exists data, f !! name = Some data /\ (length data < 32)%nat.
Proof.
  unfold decrypt_file, read_file. split.
  - destruct (f !! name) as [data|]; [|discriminate]. case_decide as H; [eauto|]. cbn zeta.
    rewrite derive_key_is. destruct (decrypt_total (scrypt_raw pass (take SaltSize data) (2 ^ 20) 8 2) (drop SaltSize data)) as [r ->].
    cbn. destruct r; discriminate.
  - intros (data & -> & H). rewrite decide_True; auto.
Qed.

Lemma decrypt_file_errors f name pass :
  (f !! name = None -> decrypt_file f name pass = Ret (inl ERead)) /\
  (forall data, f !! name = Some data -> (32 <= length data)%nat -> (forall m, ~ genuine_file pass m data) ->
     decrypt_file f name pass = Ret (inl EDecrypt)).
Proof.
  split.
  - intros E. unfold decrypt_file, read_file. rewrite E. reflexivity.
  - intros data E Hl H.
    destruct (decrypt_file f name pass) as [[e|m]|] eqn:D.
    + unfold decrypt_file, read_file in D. rewrite E in D. case_decide; [discriminate|]. cbn zeta in D.
      destruct (decrypt _ _) as [[r|]|]; cbn in D; congruence.
    + apply decrypt_file_exact in D as (d' & E' & G). rewrite E in E'. injection E' as <-.
      destruct (H _ G).
    + apply decrypt_file_panics in D as (d' & E' & G). rewrite E in E'. injection E' as <-. lia.
Qed.

Lemma encrypt_file_cases w f name pass d g r :
  encrypt_file w f name pass d g = Ret r ->
  (starved g 32 /\ ef_err r = Some ESalt /\ ef_fs r = f /\ ef_buf r = d) \/
  (exists salt g1, length salt = 32%nat /\ delivers g salt g1 /\ ef_buf r = zeros (length d) /\
     ((starved g1 24 /\ ef_err r = Some EEncrypt /\ ef_fs r = f) \/
      exists nonce data, delivers g1 nonce (ef_rng r) /\ file_format (2 ^ 20) 8 2 pass salt nonce d data /\
        ef_fs r = snd (write_file w f name data) /\
        (ef_err r = None <-> w = WOk) /\ (w <> WOk -> ef_err r = Some EWrite))).
Proof.
  unfold encrypt_file. destruct (rand SaltSize g) as [[salt|] g1] eqn:E.
  - apply read_full_some in E as [Hl D]. rewrite derive_key_is.
    destruct (encrypt _ d g1) as [[o g2]|] eqn:E2; [|discriminate]. cbn [obind].
    apply encrypt_inv in E2 as [[-> S]|(nonce & Hn & D2 & ->)].
    + intros [= <-]. right. exists salt, g1. cbn. rewrite zero_zeros.
      split; [auto|]. split; [auto|]. split; [auto|]. left; auto.
    + destruct (write_file w f name _) as [ok f'] eqn:W. intros [= <-]. right. exists salt, g1.
      cbn [ef_buf ef_rng ef_fs ef_err]. rewrite zero_zeros.
      split; [auto|]. split; [auto|]. split; [auto|]. right.
      exists nonce, (salt ++ nonce ++ sbox_seal (scrypt_raw pass salt (2 ^ 20) 8 2) nonce d).
      split; [exact D2|]. split.
      { split; auto. eexists. split; [|reflexivity]. split; auto. }
      rewrite W. split; [reflexivity|].
      destruct w; cbn in W; injection W as <- <-; split; try tauto; split; congruence.
  - intros [= <-]. left. cbn. split; auto. apply read_full_none. eauto.
Qed.

Lemma encrypt_file_total w f name pass d g : exists r, encrypt_file w f name pass d g = Ret r.
Proof.
  unfold encrypt_file. destruct (rand SaltSize g) as [[salt|] g1]; [|eauto].
  rewrite derive_key_is. unfold encrypt. destruct (new_nonce g1) as [[n|] g2]; cbn; [|eauto].
  destruct (write_file _ _ _ _). eauto.
Qed.

Lemma write_file_only w f path data : only_changes path f (snd (write_file w f path data)).
Proof.
  intros q Hq. destruct w; cbn; rewrite ?lookup_insert_ne by congruence; reflexivity.
Qed.

Lemma encrypt_file_roundtrip w f name pass d g r :
  encrypt_file w f name pass d g = Ret r ->
  only_changes name f (ef_fs r) /\
  (ef_err r = None -> decrypt_file (ef_fs r) name pass = Ret (inr d)).
Proof.
  intros H. apply encrypt_file_cases in H as [(_ & He & -> & _)|(salt & g1 & Hl & D & _ & [(_ & He & ->)|(nonce & data & D2 & F & -> & He & _)])].
  - split; [intros q _; reflexivity|congruence].
  - split; [intros q _; reflexivity|congruence].
  - split; [apply write_file_only|]. intros E%He. subst w. cbn.
    apply decrypt_file_exact. exists data. rewrite lookup_insert. split; auto. exists salt, nonce. exact F.
Qed.

Lemma encrypt_file_succeeds f name pass d g salt nonce g' :
  length salt = 32%nat -> length nonce = 24%nat -> delivers g (salt ++ nonce) g' ->
  exists r, encrypt_file WOk f name pass d g = Ret r /\ ef_err r = None /\ ef_rng r = g' /\
    exists data, ef_fs r !! name = Some data /\ file_format (2 ^ 20) 8 2 pass salt nonce d data.
Proof.
  intros Hs Hn D. unfold delivers in D. rewrite map_app, <- app_assoc in D.
  unfold encrypt_file. rewrite (rand_delivers SaltSize _ salt _ Hs D). rewrite derive_key_is.
  rewrite (encrypt_delivers _ _ _ nonce g' Hn eq_refl). cbn [obind].
  eexists. split; [reflexivity|]. cbn. split; auto. split; auto.
  eexists. rewrite lookup_insert. split; [reflexivity|]. split; auto. eexists. split; [|reflexivity]. split; auto.
Qed.

Lemma encrypt_file_wipes w f name pass d g r :
  encrypt_file w f name pass d g = Ret r ->
  (starved g 32 -> ef_buf r = d /\ ef_fs r = f /\ ef_err r = Some ESalt) /\
  (~ starved g 32 -> ef_buf r = replicate (length d) x00).
Proof.
  intros H. apply encrypt_file_cases in H as [(S & He & -> & ->)|(salt & g1 & Hl & D & -> & _)].
  - tauto.
  - split; auto. intros S. destruct (S salt g1 Hl D).
Qed.

Lemma encrypt_file_bad_write w f name pass d g r :
  encrypt_file w f name pass d g = Ret r -> w <> WOk -> ef_err r <> None.
Proof.
  intros H Hw. apply encrypt_file_cases in H as [(S & He & _)|(salt & g1 & _ & _ & _ & [(_ & He & _)|(n & dd & _ & _ & _ & _ & He)])].
  - congruence.
  - congruence.
  - rewrite (He Hw). discriminate.
Qed.

(** ** Crash points *)
Lemma prefix_take_ {A} (l : list A) n : take n l `prefix_of` l.
Proof. exists (drop n l). symmetry. apply take_drop. Qed.

Lemma write_states_exact f path data f' :
  f' ∈ write_states f path data <->
  f' = f \/ exists p, p `prefix_of` data /\ f' = <[path := p]> f.
Proof.
  unfold write_states. rewrite elem_of_cons, elem_of_list_fmap. split.
  - intros [->|(n & -> & _)]; auto. right. exists (take n data). split; auto. apply prefix_take_.
  - intros [->|(p & [s ->] & ->)]; auto. right. exists (length p). rewrite take_app. split; auto.
    apply elem_of_seq. rewrite app_length. lia.
Qed.

Lemma write_file_in_states w f path data : snd (write_file w f path data) ∈ write_states f path data.
Proof.
  apply write_states_exact. destruct w as [| |n]; cbn; auto; right.
  - exists data. auto.
  - exists (take n data). split; auto. apply prefix_take_.
Qed.

Lemma genuine_prefix pass salt nonce m data p m' :
  file_format (2 ^ 20) 8 2 pass salt nonce m data ->
  no_truncated_box (scrypt_raw pass salt (2 ^ 20) 8 2) nonce m ->
  p `prefix_of` data -> genuine_file pass m' p -> m' = m /\ p = data.
Proof.
  intros (Hs & c & (Hn & ->) & ->) NT [s Hp] (salt' & nonce' & Hs' & c' & (Hn' & ->) & ->).
  rewrite <- !app_assoc in Hp. apply app_inj_1 in Hp as [<- Hp]; [|congruence].
  apply app_inj_1 in Hp as [<- Hp]; [|congruence].
  assert (m' = m) as ->. { apply NT. exists s. exact Hp. }
  split; auto.
Qed.

Lemma crash_read f name pass salt nonce m data f' :
  file_format (2 ^ 20) 8 2 pass salt nonce m data ->
  no_truncated_box (scrypt_raw pass salt (2 ^ 20) 8 2) nonce m ->
  f' ∈ write_states f name data ->
  f' = f \/ (exists p, f' = <[name := p]> f /\ p `prefix_of` data /\
    ((p = data /\ decrypt_file f' name pass = Ret (inr m)) \/
     (p <> data /\ (length p < 32)%nat /\ decrypt_file f' name pass = Panic) \/
     (p <> data /\ (32 <= length p)%nat /\ decrypt_file f' name pass = Ret (inl EDecrypt)))).
Proof.
  intros F NT [->|(p & Hp & ->)]%write_states_exact; auto. right. exists p. split; auto. split; auto.
  destruct (decide (p = data)) as [->|Hne].
  - left. split; auto. apply decrypt_file_exact. exists data. rewrite lookup_insert. split; auto. exists salt, nonce; auto.
  - right. destruct (decide (length p < 32)%nat).
    + left. split; [auto|]. split; [auto|]. apply decrypt_file_panics. exists p. rewrite lookup_insert. auto.
    + right. split; [auto|]. split; [lia|].
      eapply (proj2 (decrypt_file_errors _ _ _)); [apply lookup_insert|lia|].
      intros m' G. eapply genuine_prefix in G; eauto. tauto.
Qed.

(** ** Migration *)
Lemma legacy_decrypt_eq : legacy_decrypt = decrypt.
Proof. reflexivity. Qed.

Lemma legacy_decrypt_file_exact f name pass m :
  legacy_decrypt_file f name pass = Ret (inr m) <->
  exists data, f !! name = Some data /\ genuine_legacy_file pass m data.
Proof.
  unfold legacy_decrypt_file, read_file, genuine_legacy_file, file_format. rewrite legacy_decrypt_eq. split.
  - destruct (f !! name) as [data|]; [|discriminate]. case_decide as H; [discriminate|]. cbn zeta.
    rewrite legacy_derive_key_is. destruct (decrypt _ _) as [[r|]|] eqn:E; cbn; try discriminate.
    intros [= <-]. apply decrypt_exact in E as [nonce S].
    exists data. split; auto. exists (take SaltSize data), nonce.
    split; [rewrite take_length; unfold SaltSize in *; lia|]. eexists. split; [exact S|].
    symmetry; apply take_drop.
  - intros (data & -> & salt & nonce & Hl & c & S & ->).
    rewrite decide_False by (rewrite app_length; unfold SaltSize; lia). cbn zeta.
    unfold SaltSize. rewrite take_app_alt, drop_app_alt by auto. rewrite legacy_derive_key_is.
    assert (decrypt (Some (scrypt_raw pass salt (2 ^ 15) 8 4)) c = Ret (Some m)) as -> by (apply decrypt_exact; eauto).
    reflexivity.
Qed.

Lemma migrate_one w path pass f g st f' g' :
  migrate_store w path pass f g = (st, f', g') ->
  only_changes path f f' /\
  (st = Running -> exists p data m, pass = Some p /\ f !! path = Some data /\
     genuine_legacy_file p m data /\ decrypt_file f' path p = Ret (inr m)) /\
  (f' <> f -> exists p data m, pass = Some p /\ f !! path = Some data /\ genuine_legacy_file p m data).
Proof.
  unfold migrate_store. destruct pass as [p|].
  2:{ intros [= <- <- <-]. split; [intros q _; auto|]. split; congruence. }
  destruct (legacy_decrypt_file f path p) as [[e|m]|] eqn:D.
  - intros [= <- <- <-]. split; [intros q _; auto|]. split; congruence.
  - apply legacy_decrypt_file_exact in D as (data & E & G).
    destruct (encrypt_file w f path p m g) as [r|] eqn:R.
    + apply encrypt_file_roundtrip in R as [O H].
      destruct (ef_err r) eqn:Er; intros [= <- <- <-]; split; auto; split; try discriminate; intros; exists p, data, m; auto.
    + destruct (encrypt_file_total w f path p m g) as [r' R']. congruence.
  - intros [= <- <- <-]. split; [intros q _; auto|]. split; congruence.
Qed.

Definition arg_path (a : bytes * option bytes * wfate) : bytes := a.1.1.
Definition arg_pass (a : bytes * option bytes * wfate) : option bytes := a.1.2.

Lemma migrate_main_split args f g st f' g' :
  migrate_main args f g = (st, f', g') ->
  (st = Running /\ Forall (fun a => exists p, arg_pass a = Some p) args) \/
  exists done a rest f1 g1, args = done ++ a :: rest /\ migrate_main done f g = (Running, f1, g1) /\
    migrate_store a.2 (arg_path a) (arg_pass a) f1 g1 = (st, f', g') /\ st <> Running.
Proof.
  revert f g. induction args as [|[[path pass] w] args IH]; intros f g; cbn [migrate_main].
  - intros [= <- <- <-]. left. auto.
  - destruct (migrate_store w path pass f g) as [[st1 f1] g1] eqn:E.
    destruct st1.
    + intros H. apply IH in H as [[-> HF]|(done & a & rest & f2 & g2 & -> & H1 & H2 & H3)].
      * left. split; auto. constructor; auto. apply migrate_one in E as (_ & H & _).
        destruct (H eq_refl) as (p & ? & ? & -> & _). exists p. reflexivity.
      * right. exists ((path, pass, w) :: done), a, rest, f2, g2. split; auto. split; auto.
        cbn [migrate_main]. rewrite E. exact H1.
    + intros [= <- <- <-]. right. exists [], (path, pass, w), args, f, g. cbn. split_and!; auto.
    + intros [= <- <- <-]. right. exists [], (path, pass, w), args, f, g. cbn. split_and!; auto.
Qed.

Lemma migrate_main_others args f g st f' g' q :
  migrate_main args f g = (st, f', g') -> q ∉ map arg_path args -> f' !! q = f !! q.
Proof.
  revert f g. induction args as [|[[path pass] w] args IH]; intros f g; cbn [migrate_main map].
  - intros [= <- <- <-]. auto.
  - rewrite not_elem_of_cons. cbn. intros H [Hq1 Hq2].
    destruct (migrate_store w path pass f g) as [[st1 f1] g1] eqn:E.
    apply migrate_one in E as (O & _ & _). rewrite <- (O q Hq1).
    destruct st1; [eauto| |]; congruence.
Qed.

Lemma migrate_main_ok args f g f' g' :
  NoDup (map arg_path args) -> migrate_main args f g = (Running, f', g') ->
  Forall (fun a => exists p data m, arg_pass a = Some p /\ f !! arg_path a = Some data /\
     genuine_legacy_file p m data /\ decrypt_file f' (arg_path a) p = Ret (inr m)) args.
Proof.
  revert f g. induction args as [|[[path pass] w] args IH]; intros f g; cbn [migrate_main map].
  - constructor.
  - intros ND H. apply NoDup_cons in ND as [Hn ND].
    destruct (migrate_store w path pass f g) as [[st1 f1] g1] eqn:E.
    assert (st1 = Running) as -> by (destruct st1; congruence).
    pose proof (migrate_one _ _ _ _ _ _ _ _ E) as (O & H1 & _).
    destruct (H1 eq_refl) as (p & data & m & -> & Ef & G & D).
    constructor.
    + exists p, data, m. cbn. split; auto. split; auto. split; auto.
      assert (f' !! path = f1 !! path) as EQ by (eapply migrate_main_others; [exact H|exact Hn]).
      unfold decrypt_file, read_file in *. rewrite EQ. exact D.
    + specialize (IH _ _ ND H). rewrite Forall_forall in *. intros a Ha.
      destruct (IH a Ha) as (p' & data' & m' & H2 & H3 & H4 & H5). exists p', data', m'.
      split; auto. split; auto. rewrite <- H3. symmetry. apply O.
      intros Heq. apply Hn. change (path) with (arg_path (path, Some p, w)). cbn in Heq.
      apply elem_of_list_fmap. exists a. split; auto.
Qed.

Lemma migrate_main_stops args f g st f' g' :
  migrate_main args f g = (st, f', g') -> st <> Running ->
  exists done a rest f1, args = done ++ a :: rest /\
    (exists g1, migrate_main done f g = (Running, f1, g1)) /\
    only_changes (arg_path a) f1 f' /\
    ((forall p data m, arg_pass a = Some p -> f1 !! arg_path a = Some data -> ~ genuine_legacy_file p m data) -> f' = f1).
Proof.
  intros H Hst. apply migrate_main_split in H as [[-> _]|(done & a & rest & f1 & g1 & -> & H1 & H2 & _)]; [congruence|].
  exists done, a, rest, f1. split; auto. split; [eauto|].
  apply migrate_one in H2 as (O & _ & H2). split; auto. intros Hn.
  destruct (decide (f' = f1)) as [|Hne]; auto.
  destruct (H2 Hne) as (p & data & m & E1 & E2 & G). destruct (Hn _ _ _ E1 E2 G).
Qed.

End WithCrypto.

Section More.
Context `{C : Crypto} {L : CryptoLaws}.

Lemma encrypt_file_states w f name pass d g r :
  encrypt_file w f name pass d g = Ret r ->
  ef_fs r = f \/ exists salt nonce data, file_format (2 ^ 20) 8 2 pass salt nonce d data /\
                   ef_fs r ∈ write_states f name data.
Proof.
  intros H. apply encrypt_file_cases in H as [(_ & _ & -> & _)|(salt & g1 & Hl & D & _ & [(_ & _ & ->)|(nonce & data & D2 & F & -> & _)])]; auto.
  right. exists salt, nonce, data. split; auto. apply write_file_in_states.
Qed.

Lemma write_loses_old f path old data :
  f !! path = Some old -> old <> [] ->
  exists f', f' ∈ write_states f path data /\ f' !! path = Some [] /\ only_changes path f f'.
Proof.
  intros _ _. exists (<[path := []]> f). split.
  - apply write_states_exact. right. exists []. split; auto. apply prefix_nil.
  - split; [apply lookup_insert|]. intros q Hq. apply lookup_insert_ne. congruence.
Qed.

Lemma legacy_encrypt_file_ok f name pass d g salt nonce g' :
  length salt = 32%nat -> length nonce = 24%nat -> delivers g (salt ++ nonce) g' ->
  exists r data, legacy_encrypt_file WOk f name pass d g = Ret r /\ ef_err r = None /\
    ef_fs r = <[name := data]> f /\ genuine_legacy_file pass d data.
Proof.
  intros Hs Hn D. unfold delivers in D. rewrite map_app, <- app_assoc in D.
  unfold legacy_encrypt_file. rewrite (rand_delivers SaltSize _ salt _ Hs D). rewrite legacy_derive_key_is.
  unfold legacy_encrypt. rewrite (new_nonce_delivers _ nonce g' Hn eq_refl). cbn [obind].
  eexists _, _. split; [reflexivity|]. cbn. split; auto. split; auto.
  exists salt, nonce. split; auto. eexists. split; [|reflexivity]. split; auto.
  f_equal. apply copy_into_id. assumption.
Qed.

Lemma migrate_store_succeeds f path pass m data g salt nonce g' :
  f !! path = Some data -> genuine_legacy_file pass m data ->
  length salt = 32%nat -> length nonce = 24%nat -> delivers g (salt ++ nonce) g' ->
  exists f', migrate_store WOk path (Some pass) f g = (Running, f', g') /\
    decrypt_file f' path pass = Ret (inr m) /\ only_changes path f f'.
Proof.
  intros E G Hs Hn D. unfold migrate_store.
  assert (legacy_decrypt_file f path pass = Ret (inr m)) as -> by (apply legacy_decrypt_file_exact; eauto).
  destruct (encrypt_file_succeeds f path pass m g salt nonce g' Hs Hn D) as (r & R & He & Hg & _).
  rewrite R, He, Hg. eexists. split; [reflexivity|].
  apply encrypt_file_roundtrip in R as [O H]. auto.
Qed.
End More.
