(** Lemmas about the model of common/public. *)
From Verif Require Export SpecPublic TlvFacts SecretFacts.
Local Open Scope Z_scope.

Lemma fit_copy_into n x : copy_into n x = fit n x.
Proof.
  unfold copy_into, fit, zeros.
  destruct (decide (length x <= n)%nat) as [H|H].
  - rewrite (take_ge x) by assumption. rewrite take_app_ge by assumption.
    f_equal. rewrite take_replicate. f_equal. lia.
  - rewrite take_app_le by lia. replace (n - length x)%nat with 0%nat by lia. apply app_nil_r.
Qed.

Lemma decode_field b v dec :
  tlv_decode (Slice b []) TBytes = Ret (DOk v dec) ->
  exists rest, dec = Slice rest [] /\ field b (stored v) rest.
Proof.
  destruct v as [v|]; intros H.
  - apply decode_value in H. pose proof H as H'. destruct H as (tag & l & body & n & Hh & Hs & Hl & -> & Ht & Hp & ->).
    eexists. split; [reflexivity|]. left. cbn [stored]. split; [|exact H'].
    intros E. apply (f_equal length) in E. rewrite take_length in E. cbn in E.
    apply seen_length_iff in Hs. pose proof (to_i_zlen_le body). unfold zlen in *. lia.
  - apply decode_untouched in H as [H ->]. exists b. split; auto. right. auto.
Qed.

Lemma field_decode b x rest :
  field b x rest -> exists v, tlv_decode (Slice b []) TBytes = Ret (DOk v (Slice rest [])) /\ stored v = x.
Proof.
  intros [[Hx H]|(-> & H & ->)].
  - exists (Some (VBytes x)). split; auto. apply decode_value. exact H.
  - exists None. split; auto. apply decode_untouched. auto.
Qed.

Lemma field_det b x rest x' rest' : field b x rest -> field b x' rest' -> x = x' /\ rest = rest'.
Proof.
  intros (v & H & <-)%field_decode (v' & H' & <-)%field_decode. rewrite H in H'. injection H' as -> ->. auto.
Qed.

Lemma unmarshal_private_exact b k :
  unmarshal_private b = Ret (Some k) <->
  exists d s e v rest, fields b [d; s; e; v] rest /\
    k = PrivKey (Some (fit 32 d)) (Some (fit 64 s)) (Some (PubKey (Some (fit 32 e)) (Some (fit 32 v)))).
Proof.
  unfold unmarshal_private, new_decoder.  split.
  - destruct (tlv_decode (Slice b []) TBytes) as [[?|d dec]|] eqn:E1; cbn [obind]; try discriminate.
    apply decode_field in E1 as (b1 & -> & F1).
    destruct (tlv_decode (Slice b1 []) TBytes) as [[?|s dec]|] eqn:E2; cbn [obind]; try discriminate.
    apply decode_field in E2 as (b2 & -> & F2).
    destruct (tlv_decode (Slice b2 []) TBytes) as [[?|e dec]|] eqn:E3; cbn [obind]; try discriminate.
    apply decode_field in E3 as (b3 & -> & F3).
    destruct (tlv_decode (Slice b3 []) TBytes) as [[?|v dec]|] eqn:E4; cbn [obind]; try discriminate.
    apply decode_field in E4 as (b4 & -> & F4).
    intros [= <-]. exists (stored d), (stored s), (stored e), (stored v), b4.
    rewrite !fit_copy_into. split; auto. cbn [fields]. eauto 10.
  - intros (d & s & e & v & rest & (b1 & F1 & b2 & F2 & b3 & F3 & b4 & F4 & ->) & ->).
    apply field_decode in F1 as (? & -> & <-), F2 as (? & E2 & <-), F3 as (? & E3 & <-), F4 as (? & E4 & <-).
    cbn [obind]. rewrite E2. cbn [obind]. rewrite E3. cbn [obind]. rewrite E4. cbn [obind].
    rewrite !fit_copy_into. reflexivity.
Qed.

Lemma unmarshal_private_panics b :
  unmarshal_private b = Panic <->
  exists xs b', (length xs < 4)%nat /\ fields b xs b' /\ panic_spec b' [] TBytes.
Proof.
  unfold unmarshal_private, new_decoder. split.
  - destruct (tlv_decode (Slice b []) TBytes) as [[?|d dec]|] eqn:E1; cbn [obind]; try discriminate.
    2:{ intros _. exists [], b. cbn. split; [lia|]. split; auto. apply decode_panics. exact E1. }
    apply decode_field in E1 as (b1 & -> & F1).
    destruct (tlv_decode (Slice b1 []) TBytes) as [[?|s dec]|] eqn:E2; cbn [obind]; try discriminate.
    2:{ intros _. exists [stored d], b1. cbn. split; [lia|]. split; eauto. apply decode_panics. exact E2. }
    apply decode_field in E2 as (b2 & -> & F2).
    destruct (tlv_decode (Slice b2 []) TBytes) as [[?|e dec]|] eqn:E3; cbn [obind]; try discriminate.
    2:{ intros _. exists [stored d; stored s], b2. cbn. split; [lia|]. split; eauto. apply decode_panics. exact E3. }
    apply decode_field in E3 as (b3 & -> & F3).
    destruct (tlv_decode (Slice b3 []) TBytes) as [[?|v dec]|] eqn:E4; cbn [obind]; try discriminate.
    intros _. exists [stored d; stored s; stored e], b3. cbn. split; [lia|]. split; eauto 10. apply decode_panics. exact E4.
  - intros (xs & b' & Hl & F & P). apply decode_panics in P.
    destruct xs as [|x1 [|x2 [|x3 [|]]]]; cbn [fields length] in *; try lia.
    + subst. rewrite P. reflexivity.
    + destruct F as (b1 & F1 & <-). apply field_decode in F1 as (? & -> & _). cbn [obind]. rewrite P. reflexivity.
    + destruct F as (b1 & F1 & b2 & F2 & <-). apply field_decode in F1 as (? & -> & _), F2 as (? & E2 & _).
      cbn [obind]. rewrite E2. cbn [obind]. rewrite P. reflexivity.
    + destruct F as (b1 & F1 & b2 & F2 & b3 & F3 & <-). apply field_decode in F1 as (? & -> & _), F2 as (? & E2 & _), F3 as (? & E3 & _).
      cbn [obind]. rewrite E2. cbn [obind]. rewrite E3. cbn [obind]. rewrite P. reflexivity.
Qed.

Lemma unmarshal_zero_key :
  unmarshal_private [x03; x00; x00; x00; x00] =
  Ret (Some (PrivKey (Some (zeros 32)) (Some (zeros 64)) (Some (PubKey (Some (zeros 32)) (Some (zeros 32)))))).
Proof. vm_compute. reflexivity. Qed.

(** ** Records *)
Lemma rec_of_bytes b : rec_of (VBytes b) = TagBytes :: be 4 (to_u 32 (zlen b)) ++ b.
Proof. reflexivity. Qed.
Lemma encode__rec enc v : v <> VOther -> encode_ enc v = enc ++ rec_of v.
Proof. intros H. unfold encode_. rewrite encode_app by assumption. reflexivity. Qed.

Lemma is_record_rec m : zlen m < 2 ^ 32 -> is_record m (rec_of (VBytes m)).
Proof. intros H. apply rec_of_wire. exact H. Qed.
Lemma is_record_eq m p : is_record m p -> zlen m < 2 ^ 32 -> p = rec_of (VBytes m).
Proof.
  intros H Hl. pose proof (is_record_rec m Hl) as H'.
  destruct H as (t & len & pl & -> & L & U & T & ->).
  destruct H' as (t' & len' & pl' & -> & L' & U' & T' & ->).
  f_equal; [apply bz_inj; congruence|]. f_equal. apply unbe_inj; congruence.
Qed.
Lemma is_record_bound m p : is_record m p -> zlen m < 2 ^ 32.
Proof.
  intros (t & len & pl & -> & L & U & T & ->). rewrite <- U.
  pose proof (unbe4_range len L). lia.
Qed.
Lemma is_record_iff m p : is_record m p <-> zlen m < 2 ^ 32 /\ p = rec_of (VBytes m).
Proof.
  split.
  - intros H. pose proof (is_record_bound _ _ H). auto using is_record_eq.
  - intros [H ->]. apply is_record_rec. exact H.
Qed.
Lemma length_rec_bytes m : length (rec_of (VBytes m)) = (5 + length m)%nat.
Proof. rewrite rec_of_bytes. cbn [length]. rewrite app_length, length_be. lia. Qed.

Lemma field_record m rest : m <> [] -> zlen m + zlen rest < 2 ^ 31 -> field (rec_of (VBytes m) ++ rest) m rest.
Proof.
  intros Hm Hl. left. split; auto. apply decode_value.
  pose proof (zlen_nonneg m). pose proof (zlen_nonneg rest).
  apply (decode_record (VBytes m)).
  - apply rec_of_wire. cbn. lia.
  - cbn. lia.
  - intros [= E]. auto.
  - rewrite zlen_app. unfold zlen in *. rewrite length_rec_bytes. lia.
Qed.

Lemma to_i32_eq z : to_i 32 z <= z -> 0 <= z -> to_i 32 z = z -> z < 2 ^ 31.
Proof. intros. pose proof (to_i_range 32 z). lia. Qed.

(** A field, read back from its bytes. *)
Lemma field_inv b x rest :
  field b x rest -> x <> [] ->
  b = rec_of (VBytes x) ++ rest /\ exists n, seen_length (x ++ rest) n /\ zlen x <= n.
Proof.
  intros [[_ H]|[-> _]] Hx; [|congruence].
  destruct H as (tag & l & body & n & Hh & Hs & Hl & Hr & Ht & Hp & Hv). injection Hv as ->. injection Hr as ->.
  apply header_iff in Hh as (t & len & -> & L & T & Hlen).
  assert (n <= zlen body) as Hn by (apply seen_length_iff in Hs; subst; apply to_i_zlen_le).
  assert (t = TagBytes) as -> by (apply bz_tag_bytes; congruence).
  assert (zlen (take (Z.to_nat l) body) = l) as Hz.
  { unfold zlen. rewrite take_length. unfold zlen in Hn. lia. }
  rewrite take_drop. split.
  - rewrite rec_of_bytes. rewrite Hz. cbn [app]. f_equal. rewrite <- app_assoc, take_drop.
    f_equal. apply unbe_inj; [rewrite length_be; congruence|]. rewrite unbe4_len by (unfold to_u; lia).
    assert (l = unbe len).
    { pose proof (slen_spec len L) as [A B]. pose proof (unbe4_range len L). destruct (decide (unbe len < 2 ^ 31)); [rewrite <- A by assumption; auto|]. lia. }
    unfold to_u. pose proof (unbe4_range len L). rewrite Z.mod_small; lia.
  - exists n. split; [exact Hs|]. lia.
Qed.

Lemma field_inv_bytes b x rest :
  field b x rest -> x <> [] ->
  b = [x03] ++ be 4 (zlen x mod 2 ^ 32) ++ x ++ rest /\ exists n, seen_length (x ++ rest) n /\ zlen x <= n.
Proof.
  intros F H. destruct (field_inv _ _ _ F H) as [-> S]. split; [|exact S].
  rewrite rec_of_bytes. cbn [app]. rewrite <- app_assoc. reflexivity.
Qed.

Lemma field_inv_end b x : field b x [] <-> x <> [] /\ is_record x b /\ zlen x < 2 ^ 31.
Proof.
  split.
  - intros F. destruct (decide (x = [])) as [->|Hx].
    { exfalso. destruct F as [[H _]|(_ & H & <-)]; [congruence|].
      destruct H as (body & n & Hh & _). apply header_iff in Hh as (t & len & E & _). discriminate. }
    split; auto. apply field_inv in F as [-> (n & Hs & Hn)]; auto. rewrite app_nil_r in *.
    apply seen_length_iff in Hs. subst n. pose proof (to_i_zlen_le x). pose proof (zlen_nonneg x).
    assert (zlen x < 2 ^ 31) by (apply to_i32_eq; lia).
    split; auto. apply is_record_rec. lia.
  - intros (Hx & H & Hl). apply is_record_iff in H as [_ ->].
    rewrite <- (app_nil_r (rec_of _)). apply field_record; auto. change (zlen (@nil byte)) with 0. lia.
Qed.

(** ** Serialisation of keys *)
Definition full_priv (d s e v : bytes) : privkey := PrivKey (Some d) (Some s) (Some (PubKey (Some e) (Some v))).

Lemma priv_valid_iff k :
  priv_valid k = true <-> exists d s e v, k = Some (full_priv d s e v).
Proof.
  unfold full_priv. split.
  - destruct k as [[[d|] [s|] [[[e|] [v|]]|]]|]; cbn; try discriminate. eauto.
  - intros (d & s & e & v & ->). reflexivity.
Qed.
Lemma pub_valid_iff p : pub_valid p = true <-> exists e v, p = Some (PubKey (Some e) (Some v)).
Proof.
  split.
  - destruct p as [[[e|] [v|]]|]; cbn; try discriminate. eauto.
  - intros (e & v & ->). reflexivity.
Qed.

Lemma marshal_private_full d s e v :
  marshal_private (Some (full_priv d s e v)) =
  Ret (Some (rec_of (VBytes d) ++ rec_of (VBytes s) ++ rec_of (VBytes e) ++ rec_of (VBytes v))).
Proof.
  unfold marshal_private. cbn [priv_valid full_priv kPub pub_valid pE pV negb kD kS deref obind].
  rewrite !encode__rec by discriminate. rewrite <- !app_assoc. reflexivity.
Qed.

Lemma marshal_private_invalid k : priv_valid k = false <-> marshal_private k = Ret None.
Proof.
  unfold marshal_private. destruct (priv_valid k) eqn:E; cbn [negb].
  - apply priv_valid_iff in E as (d & s & e & v & ->). cbn. split; discriminate.
  - split; auto.
Qed.

Lemma fit_id n x : length x = n -> fit n x = x.
Proof. intros. rewrite <- fit_copy_into. apply copy_into_id. assumption. Qed.

Lemma wf_full d s e v : wf_priv (full_priv d s e v) <->
  length d = 32%nat /\ length s = 64%nat /\ length e = 32%nat /\ length v = 32%nat.
Proof. unfold wf_priv, wf_pub, arr, full_priv. cbn. tauto. Qed.

Lemma nonempty_length {A} (l : list A) n : length l = S n -> l <> [].
Proof. intros H ->. discriminate. Qed.

Lemma marshal_private_roundtrip k :
  priv_valid (Some k) = true -> wf_priv k ->
  exists b, marshal_private (Some k) = Ret (Some b) /\ length b = 180%nat /\
    forall rest, zlen rest < 2 ^ 30 -> unmarshal_private (b ++ rest) = Ret (Some k).
Proof.
  intros V W. apply priv_valid_iff in V as (d & s & e & v & [= ->]). apply (proj1 (wf_full _ _ _ _)) in W as (Hd & Hs & He & Hv).
  rewrite marshal_private_full. eexists. split; [reflexivity|]. split.
  { rewrite !app_length, !length_rec_bytes. lia. }
  intros rest Hrest. apply unmarshal_private_exact. exists d, s, e, v, rest. split.
  2:{ rewrite !fit_id by assumption. reflexivity. }
  assert (zlen d = 32 /\ zlen s = 64 /\ zlen e = 32 /\ zlen v = 32) as (?&?&?&?) by (unfold zlen; lia).
  assert (forall m, zlen (rec_of (VBytes m)) = 5 + zlen m) as ZR by (intros; unfold zlen; rewrite length_rec_bytes; lia).
  cbn [fields]. rewrite <- !app_assoc.
  eexists. split; [apply field_record; [eapply nonempty_length; eauto|rewrite ?zlen_app, ?ZR; lia]|].
  eexists. split; [apply field_record; [eapply nonempty_length; eauto|rewrite ?zlen_app, ?ZR; lia]|].
  eexists. split; [apply field_record; [eapply nonempty_length; eauto|rewrite ?zlen_app, ?ZR; lia]|].
  eexists. split; [apply field_record; [eapply nonempty_length; eauto|rewrite ?zlen_app, ?ZR; lia]|].
  reflexivity.
Qed.

Lemma marshal_public_roundtrip p :
  pub_valid (Some p) = true -> wf_pub p ->
  exists b, marshal_public (Some p) = Ret (Some b) /\ length b = 64%nat /\ unmarshal_public b = Some p.
Proof.
  intros V [W1 W2]. apply pub_valid_iff in V as (e & v & [= ->]). cbn in *.
  unfold marshal_public. cbn. eexists. split; [reflexivity|]. split; [rewrite app_length; lia|].
  unfold unmarshal_public. rewrite decide_False by (rewrite app_length; lia).
  cbn zeta. rewrite drop_app_alt by auto. rewrite (copy_into_id 32 v) by assumption.
  rewrite fit_copy_into. unfold fit. rewrite <- app_assoc, take_app_alt by auto. reflexivity.
Qed.

Lemma marshal_public_invalid p : pub_valid p = false <-> marshal_public p = Ret None.
Proof.
  unfold marshal_public. destruct (pub_valid p) eqn:E; cbn [negb].
  - apply pub_valid_iff in E as (e & v & ->). cbn. split; discriminate.
  - split; auto.
Qed.

Lemma unmarshal_public_exact b p :
  unmarshal_public b = Some p <->
  exists e v, length e = 32%nat /\ length v = 32%nat /\ b = e ++ v /\ p = PubKey (Some e) (Some v).
Proof.
  unfold unmarshal_public. split.
  - case_decide as H; [discriminate|]. intros [= <-].
    assert (length b = 64%nat) as Hb by lia.
    exists (take 32 b), (drop 32 b). rewrite take_length, drop_length.
    split; [lia|]. split; [lia|]. split; [symmetry; apply take_drop|].
    rewrite (copy_into_id 32 (drop 32 b)) by (rewrite drop_length; lia).
    rewrite copy_into_take by lia. reflexivity.
  - intros (e & v & He & Hv & -> & ->). rewrite decide_False by (rewrite app_length; lia). cbn zeta.
    rewrite drop_app_alt by auto. rewrite (copy_into_id 32 v) by assumption.
    rewrite copy_into_take by (rewrite app_length; lia). rewrite take_app_alt by auto. reflexivity.
Qed.

Lemma unmarshal_public_total b : (exists p, unmarshal_public b = Some p) <-> length b = 64%nat.
Proof.
  split.
  - intros [p H]. apply unmarshal_public_exact in H as (e & v & He & Hv & -> & _). rewrite app_length. lia.
  - intros H. unfold unmarshal_public. rewrite decide_False by lia. eauto.
Qed.

Lemma unmarshal_then_marshal b p :
  unmarshal_public b = Some p -> marshal_public (Some p) = Ret (Some b).
Proof. intros (e & v & He & Hv & -> & ->)%unmarshal_public_exact. reflexivity. Qed.

Lemma priv_zero_twice k r :
  priv_zero (Some k) = Ret r ->
  exists d s, kD k = Some d /\ kS k = Some s /\ r = (PrivKey None None (kPub k), zeros (length d), zeros (length s)) /\
    priv_zero (Some (fst (fst r))) = Panic.
Proof.
  unfold priv_zero. destruct k as [[d|] [s|] p]; cbn; try discriminate.
  intros [= <-]. exists d, s. rewrite !zero_zeros. auto.
Qed.

Section WithCrypto.
Context `{C : Crypto} {L : CryptoLaws}.

Lemma gen_key_exact g :
  (starved g 64 -> exists g', gen_key g = Ret (None, g')) /\
  (~ starved g 64 -> gen_key g = Panic).
Proof.
  unfold gen_key, box_generate_key, ed_generate_key.
  destruct (read_full 32 g) as [[d|] g1] eqn:E1.
  - cbn [kPub deref obind kS pV pE kD]. destruct (read_full 32 g1) as [[s|] g2] eqn:E2.
    + apply read_full_some in E1 as [L1 D1], E2 as [L2 D2].
      split; [|reflexivity]. intros S. exfalso. apply (S (d ++ s) g2).
      * rewrite app_length. lia.
      * unfold delivers in *. rewrite map_app, <- app_assoc. congruence.
    + split; [eauto|]. intros H. exfalso. apply H. intros p g' Hp D.
      apply read_full_some in E1 as [L1 D1].
      assert (starved g1 32) as S by (apply read_full_none; eauto).
      apply (S (drop 32 p) g'). { rewrite drop_length. lia. }
      unfold delivers in *. rewrite <- (take_drop 32 p), map_app, <- app_assoc in D. rewrite D in D1.
      apply app_inj_1 in D1 as [_ D1]; [auto|]. rewrite !map_length, take_length. lia.
  - split; [eauto|]. intros H. exfalso. apply H. intros p g' Hp D.
    assert (starved g 32) as S by (apply read_full_none; eauto).
    apply (S (take 32 p) (map Some (drop 32 p) ++ g')). { rewrite take_length. lia. }
    unfold delivers in *. rewrite app_assoc, <- map_app, take_drop. exact D.
Qed.

(** ** Encryption *)
Lemma encrypt_raw_delivers e v payload g ep nonce g' :
  length ep = 32%nat -> length nonce = 24%nat -> delivers g (ep ++ nonce) g' ->
  encrypt_raw (Some (PubKey (Some e) (Some v))) payload g =
  Ret (Some (box_pub ep ++ nonce ++ sbox_seal (box_shared e ep) nonce payload), g').
Proof.
  intros He Hn D. unfold delivers in D. rewrite map_app, <- app_assoc in D.
  unfold encrypt_raw. cbn [pub_valid pE pV negb]. unfold box_generate_key.
  assert (read_full 32 g = (Some ep, map Some nonce ++ g')) as -> by (apply read_full_some; auto).
  rewrite (new_nonce_delivers _ nonce g' Hn eq_refl).
  cbn [deref obind pE]. unfold box_seal. rewrite <- app_assoc. reflexivity.
Qed.

Lemma encrypt_raw_failure p payload g :
  (pub_valid p = false -> encrypt_raw p payload g = Ret (None, g)) /\
  (pub_valid p = true -> starved g 32 -> exists g', encrypt_raw p payload g = Ret (None, g')) /\
  (pub_valid p = true -> ~ starved g 32 -> starved g 56 -> encrypt_raw p payload g = Panic).
Proof.
  unfold encrypt_raw, box_generate_key. split_and!.
  - intros ->. reflexivity.
  - intros -> S. cbn [negb]. apply read_full_none in S as [g' ->]. eauto.
  - intros -> NS S. cbn [negb]. destruct (read_full 32 g) as [[ep|] g1] eqn:E.
    + apply read_full_some in E as [Hl D].
      assert (starved g1 24) as S1.
      { intros q g' Hq D'. apply (S (ep ++ q) g'); [rewrite app_length; lia|].
        unfold delivers in *. rewrite map_app, <- app_assoc. congruence. }
      apply new_nonce_starved in S1 as [g2 ->]. reflexivity.
    + exfalso. apply NS. apply read_full_none. eauto.
Qed.

Lemma starved_mono g n m : (n <= m)%nat -> starved g n -> starved g m.
Proof.
  intros H S p g' Hp D. apply (S (take n p) (map Some (drop n p) ++ g')).
  - rewrite take_length. lia.
  - unfold delivers in *. rewrite app_assoc, <- map_app, take_drop. exact D.
Qed.

Lemma not_starved g n : ~ starved g n -> exists p g', length p = n /\ delivers g p g'.
Proof. intros H. destruct (delivers_or_starved g n) as [|S]; [assumption|contradiction]. Qed.

Lemma encrypt_raw_inv p payload g r g' :
  encrypt_raw p payload g = Ret (r, g') ->
  r = None \/ exists e v ep nonce, p = Some (PubKey (Some e) (Some v)) /\ length ep = 32%nat /\ length nonce = 24%nat /\
     delivers g (ep ++ nonce) g' /\ exists c, r = Some c /\ sealed_to e ep nonce payload c.
Proof.
  intros H. destruct (pub_valid p) eqn:V.
  2:{ rewrite (proj1 (encrypt_raw_failure p payload g) V) in H. left. congruence. }
  destruct (delivers_or_starved g 56) as [(q & g2 & Hq & D)|S].
  - pose proof V as V'. apply pub_valid_iff in V' as (e & v & ->).
    rewrite <- (take_drop 32 q) in D.
    rewrite (encrypt_raw_delivers e v payload g (take 32 q) (drop 32 q) g2) in H; [|rewrite take_length; lia|rewrite drop_length; lia|exact D].
    injection H as <- <-. right. exists e, v, (take 32 q), (drop 32 q).
    split; auto. split; [rewrite take_length; lia|]. split; [rewrite drop_length; lia|]. split; auto.
    eexists. split; reflexivity.
  - destruct (delivers_or_starved g 32) as [(q & g2 & Hq & D)|S2].
    + assert (~ starved g 32) as NS by (intros S2; exact (S2 q g2 Hq D)).
      rewrite (proj2 (proj2 (encrypt_raw_failure p payload g)) V NS S) in H. discriminate.
    + destruct (proj1 (proj2 (encrypt_raw_failure p payload g)) V S2) as [g2 E]. left. congruence.
Qed.

Lemma decrypt_raw_exact k c payload :
  decrypt_raw (Some k) c = Ret (Some payload) <->
  priv_valid (Some k) = true /\ exists d, kD k = Some d /\ opens_to d c payload.
Proof.
  unfold decrypt_raw, opens_to, overhead, msgStart, NonceSize. split.
  - destruct (priv_valid (Some k)) eqn:V; cbn [negb]; [|discriminate].
    case_decide as H; [discriminate|]. cbn zeta. cbn [deref obind].
    destruct (kD k) as [d|] eqn:Ed; cbn [deref obind]; [|discriminate].
    intros [= E]. split; auto. exists d. split; auto.
    unfold box_open in E. case_decide; [discriminate|]. apply sbox_exact in E.
    rewrite (copy_into_id 32 (take 32 c)) in E by (rewrite take_length; lia).
    rewrite copy_into_take in E by (rewrite drop_length; lia).
    exists (take 32 c), (take 24 (drop 32 c)). rewrite !take_length, drop_length.
    split; [lia|]. split; [lia|]. rewrite <- E.
    replace (drop 56 c) with (drop 24 (drop 32 c)) by (rewrite drop_drop; reflexivity).
    rewrite !take_drop. reflexivity.
  - intros (V & d & Ed & ep & nonce & He & Hn & ->). rewrite V. cbn [negb].
    rewrite decide_False by (rewrite !app_length, sbox_length; lia). cbn zeta. cbn [deref obind].
    rewrite Ed. cbn [deref obind]. f_equal. unfold box_open.
    rewrite take_app_alt by auto. rewrite (copy_into_id 32 ep) by assumption.
    change (32 + 24)%nat with 56%nat. set (sl := sbox_seal _ nonce payload).
    assert (drop 32 (ep ++ nonce ++ sl) = nonce ++ sl) as E32 by (apply drop_app_alt; auto).
    replace (drop 56 (ep ++ nonce ++ sl)) with (drop 24 (drop 32 (ep ++ nonce ++ sl))) by (rewrite drop_drop; reflexivity).
    rewrite E32. rewrite drop_app_alt by auto.
    rewrite copy_into_take by (rewrite app_length; lia). rewrite take_app_alt by auto. subst sl.
    rewrite decide_False by (rewrite sbox_length; lia). apply sbox_exact. reflexivity.
Qed.

Lemma decrypt_raw_total k c : exists r, decrypt_raw k c = Ret r.
Proof.
  unfold decrypt_raw. destruct (priv_valid k) eqn:V; cbn [negb]; [|eauto].
  case_decide; [eauto|]. apply priv_valid_iff in V as (d & s & e & v & ->). cbn. eauto.
Qed.

Lemma sealed_opens d ep nonce payload c :
  length d = 32%nat -> length ep = 32%nat -> length nonce = 24%nat ->
  sealed_to (box_pub d) ep nonce payload c -> opens_to d c payload.
Proof.
  intros Hd He Hn ->. exists (box_pub ep), nonce. split; [apply box_pub_length|]. split; auto.
  rewrite box_dh by assumption. reflexivity.
Qed.

Lemma opens_unique d c p p' : opens_to d c p -> opens_to d c p' -> p = p'.
Proof.
  intros (e & n & He & Hn & ->) (e' & n' & He' & Hn' & E).
  apply app_inj_1 in E as [<- E]; [|congruence]. apply app_inj_1 in E as [<- E]; [|congruence].
  eapply sbox_seal_inj; eauto.
Qed.

Lemma pub_decrypt_cases k c :
  pub_decrypt (Some k) c =
  match decrypt_raw (Some k) c with
  | Ret (Some out) =>
     match tlv_decode (Slice out []) TBytes with
     | Panic => Panic | Ret (DErr _) => Ret None
     | Ret (DOk m dec) => if decide (dec_length dec <> 0) then Ret None else Ret (Some (stored m)) end
  | Ret None => Ret None
  | Panic => Panic
  end.
Proof.
  unfold pub_decrypt, new_decoder. destruct (decrypt_raw (Some k) c) as [[out|]|]; cbn [obind]; auto.
Qed.

Lemma dec_length_nil rest : dec_length (Slice rest []) = 0 <-> rest = [].
Proof.
  unfold dec_length, zlen. cbn. split; [|intros ->; auto]. destruct rest; auto. cbn. lia.
Qed.

Lemma pub_decrypt_exact k c m :
  pub_decrypt (Some k) c = Ret (Some m) <->
  priv_valid (Some k) = true /\ (1 <= zlen m < 2 ^ 31) /\
  exists d payload, kD k = Some d /\ opens_to d c payload /\ is_record m payload.
Proof.
  rewrite pub_decrypt_cases. split.
  - destruct (decrypt_raw (Some k) c) as [[out|]|] eqn:E; try discriminate.
    apply decrypt_raw_exact in E as (V & d & Ed & O).
    destruct (tlv_decode (Slice out []) TBytes) as [[?|v dec]|] eqn:E2; try discriminate.
    apply decode_field in E2 as (rest & -> & F).
    case_decide as Hz; [discriminate|].
    assert (rest = []) as -> by (apply dec_length_nil; lia).
    intros [= <-]. apply field_inv_end in F as (Hx & R & Hl). split; auto. split.
    + destruct (stored v); [congruence|]. rewrite zlen_cons in *. pose proof (zlen_nonneg l). lia.
    + eauto.
  - intros (V & Hl & d & payload & Ed & O & R).
    assert (decrypt_raw (Some k) c = Ret (Some payload)) as -> by (apply decrypt_raw_exact; eauto).
    assert (field payload m []) as F.
    { apply field_inv_end. split; [|split; auto; lia]. intros ->. change (zlen (@nil byte)) with 0 in Hl. lia. }
    apply field_decode in F as (v & -> & <-). rewrite decide_False; [reflexivity|].
    intros H. apply H. apply dec_length_nil. reflexivity.
Qed.

Lemma pub_decrypt_panics k c :
  pub_decrypt (Some k) c = Panic <->
  priv_valid (Some k) = true /\
  exists d payload, kD k = Some d /\ opens_to d c payload /\ panic_spec payload [] TBytes.
Proof.
  rewrite pub_decrypt_cases. split.
  - destruct (decrypt_raw (Some k) c) as [[out|]|] eqn:E; try discriminate.
    + apply decrypt_raw_exact in E as (V & d & Ed & O). split; auto. exists d, out. split; auto. split; auto.
      apply decode_panics. destruct (tlv_decode (Slice out []) TBytes) as [[|]|]; try discriminate; auto.
      case_decide; discriminate.
    + destruct (decrypt_raw_total (Some k) c). congruence.
  - intros (V & d & payload & Ed & O & P).
    assert (decrypt_raw (Some k) c = Ret (Some payload)) as -> by (apply decrypt_raw_exact; eauto).
    apply decode_panics in P. rewrite P. reflexivity.
Qed.

Lemma pub_encrypt_eq p m g : pub_encrypt p m g = encrypt_raw p (rec_of (VBytes m)) g.
Proof. unfold pub_encrypt. rewrite encode__rec by discriminate. reflexivity. Qed.

Lemma keypair_valid d seed : priv_valid (Some (keypair d seed)) = true.
Proof. reflexivity. Qed.

Lemma decode_rec_classify m :
  tlv_decode (Slice (rec_of (VBytes m)) []) TBytes =
  if decide (to_i 32 (zlen m) < 0) then Panic else
  if decide (to_i 32 (zlen m) = 0) then Ret (DOk None (Slice (rec_of (VBytes m)) [])) else
  Ret (DOk (Some (VBytes (take (Z.to_nat (to_i 32 (zlen m))) m))) (Slice (drop (Z.to_nat (to_i 32 (zlen m))) m) [])).
Proof.
  rewrite rec_of_bytes. rewrite decode_unfold by apply length_be.
  assert (slen (be 4 (to_u 32 (zlen m))) = to_i 32 (zlen m)) as ->.
  { unfold slen. rewrite unbe4_len by (unfold to_u; lia). apply to_i_mod. lia. }
  rewrite decide_False by lia.
  destruct (decide (to_i 32 (zlen m) = 0)) as [E|E].
  { rewrite decide_True by auto. rewrite decide_False by lia. reflexivity. }
  rewrite decide_False by tauto. rewrite decide_True by reflexivity.
  case_decide as Hn.
  - reflexivity.
  - rewrite advance_ok by lia. cbn [obind vis]. rewrite copy_into_take; [reflexivity|].
    pose proof (to_i_zlen_le m). unfold zlen in *. lia.
Qed.

Lemma encrypt_decrypt d seed m g ep nonce g' :
  length d = 32%nat -> length ep = 32%nat -> length nonce = 24%nat -> delivers g (ep ++ nonce) g' ->
  exists c, pub_encrypt (kPub (keypair d seed)) m g = Ret (Some c, g') /\
    length c = (length m + 77)%nat /\
    pub_decrypt (Some (keypair d seed)) c =
      (if decide (1 <= zlen m < 2 ^ 31) then Ret (Some m)
       else if decide (2 ^ 31 <= zlen m mod 2 ^ 32) then Panic else Ret None).
Proof.
  intros Hd He Hn D. rewrite pub_encrypt_eq. cbn [keypair kPub].
  rewrite (encrypt_raw_delivers _ _ _ _ ep nonce g' He Hn D).
  eexists. split; [reflexivity|]. split.
  { rewrite !app_length, box_pub_length, sbox_length, length_rec_bytes. lia. }
  set (c := box_pub ep ++ _).
  assert (opens_to d c (rec_of (VBytes m))) as O by (eapply sealed_opens; eauto; reflexivity).
  rewrite pub_decrypt_cases.
  assert (decrypt_raw (Some (keypair d seed)) c = Ret (Some (rec_of (VBytes m)))) as ->.
  { apply decrypt_raw_exact. split; auto. exists d. auto. }
  rewrite decode_rec_classify. pose proof (zlen_nonneg m) as H0.
  destruct (decide (1 <= zlen m < 2 ^ 31)) as [Hm|Hm].
  { rewrite to_i_small by lia. rewrite decide_False by lia. rewrite decide_False by lia.
    unfold zlen. rewrite Nat2Z.id, take_ge, drop_ge by lia.
    rewrite decide_False; [reflexivity|]. intros H; apply H; reflexivity. }
  destruct (decide (2 ^ 31 <= zlen m mod 2 ^ 32)) as [Hp|Hp].
  { rewrite decide_True; [reflexivity|]. unfold to_i. case_decide; lia. }
  assert (to_i 32 (zlen m) = zlen m mod 2 ^ 32) as -> by (unfold to_i; case_decide; lia).
  rewrite decide_False by lia. case_decide as Hz.
  - rewrite decide_True; [reflexivity|]. unfold dec_length, zlen. cbn [vis]. rewrite length_rec_bytes. lia.
  - rewrite decide_True; [reflexivity|]. unfold dec_length, zlen in *. cbn [vis]. rewrite drop_length. lia.
Qed.

(** ** Signatures *)
Lemma sign_exact k m :
  (priv_valid k = false -> sign k m = Ret None) /\
  (forall kk, k = Some kk -> priv_valid k = true -> exists s, kS kk = Some s /\ sign k m = Ret (Some (ed_sign s m))).
Proof.
  unfold sign. split.
  - intros ->. reflexivity.
  - intros kk -> V. rewrite V. apply priv_valid_iff in V as (d & s & e & v & [= ->]). cbn. eauto.
Qed.

Lemma verify_exact p m s :
  (exists b, verify p m s = Ret b) /\
  (verify p m s = Ret true <->
   exists e v, p = Some (PubKey (Some e) (Some v)) /\ length s = 64%nat /\ ed_verify v m s = true).
Proof.
  unfold verify. destruct (pub_valid p) eqn:V; cbn [negb].
  - apply pub_valid_iff in V as (e & v & ->). case_decide as H.
    + split; [eauto|]. split; [discriminate|]. intros (? & ? & _ & Hl & _). congruence.
    + cbn. rewrite copy_into_id by lia. split; [eauto|]. split.
      * intros [= E]. exists e, v. split_and!; auto; lia.
      * intros (e' & v' & [= <- <-] & _ & ->). reflexivity.
  - split; [eauto|]. split; [discriminate|]. intros (e & v & -> & _). discriminate.
Qed.

Lemma sign_verify d seed m :
  length seed = 32%nat ->
  exists s, sign (Some (keypair d seed)) m = Ret (Some s) /\ length s = 64%nat /\
    verify (kPub (keypair d seed)) m s = Ret true.
Proof.
  intros H. eexists. split; [reflexivity|]. split; [apply ed_sign_length|].
  apply verify_exact. eexists _, _. split; [reflexivity|]. split; [apply ed_sign_length|].
  apply ed_correct. exact H.
Qed.

(** ** Signcryption *)
Lemma dav_cases k p c :
  decrypt_and_verify (Some k) (Some p) c =
  if negb (priv_valid (Some k)) || negb (pub_valid (Some p)) then Ret None else
  match decrypt_raw (Some k) c with
  | Ret (Some out) =>
     match tlv_decode (Slice out []) TBytes with
     | Panic => Panic | Ret (DErr _) => Ret None
     | Ret (DOk m dec) =>
        match tlv_decode dec TBytes with
        | Panic => Panic | Ret (DErr _) => Ret None
        | Ret (DOk s dec) =>
          if decide (dec_length dec <> 0) then Ret None else
          if decide (length (stored s) <> 64%nat) then Ret None else
          let! ok := verify (Some p) (stored m) (stored s) in
          if ok then Ret (Some (stored m)) else Ret None
        end
     end
  | Ret None => Ret None
  | Panic => Panic
  end.
Proof.
  unfold decrypt_and_verify, new_decoder. destruct (negb _ || _) eqn:E; auto.
  apply orb_false_iff in E as [E _]. case_decide as H.
  - unfold decrypt_raw. rewrite E. rewrite decide_True by assumption. reflexivity.
  - destruct (decrypt_raw (Some k) c) as [[out|]|]; cbn [obind]; auto.
Qed.

Lemma empty_field_stuck b rest : field b [] rest -> forall x rest', field rest x rest' -> x = [] /\ rest' = b.
Proof.
  intros F x rest' F'. assert (rest = b) as -> by (destruct F as [[? _]|(_ & _ & ?)]; congruence).
  destruct (field_det _ _ _ _ _ F F') as [<- <-]. auto.
Qed.

Lemma dav_exact k p c m :
  decrypt_and_verify (Some k) (Some p) c = Ret (Some m) <->
  priv_valid (Some k) = true /\ (1 <= zlen m < 2 ^ 31 - 69) /\
  exists d e v payload s r1 r2, kD k = Some d /\ p = PubKey (Some e) (Some v) /\ opens_to d c payload /\
    payload = r1 ++ r2 /\ is_record m r1 /\ is_record s r2 /\ length s = 64%nat /\ ed_verify v m s = true.
Proof.
  rewrite dav_cases. split.
  - destruct (priv_valid (Some k)) eqn:V; cbn [negb orb]; [|discriminate].
    destruct (pub_valid (Some p)) eqn:V2; cbn [negb]; [|discriminate].
    destruct (decrypt_raw (Some k) c) as [[out|]|] eqn:E; try discriminate.
    apply decrypt_raw_exact in E as (_ & d & Ed & O).
    destruct (tlv_decode (Slice out []) TBytes) as [[?|mv dec]|] eqn:E2; try discriminate.
    apply decode_field in E2 as (rest & -> & F).
    destruct (tlv_decode (Slice rest []) TBytes) as [[?|sv dec]|] eqn:E3; try discriminate.
    apply decode_field in E3 as (rest2 & -> & F2).
    case_decide as Hz; [discriminate|]. assert (rest2 = []) as -> by (apply dec_length_nil; lia).
    case_decide as H64; [discriminate|].
    destruct (verify (Some p) (stored mv) (stored sv)) as [[]|] eqn:EV; try discriminate.
    cbn [obind]. intros [= <-]. apply verify_exact in EV as (e & v & [= ->] & Hs & EV).
    assert (stored mv <> []) as Hm.
    { intros E0. rewrite E0 in F. destruct (empty_field_stuck _ _ F _ _ F2) as [E1 _]. rewrite E1 in Hs. discriminate. }
    apply field_inv_end in F2 as (Hs0 & R2 & _).
    apply field_inv in F as [-> (n & Hn & Hle)]; auto.
    assert (zlen (stored mv) < 2 ^ 31 - 69) as Hb.
    { apply seen_length_iff in Hn. apply is_record_iff in R2 as [_ ->].
      rewrite zlen_app in Hn. assert (zlen (rec_of (VBytes (stored sv))) = 69) as E69 by (unfold zlen; rewrite length_rec_bytes; lia).
      rewrite E69 in Hn. pose proof (zlen_nonneg (stored mv)) as H0. subst n. clear -Hle H0.
      set (z := zlen (stored mv)) in *. clearbody z.
      unfold to_i in Hle. case_decide as Hd; lia. }
    split; auto. split.
    { destruct (stored mv); [congruence|]. rewrite zlen_cons in *. pose proof (zlen_nonneg l). lia. }
    exists d, e, v. eexists. exists (stored sv). eexists _, rest.
    split; [exact Ed|]. split; auto. split; [exact O|]. split; [reflexivity|]. split; [apply is_record_rec; lia|].
    auto.
  - intros (V & Hm & d & e & v & payload & s & r1 & r2 & Ed & -> & O & -> & R1 & R2 & Hs & EV).
    rewrite V. cbn [pub_valid pE pV negb orb].
    assert (decrypt_raw (Some k) c = Ret (Some (r1 ++ r2))) as -> by (apply decrypt_raw_exact; eauto).
    apply is_record_iff in R1 as [_ ->]. apply is_record_iff in R2 as [_ ->].
    assert (zlen (rec_of (VBytes s)) = 69) as E69 by (unfold zlen; rewrite length_rec_bytes; lia).
    assert (m <> []) as Hm0 by (intros ->; change (zlen (@nil byte)) with 0 in Hm; lia).
    destruct (field_decode _ _ _ (field_record m (rec_of (VBytes s)) Hm0 ltac:(lia))) as (mv & -> & E1).
    assert (field (rec_of (VBytes s)) s []) as F2.
    { apply field_inv_end. split; [eapply nonempty_length; eauto|]. assert (zlen s < 2 ^ 31) by (unfold zlen; lia).
      split; auto. apply is_record_rec. lia. }
    apply field_decode in F2 as (sv & -> & E2). rewrite E1, E2.
    rewrite decide_False by (intros H; apply H; reflexivity). rewrite decide_False by lia.
    assert (verify (Some (PubKey (Some e) (Some v))) m s = Ret true) as ->.
    { apply verify_exact. eauto. }
    reflexivity.
Qed.

Lemma encrypt_and_sign_eq d s e v p m g :
  encrypt_and_sign (Some (full_priv d s e v)) p m g =
  encrypt_raw p (rec_of (VBytes m) ++ rec_of (VBytes (ed_sign s m))) g.
Proof.
  unfold encrypt_and_sign, sign. cbn [priv_valid full_priv kPub pub_valid pE pV negb deref obind kS kD].
  rewrite !encode__rec by discriminate. reflexivity.
Qed.

Lemma keypair_full d seed : keypair d seed = full_priv d (seed ++ ed_pub seed) (box_pub d) (ed_pub seed).
Proof. reflexivity. Qed.

Lemma signcrypt_roundtrip da sa db sb m g ep nonce g' :
  length sa = 32%nat -> length db = 32%nat ->
  length ep = 32%nat -> length nonce = 24%nat -> delivers g (ep ++ nonce) g' ->
  exists c, encrypt_and_sign (Some (keypair da sa)) (kPub (keypair db sb)) m g = Ret (Some c, g') /\
    length c = (length m + 146)%nat /\
    (1 <= zlen m < 2 ^ 31 - 69 ->
      decrypt_and_verify (Some (keypair db sb)) (kPub (keypair da sa)) c = Ret (Some m)) /\
    (~ (1 <= zlen m < 2 ^ 31 - 69) ->
      forall m', decrypt_and_verify (Some (keypair db sb)) (kPub (keypair da sa)) c <> Ret (Some m')).
Proof.
  intros Hsa Hdb He Hn D. rewrite (keypair_full da sa), encrypt_and_sign_eq.
  cbn [kPub keypair]. rewrite (encrypt_raw_delivers _ _ _ _ ep nonce g' He Hn D).
  eexists. split; [reflexivity|]. split.
  { rewrite !app_length, box_pub_length, sbox_length, !app_length, !length_rec_bytes, ed_sign_length. lia. }
  set (c := box_pub ep ++ _). set (sig := ed_sign _ m) in *.
  assert (length sig = 64%nat) as Hsig by apply ed_sign_length.
  assert (opens_to db c (rec_of (VBytes m) ++ rec_of (VBytes sig))) as O by (eapply sealed_opens; eauto; reflexivity).
  split.
  - intros Hm. apply dav_exact. split; auto. split; auto.
    exists db, (box_pub da), (ed_pub sa). eexists. exists sig. eexists _, _.
    split; [reflexivity|]. split; [reflexivity|]. split; [exact O|]. split; [reflexivity|].
    split; [apply is_record_rec; lia|]. split; [apply is_record_rec; unfold zlen; lia|]. split; auto.
    apply ed_correct. exact Hsa.
  - intros Hm m' A. apply dav_exact in A as (_ & Hm' & d & e & v & payload & s & r1 & r2 & [= <-] & _ & O' & -> & R1 & R2 & Hs & _).
    pose proof (opens_unique _ _ _ _ O O') as E. apply is_record_iff in R1 as [_ ->], R2 as [_ ->].
    assert (zlen m = zlen m') as Hmm.
    { apply (f_equal length) in E. rewrite !app_length, !length_rec_bytes in E. unfold zlen. lia. }
    lia.
Qed.

Lemma not_confusable da sa db sb m g c g' :
  length db = 32%nat ->
  encrypt_and_sign (Some (keypair da sa)) (kPub (keypair db sb)) m g = Ret (Some c, g') ->
  forall m', pub_decrypt (Some (keypair db sb)) c <> Ret (Some m').
Proof.
  intros Hdb E m' A. rewrite (keypair_full da sa), encrypt_and_sign_eq in E.
  apply encrypt_raw_inv in E as [E|(e & v & ep & nonce & Hp & He & Hn & D & c' & [= <-] & S)]; [discriminate|].
  cbn in Hp. injection Hp as <- <-. apply sealed_opens in S; auto.
  apply pub_decrypt_exact in A as (_ & Hm & d & payload & [= <-] & O & R).
  rewrite <- (opens_unique _ _ _ _ S O) in R. clear O. apply is_record_iff in R as [Hm2 E].
  assert (length (ed_sign (sa ++ ed_pub sa) m) = 64%nat) as Hsig by apply ed_sign_length.
  pose proof (f_equal length E) as El. rewrite app_length, !length_rec_bytes in El.
  assert (rec_of (VBytes m) ++ rec_of (VBytes (ed_sign (sa ++ ed_pub sa) m)) = rec_of (VBytes m') ++ []) as E'
    by (rewrite app_nil_r; exact E).
  apply (wire_record_prefix (VBytes m) (VBytes m')) in E' as (_ & _ & E').
  - apply (f_equal length) in E'. rewrite length_rec_bytes in E'. discriminate.
  - apply is_record_rec. unfold zlen in *. lia.
  - apply is_record_rec. assumption.
Qed.

Lemma not_confusable_2 db sb p m g c g' :
  length db = 32%nat ->
  pub_encrypt (kPub (keypair db sb)) m g = Ret (Some c, g') ->
  forall m', decrypt_and_verify (Some (keypair db sb)) (Some p) c <> Ret (Some m').
Proof.
  intros Hdb E m' A. rewrite pub_encrypt_eq in E.
  apply encrypt_raw_inv in E as [E|(e & v & ep & nonce & Hp & He & Hn & D & c' & [= <-] & S)]; [discriminate|].
  cbn in Hp. injection Hp as <- <-. apply sealed_opens in S; auto.
  apply dav_exact in A as (_ & Hm' & d & e & v & payload & s & r1 & r2 & [= <-] & _ & O & -> & R1 & R2 & Hs & _).
  pose proof (opens_unique _ _ _ _ S O) as E. apply is_record_iff in R1 as [_ ->], R2 as [_ ->].
  pose proof (f_equal length E) as El. rewrite app_length, !length_rec_bytes in El.
  assert (rec_of (VBytes m) ++ [] = rec_of (VBytes m') ++ rec_of (VBytes s)) as E'
    by (rewrite app_nil_r; exact E).
  apply (wire_record_prefix (VBytes m) (VBytes m')) in E' as (_ & _ & E').
  - apply (f_equal length) in E'. rewrite length_rec_bytes in E'. discriminate.
  - apply is_record_rec. unfold zlen in *. lia.
  - apply is_record_rec. lia.
Qed.

Lemma forwarding da sa db sb dc sc m g c g' ep nonce h h' :
  length sa = 32%nat -> length db = 32%nat -> length dc = 32%nat -> 1 <= zlen m < 2 ^ 31 - 69 ->
  encrypt_and_sign (Some (keypair da sa)) (kPub (keypair db sb)) m g = Ret (Some c, g') ->
  length ep = 32%nat -> length nonce = 24%nat -> delivers h (ep ++ nonce) h' ->
  exists payload c', decrypt_raw (Some (keypair db sb)) c = Ret (Some payload) /\
    encrypt_raw (kPub (keypair dc sc)) payload h = Ret (Some c', h') /\
    decrypt_and_verify (Some (keypair dc sc)) (kPub (keypair da sa)) c' = Ret (Some m).
Proof.
  intros Hsa Hdb Hdc Hm E He Hn D. rewrite (keypair_full da sa), encrypt_and_sign_eq in E.
  apply encrypt_raw_inv in E as [E|(e & v & ep1 & nonce1 & Hp & He1 & Hn1 & D1 & c' & [= <-] & S)]; [discriminate|].
  cbn in Hp. injection Hp as <- <-. apply sealed_opens in S; auto.
  eexists. exists (box_pub ep ++ nonce ++ sbox_seal (box_shared (box_pub dc) ep) nonce
     (rec_of (VBytes m) ++ rec_of (VBytes (ed_sign (sa ++ ed_pub sa) m)))).
  split; [apply decrypt_raw_exact; split; [reflexivity|]; exists db; split; [reflexivity|exact S]|].
  split; [apply encrypt_raw_delivers; assumption|].
  apply dav_exact. split; auto. split; auto.
  exists dc, (box_pub da), (ed_pub sa). eexists. exists (ed_sign (sa ++ ed_pub sa) m). eexists _, _.
  split; [reflexivity|]. split; [reflexivity|]. split; [eapply sealed_opens; eauto; reflexivity|]. split; [reflexivity|].
  split; [apply is_record_rec; lia|]. split; [apply is_record_rec; unfold zlen; rewrite ed_sign_length; lia|].
  split; [apply ed_sign_length|]. apply ed_correct. exact Hsa.
Qed.

(** ** Locked keys *)
Lemma unlock_key_exact locked pass k :
  unlock_key locked pass = Ret (Some k) <->
  exists out, genuine_file pass out locked /\ unmarshal_private out = Ret (Some k).
Proof.
  unfold unlock_key, genuine_file, file_format. split.
  - case_decide as H; [discriminate|]. cbn zeta. rewrite derive_key_is. cbn [deref obind].
    destruct (decrypt _ _) as [[out|]|] eqn:E; cbn [obind]; try discriminate.
    apply decrypt_exact in E as [nonce S]. intros U. exists out. split; auto.
    exists (take 32 locked), nonce. split; [rewrite take_length; lia|]. eexists. split; [exact S|].
    symmetry; apply take_drop.
  - intros (out & (salt & nonce & Hl & c & S & ->) & U).
    pose proof (sealed_length _ _ _ _ S) as Hc.
    rewrite decide_False by (rewrite app_length; lia). cbn zeta.
    rewrite take_app_alt, drop_app_alt by auto. rewrite derive_key_is. cbn [deref obind].
    assert (decrypt (Some (scrypt_raw pass salt (2 ^ 20) 8 2)) c = Ret (Some out)) as -> by (apply decrypt_exact; eauto).
    exact U.
Qed.

Lemma unlock_key_rejects locked pass :
  (forall out, ~ genuine_file pass out locked) -> unlock_key locked pass = Ret None.
Proof.
  intros H. unfold unlock_key. case_decide as Hl; [reflexivity|]. cbn zeta. rewrite derive_key_is. cbn [deref obind].
  destruct (decrypt_total (scrypt_raw pass (take 32 locked) (2 ^ 20) 8 2) (drop 32 locked)) as [[out|] E]; rewrite E; cbn [obind]; auto.
  exfalso. apply decrypt_exact in E as [nonce S]. apply (H out). exists (take 32 locked), nonce.
  split; [rewrite take_length; lia|]. eexists. split; [exact S|]. symmetry; apply take_drop.
Qed.

Lemma lock_unlock k pass g salt nonce g' :
  priv_valid (Some k) = true -> wf_priv k ->
  length salt = 32%nat -> length nonce = 24%nat -> delivers g (salt ++ nonce) g' ->
  exists l, lock_key (Some k) pass g = Ret (Some l, g') /\ length l = 252%nat /\ unlock_key l pass = Ret (Some k).
Proof.
  intros V W Hs Hn D. destruct (marshal_private_roundtrip k V W) as (b & M & Hb & U).
  unfold lock_key. rewrite M. cbn [obind]. unfold delivers in D. rewrite map_app, <- app_assoc in D.
  rewrite (rand_delivers 32 _ salt _ Hs D). rewrite derive_key_is. cbn [deref obind].
  rewrite (encrypt_delivers _ _ _ nonce g' Hn eq_refl). cbn [obind].
  eexists. split; [reflexivity|]. split.
  { rewrite !app_length, sbox_length. lia. }
  apply unlock_key_exact. exists b. split.
  - exists salt, nonce. split; auto. eexists. split; [|reflexivity]. split; auto.
  - specialize (U [] ltac:(change (zlen (@nil byte)) with 0; lia)). rewrite app_nil_r in U. exact U.
Qed.

Lemma lock_key_fails k pass g :
  (priv_valid k = false -> lock_key k pass g = Ret (None, g)) /\
  (priv_valid k = true -> starved g 56 -> exists g', lock_key k pass g = Ret (None, g')).
Proof.
  unfold lock_key. split.
  - intros V. apply marshal_private_invalid in V. rewrite V. reflexivity.
  - intros V S. apply priv_valid_iff in V as (d & s & e & v & ->). rewrite marshal_private_full. cbn [obind].
    destruct (rand 32 g) as [[salt|] g1] eqn:E; [|eauto].
    apply read_full_some in E as [Hl D]. rewrite derive_key_is. cbn [deref obind].
    assert (starved g1 24) as S1.
    { intros q g' Hq D'. apply (S (salt ++ q) g'); [rewrite app_length; lia|].
      unfold delivers in *. rewrite map_app, <- app_assoc. congruence. }
    apply (encrypt_starved (Some (scrypt_raw pass salt (2 ^ 20) 8 2)) (rec_of (VBytes d) ++ rec_of (VBytes s) ++ rec_of (VBytes e) ++ rec_of (VBytes v))) in S1 as [g2 ->].
    cbn [obind]. eauto.
Qed.

(** ** Key exchange *)
Lemma key_exchange_agree da sa db sb :
  length da = 32%nat -> length db = 32%nat ->
  exists k, key_exchange (Some (keypair da sa)) (kPub (keypair db sb)) = Ret k /\
            key_exchange (Some (keypair db sb)) (kPub (keypair da sa)) = Ret k /\ length k = 32%nat.
Proof.
  intros Ha Hb. unfold key_exchange. cbn. rewrite (box_dh db da) by assumption.
  eexists. split; [reflexivity|]. split; [reflexivity|]. apply length_copy_into.
Qed.
Lemma signcrypt_invalid_signer k p m g : priv_valid k = false -> encrypt_and_sign k p m g = Ret (None, g).
Proof. intros H. unfold encrypt_and_sign. destruct (sign_exact k m) as [E _]. rewrite E by assumption. reflexivity. Qed.
End WithCrypto.
