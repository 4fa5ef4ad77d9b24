(** Lemmas about the TLV model. *)
From Verif Require Export BytesFacts SpecTlv.
Local Open Scope Z_scope.

Definition rec_of (v : value) : bytes :=
  match tlv_encode [] v with Some e => e | None => [] end.

Lemma encode_app enc v : v <> VOther -> tlv_encode enc v = Some (enc ++ rec_of v).
Proof.
  intros Hv. unfold rec_of. destruct v as [[]|b|]; cbn [tlv_encode app];
    rewrite <- ?app_assoc; try reflexivity. congruence.
Qed.

Lemma fits_not_other B v : fits B v -> v <> VOther.
Proof. intros H ->. exact H. Qed.

Lemma encode_seq_app enc vs :
  Forall (fun v => v <> VOther) vs ->
  encode_seq enc vs = Some (enc ++ concat (map rec_of vs)).
Proof.
  revert enc. induction vs as [|v vs IH]; intros enc H; cbn [encode_seq map concat].
  - rewrite app_nil_r. reflexivity.
  - inversion H as [|? ? Hv Hvs]; subst. rewrite encode_app by assumption.
    rewrite IH by assumption. rewrite app_assoc. reflexivity.
Qed.

Lemma be_length_small n z : length (be n z) = n.
Proof. apply length_be. Qed.

Lemma unbe4_len (k : Z) : 0 <= k < 2 ^ 32 -> unbe (be 4 k) = k.
Proof.
  intros H. rewrite unbe_be. change (256 ^ Z.of_nat 4) with (2 ^ 32).
  apply Z.mod_small. lia.
Qed.

Lemma bz_x n : bz (zb n) = n mod 256. Proof. apply bz_zb. Qed.

(** Shape of a record. *)
Lemma rec_of_wire v : fits (2 ^ 32) v -> wire_record v (rec_of v).
Proof.
  intros H. unfold wire_record. destruct v as [t z|b|]; cbn [fits] in H; [| |contradiction].
  - destruct t; cbn [in_range] in H.
    + exists TagInt8, [x00;x00;x00;x01], [zb z]. repeat split; try lia.
      unfold unbe; cbn [unbe_acc]. rewrite bz_zb. cbn [width]. change (2 ^ (8 * Z.of_nat 1)) with 256. lia.
    + exists TagUint8, [x00;x00;x00;x01], [zb z]. repeat split; try lia.
      unfold unbe; cbn [unbe_acc]. rewrite bz_zb. cbn [width]. change (2 ^ (8 * Z.of_nat 1)) with 256. lia.
    + exists TagInt16, [x00;x00;x00;x02], (be 2 (to_u 16 z)). repeat split; try lia.
      rewrite unbe_be. unfold to_u. cbn [width]. rewrite Z.mod_mod by lia. reflexivity.
    + exists TagUint16, [x00;x00;x00;x02], (be 2 z). repeat split; try lia.
      rewrite unbe_be. reflexivity.
    + exists TagInt32, [x00;x00;x00;x04], (be 4 (to_u 32 z)). repeat split; try lia.
      rewrite unbe_be. unfold to_u. cbn [width]. rewrite Z.mod_mod by lia. reflexivity.
    + exists TagUint32, [x00;x00;x00;x04], (be 4 z). repeat split; try lia.
      rewrite unbe_be. reflexivity.
    + exists TagInt64, [x00;x00;x00;x08], (be 8 (to_u 64 z)). repeat split; try lia.
      rewrite unbe_be. unfold to_u. cbn [width]. rewrite Z.mod_mod by lia. reflexivity.
    + exists TagUint64, [x00;x00;x00;x08], (be 8 (to_u 64 z)). repeat split; try lia.
      rewrite unbe_be. unfold to_u. cbn [width]. rewrite Z.mod_mod by lia. reflexivity.
  - exists TagBytes, (be 4 (to_u 32 (zlen b))), b.
    split; [reflexivity|]. split; [apply length_be|]. split; [|split; reflexivity].
    unfold to_u. rewrite Z.mod_small by (unfold zlen in *; lia). apply unbe4_len. unfold zlen in *; lia.
Qed.

Lemma denotes_inj t p z z' : denotes t p z -> denotes t p z' -> z = z'.
Proof.
  intros (_ & H1 & E1) (_ & H2 & E2). rewrite E1 in E2. clear E1.
  destruct t; cbn [in_range width] in *; cbn in E2; lia.
Qed.

Lemma denotes_payload_inj t p p' z : denotes t p z -> denotes t p' z -> p = p'.
Proof.
  intros (L1 & _ & E1) (L2 & _ & E2). apply unbe_inj; congruence.
Qed.

Lemma bz_tag_bytes t : bz t = wire_tag_bytes <-> t = TagBytes.
Proof. split; [|intros ->; reflexivity]. intros H. apply bz_inj. rewrite H. reflexivity. Qed.

Lemma bz_itag it t : bz t = wire_tag it <-> t = itag it.
Proof.
  split; [|intros ->; destruct it; reflexivity].
  intros H. apply bz_inj. rewrite H. destruct it; reflexivity.
Qed.

Lemma wire_tag_inj a b : wire_tag a = wire_tag b -> a = b.
Proof. destruct a, b; cbn; intros; congruence. Qed.

(** A record determines its value, and no record is a proper prefix of another. *)
Lemma wire_record_prefix v w a b r1 r2 :
  wire_record v a -> wire_record w b -> a ++ r1 = b ++ r2 -> v = w /\ a = b /\ r1 = r2.
Proof.
  intros (t1 & l1 & p1 & -> & L1 & E1 & M1) (t2 & l2 & p2 & -> & L2 & E2 & M2) H.
  cbn [app] in H. injection H as Ht H. subst t2.
  rewrite <- !app_assoc in H. apply app_inj_1 in H as [-> H]; [|congruence].
  assert (Hp : length p1 = length p2) by (unfold zlen in *; lia).
  apply app_inj_1 in H as [-> ->]; [|assumption].
  split; [|split; reflexivity].
  destruct v as [tv z|bv|], w as [tw z'|bw|]; try contradiction;
    destruct M1 as [T1 P1], M2 as [T2 P2].
  - rewrite T1 in T2. apply wire_tag_inj in T2 as ->.
    f_equal. eapply denotes_inj; eassumption.
  - rewrite T1 in T2. destruct tv; discriminate.
  - rewrite T1 in T2. destruct tw; discriminate.
  - congruence.
Qed.

Lemma concat_recs_inj vs ws r1 r2 :
  Forall (fits (2 ^ 32)) vs -> Forall (fits (2 ^ 32)) ws -> length vs = length ws ->
  concat (map rec_of vs) ++ r1 = concat (map rec_of ws) ++ r2 -> vs = ws /\ r1 = r2.
Proof.
  revert ws. induction vs as [|v vs IH]; intros [|w ws] Hv Hw Hl H; try discriminate.
  - auto.
  - inversion Hv; inversion Hw; subst. cbn [map concat] in H. rewrite <- !app_assoc in H.
    pose proof (wire_record_prefix v w _ _ _ _ (rec_of_wire v ltac:(assumption))
      (rec_of_wire w ltac:(assumption)) H) as (-> & _ & H').
    destruct (IH ws) as [-> ->]; auto.
Qed.

Lemma rec_of_nonnil v : fits (2 ^ 32) v -> rec_of v <> [].
Proof. intros H. destruct (rec_of_wire v H) as (t & l & p & -> & _). discriminate. Qed.

Lemma concat_recs_inj_all vs ws :
  Forall (fits (2 ^ 32)) vs -> Forall (fits (2 ^ 32)) ws ->
  concat (map rec_of vs) = concat (map rec_of ws) -> vs = ws.
Proof.
  revert ws. induction vs as [|v vs IH]; intros [|w ws] Hv Hw H.
  - reflexivity.
  - inversion Hw; subst. cbn [map concat] in H. symmetry in H. apply app_eq_nil in H as [H _].
    exfalso. revert H. apply rec_of_nonnil; assumption.
  - inversion Hv; subst. cbn [map concat] in H. apply app_eq_nil in H as [H _].
    exfalso. revert H. apply rec_of_nonnil; assumption.
  - inversion Hv; inversion Hw; subst. cbn [map concat] in H.
    pose proof (wire_record_prefix v w _ _ _ _ (rec_of_wire v ltac:(assumption))
      (rec_of_wire w ltac:(assumption)) H) as (-> & _ & H').
    f_equal. apply IH; assumption.
Qed.

Lemma length_rec_of v : fits (2 ^ 32) v ->
  length (rec_of v) = (5 + match v with VInt t _ => width t | VBytes b => length b | VOther => 0 end)%nat.
Proof.
  intros H. destruct (rec_of_wire v H) as (t & l & p & -> & L & E & M).
  cbn [length]. rewrite app_length, L. destruct v as [ty z|b|]; try contradiction.
  - destruct M as [_ (-> & _)]. lia.
  - destruct M as [_ ->]. lia.
Qed.

(** ** Decode in terms of the header. *)

Lemma header_exists (b : bytes) : (5 <= length b)%nat ->
  exists t len body, b = t :: len ++ body /\ length len = 4%nat.
Proof.
  intros H. destruct b as [|t b]; [cbn in H; lia|].
  exists t, (take 4 b), (drop 4 b). rewrite take_drop. split; [reflexivity|].
  rewrite take_length. cbn in H. lia.
Qed.

(** The signed length field. *)
Definition slen (len : bytes) : Z := to_i 32 (unbe len).

Lemma unbe4_range len : length len = 4%nat -> 0 <= unbe len < 2 ^ 32.
Proof.
  intros H. pose proof (unbe_range len) as R. unfold zlen in R. rewrite H in R. exact R.
Qed.

Lemma slen_spec len : length len = 4%nat ->
  (unbe len < 2 ^ 31 -> slen len = unbe len) /\ (2 ^ 31 <= unbe len -> slen len = unbe len - 2 ^ 32).
Proof.
  intros H. apply unbe4_range in H. unfold slen, to_i.
  rewrite Z.mod_small by lia. case_decide; lia.
Qed.

Lemma slen_range len : - 2 ^ 31 <= slen len < 2 ^ 31.
Proof. unfold slen. pose proof (to_i_range 32 (unbe len)). lia. Qed.

Lemma header_iff b tag l body :
  header b tag l body <->
  exists t len, b = t :: len ++ body /\ length len = 4%nat /\ bz t = tag /\ l = slen len.
Proof.
  unfold header. split; intros (t & len & -> & L & T & H); exists t, len; repeat split; auto;
    pose proof (slen_spec len L) as S; pose proof (unbe4_range len L); lia.
Qed.

Lemma header_inj b tag l body tag' l' body' :
  header b tag l body -> header b tag' l' body' -> tag = tag' /\ l = l' /\ body = body'.
Proof.
  rewrite !header_iff. intros (t & len & -> & L & T & S) (t' & len' & E & L' & T' & S').
  injection E as -> E. apply app_inj_1 in E as [-> ->]; [|congruence]. subst. auto.
Qed.

Lemma seen_length_iff body n : seen_length body n <-> n = to_i 32 (zlen body).
Proof.
  unfold seen_length. split.
  - intros (R & k & E). rewrite E.
    rewrite <- (to_i_small 32 n) at 1 by lia. unfold to_i.
    rewrite Z.mod_add by lia. reflexivity.
  - intros ->. split; [pose proof (to_i_range 32 (zlen body)); lia|].
    unfold to_i. case_decide.
    + exists (zlen body / 2 ^ 32). lia.
    + exists (zlen body / 2 ^ 32 + 1). lia.
Qed.

Lemma decode_unfold t len body h tgt : length len = 4%nat ->
  tlv_decode (Slice (t :: len ++ body) h) tgt =
  if decide (slen len > to_i 32 (zlen body)) then Ret (DErr EInvalidLength) else
  if decide (t = TagBytes /\ slen len = 0) then Ret (DOk None (Slice (t :: len ++ body) h)) else
  match tgt with
  | TNil => Ret (DErr ENilPointer)
  | TInt it =>
      if decide (t = itag it) then
        let! z := read_int it (Slice body h) in
        let! rest := advance (slen len) (Slice body h) in
        Ret (DOk (Some (VInt it z)) rest)
      else Ret (DErr (EInvalidTag t))
  | TBytes =>
      if decide (t = TagBytes) then
        if decide (slen len < 0) then Panic else
        let data := copy_into (Z.to_nat (slen len)) body in
        let! rest := advance (slen len) (Slice body h) in
        Ret (DOk (Some (VBytes data)) rest)
      else Ret (DErr (EInvalidTag t))
  | TOther => Ret (DErr (EUnknown t))
  end.
Proof.
  intros L. unfold tlv_decode. cbn [vis].
  destruct (decide _) as [Hlt|_]; [cbn [length] in Hlt; rewrite app_length in Hlt; lia|].
  change (drop 1 (t :: len ++ body)) with (len ++ body).
  assert (E4 : take 4 (len ++ body) = len) by (rewrite <- L; apply take_app).
  assert (E5 : drop 5 (t :: len ++ body) = body).
  { change (drop 4 (len ++ body) = body). rewrite <- L. apply drop_app. }
  rewrite E4, E5. unfold slice_from. cbn [vis hid]. rewrite E5.
  fold (slen len). reflexivity.
Qed.

Lemma decode_short b h tgt : (length b < 5)%nat -> tlv_decode (Slice b h) tgt = Ret (DErr EInvalidData).
Proof. intros H. unfold tlv_decode. cbn [vis]. rewrite decide_True by exact H. reflexivity. Qed.

Lemma to_i_zlen_le (body : bytes) : to_i 32 (zlen body) <= zlen body.
Proof.
  unfold to_i. assert (0 <= zlen body) by (unfold zlen; lia). case_decide; lia.
Qed.

Lemma advance_ok l body h : 0 <= l -> l <= to_i 32 (zlen body) ->
  advance l (Slice body h) = Ret (Slice (drop (Z.to_nat l) body) h).
Proof.
  intros H0 H1. pose proof (to_i_zlen_le body). unfold advance. cbn [vis].
  rewrite decide_True by lia. reflexivity.
Qed.

Lemma advance_neg l body h : l < 0 -> advance l (Slice body h) = Panic.
Proof. intros H. unfold advance. cbn [vis]. rewrite decide_False by lia. reflexivity. Qed.

Lemma copy_into_take n l : (n <= length l)%nat -> copy_into n l = take n l.
Proof. intros H. unfold copy_into. replace (n - length l)%nat with 0%nat by lia. apply app_nil_r. Qed.

(** Bytes an integer read may touch. *)
Definition readable (t : ity) (body h : bytes) : bytes :=
  match t with I8 | U8 => body | _ => body ++ h end.

Lemma read_int_panics t body h :
  read_int t (Slice body h) = Panic <-> (length (readable t body h) < width t)%nat.
Proof.
  destruct t; cbn [read_int readable width];
    unfold slice_at0, slice_to; cbn [vis hid];
    [destruct body; cbn; split; intros; first [lia|discriminate|reflexivity]
    |destruct body; cbn; split; intros; first [lia|discriminate|reflexivity]
    |case_decide; cbn [obind]; split; intros; first [lia|discriminate|reflexivity]..].
Qed.

Lemma read_int_ok t body h z :
  read_int t (Slice body h) = Ret z <->
  (width t <= length (readable t body h))%nat /\ denotes t (take (width t) (readable t body h)) z.
Proof.
  assert (HI : forall n z w, 0 < n -> 0 <= w < 2 ^ n ->
    to_i n w = z <-> (- 2 ^ (n - 1) <= z < 2 ^ (n - 1) /\ w = z mod 2 ^ n)).
  { intros n z0 w Hn Hw. split.
    - intros <-. split; [apply to_i_range; lia|].
      unfold to_i. rewrite (Z.mod_small w) by lia. case_decide.
      + rewrite Z.mod_small by lia. reflexivity.
      + replace (w - 2 ^ n) with (w + (-1) * 2 ^ n) by lia.
        rewrite Z.mod_add by lia. rewrite Z.mod_small; lia.
    - intros [R ->]. rewrite to_i_mod by lia. apply to_i_small; lia. }
  assert (HU : forall p n, length p = n -> 0 <= unbe p < 256 ^ Z.of_nat n).
  { intros p n <-. apply unbe_range. }
  unfold denotes.
  destruct t; cbn [read_int readable width in_range];
    unfold slice_at0, slice_to; cbn [vis hid].
  1,2: destruct body as [|b body]; cbn [obind length take];
    [split; [discriminate|lia]|];
    change (take 0 body) with (@nil byte);
    change (unbe [b]) with (0 * 256 + bz b); pose proof (bz_range b); cbn [length].
  - specialize (HI 8 z (bz b)). split.
    + intros [= E]. apply HI in E; [|lia|lia]. change (2 ^ (8 * Z.of_nat 1)) with (2 ^ 8). lia.
    + change (2 ^ (8 * Z.of_nat 1)) with (2 ^ 8). intros (_ & _ & R & E). f_equal. apply HI; lia.
  - split.
    + intros [= <-]. change (2 ^ (8 * Z.of_nat 1)) with (2 ^ 8). lia.
    + change (2 ^ (8 * Z.of_nat 1)) with (2 ^ 8). intros (_ & _ & R & E). f_equal. lia.
  - case_decide as D; cbn [obind]; [|split; [discriminate|lia]].
    assert (L : length (take 2 (body ++ h)) = 2%nat) by (rewrite take_length; lia).
    pose proof (HU _ _ L) as B. specialize (HI 16 z (unbe (take 2 (body ++ h)))).
    change (2 ^ (8 * Z.of_nat 2)) with (2 ^ 16). change (256 ^ Z.of_nat 2) with (2 ^ 16) in B.
    split.
    + intros [= E]. apply HI in E; [|lia|lia]. tauto.
    + intros (_ & _ & R & E). f_equal. apply HI; [lia|lia|]. tauto.
  - case_decide as D; cbn [obind]; [|split; [discriminate|lia]].
    assert (L : length (take 2 (body ++ h)) = 2%nat) by (rewrite take_length; lia).
    pose proof (HU _ _ L) as B.
    change (2 ^ (8 * Z.of_nat 2)) with (2 ^ 16). change (256 ^ Z.of_nat 2) with (2 ^ 16) in B.
    split.
    + intros [= <-]. rewrite Z.mod_small by lia. tauto.
    + intros (_ & _ & R & E). f_equal. rewrite E. apply Z.mod_small. lia.
  - case_decide as D; cbn [obind]; [|split; [discriminate|lia]].
    assert (L : length (take 4 (body ++ h)) = 4%nat) by (rewrite take_length; lia).
    pose proof (HU _ _ L) as B. specialize (HI 32 z (unbe (take 4 (body ++ h)))).
    change (2 ^ (8 * Z.of_nat 4)) with (2 ^ 32). change (256 ^ Z.of_nat 4) with (2 ^ 32) in B.
    split.
    + intros [= E]. apply HI in E; [|lia|lia]. tauto.
    + intros (_ & _ & R & E). f_equal. apply HI; [lia|lia|]. tauto.
  - case_decide as D; cbn [obind]; [|split; [discriminate|lia]].
    assert (L : length (take 4 (body ++ h)) = 4%nat) by (rewrite take_length; lia).
    pose proof (HU _ _ L) as B.
    change (2 ^ (8 * Z.of_nat 4)) with (2 ^ 32). change (256 ^ Z.of_nat 4) with (2 ^ 32) in B.
    split.
    + intros [= <-]. rewrite Z.mod_small by lia. tauto.
    + intros (_ & _ & R & E). f_equal. rewrite E. apply Z.mod_small. lia.
  - case_decide as D; cbn [obind]; [|split; [discriminate|lia]].
    assert (L : length (take 8 (body ++ h)) = 8%nat) by (rewrite take_length; lia).
    pose proof (HU _ _ L) as B. specialize (HI 64 z (unbe (take 8 (body ++ h)))).
    change (2 ^ (8 * Z.of_nat 8)) with (2 ^ 64). change (256 ^ Z.of_nat 8) with (2 ^ 64) in B.
    split.
    + intros [= E]. apply HI in E; [|lia|lia]. tauto.
    + intros (_ & _ & R & E). f_equal. apply HI; [lia|lia|]. tauto.
  - case_decide as D; cbn [obind]; [|split; [discriminate|lia]].
    assert (L : length (take 8 (body ++ h)) = 8%nat) by (rewrite take_length; lia).
    pose proof (HU _ _ L) as B.
    change (2 ^ (8 * Z.of_nat 8)) with (2 ^ 64). change (256 ^ Z.of_nat 8) with (2 ^ 64) in B.
    split.
    + intros [= <-]. rewrite Z.mod_small by lia. tauto.
    + intros (_ & _ & R & E). f_equal. rewrite E. apply Z.mod_small. lia.
Qed.

(** ** The four outcomes of Decode. *)


Lemma decode_panics b h tgt : tlv_decode (Slice b h) tgt = Panic <-> panic_spec b h tgt.
Proof.
  destruct (decide (length b < 5)%nat) as [Hs|Hs].
  { rewrite decode_short by exact Hs. split; [discriminate|].
    intros (tag & l & body & n & Hh & _). apply header_iff in Hh as (t & len & -> & L & _).
    cbn [length] in Hs. rewrite app_length in Hs. lia. }
  destruct (header_exists b) as (t & len & body & -> & L); [lia|].
  rewrite decode_unfold by exact L.
  assert (HP : panic_spec (t :: len ++ body) h tgt <->
    slen len <= to_i 32 (zlen body) /\
    match tgt with
    | TInt it => t = itag it /\ (slen len < 0 \/ (length (readable it body h) < width it)%nat)
    | TBytes => t = TagBytes /\ slen len < 0
    | _ => False
    end).
  { split.
    - intros (tag & l & body' & n & Hh & Hn & Hle & M).
      assert (Hh' : header (t :: len ++ body) (bz t) (slen len) body).
      { apply header_iff. exists t, len. auto. }
      destruct (header_inj _ _ _ _ _ _ _ Hh Hh') as (-> & -> & ->).
      apply seen_length_iff in Hn as ->. split; [exact Hle|].
      destruct tgt; try contradiction.
      + rewrite bz_itag in M. destruct M as [-> M]. auto.
      + rewrite bz_tag_bytes in M. exact M.
    - intros [Hle M]. exists (bz t), (slen len), body, (to_i 32 (zlen body)).
      split; [apply header_iff; exists t, len; auto|].
      split; [apply seen_length_iff; reflexivity|]. split; [exact Hle|].
      destruct tgt; try contradiction.
      + rewrite bz_itag. exact M.
      + rewrite bz_tag_bytes. exact M. }
  rewrite HP. clear HP.
  destruct (decide (slen len > _)); [split; [discriminate|lia]|].
  destruct (decide (t = TagBytes /\ slen len = 0)) as [[-> Z0]|Hz].
  { split; [discriminate|]. intros [_ M]. destruct tgt; try contradiction; [|lia].
    destruct M as [M _]. destruct t; discriminate. }
  destruct tgt as [it| | |]; try (split; [discriminate|tauto]).
  - destruct (decide (t = itag it)) as [->|Ht]; [|split; [discriminate|tauto]].
    destruct (read_int it (Slice body h)) as [z|] eqn:E; cbn [obind].
    + assert (Hnp : ~ (length (readable it body h) < width it)%nat).
      { intros Hc. apply read_int_panics in Hc. congruence. }
      destruct (decide (slen len < 0)).
      * rewrite advance_neg by assumption. cbn. split; [|reflexivity]. intros _. split; [lia|]. tauto.
      * rewrite advance_ok by lia. cbn. split; [discriminate|]. intros (_ & _ & [?|?]); [lia|tauto].
    + split; [|reflexivity]. intros _. split; [lia|]. split; [reflexivity|]. right.
      apply read_int_panics. exact E.
  - destruct (decide (t = TagBytes)) as [->|Ht]; [|split; [discriminate|tauto]].
    destruct (decide (slen len < 0)).
    + split; [|reflexivity]. intros _. split; [lia|auto].
    + cbn zeta. rewrite advance_ok by lia. cbn. split; [discriminate|]. intros (_ & _ & ?). lia.
Qed.


Lemma decode_value b h tgt v rest :
  tlv_decode (Slice b h) tgt = Ret (DOk (Some v) rest) <-> value_spec b h tgt v rest.
Proof.
  destruct (decide (length b < 5)%nat) as [Hs|Hs].
  { rewrite decode_short by exact Hs. split; [discriminate|].
    intros (tag & l & body & n & Hh & _). apply header_iff in Hh as (t & len & -> & L & _).
    cbn [length] in Hs. rewrite app_length in Hs. lia. }
  destruct (header_exists b) as (t & len & body & -> & L); [lia|].
  rewrite decode_unfold by exact L.
  assert (HP : value_spec (t :: len ++ body) h tgt v rest <->
    0 <= slen len <= to_i 32 (zlen body) /\ rest = Slice (drop (Z.to_nat (slen len)) body) h /\
    match tgt with
    | TInt it => t = itag it /\ exists z payload tail, v = VInt it z /\ denotes it payload z
         /\ readable it body h = payload ++ tail
    | TBytes => t = TagBytes /\ 0 < slen len /\ v = VBytes (take (Z.to_nat (slen len)) body)
    | _ => False
    end).
  { split.
    - intros (tag & l & body' & n & Hh & Hn & Hle & Hr & M).
      assert (Hh' : header (t :: len ++ body) (bz t) (slen len) body).
      { apply header_iff. exists t, len. auto. }
      destruct (header_inj _ _ _ _ _ _ _ Hh Hh') as (-> & -> & ->).
      apply seen_length_iff in Hn as ->. split; [exact Hle|]. split; [exact Hr|].
      destruct tgt; try contradiction.
      + rewrite bz_itag in M. exact M.
      + rewrite bz_tag_bytes in M. exact M.
    - intros (Hle & Hr & M). exists (bz t), (slen len), body, (to_i 32 (zlen body)).
      split; [apply header_iff; exists t, len; auto|].
      split; [apply seen_length_iff; reflexivity|]. split; [exact Hle|]. split; [exact Hr|].
      destruct tgt; try contradiction.
      + rewrite bz_itag. exact M.
      + rewrite bz_tag_bytes. exact M. }
  rewrite HP. clear HP.
  destruct (decide (slen len > _)); [split; [discriminate|lia]|].
  destruct (decide (t = TagBytes /\ slen len = 0)) as [[-> Z0]|Hz].
  { split; [discriminate|]. intros (_ & _ & M). destruct tgt; try contradiction; [|lia].
    destruct M as [M _]. destruct t; discriminate. }
  destruct tgt as [it| | |]; try (split; [discriminate|tauto]).
  - destruct (decide (t = itag it)) as [->|Ht]; [|split; [discriminate|tauto]].
    assert (HR : forall z, read_int it (Slice body h) = Ret z <->
      exists payload tail, denotes it payload z /\ readable it body h = payload ++ tail).
    { intros z. rewrite read_int_ok. split.
      - intros [Hl Hd]. exists (take (width it) (readable it body h)), (drop (width it) (readable it body h)).
        split; [exact Hd|]. rewrite take_drop. reflexivity.
      - intros (p & tl & Hd & ->). assert (Lp : length p = width it) by apply Hd.
        rewrite app_length. split; [lia|]. rewrite <- Lp, take_app. exact Hd. }
    destruct (read_int it (Slice body h)) as [z|] eqn:E; cbn [obind].
    + destruct (decide (slen len < 0)).
      * rewrite advance_neg by assumption. cbn. split; [discriminate|lia].
      * rewrite advance_ok by lia. cbn. split.
        -- intros [= <- <-]. split; [lia|]. split; [reflexivity|]. split; [reflexivity|].
           destruct (HR z) as [HR1 _]. destruct (HR1 eq_refl) as (p & tl & Hp). exists z, p, tl. tauto.
        -- intros (_ & -> & _ & z' & p & tl & -> & Hp & Hr).
           assert (Ez : Ret z = Ret z') by (apply HR; eauto). injection Ez as ->. reflexivity.
    + split; [discriminate|]. intros (_ & _ & _ & z' & p & tl & _ & Hp & Hr).
      assert (Ez : Panic = Ret z') by (apply HR; eauto). discriminate.
  - destruct (decide (t = TagBytes)) as [->|Ht]; [|split; [discriminate|tauto]].
    destruct (decide (slen len < 0)); [split; [discriminate|lia]|].
    cbn zeta. rewrite advance_ok by lia. cbn [obind].
    pose proof (to_i_zlen_le body) as Hb.
    rewrite copy_into_take by (unfold zlen in *; lia).
    split.
    + intros [= <- <-]. assert (slen len <> 0) by tauto. repeat split; lia.
    + intros (_ & -> & _ & _ & ->). reflexivity.
Qed.


Lemma decode_untouched b h tgt rest :
  tlv_decode (Slice b h) tgt = Ret (DOk None rest) <-> empty_spec b /\ rest = Slice b h.
Proof.
  destruct (decide (length b < 5)%nat) as [Hs|Hs].
  { rewrite decode_short by exact Hs. split; [discriminate|].
    intros ((body & n & Hh & _) & _). apply header_iff in Hh as (t & len & -> & L & _).
    cbn [length] in Hs. rewrite app_length in Hs. lia. }
  destruct (header_exists b) as (t & len & body & -> & L); [lia|].
  rewrite decode_unfold by exact L.
  assert (HP : empty_spec (t :: len ++ body) <->
    0 <= to_i 32 (zlen body) /\ t = TagBytes /\ slen len = 0).
  { split.
    - intros (body' & n & Hh & Hn & Hle).
      assert (Hh' : header (t :: len ++ body) (bz t) (slen len) body).
      { apply header_iff. exists t, len. auto. }
      destruct (header_inj _ _ _ _ _ _ _ Hh Hh') as (E1 & E2 & ->).
      apply seen_length_iff in Hn as ->. symmetry in E1. rewrite bz_tag_bytes in E1. auto.
    - intros (Hle & -> & M). exists body, (to_i 32 (zlen body)).
      split; [apply header_iff; exists TagBytes, len; auto|].
      split; [apply seen_length_iff; reflexivity|exact Hle]. }
  rewrite HP. clear HP.
  destruct (decide (slen len > _)); [split; [discriminate|lia]|].
  destruct (decide (t = TagBytes /\ slen len = 0)) as [[-> Z0]|Hz].
  { split; [intros [= <-]; repeat split; lia|]. intros [_ ->]. reflexivity. }
  split; [|tauto].
  destruct tgt as [it| | |]; try discriminate.
  - destruct (decide (t = itag it)); [|discriminate].
    destruct (read_int it _); cbn [obind]; [|discriminate].
    destruct (advance _ _); cbn [obind]; discriminate.
  - destruct (decide (t = TagBytes)); [|discriminate].
    destruct (decide (slen len < 0)); [discriminate|].
    destruct (advance _ _); cbn [obind]; discriminate.
Qed.

(** ** Round trip *)

Lemma zlen_app {A} (a b : list A) : zlen (a ++ b) = zlen a + zlen b.
Proof. unfold zlen. rewrite app_length. lia. Qed.
Lemma zlen_cons {A} (x : A) (b : list A) : zlen (x :: b) = 1 + zlen b.
Proof. unfold zlen. cbn [length]. lia. Qed.
Lemma zlen_nonneg {A} (b : list A) : 0 <= zlen b.
Proof. unfold zlen. lia. Qed.

Lemma decode_record v r rest h :
  wire_record v r -> fits (2 ^ 31) v -> nonempty_value v -> zlen (r ++ rest) < 2 ^ 31 + 5 ->
  tlv_decode (Slice (r ++ rest) h) (target_of v) = Ret (DOk (Some v) (Slice rest h)).
Proof.
  intros (tag & len & p & -> & L & E & M) Hf Hn Hl.
  apply decode_value. exists (bz tag), (zlen p), (p ++ rest), (zlen (p ++ rest)).
  pose proof (zlen_nonneg p). pose proof (zlen_nonneg rest).
  assert (Hl' : zlen (p ++ rest) < 2 ^ 31).
  { rewrite zlen_app, zlen_cons, zlen_app in Hl. rewrite zlen_app.
    replace (zlen len) with 4 in Hl by (unfold zlen; rewrite L; reflexivity). lia. }
  split.
  { apply header_iff. exists tag, len. cbn [app]. rewrite <- app_assoc.
    repeat split; auto. rewrite zlen_app in Hl'. pose proof (slen_spec len L). lia. }
  split.
  { apply seen_length_iff. symmetry. apply to_i_small; [lia|]. rewrite zlen_app in *. lia. }
  rewrite zlen_app in *. split; [lia|].
  split. { unfold zlen at 1. rewrite Nat2Z.id, drop_app. reflexivity. }
  destruct v as [t z|b|]; [| |contradiction]; cbn [target_of]; destruct M as [T P].
  - split; [exact T|]. destruct t.
    1,2: exists z, p, rest; auto.
    all: exists z, p, (rest ++ h); split; [reflexivity|split; [exact P|rewrite <- app_assoc; reflexivity]].
  - split; [exact T|]. subst p. split.
    + destruct b; [exfalso; apply Hn; reflexivity|]. rewrite zlen_cons. pose proof (zlen_nonneg b0). lia.
    + unfold zlen. rewrite Nat2Z.id, take_app. reflexivity.
Qed.

Lemma fits_weaken v : fits (2 ^ 31) v -> fits (2 ^ 32) v.
Proof. destruct v; cbn [fits]; [tauto|lia|tauto]. Qed.

Lemma decode_seq_records vs rest h :
  Forall (fits (2 ^ 31)) vs -> Forall nonempty_value vs ->
  zlen (concat (map rec_of vs) ++ rest) < 2 ^ 31 + 5 ->
  decode_seq (Slice (concat (map rec_of vs) ++ rest) h) (map target_of vs)
    = Ret (SOk (map Some vs) (Slice rest h)).
Proof.
  induction vs as [|v vs IH]; intros Hf Hn Hl; cbn [map concat decode_seq]; [reflexivity|].
  inversion Hf; inversion Hn; subst.
  cbn [map concat] in Hl. rewrite <- app_assoc in *.
  rewrite decode_record; auto.
  - rewrite IH; auto. rewrite zlen_app in Hl. pose proof (zlen_nonneg (rec_of v)). lia.
  - apply rec_of_wire, fits_weaken. assumption.
Qed.

Lemma roundtrip_seq enc vs rest h :
  Forall (fits (2 ^ 31)) vs -> Forall nonempty_value vs ->
  exists out, encode_seq enc vs = Some (enc ++ out) /\
    (zlen (out ++ rest) < 2 ^ 31 + 5 ->
     decode_seq (Slice (out ++ rest) h) (map target_of vs) = Ret (SOk (map Some vs) (Slice rest h))).
Proof.
  intros Hf Hn. exists (concat (map rec_of vs)). split.
  - apply encode_seq_app. eapply Forall_impl; [exact Hf|]. intros v. apply fits_not_other.
  - apply decode_seq_records; assumption.
Qed.

Lemma encode_seq_inj enc vs ws o :
  Forall (fits (2 ^ 32)) vs -> Forall (fits (2 ^ 32)) ws ->
  encode_seq enc vs = Some o -> encode_seq enc ws = Some o -> vs = ws.
Proof.
  intros Hv Hw. rewrite !encode_seq_app.
  2,3: eapply Forall_impl; [eassumption|intros v; apply fits_not_other].
  intros [= <-] [= E]. apply app_inv_head in E. symmetry in E.
  apply concat_recs_inj_all; assumption.
Qed.

Lemma encode_seq_inj_suffix vs ws o1 o2 r1 r2 :
  Forall (fits (2 ^ 32)) vs -> Forall (fits (2 ^ 32)) ws -> length vs = length ws ->
  encode_seq [] vs = Some o1 -> encode_seq [] ws = Some o2 -> o1 ++ r1 = o2 ++ r2 ->
  vs = ws /\ r1 = r2.
Proof.
  intros Hv Hw Hl. rewrite !encode_seq_app.
  2,3: eapply Forall_impl; [eassumption|intros v; apply fits_not_other].
  intros [= <-] [= <-]. apply concat_recs_inj; assumption.
Qed.

(** ** Progress *)

Lemma header_length b tag l body : header b tag l body -> length b = (5 + length body)%nat.
Proof. intros (t & len & -> & L & _). cbn [length]. rewrite app_length. lia. Qed.

Lemma header_suffix b tag l body : header b tag l body -> body `suffix_of` b.
Proof. intros (t & len & -> & _). exists (t :: len). reflexivity. Qed.

Lemma drop_suffix {A} n (l : list A) : drop n l `suffix_of` l.
Proof. exists (take n l). rewrite take_drop. reflexivity. Qed.

Lemma decode_progress b h tgt v rest :
  tlv_decode (Slice b h) tgt = Ret (DOk (Some v) rest) ->
  hid rest = h /\ vis rest `suffix_of` b /\ (length (vis rest) + 5 <= length b)%nat.
Proof.
  intros H. apply decode_value in H as (tag & l & body & n & Hh & Hn & Hle & -> & _).
  cbn [vis hid]. split; [reflexivity|]. split.
  - etransitivity; [apply drop_suffix|]. eapply header_suffix; eassumption.
  - rewrite drop_length. apply header_length in Hh. lia.
Qed.

Lemma decode_seq_bound s ts vs rest :
  decode_seq s ts = Ret (SOk vs rest) -> Forall (fun o => o <> None) vs ->
  (5 * length ts + length (vis rest) <= length (vis s))%nat.
Proof.
  revert s vs. induction ts as [|t ts IH]; intros s vs H Hf; cbn [decode_seq] in H.
  - injection H as <- <-. cbn. lia.
  - destruct s as [b h]. destruct (tlv_decode (Slice b h) t) as [[e|v s']|] eqn:E; try discriminate.
    destruct (decode_seq s' ts) as [[k e|vs' r]|] eqn:E'; try discriminate.
    injection H as <- <-. inversion Hf as [|? ? Hv Hvs]; subst.
    destruct v as [v|]; [|congruence].
    apply decode_progress in E as (_ & _ & E). specialize (IH _ _ E' Hvs). cbn [length vis]. lia.
Qed.

Lemma decode_seq_spins body h n ts :
  0 <= n -> seen_length body n ->
  let s := Slice ([x03; x00; x00; x00; x00] ++ body) h in
  decode_seq s ts = Ret (SOk (map (fun _ => None) ts) s).
Proof.
  intros Hn Hs s. induction ts as [|t ts IH]; cbn [decode_seq map]; [reflexivity|].
  assert (E : tlv_decode s t = Ret (DOk None s)).
  { apply decode_untouched. split; [|reflexivity]. exists body, n. split; [|auto].
    exists x03, [x00;x00;x00;x00]. repeat split. intros. cbn in *. lia. }
  rewrite E, IH. reflexivity.
Qed.

(** ** Encode *)
Lemma encode_other enc : tlv_encode enc VOther = None.
Proof. reflexivity. Qed.

Lemma encode_appends enc v : fits (2 ^ 32) v ->
  exists r, tlv_encode enc v = Some (enc ++ r) /\ wire_record v r.
Proof.
  intros H. exists (rec_of v). split; [apply encode_app; eapply fits_not_other; eassumption|].
  apply rec_of_wire. exact H.
Qed.

Lemma encode_total enc v :
  (tlv_encode enc v = None <-> v = VOther) /\
  (forall enc', tlv_encode enc v = Some enc' -> exists r, enc' = enc ++ r).
Proof.
  split.
  - destruct v as [[]|b|]; cbn; split; intros; congruence.
  - intros enc' H. destruct (decide (v = VOther)) as [->|Hv]; [discriminate|].
    rewrite encode_app in H by assumption. injection H as <-. eauto.
Qed.

Lemma encode_length enc v enc' : fits (2 ^ 32) v -> tlv_encode enc v = Some enc' ->
  enc_length enc' = enc_length enc + 5 +
    match v with VInt t _ => Z.of_nat (width t) | VBytes b => zlen b | VOther => 0 end
  /\ enc_length (enc_zero enc') = 0.
Proof.
  intros Hf H. rewrite encode_app in H by (eapply fits_not_other; eassumption).
  injection H as <-. unfold enc_length. rewrite zlen_app.
  split; [|reflexivity]. unfold zlen at 2. rewrite length_rec_of by assumption.
  destruct v; unfold zlen; lia.
Qed.

Lemma empty_bytes_stuck :
  exists out, encode_seq [] [VBytes []; VInt U8 7] = Some out /\
    decode_seq (Slice out []) [TBytes; TInt U8] = Ret (SOk [None; None] (Slice out [])).
Proof. eexists. split; [vm_compute; reflexivity|]. vm_compute. reflexivity. Qed.

Lemma large_buffer_rejected t len body h tgt :
  length len = 4%nat -> unbe len < 2 ^ 31 -> 2 ^ 31 <= zlen body < 2 ^ 32 ->
  tlv_decode (Slice (t :: len ++ body) h) tgt = Ret (DErr EInvalidLength).
Proof.
  intros L H1 H2. rewrite decode_unfold by assumption.
  rewrite decide_True; [reflexivity|].
  pose proof (slen_spec len L) as [S _]. rewrite S by assumption.
  pose proof (unbe4_range len L). unfold to_i.
  rewrite Z.mod_small by lia. case_decide; lia.
Qed.

Lemma five_byte_panics :
  (exists b, length b = 5%nat /\ tlv_decode (Slice b []) TBytes = Panic) /\
  (forall t, exists b, length b = 5%nat /\ tlv_decode (Slice b []) (TInt t) = Panic).
Proof.
  split.
  - exists [x03; xff; xff; xff; xff]. split; [reflexivity|]. vm_compute. reflexivity.
  - intros t. exists [itag t; x00; x00; x00; x00]. split; [reflexivity|].
    destruct t; vm_compute; reflexivity.
Qed.

Lemma reads_hidden :
  exists b h z rest, tlv_decode (Slice b h) (TInt U32) = Ret (DOk (Some (VInt U32 z)) rest)
    /\ length b = 5%nat /\ z = unbe h.
Proof.
  exists [x07; x00; x00; x00; x00], [xde; xad; xbe; xef], 3735928559, (Slice [] [xde; xad; xbe; xef]).
  vm_compute. auto.
Qed.

Lemma tag_mismatch_error b h tgt tag l body : header b tag l body ->
  (match tgt with TInt t => tag <> wire_tag t | TBytes => tag <> wire_tag_bytes | _ => True end) ->
  ~ (tag = wire_tag_bytes /\ l = 0) ->
  exists e, tlv_decode (Slice b h) tgt = Ret (DErr e).
Proof.
  intros Hh Hm Hz.
  destruct (tlv_decode (Slice b h) tgt) as [[e|[v|] rest]|] eqn:E.
  - eauto.
  - apply decode_value in E as (tag' & l' & body' & n & Hh' & _ & _ & _ & M).
    destruct (header_inj _ _ _ _ _ _ _ Hh Hh') as (<- & <- & <-). destruct tgt; tauto.
  - apply decode_untouched in E as [(body' & n & Hh' & _) _].
    destruct (header_inj _ _ _ _ _ _ _ Hh Hh') as (? & ? & _). tauto.
  - apply decode_panics in E as (tag' & l' & body' & n & Hh' & _ & _ & M).
    destruct (header_inj _ _ _ _ _ _ _ Hh Hh') as (<- & <- & <-). destruct tgt; tauto.
Qed.

(** ** Decoder.Zero *)
Lemma dec_zero_exact s s' d t :
  dec_zero s = (s', d) ->
  length (vis s') = length (vis s) /\ (forall i b, vis s' !! i = Some b -> b = x00) /\ hid s' = hid s /\
  dec_length d = 0 /\ exists e, tlv_decode d t = Ret (DErr e).
Proof.
  intros [= <- <-]. cbn [vis hid]. unfold zeros. split_and!; auto.
  - apply replicate_length.
  - intros i b H. apply lookup_replicate in H. tauto.
  - eexists. reflexivity.
Qed.
