(** What is read from a file is text with 64-bit numbers. *)
From Verif Require Export StoreFacts JsonText.
Local Open Scope Z_scope.

(** Every string in a JSON value is UTF-8. *)
Inductive text_json : json -> Prop :=
  | tj_null : text_json JNull
  | tj_bool b : text_json (JBool b)
  | tj_num l : text_json (JNum l)
  | tj_str s : utf8_text s -> text_json (JStr s)
  | tj_arr l : Forall text_json l -> text_json (JArr l)
  | tj_obj l : Forall (fun kv => utf8_text (fst kv) /\ text_json (snd kv)) l -> text_json (JObj l).

Lemma ascii_cons b s : bz b < 128 -> utf8_text s -> utf8_text (b :: s).
Proof.
  intros H T. change (b :: s) with ([b] ++ s). apply (text_cons (bz b)); auto.
  - pose proof (bz_range b). unfold scalar. lia.
  - replace [b] with (octets [bz b]) by (cbn; rewrite zb_bz; reflexivity). constructor. exact H.
Qed.
Lemma fffd_cons s : utf8_text s -> utf8_text (xef :: xbf :: xbd :: s).
Proof.
  intros T. change (xef :: xbf :: xbd :: s) with ([xef; xbf; xbd] ++ s). apply (text_cons 65533); auto.
  - unfold scalar. lia.
  - change [xef; xbf; xbd] with (octets [224 + 65533 / 64 / 64; 128 + 65533 / 64 mod 64; 128 + 65533 mod 64]). constructor. lia.
Qed.
Lemma jchars_text s v rest : jchars s v rest -> utf8_text v.
Proof.
  induction 1 as [rest|r c s v rest S _ _ _ R J IH|b s v rest _ J IH|e c s v rest I J IH|ds u c s v rest Q S R J IH
    |ds u ds' u' c s v rest Q Q' H L R J IH|ds u s v rest Q _ _ J IH].
  - constructor.
  - eapply text_cons; eauto.
  - apply fffd_cons. assumption.
  - apply ascii_cons; [|assumption]. unfold short_escapes in I.
    repeat (apply elem_of_cons in I as [I|I]; [injection I as _ ->; cbn; lia|]). inversion I.
  - eapply text_cons; eauto.
  - eapply text_cons; [|exact R|assumption]. unfold scalar, high_surrogate, low_surrogate in *. lia.
  - apply fffd_cons. assumption.
Qed.
Lemma jstring_text s v : jstring s v -> utf8_text v.
Proof. intros (t & _ & J). eapply jchars_text, J. Qed.
Lemma parsed_text s j : parse_json s = Some j -> text_json j.
Proof.
  intros E. apply parse_json_exact in E as (w & t & w' & _ & _ & J & _ & _). revert t j J.
  enough ((forall s j, jvalue s j -> text_json j) /\ (forall s l, jvalues s l -> Forall text_json l) /\
          (forall s l, jmembers s l -> Forall (fun kv => utf8_text (fst kv) /\ text_json (snd kv)) l)) as [H _] by exact H.
  apply json_mind; intros; try (constructor; assumption); try (constructor; constructor); try (constructor; [assumption|constructor]).
  - constructor. eapply jstring_text; eauto.
  - cbn. eapply jstring_text; eauto.
  - assumption.
  - constructor; [|assumption]. split; cbn; [eapply jstring_text; eauto|assumption].
Qed.

(** *** Decoding *)
Lemma dec_int_range cur j z : int64 cur -> dec_int cur j = Some z -> int64 z.
Proof.
  unfold dec_int, int64. intros I. destruct j; try discriminate; [intros [= <-]; exact I|].
  destruct (lit_int lit); [|discriminate]. destruct (decide _) as [H|H]; [|discriminate]. intros [= <-]. exact H.
Qed.
Lemma dec_str_text cur j s : text_json j -> utf8_text cur -> dec_str cur j = Some s -> utf8_text s.
Proof. unfold dec_str. intros T U. destruct j; try discriminate; intros [= <-]; [exact U|]. inversion T. assumption. Qed.
Lemma dec_elems_ok {A} (dec : json -> option A) (P : A -> Prop) l : (forall j v, text_json j -> dec j = Some v -> P v) ->
  Forall (fun kv => utf8_text (fst kv) /\ text_json (snd kv)) l ->
  forall m m', map_Forall (fun k v => utf8_text k /\ P v) m -> dec_elems dec l m = Some m' -> map_Forall (fun k v => utf8_text k /\ P v) m'.
Proof.
  intros D. induction 1 as [|[k j] l [K J] F IH]; intros m m' M; cbn [dec_elems].
  - intros [= <-]. exact M.
  - destruct (dec j) as [v|] eqn:E; [|discriminate]. apply IH. apply map_Forall_insert_2; [|exact M]. split; [exact K|eauto].
Qed.
Lemma dec_map_ok {A} (dec : json -> option A) (P : A -> Prop) cur j r : (forall j v, text_json j -> dec j = Some v -> P v) ->
  text_json j -> (forall m, cur = Some m -> map_Forall (fun k v => utf8_text k /\ P v) m) ->
  dec_map dec cur j = Some r -> forall m, r = Some m -> map_Forall (fun k v => utf8_text k /\ P v) m.
Proof.
  intros D T H. unfold dec_map. destruct j as [| | | | |l]; try discriminate.
  - intros [= <-]. discriminate.
  - inversion T; subst. destruct (dec_elems dec l (default ∅ cur)) as [m|] eqn:E; [|discriminate].
    intros [= <-] m' [= <-]. eapply dec_elems_ok; eauto.
    destruct cur; cbn; [auto|]. apply map_Forall_empty.
Qed.
Lemma dec_struct_ok {A} (f : bytes -> json -> A -> option A) (P : A -> Prop) cur j r :
  (forall k j a a', text_json j -> P a -> f k j a = Some a' -> P a') -> text_json j -> P cur ->
  dec_struct f cur j = Some r -> P r.
Proof.
  intros D T H. unfold dec_struct. destruct j as [| | | | |l]; try discriminate; [intros [= <-]; exact H|].
  inversion T as [| | | | |l' F]; subst. revert cur H. induction F as [|[k j] l [K J] F IH]; intros cur H; cbn [dec_fields].
  - intros [= <-]. exact H.
  - destruct (f k j cur) as [c|] eqn:E; [|discriminate]. apply IH; eauto. constructor. assumption.
Qed.

Definition good_rec (r : srec) : Prop :=
  go_rec r /\ utf8_text (rLabel r) /\ forall md, rMeta r = Some md -> map_Forall (fun k _ => utf8_text k /\ True) md.
Definition good_store (s : sstore) : Prop :=
  int64 (sVersion s) /\ int64 (sTime s) /\
  forall m, sRecs s = Some m -> map_Forall (fun k v => utf8_text k /\ forall r, v = Some r -> good_rec r) m.

Lemma dec_rec_good j r : text_json j -> dec_rec j = Some r -> good_rec r.
Proof.
  intros T. unfold dec_rec. apply dec_struct_ok; [|exact T|].
  2:{ split_and!; [unfold go_rec, int64; cbn; lia|constructor|]. cbn. discriminate. }
  clear. intros k j a a' T (G & L & M). unfold rec_field.
  repeat (destruct (field_is _ k); [|]).
  - destruct (dec_str _ j) eqn:E; [|discriminate]. intros [= <-]. split_and!; auto. cbn. eapply dec_str_text; eauto.
  - destruct (dec_int _ j) eqn:E; [|discriminate]. intros [= <-]. split_and!; auto. cbn. eapply dec_int_range; eauto.
  - destruct (dec_bytes _ j) eqn:E; [|discriminate]. intros [= <-]. split_and!; auto.
  - destruct (dec_map _ _ j) eqn:E; [|discriminate]. intros [= <-]. split_and!; auto. cbn.
    eapply dec_map_ok; eauto.
  - intros [= <-]. split_and!; auto.
Qed.
Lemma dec_store_good j s : text_json j -> dec_store j = Some s -> good_store s.
Proof.
  intros T. unfold dec_store. apply dec_struct_ok; [|exact T|].
  2:{ unfold good_store. cbn. unfold int64. split_and!; try lia. discriminate. }
  clear. intros k j a a' T (G1 & G2 & M). unfold store_field.
  repeat (destruct (field_is _ k); [|]).
  - destruct (dec_int _ j) eqn:E; [|discriminate]. intros [= <-]. refine (conj _ (conj _ _)); cbn [sVersion sTime sRecs]; [exact (dec_int_range _ _ _ G1 E)|exact G2|exact M].
  - destruct (dec_int _ j) eqn:E; [|discriminate]. intros [= <-]. refine (conj _ (conj _ _)); cbn [sVersion sTime sRecs]; [exact G1|exact (dec_int_range _ _ _ G2 E)|exact M].
  - destruct (dec_map _ _ j) eqn:E; [|discriminate]. intros [= <-]. refine (conj _ (conj _ _)); cbn [sVersion sTime sRecs]; [exact G1|exact G2|].
    eapply dec_map_ok; eauto. clear. intros j v T E r ->. unfold dec_ptr in E.
    assert (dec_rec j = Some r) as D by (destruct j; try discriminate; destruct (dec_rec _); congruence).
    eapply dec_rec_good; eauto.
  - intros [= <-]. exact (conj G1 (conj G2 M)).
Qed.
Lemma good_go s : good_store s -> go_store s.
Proof.
  intros (A & B & M). split_and!; auto. intros m k r E H. specialize (M m E k _ H) as [_ M]. apply (M r eq_refl).
Qed.
Lemma good_text s : good_store s -> text_store s.
Proof.
  intros (A & B & M) m k v E H. specialize (M m E k _ H) as [K M]. split; [exact K|]. intros r ->.
  destruct (M r eq_refl) as (_ & L & D). split; [exact L|]. intros md k' v' Em Hk. apply (D md Em k' v' Hk).
Qed.

Section WithCrypto.
Context `{C : Crypto} {L : CryptoLaws}.
Lemma unmarshal_good d pass m s : unmarshal_store d pass m = Ret (Some s) -> good_store s /\ sPass s = Some pass.
Proof.
  intros E. apply unmarshal_exact in E as (text & j & s0 & _ & P & D & ->). split; [|reflexivity].
  apply parsed_text in P. apply (dec_store_good _ _ P) in D. exact D.
Qed.
End WithCrypto.
