(** Proofs about Login.v: the file and single attempts. *)
From Verif Require Export SpecLogin CmdFacts AuthFacts AuthRuns JsonTorn GoFacts.
Local Open Scope Z_scope.

(** *** The file *)
Definition good_lauth (a : lauth) : Prop := utf8_text (lType a) /\ utf8_text (lLabel a) /\ utf8_text (lLast a).
Definition good_luser (u : luser) : Prop := utf8_text (uName u) /\ forall a, uAuth u = Some a -> good_lauth a.
Definition good_lstore (s : lstore) : Prop :=
  forall m, s = Some m -> map_Forall (fun k v => utf8_text k /\ forall u, v = Some u -> good_luser u) m.

Lemma dec_lauth_good cur j a : text_json j -> (forall a, cur = Some a -> good_lauth a) -> dec_lauth cur j = Some (Some a) -> good_lauth a.
Proof.
  intros T G. unfold dec_lauth, dec_ptr.
  assert (good_lauth (default (LAuth [] [] [] None) cur)) as G'.
  { destruct cur; cbn; [auto|]. split_and!; constructor. }
  enough (dec_struct lauth_field (default (LAuth [] [] [] None) cur) j = Some a -> good_lauth a) as H.
  { destruct j; try discriminate; destruct (dec_struct lauth_field _ _); try discriminate; intros [= ->]; auto. }
  apply dec_struct_ok; [|exact T|exact G']. clear. intros k j a a' T (G1 & G2 & G3). unfold lauth_field.
  repeat (destruct (field_is _ k); [|]).
  - destruct (dec_str _ j) eqn:E; [|discriminate]. intros [= <-]. exact (conj (dec_str_text _ _ _ T G1 E) (conj G2 G3)).
  - destruct (dec_str _ j) eqn:E; [|discriminate]. intros [= <-]. exact (conj G1 (conj (dec_str_text _ _ _ T G2 E) G3)).
  - destruct (dec_str _ j) eqn:E; [|discriminate]. intros [= <-]. exact (conj G1 (conj G2 (dec_str_text _ _ _ T G3 E))).
  - destruct (dec_bytes _ j) eqn:E; [|discriminate]. intros [= <-]. exact (conj G1 (conj G2 G3)).
  - intros [= <-]. exact (conj G1 (conj G2 G3)).
Qed.
Lemma dec_luser_good j u : text_json j -> dec_luser j = Some u -> good_luser u.
Proof.
  intros T. unfold dec_luser. apply dec_struct_ok; [|exact T|].
  2:{ split; [constructor|]. cbn. discriminate. }
  clear. intros k j u u' T (G1 & G2). unfold luser_field. repeat (destruct (field_is _ k); [|]).
  - destruct (dec_str _ j) eqn:E; [|discriminate]. intros [= <-]. split; [cbn; eapply dec_str_text; eauto|exact G2].
  - destruct (dec_lauth _ j) as [v|] eqn:E; [|discriminate]. intros [= <-]. split; [exact G1|]. cbn. intros a ->. eapply dec_lauth_good; eauto.
  - intros [= <-]. split; auto.
Qed.
Lemma dec_users_good j s : text_json j -> dec_users j = Some s -> good_lstore s.
Proof.
  intros T E m Hm. unfold dec_users in E. eapply (dec_map_ok _ (fun v => forall u, v = Some u -> good_luser u)); eauto; [|discriminate].
  clear. intros j v T E u ->. unfold dec_ptr in E.
  assert (dec_luser j = Some u) as D by (destruct j; try discriminate; destruct (dec_luser _); congruence).
  eapply dec_luser_good; eauto.
Qed.
Lemma on_file_good f path s : on_file f path s -> good_lstore s.
Proof.
  intros [[_ ->]|(d & j & _ & J & D)].
  - intros m [= <-]. apply map_Forall_empty.
  - apply parse_json_exact, parsed_text in J. apply dec_users_exact in D. eapply dec_users_good; eauto.
Qed.

Lemma int_jlauth a : int_json (jlauth a).
Proof. destruct a; [|exact I]. unfold jlauth. rewrite int_json_obj. repeat (apply Forall_cons; split); cbn [snd]; try apply Forall_nil; try exact I. destruct (lSecret l); exact I. Qed.
Lemma int_jluser u : int_json (jluser u).
Proof. destruct u; [|exact I]. unfold jluser. rewrite int_json_obj. repeat (apply Forall_cons; split); cbn [snd]; try apply Forall_nil; try exact I. apply int_jlauth. Qed.
Lemma depth_jluser u : depth (jluser u) <= 2.
Proof.
  destruct u as [u|]; [|cbn; lia]. cbn [jluser depth fold_right snd].
  destruct (uAuth u) as [a|]; [|cbn; lia]. cbn [jlauth depth fold_right snd]. pose proof (depth_jbytes (lSecret a)). lia.
Qed.
Lemma lauth_field_type j a : lauth_field (bs "type") j a = match dec_str (lType a) j with Some v => Some (LAuth v (lLabel a) (lLast a) (lSecret a)) | None => None end.
Proof. reflexivity. Qed.
Lemma lauth_field_label j a : lauth_field (bs "label") j a = match dec_str (lLabel a) j with Some v => Some (LAuth (lType a) v (lLast a) (lSecret a)) | None => None end.
Proof. reflexivity. Qed.
Lemma lauth_field_last j a : lauth_field (bs "last") j a = match dec_str (lLast a) j with Some v => Some (LAuth (lType a) (lLabel a) v (lSecret a)) | None => None end.
Proof. reflexivity. Qed.
Lemma lauth_field_secret j a : lauth_field (bs "secret") j a = match dec_bytes (lSecret a) j with Some v => Some (LAuth (lType a) (lLabel a) (lLast a) v) | None => None end.
Proof. reflexivity. Qed.
Lemma luser_field_name j u : luser_field (bs "Name") j u = match dec_str (uName u) j with Some v => Some (LUser v (uAuth u)) | None => None end.
Proof. reflexivity. Qed.
Lemma luser_field_auth j u : luser_field (bs "Auth") j u = match dec_lauth (uAuth u) j with Some v => Some (LUser (uName u) v) | None => None end.
Proof. reflexivity. Qed.

Definition reload_lauth (a : lauth) : lauth := LAuth (san (lType a)) (san (lLabel a)) (san (lLast a)) (lSecret a).
Definition reload_luser (u : luser) : luser := LUser (san (uName u)) (reload_lauth <$> uAuth u).
Lemma dec_lauth_j a : dec_lauth None (san_json (jlauth a)) = Some (reload_lauth <$> a).
Proof.
  destruct a as [a|]; [|reflexivity]. unfold dec_lauth, dec_ptr, jlauth. cbn [san_json map fst snd]. rewrite !san_id_ascii by reflexivity.
  rewrite san_jbytes. unfold dec_struct. cbn [dec_fields default].
  rewrite lauth_field_type. cbn [dec_str lType lLabel lLast lSecret].
  rewrite lauth_field_label. cbn [dec_str lType lLabel lLast lSecret].
  rewrite lauth_field_last. cbn [dec_str lType lLabel lLast lSecret].
  rewrite lauth_field_secret. cbn [lType lLabel lLast lSecret]. rewrite dec_bytes_jbytes. reflexivity.
Qed.
Lemma dec_luser_j u : dec_ptr dec_luser (san_json (jluser u)) = Some (option_map reload_luser u).
Proof.
  destruct u as [u|]; [|reflexivity]. unfold dec_luser, dec_ptr, jluser. cbn [san_json map fst snd]. rewrite !san_id_ascii by reflexivity.
  unfold dec_struct. cbn [dec_fields]. rewrite luser_field_name. cbn [dec_str uName uAuth].
  rewrite luser_field_auth. cbn [uName uAuth]. rewrite dec_lauth_j. reflexivity.
Qed.
Definition reload_users (s : lstore) : lstore := option_map (fun m : users => reins (option_map reload_luser) (sorted_entries m) ∅) s.
Lemma parse_users s : exists j, parse_json (users_json s) = Some j /\ dec_users j = Some (reload_users s).
Proof.
  exists (san_json (jmap jluser s)). unfold users_json. split; [apply parse_print; [apply int_jmap, int_jluser|pose proof (depth_jmap jluser s 2 ltac:(lia) depth_jluser); lia]|].
  unfold dec_users. apply (dec_map_jmap jluser (dec_ptr dec_luser) (option_map reload_luser)). intros. apply dec_luser_j.
Qed.
Lemma san_id s : utf8_text s -> san s = s.
Proof. intros T. apply san_utf8, text_utf8, T. Qed.
Lemma reload_lauth_good a : good_lauth a -> reload_lauth a = a.
Proof. intros (A & B & D). destruct a as [t l la se]. unfold reload_lauth. cbn [lType lLabel lLast lSecret] in *. rewrite (san_id t A), (san_id l B), (san_id la D). reflexivity. Qed.
Lemma reload_luser_good u : good_luser u -> reload_luser u = u.
Proof.
  intros (A & B). destruct u as [n [a|]]; unfold reload_luser; cbn [uName uAuth] in *; rewrite san_id by assumption; [|reflexivity].
  change (reload_lauth <$> Some a) with (Some (reload_lauth a)). rewrite reload_lauth_good by auto. reflexivity.
Qed.
Lemma fmap_fixed {V} (f : V -> V) (m : gmap bytes V) : (forall k v, m !! k = Some v -> f v = v) -> f <$> m = m.
Proof. intros H. apply map_eq. intros k. rewrite lookup_fmap. destruct (m !! k) as [v|] eqn:E; [|reflexivity]. cbn. rewrite (H k v E). reflexivity. Qed.
Lemma reload_users_good s : good_lstore s -> reload_users s = s.
Proof.
  intros G. destruct s as [m|]; [|reflexivity]. unfold reload_users, option_map at 1. f_equal. specialize (G m eq_refl).
  rewrite reins_san.
  - apply fmap_fixed. intros k v E. destruct (G k v E) as [_ Hu]. destruct v as [u|]; [|reflexivity].
    unfold option_map. rewrite reload_luser_good by auto. reflexivity.
  - intros k v E. apply san_id, (G k v E).
Qed.
Lemma written_on_file f path s : on_file (<[path := users_json s]> f) path (reload_users s).
Proof.
  right. destruct (parse_users s) as (j & P & D). exists (users_json s), j. rewrite lookup_insert. split; [reflexivity|].
  split; [apply parse_json_exact, P|apply dec_users_exact, D].
Qed.
Lemma written_good f path s : good_lstore s -> on_file (<[path := users_json s]> f) path s.
Proof. intros G. pose proof (written_on_file f path s) as H. rewrite (reload_users_good s G) in H. exact H. Qed.
Lemma on_file_fun f path s s' : on_file f path s -> on_file f path s' -> s = s'.
Proof.
  intros [[E ->]|(d & j & E & J & D)] [[E' ->]|(d' & j' & E' & J' & D')]; try congruence.
  rewrite E in E'. injection E' as <-. rewrite (json_text_fun _ _ _ J J') in D. apply dec_users_exact in D, D'. congruence.
Qed.
Lemma on_file_other f f' path s : f' !! path = f !! path -> on_file f path s -> on_file f' path s.
Proof. unfold on_file. intros ->. auto. Qed.

(** *** Loading *)
Lemma load_ok path w s : path <> [] -> on_file (wFs w) path s -> load_users path w = Done s w.
Proof.
  intros N H. unfold load_users, w_exists, w_raw_read, read_file. rewrite bool_decide_false by exact N. rewrite decide_False by exact N. cbn [negb andb].
  unfold exists_. destruct H as [[E ->]|(d & j & E & J & D)]; rewrite E; cbn; [reflexivity|].
  apply parse_json_exact in J. apply dec_users_exact in D. rewrite J, D. reflexivity.
Qed.
Lemma load_done path w s w' : path <> [] -> load_users path w = Done s w' -> w' = w /\ on_file (wFs w) path s.
Proof.
  intros N. unfold load_users, w_exists, w_raw_read, read_file. rewrite bool_decide_false by exact N. rewrite decide_False by exact N. cbn [negb andb].
  unfold exists_, on_file. destruct (wFs w !! path) as [d|] eqn:E; cbn; [|intros [= <- <-]; auto].
  destruct (parse_json d) as [j|] eqn:J; [|discriminate]. destruct (dec_users j) as [s'|] eqn:D; [|discriminate].
  intros [= <- <-]. split; [reflexivity|]. right. exists d, j. apply parse_json_exact in J. apply dec_users_exact in D. auto.
Qed.
Lemma load_else path w : (exists s, load_users path w = Done s w) \/ load_users path w = Fail w.
Proof.
  unfold load_users. destruct (negb _); [eauto|]. destruct (w_raw_read w path) as [d|]; [|auto]. destruct (parse_json d) as [j|]; [|auto].
  destruct (dec_users j); eauto.
Qed.
Lemma load_exactly path w : path <> [] ->
  (forall s, load_users path w = Done s w <-> on_file (wFs w) path s) /\
  ((forall s, ~ on_file (wFs w) path s) -> load_users path w = Fail w).
Proof.
  intros N. split.
  - intros s. split; [intros H; apply (load_done path w s w N H)|apply load_ok, N].
  - intros H. destruct (load_else path w) as [[s E]|E]; [|exact E]. apply load_done in E as [_ E]; [|exact N]. destruct (H s E).
Qed.

(** *** Writing *)
Lemma raw_write_ok w p d w' : w_raw_write w p d = (true, w') ->
  p <> [] /\ wFs w' = <[p := d]> (wFs w) /\ wIn w' = wIn w /\ wPw w' = wPw w /\ wClk w' = wClk w /\ wRng w' = wRng w /\ wOut w' = wOut w /\ wFate w' = drop 1 (wFate w).
Proof.
  unfold w_raw_write. destruct (decide _) as [|N]; [discriminate|].
  destruct (wFate w) as [|x l] eqn:E; [|destruct x]; cbn; intros [= <-]; cbn; auto 10.
Qed.
Lemma raw_write_fail w p d w' : w_raw_write w p d = (false, w') -> p <> [] -> ~ disk_ok w.
Proof.
  unfold w_raw_write, disk_ok. intros E N. rewrite decide_False in E by exact N. destruct (wFate w) as [|x l]; [discriminate E|].
  destruct x; [discriminate E| |]; intros D; inversion D as [|? ? X]; subst; discriminate X.
Qed.
Lemma raw_write_only w p d ok w' : w_raw_write w p d = (ok, w') -> only_changes p (wFs w) (wFs w').
Proof.
  unfold w_raw_write. destruct (decide (p = [])).
  { intros [= _ <-] q _. reflexivity. }
  destruct (match wFate w with [] => (WOk, []) | x :: l => (x, l) end) as [x l]. destruct x; cbn; intros [= _ <-] q N; cbn;
    [apply lookup_insert_ne; congruence|reflexivity|apply lookup_insert_ne; congruence].
Qed.
Lemma disk_drop w w' : wFate w' = drop 1 (wFate w) -> disk_ok w -> disk_ok w'.
Proof. unfold disk_ok. intros ->. apply Forall_drop. Qed.
