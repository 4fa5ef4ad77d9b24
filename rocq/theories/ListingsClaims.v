(** Proofs about Listings.v. *)
From Verif Require Export Listings SpecListings CalendarClaims ShowFacts CmdSecretsFacts PropsFcrypt.
Local Open Scope Z_scope.

Lemma labels_sorted s : labels_of s (merge_sort str_le (map fst (map_to_list (recs s)))).
Proof.
  split.
  - apply sorted_strictly.
    + rewrite merge_sort_Permutation. apply NoDup_fst_map_to_list.
    + apply Sorted_StronglySorted; [intros a b c; apply ShowFacts.leb_trans|]. apply Sorted_merge_sort. intros a b. apply ShowFacts.leb_total.
  - intros k. rewrite merge_sort_Permutation, elem_of_list_fmap, slot_recs. split.
    + intros ((k' & v) & -> & E). apply elem_of_map_to_list in E. cbn [fst]. rewrite E. discriminate.
    + destruct (recs s !! k) as [v|] eqn:E; [|contradiction]. intros _. exists (k, v). split; [reflexivity|]. apply elem_of_map_to_list. exact E.
Qed.
Lemma labels_count s ks : labels_of s ks -> length ks = size (recs s).
Proof.
  intros (S & E). transitivity (length (merge_sort str_le (map fst (map_to_list (recs s))))).
  - apply Permutation_length. apply NoDup_Permutation.
    + clear E. induction S as [|k ks S IH F]; constructor; [|exact IH]. intros I. rewrite Forall_forall in F. specialize (F k I). clear - F. induction k; inversion F; subst; [lia|auto].
    + rewrite merge_sort_Permutation. apply NoDup_fst_map_to_list.
    + intros k. rewrite E. destruct (labels_sorted s) as (_ & E'). symmetry. apply E'.
  - rewrite merge_sort_Permutation, map_length. apply map_size_list || reflexivity.
Qed.
Lemma list_join (tm n : bytes) (ks : list bytes) :
  bs "Secrets store was updated " ++ bs " " ++ tm ++ [nl] ++ n ++ bs " entries" ++ [nl; nl] ++ bs "Names:" ++ [nl] ++ concat (map (fun k => [x09] ++ k ++ [nl]) ks) =
  bs "Secrets store was updated  " ++ tm ++ [x0a] ++ n ++ bs " entries" ++ [x0a; x0a] ++ bs "Names:" ++ [x0a] ++ concat (map (fun k => x09 :: k ++ [x0a]) ks).
Proof. reflexivity. Qed.
Lemma list_text_listing loc s : secrets_listing (minute_text loc) s (secrets_list_text loc s).
Proof.
  unfold secrets_list_text. rewrite list_join. pose proof (labels_sorted s) as Ls. revert Ls. generalize (merge_sort str_le (map fst (map_to_list (recs s)))). intros ks Ls.
  pose proof (labels_count s ks Ls) as N. unfold secrets_listing. generalize (minute_text loc (sTime s)). intros tm.
  assert (natural_text (show (Z.of_nat (size (recs s)))) (Z.of_nat (size (recs s)))) as Sn by (apply show_natural; lia). revert Sn. generalize (show (Z.of_nat (size (recs s)))). intros n Sn.
  exists ks, n. split; [exact Ls|]. split; [rewrite N; exact Sn|]. destruct (decide (size (recs s) = 0%nat)) as [Z|Z].
  - left. split; [|reflexivity]. apply length_zero_iff_nil. congruence.
  - right. split; [intros E; apply Z; rewrite <- N, E; reflexivity|]. reflexivity.
Qed.
Section WithCrypto.
Context `{C : Crypto}.

Lemma load_exact path m w pass ps s : plain_path path -> wPw w = Some pass :: ps -> opens (wFs w) path m pass s ->
  load_store path m w = Done s (World (wFs w) (wIn w) ps (wClk w) (wRng w) (wFate w) (wOut w)).
Proof.
  intros P E (d & Ef & U). unfold load_store, w_pass. rewrite E. unfold w_exists, exists_. cbn [wFs]. rewrite Ef.
  rewrite bool_decide_eq_false_2 by apply P. cbn [negb andb fst]. rewrite w_read_plain by exact P. cbn [wFs]. rewrite Ef. cbn. rewrite U. reflexivity.
Qed.
Lemma secrets_listed loc path m w pass ps s : plain_path path -> wPw w = Some pass :: ps -> opens (wFs w) path m pass s ->
  exists t w', secrets_listing (minute_text loc) s t /\ secrets_list loc path m w = Done tt w' /\ wOut w' = wOut w ++ t /\ wFs w' = wFs w /\ wPw w' = ps.
Proof.
  intros P E O. pose proof (load_exact path m w pass ps s P E O) as H. eexists (secrets_list_text loc s), _. split; [apply list_text_listing|]. unfold secrets_list. rewrite H. cbn [then_]. split; [reflexivity|]. auto.
Qed.
Lemma show_text_showing loc ord c r : (forall md, ord md ≡ₚ map_to_list md) -> secrets_showing (minute_text loc) r (cClip c) (cMeta c) (secrets_show_text loc ord c r).
Proof.
  intros O. unfold secrets_show_text. destruct (cClip c); [constructor|]. destruct (cMeta c).
  - apply ss_meta; [apply show_int_text|apply O].
  - rewrite app_nil_r. constructor.
Qed.
Lemma secrets_shown loc ord path m c w pass ps s label rest r : (forall md, ord md ≡ₚ map_to_list md) -> plain_path path -> wPw w = Some pass :: ps -> opens (wFs w) path m pass s ->
  cArgs c = label :: rest -> slot s label = Some (Some r) ->
  exists t w', secrets_showing (minute_text loc) r (cClip c) (cMeta c) t /\ secrets_show loc ord path m c w = Done tt w' /\ wOut w' = wOut w ++ t /\ wFs w' = wFs w /\ wPw w' = ps.
Proof.
  intros O P E Op A S. pose proof (load_exact path m w pass ps s P E Op) as H. eexists (secrets_show_text loc ord c r), _. split; [apply show_text_showing, O|]. unfold secrets_show, arg0. rewrite A.
  rewrite decide_False by (cbn; lia). rewrite H. cbn [then_ nth]. rewrite <- slot_recs, S. split; [reflexivity|]. auto.
Qed.
Lemma list_same_run n loc path m c w : same_but_output (secrets_list loc path m w) (run_cmd n m CList path c w).
Proof.
  unfold secrets_list, run_cmd. rewrite decide_False by (cbn; lia). destruct (load_store path m w) as [s w1|w1|w1|]; cbn; auto.
Qed.
Lemma show_same_run n loc ord path m c w : same_but_output (secrets_show loc ord path m c w) (run_cmd n m CShow path c w).
Proof.
  unfold secrets_show, run_cmd. cbn [required]. destruct (decide _); [reflexivity|]. destruct (load_store path m w) as [s w1|w1|w1|]; cbn; auto.
  unfold show_secret. destruct (recs s !! arg0 c) as [[r|]|]; cbn; auto.
Qed.
Lemma show_same_plain n loc ord path m c w : cClip c = true \/ cMeta c = false -> secrets_show loc ord path m c w = run_cmd n m CShow path c w.
Proof.
  intros D. unfold secrets_show, run_cmd. cbn [required]. destruct (decide _); [reflexivity|]. destruct (load_store path m w) as [s w1|w1|w1|]; cbn; auto.
  unfold show_secret, secrets_show_text. destruct (recs s !! arg0 c) as [[r|]|]; cbn; auto. destruct (cClip c); [reflexivity|]. destruct D as [D | ->]; [discriminate|]. reflexivity.
Qed.

Lemma line_join (k t1 t2 who fp : bytes) :
  [x09] ++ k ++ [nl] ++ [x09; x09] ++ bs "Last update: " ++ t1 ++ [nl] ++ [x09; x09] ++ bs "  Signed at: " ++ t2 ++ [nl] ++
  [x09; x09] ++ bs "  Signed by: " ++ who ++ [nl] ++ [x09; x09] ++ bs "Fingerprint: " ++ fp ++ [nl] =
  x09 :: k ++ [x0a; x09; x09] ++ bs "Last update: " ++ t1 ++ [x0a; x09; x09] ++ bs "  Signed at: " ++ t2 ++
      [x0a; x09; x09] ++ bs "  Signed by: " ++ who ++ [x0a; x09; x09] ++ bs "Fingerprint: " ++ fp ++ [x0a].
Proof. reflexivity. Qed.
Lemma line_block loc s kv x : line_of s kv x -> key_block (minute_text loc) s kv (fc_line_text loc x).
Proof.
  intros (r & E & A & B & D & P & W). exists r, (default (bs "<unknown>") (liSigner x)). split; [exact E|]. split.
  - unfold shown_signer. destruct (liSigner x) as [who|]; cbn [default].
    + destruct W as [W|(W & X)]; [left; exact W|]. right. split; [exact W|]. left. exact X.
    + destruct W as (W & X). right. split; [exact W|]. right. split; [exact X|reflexivity].
  - unfold fc_line_text. rewrite line_join, A, B, D, P. reflexivity.
Qed.
Lemma report_join (tm n fp rest : bytes) :
  bs "Key store was last updated " ++ tm ++ [nl] ++ n ++ bs " keys stored" ++ [nl] ++ bs "Owner public key:" ++ [nl] ++ [x09] ++ bs "Fingerprint: " ++ fp ++ [nl] ++ rest =
  bs "Key store was last updated " ++ tm ++ [x0a] ++ n ++ bs " keys stored" ++ [x0a] ++ bs "Owner public key:" ++ [x0a; x09] ++ bs "Fingerprint: " ++ fp ++ [x0a] ++ rest.
Proof. reflexivity. Qed.
Lemma keys_listed loc f o l a s w m : key_file (wFs w) (lPath l) s -> chosen l = Some (FList, a) -> kwell s -> ksKeys s = Some m -> an_order s (foList o) -> orders s (foListFind o) ->
  exists rep w', fc_main f o l w = Done rep w' /\ keys_listing (minute_text loc) s (foList o) (fc_report_text loc rep) /\ wFs w' = wFs w /\ wPw w' = wPw w.
Proof.
  intros K Ch Kw Km O Os. destruct (C68_list C f o l a s w m K Ch Kw Km O Os) as (lines & w' & H & F & Ef & Ep). exists (RList (ksTime s) (size m) (hex_encode (sha256 (owner s))) lines), w'.
  split; [exact H|]. split; [|auto]. assert (size m = length (foList o)) as N.
  { destruct O as (m' & Em & P). rewrite P. rewrite Km in Em. injection Em as <-. reflexivity. }
  exists (show (Z.of_nat (size m))), (map (fc_line_text loc) lines). split; [rewrite <- N; apply show_natural; lia|]. split.
  - apply Forall2_fmap_r. eapply Forall2_impl; [exact F|]. intros kv x. apply line_block.
  - unfold fc_report_text. rewrite N, report_join. do 10 f_equal. destruct (foList o) as [|kv order]; cbn [length].
    + rewrite decide_False by lia. rewrite decide_True by reflexivity. reflexivity.
    + rewrite decide_True by lia. rewrite decide_False by discriminate. reflexivity.
Qed.
End WithCrypto.

(** *** What a listing depends on *)
Lemma str_lt_asym a : forall b, str_lt a b -> str_lt b a -> a = b.
Proof.
  induction a as [|x a IH]; intros b H H'; inversion H; subst; inversion H'; subst; try lia; try reflexivity. f_equal. apply IH; assumption.
Qed.
Lemma str_lt_neq a : ~ str_lt a a.
Proof. induction a as [|x a IH]; intros H; inversion H; subst; [lia|auto]. Qed.
Lemma sorted_nodup ks : StronglySorted str_lt ks -> NoDup ks.
Proof.
  induction 1 as [|k ks S IH F]; constructor; [|exact IH]. intros I. rewrite Forall_forall in F. exact (str_lt_neq k (F k I)).
Qed.
Lemma labels_unique s s' ks ks' : labels_of s ks -> labels_of s' ks' -> (forall k, slot s k = None <-> slot s' k = None) -> ks = ks'.
Proof.
  intros (S & E) (S' & E') D. assert (AntiSymm (=) str_lt) as AS by (intros a b; apply str_lt_asym). apply (StronglySorted_unique str_lt); [exact S|exact S'|].
  apply NoDup_Permutation; [apply sorted_nodup, S|apply sorted_nodup, S'|]. intros k. rewrite E, E', D. reflexivity.
Qed.
Lemma natural_unique n t t' : natural_text t n -> natural_text t' n -> t = t'.
Proof.
  assert (forall t, natural_text t n -> filled 1 n t) as A.
  { intros x (N & F & V & Z). split; [split; auto|]. split; [destruct x; [contradiction|cbn; lia]|]. intros G E. rewrite (Z E) in G. cbn in G. lia. }
  intros T T'. eapply filled_unique; apply A; eassumption.
Qed.
Lemma listing_depends (f : Z -> bytes) s s' t t' : secrets_listing f s t -> secrets_listing f s' t' -> (forall k, slot s k = None <-> slot s' k = None) -> sTime s = sTime s' -> t = t'.
Proof.
  intros (ks & n & L & N & T) (ks' & n' & L' & N' & T') D E. pose proof (labels_unique _ _ _ _ L L' D) as <-. pose proof (natural_unique _ _ _ N N') as <-.
  destruct T as [(Z & ->)|(Z & ->)], T' as [(Z' & ->)|(Z' & ->)]; try contradiction; [reflexivity|]. rewrite E. reflexivity.
Qed.
