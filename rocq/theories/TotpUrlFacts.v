(** Proofs about TotpUrl.v. *)
From Verif Require Export SpecUrl LoginClaims.
Local Open Scope Z_scope.

(** *** Reading is determined *)
Lemma pct_det plus s t : pct plus s t -> forall t', pct plus s t' -> t = t'.
Proof.
  induction 1 as [|a b h l s t Ha Hb H IH|s t P H IH|c s t N1 N2 H IH]; intros t' H'; inversion H'; subst; try congruence; try (f_equal; solve [auto|congruence]);
    try (exfalso; match goal with X : _ = true -> ?c <> ?c |- _ => apply X; [first [assumption|reflexivity]|reflexivity] end).
Qed.
Lemma cut_at (c : byte) a b a' b' : c ∉ a -> c ∉ a' -> a ++ [c] ++ b = a' ++ [c] ++ b' -> a = a' /\ b = b'.
Proof.
  revert a'. induction a as [|x a IH]; intros [|x' a'] N N' E; cbn in E.
  - injection E as <-. auto.
  - injection E as <- _. destruct N'. left.
  - injection E as -> _. destruct N. left.
  - injection E as <- E. destruct (IH a' ltac:(set_solver) ltac:(set_solver) E) as [-> ->]. auto.
Qed.
Lemma no_more (c : byte) a b v : c ∉ v -> v <> a ++ [c] ++ b.
Proof. intros N ->. set_solver. Qed.
Lemma form_det q ps : form q ps -> forall ps', form q ps' -> ps = ps'.
Proof.
  assert (forall k v p k' v' p', pair_text k v p -> pair_text k' v' p' -> k = k' -> v = v' -> p = p') as D.
  { intros k v [n x] k' v' [n' x'] (_ & _ & _ & A & B) (_ & _ & _ & A' & B') -> ->. cbn in *. f_equal; eapply pct_det; eauto. }
  induction 1 as [k v p P|k v p q ps P H IH]; intros ps' H'.
  - inversion H' as [k' v' p' P' E|k' v' p' q' ps2 P' H2 E]; subst.
    + apply cut_at in E as [Ek Ev]; [|apply P'|apply P]. f_equal. symmetry. eapply D; eauto.
    + apply cut_at in E as [Ek Ev]; [|apply P'|apply P]. exfalso. symmetry in Ev. eapply no_more; [|exact Ev]. apply P.
  - inversion H' as [k' v' p' P' E|k' v' p' q' ps2 P' H2 E]; subst.
    + apply cut_at in E as [Ek Ev]; [|apply P'|apply P]. exfalso. eapply no_more; [|exact Ev]. apply P'.
    + apply cut_at in E as [Ek Ev]; [|apply P'|apply P]. apply cut_at in Ev as [Ev Eq]; [|apply P'|apply P]. subst.
      f_equal; [symmetry; eapply D; eauto|auto].
Qed.
Lemma key_uri_det u l ps l' ps' : key_uri u l ps -> key_uri u l' ps' -> l = l' /\ ps = ps'.
Proof.
  intros (p & q & -> & N & _ & P & F) (p' & q' & E & N' & _ & P' & F'). apply app_inv_head in E. apply cut_at in E as [-> ->]; auto.
  split; [eapply pct_det; eauto|eapply form_det; eauto].
Qed.

(** *** What is escaped is read back *)
Lemma upperhex_digit n : 0 <= n < 16 -> unhexdigit (upperhex n) = Some n.
Proof.
  intros H. assert (forallb (fun i => bool_decide (unhexdigit (upperhex (Z.of_nat i)) = Some (Z.of_nat i))) (seq 0 16) = true) as F by (vm_compute; reflexivity).
  rewrite forallb_forall in F. specialize (F (Z.to_nat n)). rewrite in_seq, bool_decide_eq_true in F. rewrite Z2Nat.id in F by lia. apply F. lia.
Qed.
Lemma byte_all (P : byte -> bool) : forallb (fun i => P (zb (Z.of_nat i))) (seq 0 256) = true -> forall c, P c = true.
Proof.
  intros F c. rewrite forallb_forall in F. pose proof (bz_range c). specialize (F (Z.to_nat (bz c))). rewrite in_seq, Z2Nat.id, zb_bz in F by lia. apply F. lia.
Qed.
Lemma escape_pct plus plain s : plain x25 = false -> plain x2b = false \/ plus = false -> pct plus (url_escape plus plain s) s.
Proof.
  intros N1 N2. induction s as [|c s IH]; [constructor|]. cbn [url_escape flat_map]. fold (url_escape plus plain s). pose proof (bz_range c) as Hc.
  destruct (plus && bool_decide (c = x20)) eqn:E.
  - apply andb_true_iff in E as [-> E]. apply bool_decide_eq_true in E as ->. cbn [app]. constructor; auto.
  - destruct (plain c) eqn:Pc; cbn [app].
    + constructor; [congruence| |exact IH]. intros ->. destruct N2; [congruence|discriminate].
    + assert (c = zb (16 * (bz c / 16) + bz c mod 16)) as E2 by (rewrite <- Z_div_mod_eq_full; symmetry; apply zb_bz). rewrite E2 at 3.
      constructor; [apply upperhex_digit; lia|apply upperhex_digit; lia|exact IH].
Qed.
Definition only (P : byte -> bool) (s : bytes) : Prop := Forall (fun c => P c = true) s.
Lemma escape_only plus plain (P : byte -> bool) s : (forall c, plain c = true -> P c = true) -> (plus = true -> P x2b = true) -> P x25 = true -> (forall n, 0 <= n < 16 -> P (upperhex n) = true) ->
  only P (url_escape plus plain s).
Proof.
  intros A B D U. induction s as [|c s IH]; [constructor|]. cbn [url_escape flat_map]. apply Forall_app. split; [|exact IH]. pose proof (bz_range c).
  destruct (plus && bool_decide (c = x20)) eqn:E; [apply andb_true_iff in E as [-> _]; auto|]. destruct (plain c) eqn:Pc; auto.
  repeat constructor; auto; apply U; lia.
Qed.
Lemma upperhex_all (P : byte -> bool) : forallb P (bs "0123456789ABCDEF") = true -> forall n, 0 <= n < 16 -> P (upperhex n) = true.
Proof.
  intros F n H. rewrite forallb_forall in F. apply F.
  assert (forallb (fun i => bool_decide (upperhex (Z.of_nat i) ∈ bs "0123456789ABCDEF")) (seq 0 16) = true) as G by (vm_compute; reflexivity).
  rewrite forallb_forall in G. specialize (G (Z.to_nat n)). rewrite in_seq, bool_decide_eq_true, Z2Nat.id in G by lia. apply elem_of_list_In, G. lia.
Qed.
Definition query_char (c : byte) : bool := unreserved c || bool_decide (c = x2b) || bool_decide (c = x25).
Definition path_char (c : byte) : bool := path_plain c || bool_decide (c = x25) || bool_decide (c = x2a).
Lemma query_text s : only query_char (url_escape true unreserved s).
Proof.
  apply escape_only; [intros c H; unfold query_char; rewrite H; reflexivity|reflexivity|reflexivity|]. apply upperhex_all. vm_compute. reflexivity.
Qed.
Lemma path_text s : only path_char (escaped_path s).
Proof.
  unfold escaped_path. destruct (decide _) as [->|]; [repeat constructor|].
  apply escape_only; [intros c H; unfold path_char; rewrite H; reflexivity|discriminate|reflexivity|]. apply upperhex_all. vm_compute. reflexivity.
Qed.
Lemma path_pct s : pct false (escaped_path s) s.
Proof.
  unfold escaped_path. destruct (decide _) as [->|].
  - cbn. constructor; [discriminate|discriminate|constructor].
  - apply escape_pct; [reflexivity|auto].
Qed.
Lemma only_not P s c : only P s -> P c = false -> c ∉ s.
Proof. intros F N H. unfold only in F. rewrite Forall_forall in F. rewrite (F c H) in N. discriminate. Qed.
Lemma pair_encoded k v : pair_text (url_escape true unreserved k) (url_escape true unreserved v) (k, v).
Proof.
  unfold pair_text. split; [eapply only_not; [apply query_text|reflexivity]|]. split; [eapply only_not; [apply query_text|reflexivity]|].
  split; [eapply only_not; [apply query_text|reflexivity]|]. split; apply escape_pct; auto.
Qed.
Lemma query_form ps : ps <> [] -> form (query_encode ps) ps.
Proof.
  induction ps as [|[k v] ps IH]; [contradiction|]. intros _. cbn [query_encode]. destruct ps as [|p ps].
  - rewrite app_nil_r. constructor. apply pair_encoded.
  - apply fm_more; [apply pair_encoded|]. apply IH. discriminate.
Qed.
Definition whole_query_char (c : byte) : bool := query_char c || bool_decide (c = x3d) || bool_decide (c = x26).
Lemma query_only ps : only whole_query_char (query_encode ps).
Proof.
  assert (forall s, only whole_query_char (url_escape true unreserved s)) as Q.
  { intros s. eapply Forall_impl; [apply query_text|]. intros c H. unfold whole_query_char. rewrite H. reflexivity. }
  induction ps as [|[k v] ps IH]; [constructor|]. cbn [query_encode]. apply Forall_app. split; [apply Q|]. apply Forall_app. split; [repeat constructor|].
  apply Forall_app. split; [apply Q|]. destruct ps; [constructor|]. apply Forall_app. split; [repeat constructor|exact IH].
Qed.

(** *** The URL *)
Lemma path_unslashed label : label <> [] -> exists p, (match escaped_path label with [] => [] | c :: _ => if decide (c = x2f) then escaped_path label else x2f :: escaped_path label end) = x2f :: p /\
  pct false p (unslashed label) /\ only path_char p.
Proof.
  intros N. pose proof (path_pct label) as P. pose proof (path_text label) as T. destruct (escaped_path label) as [|c p] eqn:E; [inversion P; subst; contradiction|].
  destruct (decide (c = x2f)) as [->|Hc].
  - exists p. split; [reflexivity|]. split; [|inversion T; assumption]. inversion P; subst. cbn. rewrite decide_True by reflexivity. assumption.
  - exists (c :: p). split; [reflexivity|]. split; [|exact T]. destruct label as [|d l]; [contradiction|]. cbn [unslashed]. destruct (decide (d = x2f)) as [->|]; [|exact P].
    exfalso. unfold escaped_path in E. destruct (decide _) as [X|]; [discriminate X|]. cbn in E. injection E as <- _. apply Hc. reflexivity.
Qed.
Lemma query_some k v ps : exists c q, query_encode ((k, v) :: ps) = c :: q.
Proof. cbn [query_encode]. destruct (url_escape true unreserved k); cbn [app]; eauto. Qed.
Lemma string_uri label ps : label <> [] -> ps <> [] -> key_uri (url_string (bs "otpauth") (bs "totp") label (query_encode ps)) (unslashed label) ps.
Proof.
  intros Nl Np. destruct (path_unslashed label Nl) as (p & E & P & T). exists p, (query_encode ps). split.
  { unfold url_string. cbv zeta. rewrite E. destruct ps as [|[k v] ps]; [contradiction|]. destruct (query_some k v ps) as (c & q & ->). reflexivity. }
  split; [eapply only_not; [exact T|reflexivity]|]. split.
  { intros H. apply elem_of_app in H as [H|H]; revert H; [eapply only_not; [exact T|reflexivity]|eapply only_not; [apply query_only|reflexivity]]. }
  split; [exact P|apply query_form, Np].
Qed.
Lemma url_reads c label : label <> [] -> exists secret, b32_padded (tKey c) secret /\
  key_uri (generate_url c label) (unslashed label) (carried c secret (show_int (tSize c))).
Proof.
  intros N. exists (b32_encode (tKey c)). split; [apply encode_b32|]. unfold generate_url, carried.
  match goal with |- key_uri (url_string _ _ _ (query_encode ?x)) _ ?y => replace y with x end.
  - apply string_uri; [exact N|]. intros X. apply app_eq_nil in X as [_ X]. apply app_eq_nil in X as [_ X]. discriminate X.
  - destruct (decide (tSize c = 6)), (decide (tSize c <> 6)); try contradiction; destruct (decide (tProvider c = [])), (decide (tProvider c <> [])); try contradiction; reflexivity.
Qed.
Definition uri_charb (c : byte) : bool :=
  bool_decide (97 <= bz c <= 122) || bool_decide (65 <= bz c <= 90) || bool_decide (48 <= bz c <= 57) || bool_decide (c ∈ bs "-._~:/?#[]@!$&'()*+,;=%").
Lemma uri_charb_ok c : uri_charb c = true -> uri_char c.
Proof. unfold uri_charb, uri_char. rewrite !orb_true_iff, !bool_decide_eq_true. tauto. Qed.
Lemma uri_char_path c : path_char c = true -> uri_char c.
Proof.
  intros H. apply uri_charb_ok. pose proof (byte_all (fun c => implb (path_char c) (uri_charb c)) ltac:(vm_compute; reflexivity) c) as X. cbv beta in X. rewrite H in X. exact X.
Qed.
Lemma uri_char_query c : whole_query_char c = true -> uri_char c.
Proof.
  intros H. apply uri_charb_ok. pose proof (byte_all (fun c => implb (whole_query_char c) (uri_charb c)) ltac:(vm_compute; reflexivity) c) as X. cbv beta in X. rewrite H in X. exact X.
Qed.
Lemma uri_chars l : forallb uri_charb l = true -> Forall uri_char l.
Proof. rewrite forallb_forall, Forall_forall. intros H x Hx. apply uri_charb_ok, H, elem_of_list_In, Hx. Qed.
Lemma url_ascii c label : Forall uri_char (generate_url c label).
Proof.
  unfold generate_url, url_string. cbv zeta. apply Forall_app. split; [apply uri_chars; vm_compute; reflexivity|].
  apply Forall_app. split; [apply uri_chars; vm_compute; reflexivity|].
  apply Forall_app. split; [apply uri_chars; vm_compute; reflexivity|].
  assert (Forall uri_char (escaped_path label)) as P by (eapply Forall_impl; [apply path_text|apply uri_char_path]).
  apply Forall_app. split.
  - destruct (escaped_path label) as [|x p]; [constructor|]. destruct (decide _); [exact P|]. constructor; [apply uri_char_path; reflexivity|exact P].
  - match goal with |- context [query_encode ?x] => pose proof (query_only x) as Q; destruct (query_encode x) end; [constructor|].
    constructor; [apply uri_charb_ok; reflexivity|]. eapply Forall_impl; [exact Q|apply uri_char_query].
Qed.
