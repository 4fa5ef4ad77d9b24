(** Proofs about Login.v: registration, lifetimes of the file, and what goes wrong. *)
From Verif Require Export LoginRuns Base32Facts.
Local Open Scope Z_scope.

(** *** The printed key *)
Lemma alphabet_char d : 0 <= d < 32 -> zb (if decide (d < 26) then 65 + d else 24 + d) = nth (Z.to_nat d) b32_alphabet x00.
Proof.
  intros Hd. assert (forallb (fun i => bool_decide (zb (if decide (Z.of_nat i < 26) then 65 + Z.of_nat i else 24 + Z.of_nat i) = nth i b32_alphabet x00)) (seq 0 32) = true) as F by (vm_compute; reflexivity).
  rewrite forallb_forall in F. specialize (F (Z.to_nat d)). rewrite in_seq, bool_decide_eq_true in F. specialize (F ltac:(lia)).
  rewrite Z2Nat.id in F by lia. exact F.
Qed.
Definition b32_group (g : bytes) : bytes :=
  let n := ((8 * length g + 4) / 5)%nat in
  let v := unbe g * 2 ^ (40 - 8 * zlen g) in
  map (fun i => let d := v / 32 ^ (7 - Z.of_nat i) mod 32 in zb (if decide (d < 26) then 65 + d else 24 + d)) (seq 0 n).
Lemma group_chars g : (length g <= 5)%nat -> b32_group g = b32_chars g.
Proof.
  intros Hg. unfold b32_group, b32_chars. cbv zeta. apply map_ext_in. intros i Hi. apply in_seq in Hi.
  set (n := ((8 * length g + 4) / 5)%nat) in *.
  assert (n <= 8)%nat as Hn. { subst n. apply Nat.lt_succ_r, Nat.div_lt_upper_bound; lia. }
  assert (8 * length g <= 5 * n)%nat as Hl. { subst n. pose proof (Nat.div_mod (8 * length g + 4) 5). pose proof (Nat.mod_upper_bound (8 * length g + 4) 5). lia. }
  rewrite alphabet_char by (apply Z.mod_pos_bound; lia). do 2 f_equal. f_equal.
  replace (40 - 8 * zlen g) with ((5 * Z.of_nat n - 8 * zlen g) + 5 * (8 - Z.of_nat n)) by lia.
  rewrite Z.pow_add_r by (unfold zlen; lia). rewrite (Z.pow_mul_r 2 5) by lia. change (2 ^ 5) with 32.
  replace (7 - Z.of_nat i) with ((Z.of_nat n - 1 - Z.of_nat i) + (8 - Z.of_nat n)) by lia.
  rewrite (Z.pow_add_r 32) by lia. rewrite Z.mul_assoc. apply Z.div_mul_cancel_r; apply Z.pow_nonzero; lia.
Qed.
Lemma encode_step f s : s <> [] -> b32_encode_fuel (S f) s =
  b32_group (take 5 s) ++ repeat x3d (8 - (8 * length (take 5 s) + 4) / 5) ++ b32_encode_fuel f (drop 5 s).
Proof. intros N. destruct s; [congruence|]. reflexivity. Qed.
Lemma encode_padded f : forall s, (length s <= f)%nat -> b32_padded s (b32_encode_fuel f s).
Proof.
  induction f as [|f IH]; intros s Hs.
  { destruct s; [|cbn in Hs; lia]. exists [], 0%nat. split; [apply (b32_last []); cbn; lia|]. cbn. split_and!; auto; lia. }
  destruct s as [|x s'].
  { exists [], 0%nat. split; [apply (b32_last []); cbn; lia|]. cbn. split_and!; auto; lia. }
  set (s := x :: s') in *. rewrite encode_step by discriminate.
  destruct (decide (length s < 5)%nat) as [Sh|Ln].
  - rewrite take_ge, drop_ge by lia. rewrite group_chars by lia. replace (b32_encode_fuel f []) with (@nil byte) by (destruct f; reflexivity). rewrite app_nil_r.
    assert (0 < length s)%nat as P by (cbn; lia).
    assert (2 <= (8 * length s + 4) / 5 <= 8)%nat as B. { split; [apply Nat.div_le_lower_bound|apply Nat.div_le_upper_bound]; lia. }
    exists (b32_chars s), (8 - (8 * length s + 4) / 5)%nat. split; [apply b32_last; exact Sh|]. split; [reflexivity|]. split; [lia|].
    rewrite app_length, chars_length, repeat_length. replace (_ + (8 - _))%nat with 8%nat by lia. reflexivity.
  - assert (length (take 5 s) = 5%nat) as T5 by (rewrite take_length; lia). rewrite T5.
    change (8 - (8 * 5 + 4) / 5)%nat with 0%nat. cbn [repeat app]. rewrite group_chars by lia.
    destruct (IH (drop 5 s)) as (t & n & B & E & Hn & M); [rewrite drop_length; lia|].
    exists (b32_chars (take 5 s) ++ t), n. split.
    { rewrite <- (take_drop 5 s) at 1. apply b32_more; assumption. }
    split; [rewrite E, app_assoc; reflexivity|]. split; [exact Hn|].
    rewrite app_length, chars_length, T5. change ((8 * 5 + 4) / 5)%nat with 8%nat.
    rewrite Nat.add_mod by lia. rewrite M. reflexivity.
Qed.
Lemma encode_b32 s : b32_padded s (b32_encode s).
Proof. apply encode_padded. lia. Qed.

Section WithLibs.
Context `{L : CryptoLaws} `{A : AuthLib}.

Lemma google_usable key : length key = 20%nat -> usable_totp (google_totp [] key).
Proof.
  intros Hk. unfold google_totp, usable_totp, typed_totp, zlen, SHA1. cbn [tKey tStart tStep tSize tAlgo tProvider length]. rewrite Hk.
  split_and!; try lia; try reflexivity. intros ->. discriminate Hk.
Qed.

(** *** Registration *)
(** The authenticator made, and what is printed about it. *)
Definition made_password (w : world) (a : lauth) (w' : world) : Prop :=
  exists p a0, wPw w = Some p :: wPw w' /\ new_password p 0 (wRng w) = (Some a0, wRng w') /\ a = of_auth a0 /\
    wOut w' = wOut w /\ wFs w' = wFs w /\ wFate w' = wFate w /\ wClk w' = wClk w.
Definition made_totp (w : world) (a : lauth) (w' : world) : Prop :=
  exists key code b, length key = 20%nat /\ delivers (wRng w) key (wRng w') /\ b32_padded key b /\
    totp_code (google_totp [] key) (to_u 64 (nth 0 (wClk w) 0)) code /\
    a = LAuth (bs "TOTP") [] code (Some (totp_bytes (google_totp [] key))) /\
    wOut w' = wOut w ++ key_line b /\ only_changes picture (wFs w) (wFs w') /\ (disk_ok w -> disk_ok w') /\ wPw w' = wPw w.
Lemma reg_password_cases w :
  (exists a w', reg_password w = Done a w' /\ made_password w a w' /\ wIn w' = wIn w) \/
  (exists w', reg_password w = Fail w' /\ keeps w w' /\ wOut w' = wOut w).
Proof.
  unfold reg_password. destruct (w_pass w) as [[p|] w1] eqn:E.
  2:{ right. exists w1. split; [reflexivity|]. split; [exact (w_pass_keeps _ _ _ E)|]. unfold w_pass in E. destruct (wPw w) as [|x l]; inversion E; reflexivity. }
  pose proof (w_pass_keeps _ _ _ E) as K. apply w_pass_eq in E as (P & I1 & C1 & G1 & O1).
  destruct (new_password p 0 (wRng w1)) as [[a|] g] eqn:N.
  - left. exists (of_auth a), (set_rng w1 g). split; [reflexivity|]. split; [|exact I1]. exists p, a. cbn. rewrite <- G1. destruct K as (K1 & K2 & _). auto 10.
  - right. exists (set_rng w1 g). split; [reflexivity|]. split; [|exact O1]. eapply keeps_trans; [exact K|apply set_rng_keeps].
Qed.
Lemma reg_totp_cases qr w :
  (exists a w', reg_totp qr w = Done a w' /\ made_totp w a w' /\ wIn w' = wIn w) \/
  (exists w', reg_totp qr w = Fail w' /\ only_changes picture (wFs w) (wFs w') /\ wOut w' = wOut w).
Proof.
  unfold reg_totp. destruct (w_now w) as [now w1] eqn:E. pose proof (w_now_keeps _ _ _ E) as K. apply w_now_eq in E as (Tm & C1 & I1 & P1 & G1 & O1).
  unfold new_google. destruct (rand_cases 20 (wRng w1)) as [(key & g & -> & Hk & Dl)|(g & -> & _)].
  2:{ right. cbn. eexists. split; [reflexivity|]. split; [|exact O1]. intros q _. cbn. rewrite (keeps_fs _ _ K). reflexivity. }
  destruct (import_google_ok [] key (to_u 64 now)) as (code & Hc & ->). { unfold zlen. rewrite Hk. cbn. lia. }
  cbn [obind lift then_ fst snd]. unfold export_user. cbn [aType aSecret]. rewrite decide_False by (intros X; apply X; reflexivity).
  change (Totp key 0 30 6 3 []) with (google_totp [] key) in *.
  rewrite (usable_parse (google_totp [] key)) by (apply google_usable, Hk). cbn [obind lift then_].
  destruct (qr (google_totp [] key)) as [png|].
  2:{ right. eexists. split; [reflexivity|]. split; [|exact O1]. intros q _. cbn. rewrite (keeps_fs _ _ K). reflexivity. }
  destruct (w_raw_write (set_rng w1 g) picture png) as [ok w2] eqn:W. pose proof (raw_write_only _ _ _ _ _ W) as Oc.
  assert (only_changes picture (wFs w) (wFs w2)) as Oc'. { intros q Hq. rewrite (Oc q Hq). cbn. rewrite (keeps_fs _ _ K). reflexivity. }
  destruct ok.
  - apply raw_write_ok in W as (_ & _ & Wi & Wp & _ & Wr & Wo & Wd). left. eexists _, _. split; [reflexivity|]. split; [|cbn; rewrite Wi; exact I1].
    exists key, code, (b32_encode key). cbn [wRng wOut wPw wFs w_print]. rewrite Wr, Wo, Wp. cbn [wRng wOut wPw wFs set_rng]. 
    refine (conj Hk (conj _ (conj (encode_b32 _) (conj _ (conj eq_refl (conj _ (conj Oc' (conj _ P1)))))))).
    + rewrite <- G1. exact Dl.
    + rewrite <- Tm. exact Hc.
    + rewrite O1. reflexivity.
    + intros D. apply (disk_drop _ _ Wd). exact (keeps_disk _ _ K D).
  - right. exists w2. split; [reflexivity|]. split; [exact Oc'|].
    assert (wOut w2 = wOut (set_rng w1 g)) as ->; [|exact O1]. clear -W. unfold w_raw_write in W. destruct (decide _); [injection W as <-; reflexivity|].
    destruct (wFate (set_rng w1 g)) as [|x l]; [|destruct x]; cbn in W; inversion W; reflexivity.
Qed.
Lemma ask_cases qr f : forall w,
  (exists a w1 w2, ask_type f qr w = Done a w2 /\ keeps w w1 /\ wOut w1 = wOut w /\ wPw w1 = wPw w /\ wRng w1 = wRng w /\ wClk w1 = wClk w /\ wIn w2 = wIn w1 /\
    ((asked (wIn w) (bs "password") (wIn w1) /\ made_password w1 a w2) \/ (asked (wIn w) (bs "TOTP") (wIn w1) /\ made_totp w1 a w2))) \/
  (exists w', ask_type f qr w = Fail w' /\ only_changes picture (wFs w) (wFs w') /\ wOut w' = wOut w) \/ ask_type f qr w = Spin.
Proof.
  induction f as [|f IH]; intros w; [auto|]. cbn [ask_type]. destruct (w_line w) as [[t|] w1] eqn:E; pose proof (w_line_keeps _ _ _ E) as K.
  2:{ right. left. exists w1. split; [reflexivity|]. apply w_line_eq in E as (_ & _ & _ & _ & O). split; [apply keeps_only, K|exact O]. }
  pose proof (w_line_hears _ _ _ E) as H. apply w_line_eq in E as (_ & P & Cl & G & O).
  destruct (decide (t = TypePassword)) as [->|N1].
  { destruct (reg_password_cases w1) as [(a & w2 & -> & M & I)|(w2 & -> & K2 & O2)].
    - left. exists a, w1, w2. split_and!; auto. left. split; [|exact M]. exists []. split; [exact H|constructor].
    - right. left. exists w2. split; [reflexivity|]. split; [|congruence]. apply keeps_only. eapply keeps_trans; eauto. }
  destruct (decide (t = TypeTOTP)) as [->|N2].
  { destruct (reg_totp_cases qr w1) as [(a & w2 & -> & M & I)|(w2 & -> & K2 & O2)].
    - left. exists a, w1, w2. split_and!; auto. right. split; [|exact M]. exists []. split; [exact H|constructor].
    - right. left. exists w2. split; [reflexivity|]. split; [|congruence]. intros q Hq. rewrite (K2 q Hq), (keeps_fs _ _ K). reflexivity. }
  destruct (IH w1) as [(a & w1' & w2 & E2 & K2 & O2 & P2 & G2 & C2 & I2 & M)|[(w2 & E2 & K2 & O2)|E2]].
  - left. exists a, w1', w2. split; [exact E2|]. split; [eapply keeps_trans; eauto|]. split_and!; try congruence.
    destruct M as [[(ls & Hl & Fl) M]|[(ls & Hl & Fl) M]]; [left|right]; (split; [|exact M]); exists (t :: ls).
    + split; [apply (hears_app _ [t] _ _ _ H Hl)|constructor; auto].
    + split; [apply (hears_app _ [t] _ _ _ H Hl)|constructor; auto].
  - right. left. exists w2. split; [exact E2|]. split; [|congruence]. intros q Hq. rewrite (K2 q Hq), (keeps_fs _ _ K). reflexivity.
  - auto.
Qed.

(** The authenticator and what is printed, in terms of what was available at the start. *)
Lemma made_enrols w1 a w2 ty : (ty = bs "password" /\ made_password w1 a w2) \/ (ty = bs "TOTP" /\ made_totp w1 a w2) ->
  exists k, enrols ty w1 a k (wPw w2) (wRng w2) /\ wOut w2 = wOut w1 ++ k /\ only_changes picture (wFs w1) (wFs w2) /\ (disk_ok w1 -> disk_ok w2).
Proof.
  intros [[-> (p & a0 & P & N & -> & O & F & D & Cl)]|[-> (key & code & b & Hk & Dl & B & Hc & -> & O & Oc & D & P)]].
  - exists []. apply new_password_exact in N as (Hl & salt & Hs & Dl & ->). split; [|split; [rewrite app_nil_r; exact O|split; [intros q _; rewrite F; reflexivity|]]].
    + left. split; [reflexivity|]. split; [reflexivity|]. exists p, salt. split_and!; auto.
    + unfold disk_ok. rewrite D. auto.
  - exists (key_line b). split; [|auto]. right. split; [reflexivity|]. exists key, code, b. split_and!; auto.
Qed.
Lemma enrols_good ty w a k ps g : enrols ty w a k ps g -> good_lauth a.
Proof.
  intros [(_ & _ & p & salt & _ & _ & _ & _ & ->)|(_ & key & code & b & _ & _ & _ & _ & (_ & Dg & _) & -> & _)].
  - split_and!; try constructor. apply ascii_text. repeat constructor.
  - split; [|split]; cbn [lType lLabel lLast]; [apply ascii_text; repeat constructor|constructor|apply ascii_text, digits_ascii, Dg].
Qed.
Lemma register_cases f qr path s w : path <> [] -> path <> picture -> on_file (wFs w) path s ->
  match register f qr path s w with
  | Done s' w' => exists n a ls ty k, hears (wIn w) (n :: ls ++ [ty]) (wIn w') /\ Forall (fun l => l <> bs "password" /\ l <> bs "TOTP") ls /\
      enrols ty w a k (wPw w') (wRng w') /\ with_user s n (LUser n (Some a)) s' /\ wOut w' = wOut w ++ k ++ said (Enrolled n a) /\
      wFs w' !! path = Some (users_json s') /\ (forall q, q <> path -> q <> picture -> wFs w' !! q = wFs w !! q)
  | Fail w' | Crash w' => (disk_ok w -> wFs w' !! path = wFs w !! path) /\ (forall q, q <> path -> q <> picture -> wFs w' !! q = wFs w !! q) /\
      exists k, key_lines k /\ wOut w' = wOut w ++ k
  | Spin => True
  end.
Proof.
  intros N Np F. unfold register. destruct (w_line w) as [[n|] w0] eqn:E; pose proof (w_line_keeps _ _ _ E) as K0.
  2:{ apply w_line_eq in E as (_ & _ & _ & _ & O). split; [intros _; rewrite (keeps_fs _ _ K0); reflexivity|]. split; [intros; rewrite (keeps_fs _ _ K0); reflexivity|].
      exists []. split; [left; reflexivity|rewrite app_nil_r; exact O]. }
  pose proof (w_line_hears _ _ _ E) as H0. apply w_line_eq in E as (_ & P0 & C0 & G0 & O0).
  destruct (ask_cases qr f w0) as [(a & w1 & w2 & -> & K1 & O1 & P1 & G1 & C1 & I2 & M)|[(w2 & -> & K2 & O2)| -> ]]; cbn [then_]; [| |exact I].
  2:{ split; [intros _; rewrite (K2 path) by congruence; rewrite (keeps_fs _ _ K0); reflexivity|].
      split; [intros q _ Hq; rewrite (K2 q Hq); rewrite (keeps_fs _ _ K0); reflexivity|]. exists []. split; [left; reflexivity|rewrite app_nil_r; congruence]. }
  assert (exists ty, asked (wIn w0) ty (wIn w1) /\ ((ty = bs "password" /\ made_password w1 a w2) \/ (ty = bs "TOTP" /\ made_totp w1 a w2))) as (ty & (ls & Hl & Fl) & M').
  { destruct M as [[X Y]|[X Y]]; eauto 6. }
  clear M. destruct (made_enrols _ _ _ _ M') as (k & En & O2 & Oc & D2). clear M'.
  assert (wFs w1 = wFs w) as F1 by (rewrite (keeps_fs _ _ K1), (keeps_fs _ _ K0); reflexivity).
  assert (enrols ty w a k (wPw w2) (wRng w2)) as En'. { unfold enrols in *. rewrite P1, P0, G1, G0, C1, C0 in En. exact En. }
  assert (key_lines k) as Kl. { destruct En as [(_ & -> & _)|(_ & ? & ? & b & _ & _ & _ & -> & _)]; [left|right]; eauto. }
  destruct s as [m|]; cbn [then_].
  2:{ split; [intros _; rewrite (Oc path) by congruence; rewrite F1; reflexivity|]. split; [intros q _ Hq; rewrite (Oc q Hq), F1; reflexivity|]. exists k. split; [exact Kl|congruence]. }
  unfold write_users. destruct (w_raw_write w2 path _) as [ok w3] eqn:W. pose proof (raw_write_only _ _ _ _ _ W) as Ow.
  destruct ok; cbn [then_].
  - apply raw_write_ok in W as (_ & Wf & Wi & Wp & _ & Wg & Wo & _). exists n, a, ls, ty, k. cbn [wIn wPw wRng wOut wFs w_print]. rewrite Wi, Wp, Wg, Wo, I2.
    split; [apply (hears_app _ [n] _ _ _ H0 Hl)|]. split; [exact Fl|]. split; [exact En'|]. split; [exists m; auto|].
    split; [cbn [said]; rewrite O2, O1, O0, <- !app_assoc; reflexivity|]. split; [rewrite Wf, lookup_insert; reflexivity|].
    intros q Hq Hq'. rewrite (Ow q Hq), (Oc q Hq'), F1. reflexivity.
  - split.
    + intros D. exfalso. apply (raw_write_fail _ _ _ _ W N). apply D2. apply (keeps_disk _ _ K1), (keeps_disk _ _ K0), D.
    + split; [intros q Hq Hq'; rewrite (Ow q Hq), (Oc q Hq'), F1; reflexivity|]. exists k. split; [exact Kl|].
      assert (wOut w3 = wOut w2) as ->; [|congruence]. clear -W. unfold w_raw_write in W. destruct (decide _); [injection W as <-; reflexivity|].
      destruct (wFate w2) as [|x l]; [|destruct x]; cbn in W; inversion W; reflexivity.
Qed.
Lemma main_register f qr path rest s w : path <> [] -> on_file (wFs w) path s -> login_main f qr path (bs "register" :: rest) w = register f qr path s w.
Proof. intros N F. unfold login_main. rewrite (load_ok _ _ _ N F). cbn [then_]. rewrite decide_True by reflexivity. reflexivity. Qed.
Lemma register_done f qr path rest s w s' w' : path <> [] -> path <> bs "qr.png" -> on_file (wFs w) path s ->
  login_main f qr path (bs "register" :: rest) w = Done s' w' ->
  exists n a ls ty k, hears (wIn w) (n :: ls ++ [ty]) (wIn w') /\ Forall (fun l => l <> bs "password" /\ l <> bs "TOTP") ls /\
    enrols ty w a k (wPw w') (wRng w') /\ with_user s n (LUser n (Some a)) s' /\ wOut w' = wOut w ++ k ++ said (Enrolled n a) /\
    (utf8_text n -> on_file (wFs w') path s') /\ (forall q, q <> path -> q <> bs "qr.png" -> wFs w' !! q = wFs w !! q).
Proof.
  intros N Np F E. rewrite (main_register _ _ _ _ s) in E by assumption. pose proof (register_cases f qr path s w N Np F) as R. rewrite E in R.
  destruct R as (n & a & ls & ty & k & Hh & Fl & En & Wu & O & Wf & Fr). exists n, a, ls, ty, k. split_and!; auto.
  intros Tn. assert (wFs w' = <[path := users_json s']> (wFs w')) as -> by (rewrite insert_id; auto). apply written_good.
  destruct Wu as (m & -> & ->). apply good_insert; [exact (on_file_good _ _ _ F)|exact Tn|]. split; [exact Tn|]. intros a' [= <-]. eapply enrols_good, En.
Qed.
Lemma register_otherwise f qr path rest s w w' : path <> [] -> path <> bs "qr.png" -> disk_ok w -> on_file (wFs w) path s ->
  ends (login_main f qr path (bs "register" :: rest) w) w' -> (forall s', login_main f qr path (bs "register" :: rest) w <> Done s' w') ->
  on_file (wFs w') path s /\ (forall q, q <> path -> q <> bs "qr.png" -> wFs w' !! q = wFs w !! q) /\ exists k, key_lines k /\ wOut w' = wOut w ++ k.
Proof.
  intros N Np D F E Nd. rewrite (main_register _ _ _ _ s) in E by assumption. setoid_rewrite (main_register _ _ _ _ s) in Nd; [|assumption..].
  pose proof (register_cases f qr path s w N Np F) as R.
  destruct E as [[s1 E]|[E|E]]; [destruct (Nd _ E)| |]; rewrite E in R; destruct R as (R1 & R2 & R3); (split; [|split; assumption]);
    (eapply on_file_other; [apply R1, D|exact F]).
Qed.

(** *** Lifetimes *)
Lemma process f qr path args s w w' : path <> [] -> path <> bs "qr.png" -> disk_ok w -> text_input (wIn w) -> on_file (wFs w) path s ->
  ends (login_main f qr path args w) w' -> exists es s' k, history s es s' /\ on_file (wFs w') path s' /\ key_lines k /\ wOut w' = wOut w ++ k ++ concat (map said es).
Proof.
  intros N Np D T F E.
  assert (w' = w -> exists es s' k, history s es s' /\ on_file (wFs w') path s' /\ key_lines k /\ wOut w' = wOut w ++ k ++ concat (map said es)) as Same.
  { intros ->. exists [], s, []. split; [constructor|]. split; [exact F|]. split; [left; reflexivity|]. cbn. rewrite app_nil_r. reflexivity. }
  destruct args as [|cmd rest].
  { apply Same. destruct E as [[? E]|[E|E]]; cbn in E; congruence. }
  destruct (decide (cmd = bs "register")) as [->|N1].
  - rewrite (main_register _ _ _ _ s) in E by assumption. pose proof (register_cases f qr path s w N Np F) as R. unfold ends in E.
    pose proof (main_register f qr path rest s w N F) as Em.
    destruct (register f qr path s w) as [s1 w1|w1|w1|] eqn:Er.
    + assert (w' = w1) as -> by (destruct E as [[? E]|[E|E]]; congruence).
      destruct (register_done f qr path rest s w s1 w1 N Np F Em) as (n & a & ls & ty & k & Hh & _ & En & Wu & O & Fi & _).
      exists [Enrolled n a], s1, k. split; [eapply hi_enrolled; [exact Wu|constructor]|]. split; [apply Fi; specialize (T _ _ Hh); inversion T; assumption|].
      split; [destruct En as [(_ & -> & _)|(_ & ? & ? & b & _ & _ & _ & -> & _)]; [left|right]; eauto|]. cbn [map concat]. rewrite app_nil_r. exact O.
    + assert (w' = w1) as -> by (destruct E as [[? E]|[E|E]]; congruence). destruct R as (R1 & _ & k & Kl & O).
      exists [], s, k. split; [constructor|]. split; [eapply on_file_other; [apply R1, D|exact F]|]. split; [exact Kl|]. cbn. rewrite app_nil_r. exact O.
    + assert (w' = w1) as -> by (destruct E as [[? E]|[E|E]]; congruence). destruct R as (R1 & _ & k & Kl & O).
      exists [], s, k. split; [constructor|]. split; [eapply on_file_other; [apply R1, D|exact F]|]. split; [exact Kl|]. cbn. rewrite app_nil_r. exact O.
    + destruct E as [[? E]|[E|E]]; discriminate E.
  - destruct (decide (cmd = bs "run")) as [->|N2].
    + destruct (main_run f qr path rest s w w' N D T F E) as (es & s' & H & F' & O & _). exists es, s', []. split; [exact H|]. split; [exact F'|]. split; [left; reflexivity|exact O].
    + apply Same. unfold login_main in E. rewrite (load_ok _ _ _ N F) in E. cbn [then_] in E. rewrite !decide_False in E by assumption.
      destruct E as [[? E]|[E|E]]; congruence.
Qed.
Lemma lifetime_history qr path f outs f' : path <> [] -> path <> bs "qr.png" -> lifetime qr path f outs f' -> forall s, on_file f path s ->
  exists ess s', Forall2 tells outs ess /\ history s (concat ess) s' /\ on_file f' path s'.
Proof.
  intros N Np. induction 1 as [f|f k args w w' o outs f' <- D T E O H IH|f f1 outs f' Same H IH]; intros s F.
  - exists [], s. split; [constructor|]. split; [constructor|exact F].
  - destruct (process k qr path args s w w' N Np D T F E) as (es & s1 & kl & Hi & F1 & Kl & Ow).
    destruct (IH s1 F1) as (ess & s' & Fo & Hh & F'). exists (es :: ess), s'. split; [|split; [cbn [concat]; eapply history_app; eauto|exact F']].
    constructor; [|exact Fo]. exists kl. split; [exact Kl|]. rewrite O in Ow. apply app_inv_head in Ow. exact Ow.
  - apply IH. eapply on_file_other; eauto.
Qed.
End WithLibs.
