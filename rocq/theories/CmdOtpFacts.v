(** Proofs about CmdOtp.v. *)
From Verif Require Export SpecOtp CmdJournalFacts Base32Facts.
Local Open Scope Z_scope.

(** *** Numbers *)
Lemma atoi_digits_spec s : forall acc, match atoi_digits s acc with
  | Some n => exists m, digits_value s m /\ n = acc * 10 ^ zlen s + m
  | None => exists c, c ∈ s /\ ~ (48 <= bz c <= 57) end.
Proof.
  induction s as [|c s IH] using rev_ind; intros acc.
  - cbn. exists 0. split; [constructor|]. change (zlen []) with 0. lia.
  - assert (atoi_digits (s ++ [c]) acc = match atoi_digits s acc with Some n => if decide (48 <= bz c <= 57) then Some (n * 10 + (bz c - 48)) else None | None => None end) as ->.
    { clear IH. revert acc. induction s as [|x s IH]; intros acc; cbn; [destruct (decide _); reflexivity|]. destruct (decide (48 <= bz x <= 57)); [apply IH|reflexivity]. }
    specialize (IH acc). destruct (atoi_digits s acc) as [n|].
    + destruct IH as (m & D & ->). destruct (decide _) as [Hc|Hc].
      * exists (m * 10 + (bz c - 48)). split; [constructor; assumption|]. unfold zlen. rewrite app_length. cbn [length]. rewrite Nat2Z.inj_add, Z.pow_add_r by lia. lia.
      * exists c. split; [apply elem_of_app; right; left|exact Hc].
    + destruct IH as (x & Hx & Nx). exists x. split; [apply elem_of_app; left; exact Hx|exact Nx].
Qed.
Lemma digits_value_digits s n : digits_value s n -> 0 <= n /\ Forall (fun c => 48 <= bz c <= 57) s.
Proof. induction 1 as [|s c n D [IH1 IH2] Hc]; [split; [lia|constructor]|]. split; [lia|]. apply Forall_app. auto. Qed.
Lemma digits_value_fun s n n' : digits_value s n -> digits_value s n' -> n = n'.
Proof.
  intros D. revert n'. induction D as [|s c n D IH Hc]; intros n' D'; inversion D' as [E|s' c' m D1 H1 E]; subst.
  - reflexivity.
  - destruct s'; discriminate.
  - destruct s; discriminate.
  - apply app_inj_tail in E as [-> ->]. rewrite (IH m D1). reflexivity.
Qed.
Lemma atoi_digits_iff s n : atoi_digits s 0 = Some n <-> digits_value s n.
Proof.
  pose proof (atoi_digits_spec s 0) as X. destruct (atoi_digits s 0) as [n0|].
  - destruct X as (m & D & ->). rewrite Z.mul_0_l, Z.add_0_l. split; [intros [= <-]; exact D|]. intros D'. f_equal. eapply digits_value_fun; eauto.
  - split; [discriminate|]. intros D. apply digits_value_digits in D as [_ D]. destruct X as (c & Hc & N). rewrite Forall_forall in D. exfalso. eapply N, D, Hc.
Qed.
Lemma no_sign c d m : c = x2b \/ c = x2d -> digits_value (c :: d) m -> False.
Proof.
  intros Hc D. apply digits_value_digits in D as [_ D]. inversion D as [|x l Hx]; subst. destruct Hc as [-> | ->]; [change (bz x2b) with 43 in Hx|change (bz x2d) with 45 in Hx]; lia.
Qed.
Definition atoi_split (s : bytes) : Z * bytes := match s with x2b :: d => (1, d) | x2d :: d => (-1, d) | _ => (1, s) end.
Lemma atoi_split_spec s : (exists d, s = x2b :: d /\ atoi_split s = (1, d)) \/ (exists d, s = x2d :: d /\ atoi_split s = (-1, d)) \/
  atoi_split s = (1, s) /\ (forall d, s <> x2b :: d) /\ forall d, s <> x2d :: d.
Proof.
  destruct s as [|c s]; [right; right; split_and!; [reflexivity|discriminate..]|].
  destruct (decide (c = x2b)) as [->|N1]; [left; eauto|]. destruct (decide (c = x2d)) as [->|N2]; [right; left; eauto|].
  right; right. split; [|split; intros d [= ? ?]; contradiction]. destruct c; first [reflexivity|contradiction].
Qed.
Lemma atoi_iff s n : atoi s = Some n <-> decimal s n.
Proof.
  unfold atoi. fold (atoi_split s). unfold decimal. destruct (atoi_split_spec s) as [(d & -> & ->)|[(d & -> & ->)|(-> & N1 & N2)]]; cbn match.
  - destruct (decide (d = [])) as [->|Nd].
    + split; [discriminate|]. intros (_ & d & m & Nd & D & [[[<- | [= <-]] _]|[[=] _]]); [|congruence]. exfalso. refine (no_sign _ _ _ _ D). auto.
    + destruct (atoi_digits d 0) as [q|] eqn:Eq.
      * apply atoi_digits_iff in Eq. destruct (decide _) as [Hr|Hr].
        -- split.
           ++ intros [= <-]. split; [unfold int64; lia|]. exists d, q. split; [exact Nd|]. split; [exact Eq|]. left. split; [auto|lia].
           ++ intros (_ & d' & m & Nd' & D & [[[<- | [= <-]] ->]|[[=] _]]); [|rewrite (digits_value_fun _ _ _ D Eq); f_equal; lia].
              exfalso. refine (no_sign _ _ _ _ D). auto.
        -- split; [discriminate|]. intros (Hi & d' & m & Nd' & D & [[[<- | [= <-]] ->]|[[=] _]]).
           ++ exfalso. refine (no_sign _ _ _ _ D). auto.
           ++ rewrite (digits_value_fun _ _ _ D Eq) in Hi. unfold int64 in Hi. lia.
      * split; [discriminate|]. intros (Hi & d' & m & Nd' & D & [[[<- | [= <-]] ->]|[[=] _]]).
        -- exfalso. refine (no_sign _ _ _ _ D). auto.
        -- apply atoi_digits_iff in D. congruence.
  - destruct (decide (d = [])) as [->|Nd].
    + split; [discriminate|]. intros (_ & d & m & Nd & D & [[[<- | [=]] _]|[[= <-] _]]); [|congruence]. exfalso. refine (no_sign _ _ _ _ D). auto.
    + destruct (atoi_digits d 0) as [q|] eqn:Eq.
      * apply atoi_digits_iff in Eq. destruct (decide _) as [Hr|Hr].
        -- split.
           ++ intros [= <-]. split; [unfold int64; lia|]. exists d, q. split; [exact Nd|]. split; [exact Eq|]. right. split; [reflexivity|lia].
           ++ intros (_ & d' & m & Nd' & D & [[[<- | [=]] ->]|[[= <-] ->]]); [|rewrite (digits_value_fun _ _ _ D Eq); f_equal; lia].
              exfalso. refine (no_sign _ _ _ _ D). auto.
        -- split; [discriminate|]. intros (Hi & d' & m & Nd' & D & [[[<- | [=]] ->]|[[= <-] ->]]).
           ++ exfalso. refine (no_sign _ _ _ _ D). auto.
           ++ rewrite (digits_value_fun _ _ _ D Eq) in Hi. unfold int64 in Hi. lia.
      * split; [discriminate|]. intros (Hi & d' & m & Nd' & D & [[[<- | [=]] ->]|[[= <-] ->]]).
        -- exfalso. refine (no_sign _ _ _ _ D). auto.
        -- apply atoi_digits_iff in D. congruence.
  - destruct (decide (s = [])) as [->|Nd].
    + split; [discriminate|]. intros (_ & d & m & Nd & D & [[[<- | [=]] _]|[[=] _]]). congruence.
    + destruct (atoi_digits s 0) as [q|] eqn:Eq.
      * apply atoi_digits_iff in Eq. destruct (decide _) as [Hr|Hr].
        -- split.
           ++ intros [= <-]. split; [unfold int64; lia|]. exists s, q. split; [exact Nd|]. split; [exact Eq|]. left. split; [auto|lia].
           ++ intros (_ & d' & m & Nd' & D & [[[<- | E] ->]|[E ->]]); [rewrite (digits_value_fun _ _ _ D Eq); f_equal; lia|exfalso; eapply N1, E|exfalso; eapply N2, E].
        -- split; [discriminate|]. intros (Hi & d' & m & Nd' & D & [[[<- | E] ->]|[E ->]]); [|exfalso; eapply N1, E|exfalso; eapply N2, E].
           rewrite (digits_value_fun _ _ _ D Eq) in Hi. unfold int64 in Hi. lia.
      * split; [discriminate|]. intros (Hi & d' & m & Nd' & D & [[[<- | E] ->]|[E ->]]); [|exfalso; eapply N1, E|exfalso; eapply N2, E].
        apply atoi_digits_iff in D. congruence.
Qed.

Lemma line_or_spec dflt w r w' : line_or dflt w = (r, w') -> keeps w w' /\ wPw w' = wPw w /\ wClk w' = wClk w /\ wOut w' = wOut w /\
  match r with
  | Some a => exists l, read_line (wIn w) = (Some l, wIn w') /\ a = if decide (l = []) then dflt else l
  | None => fst (read_line (wIn w)) = None
  end.
Proof.
  unfold line_or. destruct (w_line w) as [[l|] w1] eqn:E; pose proof (w_line_keeps _ _ _ E) as K; apply w_line_eq in E as (E1 & E2 & E3 & E4 & E5).
  - destruct l as [|c l]; intros [= <- <-]; split_and!; auto; [exists []|exists (c :: l)]; split; auto.
  - intros [= <- <-]. split_and!; auto. rewrite E1. reflexivity.
Qed.
Lemma number_typed l dflt txt n : decimal txt dflt -> atoi (if decide (l = []) then txt else l) = Some n -> number_or dflt l n.
Proof.
  intros D H. apply atoi_iff in H. destruct (decide (l = [])) as [->|N].
  - left. split; [reflexivity|]. apply atoi_iff in H, D. congruence.
  - right. auto.
Qed.
Lemma decimal_0 : decimal (bs "0") 0. Proof. apply atoi_iff. vm_compute. reflexivity. Qed.
Lemma decimal_6 : decimal (bs "6") 6. Proof. apply atoi_iff. vm_compute. reflexivity. Qed.

Lemma keys_text (l : list (bytes * option bytes)) : forallb (fun kv => bool_decide (Forall (fun c => bz c < 128) (fst kv))) l = true -> map_Forall (fun k (_ : option bytes) => utf8_text k) (list_to_map l : gmap bytes (option bytes)).
Proof.
  intros H k v Hk. apply elem_of_list_to_map_2 in Hk. rewrite forallb_forall in H. apply elem_of_list_In, H in Hk. apply bool_decide_eq_true in Hk. clear H. cbn [fst] in Hk. induction Hk; [constructor|]. apply ascii_cons; assumption.
Qed.
Section WithCrypto.
Context (F : twofactor) `{C : Crypto} {L : CryptoLaws}.

(** *** Frames *)
Lemma add_rec_framed label url md s code w : frame w (add_rec label url md s code w).
Proof.
  unfold add_rec. pose proof (w_print_keeps w (bs "Confirmation: " ++ code ++ [x0a])) as K. eapply frame_keeps; [exact K|].
  destruct (w_now _) as [now w1] eqn:E. apply w_now_keeps in E. eapply frame_keeps; [exact E|]. apply frame_then; [apply frame_lift, keeps_refl|]. intros s1 w2 _ _. apply frame_done, keeps_refl.
Qed.
Ltac lineor := match goal with |- frame _ (match line_or ?d ?w with _ => _ end) =>
  let E := fresh "E" in let r := fresh "r" in let w1 := fresh "w" in
  destruct (line_or d w) as [[r|] w1] eqn:E; apply line_or_spec in E as [E _]; [eapply frame_keeps; [exact E|]|apply frame_fail, E] end.
Lemma add_framed c s w : frame w (otp_add F s c w).
Proof.
  unfold otp_add. destruct (store_has _ _); [fr|]. destruct (w_pass w) as [[sec|] w1] eqn:E; apply w_pass_keeps in E; [|fr]. eapply frame_keeps; [exact E|].
  destruct (oType c); [fr|..].
  - lineor. destruct (atoi _); [|fr]. lineor. destruct (atoi _); [|fr]. destruct (b32_decode _); [|apply frame_fail, w_print_keeps]. destruct (tfNext _ _). apply add_rec_framed.
  - lineor. destruct (tfDuration _ _) as [[step st]|]; [|fr]. lineor. destruct (atoi _); [|fr]. destruct (b32_decode _); [|fr]. destruct (w_now _) as [now w9] eqn:E9. apply w_now_keeps in E9.
    eapply frame_keeps; [exact E9|]. apply add_rec_framed.
  - destruct (tfNewGoogle _ _); [|fr]. destruct (w_now _) as [now w2] eqn:E2. apply w_now_keeps in E2. eapply frame_keeps; [exact E2|]. apply add_rec_framed.
Qed.
Lemma code_of_keeps o w code w' : code_of F o w = (code, w') -> keeps w w'.
Proof.
  unfold code_of. destruct o; [intros [= _ <-]; apply keeps_refl|..]; destruct (w_now w) as [now w1] eqn:E; apply w_now_keeps in E; intros [= _ <-]; exact E.
Qed.
Lemma show_framed_otp c s w : frame w (otp_show F s c w).
Proof.
  unfold otp_show. destruct (recs s !! oarg 0 c) as [[r|]|]; [|fr..]. apply frame_then; [fr|]. intros [[o label]|] w1 _ K; [|fr]. destruct (shown_kind F o r); [fr| |fr..].
  destruct (code_of F o w1) as [code w2] eqn:E. apply code_of_keeps in E. eapply frame_keeps; [exact E|]. eapply frame_keeps; [apply w_print_keeps|].
  destruct o; [|fr..]. destruct (w_now _) as [now w3] eqn:E3. apply w_now_keeps in E3. eapply frame_keeps; [exact E3|]. apply frame_then; [fr|]. intros s1 w4 _ _. apply frame_then; [fr|]. intros s2 w5 _ _. fr.
Qed.

(** *** What the commands do *)
Lemma add_done s c w u s' w' : otp_add F s c w = Done (u, s') w' -> good_clock w ->
  u = true /\ slot s (oarg 0 c) = None /\ exists secret lines url code name md now, head (wPw w) = Some (Some secret) /\
    hears (wIn w) lines (wIn w') /\ makes F (oarg 0 c) (oType c) lines (sanitise (tfUpper F) secret) url code name /\
    int64 now /\ md !! bs "key" = Some (Some (sanitise (tfUpper F) secret)) /\ md !! bs "type" = Some (Some name) /\ md !! bs "confirmation" = Some (Some code) /\ map_Forall (fun k _ => utf8_text k) md /\
    set_rec s (oarg 0 c) (Some (SRec (oarg 0 c) now (Some url) (Some md))) = Ret s'.
Proof.
  intros H K. unfold otp_add in H. destruct (store_has s (oarg 0 c)) eqn:Sh; [discriminate|].
  assert (slot s (oarg 0 c) = None) as Sn. { unfold store_has in Sh. rewrite <- slot_recs in Sh. apply bool_decide_eq_false in Sh. destruct (slot s (oarg 0 c)); [|reflexivity]. exfalso. eauto. }
  destruct (w_pass w) as [[sec|] w1] eqn:Ep; [|discriminate]. assert (good_clock w1) as K1 by (eapply keeps_clock; [eapply w_pass_keeps, Ep|exact K]). apply w_pass_eq in Ep as (Ep & Ei & _).
  assert (forall url md code w0, good_clock w0 -> add_rec (oarg 0 c) url md s code w0 = Done (u, s') w' ->
    u = true /\ wIn w' = wIn w0 /\ exists now, int64 now /\ set_rec s (oarg 0 c) (Some (SRec (oarg 0 c) now (Some url) (Some md))) = Ret s') as A.
  { clear. intros url md code w0 K H. unfold add_rec in H. destruct (w_now _) as [now w2] eqn:En. assert (int64 now) as It by (eapply w_now_int64; [|exact En]; eapply keeps_clock; [apply w_print_keeps|exact K]).
    apply w_now_eq in En as (_ & _ & Ei & _). apply then_done in H as (s1 & w3 & H & [= <- <- <-]). apply lift_done in H as [H ->]. split; [reflexivity|]. split; [exact Ei|]. eauto. }
  destruct (oType c) eqn:Ek; [discriminate|..].
  - destruct (line_or _ w1) as [[a1|] w2] eqn:E1; [|discriminate]. apply line_or_spec in E1 as (Kw1 & Q1 & Q2 & _ & l1 & R1 & ->). destruct (atoi _) as [d|] eqn:T1; [|discriminate].
    destruct (line_or _ w2) as [[a2|] w3] eqn:E2; [|discriminate]. apply line_or_spec in E2 as (Kw2 & Q3 & Q4 & _ & l2 & R2 & ->). destruct (atoi _) as [dg|] eqn:T2 in H; [|discriminate].
    destruct (b32_decode _) as [key|] eqn:Eb; [|discriminate]. destruct (tfNext _ _) as [code h] eqn:En.
    apply A in H as (-> & Ew & now & It & Sr); [|eapply keeps_clock; [exact Kw2|]; eapply keeps_clock; [exact Kw1|exact K1]].
    split; [reflexivity|]. split; [exact Sn|]. exists sec, [l1; l2]. do 5 eexists. rewrite Ep. split; [reflexivity|]. split.
    { rewrite Ew, <- Ei. econstructor; [exact R1|]. econstructor; [exact R2|]. constructor. }
    split. { eapply mk_hotp; [eapply number_typed; [apply decimal_0|exact T1]|eapply number_typed; [apply decimal_6|exact T2]|exact Eb|exact En]. }
    split; [exact It|]. split; [|split; [|split; [|split; [|exact Sr]]]]; [reflexivity..|]. apply keys_text. vm_compute. reflexivity.
  - destruct (line_or _ w1) as [[a1|] w2] eqn:E1; [|discriminate]. apply line_or_spec in E1 as (Kw1 & Q1 & Q2 & _ & l1 & R1 & ->). destruct (tfDuration _ _) as [[step st]|] eqn:T1; [|discriminate].
    destruct (line_or _ w2) as [[a2|] w3] eqn:E2; [|discriminate]. apply line_or_spec in E2 as (Kw2 & Q3 & Q4 & _ & l2 & R2 & ->). destruct (atoi _) as [dg|] eqn:T2; [|discriminate].
    destruct (b32_decode _) as [key|] eqn:Eb; [|discriminate]. destruct (w_now w3) as [z w4] eqn:E4. pose proof (w_now_keeps _ _ _ E4) as Kw4. apply w_now_eq in E4 as (_ & _ & Ei4 & _).
    apply A in H as (-> & Ew & now & It & Sr); [|eapply keeps_clock; [exact Kw4|]; eapply keeps_clock; [exact Kw2|]; eapply keeps_clock; [exact Kw1|exact K1]].
    split; [reflexivity|]. split; [exact Sn|]. exists sec, [l1; l2]. do 5 eexists. rewrite Ep. split; [reflexivity|]. split.
    { rewrite Ew, Ei4, <- Ei. econstructor; [exact R1|]. econstructor; [exact R2|]. constructor. }
    split. { eapply (mk_totp F _ _ _ _ _ _ _ _ z); [exact T1|eapply number_typed; [apply decimal_6|exact T2]|exact Eb]. }
    split; [exact It|]. split; [|split; [|split; [|split; [|exact Sr]]]]; [reflexivity..|]. apply keys_text. vm_compute. reflexivity.
  - destruct (tfNewGoogle _ _) as [t|] eqn:Eg; [|discriminate]. destruct (w_now w1) as [z w4] eqn:E4. pose proof (w_now_keeps _ _ _ E4) as Kw4. apply w_now_eq in E4 as (_ & _ & Ei4 & _).
    apply A in H as (-> & Ew & now & It & Sr); [|eapply keeps_clock; [exact Kw4|exact K1]].
    split; [reflexivity|]. split; [exact Sn|]. exists sec, []. do 5 eexists. rewrite Ep. split; [reflexivity|]. split.
    { rewrite Ew, Ei4, <- Ei. constructor. }
    split. { exact (mk_google F _ _ _ z Eg). }
    split; [exact It|]. split; [|split; [|split; [|split; [|exact Sr]]]]; [reflexivity..|]. apply keys_text. vm_compute. reflexivity.
Qed.

Lemma otp_has s k : store_has s k = true <-> slot s k <> None.
Proof. unfold store_has. rewrite <- slot_recs, bool_decide_eq_true. split; [intros [x ->]; discriminate|]. destruct (slot s k); [eauto|congruence]. Qed.
Lemma show_done s c w u s' w' : otp_show F s c w = Done (u, s') w' -> good_clock w ->
  u = true /\ wFs w' = wFs w /\ exists r h label s1 r1 now, slot s (oarg 0 c) = Some (Some r) /\ hotp_record F r h label /\ shown_kind F (OH h) r = HOTP /\ int64 now /\
    wOut w' = wOut w ++ fst (tfNext F h) ++ [x0a] /\
    r1 = Some (SRec (rLabel r) now (Some (tfUrlH F (snd (tfNext F h)) label)) (rMeta r)) /\ set_rec s (oarg 0 c) r1 = Ret s1 /\ set_rec s1 label r1 = Ret s'.
Proof.
  intros H K. assert (keeps w w') as Kw by (eapply frame_ends; [apply show_framed_otp|left; eauto]). apply keeps_fs in Kw.
  unfold otp_show in H. rewrite <- slot_recs in H. destruct (slot s (oarg 0 c)) as [[r|]|] eqn:Es; try discriminate.
  apply then_done in H as (p & w1 & H1 & H). apply lift_done in H1 as [H1 ->]. destruct p as [[o label]|]; [|discriminate]. destruct (shown_kind F o r) eqn:Ek; try discriminate.
  destruct (code_of F o w) as [code w2] eqn:Ec. destruct o as [h|t|x]; [|discriminate..]. cbn in Ec. injection Ec as <- <-.
  destruct (w_now _) as [now w3] eqn:En. assert (int64 now) as It by (eapply w_now_int64; [|exact En]; eapply keeps_clock; [apply w_print_keeps|exact K]).
  apply w_now_eq in En as (_ & _ & _ & _ & _ & Eo). apply then_done in H as (s1 & w4 & H & H2). apply lift_done in H as [H ->]. apply then_done in H2 as (s2 & w5 & H2 & H3). apply lift_done in H2 as [H2 ->].
  injection H3 as <- <- <-. split; [reflexivity|]. split; [exact Kw|]. exists r, h, label, s1. do 2 eexists. split; [reflexivity|]. split; [exact H1|]. split; [exact Ek|]. split; [exact It|].
  split; [exact Eo|]. split; [reflexivity|]. split; [exact H|exact H2].
Qed.
Definition no_qr (x : ocmd) : Prop := x = OShow \/ x = OStore.
Lemma orun_framed x c : no_qr x -> framed (fun s w => orun F x s c w).
Proof. intros [-> | ->] s w; [apply show_framed_otp|apply add_framed]. Qed.
Lemma orun_goes x c : goes (fun s w => orun F x s c w).
Proof.
  intros s w u s' w' K G H. destruct x; cbn in H.
  - apply show_done in H as (_ & _ & r & h & label & s1 & r1 & now & _ & _ & _ & It & _ & -> & H1 & H2); [|exact K].
    eapply go_set; [eapply go_set; [exact G| |exact H1]| |exact H2]; cbn; exact It.
  - apply add_done in H as (_ & _ & sec & lines & url & code & name & md & now & _ & _ & _ & It & _ & _ & _ & _ & H); [|exact K]. eapply go_set; [exact G| |exact H]. exact It.
  - unfold otp_qr in H. destruct (recs s !! oarg 0 c) as [[r|]|]; try discriminate. apply then_done in H as (p & w1 & _ & H). destruct p as [[o label]|]; [|discriminate].
    destruct (match o with OH h => _ | OT t => _ | OOther _ => _ end); [|discriminate]. destruct (w_raw_write _ _ _) as [[] w2]; [|discriminate]. injection H as <- <- <-. exact G.
Qed.
Lemma otpc_done m x path c w w' : no_qr x -> plain_path path -> good_clock w -> otpc_run F m x path c w = Done tt w' ->
  (orequired x <= length (oArgs c))%nat /\ exists pass s w1 u s1 w2, wPw w = Some pass :: wPw w1 /\ opens (wFs w) path m pass s /\ good_store s /\ sPass s = Some pass /\
    keeps w w1 /\ wIn w1 = wIn w /\ wOut w1 = wOut w /\ orun F x s c w1 = Done (u, s1) w2 /\
    (u = true -> saved (wFs w') path m (SStore (sVersion s1) (nth 0 (wClk w2) 0) (sRecs s1) (sPass s1)) /\ int64 (nth 0 (wClk w2) 0) /\ wOut w' = wOut w2) /\ (u = false -> w' = w2).
Proof.
  intros X P K. unfold otpc_run. destruct (decide _) as [|Nl]; [discriminate|]. intros H. split; [lia|]. pose proof H as H0.
  apply with_store_done in H as (pass & s & w1 & u & s1 & w2 & E1 & O & G & Ep & Kw & E2 & E3 & E4 & E5 & B & G1 & S1 & S2); [|apply orun_framed, X|apply orun_goes|assumption..].
  exists pass, s, w1, u, s1, w2. do 7 (split; [auto|]). split; [exact B|]. split; [|exact S2]. intros ->. destruct (S1 eq_refl) as [S3 S4]. split; [exact S3|].
  assert (good_clock w2) as K2 by (eapply keeps_clock; [|eapply keeps_clock; [exact Kw|exact K]]; eapply frame_ends; [apply (orun_framed x c X s w1)|left; eauto]).
  split; [apply clock_nth, K2|exact S4].
Qed.

(** A store read back from its file is text; so it stays under a text label. *)
Lemma set_text s k r s' t : good_store s -> int64 t -> utf8_text k -> good_rec r -> set_rec s k (Some r) = Ret s' ->
  good_store (SStore (sVersion s') t (sRecs s') (sPass s')).
Proof.
  intros (G1 & G2 & G3) It Tk Gr Sr. apply set_rec_ret in Sr as (m & Em & ->). split; [exact G1|]. split; [exact It|]. intros m' [= <-].
  apply map_Forall_insert_2; [|apply G3, Em]. split; [exact Tk|]. intros r' [= <-]. exact Gr.
Qed.
Lemma otpc_store m path c w w' : plain_path path -> good_clock w -> otpc_run F m OStore path c w = Done tt w' ->
  exists pass secret pws s s' label rest lines url code name md now, wPw w = Some pass :: Some secret :: pws /\ oArgs c = label :: rest /\
    opens (wFs w) path m pass s /\ saved (wFs w') path m s' /\ sPass s' = Some pass /\ sVersion s' = sVersion s /\
    slot s label = None /\ same_but label s s' /\ slot s' label = Some (Some (SRec label now (Some url) (Some md))) /\
    makes F label (oType c) lines (sanitise (tfUpper F) secret) url code name /\
    md !! bs "key" = Some (Some (sanitise (tfUpper F) secret)) /\ md !! bs "type" = Some (Some name) /\ md !! bs "confirmation" = Some (Some code) /\
    (utf8_text label -> opens (wFs w') path m pass s').
Proof.
  intros P K H. apply otpc_done in H as (La & pass & s & w1 & u & s1 & w2 & E1 & O & G & Ep & Kw & E2 & E3 & B & S1 & _); [|right; reflexivity|assumption..]. cbn in B, La.
  apply add_done in B as (-> & Sn & secret & lines & url & code & name & md & now & Hp & Hl & M & It & M1 & M2 & M3 & M4 & Sr); [|eapply keeps_clock; eauto].
  destruct (S1 eq_refl) as (Sv & It2 & _). destruct (oArgs c) as [|label rest] eqn:Ea; [cbn in La; lia|].
  assert (oarg 0 c = label) as El by (unfold oarg; rewrite Ea; reflexivity). rewrite El in *.
  pose proof (set_rec_slots _ _ _ _ Sr) as (R1 & R2 & R3 & R4). destruct (wPw w1) as [|p2 pws] eqn:Ew1; [discriminate|]. cbn in Hp. injection Hp as ->.
  exists pass, secret, pws, s, (SStore (sVersion s1) (nth 0 (wClk w2) 0) (sRecs s1) (sPass s1)), label, rest, lines, url, code, name, md, now.
  do 4 (split; [auto|]). split; [cbn; congruence|]. split; [cbn; congruence|]. split; [exact Sn|]. split; [intros k N; etransitivity; [exact (R2 k N)|reflexivity]|].
  split; [exact R1|]. do 4 (split; [auto|]). intros T. destruct Sv as (pass' & s2 & Q1 & Q2 & _ & Q3). cbn in Q1. assert (pass' = pass) as -> by congruence.
  rewrite <- Q3; [exact Q2|]. apply good_text. eapply set_text; [exact G|exact It2|exact T| |exact Sr]. split; [exact It|]. split; [exact T|]. intros md' [= <-] k v Hk. split; [|exact I]. eapply M4, Hk.
Qed.
(** No label is stored twice. *)
Lemma otpc_store_taken m path c w pass ps s label rest : plain_path path -> wPw w = Some pass :: ps -> opens (wFs w) path m pass s -> oArgs c = label :: rest -> slot s label <> None ->
  exists w', otpc_run F m OStore path c w = Fail w' /\ wFs w' = wFs w.
Proof.
  intros P Ew O Ea Hs. destruct (load_store_opens path m w pass ps s P Ew O) as (w1 & El & _). unfold otpc_run. rewrite Ea. cbn [length]. rewrite decide_False by (cbn; lia).
  unfold with_store. pose proof (load_store_frame path m w w1) as Fr. rewrite El in *. cbn [then_ orun]. unfold otp_add. assert (oarg 0 c = label) as -> by (unfold oarg; rewrite Ea; reflexivity).
  rewrite (proj2 (otp_has s label) Hs). cbn. exists w1. split; [reflexivity|]. apply keeps_fs, Fr. reflexivity.
Qed.
Lemma otpc_unknown m path c w w' : oType c = Unknown -> otpc_run F m OStore path c w <> Done tt w' /\ otpc_run F m OStore path c w <> Spin.
Proof.
  intros Ek. unfold otpc_run. destruct (decide _); [split; discriminate|]. unfold with_store. unfold load_store. destruct (w_pass w) as [[pass|] w1]; [|split; discriminate].
  destruct (w_exists w1 path); [|split; discriminate]. destruct (w_read w1 path) as [[d|] w2]; [|split; discriminate]. destruct (unmarshal_store d pass m) as [[s|]|]; cbn; [|split; discriminate..].
  unfold otp_add. rewrite Ek. destruct (store_has _ _); [split; discriminate|]. destruct (w_pass w2) as [[sec|] w3]; split; discriminate.
Qed.

(** Running show on a store that opens. *)
Lemma show_run m path c w pass ps s label rest : plain_path path -> wPw w = Some pass :: ps -> opens (wFs w) path m pass s -> oArgs c = label :: rest ->
  exists w1, keeps w w1 /\ wOut w1 = wOut w /\ otpc_run F m OShow path c w =
    then_ (otp_show F s c w1) (fun r w => if fst r : bool then let '(now, w) := w_now w in write_store (SStore (sVersion (snd r)) now (sRecs (snd r)) (sPass (snd r))) path m w else Done tt w).
Proof.
  intros P Ew O Ea. destruct (load_store_opens path m w pass ps s P Ew O) as (w1 & El & _). exists w1. pose proof (load_store_frame path m w w1) as Fr. pose proof (load_store_done _ _ _ _ _ P El) as (_ & _ & _ & _ & _ & _ & _ & _ & _ & Eo).
  rewrite El in Fr. split; [apply Fr; reflexivity|]. split; [exact Eo|].
  unfold otpc_run. rewrite Ea. cbn [length]. rewrite decide_False by (cbn; lia). unfold with_store. rewrite El. reflexivity.
Qed.
Lemma otp_show_at s c w label rest r : oArgs c = label :: rest -> slot s label = Some (Some r) ->
  otp_show F s c w = then_ (lift (tfFromUrl F (default [] (rSecret r))) w) (fun p w =>
    match p with
    | None => Fail w
    | Some (o, label) =>
        match shown_kind F o r with
        | Unknown => Fail w
        | TOTP | GoogleTOTP => Spin
        | HOTP =>
            let '(code, w) := code_of F o w in
            let w := w_print w (code ++ [x0a]) in
            match o with
            | OH h =>
                let '(now, w) := w_now w in
                let r := Some (SRec (rLabel r) now (Some (tfUrlH F (snd (tfNext F h)) label)) (rMeta r)) in
                let* (s, w) := lift (set_rec s (oarg 0 c) r) w in
                let* (s, w) := lift (set_rec s label r) w in
                Done (true, s) w
            | _ => Crash w
            end
        end
    end).
Proof. intros Ea Es. unfold otp_show. assert (oarg 0 c = label) as -> by (unfold oarg; rewrite Ea; reflexivity). rewrite <- slot_recs, Es. reflexivity. Qed.
(** The stored name of the type decides. *)
Lemma shown_stored o r md v : rMeta r = Some md -> md !! bs "type" = Some v -> shown_kind F o r = parse_kind (default [] v).
Proof. intros E1 E2. unfold shown_kind. rewrite E1. cbn [default]. unfold default, id. rewrite E2. reflexivity. Qed.
(** What was stored as TOTP is never shown. *)
Lemma totp_refused m path c w w' c2 w2 label rest rest2 : plain_path path -> good_clock w -> otpc_run F m OStore path c w = Done tt w' -> oType c = TOTP ->
  oArgs c = label :: rest -> utf8_text label -> oArgs c2 = label :: rest2 -> wFs w2 = wFs w' -> head (wPw w2) = head (wPw w) ->
  exists w3, (otpc_run F m OShow path c2 w2 = Fail w3 \/ otpc_run F m OShow path c2 w2 = Crash w3) /\ wFs w3 = wFs w2.
Proof.
  intros P K H Ek Ea T Ea2 Ef Eh. destruct (otpc_store _ _ _ _ _ P K H) as (pass & secret & pws & s & s' & label' & rest' & lines & url & code & name & md & now & Ew & Ea' & _ & _ & _ & _ & _ & _ & Sl & M & _ & Mt & _ & O).
  rewrite Ea in Ea'. injection Ea' as <- <-. specialize (O T). rewrite Ek in M. assert (name = bs "TOTP-SHA1") as -> by (inversion M; reflexivity).
  rewrite Ew in Eh. destruct (wPw w2) as [|p2 ps2] eqn:Ep; [discriminate|]. injection Eh as ->.
  rewrite <- Ef in O. destruct (show_run m path c2 w2 pass ps2 s' label rest2 P Ep O Ea2) as (w1 & Kw & _ & Er). rewrite Er. rewrite (otp_show_at _ _ _ _ _ _ Ea2 Sl).
  exists w1. split; [|apply keeps_fs, Kw]. destruct (tfFromUrl F _) as [[[o l]|]|]; cbn [lift then_]; auto.
  rewrite (shown_stored o (SRec label now (Some url) (Some md)) _ _ eq_refl Mt). change (parse_kind _) with Unknown. cbn. auto.
Qed.
(** What was stored as GOOGLE is recognised, and shown for ever. *)
Lemma google_shown m path c w w' c2 w2 label rest rest2 : plain_path path -> good_clock w -> otpc_run F m OStore path c w = Done tt w' -> oType c = GoogleTOTP ->
  oArgs c = label :: rest -> utf8_text label -> oArgs c2 = label :: rest2 -> wFs w2 = wFs w' -> head (wPw w2) = head (wPw w) ->
  (forall t, exists o l, tfFromUrl F (tfUrlT F t label) = Ret (Some (o, l))) -> otpc_run F m OShow path c2 w2 = Spin.
Proof.
  intros P K H Ek Ea T Ea2 Ef Eh Hu. destruct (otpc_store _ _ _ _ _ P K H) as (pass & secret & pws & s & s' & label' & rest' & lines & url & code & name & md & now & Ew & Ea' & _ & _ & _ & _ & _ & _ & Sl & M & _ & Mt & _ & O).
  rewrite Ea in Ea'. injection Ea' as <- <-. specialize (O T). rewrite Ek in M. assert (name = bs "TOTP-GOOGLE" /\ exists t, url = tfUrlT F t label) as [-> [t ->]] by (inversion M; eauto).
  rewrite Ew in Eh. destruct (wPw w2) as [|p2 ps2] eqn:Ep; [discriminate|]. injection Eh as ->.
  rewrite <- Ef in O. destruct (show_run m path c2 w2 pass ps2 s' label rest2 P Ep O Ea2) as (w1 & Kw & _ & Er). rewrite Er. rewrite (otp_show_at _ _ _ _ _ _ Ea2 Sl). cbn [rSecret default]. unfold default, id.
  destruct (Hu t) as (o & l & ->). cbn [lift then_].
  rewrite (shown_stored o (SRec label now (Some (tfUrlT F t label)) (Some md)) _ _ eq_refl Mt). change (parse_kind _) with GoogleTOTP. reflexivity.
Qed.
(** What show does, if it returns. *)
Lemma otpc_show m path c w w' : plain_path path -> good_clock w -> otpc_run F m OShow path c w = Done tt w' ->
  exists pass s s' label rest r h label2 r', head (wPw w) = Some (Some pass) /\ oArgs c = label :: rest /\ opens (wFs w) path m pass s /\ saved (wFs w') path m s' /\
    sPass s' = Some pass /\ slot s label = Some (Some r) /\ hotp_record F r h label2 /\ wOut w' = wOut w ++ fst (tfNext F h) ++ [x0a] /\
    rLabel r' = rLabel r /\ rMeta r' = rMeta r /\ rSecret r' = Some (tfUrlH F (snd (tfNext F h)) label2) /\
    slot s' label = Some (Some r') /\ slot s' label2 = Some (Some r') /\ (forall k, k <> label -> k <> label2 -> slot s' k = slot s k) /\
    (utf8_text label2 -> opens (wFs w') path m pass s').
Proof.
  intros P K H. apply otpc_done in H as (La & pass & s & w1 & u & s1 & w2 & E1 & O & G & Ep & Kw & E2 & E3 & B & S1 & _); [|left; reflexivity|assumption..]. cbn in B, La.
  apply show_done in B as (-> & _ & r & h & label2 & sm & r1 & now & Sl & Hr & Hk & It & Ho & -> & Sr1 & Sr2); [|eapply keeps_clock; eauto].
  destruct (S1 eq_refl) as (Sv & It2 & Eo). destruct (oArgs c) as [|label rest] eqn:Ea; [cbn in La; lia|].
  assert (oarg 0 c = label) as El by (unfold oarg; rewrite Ea; reflexivity). rewrite El in *.
  pose proof (set_rec_slots _ _ _ _ Sr1) as (R1 & R2 & R3 & R4). pose proof (set_rec_slots _ _ _ _ Sr2) as (Q1 & Q2 & Q3 & Q4).
  set (r' := SRec (rLabel r) now (Some (tfUrlH F (snd (tfNext F h)) label2)) (rMeta r)) in *.
  assert (sPass s1 = Some pass) as Ep1 by congruence.
  exists pass, s, (SStore (sVersion s1) (nth 0 (wClk w2) 0) (sRecs s1) (sPass s1)), label, rest, r, h, label2, r'. rewrite E1. do 5 (split; [auto|]). split; [exact Sl|]. split; [exact Hr|].
  split; [rewrite Eo, Ho, E3; reflexivity|]. do 3 (split; [reflexivity|]). assert (slot s1 label = Some (Some r')) as Q5. { destruct (decide (label = label2)) as [->|N]; [exact Q1|]. rewrite Q2 by exact N. exact R1. }
  split; [exact Q5|]. split; [exact Q1|]. split. { intros k N1 N2. etransitivity; [exact (Q2 k N2)|exact (R2 k N1)]. }
  intros T2. destruct Sv as (pass' & s2 & X1 & X2 & _ & X3). cbn in X1. assert (pass' = pass) as -> by congruence.
  rewrite <- X3; [exact X2|]. apply good_text.
  assert (utf8_text label /\ good_rec r) as [T Gr]. { destruct G as (_ & _ & G3). unfold slot in Sl. destruct (sRecs s) as [mm|]; [|discriminate]. destruct (G3 mm eq_refl label _ Sl) as [X Y]. split; [exact X|]. apply Y. reflexivity. }
  assert (good_rec r') as Gr'. { destruct Gr as (_ & Gr2 & Gr3). split; [exact It|]. split; assumption. }
  pose proof (set_text _ _ _ _ now G It T Gr' Sr1) as G1. destruct sm as [v0 t0 m0 p0]. cbn [sVersion sRecs sPass] in *.
  assert (set_rec (SStore v0 now m0 p0) label2 (Some r') = Ret (SStore v0 now (sRecs s1) p0)) as Sr3. { unfold set_rec in Sr2 |- *. cbn in *. destruct m0; [|discriminate]. injection Sr2 as <-. reflexivity. }
  pose proof (set_text _ _ _ _ (nth 0 (wClk w2) 0) G1 It2 T2 Gr' Sr3) as G2. cbn in G2. rewrite Q3, Q4. cbn. exact G2.
Qed.
(** Counters: storing shows the first code, each show the next. *)
Lemma hotp_stored m path c w w' label rest : plain_path path -> good_clock w -> otpc_run F m OStore path c w = Done tt w' -> oType c = HOTP ->
  oArgs c = label :: rest -> utf8_text label ->
  exists pass secret key d digits l1 l2, wPw w = Some pass :: Some secret :: drop 2 (wPw w) /\ number_or 0 l1 d /\ number_or 6 l2 digits /\ b32_decode (sanitise (tfUpper F) secret) = Some key /\
    hotp_at F (wFs w') path m pass label (snd (tfNext F (tfNewHotp F key (d mod 2 ^ 64) digits))).
Proof.
  intros P K H Ek Ea T. destruct (otpc_store _ _ _ _ _ P K H) as (pass & secret & pws & s & s' & label' & rest' & lines & url & code & name & md & now & Ew & Ea' & _ & _ & _ & _ & _ & _ & Sl & M & _ & Mt & _ & O).
  rewrite Ea in Ea'. injection Ea' as <- <-. specialize (O T). rewrite Ek in M. inversion M as [l1 l2 text key d digits h code' N1 N2 D En| |]; subst.
  exists pass, secret, key, d, digits, l1, l2. split; [rewrite Ew; reflexivity|]. split; [exact N1|]. split; [exact N2|]. split; [exact D|].
  exists s', (SRec label now (Some (tfUrlH F h label)) (Some md)), md. split; [exact O|]. split; [exact Sl|]. rewrite En. auto.
Qed.
Lemma hotp_next m path c w w' label rest pass h : plain_path path -> good_clock w -> url_reads F label -> utf8_text label -> oArgs c = label :: rest ->
  head (wPw w) = Some (Some pass) -> hotp_at F (wFs w) path m pass label h -> otpc_run F m OShow path c w = Done tt w' ->
  wOut w' = wOut w ++ fst (tfNext F h) ++ [x0a] /\ hotp_at F (wFs w') path m pass label (snd (tfNext F h)).
Proof.
  intros P K U T Ea Ep (s0 & r0 & md & O0 & S0 & E0 & M0 & Mt) H.
  destruct (otpc_show _ _ _ _ _ P K H) as (pass' & s & s' & label' & rest' & r & h' & label2 & r' & Q1 & Q2 & Q3 & Q4 & Q5 & Q6 & Q7 & Q8 & Q9 & Q10 & Q11 & Q12 & Q13 & Q14 & Q15).
  rewrite Ep in Q1. injection Q1 as <-. rewrite Ea in Q2. injection Q2 as <- <-. assert (s = s0) as ->. { destruct O0 as (d0 & F0 & U0), Q3 as (d1 & F1 & U1). rewrite F0 in F1. injection F1 as <-. rewrite U0 in U1. congruence. }
  rewrite S0 in Q6. injection Q6 as <-. unfold hotp_record in Q7. rewrite E0 in Q7. cbn [default] in Q7. unfold default, id in Q7. rewrite U in Q7. injection Q7 as <- <-. split; [exact Q8|].
  exists s', r', md. split; [apply Q15, T|]. split; [exact Q12|]. split; [exact Q11|]. split; [congruence|exact Mt].
Qed.
(** It does show it, given a working disk and random numbers. *)
Lemma hotp_shown m path c w label rest pass ps h salt nonce g1 g2 : plain_path path -> m = 0 \/ m = 1 -> disk_ok w -> url_reads F label -> oArgs c = label :: rest ->
  wPw w = Some pass :: ps -> hotp_at F (wFs w) path m pass label h -> (exists s, opens (wFs w) path m pass s /\ sVersion s = 1) -> nth 1 (wClk w) 0 <> 0 ->
  length salt = 32%nat -> length nonce = 24%nat -> delivers (wRng w) salt g1 -> delivers g1 nonce g2 -> exists w', otpc_run F m OShow path c w = Done tt w'.
Proof.
  intros P M Dk U Ea Ep (s & r & md & O & Sl & E0 & M0 & Mt) (s0 & O0 & V) Nz L1 L2 D1 D2.
  assert (s0 = s) as ->. { destruct O0 as (d0 & F0 & U0), O as (d1 & F1 & U1). rewrite F0 in F1. injection F1 as <-. rewrite U0 in U1. congruence. }
  unfold otpc_run. rewrite decide_False by (rewrite Ea; cbn; lia).
  set (r1 := SRec (rLabel r) (nth 0 (wClk w) 0) (Some (tfUrlH F (snd (tfNext F h)) label)) (rMeta r)).
  destruct (set_rec s label (Some r1)) as [s1|] eqn:Sr1. 2:{ exfalso. unfold set_rec in Sr1. unfold slot in Sl. destruct (sRecs s); discriminate. }
  pose proof (set_rec_slots _ _ _ _ Sr1) as (R1 & R2 & R3 & R4).
  destruct (set_rec s1 label (Some r1)) as [s2|] eqn:Sr2. 2:{ exfalso. unfold set_rec in Sr2. unfold slot in R1. destruct (sRecs s1); discriminate. }
  pose proof (set_rec_slots _ _ _ _ Sr2) as (Q1 & Q2 & Q3 & Q4). assert (sPass s = Some pass) as Eps. { destruct O as (d & _ & Ud). apply (unmarshal_good _ _ _ _ Ud). }
  eapply (with_store_works _ path m w pass ps s true s2 (World (wFs w) (wIn w) ps (drop 1 (wClk w)) (wRng w) (wFate w) (wOut w ++ fst (tfNext F h) ++ [x0a]))); eauto.
  - intros w1 F1 F2 F3 F4 F5 F6 F7. cbn [orun]. rewrite (otp_show_at _ _ _ _ _ _ Ea Sl). rewrite E0. cbn [default]. unfold default, id. rewrite U. cbn [lift then_].
    rewrite (shown_stored _ _ _ _ M0 Mt). change (parse_kind _) with HOTP. cbn [code_of]. assert (oarg 0 c = label) as -> by (unfold oarg; rewrite Ea; reflexivity).
    destruct w1 as [a1 a2 a3 a4 a5 a6 a7]. cbn in F1, F2, F3, F4, F5, F6, F7. subst. unfold w_now, w_print. cbn [wClk wFs wIn wPw wRng wFate wOut].
    destruct (wClk w) as [|z zs]; cbn [nth drop] in *; fold r1; rewrite Sr1; cbn [lift then_]; rewrite Sr2; reflexivity.
  - unfold sound. cbn [sVersion sTime sRecs sPass wClk]. rewrite Q3, R3, Q4, R4, Eps, V. split; [reflexivity|]. split; [|split; [unfold slot in Q1; destruct (sRecs s2); congruence|discriminate]].
    destruct (wClk w) as [|z [|z2 zs]]; cbn in *; congruence.
Qed.

(** *** Files *)
Lemma otpc_fails m x path c w w' : no_qr x -> (otpc_run F m x path c w = Fail w' /\ disk_ok w) \/ otpc_run F m x path c w = Crash w' -> wFs w' = wFs w.
Proof.
  intros X. unfold otpc_run. destruct (decide _). { intros [[[= <-] _]|[=]]. reflexivity. } apply with_store_fail, orun_framed, X.
Qed.
Lemma otpc_only m x path c w w' : no_qr x -> ends (otpc_run F m x path c w) w' -> only_changes path (wFs w) (wFs w').
Proof.
  intros X. unfold otpc_run. destruct (decide _). { intros E. apply ends_iff in E. injection E as <-. intros q _. reflexivity. } apply with_store_only, orun_framed, X.
Qed.
Lemma raw_write_eq w p d ok w' : p <> [] -> w_raw_write w p d = (ok, w') -> exists fa, write_file fa (wFs w) p d = (ok, wFs w').
Proof.
  intros N E. unfold w_raw_write in E. rewrite decide_False in E by exact N.
  destruct (match wFate w with [] => _ | _ => _ end) as [fa rest]. exists fa. destruct (write_file _ _ _ _) as [o f]. injection E as <- <-. reflexivity.
Qed.
Lemma raw_write_only w p d ok w' : w_raw_write w p d = (ok, w') -> only_changes p (wFs w) (wFs w').
Proof.
  intros E q Nq. destruct (decide (p = [])) as [->|N].
  - unfold w_raw_write in E. rewrite decide_True in E by reflexivity. injection E as <- <-. reflexivity.
  - destruct (raw_write_eq _ _ _ _ _ N E) as [fa W]. pose proof (write_file_only fa (wFs w) p d q Nq) as X. rewrite W in X. exact X.
Qed.
(** qr writes the named file and nothing else. *)
Lemma otpc_qr_only m path c w w' : ends (otpc_run F m OQr path c w) w' -> only_changes (oarg 1 c) (wFs w) (wFs w').
Proof.
  intros E. apply ends_iff in E. unfold otpc_run in E. destruct (decide _). { injection E as <-. intros q _. reflexivity. }
  unfold with_store in E. pose proof (load_store_frame path m w) as Fl. destruct (load_store path m w) as [s w1|w1|w1|] eqn:El; cbn [then_] in E; [|injection E as <-; intros q _; rewrite (keeps_fs w w1); [reflexivity|apply Fl; reflexivity]..|discriminate].
  assert (keeps w w1) as K1 by (apply Fl; reflexivity). apply keeps_fs in K1. rewrite <- K1. cbn [orun] in E. unfold otp_qr in E. destruct (recs s !! oarg 0 c) as [[r|]|]; cbn [then_] in E; [|injection E as <-; intros q _; reflexivity..].
  destruct (tfFromUrl F _) as [[[o l]|]|]; cbn [lift then_] in E; [|injection E as <-; intros q _; reflexivity..].
  destruct (match o with OH h => _ | OT t => _ | OOther _ => _ end) as [qr|]; cbn [then_] in E; [|injection E as <-; intros q _; reflexivity].
  destruct (w_raw_write w1 (oarg 1 c) qr) as [ok w2] eqn:W. apply raw_write_only in W. destruct ok; cbn in E; injection E as <-; exact W.
Qed.
Lemma otpc_qr m path c w w' : plain_path path -> oarg 1 c <> [] -> otpc_run F m OQr path c w = Done tt w' ->
  exists pass s label file rest r o l qr, head (wPw w) = Some (Some pass) /\ oArgs c = label :: file :: rest /\ opens (wFs w) path m pass s /\ slot s label = Some (Some r) /\
    tfFromUrl F (default [] (rSecret r)) = Ret (Some (o, l)) /\ match o with OH h => tfQrH F h l | OT t => tfQrT F t l | OOther _ => None end = Some qr /\ wFs w' !! file = Some qr.
Proof.
  intros P Nf. unfold otpc_run. destruct (decide _) as [|Nl]; [discriminate|]. cbn in Nl. intros H. unfold with_store in H. apply then_done in H as (s & w1 & H1 & H). apply then_done in H as ([u s1] & w2 & H2 & H).
  destruct (load_store_done _ _ _ _ _ P H1) as (pass & E1 & O & _ & _ & Kw & _). cbn [orun] in H2. unfold otp_qr in H2.
  destruct (recs s !! oarg 0 c) as [[r|]|] eqn:Es; try discriminate. apply then_done in H2 as (p & w3 & H2 & H3). apply lift_done in H2 as [H2 ->]. destruct p as [[o l]|]; [|discriminate].
  destruct (match o with OH h => tfQrH F h l | OT t => tfQrT F t l | OOther _ => None end) as [qr|] eqn:Eq; [|discriminate]. destruct (w_raw_write w1 (oarg 1 c) qr) as [[] w4] eqn:W; [|discriminate].
  injection H3 as <- <- <-. cbn in H. injection H as <-. destruct (oArgs c) as [|label [|file rest]] eqn:Ea; [cbn in Nl; lia..|].
  assert (oarg 0 c = label) as E0 by (unfold oarg; rewrite Ea; reflexivity). assert (oarg 1 c = file) as E2 by (unfold oarg; rewrite Ea; reflexivity). rewrite E0, E2 in *.
  exists pass, s, label, file, rest, r, o, l, qr. rewrite E1, slot_recs. do 6 (split; [auto|]). destruct (raw_write_eq _ _ _ _ _ Nf W) as [fa Wf]. revert Wf. clear. unfold write_file. destruct fa; intros [= <-]; apply lookup_insert.
Qed.
End WithCrypto.
