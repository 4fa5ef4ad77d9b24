(** Proofs about OtpShow.v. *)
From Verif Require Export SpecOtpShow CmdOtpFacts.
Local Open Scope Z_scope.

Lemma fold_now es : forall r, fold_left (fun r e => match e with ENow t => Some t | _ => r end) es r = match last_now es with Some t => Some t | None => r end.
Proof.
  unfold last_now. induction es as [|e es IH] using rev_ind; intros r; [reflexivity|]. rewrite !fold_left_app. cbn [fold_left]. destruct e; [reflexivity|apply IH..].
Qed.
Lemma fold_text es : forall r, fold_left (fun r e => match e with EPrint t => Some t | _ => r end) es r = match last_text es with Some t => Some t | None => r end.
Proof.
  unfold last_text. induction es as [|e es IH] using rev_ind; intros r; [reflexivity|]. rewrite !fold_left_app. cbn [fold_left]. destruct e; [apply IH|reflexivity|apply IH].
Qed.
Lemma last_now_app a b : last_now (a ++ b) = match last_now b with Some t => Some t | None => last_now a end.
Proof. unfold last_now at 1. rewrite fold_left_app. apply fold_now. Qed.
Lemma last_text_app a b : last_text (a ++ b) = match last_text b with Some t => Some t | None => last_text a end.
Proof. unfold last_text at 1. rewrite fold_left_app. apply fold_text. Qed.
Lemma texts_app a b : texts (a ++ b) = texts a ++ texts b. Proof. unfold texts. apply flat_map_app. Qed.

(** Where an event of a given kind can stand in a list that starts with known events. *)
Lemma split_at (p l a b : list event) (e : event) : e ∉ p -> p ++ l = a ++ e :: b -> exists a', a = p ++ a' /\ l = a' ++ e :: b.
Proof.
  revert a. induction p as [|x p IH]; intros a N E; [exists a; auto|]. destruct a as [|y a].
  - cbn in E. injection E as -> _. exfalso. apply N. left.
  - cbn in E. injection E as <- E. destruct (IH a) as (a' & -> & E'); [intros H; apply N; right; exact H|exact E|]. exists a'. auto.
Qed.

Section WithTwofactor.
Context (F : twofactor).
Lemma live_spins clk off n s c w : otp_show F s c w = Spin <-> is_Some (live F clk off n s c).
Proof.
  unfold otp_show, live. destruct (recs s !! oarg 0 c) as [[r|]|]; [|split; [discriminate|intros [? [=]]]..].
  destruct (tfFromUrl F _) as [[[o l]|]|]; cbn; [|split; [discriminate|intros [? [=]]]..].
  destruct (shown_kind F o r); [split; [discriminate|intros [? [=]]]| |split; [eauto|reflexivity]..].
  split; [|intros [? [=]]]. destruct (code_of F o w) as [code w1]. destruct o; try discriminate. destruct (w_now _) as [now w2]. destruct (set_rec s _ _); cbn; [|discriminate].
  destruct (set_rec _ _ _); cbn; discriminate.
Qed.
Lemma live_run `{L : CryptoLaws} m path c w pass ps s label rest clk off n : plain_path path -> wPw w = Some pass :: ps -> opens (wFs w) path m pass s -> oArgs c = label :: rest ->
  otpc_run F m OShow path c w = Spin <-> is_Some (live F clk off n s c).
Proof.
  intros P Ew O Ea. destruct (show_run F m path c w pass ps s label rest P Ew O Ea) as (w1 & _ & _ & ->). rewrite <- (live_spins clk off n s c w1).
  destruct (otp_show F s c w1) as [[u s'] w2| | |] eqn:E; cbn; try (split; congruence). split; [|discriminate]. destruct u; [|discriminate]. destruct (w_now w2) as [now w3].
  unfold write_store. destruct (marshal_store _ _ _) as [[[[d|] ?] ?]|]; cbn; try discriminate. destruct (w_write _ _ _) as [[] ?]; discriminate.
Qed.
Lemma live_is clk off n s c es : live F clk off n s c = Some es <->
  exists r o l, slot s (oarg 0 c) = Some (Some r) /\ tfFromUrl F (default [] (rSecret r)) = Ret (Some (o, l)) /\
    (shown_kind F o r = TOTP /\ es = print_totp F clk n o \/ shown_kind F o r = GoogleTOTP /\ es = print_gtotp F clk off n o).
Proof.
  unfold live. rewrite <- slot_recs. split.
  - destruct (slot s _) as [[r|]|] eqn:E1; try discriminate. destruct (tfFromUrl F _) as [[[o l]|]|] eqn:E2; try discriminate. destruct (shown_kind F o r) eqn:E3; try discriminate; intros [= <-]; exists r, o, l; eauto 6.
  - intros (r & o & l & -> & -> & [[-> ->]|[-> ->]]); reflexivity.
Qed.

(** *** printTOTP *)
Lemma rounds_sleep clk (t : tfT F) : forall n last i p,
  last_text p = Some (line last) ->
  forall a d b, p ++ totp_rounds F clk n (OT t) last i = a ++ ESleep d :: b -> (forall d', ESleep d' ∉ p) ->
  d = 1 /\ exists now, last_now a = Some now /\ last_text a = Some (line (tfCode F t now)).
Proof.
  induction n as [|n IH]; intros last i p Lt a d b E Np; cbn [totp_rounds ask] in E.
  - rewrite app_nil_r in E. exfalso. apply (Np d). rewrite E. apply elem_of_app. right. left.
  - case_decide as D.
    + change (p ++ [ENow (clk i)] ++ ESleep 1 :: totp_rounds F clk n (OT t) last (S i) = a ++ ESleep d :: b) in E. rewrite app_assoc in E.
      apply split_at in E as (a' & -> & E).
      2: { intros H. apply elem_of_app in H as [H|H]; [exact (Np _ H)|]. apply elem_of_list_singleton in H. discriminate. }
      destruct a' as [|x a'].
      * injection E as <- _. split; [reflexivity|]. exists (clk i). rewrite app_nil_r, last_now_app, last_text_app. cbn. rewrite D. auto.
      * injection E as <- E. destruct (IH last (S i) [EPrint (line last)] eq_refl (EPrint (line last) :: a') d b) as (-> & now & H1 & H2).
        { cbn. rewrite E. reflexivity. }
        { intros d' H. apply elem_of_list_singleton in H. discriminate. }
        split; [reflexivity|]. exists now. change (EPrint (line last) :: a') with ([EPrint (line last)] ++ a') in H1, H2.
        rewrite last_now_app in H1. rewrite last_text_app in H2. cbn in H1, H2. destruct (last_now a') as [u|] eqn:E1; [injection H1 as ->|discriminate].
        change (ESleep 1 :: a') with ([ESleep 1] ++ a'). rewrite !last_now_app, !last_text_app, E1. split; [reflexivity|].
        destruct (last_text a') as [l|]; [exact H2|]. cbn. rewrite Lt. exact H2.
    + set (c2 := tfCode F t (clk (S i))) in *.
      change (p ++ [ENow (clk i); ENow (clk (S i)); EPrint (line c2)] ++ ESleep 1 :: totp_rounds F clk n (OT t) c2 (S (S i)) = a ++ ESleep d :: b) in E. rewrite app_assoc in E.
      apply split_at in E as (a' & -> & E).
      2: { intros H. apply elem_of_app in H as [H|H]; [exact (Np _ H)|]. rewrite !elem_of_cons in H. destruct H as [[=]|[[=]|[[=]|H]]]. inversion H. }
      destruct a' as [|x a'].
      * injection E as <- _. split; [reflexivity|]. exists (clk (S i)). rewrite app_nil_r, last_now_app, last_text_app. cbn. auto.
      * injection E as <- E. destruct (IH c2 (S (S i)) [EPrint (line c2)] eq_refl (EPrint (line c2) :: a') d b) as (-> & now & H1 & H2).
        { cbn. rewrite E. reflexivity. }
        { intros d' H. apply elem_of_list_singleton in H. discriminate. }
        split; [reflexivity|]. exists now. change (EPrint (line c2) :: a') with ([EPrint (line c2)] ++ a') in H1, H2.
        rewrite last_now_app in H1. rewrite last_text_app in H2. cbn in H1, H2. destruct (last_now a') as [u|] eqn:E1; [injection H1 as ->|discriminate].
        change (ESleep 1 :: a') with ([ESleep 1] ++ a'). rewrite !last_now_app, !last_text_app, E1. split; [reflexivity|].
        destruct (last_text a') as [l|]; [exact H2|]. cbn. exact H2.
Qed.
Lemma totp_current clk (t : tfT F) n a d b : print_totp F clk n (OT t) = a ++ ESleep d :: b ->
  d = 1 /\ exists now, last_now a = Some now /\ last_text a = Some (line (tfCode F t now)).
Proof.
  unfold print_totp. cbn [ask]. set (c := tfCode F t (clk 0%nat)). intros E.
  apply (rounds_sleep clk t n c 1%nat [ENow (clk 0%nat); EPrint (line c)]) with (b:=b); [reflexivity|exact E|].
  intros d'. rewrite !elem_of_cons. intros [[=]|[[=]|H]]. inversion H.
Qed.

(** Every line is the code at the reading just before it; after the first one, the
    code at the reading before that was another one than on display. *)
Lemma rounds_print clk (t : tfT F) : forall n last i a l b, totp_rounds F clk n (OT t) last i = a ++ EPrint l :: b ->
  exists a' u now, a = a' ++ [ENow u; ENow now] /\ l = line (tfCode F t now) /\ (match last_text a' with Some x => x | None => line last end) <> line (tfCode F t u).
Proof.
  induction n as [|n IH]; intros last i a l b E; cbn [totp_rounds ask] in E; [destruct a; discriminate|]. case_decide as D.
  - apply (split_at [ENow (clk i); ESleep 1]) in E as (a' & -> & E).
    2: { rewrite !elem_of_cons. intros [[=]|[[=]|H]]. inversion H. }
    apply IH in E as (a2 & u & now & -> & -> & H). exists ([ENow (clk i); ESleep 1] ++ a2), u, now. split; [apply app_assoc|]. split; [reflexivity|].
    rewrite last_text_app. destruct (last_text a2); exact H.
  - set (c2 := tfCode F t (clk (S i))) in *. apply (split_at [ENow (clk i); ENow (clk (S i))]) in E as (a' & -> & E).
    2: { rewrite !elem_of_cons. intros [[=]|[[=]|H]]. inversion H. }
    destruct a' as [|x a'].
    + injection E as <- _. exists [], (clk i), (clk (S i)). split; [reflexivity|]. split; [reflexivity|]. cbn. intros H. apply D. unfold line in H. apply app_inj_tail in H as [-> _]. reflexivity.
    + injection E as <- E. destruct a' as [|x a']; [discriminate|]. injection E as <- E.
      apply IH in E as (a2 & u & now & -> & -> & H). exists ([ENow (clk i); ENow (clk (S i)); EPrint (line c2); ESleep 1] ++ a2), u, now.
      split; [reflexivity|]. split; [reflexivity|]. rewrite last_text_app. destruct (last_text a2); [exact H|]. exact H.
Qed.
Lemma totp_lines clk (t : tfT F) n a l b : print_totp F clk n (OT t) = a ++ EPrint l :: b ->
  exists a' now, a = a' ++ [ENow now] /\ l = line (tfCode F t now) /\
    (a' = [] \/ exists a2 u x, a' = a2 ++ [ENow u] /\ last_text a2 = Some x /\ x <> line (tfCode F t u)).
Proof.
  unfold print_totp. cbn [ask]. set (c := tfCode F t (clk 0%nat)). intros E.
  apply (split_at [ENow (clk 0%nat)]) in E as (a' & -> & E).
  2: { rewrite !elem_of_cons. intros [[=]|H]. inversion H. }
  destruct a' as [|x a'].
  - injection E as <- _. exists [], (clk 0%nat). auto.
  - injection E as <- E. apply rounds_print in E as (a2 & u & now & -> & -> & H). exists ([ENow (clk 0%nat); EPrint (line c)] ++ a2 ++ [ENow u]), now.
    split; [cbn; rewrite <- app_assoc; reflexivity|]. split; [reflexivity|]. right. exists ([ENow (clk 0%nat); EPrint (line c)] ++ a2), u.
    rewrite last_text_app. cbn [last_text fold_left]. destruct (last_text a2) as [x|]; eexists; (split; [rewrite <- app_assoc; reflexivity|]); (split; [reflexivity|exact H]).
Qed.

(** A counter-based token on this display. *)
Lemma iter_S {A} (f : A -> A) n x : Nat.iter n f (f x) = Nat.iter (S n) f x.
Proof. induction n as [|n IH]; [reflexivity|]. change (f (Nat.iter n f (f x)) = f (Nat.iter (S n) f x)). rewrite IH. reflexivity. Qed.
Lemma nth_code_S h n : nth_code F (snd (tfNext F h)) n = nth_code F h (S n).
Proof. unfold nth_code. f_equal. f_equal. apply (iter_S (fun h => snd (tfNext F h))). Qed.
Lemma counter_rounds clk : forall n h last i, nth_code F h 0 <> last -> (forall j, nth_code F h (S j) <> nth_code F h j) ->
  totp_rounds F clk n (OH h) last i = flat_map (fun j => [EPrint (line (nth_code F h (2 * j + 1))); ESleep 1]) (seq 0 n).
Proof.
  induction n as [|n IH]; intros h last i H0 H; [reflexivity|]. cbn [totp_rounds ask]. rewrite decide_False by exact H0.
  cbn [seq flat_map app]. unfold line at 1. f_equal. f_equal. rewrite IH.
  - rewrite <- seq_shift, flat_map_concat_map, flat_map_concat_map, map_map. f_equal. apply map_ext. intros j. rewrite !nth_code_S. do 3 f_equal. f_equal. lia.
  - rewrite !nth_code_S. apply (H 1%nat).
  - intros j. rewrite !nth_code_S. apply H.
Qed.
Lemma counter_shown clk n h : (forall j, nth_code F h (S j) <> nth_code F h j) ->
  print_totp F clk n (OH h) = EPrint (line (nth_code F h 0)) :: flat_map (fun j => [EPrint (line (nth_code F h (2 * j + 2))); ESleep 1]) (seq 0 n).
Proof.
  intros H. unfold print_totp. cbn [ask app]. f_equal. rewrite counter_rounds.
  - apply flat_map_ext. intros j. rewrite nth_code_S. repeat f_equal. lia.
  - rewrite nth_code_S. apply H.
  - intros j. rewrite !nth_code_S. apply H.
Qed.

(** *** printGTOTP *)
Lemma note_range off t : 1 <= 30 - second off t mod 30 <= 30.
Proof. pose proof (Z.mod_pos_bound (second off t) 30 eq_refl). lia. Qed.
Lemma second_30 off t : second off t mod 30 = (t + off) mod 30.
Proof. unfold second. symmetry. apply Znumtheory.Zmod_div_mod; [lia..|exists 2; lia]. Qed.
Lemma gtotp_starts clk off n (t : tfT F) : exists k rest,
  print_gtotp F clk off n (OT t) = [ENow (clk 0%nat); ENow (clk 1%nat); EPrint (line (tfCode F t (clk 1%nat))); EPrint (note k)] ++ rest /\
  1 <= k <= 30 /\ (clk 0%nat + k + off) mod 30 = 0 /\ (off mod 30 = 0 -> (clk 0%nat + k) / 30 = clk 0%nat / 30 + 1 /\ forall j, 0 <= j < k -> (clk 0%nat + j) / 30 = clk 0%nat / 30).
Proof.
  exists (30 - second off (clk 0%nat) mod 30). eexists. split; [unfold print_gtotp; cbn [ask app]; reflexivity|]. split; [apply note_range|]. rewrite second_30. set (u := clk 0%nat). clearbody u. clear clk t n.
  pose proof (Z_div_mod_eq_full (u + off) 30). pose proof (Z.mod_pos_bound (u + off) 30 eq_refl). split.
  - apply Z.mod_divide; [lia|]. exists ((u + off) / 30 + 1). lia.
  - intros H1. assert (off = 30 * (off / 30)) as Eo by (pose proof (Z_div_mod_eq_full off 30); lia). remember (off / 30) as q. clear Heqq H1. subst off.
    assert ((u + 30 * q) mod 30 = u mod 30) as E by (rewrite (Z.mul_comm 30 q); apply Z.mod_add; lia). rewrite E in *. clear H H0 E.
    pose proof (Z_div_mod_eq_full u 30). pose proof (Z.mod_pos_bound u 30 eq_refl). split.
    + symmetry. apply (Z.div_unique _ _ _ 0); lia.
    + intros j Hj. symmetry. apply (Z.div_unique _ _ _ (u mod 30 + j)); lia.
Qed.
(** Every later line is printed when the clock stood on a half or full minute. *)
Lemma grounds_print clk off (t : tfT F) : forall n i a l b, gtotp_rounds F clk off n (OT t) i = a ++ EPrint l :: b ->
  exists a' u now b', a = a' ++ [ENow u; ENow now] /\ l = line (tfCode F t now) /\ ((u + off) mod 60 = 0 \/ (u + off) mod 60 = 30) /\ b = ESleep 30 :: b'.
Proof.
  induction n as [|n IH]; intros i a l b E; cbn [gtotp_rounds ask] in E; [destruct a; discriminate|]. case_decide as D.
  - cbn [app] in E. apply (split_at [ENow (clk i); ENow (clk (S i))]) in E as (a' & -> & E).
    2: { rewrite !elem_of_cons. intros [[=]|[[=]|H]]. inversion H. }
    destruct a' as [|x a'].
    + injection E as <- <-. exists [], (clk i), (clk (S i)). eauto 6.
    + injection E as <- E. destruct a' as [|x a']; [discriminate|]. injection E as <- E. apply IH in E as (a2 & u & now & b' & -> & -> & H & ->).
      exists ([ENow (clk i); ENow (clk (S i)); EPrint (line (tfCode F t (clk (S i)))); ESleep 30] ++ a2), u, now, b'. eauto 6.
  - apply (split_at [ENow (clk i); ESleep 1]) in E as (a' & -> & E).
    2: { rewrite !elem_of_cons. intros [[=]|[[=]|H]]. inversion H. }
    apply IH in E as (a2 & u & now & b' & -> & -> & H & ->). exists ([ENow (clk i); ESleep 1] ++ a2), u, now, b'. eauto 6.
Qed.
Lemma gtotp_lines clk off (t : tfT F) n a l b : print_gtotp F clk off n (OT t) = a ++ EPrint l :: b -> (2 <= length (texts a))%nat ->
  exists a' u now b', a = a' ++ [ENow u; ENow now] /\ l = line (tfCode F t now) /\ ((u + off) mod 60 = 0 \/ (u + off) mod 60 = 30) /\ b = ESleep 30 :: b'.
Proof.
  unfold print_gtotp. cbn [ask]. intros E Hl. apply (split_at [ENow (clk 0%nat); ENow (clk 1%nat)]) in E as (a' & -> & E).
  2: { rewrite !elem_of_cons. intros [[=]|[[=]|H]]. inversion H. }
  destruct a' as [|x a']; [cbn in Hl; lia|]. injection E as <- E. destruct a' as [|x a']; [cbn in Hl; lia|]. injection E as <- E.
  apply grounds_print in E as (a2 & u & now & b' & -> & -> & H & ->). eexists (_ :: _ :: _ :: _ :: a2), u, now, b'. split; [cbn; reflexivity|auto].
Qed.

(** A process that is never late shows the right code at every moment. *)
Lemma second_boundary off u : off mod 30 = 0 -> (second off u = 0 \/ second off u = 30) <-> u mod 30 = 0.
Proof.
  intros H. assert (second off u mod 30 = u mod 30) as E.
  { rewrite second_30. rewrite Z.add_mod by lia. rewrite H, Z.add_0_r. apply Z.mod_mod. lia. }
  rewrite <- E. pose proof (Z.mod_pos_bound (u + off) 60 eq_refl) as B. fold (second off u) in B. pose proof (Z_div_mod_eq_full (second off u) 30). pose proof (Z.mod_pos_bound (second off u) 30 eq_refl).
  split; [intros [-> | ->]; reflexivity|]. intros E2. assert (second off u / 30 = 0 \/ second off u / 30 = 1) as [Q|Q]; [|lia|lia].
  assert (0 <= second off u / 30 < 2); [|lia]. split; [apply Z.div_pos; lia|apply Z.div_lt_upper_bound; lia].
Qed.
Lemma same_period u v k : u mod 30 <> 0 \/ k = 30 -> u mod 30 + k <= 30 -> u <= v < u + k -> v / 30 = u / 30.
Proof.
  intros _ H1 H2. pose proof (Z_div_mod_eq_full u 30). pose proof (Z.mod_pos_bound u 30 eq_refl). symmetry. apply (Z.div_unique _ _ _ (u mod 30 + (v - u))); lia.
Qed.
Lemma display_more p q code : on_display p code -> (forall l, EPrint l ∉ q) -> on_display (p ++ q) code.
Proof.
  intros (a & b & -> & H) N. exists a, (b ++ q). split; [rewrite <- app_assoc; reflexivity|]. intros l Hl. apply elem_of_app in Hl as [Hl|Hl]; [auto|]. destruct (N _ Hl).
Qed.
(** [prev] is the time of the latest reading, [d] how long the process slept since:
    the code of that reading is on display, and its period lasts until the end of the sleep
    or beyond. *)
Lemma grounds_fresh clk off (t : tfT F) : off mod 30 = 0 -> half_minutes (tfCode F t) ->
  forall n i p prev d, timed 0 (Some prev) d (gtotp_rounds F clk off n (OT t) i) -> on_display p (tfCode F t prev) -> 0 <= d -> prev mod 30 + d <= 30 ->
  last_now p = Some prev ->
  forall a x b, p ++ gtotp_rounds F clk off n (OT t) i = a ++ ESleep x :: b -> (length p <= length a)%nat ->
    exists now, last_now a = Some now /\ forall u, now <= u < now + x -> on_display a (tfCode F t u).
Proof.
  intros Ho Hc. induction n as [|n IH]; intros i p prev d T D Dp Dq Ln a x b E Hlen; cbn [gtotp_rounds ask] in *.
  - rewrite app_nil_r in E. apply (f_equal length) in E. rewrite app_length in E. cbn in E. lia.
  - case_decide as B.
    + apply second_boundary in B; [|exact Ho]. cbn [timed app] in T. destruct T as (T1 & T2 & T3).
      assert (clk (S i) = clk i) as Ec by lia. rewrite Ec in *.
      set (c := tfCode F t (clk i)) in *.
      change (p ++ [ENow (clk i); ENow (clk i); EPrint (line c)] ++ ESleep 30 :: gtotp_rounds F clk off n (OT t) (S (S i)) = a ++ ESleep x :: b) in E.
      assert (on_display (p ++ [ENow (clk i); ENow (clk i); EPrint (line c)]) c) as D2.
      { exists (p ++ [ENow (clk i); ENow (clk i)]), []. split; [rewrite <- app_assoc; reflexivity|]. intros l H. inversion H. }
      destruct (decide (length a = length p + 3)%nat) as [La|La].
      * rewrite app_assoc in E. apply app_inj_1 in E as [<- E]; [|rewrite app_length; cbn; lia]. injection E as <- _. exists (clk i). split; [rewrite last_now_app; reflexivity|].
        intros u Hu. replace (tfCode F t u) with c; [exact D2|]. apply Hc. symmetry. apply (same_period _ _ 30); [right; reflexivity|lia|lia].
      * assert (length p + 4 <= length a)%nat as La2.
        { destruct (decide (length p + 4 <= length a)%nat) as [|N]; [assumption|]. exfalso.
          assert ((a ++ ESleep x :: b) !! length a = Some (ESleep x)) as Hx by (rewrite lookup_app_r by lia; rewrite Nat.sub_diag; reflexivity). rewrite <- E in Hx.
          assert (length a = length p \/ length a = length p + 1 \/ length a = length p + 2)%nat as [Q | [Q | Q]] by lia; rewrite Q in Hx; rewrite lookup_app_r in Hx by lia.
          - rewrite Nat.sub_diag in Hx. discriminate.
          - replace (length p + 1 - length p)%nat with 1%nat in Hx by lia. discriminate.
          - replace (length p + 2 - length p)%nat with 2%nat in Hx by lia. discriminate. }
        apply (IH (S (S i)) (p ++ [ENow (clk i); ENow (clk i); EPrint (line c); ESleep 30]) (clk i) 30) with (b:=b).
        -- exact T3.
        -- change [ENow (clk i); ENow (clk i); EPrint (line c); ESleep 30] with ([ENow (clk i); ENow (clk i); EPrint (line c)] ++ [ESleep 30]). rewrite app_assoc. apply display_more; [exact D2|].
           intros l H. apply elem_of_list_singleton in H. discriminate.
        -- lia.
        -- lia.
        -- rewrite last_now_app. reflexivity.
        -- rewrite <- E, <- app_assoc. reflexivity.
        -- rewrite app_length. cbn. lia.
    + rewrite second_boundary in B by exact Ho. cbn [timed app] in T. destruct T as (T1 & T3). assert (clk i = prev + d) as Ec by lia. rewrite Ec in *.
      assert (prev mod 30 + d < 30) as Lt.
      { destruct (decide (prev mod 30 + d = 30)) as [Q|Q]; [|lia]. exfalso. apply B. pose proof (Z_div_mod_eq_full prev 30). apply Z.mod_divide; [lia|]. exists (prev / 30 + 1). lia. }
      assert (tfCode F t (prev + d) = tfCode F t prev) as Es.
      { apply Hc. symmetry. pose proof (Z_div_mod_eq_full prev 30). pose proof (Z.mod_pos_bound prev 30 eq_refl). apply (Z.div_unique _ _ _ (prev mod 30 + d)); lia. }
      assert ((prev + d) mod 30 = prev mod 30 + d) as Em.
      { symmetry. pose proof (Z_div_mod_eq_full prev 30). pose proof (Z.mod_pos_bound prev 30 eq_refl). apply (Z.mod_unique _ _ (prev / 30)); lia. }
      assert (on_display (p ++ [ENow (prev + d)]) (tfCode F t prev)) as D2.
      { apply display_more; [exact D|]. intros l H. apply elem_of_list_singleton in H. discriminate. }
      destruct (decide (length a = length p + 1)%nat) as [La|La].
      * change (p ++ [ENow (prev + d)] ++ ESleep 1 :: gtotp_rounds F clk off n (OT t) (S i) = a ++ ESleep x :: b) in E. rewrite app_assoc in E.
        apply app_inj_1 in E as [<- E]; [|rewrite app_length; cbn; lia]. injection E as <- _. exists (prev + d). split; [rewrite last_now_app; reflexivity|].
        intros u Hu. replace u with (prev + d) by lia. rewrite Es. exact D2.
      * assert (length p + 2 <= length a)%nat as La2.
        { destruct (decide (length p + 2 <= length a)%nat) as [|N]; [assumption|]. exfalso. assert (length a = length p) as Q by lia.
          change (p ++ [ENow (prev + d)] ++ ESleep 1 :: gtotp_rounds F clk off n (OT t) (S i) = a ++ ESleep x :: b) in E. apply app_inj_1 in E as [_ E]; [discriminate|auto]. }
        apply (IH (S i) (p ++ [ENow (prev + d); ESleep 1]) (prev + d) 1) with (b:=b).
        -- exact T3.
        -- rewrite Es. change [ENow (prev + d); ESleep 1] with ([ENow (prev + d)] ++ [ESleep 1]). rewrite app_assoc. apply display_more; [exact D2|]. intros l H. apply elem_of_list_singleton in H. discriminate.
        -- lia.
        -- lia.
        -- rewrite last_now_app. reflexivity.
        -- rewrite <- E, <- app_assoc. reflexivity.
        -- rewrite app_length. cbn. lia.
Qed.
Lemma gtotp_fresh clk off (t : tfT F) n : off mod 30 = 0 -> half_minutes (tfCode F t) -> timed 0 None 0 (print_gtotp F clk off n (OT t)) ->
  forall a d b, print_gtotp F clk off n (OT t) = a ++ ESleep d :: b ->
    exists now, last_now a = Some now /\ forall u, now <= u < now + d -> on_display a (tfCode F t u).
Proof.
  intros Ho Hc T a d b E. unfold print_gtotp in *. cbn [ask app timed] in *. destruct T as (_ & T1 & T). assert (clk 1%nat = clk 0%nat) as E1 by lia. rewrite E1 in *.
  set (k := second off (clk 0%nat) mod 30) in *. set (c := tfCode F t (clk 0%nat)) in *.
  change ([ENow (clk 0%nat); ENow (clk 0%nat); EPrint (line c); EPrint (note (30 - k))] ++ gtotp_rounds F clk off n (OT t) 2 = a ++ ESleep d :: b) in E.
  assert (4 <= length a)%nat as La.
  { do 4 (destruct a as [|? a]; [discriminate E|injection E as _ E]). cbn. lia. }
  eapply (grounds_fresh clk off t Ho Hc n 2%nat [ENow (clk 0%nat); ENow (clk 0%nat); EPrint (line c); EPrint (note (30 - k))] (clk 0%nat) 0); [exact T| |lia| |reflexivity|exact E|cbn; lia].
  - exists [ENow (clk 0%nat); ENow (clk 0%nat)], [EPrint (note (30 - k))]. split; [reflexivity|]. intros l H. apply elem_of_list_singleton in H as [= ->]. eauto.
  - pose proof (Z.mod_pos_bound (clk 0%nat) 30 eq_refl). lia.
Qed.

(** One second late at every reading, and the display never changes again. *)
Definition odd_clock (i : nat) : Z := if decide (i < 2)%nat then 1 else 1 + 2 * (Z.of_nat i - 2).
Lemma odd_rounds (t : tfT F) : forall n i, (2 <= i)%nat -> gtotp_rounds F odd_clock 0 n (OT t) i = flat_map (fun j => [ENow (odd_clock j); ESleep 1]) (seq i n).
Proof.
  induction n as [|n IH]; intros i Hi; [reflexivity|]. cbn [gtotp_rounds seq flat_map app]. rewrite decide_False.
  - rewrite IH by lia. reflexivity.
  - unfold second, odd_clock. rewrite decide_False by lia. rewrite Z.add_0_r. set (z := 1 + 2 * (Z.of_nat i - 2)). assert (z mod 2 = 1) as O by (unfold z; rewrite Z.mul_comm, Z.mod_add; [reflexivity|lia]).
    assert ((z mod 60) mod 2 = 1) as O2 by (rewrite <- Znumtheory.Zmod_div_mod; [exact O|lia..|exists 30; lia]). intros [H|H]; rewrite H in O2; discriminate.
Qed.
Lemma odd_timed : forall n i p, (2 <= i)%nat -> odd_clock i = p + 1 \/ odd_clock i = p + 2 -> timed 1 (Some p) 1 (flat_map (fun j => [ENow (odd_clock j); ESleep 1]) (seq i n)).
Proof.
  induction n as [|n IH]; intros i p Hi H; [exact I|]. cbn [seq flat_map app timed]. split; [lia|]. apply IH; [lia|].
  unfold odd_clock. rewrite !decide_False by lia. lia.
Qed.
Lemma odd_texts : forall n i, texts (flat_map (fun j => [ENow (odd_clock j); ESleep 1]) (seq i n)) = [].
Proof. induction n as [|n IH]; intros i; [reflexivity|]. cbn [seq flat_map]. rewrite texts_app, IH. reflexivity. Qed.
Lemma gtotp_stuck (t : tfT F) : exists clk, (forall n, timed 1 None 0 (print_gtotp F clk 0 n (OT t)) /\ length (texts (print_gtotp F clk 0 n (OT t))) = 2%nat) /\
  forall z, exists n, exists now, last_now (print_gtotp F clk 0 n (OT t)) = Some now /\ z <= now.
Proof.
  exists odd_clock. split.
  - intros n. unfold print_gtotp. cbn [ask app]. rewrite odd_rounds by lia. split.
    + cbn [timed]. split; [exact I|]. change (odd_clock 0) with 1. change (odd_clock 1) with 1. split; [lia|]. destruct n as [|n]; [exact I|]. cbn [seq flat_map app timed]. change (odd_clock 2) with 1. split; [lia|]. apply odd_timed; [lia|]. change (odd_clock 3) with 3. lia.
    + match goal with |- length (texts (?a :: ?b :: ?c :: ?d :: ?l)) = _ => change (length (texts ([a; b; c; d] ++ l)) = 2%nat) end. rewrite texts_app, odd_texts. reflexivity.
  - intros z. exists (S (Z.to_nat z)), (odd_clock (2 + Z.to_nat z)). unfold print_gtotp. cbn [ask app]. rewrite odd_rounds by lia. rewrite seq_S, flat_map_app. split.
    + match goal with |- last_now (?a :: ?b :: ?c :: ?d :: ?l ++ ?m) = _ => change (last_now ([a; b; c; d] ++ l ++ m) = Some (odd_clock (2 + Z.to_nat z))) end.
      rewrite !last_now_app. reflexivity.
    + unfold odd_clock. rewrite decide_False by lia. lia.
Qed.

(** Between two lines lies at least half a minute. *)
Lemma grounds_sleeps clk off (t : tfT F) : forall n i d, ESleep d ∈ gtotp_rounds F clk off n (OT t) i -> 0 <= d.
Proof.
  induction n as [|n IH]; intros i d H; cbn [gtotp_rounds ask] in H; [inversion H|]. case_decide; cbn [app] in H; rewrite !elem_of_cons in H.
  - destruct H as [[=]|[[=]|[[=]|[[= ->]|H]]]]; [lia|eauto].
  - destruct H as [[=]|[[= ->]|H]]; [lia|eauto].
Qed.
Lemma timed_last late es : forall p s, timed late (Some p) s es -> 0 <= s -> (forall d, ESleep d ∈ es -> 0 <= d) -> forall w, last_now es = Some w -> p + s <= w.
Proof.
  induction es as [|e es IH]; intros p s H Hs Hd w Hw; [discriminate|]. assert (forall d, ESleep d ∈ es -> 0 <= d) as Hd2 by (intros d H2; apply Hd; right; exact H2).
  change (e :: es) with ([e] ++ es) in Hw. rewrite last_now_app in Hw. destruct e as [z|l|d]; cbn [timed] in H; cbn [last_now fold_left] in Hw.
  - destruct H as [H1 H2]. destruct (last_now es) as [v|] eqn:E; [injection Hw as ->|injection Hw as <-; lia]. specialize (IH z 0 H2 ltac:(lia) Hd2 w eq_refl). lia.
  - destruct (last_now es) as [v|] eqn:E; [injection Hw as ->|discriminate]. exact (IH p s H Hs Hd2 w eq_refl).
  - destruct (last_now es) as [v|] eqn:E; [injection Hw as ->|discriminate]. assert (0 <= d) by (apply Hd; left). specialize (IH p (s + d) H ltac:(lia) Hd2 w eq_refl). lia.
Qed.
Lemma timed_from late a : forall prev s es p, timed late prev s (a ++ ENow p :: es) -> timed late (Some p) 0 es.
Proof. induction a as [|[z|l|d] a IH]; intros prev s es p H; cbn [app timed] in H; [apply H|destruct H as [_ H]; eauto|eauto|eauto]. Qed.
Lemma gtotp_apart clk off (t : tfT F) n late a x b y c : timed late None 0 (print_gtotp F clk off n (OT t)) -> (2 <= length (texts a))%nat ->
  print_gtotp F clk off n (OT t) = a ++ EPrint x :: b ++ EPrint y :: c ->
  exists v w, last_now a = Some v /\ last_now (a ++ EPrint x :: b) = Some w /\ x = line (tfCode F t v) /\ y = line (tfCode F t w) /\ v + 30 <= w.
Proof.
  intros T Ha E. destruct (gtotp_lines clk off t n a x (b ++ EPrint y :: c) E Ha) as (a1 & u & v & b' & -> & -> & _ & Eb).
  assert (print_gtotp F clk off n (OT t) = ((a1 ++ [ENow u; ENow v]) ++ EPrint (line (tfCode F t v)) :: b) ++ EPrint y :: c) as E' by (rewrite E, <- (app_assoc (a1 ++ _) (_ :: b)); reflexivity).
  destruct (gtotp_lines clk off t n _ y c E') as (a2 & u2 & w & b2 & Ew & -> & _); [rewrite texts_app, app_length; lia|].
  exists v, w. split; [rewrite last_now_app; reflexivity|]. split; [rewrite Ew, last_now_app; reflexivity|]. split; [reflexivity|]. split; [reflexivity|].
  destruct b as [|e b]; [discriminate|]. injection Eb as -> Eb.
  assert (last_now b = Some w) as Lb.
  { destruct (last_now b) as [z|] eqn:Ez.
    - apply (f_equal last_now) in Ew. rewrite !last_now_app in Ew. change (EPrint (line (tfCode F t v)) :: ESleep 30 :: b) with ([EPrint (line (tfCode F t v)); ESleep 30] ++ b) in Ew. rewrite last_now_app, Ez in Ew. cbn in Ew. exact Ew.
    - exfalso. destruct b as [|e b _] using rev_ind.
      + change ((a1 ++ [ENow u; ENow v]) ++ [EPrint (line (tfCode F t v)); ESleep 30] = a2 ++ [ENow u2; ENow w]) in Ew.
        change [EPrint (line (tfCode F t v)); ESleep 30] with ([EPrint (line (tfCode F t v))] ++ [ESleep 30]) in Ew. change [ENow u2; ENow w] with ([ENow u2] ++ [ENow w]) in Ew. rewrite !app_assoc in Ew.
        apply app_inj_tail in Ew as [_ [=]].
      + change [ENow u2; ENow w] with ([ENow u2] ++ [ENow w]) in Ew. rewrite app_assoc in Ew.
        change (EPrint (line (tfCode F t v)) :: ESleep 30 :: b ++ [e]) with ((EPrint (line (tfCode F t v)) :: ESleep 30 :: b) ++ [e]) in Ew. rewrite app_assoc in Ew. apply app_inj_tail in Ew as [_ ->].
        rewrite last_now_app in Ez. discriminate. }
  rewrite E in T. change [ENow u; ENow v] with ([ENow u] ++ [ENow v]) in T. rewrite !app_assoc, <- (app_assoc _ [ENow v]) in T. cbn [app] in T. apply timed_from in T. cbn [timed] in T.
  assert (forall d, ESleep d ∈ b ++ EPrint (line (tfCode F t w)) :: c -> 0 <= d) as Hd.
  { intros d Hd. assert (ESleep d ∈ print_gtotp F clk off n (OT t)) as Hin.
    { rewrite E. apply elem_of_app. right. right. right. exact Hd. }
    unfold print_gtotp in Hin. cbn [ask app] in Hin. rewrite !elem_of_cons in Hin. destruct Hin as [[=]|[[=]|[[=]|[[=]|Hin]]]]. exact (grounds_sleeps _ _ _ _ _ _ Hin). }
  destruct (last_now (EPrint (line (tfCode F t w)) :: c)) as [z|] eqn:Ez.
  - (* the readings up to the line *)
    clear Ez. assert (timed late (Some v) 30 b) as Tb.
    { clear -T. revert T. generalize (Some v) as p. generalize 30 as s. induction b as [|[q|l|d] b IH]; intros s p T; cbn [app timed] in *; [exact I|destruct T; split; eauto|eauto|eauto]. }
    assert (v + 30 <= w); [|lia]. eapply (timed_last late b v 30 Tb); [lia| |exact Lb]. intros d H. apply Hd. apply elem_of_app. left. exact H.
  - assert (v + 30 <= w); [|lia]. eapply (timed_last late _ v 30 T); [lia|exact Hd|]. rewrite last_now_app, Ez. exact Lb.
Qed.
End WithTwofactor.
