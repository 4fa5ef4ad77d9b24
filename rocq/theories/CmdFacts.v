(** Proofs about Cmd.v. *)
From Verif Require Export SpecCmd StoreText ReadLineFacts.
Local Open Scope Z_scope.

Definition res_world {A} (r : res A) : option world :=
  match r with Done _ w | Fail w | Crash w => Some w | Spin => None end.
Lemma ends_iff {A} (r : res A) w : ends r w <-> res_world r = Some w.
Proof.
  unfold ends. destruct r; cbn; split; intros H; try congruence.
  - destruct H as [[? H]|[H|H]]; congruence.
  - injection H as <-. eauto.
  - destruct H as [[? H]|[H|H]]; congruence.
  - injection H as <-. auto.
  - destruct H as [[? H]|[H|H]]; congruence.
  - injection H as <-. auto.
  - destruct H as [[? H]|[H|H]]; congruence.
Qed.
Lemma then_done {A B} (e : res A) (k : A -> world -> res B) b w' : then_ e k = Done b w' -> exists a w, e = Done a w /\ k a w = Done b w'.
Proof. destruct e; cbn; try discriminate. eauto. Qed.
Lemma lift_done {A} (o : outcome A) w a w' : lift o w = Done a w' -> o = Ret a /\ w' = w.
Proof. destruct o; cbn; [intros [= -> ->]; auto|discriminate]. Qed.
Lemma lift_world {A} (o : outcome A) w w' : res_world (lift o w) = Some w' -> w' = w.
Proof. destruct o; cbn; congruence. Qed.

(** Files and disk untouched, the clock only advanced. *)
Definition keeps (w w' : world) : Prop :=
  wFs w' = wFs w /\ wFate w' = wFate w /\ exists ts, wClk w = ts ++ wClk w'.
Lemma keeps_refl w : keeps w w.
Proof. split_and!; auto. exists []. reflexivity. Qed.
Lemma keeps_trans w1 w2 w3 : keeps w1 w2 -> keeps w2 w3 -> keeps w1 w3.
Proof.
  intros (A & B & ts & E) (A' & B' & ts' & E'). split_and!; try congruence. exists (ts ++ ts'). rewrite E, E'. apply app_assoc.
Qed.
Lemma keeps_clock w w' : keeps w w' -> good_clock w -> good_clock w'.
Proof. intros (_ & _ & ts & E). unfold good_clock. rewrite E, Forall_app. tauto. Qed.
Lemma keeps_disk w w' : keeps w w' -> disk_ok w -> disk_ok w'.
Proof. intros (_ & E & _). unfold disk_ok. rewrite E. auto. Qed.
Lemma keeps_fs w w' : keeps w w' -> wFs w' = wFs w.
Proof. intros (E & _). exact E. Qed.

Lemma w_line_keeps w r w' : w_line w = (r, w') -> keeps w w'.
Proof. unfold w_line. destruct (read_line (wIn w)) as [x i]. intros [= <- <-]. split_and!; auto. exists []. reflexivity. Qed.
Lemma w_line_eq w r w' : w_line w = (r, w') -> read_line (wIn w) = (r, wIn w') /\ wPw w' = wPw w /\ wClk w' = wClk w /\ wRng w' = wRng w /\ wOut w' = wOut w.
Proof. unfold w_line. destruct (read_line (wIn w)) as [x i]. intros [= <- <-]. auto. Qed.
Lemma w_pass_keeps w r w' : w_pass w = (r, w') -> keeps w w'.
Proof. unfold w_pass. destruct (wPw w); intros [= <- <-]; split_and!; auto; exists []; reflexivity. Qed.
Lemma w_pass_eq w p w' : w_pass w = (Some p, w') ->
  wPw w = Some p :: wPw w' /\ wIn w' = wIn w /\ wClk w' = wClk w /\ wRng w' = wRng w /\ wOut w' = wOut w.
Proof. unfold w_pass. destruct (wPw w) eqn:E; [discriminate|]. intros [= -> <-]. cbn. auto. Qed.
Lemma w_now_keeps w t w' : w_now w = (t, w') -> keeps w w'.
Proof.
  unfold w_now. destruct (wClk w) eqn:E; intros [= <- <-]; split_and!; auto.
  - exists []. reflexivity.
  - exists [z]. rewrite E. reflexivity.
Qed.
Lemma w_now_eq w t w' : w_now w = (t, w') ->
  t = nth 0 (wClk w) 0 /\ wClk w' = drop 1 (wClk w) /\ wIn w' = wIn w /\ wPw w' = wPw w /\ wRng w' = wRng w /\ wOut w' = wOut w.
Proof. unfold w_now. destruct (wClk w) eqn:E; intros [= <- <-]; rewrite ?E; cbn; rewrite ?E; cbn; split_and!; auto. Qed.
Lemma w_now_int64 w t w' : good_clock w -> w_now w = (t, w') -> int64 t.
Proof.
  unfold w_now, good_clock. destruct (wClk w) eqn:E; intros G [= <- <-]; [unfold int64; lia|].
  inversion G. assumption.
Qed.
Lemma w_read_keeps w p r w' : w_read w p = (r, w') -> keeps w w'.
Proof.
  unfold w_read. destruct (decide _).
  - destruct (read_all (wIn w)). intros [= <- <-]. split_and!; auto. exists []. reflexivity.
  - intros [= <- <-]. apply keeps_refl.
Qed.
Lemma w_read_plain w p : plain_path p -> w_read w p = (wFs w !! p, w).
Proof. intros [N1 N2]. unfold w_read, w_raw_read. rewrite !decide_False by assumption. reflexivity. Qed.
Lemma w_print_keeps w b : keeps w (w_print w b).
Proof. split_and!; auto. exists []. reflexivity. Qed.
Lemma set_rng_keeps w g : keeps w (set_rng w g).
Proof. split_and!; auto. exists []. reflexivity. Qed.

(** A run that touches no file. *)
Definition frame {A} (w : world) (r : res A) : Prop := forall w', res_world r = Some w' -> keeps w w'.
Lemma frame_then {A B} w (e : res A) (k : A -> world -> res B) :
  frame w e -> (forall a w1, e = Done a w1 -> keeps w w1 -> frame w1 (k a w1)) -> frame w (then_ e k).
Proof.
  intros F K w' E. destruct e as [a w1|w1|w1|]; cbn in *; try (injection E as <-; apply F; reflexivity); [|discriminate].
  assert (keeps w w1) as Kw by (apply F; reflexivity). eapply keeps_trans; [exact Kw|]. eapply K; eauto.
Qed.
Lemma frame_done {A} w (a : A) w1 : keeps w w1 -> frame w (Done a w1).
Proof. intros K w' [= <-]. exact K. Qed.
Lemma frame_fail {A} w w1 : keeps w w1 -> frame w (@Fail A w1).
Proof. intros K w' [= <-]. exact K. Qed.
Lemma frame_crash {A} w w1 : keeps w w1 -> frame w (@Crash A w1).
Proof. intros K w' [= <-]. exact K. Qed.
Lemma frame_spin {A} w : frame w (@Spin A).
Proof. intros w' [=]. Qed.
Lemma frame_lift {A} (o : outcome A) w w1 : keeps w w1 -> frame w (lift o w1).
Proof. intros K w' E. apply lift_world in E. subst. exact K. Qed.
Lemma frame_keeps {A} w w1 (r : res A) : keeps w w1 -> frame w1 r -> frame w r.
Proof. intros K F w' E. eapply keeps_trans; [exact K|]. apply F, E. Qed.
Lemma frame_ends {A} w (r : res A) w' : frame w r -> ends r w' -> keeps w w'.
Proof. intros F E. apply F, ends_iff, E. Qed.

(** *** Writing *)
Lemma w_write_fail w p d w' : w_write w p d = (false, w') -> disk_ok w -> keeps w w'.
Proof.
  unfold w_write, w_raw_write. destruct (decide (p = bs "-")); [discriminate|]. destruct (decide (p = [])).
  { intros [= <-] _. apply keeps_refl. }
  unfold disk_ok. destruct (wFate w) as [|x l] eqn:E; cbn.
  - discriminate.
  - intros H D. apply Forall_cons in D as [-> _]. cbn in H. discriminate.
Qed.
Lemma w_write_only w p d ok w' : w_write w p d = (ok, w') -> only_changes p (wFs w) (wFs w').
Proof.
  unfold w_write, w_raw_write. destruct (decide (p = bs "-")); [intros [= _ <-] q _; reflexivity|]. destruct (decide (p = [])).
  { intros [= _ <-] q _. reflexivity. }
  destruct (match wFate w with [] => (WOk, []) | x :: l => (x, l) end) as [x l]. destruct x; cbn; intros [= _ <-] q N; cbn;
    [apply lookup_insert_ne; congruence|reflexivity|apply lookup_insert_ne; congruence].
Qed.
Lemma w_write_ok w p d w' : plain_path p -> w_write w p d = (true, w') -> wFs w' = <[p := d]> (wFs w).
Proof.
  intros [N1 N2]. unfold w_write, w_raw_write. rewrite !decide_False by assumption.
  destruct (match wFate w with [] => (WOk, []) | x :: l => (x, l) end) as [x l]. destruct x; cbn; try discriminate. intros [= <-]. reflexivity.
Qed.
Lemma w_write_succeeds w p d : p <> [] -> disk_ok w -> exists w', w_write w p d = (true, w').
Proof.
  intros N D. unfold w_write, w_raw_write. destruct (decide (p = bs "-")); [eauto|]. rewrite decide_False by assumption.
  unfold disk_ok in D. destruct (wFate w) as [|x l]; cbn; [eauto|]. apply Forall_cons in D as [-> _]. cbn. eauto.
Qed.

(** *** Metadata lines *)
Lemma cut_eq_none s : cut [x3d] s = None -> x3d ∉ s.
Proof.
  intros E I. apply elem_of_list_split in I as (u & v & ->). revert E.
  induction u as [|b u IH]; cbn [app cut]; [discriminate|].
  destruct (has_prefix [x3d] (b :: u ++ x3d :: v)); [discriminate|].
  destruct (cut [x3d] (u ++ x3d :: v)) as [[? ?]|]; [discriminate|auto].
Qed.
Lemma cut_eq_some s l r : cut [x3d] s = Some (l, r) -> s = l ++ [x3d] ++ r /\ x3d ∉ l.
Proof.
  revert l. induction s as [|b s IH]; intros l E; [cbn in E; discriminate|].
  cbn [cut] in E. destruct (has_prefix [x3d] (b :: s)) eqn:P.
  - injection E as <- <-. apply has_prefix_iff in P as [u E]. cbn in E. injection E as -> ->. split; [reflexivity|]. intros H. inversion H.
  - destruct (cut [x3d] s) as [[u v]|] eqn:K; [|discriminate]. injection E as <- <-. destruct (IH u eq_refl) as [-> N].
    split; [reflexivity|]. intros H. apply elem_of_cons in H as [<-|H]; [|auto].
    unfold has_prefix in P. apply bool_decide_eq_false in P. apply P. reflexivity.
Qed.
Lemma split_meta_some line k v : split_meta line = Some (k, v) -> meta_line line k v.
Proof.
  unfold split_meta. destruct (cut [x3d] line) as [[a b]|] eqn:E; [|discriminate]. intros [= <- <-].
  apply cut_eq_some in E as [-> N]. exists a, b. split_and!; auto; apply trim_space_spec.
Qed.
Lemma split_meta_none line : split_meta line = None -> x3d ∉ line.
Proof. unfold split_meta. destruct (cut [x3d] line) as [[a b]|] eqn:E; [discriminate|]. intros _. apply cut_eq_none, E. Qed.
Lemma meta_line_fun line k v k' v' : meta_line line k v -> meta_line line k' v' -> k = k' /\ v = v'.
Proof.
  intros (a & b & E & N & T1 & T2) (a' & b' & E' & N' & T1' & T2').
  assert (a = a' /\ b = b') as [-> ->].
  { rewrite E in E'. clear - N N' E'. revert a' N' E'. induction a as [|x a IH]; intros [|x' a'] N' E'; cbn in E'.
    - injection E' as ->. auto.
    - injection E' as <- E'. exfalso. apply N'. left.
    - injection E' as -> E'. exfalso. apply N. left.
    - injection E' as -> E'. destruct (IH ltac:(intros H; apply N; right; exact H) a' ltac:(intros H; apply N'; right; exact H) E') as [-> ->]. auto. }
  split; eapply trimmed_unique; eauto.
Qed.
Lemma dictates_fun ls md m1 m2 : dictates ls md m1 -> dictates ls md m2 -> m1 = m2.
Proof.
  intros D. revert m2. induction D as [md|line k v ls md md' M D IH|line ls md md' N D IH]; intros m2 D2; inversion D2; subst; auto.
  - destruct (meta_line_fun _ _ _ _ _ M H1) as [<- <-]. auto.
  - destruct M as (a & b & -> & _). exfalso. apply H1. apply elem_of_app. right. left.
  - destruct H1 as (a & b & -> & _). exfalso. apply N. apply elem_of_app. right. left.
Qed.

(** *** Slots *)
Lemma slot_recs s k : slot s k = recs s !! k.
Proof. unfold slot, recs. destruct (sRecs s); cbn; [reflexivity|]. symmetry. apply lookup_empty. Qed.
Lemma set_rec_ret s k v s' : set_rec s k v = Ret s' ->
  exists m, sRecs s = Some m /\ s' = SStore (sVersion s) (sTime s) (Some (<[k := v]> m)) (sPass s).
Proof. unfold set_rec. destruct (sRecs s) as [m|]; [|discriminate]. intros [= <-]. eauto. Qed.
Lemma set_rec_slots s k v s' : set_rec s k v = Ret s' -> slot s' k = Some v /\ same_but k s s' /\ sPass s' = sPass s /\ sVersion s' = sVersion s.
Proof.
  intros E. apply set_rec_ret in E as (m & E & ->). unfold slot, same_but. cbn. split_and!; auto.
  - apply lookup_insert.
  - intros q N. unfold slot. cbn. rewrite E. apply lookup_insert_ne. congruence.
Qed.
Lemma del_rec_slots s k : slot (del_rec s k) k = None /\ same_but k s (del_rec s k).
Proof.
  unfold slot, same_but, del_rec. cbn. destruct (sRecs s) as [m|] eqn:E; cbn; split; auto.
  - apply lookup_delete.
  - intros q N. unfold slot. cbn. rewrite E. apply lookup_delete_ne. congruence.
  - intros q N. unfold slot. rewrite E. reflexivity.
Qed.
Lemma present_slot s k : present s k <-> slot s k <> None.
Proof.
  unfold present, slot. split.
  - intros (m & v & -> & ->). discriminate.
  - destruct (sRecs s) as [m|]; [|congruence]. destruct (m !! k) eqn:E; [|congruence]. eauto.
Qed.
Lemma holds_slot s k r : holds s k r <-> slot s k = Some (Some r).
Proof.
  unfold holds, slot. split.
  - intros (m & -> & ->). reflexivity.
  - destruct (sRecs s) as [m|]; [|congruence]. eauto.
Qed.

(** Go values stay Go values. *)
Lemma go_set s k r s' : go_store s -> int64 (rTime r) -> set_rec s k (Some r) = Ret s' -> go_store s'.
Proof.
  intros (A & B & G) T E. apply set_rec_ret in E as (m & E & ->). split_and!; auto. cbn. intros m' q r' [= <-] H.
  destruct (decide (q = k)) as [->|N].
  - rewrite lookup_insert in H. injection H as <-. exact T.
  - rewrite lookup_insert_ne in H by congruence. eauto.
Qed.
Lemma go_del s k : go_store s -> go_store (del_rec s k).
Proof.
  intros (A & B & G). split_and!; auto. unfold del_rec. cbn. intros m' q r' E H. destruct (sRecs s) as [m|] eqn:Es; [|discriminate].
  injection E as <-. apply lookup_delete_Some in H as [_ H]. eauto.
Qed.
Lemma go_time s t : go_store s -> int64 t -> go_store (SStore (sVersion s) t (sRecs s) (sPass s)).
Proof. intros (A & B & G) T. split_and!; auto. Qed.
