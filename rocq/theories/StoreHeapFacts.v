(** Facts about the secret store with references. *)
From Verif Require Export SpecStoreHeap StoreFacts.
Local Open Scope Z_scope.

(** ** Slices *)
Lemma readsl_lookup h s b i : hArr h !! slArr s = Some b ->
  readsl h s !! i = if decide (i < slLen s)%nat then b !! (slOff s + i)%nat else None.
Proof.
  intros E. unfold readsl. rewrite E. cbn [from_option id]. case_decide as H.
  - rewrite lookup_take by assumption. apply lookup_drop.
  - apply lookup_take_ge. lia.
Qed.
Lemma readsl_length h s : inb h s -> length (readsl h s) = slLen s.
Proof. intros (b & E & H). unfold readsl. rewrite E. cbn [from_option id]. rewrite take_length, drop_length. lia. Qed.
Lemma bxor_same x : bxor x x = x00.
Proof. unfold bxor. rewrite Z.lxor_nilpotent. reflexivity. Qed.

Lemma zero_sl_arr h s a : hArr (zero_sl h s) !! a =
  if decide (a = slArr s)
  then imap (fun i x => if decide (slOff s <= i < slOff s + slLen s)%nat then x00 else x) <$> hArr h !! a
  else hArr h !! a.
Proof.
  unfold zero_sl. destruct (hArr h !! slArr s) as [b|] eqn:E.
  - cbn [set_arr hArr]. case_decide as H.
    + subst a. rewrite lookup_insert, E. cbn. f_equal. apply imap_ext. intros i x _. case_decide; [apply bxor_same|reflexivity].
    + apply lookup_insert_ne. congruence.
  - case_decide as H; [|reflexivity]. subst a. rewrite E. reflexivity.
Qed.
Lemma zero_sl_rest h s : hMap (zero_sl h s) = hMap h /\ hRec (zero_sl h s) = hRec h.
Proof. unfold zero_sl. destruct (hArr h !! slArr s); auto. Qed.
Lemma inb_zero h s s' : inb (zero_sl h s) s' <-> inb h s'.
Proof.
  unfold inb. rewrite zero_sl_arr. case_decide; [|tauto]. destruct (hArr h !! slArr s') as [b|]; cbn.
  - split; intros (b' & [= <-] & H'); eexists; (split; [reflexivity|]); rewrite imap_length in *; assumption.
  - split; intros (? & [=] & _).
Qed.
(** The byte at [i] of [s'] after wiping [s]: zero if both windows meet there. *)
Lemma readsl_zero h s s' i x : inb h s' -> readsl (zero_sl h s) s' !! i = Some x ->
  (slArr s' = slArr s /\ (slOff s <= slOff s' + i < slOff s + slLen s)%nat /\ x = x00) \/
  (~ (slArr s' = slArr s /\ (slOff s <= slOff s' + i < slOff s + slLen s)%nat) /\ readsl h s' !! i = Some x).
Proof.
  intros (b & E & H). rewrite (readsl_lookup h s' b i E).
  assert (hArr (zero_sl h s) !! slArr s' = Some (if decide (slArr s' = slArr s)
    then imap (fun i x => if decide (slOff s <= i < slOff s + slLen s)%nat then x00 else x) b else b)) as E'.
  { rewrite zero_sl_arr. case_decide; rewrite E; reflexivity. }
  rewrite (readsl_lookup _ s' _ i E'). destruct (decide (i < slLen s')%nat) as [Hi|Hi]; [|discriminate].
  destruct (decide (slArr s' = slArr s)) as [Ha|Ha].
  - rewrite list_lookup_imap. destruct (b !! (slOff s' + i)%nat) as [y|]; [|discriminate]. cbn [fmap option_fmap option_map].
    case_decide as Hr; intros [= <-]; [left; auto|right; split; [tauto|reflexivity]].
  - intros Hx. right. split; [tauto|assumption].
Qed.
Lemma readsl_zero_length h s s' : inb h s' -> length (readsl (zero_sl h s) s') = slLen s'.
Proof. intros H. apply readsl_length. apply inb_zero. assumption. Qed.

Lemma h_zero_inb l : forall h s, inb (h_zero l h) s <-> inb h s.
Proof. induction l as [|x l IH]; intros h s; [tauto|]. cbn [h_zero fold_left]. change (fold_left zero_sl l ?h) with (h_zero l h). rewrite IH. apply inb_zero. Qed.
Lemma h_zero_rest l : forall h, hMap (h_zero l h) = hMap h /\ hRec (h_zero l h) = hRec h.
Proof.
  induction l as [|x l IH]; intros h; [auto|]. cbn [h_zero fold_left]. destruct (IH (zero_sl h x)) as [A B].
  destruct (zero_sl_rest h x) as [A' B']. unfold h_zero in *. rewrite A, B. auto.
Qed.
(** Pointwise effect: zero where some wiped slice shows the byte, unchanged elsewhere. *)
Lemma h_zero_read l : forall h s i x, inb h s -> readsl (h_zero l h) s !! i = Some x ->
  ((exists t, t ∈ l /\ slArr s = slArr t /\ (slOff t <= slOff s + i < slOff t + slLen t)%nat) /\ x = x00) \/
  ((forall t, t ∈ l -> ~ (slArr s = slArr t /\ (slOff t <= slOff s + i < slOff t + slLen t)%nat)) /\ readsl h s !! i = Some x).
Proof.
  induction l as [|y l IH]; intros h s i x I H.
  { right. split; [|assumption]. intros t Ht. inversion Ht. }
  cbn [h_zero fold_left] in H. apply IH in H; [|apply inb_zero; assumption].
  destruct H as [[(t & Ht & Hc) ->]|[N H]].
  - left. split; [|reflexivity]. exists t. split; [right; assumption|assumption].
  - apply readsl_zero in H; [|assumption]. destruct H as [(A & B & ->)|[N' H]].
    + left. split; [|reflexivity]. exists y. split; [left|auto].
    + right. split; [|assumption]. intros t Ht. apply elem_of_cons in Ht as [->|Ht]; auto.
Qed.
Lemma h_zero_wipes l h s : inb h s -> s ∈ l -> readsl (h_zero l h) s = zero (readsl h s).
Proof.
  intros I Hin. rewrite zero_zeros. rewrite readsl_length by assumption.
  assert (length (readsl (h_zero l h) s) = slLen s) as Ln by (apply readsl_length, h_zero_inb; assumption).
  apply list_eq. intros i. unfold zeros. destruct (decide (i < slLen s)%nat) as [Hi|Hi].
  - rewrite lookup_replicate_2 by assumption. destruct (lookup_lt_is_Some_2 (readsl (h_zero l h) s) i) as [x E]; [lia|].
    rewrite E. f_equal. destruct (h_zero_read l h s i x I E) as [[_ ->]|[N _]]; [reflexivity|].
    exfalso. apply (N s Hin). split; [reflexivity|lia].
  - rewrite !lookup_ge_None_2; [reflexivity|rewrite replicate_length; lia|lia].
Qed.

(** ** Wiping a store *)
Lemma in_meta_slices h l m k s : hMap h !! l = Some m -> m !! k = Some (Some s) -> s ∈ meta_slices h l.
Proof.
  intros E H. unfold meta_slices. rewrite E. cbn [from_option id]. apply elem_of_list_omap.
  exists (k, Some s). split; [apply elem_of_map_to_list; assumption|reflexivity].
Qed.
Lemma in_store_slices h s m k l r x : hsRecs s = Some m -> m !! k = Some (Some l) -> hRec h !! l = Some r ->
  x ∈ rec_slices h r -> x ∈ store_slices h s.
Proof.
  intros E H Hr Hx. unfold store_slices. rewrite E. cbn [from_option id]. apply elem_of_app. left.
  apply elem_of_list_In. apply in_flat_map. exists (k, Some l). split.
  - apply elem_of_list_In. apply elem_of_map_to_list. assumption.
  - cbn [snd]. rewrite Hr. apply elem_of_list_In. assumption.
Qed.
Lemma rec_view_zero l h r : wf_rec h r -> (forall x, x ∈ rec_slices h r -> x ∈ l) ->
  rec_view (h_zero l h) r = rec_zero (rec_view h r).
Proof.
  intros [W1 W2] H. unfold rec_view, rec_zero. cbn [rLabel rTime rSecret rMeta]. f_equal.
  - destruct (hSecret r) as [s|] eqn:E; [|reflexivity]. cbn [osl option_map]. f_equal. apply h_zero_wipes; [auto|].
    apply H. unfold rec_slices. rewrite E. left.
  - destruct (hMeta r) as [ml|] eqn:E; [|reflexivity]. cbn [option_map]. f_equal.
    destruct (W2 ml eq_refl) as (m & Em & Hm). unfold meta_view. destruct (h_zero_rest l h) as [-> _]. rewrite Em. cbn [from_option id].
    apply map_eq. intros k. rewrite !lookup_fmap. destruct (m !! k) as [[s|]|] eqn:Ek; cbn; auto.
    do 2 f_equal. apply h_zero_wipes; [apply (Hm k _ Ek); reflexivity|].
    apply H. unfold rec_slices. rewrite E. apply elem_of_app. right. eapply in_meta_slices; eauto.
Qed.
Lemma zero_refines l h s : wf_store h s -> l ≡ₚ store_slices h s -> view (h_zero l h) s = store_zero (view h s).
Proof.
  intros [W1 W2] P. unfold view, store_zero. cbn [sVersion sTime sRecs sPass]. f_equal.
  - destruct (hsRecs s) as [m|] eqn:E; [|reflexivity]. cbn [option_map]. f_equal. apply map_eq. intros k.
    rewrite !lookup_fmap. destruct (m !! k) as [[p|]|] eqn:Ek; cbn; auto. f_equal.
    destruct (W2 m k (Some p) eq_refl Ek p eq_refl) as (r & Er & Wr).
    destruct (h_zero_rest l h) as [_ ->]. rewrite Er. cbn [option_map]. f_equal. apply rec_view_zero; [assumption|].
    intros x Hx. rewrite P. eapply in_store_slices; eauto.
  - destruct (hPass s) as [p|] eqn:E; [|reflexivity]. cbn [osl option_map]. f_equal. apply h_zero_wipes; [auto|].
    rewrite P. unfold store_slices. rewrite E. apply elem_of_app. right. left.
Qed.

(** ** Adding *)
Lemma view_valid h s : store_valid (view h s) = h_valid s.
Proof.
  unfold store_valid, h_valid. cbn [view sVersion sTime sRecs sPass]. f_equal; [f_equal|].
  - apply bool_decide_ext. destruct (hsRecs s); cbn; split; congruence.
  - apply bool_decide_ext. destruct (hPass s); cbn; split; congruence.
Qed.
Lemma view_recs h s : recs (view h s) = ptr_view h <$> hrecs s.
Proof. unfold recs, hrecs, view. cbn [sRecs]. destruct (hsRecs s); cbn [option_map from_option id]; [reflexivity|]. rewrite fmap_empty. reflexivity. Qed.
Lemma view_has h s k : store_has (view h s) k = h_has s k.
Proof. unfold store_has, h_has. rewrite view_recs, lookup_fmap. apply bool_decide_ext. apply fmap_is_Some. Qed.
Lemma fresh_rec_view h r l p : l = fresh (dom (hRec h)) -> p <> Some l ->
  ptr_view (Heap (hArr h) (hMap h) (<[l := r]> (hRec h))) p = ptr_view h p.
Proof.
  intros -> N. destruct p as [q|]; [|reflexivity]. unfold ptr_view. cbn [hRec]. rewrite lookup_insert_ne by congruence.
  destruct (hRec h !! q); reflexivity.
Qed.
Lemma add_refines now h s name sec md b s' h' : wf_store h s ->
  h_add now h s name sec md = Ret (b, s', h') ->
  add_record now (view h s) name (osl (readsl h) sec) (option_map (meta_view h) md) = Ret (b, view h' s') /\
  hArr h' = hArr h /\ hMap h' = hMap h.
Proof.
  intros [_ W]. unfold h_add, add_record. rewrite view_valid, view_has.
  destruct (h_valid s); cbn [negb]; [|intros [= <- <- <-]; auto].
  destruct (h_has s name); [intros [= <- <- <-]; auto|].
  unfold h_set, set_rec. cbn [view sRecs sVersion sTime sPass]. destruct (hsRecs s) as [m|] eqn:E; [|discriminate].
  cbn [obind option_map]. intros [= <- <- <-]. split; [|auto]. do 2 f_equal.
  unfold view. cbn [hVersion hsTime hsRecs hPass option_map]. f_equal. f_equal.
  apply map_eq. intros k. rewrite lookup_fmap. destruct (decide (k = name)) as [->|N].
  - rewrite !lookup_insert. cbn. rewrite lookup_insert. reflexivity.
  - rewrite !lookup_insert_ne by congruence. rewrite lookup_fmap. destruct (m !! k) as [p|] eqn:Ek; cbn [fmap option_fmap option_map]; [|reflexivity].
    f_equal. symmetry. apply fresh_rec_view; [reflexivity|]. intros ->.
    destruct (W m k _ eq_refl Ek _ eq_refl) as (r & Er & _).
    apply (is_fresh (dom (hRec h))). apply elem_of_dom. eauto.
Qed.
(** Whatever the callers do later to arrays and maps, the record shows it. *)
Lemma add_aliases now h s name sec md s' h' : h_add now h s name sec md = Ret (true, s', h') ->
  forall h2, hRec h2 = hRec h' ->
    holds (view h2 s') name (SRec name now (osl (readsl h2) sec) (option_map (meta_view h2) md)).
Proof.
  unfold h_add. destruct (h_valid s); cbn [negb]; [|discriminate]. destruct (h_has s name); [discriminate|].
  unfold h_set. destruct (hsRecs s) as [m|]; [|discriminate]. cbn [obind]. intros [= <- <-] h2 E2.
  eexists. split; [reflexivity|]. rewrite lookup_fmap, lookup_insert. cbn [fmap option_fmap option_map ptr_view].
  rewrite E2. cbn [hRec]. rewrite lookup_insert. reflexivity.
Qed.
Lemma add_wf now h s name sec md b s' h' : wf_store h s -> inbo h sec -> wf_meta h md ->
  h_add now h s name sec md = Ret (b, s', h') -> wf_store h' s'.
Proof.
  intros [W1 W2] Ws Wm. unfold h_add. destruct (h_valid s); cbn [negb]; [|intros [= <- <- <-]; split; assumption].
  destruct (h_has s name); [intros [= <- <- <-]; split; assumption|].
  unfold h_set. destruct (hsRecs s) as [m|] eqn:E; [|discriminate]. cbn [obind]. intros [= <- <- <-]. split; [exact W1|].
  intros m' k p [= <-] Hk l ->. cbn [hRec]. destruct (decide (k = name)) as [->|N].
  - rewrite lookup_insert in Hk. injection Hk as <-. rewrite lookup_insert. eexists. split; [reflexivity|]. split; assumption.
  - rewrite lookup_insert_ne in Hk by congruence. destruct (W2 m k _ eq_refl Hk l eq_refl) as (r & Er & Wr).
    exists r. split; [|exact Wr]. rewrite lookup_insert_ne; [assumption|]. intros <-.
    apply (is_fresh (dom (hRec h))). apply elem_of_dom. eauto.
Qed.
(** Wiping the store wipes what the caller handed in. *)
Lemma add_zero_wipes_caller now h s name sec md s' h' l x : wf_store h s -> inbo h (Some sec) -> wf_meta h md ->
  h_add now h s name (Some sec) md = Ret (true, s', h') -> l ≡ₚ store_slices h' s' ->
  x = sec \/ (exists ml m k, md = Some ml /\ hMap h !! ml = Some m /\ m !! k = Some (Some x)) ->
  readsl (h_zero l h') x = zero (readsl h x).
Proof.
  intros W Ws Wm E P Hx. pose proof (add_wf _ _ _ _ _ _ _ _ _ W Ws Wm E) as W'.
  destruct (add_refines _ _ _ _ _ _ _ _ _ W E) as (_ & Ea & Em).
  assert (inb h x) as Ix.
  { destruct Hx as [->|(ml & m & k & -> & Hm & Hk)]; [apply Ws; reflexivity|].
    destruct (Wm ml eq_refl) as (m0 & E0 & H0). rewrite Hm in E0. injection E0 as <-. eapply H0; eauto. }
  assert (readsl h' x = readsl h x) as <- by (unfold readsl; rewrite Ea; reflexivity).
  apply h_zero_wipes; [unfold inb; rewrite Ea; exact Ix|]. rewrite P.
  revert E. unfold h_add. destruct (h_valid s); cbn [negb]; [|discriminate]. destruct (h_has s name); [discriminate|].
  unfold h_set. destruct (hsRecs s) as [m|]; [|discriminate]. cbn [obind]. intros [= <- <-].
  eapply in_store_slices; [reflexivity|apply lookup_insert|apply lookup_insert|].
  unfold rec_slices. cbn [hSecret hMeta option_list]. destruct Hx as [->|(ml & m' & k & -> & Hm & Hk)]; [left|].
  right. eapply in_meta_slices; eauto.
Qed.

(** ** Updating *)
Lemma update_refines now h s name sec b h' : wf_store h s -> inbo h sec ->
  (forall m k l, hsRecs s = Some m -> m !! name = Some (Some l) -> m !! k = Some (Some l) -> k = name) ->
  h_update now h s name sec = Ret (b, h') ->
  update_secret now (view h s) name (osl (readsl h) sec) = Ret (b, view h' s) /\ hArr h' = hArr h /\ hMap h' = hMap h.
Proof.
  intros W Ws U. unfold h_update, update_secret. rewrite view_recs, lookup_fmap.
  unfold hrecs. destruct (hsRecs s) as [m|] eqn:E; cbn [from_option id].
  2:{ rewrite lookup_empty. cbn. intros [= <- <-]. auto. }
  destruct (m !! name) as [[l|]|] eqn:Ek; cbn [fmap option_fmap option_map ptr_view]; [|discriminate|intros [= <- <-]; auto].
  destruct (hRec h !! l) as [r|] eqn:Er; [|discriminate]. intros [= <- <-]. cbn [option_map]. split; [|auto].
  unfold set_rec. cbn [view sRecs sVersion sTime sPass]. rewrite E. cbn [option_map obind]. do 2 f_equal.
  unfold view. cbn [hVersion hsTime hPass]. rewrite E. cbn [option_map]. f_equal. f_equal.
  apply map_eq. intros k. rewrite lookup_fmap. destruct (decide (k = name)) as [->|N].
  - rewrite lookup_insert, Ek. cbn. rewrite lookup_insert. reflexivity.
  - rewrite lookup_insert_ne by congruence. rewrite lookup_fmap. destruct (m !! k) as [[q|]|] eqn:Eq; cbn; auto.
    rewrite lookup_insert_ne; [destruct (hRec h !! q); reflexivity|]. intros <-. apply N. eauto.
Qed.
Lemma update_shared now h s o name sec h' l ms mo : hsRecs s = Some ms -> hsRecs o = Some mo ->
  ms !! name = Some (Some l) -> mo !! name = Some (Some l) ->
  h_update now h s name sec = Ret (true, h') ->
  exists r, holds (view h o) name r /\ holds (view h' o) name (SRec (rLabel r) now (osl (readsl h) sec) (rMeta r)).
Proof.
  intros Es Eo Hs Ho. unfold h_update, hrecs. rewrite Es. cbn [from_option id]. rewrite Hs.
  destruct (hRec h !! l) as [r|] eqn:Er; [|discriminate]. intros [= <-]. exists (rec_view h r). split.
  - exists (ptr_view h <$> mo). unfold view. cbn [sRecs]. rewrite Eo. split; [reflexivity|]. rewrite lookup_fmap, Ho. cbn. rewrite Er. reflexivity.
  - eexists. unfold view. cbn [sRecs]. rewrite Eo. split; [reflexivity|]. rewrite lookup_fmap, Ho. cbn. rewrite lookup_insert. reflexivity.
Qed.

(** ** Merging *)
Lemma merge_loop_refines h order : forall s acc,
  merge_loop (prod_map id (ptr_view h) <$> order) (view h s) acc =
  match h_merge_loop h order s acc with Ret (s', l) => Ret (view h s', l) | Panic => Panic end.
Proof.
  induction order as [|[k v] order IH]; intros s acc; [reflexivity|].
  cbn [fmap list_fmap prod_map id fst snd merge_loop h_merge_loop]. rewrite view_recs, lookup_fmap.
  assert (forall v' acc', 
    (let! s' := set_rec (view h s) k (ptr_view h v') in merge_loop (prod_map id (ptr_view h) <$> order) s' acc') =
    match (let! s' := h_set s k v' in h_merge_loop h order s' acc') with Ret (s', l) => Ret (view h s', l) | Panic => Panic end) as G.
  { intros v' acc'. unfold set_rec, h_set. cbn [view sRecs sVersion sTime sPass].
    destruct (hsRecs s) as [m|] eqn:E; cbn [option_map obind]; [|reflexivity]. rewrite <- fmap_insert.
    exact (IH (HStore (hVersion s) (hsTime s) (Some (<[k := v']> m)) (hPass s)) acc'). }
  assert (forall v' : option nat,
     (let! s' := set_rec (view h s) k (ptr_view h v') in
      match ptr_view h v' with Some r => merge_loop (prod_map id (ptr_view h) <$> order) s' (acc ++ [rLabel r]) | None => Panic end) =
     match (let! s' := h_set s k v' in
      match ptr_view h v' with Some r => h_merge_loop h order s' (acc ++ [rLabel r]) | None => Panic end) with Ret (s', l) => Ret (view h s', l) | Panic => Panic end) as G2.
  { intros v'. destruct (ptr_view h v') as [r|] eqn:Ev.
    - specialize (G v' (acc ++ [rLabel r])). rewrite Ev in G. exact G.
    - unfold set_rec, h_set. cbn [view sRecs]. destruct (hsRecs s); reflexivity. }
  destruct (hrecs s !! k) as [r|]; cbn [fmap option_fmap option_map].
  - unfold rec_merge. destruct (ptr_view h r) as [a|] eqn:Ea; [|reflexivity]. destruct (ptr_view h v) as [b|] eqn:Eb; [|reflexivity].
    case_decide; cbn [obind fst snd].
    + rewrite <- Ea. apply G.
    + pose proof (G2 v) as G3. rewrite Eb in G3. rewrite ?Eb. exact G3.
  - cbn [obind fst snd]. apply G2.
Qed.
Lemma merge_refines now h order s :
  store_merge now (prod_map id (ptr_view h) <$> order) (view h s) =
  match h_merge now h order s with Ret (s', l) => Ret (view h s', l) | Panic => Panic end.
Proof.
  unfold store_merge, h_merge. rewrite merge_loop_refines. destruct (h_merge_loop h order s []) as [[s' l]|]; reflexivity.
Qed.
Lemma merge_order_view h o order : order ≡ₚ map_to_list (hrecs o) ->
  prod_map id (ptr_view h) <$> order ≡ₚ map_to_list (recs (view h o)).
Proof. intros P. rewrite view_recs, map_to_list_fmap. apply fmap_Permutation. assumption. Qed.

Lemma h_merge_loop_ptr h order : forall s acc s' out, NoDup order.*1 -> h_merge_loop h order s acc = Ret (s', out) ->
  (forall k, k ∉ order.*1 -> hrecs s' !! k = hrecs s !! k) /\
  (forall k v, (k, v) ∈ order ->
     (forall p, hrecs s !! k = Some p -> exists a b, ptr_view h p = Some a /\ ptr_view h v = Some b /\ rTime a < rTime b) ->
     hrecs s' !! k = Some v).
Proof.
  induction order as [|[k v] order IH]; intros s acc s' out ND.
  { cbn. intros [= <- <-]. split; auto. intros ? ? Hin. inversion Hin. }
  cbn [fmap list_fmap fst] in ND. apply NoDup_cons in ND as [Nk ND]. cbn [h_merge_loop].
  intros H. assert (exists v' acc' s1, h_set s k v' = Ret s1 /\ h_merge_loop h order s1 acc' = Ret (s', out) /\
    ((forall p, hrecs s !! k = Some p -> exists a b, ptr_view h p = Some a /\ ptr_view h v = Some b /\ rTime a < rTime b) -> v' = v)) as (v' & acc' & s1 & E1 & E2 & E3).
  { destruct (hrecs s !! k) as [p|].
    - destruct (ptr_view h p) as [a|] eqn:Ea; [|discriminate]. destruct (ptr_view h v) as [b|] eqn:Eb; [|discriminate].
      case_decide as T; cbn [obind fst snd] in H.
      + destruct (h_set s k p) as [s1|] eqn:E1; [|discriminate]. cbn [obind] in H. exists p, acc, s1. split_and!; auto.
        intros G. destruct (G p eq_refl) as (a' & b' & F1 & F2 & F3). rewrite Ea in F1. injection F1 as <-. injection F2 as <-. lia.
      + destruct (h_set s k v) as [s1|] eqn:E1; [|discriminate]. cbn [obind] in H. rewrite Eb in H. eauto 10.
    - cbn [obind fst snd] in H. destruct (h_set s k v) as [s1|] eqn:E1; [|discriminate]. cbn [obind] in H.
      destruct (ptr_view h v); [|discriminate]. eauto 10. }
  unfold h_set in E1. destruct (hsRecs s) as [m|] eqn:Em; [|discriminate]. injection E1 as <-.
  assert (hrecs s = m) as -> by (unfold hrecs; rewrite Em; reflexivity).
  apply IH in E2 as [H1 H2]; [|assumption]. unfold hrecs at 2 in H1. cbn [hsRecs from_option id] in H1.
  split.
  - intros k0 Hk. cbn [fmap list_fmap fst] in Hk. apply not_elem_of_cons in Hk as [Hk1 Hk2].
    rewrite H1 by assumption. apply lookup_insert_ne. congruence.
  - intros k0 v0 Hin G. apply elem_of_cons in Hin as [[= -> ->]|Hin].
    + rewrite H1 by assumption. rewrite lookup_insert. f_equal. apply E3.
      assert (hrecs s = m) as -> by (unfold hrecs; rewrite Em; reflexivity). exact G.
    + apply H2; [assumption|]. unfold hrecs. cbn [hsRecs from_option id]. rewrite lookup_insert_ne; [exact G|].
      intros <-. apply Nk. apply elem_of_list_fmap. exists (k, v0). auto.
Qed.
Lemma merge_shares now h order s o s' out k r : order ≡ₚ map_to_list (hrecs o) ->
  no_nil (view h s) -> h_merge now h order s = Ret (s', out) -> taken (view h s) (view h o) k r ->
  exists l hr, hrecs s' !! k = Some (Some l) /\ hrecs o !! k = Some (Some l) /\ hRec h !! l = Some hr /\ rec_view h hr = r.
Proof.
  intros P N E [(mo & Eo & Ho) T]. unfold h_merge in E. destruct (h_merge_loop h order s []) as [[s1 l1]|] eqn:E1; [|discriminate].
  cbn [obind fst snd] in E. injection E as <- <-.
  assert (NoDup order.*1) as ND by (rewrite P; apply NoDup_fst_map_to_list).
  destruct (h_merge_loop_ptr h order s [] s1 l1 ND E1) as [_ H].
  assert (recs (view h o) !! k = Some (Some r)) as Hr by (rewrite (recs_some _ mo Eo); assumption).
  rewrite view_recs, lookup_fmap in Hr. destruct (hrecs o !! k) as [p|] eqn:Ep; [|discriminate].
  cbn in Hr. injection Hr as Hr. destruct p as [l|]; [|discriminate]. cbn in Hr.
  destruct (hRec h !! l) as [hr|] eqn:El; [|discriminate]. cbn in Hr. injection Hr as Hr.
  exists l, hr. split_and!; auto. change (hrecs s1 !! k = Some (Some l)). apply H.
  - rewrite P. apply elem_of_map_to_list. assumption.
  - intros p Hp. destruct N as (m & Em & Hm).
    assert (recs (view h s) !! k = Some (ptr_view h p)) as Hs by (rewrite view_recs, lookup_fmap, Hp; reflexivity).
    rewrite (recs_some _ m Em) in Hs. destruct (ptr_view h p) as [a|] eqn:Ea; [|exfalso; exact (Hm k Hs)].
    exists a, r. split_and!; auto.
    + cbn. rewrite El. cbn. congruence.
    + apply T. exists m. auto.
Qed.
Lemma hrecs_holds h s k l hr : hrecs s !! k = Some (Some l) -> hRec h !! l = Some hr -> holds (view h s) k (rec_view h hr).
Proof.
  unfold hrecs, holds, view. destruct (hsRecs s) as [m|]; cbn [from_option id sRecs option_map]; [|rewrite lookup_empty; discriminate].
  intros H E. eexists. split; [reflexivity|]. rewrite lookup_fmap, H. cbn. rewrite E. reflexivity.
Qed.
Lemma hrecs_some s k p : hrecs s !! k = Some p -> exists m, hsRecs s = Some m /\ m !! k = Some p.
Proof. unfold hrecs. destruct (hsRecs s) as [m|]; cbn [from_option id]; [eauto|]. rewrite lookup_empty. discriminate. Qed.
(** Wiping the other store wipes the records taken from it. *)
Lemma merge_zero_other now h order s o s' out k r l : order ≡ₚ map_to_list (hrecs o) ->
  wf_store h o -> no_nil (view h s) -> h_merge now h order s = Ret (s', out) -> taken (view h s) (view h o) k r ->
  l ≡ₚ store_slices h o -> holds (view (h_zero l h) s') k (rec_zero r).
Proof.
  intros P W N E T Pl. destruct (merge_shares now h order s o s' out k r P N E T) as (p & hr & H1 & H2 & H3 & <-).
  destruct (hrecs_some _ _ _ H2) as (mo & Eo & Hk).
  destruct W as [_ W]. destruct (W mo k _ Eo Hk p eq_refl) as (hr' & E' & Wr). rewrite H3 in E'. injection E' as <-.
  rewrite <- (rec_view_zero l h hr Wr).
  - apply (hrecs_holds _ _ _ p); [assumption|]. destruct (h_zero_rest l h) as [_ ->]. assumption.
  - intros x Hx. rewrite Pl. eapply in_store_slices; eauto.
Qed.
(** ... and updating such a record through one store updates it in the other. *)
Lemma merge_update_shared now now' h order s o s' out k r sec h' : order ≡ₚ map_to_list (hrecs o) ->
  no_nil (view h s) -> h_merge now h order s = Ret (s', out) -> taken (view h s) (view h o) k r ->
  h_update now' h s' k sec = Ret (true, h') ->
  holds (view h' o) k (SRec (rLabel r) now' (osl (readsl h) sec) (rMeta r)).
Proof.
  intros P N E T U. destruct (merge_shares now h order s o s' out k r P N E T) as (p & hr & H1 & H2 & H3 & Hv).
  destruct (hrecs_some _ _ _ H1) as (ms & Es & Hs). destruct (hrecs_some _ _ _ H2) as (mo & Eo & Ho).
  destruct (update_shared now' h s' o k sec h' p ms mo Es Eo Hs Ho U) as (r0 & Hh & Hh').
  assert (r0 = r) as ->; [|assumption].
  destruct Hh as (m1 & F1 & F2). destruct (hrecs_holds h o k p hr H2 H3) as (m2 & G1 & G2). congruence.
Qed.

(** ** Passphrases are copied *)
Lemma alloc_spec b h sl h' : alloc b h = (sl, h') ->
  slArr sl ∉ dom (hArr h) /\ readsl h' sl = b /\ inb h' sl /\ hMap h' = hMap h /\ hRec h' = hRec h /\
  (forall a, a <> slArr sl -> hArr h' !! a = hArr h !! a) /\ hArr h ⊆ hArr h'.
Proof.
  unfold alloc. intros [= <- <-]. cbn [slArr]. pose proof (is_fresh (dom (hArr h))) as F. split_and!; auto.
  - unfold readsl. cbn [slArr slOff slLen set_arr hArr]. rewrite lookup_insert. cbn [from_option id]. rewrite drop_0. apply firstn_all.
  - exists b. cbn [slArr slOff slLen set_arr hArr]. rewrite lookup_insert. split; [reflexivity|lia].
  - intros a Ha. cbn [set_arr hArr]. apply lookup_insert_ne. congruence.
  - cbn [set_arr hArr]. apply insert_subseteq. apply not_elem_of_dom. assumption.
Qed.
Lemma readsl_agree h h' s : hArr h !! slArr s = hArr h' !! slArr s -> readsl h s = readsl h' s.
Proof. intros E. unfold readsl. rewrite E. reflexivity. Qed.
Lemma new_copies now pass h s h' : h_new now pass h = (s, h') ->
  view h' s = new_store now (readsl h pass) /\
  (forall h2, (forall a, a ∉ dom (hArr h) -> hArr h2 !! a = hArr h' !! a) -> sPass (view h2 s) = Some (readsl h pass)).
Proof.
  unfold h_new. destruct (alloc (readsl h pass) h) as [p h1] eqn:A. intros [= <- <-].
  apply alloc_spec in A as (F & R & _ & _ & _ & _ & _). split.
  - unfold view, new_store. cbn [hVersion hsTime hsRecs hPass option_map osl]. rewrite R, fmap_empty. reflexivity.
  - intros h2 G. unfold view. cbn [hPass osl option_map sPass]. f_equal. rewrite <- R. apply readsl_agree. apply G. assumption.
Qed.
Lemma view_arr_agree h h' s : hMap h' = hMap h -> hRec h' = hRec h -> (forall sl, inb h sl -> readsl h' sl = readsl h sl) ->
  (forall m k p, hsRecs s = Some m -> m !! k = Some p -> wf_ptr h p) -> sRecs (view h' s) = sRecs (view h s).
Proof.
  intros Em Er R W. unfold view. cbn [sRecs]. destruct (hsRecs s) as [m|]; [|reflexivity]. cbn [option_map]. f_equal.
  apply map_eq. intros k. rewrite !lookup_fmap. destruct (m !! k) as [[p|]|] eqn:Ek; cbn; auto. f_equal.
  destruct (W m k _ eq_refl Ek p eq_refl) as (r & E & [W1 W2]). rewrite Er, E. cbn [option_map]. f_equal.
  unfold rec_view. f_equal.
  - destruct (hSecret r) as [sl|]; [|reflexivity]. cbn [osl option_map]. f_equal. apply R. apply W1. reflexivity.
  - destruct (hMeta r) as [l|]; [|reflexivity]. cbn [option_map]. f_equal. unfold meta_view. rewrite Em.
    destruct (W2 l eq_refl) as (md & El & Hm). rewrite El. cbn [from_option id]. apply map_eq. intros k'. rewrite !lookup_fmap.
    destruct (md !! k') as [[sl|]|] eqn:Ek'; cbn; auto. do 2 f_equal. apply R. apply (Hm k' _ Ek'). reflexivity.
Qed.
(** The old passphrase shares no byte with a record, as in every store whose
    passphrase came from New, Unmarshal or ChangePassword. *)
Definition pass_private (h : heap) (s : hstore) : Prop :=
  forall p, hPass s = Some p ->
    (forall m k l r x, hsRecs s = Some m -> m !! k = Some (Some l) -> hRec h !! l = Some r -> x ∈ rec_slices h r -> slArr x <> slArr p).
Lemma change_password_copies h s pass s' h' : h_change_password h s pass = (s', h') ->
  exists b, sPass (view h' s') = Some b /\
    (forall p, hPass s = Some p -> slArr p <> slArr pass -> b = readsl h pass) /\ (hPass s = None -> b = readsl h pass) /\
    (forall p, hPass s = Some p -> inb h p -> readsl h' p = zero (readsl h p)) /\
    (forall h2, (forall a, a ∉ dom (hArr h) -> hArr h2 !! a = hArr h' !! a) -> sPass (view h2 s') = Some b).
Proof.
  unfold h_change_password. set (h1 := match hPass s with None => h | Some p => zero_sl h p end).
  destruct (alloc (readsl h1 pass) h1) as [p h2] eqn:A. intros [= <- <-].
  apply alloc_spec in A as (F & R & _ & _ & _ & Fr & _). exists (readsl h1 pass).
  assert (forall a, a ∈ dom (hArr h1) -> a ∈ dom (hArr h)) as Dm.
  { intros a. rewrite !elem_of_dom. subst h1. destruct (hPass s) as [q|]; [|auto]. rewrite zero_sl_arr.
    case_decide; [|auto]. rewrite fmap_is_Some. auto. }
  assert (forall a, a ∈ dom (hArr h) -> a ∈ dom (hArr h1)) as Dm'.
  { intros a. rewrite !elem_of_dom. subst h1. destruct (hPass s) as [q|]; [|auto]. rewrite zero_sl_arr.
    case_decide; [|auto]. rewrite fmap_is_Some. auto. }
  split_and!.
  - unfold view. cbn [hPass osl option_map sPass]. rewrite R. reflexivity.
  - intros q Eq N. subst h1. rewrite Eq. apply readsl_agree. rewrite zero_sl_arr. rewrite decide_False by congruence. reflexivity.
  - intros E. subst h1. rewrite E. reflexivity.
  - intros q Eq I. transitivity (readsl h1 q).
    + apply readsl_agree. apply Fr. intros E. apply F. apply Dm'. rewrite <- E. destruct I as (b & Eb & _). apply elem_of_dom. eauto.
    + subst h1. rewrite Eq. change (zero_sl h q) with (h_zero [q] h). apply h_zero_wipes; [assumption|left].
  - intros h3 G. unfold view. cbn [hPass osl option_map sPass]. f_equal. rewrite <- R. apply readsl_agree. apply G. intros Hin. apply F. apply Dm'. assumption.
Qed.

(** ** Loading allocates everything anew *)
Definition ext (h h' : heap) : Prop := hArr h ⊆ hArr h' /\ hMap h ⊆ hMap h' /\ hRec h ⊆ hRec h'.
Lemma ext_refl h : ext h h. Proof. split_and!; reflexivity. Qed.
Lemma ext_trans a b c : ext a b -> ext b c -> ext a c.
Proof. intros (A1 & A2 & A3) (B1 & B2 & B3). split_and!; etrans; eauto. Qed.
Lemma agree_refl h h' : agree h h' h'. Proof. split_and!; auto. Qed.
Lemma agree_first a b c h2 : ext b c -> agree a c h2 -> agree a b h2.
Proof.
  intros (E1 & E2 & E3) (A1 & A2 & A3). split_and!; intros x v N H;
    [apply A1|apply A2|apply A3]; auto; eapply lookup_weaken; eauto.
Qed.
Lemma agree_second a b c h2 : ext a b -> agree a c h2 -> agree b c h2.
Proof.
  intros (E1 & E2 & E3) (A1 & A2 & A3). split_and!; intros x v N H;
    [apply A1|apply A2|apply A3]; auto; eapply lookup_weaken_None; eauto.
Qed.
Lemma load_opt_spec b h o h' : load_opt b h = (o, h') ->
  ext h h' /\ forall h2, agree h h' h2 -> osl (readsl h2) o = b.
Proof.
  unfold load_opt. destruct b as [b|]; [|intros [= <- <-]; split; [apply ext_refl|reflexivity]].
  destruct (alloc b h) as [sl h1] eqn:A. intros [= <- <-].
  apply alloc_spec in A as (F & R & (x & E & _) & E1 & E2 & _ & E3). split.
  - split_and!; [assumption|rewrite E1; reflexivity|rewrite E2; reflexivity].
  - intros h2 (A & _). cbn [osl option_map]. f_equal. rewrite <- R. apply readsl_agree. rewrite E. apply A; [|assumption].
    apply not_elem_of_dom. assumption.
Qed.
Lemma load_md_spec l : forall h m h', load_md l h = (m, h') ->
  ext h h' /\ forall h2, agree h h' h2 -> osl (readsl h2) <$> m = list_to_map l.
Proof.
  induction l as [|[k b] l IH]; intros h m h'; cbn [load_md].
  { intros [= <- <-]. split; [apply ext_refl|]. intros h2 _. apply fmap_empty. }
  destruct (load_opt b h) as [s h1] eqn:E1. destruct (load_md l h1) as [m' h2] eqn:E2. intros [= <- <-].
  apply load_opt_spec in E1 as [X1 R1]. apply IH in E2 as [X2 R2]. split; [eapply ext_trans; eauto|].
  intros h3 A. rewrite fmap_insert. cbn [list_to_map]. rewrite R2 by (eapply agree_second; eauto).
  rewrite R1 by (eapply agree_first; eauto). reflexivity.
Qed.
Lemma load_meta_spec md h o h' : load_meta md h = (o, h') ->
  ext h h' /\ forall h2, agree h h' h2 -> option_map (meta_view h2) o = md.
Proof.
  unfold load_meta. destruct md as [m|]; [|intros [= <- <-]; split; [apply ext_refl|reflexivity]].
  destruct (load_md (map_to_list m) h) as [m' h1] eqn:E. intros [= <- <-].
  apply load_md_spec in E as [X R]. pose proof (is_fresh (dom (hMap h1))) as F. apply not_elem_of_dom in F.
  assert (ext h1 (Heap (hArr h1) (<[fresh (dom (hMap h1)) := m']> (hMap h1)) (hRec h1))) as X1.
  { split_and!; cbn [hArr hMap hRec]; try reflexivity. apply insert_subseteq. assumption. }
  split; [eapply ext_trans; eauto|].
  intros h2 A. cbn [option_map]. f_equal. unfold meta_view.
  assert (hMap h2 !! fresh (dom (hMap h1)) = Some m') as ->.
  { apply A; [|cbn [hMap]; apply lookup_insert]. eapply lookup_weaken_None; [exact F|]. apply X. }
  cbn [from_option id]. rewrite R by (eapply agree_first; eauto). apply list_to_map_to_list.
Qed.
Lemma load_rec_spec r h o h' : load_rec r h = (o, h') ->
  ext h h' /\ forall h2, agree h h' h2 -> ptr_view h2 o = r.
Proof.
  unfold load_rec. destruct r as [r|]; [|intros [= <- <-]; split; [apply ext_refl|reflexivity]].
  destruct (load_opt (rSecret r) h) as [s h1] eqn:E1. destruct (load_meta (rMeta r) h1) as [md h2] eqn:E2. intros [= <- <-].
  apply load_opt_spec in E1 as [X1 R1]. apply load_meta_spec in E2 as [X2 R2].
  pose proof (is_fresh (dom (hRec h2))) as F. apply not_elem_of_dom in F.
  set (h3 := Heap _ _ _). assert (ext h2 h3) as X3.
  { split_and!; cbn [hArr hMap hRec]; try reflexivity. apply insert_subseteq. assumption. }
  split; [eauto using ext_trans|].
  intros h4 A. cbn [ptr_view].
  assert (hRec h4 !! fresh (dom (hRec h2)) = Some (HRec (rLabel r) (rTime r) s md)) as ->.
  { apply A; [|cbn [hRec]; apply lookup_insert]. eapply lookup_weaken_None; [exact F|]. apply (ext_trans _ _ _ X1 X2). }
  cbn [option_map]. f_equal. unfold rec_view. cbn [hLabel hTime hSecret hMeta].
  rewrite R1 by (eapply agree_first; [|exact A]; eauto using ext_trans).
  rewrite R2 by (eapply agree_first; [exact X3|eapply agree_second; eauto]). destruct r; reflexivity.
Qed.
Lemma load_recs_spec l : forall h m h', load_recs l h = (m, h') ->
  ext h h' /\ forall h2, agree h h' h2 -> ptr_view h2 <$> m = list_to_map l.
Proof.
  induction l as [|[k b] l IH]; intros h m h'; cbn [load_recs].
  { intros [= <- <-]. split; [apply ext_refl|]. intros h2 _. apply fmap_empty. }
  destruct (load_rec b h) as [s h1] eqn:E1. destruct (load_recs l h1) as [m' h2] eqn:E2. intros [= <- <-].
  apply load_rec_spec in E1 as [X1 R1]. apply IH in E2 as [X2 R2]. split; [eapply ext_trans; eauto|].
  intros h3 A. rewrite fmap_insert. cbn [list_to_map]. rewrite R2 by (eapply agree_second; eauto).
  rewrite R1 by (eapply agree_first; eauto). reflexivity.
Qed.
Lemma h_load_spec s h hs h' : h_load s h = (hs, h') ->
  ext h h' /\ forall h2, agree h h' h2 -> view h2 hs = s.
Proof.
  unfold h_load. destruct (match sRecs s with None => _ | Some m => _ end) as [m h1] eqn:E.
  destruct (load_opt (sPass s) h1) as [p h2] eqn:E2. intros [= <- <-].
  apply load_opt_spec in E2 as [X2 R2].
  assert (ext h h1 /\ forall h2, agree h h1 h2 -> option_map (fmap (ptr_view h2)) m = sRecs s) as [X1 R1].
  { destruct (sRecs s) as [mm|]; [|injection E as <- <-; split; [apply ext_refl|reflexivity]].
    destruct (load_recs (map_to_list mm) h) as [m' h'] eqn:E'. injection E as <- <-. apply load_recs_spec in E' as [X R].
    split; [assumption|]. intros h3 A. cbn [option_map]. rewrite R by assumption. rewrite list_to_map_to_list. reflexivity. }
  split; [eapply ext_trans; eauto|]. intros h3 A. unfold view. cbn [hVersion hsTime hsRecs hPass].
  rewrite R1 by (eapply agree_first; eauto). rewrite R2 by (eapply agree_second; eauto). destruct s; reflexivity.
Qed.

Section WithCrypto.
Context {C : Crypto}.
Lemma unmarshal_copies h input pass m s h' : h_unmarshal h input pass m = Ret (Some (s, h')) ->
  exists v, unmarshal_store (readsl h input) (readsl h pass) m = Ret (Some v) /\
    forall h2, agree h h' h2 -> view h2 s = v.
Proof.
  unfold h_unmarshal. destruct (unmarshal_store _ _ _) as [[v|]|]; cbn [obind option_map]; try discriminate.
  intros E. injection E as E. exists v. split; [reflexivity|]. apply h_load_spec in E as [_ H]. exact H.
Qed.
Lemma h_marshal_wipes {L : CryptoLaws} l h s m g out h' g' : wf_store h s -> l ≡ₚ store_slices h s ->
  h_marshal l h s m g = Ret (out, h', g') ->
  (out = None -> h' = h) /\
  (forall x, out <> None -> x ∈ store_slices h s -> inb h x -> readsl h' x = zero (readsl h x)).
Proof.
  intros W P. unfold h_marshal. destruct (marshal_store _ _ _) as [[[o v] g1]|]; [|discriminate]. cbn [obind].
  intros [= <- <- <-]. destruct o as [o|]; split; try congruence.
  intros x _ Hx I. apply h_zero_wipes; [assumption|]. rewrite P. assumption.
Qed.
End WithCrypto.
