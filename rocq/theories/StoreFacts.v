(** Facts about the secret store. *)
From Verif Require Export SpecStore Utf8Facts SecretFacts.
Local Open Scope Z_scope.

(** ** Elementary operations *)
Lemma store_valid_iff s : store_valid s = true <-> sound s.
Proof.
  unfold store_valid, sound, SecretStoreVersion. rewrite !andb_true_iff, !bool_decide_eq_true. tauto.
Qed.
Lemma store_has_iff s k : store_has s k = true <-> present s k.
Proof.
  unfold store_has, present, recs. rewrite bool_decide_eq_true. destruct (sRecs s) as [m|]; cbn [from_option id].
  - split; [intros [v H]; eauto|]. intros (m' & v & [= <-] & H). eauto.
  - rewrite lookup_empty. split; [intros [? [=]]|]. intros (? & ? & [=] & _).
Qed.
Lemma recs_some s m : sRecs s = Some m -> recs s = m.
Proof. unfold recs. intros ->. reflexivity. Qed.

Lemma describes_recs M s : describes M s -> exists m, sRecs s = Some m /\ recs s = m /\ forall k, m !! k = Some <$> M !! k.
Proof. intros (m & E & H). exists m. rewrite (recs_some s m E). auto. Qed.
Lemma describes_at M s k : describes M s -> at_label s k (M !! k).
Proof.
  intros (m & E & H). unfold at_label, holds, present. specialize (H k).
  destruct (M !! k); cbn in H; [eauto|]. intros (m' & v & E' & H'). congruence.
Qed.
Lemma describes_holds M s k r : describes M s -> holds s k r <-> M !! k = Some r.
Proof.
  intros (m & E & H). unfold holds. specialize (H k). split.
  - intros (m' & E' & H'). rewrite E in E'. injection E' as <-. rewrite H' in H. destruct (M !! k); cbn in H; congruence.
  - intros H'. exists m. rewrite H, H'. auto.
Qed.
Lemma describes_present M s k : describes M s -> present s k <-> is_Some (M !! k).
Proof.
  intros (m & E & H). unfold present. specialize (H k). split.
  - intros (m' & v & E' & H'). rewrite E in E'. injection E' as <-. rewrite H' in H. destruct (M !! k); cbn in H; [eauto|congruence].
  - intros [r H']. exists m, (Some r). rewrite H, H'. auto.
Qed.
Definition unptr (m : gmap bytes (option srec)) : gmap bytes srec := omap (fun x => x) m.
Lemma no_nil_describes s : no_nil s <-> exists M, describes M s.
Proof.
  split.
  - intros (m & E & H). exists (unptr m), m. split; [assumption|]. intros k. unfold unptr. rewrite lookup_omap.
    specialize (H k). destruct (m !! k) as [[r|]|]; cbn; congruence.
  - intros (M & m & E & H). exists m. split; [assumption|]. intros k. rewrite H. destruct (M !! k); cbn; congruence.
Qed.

Lemma describes_insert M s m k r : sRecs s = Some m -> describes M s ->
  describes (<[k := r]> M) (SStore (sVersion s) (sTime s) (Some (<[k := Some r]> m)) (sPass s)).
Proof.
  intros E (m' & E' & H). rewrite E in E'. injection E' as <-. eexists. split; [reflexivity|]. intros q.
  destruct (decide (q = k)) as [->|N]; [rewrite !lookup_insert; reflexivity|]. rewrite !lookup_insert_ne by congruence. apply H.
Qed.

Lemma add_record_exact now s name sec md :
  (sound s -> ~ present s name ->
     exists m, sRecs s = Some m /\
       add_record now s name sec md =
         Ret (true, SStore (sVersion s) (sTime s) (Some (<[name := Some (SRec name now sec md)]> m)) (sPass s))) /\
  (~ sound s \/ present s name -> add_record now s name sec md = Ret (false, s)).
Proof.
  unfold add_record. rewrite <- store_valid_iff, <- store_has_iff. split.
  - intros V H. destruct (store_has s name) eqn:E; [congruence|].
    destruct (sRecs s) as [m|] eqn:Em; [|apply store_valid_iff in V; destruct V as (_ & _ & V & _); congruence].
    exists m. split; [reflexivity|]. rewrite V. cbn [negb]. unfold set_rec. rewrite Em. reflexivity.
  - intros [H|H].
    + destruct (store_valid s); [congruence|]. reflexivity.
    + rewrite H. destruct (store_valid s); reflexivity.
Qed.
Lemma update_secret_exact now s name sec :
  (forall r, holds s name r -> exists m, sRecs s = Some m /\
      update_secret now s name sec =
        Ret (true, SStore (sVersion s) (sTime s) (Some (<[name := Some (SRec (rLabel r) now sec (rMeta r))]> m)) (sPass s))) /\
  (~ present s name -> update_secret now s name sec = Ret (false, s)) /\
  (update_secret now s name sec = Panic <-> exists m, sRecs s = Some m /\ m !! name = Some None).
Proof.
  unfold update_secret, holds, present, recs, set_rec. split_and!.
  - intros r (m & E & H). exists m. split; [assumption|]. rewrite E. cbn [from_option id]. rewrite H. reflexivity.
  - intros H. destruct (sRecs s) as [m|]; cbn [from_option id]; [|rewrite lookup_empty; reflexivity].
    destruct (m !! name) as [v|] eqn:E; [|reflexivity]. exfalso. eauto.
  - destruct (sRecs s) as [m|]; cbn [from_option id].
    + destruct (m !! name) as [[r|]|] eqn:E; cbn [obind]; (split; [try discriminate|intros (m' & [= <-] & H); congruence]). eauto.
    + rewrite lookup_empty. split; [discriminate|]. intros (? & ? & ?). discriminate.
Qed.

(** *** Histories *)
Definition store_op (o : sop) (s : sstore) : outcome (bool * sstore) :=
  match o with
  | OAdd now n sec md => add_record now s n sec md
  | OUpdate now n sec => update_secret now s n sec
  | ODelete n => Ret (true, del_rec s n)
  | OPassword p => Ret (true, change_password s p)
  end.
Fixpoint store_ops (h : list sop) (s : sstore) : outcome sstore :=
  match h with
  | [] => Ret s
  | o :: h => let! r := store_op o s in store_ops h (snd r)
  end.
Lemma store_op_plain M s o : sound s -> describes M s ->
  exists b s', store_op o s = Ret (b, s') /\ (b = true <-> plain_ok M o) /\ sound s' /\ describes (plain M o) s' /\ sTime s' = sTime s.
Proof.
  intros V D. destruct o as [now n sec md|now n sec|n|p]; cbn [store_op plain plain_ok].
  - destruct (add_record_exact now s n sec md) as [A1 A2]. destruct (M !! n) as [r|] eqn:E.
    + rewrite A2; [|right; apply (describes_present M); eauto]. exists false, s. split_and!; auto. split; congruence.
    + destruct A1 as (m & Em & ->); auto.
      { rewrite (describes_present M) by assumption. rewrite E. intros [? [=]]. }
      do 2 eexists. split; [reflexivity|]. split_and!; [tauto| | |reflexivity].
      * unfold sound in *; cbn [sVersion sTime sRecs sPass] in *. split_and!; try apply V. discriminate.
      * apply describes_insert; assumption.
  - destruct (update_secret_exact now s n sec) as (A1 & A2 & A3). destruct (M !! n) as [r|] eqn:E.
    + destruct (A1 r) as (m & Em & ->); [apply (describes_holds M); assumption|].
      do 2 eexists. split; [reflexivity|]. split_and!; [split; congruence| | |reflexivity].
      * unfold sound in *; cbn [sVersion sTime sRecs sPass] in *. split_and!; try apply V. discriminate.
      * apply describes_insert; assumption.
    + rewrite A2; [|rewrite (describes_present M) by assumption; rewrite E; intros [? [=]]].
      exists false, s. split_and!; auto. split; congruence.
  - destruct D as (m & E & H). do 2 eexists. split; [reflexivity|].
    unfold del_rec. rewrite E. cbn [option_map]. split_and!; [tauto| | |reflexivity].
    + unfold sound in *; cbn [sVersion sTime sRecs sPass] in *. split_and!; try apply V. discriminate.
    + eexists. split; [reflexivity|]. intros k. destruct (decide (k = n)) as [->|N];
        [rewrite !lookup_delete; reflexivity|]. rewrite !lookup_delete_ne by congruence. apply H.
  - do 2 eexists. split; [reflexivity|]. split_and!; [tauto| | |reflexivity].
    + unfold sound in *; cbn [change_password sVersion sTime sRecs sPass] in *. split_and!; try apply V. discriminate.
    + destruct D as (m & E & H). exists m. auto.
Qed.
Lemma store_ops_plain h : forall M s, sound s -> describes M s ->
  exists s', store_ops h s = Ret s' /\ sound s' /\ describes (fold_left plain h M) s' /\ sTime s' = sTime s.
Proof.
  induction h as [|o h IH]; intros M s V D; [exists s; auto|].
  cbn [store_ops fold_left]. destruct (store_op_plain M s o V D) as (b & s' & -> & _ & V' & D' & T).
  cbn [obind snd]. destruct (IH _ _ V' D') as (s2 & E & V2 & D2 & T2). exists s2. split_and!; auto. congruence.
Qed.
Lemma plain_other h k : Forall (fun o => ~ about k o) h -> forall M, fold_left plain h M !! k = M !! k.
Proof.
  induction 1 as [|o h H Hh IH]; intros M; [reflexivity|]. cbn [fold_left]. rewrite IH. clear IH.
  destruct o as [now n sec md|now n sec|n|p]; cbn [about plain] in *; try reflexivity.
  - destruct (M !! n); [reflexivity|]. apply lookup_insert_ne. assumption.
  - destruct (M !! n); [|reflexivity]. apply lookup_insert_ne. assumption.
  - apply lookup_delete_ne. assumption.
Qed.

(** ** Merging *)
Definition combine (a b : option srec) : option srec :=
  match a, b with
  | None, b => b
  | a, None => a
  | Some r, Some r' => if decide (rTime r >= rTime r') then Some r else Some r'
  end.
Definition takes (a : option srec) (r' : srec) : Prop :=
  match a with None => True | Some r => rTime r < rTime r' end.
Global Instance takes_dec a r : Decision (takes a r).
Proof. destruct a; cbn; apply _. Defined.
Lemma newest_combine a b c : newest a b c <-> c = combine a b.
Proof.
  split.
  - destruct 1; cbn [combine]; try reflexivity.
    + rewrite decide_True by lia. reflexivity.
    + rewrite decide_False by lia. reflexivity.
  - intros ->. destruct a as [r|], b as [r'|]; cbn [combine]; try constructor.
    destruct (decide (rTime r >= rTime r')); constructor; lia.
Qed.

Lemma filter_in {A} (P Q : A -> Prop) `{!forall x, Decision (P x), !forall x, Decision (Q x)} (l : list A) :
  (forall x, x ∈ l -> P x <-> Q x) -> filter P l = filter Q l.
Proof.
  induction l as [|x l IH]; intros HH; [reflexivity|]. rewrite !filter_cons.
  rewrite IH by (intros y Hy; apply HH; right; assumption).
  destruct (HH x) as [H1 H2]; [left|]. repeat case_decide; tauto.
Qed.
Lemma NoDup_filter_keys {A B} (P : A * B -> Prop) `{!forall x, Decision (P x)} (l : list (A * B)) :
  NoDup l.*1 -> NoDup (filter P l).*1.
Proof.
  induction l as [|x l IH]; intros HH; [constructor|]. cbn [fmap list_fmap] in HH. apply NoDup_cons in HH as [H1 H2].
  rewrite filter_cons. case_decide; [|auto]. cbn [fmap list_fmap]. constructor; [|auto].
  intros Hin. apply H1. apply elem_of_list_fmap in Hin as (y & E & Hin). apply elem_of_list_filter in Hin as [_ Hin].
  apply elem_of_list_fmap. eauto.
Qed.
Definition ptrs (l : list (bytes * srec)) : list (bytes * option srec) := prod_map id Some <$> l.
Lemma merge_loop_plain l : forall M s acc, describes M s -> NoDup l.*1 ->
  exists s', merge_loop (ptrs l) s acc =
               Ret (s', acc ++ map (fun kv => rLabel (snd kv)) (filter (fun kv => takes (M !! fst kv) (snd kv)) l)) /\
    sVersion s' = sVersion s /\ sPass s' = sPass s /\
    exists M', describes M' s' /\
      (forall k r, (k, r) ∈ l -> M' !! k = combine (M !! k) (Some r)) /\
      (forall k, k ∉ l.*1 -> M' !! k = M !! k).
Proof.
  induction l as [|[k r] l IH]; intros M s acc D ND.
  { exists s. cbn. rewrite app_nil_r. split_and!; auto. exists M. split_and!; auto. intros k r H. inversion H. }
  cbn [fmap list_fmap fst] in ND. apply NoDup_cons in ND as [Nk ND].
  change (ptrs ((k, r) :: l)) with ((k, Some r) :: ptrs l). cbn [merge_loop].
  destruct (describes_recs M s D) as (m & Em & Er & Hm). rewrite Er, Hm.
  assert (exists r1, combine (M !! k) (Some r) = Some r1 /\
    (match Some <$> M !! k with None => Ret (Some r, true) | Some r0 => rec_merge r0 (Some r) end)
      = Ret (Some r1, bool_decide (takes (M !! k) r)) /\ (takes (M !! k) r -> r1 = r)) as (r1 & C1 & -> & C3).
  { destruct (M !! k) as [r0|]; cbn [fmap option_fmap option_map rec_merge combine takes]; [|eauto].
    destruct (decide (rTime r0 >= rTime r)) as [H|H].
    - exists r0. rewrite bool_decide_eq_false_2 by lia. split_and!; auto. lia.
    - exists r. rewrite bool_decide_eq_true_2 by lia. auto. }
  cbn [obind fst snd]. unfold set_rec at 1. rewrite Em. cbn [obind].
  set (s1 := SStore _ _ _ _). assert (describes (<[k := r1]> M) s1) as D1 by (apply describes_insert; assumption).
  assert (forall acc', exists s', merge_loop (ptrs l) s1 acc' =
             Ret (s', acc' ++ map (fun kv => rLabel (snd kv)) (filter (fun kv => takes (M !! fst kv) (snd kv)) l)) /\
    sVersion s' = sVersion s /\ sPass s' = sPass s /\
    exists M', describes M' s' /\
      (forall k' r', (k', r') ∈ (k, r) :: l -> M' !! k' = combine (M !! k') (Some r')) /\
      (forall k', k' ∉ ((k, r) :: l).*1 -> M' !! k' = M !! k')) as G.
  { intros acc'. destruct (IH (<[k := r1]> M) s1 acc' D1 ND) as (s' & E & V & P & M' & D' & H1 & H2).
    exists s'. split_and!; auto.
    - rewrite E. do 4 f_equal. apply filter_in. intros [k' r'] Hin. cbn [fst snd].
      rewrite lookup_insert_ne; [tauto|]. intros <-. apply Nk. apply elem_of_list_fmap. exists (k, r'). auto.
    - exists M'. split_and!; auto.
      + intros k' r' Hin. apply elem_of_cons in Hin as [[= -> ->]|Hin].
        * rewrite H2, lookup_insert by assumption. symmetry. assumption.
        * rewrite (H1 _ _ Hin). rewrite lookup_insert_ne; [reflexivity|].
          intros <-. apply Nk. apply elem_of_list_fmap. exists (k, r'). auto.
      + intros k' Hk. cbn [fmap list_fmap fst] in Hk. apply not_elem_of_cons in Hk as [Hk1 Hk2].
        rewrite H2 by assumption. apply lookup_insert_ne. congruence. }
  rewrite filter_cons. cbn [fst snd]. case_bool_decide as T.
  - rewrite decide_True by assumption. rewrite (C3 T). destruct (G (acc ++ [rLabel r])) as (s' & E & rest).
    exists s'. rewrite E. split; [|assumption]. cbn [map snd]. rewrite <- app_assoc. reflexivity.
  - rewrite decide_False by assumption. apply G.
Qed.

Lemma order_ptrs M s order : describes M s -> order ≡ₚ map_to_list (recs s) ->
  exists l, order = ptrs l /\ l ≡ₚ map_to_list M /\ NoDup l.*1.
Proof.
  intros D P. destruct (describes_recs M s D) as (m & Em & Er & Hm). rewrite Er in P.
  assert (m = Some <$> M) as -> by (apply map_eq; intros k; rewrite lookup_fmap; apply Hm).
  rewrite map_to_list_fmap in P. apply Permutation_map_inv in P as (l & -> & P). exists l. split_and!; auto.
  - symmetry. assumption.
  - rewrite <- P. apply NoDup_fst_map_to_list.
Qed.

Lemma store_merge_plain now order M Mo s o : describes M s -> describes Mo o -> order ≡ₚ map_to_list (recs o) ->
  exists s' ts, store_merge now order s = Ret (s', map (fun kv => rLabel (snd kv)) ts) /\
    sVersion s' = sVersion s /\ sPass s' = sPass s /\ sTime s' = now /\
    (exists M', describes M' s' /\ forall k, M' !! k = combine (M !! k) (Mo !! k)) /\
    NoDup ts.*1 /\
    (ts ≡ₚ filter (fun kv => takes (M !! fst kv) (snd kv)) (map_to_list Mo)).
Proof.
  intros D Do P. destruct (order_ptrs Mo o order Do P) as (l & -> & Pl & ND).
  destruct (merge_loop_plain l M s [] D ND) as (s' & E & V & Pp & M' & D' & H1 & H2).
  unfold store_merge. rewrite E. cbn [obind fst snd app].
  do 2 eexists. split; [reflexivity|]. cbn [sVersion sPass sTime]. split_and!; auto.
  - exists M'. split; [destruct D' as (m & Em & Hm); exists m; auto|].
    intros k. destruct (Mo !! k) as [r|] eqn:E'.
    + apply H1. rewrite Pl. apply elem_of_map_to_list. assumption.
    + rewrite H2; [destruct (M !! k); reflexivity|]. intros Hin. apply elem_of_list_fmap in Hin as ([k' r] & -> & Hin).
      rewrite Pl in Hin. apply elem_of_map_to_list in Hin. cbn in E'. congruence.
  - apply NoDup_filter_keys. assumption.
  - rewrite Pl. reflexivity.
Qed.

Lemma at_label_iff M s k o : describes M s -> at_label s k o <-> o = M !! k.
Proof.
  intros D. destruct o as [r|]; cbn [at_label].
  - rewrite (describes_holds M) by assumption. split; congruence.
  - rewrite (describes_present M) by assumption. destruct (M !! k); split; try congruence.
    + intros H. exfalso. eauto.
    + intros _ [? [=]].
Qed.
Lemma taken_iff M Mo s o k r : describes M s -> describes Mo o ->
  taken s o k r <-> Mo !! k = Some r /\ takes (M !! k) r.
Proof.
  intros D Do. unfold taken. rewrite (describes_holds Mo) by assumption. split; intros [H1 H2]; split; auto.
  - destruct (M !! k) as [r0|] eqn:E; cbn [takes]; [|exact I]. apply H2. apply (describes_holds M); assumption.
  - intros r0 H. apply (describes_holds M) in H; [|assumption]. rewrite H in H2. exact H2.
Qed.
Lemma merge_exact now order s o : no_nil s -> no_nil o -> order ≡ₚ map_to_list (recs o) ->
  exists s' ts, store_merge now order s = Ret (s', map (fun kv => rLabel (snd kv)) ts) /\
    sVersion s' = sVersion s /\ sPass s' = sPass s /\ sTime s' = now /\ no_nil s' /\
    (forall k a b, at_label s k a -> at_label o k b -> forall c, at_label s' k c <-> newest a b c) /\
    NoDup ts.*1 /\ (forall k r, (k, r) ∈ ts <-> taken s o k r).
Proof.
  intros N1 N2 P. pose proof N1 as [M D]%no_nil_describes. pose proof N2 as [Mo Do]%no_nil_describes.
  destruct (store_merge_plain now order M Mo s o D Do P) as (s' & ts & E & V & Pp & T & (M' & D' & H) & ND & Pt).
  exists s', ts. split_and!; auto.
  - apply no_nil_describes. eauto.
  - intros k a b Ha Hb c. rewrite (at_label_iff M) in Ha by assumption. rewrite (at_label_iff Mo) in Hb by assumption.
    rewrite (at_label_iff M') by assumption. rewrite newest_combine, H, Ha, Hb. tauto.
  - intros k r. rewrite Pt, elem_of_list_filter, elem_of_map_to_list. cbn [fst snd].
    rewrite (taken_iff M Mo) by assumption. tauto.
Qed.
Lemma merge_labels s o ts : well_labelled o -> (forall k r, (k, r) ∈ ts <-> taken s o k r) -> NoDup ts.*1 ->
  NoDup (map (fun kv => rLabel (snd kv)) ts) /\
  forall k, k ∈ map (fun kv => rLabel (snd kv)) ts <-> exists r, taken s o k r.
Proof.
  intros W H ND. assert (map (fun kv : bytes * srec => rLabel (snd kv)) ts = ts.*1) as ->.
  { apply map_ext_in. intros [k r] Hin. apply elem_of_list_In in Hin. apply H in Hin as [Hin _]. apply (W k). assumption. }
  split; [assumption|]. intros k. rewrite elem_of_list_fmap. split.
  - intros ([k' r] & -> & Hin). exists r. apply H. assumption.
  - intros [r Hin]. exists (k, r). split; [reflexivity|]. apply H. assumption.
Qed.

(** Two stores with the same fields and the same records are equal. *)
Lemma describes_eq M s s' : describes M s -> describes M s' ->
  sVersion s = sVersion s' -> sTime s = sTime s' -> sPass s = sPass s' -> s = s'.
Proof.
  intros (m & E & H) (m' & E' & H') ? ? ?. destruct s, s'; cbn in *; subst. f_equal. f_equal.
  apply map_eq. intros k. rewrite H, H'. reflexivity.
Qed.
Lemma merge_order_irrelevant now order1 order2 s o s1 s2 l1 l2 : no_nil s -> no_nil o ->
  order1 ≡ₚ map_to_list (recs o) -> order2 ≡ₚ map_to_list (recs o) ->
  store_merge now order1 s = Ret (s1, l1) -> store_merge now order2 s = Ret (s2, l2) -> s1 = s2 /\ l1 ≡ₚ l2.
Proof.
  intros [M D]%no_nil_describes [Mo Do]%no_nil_describes P1 P2.
  destruct (store_merge_plain now order1 M Mo s o D Do P1) as (s1' & ts1 & -> & V1 & Pp1 & T1 & (M1 & D1 & H1) & ND1 & Pt1).
  destruct (store_merge_plain now order2 M Mo s o D Do P2) as (s2' & ts2 & -> & V2 & Pp2 & T2 & (M2 & D2 & H2) & ND2 & Pt2).
  intros [= <- <-] [= <- <-]. split.
  - assert (M1 = M2) as -> by (apply map_eq; intros k; rewrite H1, H2; reflexivity).
    apply (describes_eq M2); congruence.
  - apply fmap_Permutation with (f := fun kv : bytes * srec => rLabel (snd kv)). rewrite Pt1, Pt2. reflexivity.
Qed.

(** Panics, for arbitrary stores. *)
Definition bad_pair (a : option (option srec)) (v : option srec) : Prop :=
  match a with None => v = None | Some r => r = None \/ v = None end.
Lemma merge_loop_panics l : forall m s acc, sRecs s = Some m -> NoDup l.*1 ->
  merge_loop l s acc = Panic <-> exists k v, (k, v) ∈ l /\ bad_pair (m !! k) v.
Proof.
  induction l as [|[k v] l IH]; intros m s acc E ND.
  { cbn. split; [discriminate|]. intros (k & v & H & _). inversion H. }
  cbn [fmap list_fmap fst] in ND. apply NoDup_cons in ND as [Nk ND].
  assert (forall x acc', ~ bad_pair (m !! k) v ->
    merge_loop l (SStore (sVersion s) (sTime s) (Some (<[k := x]> m)) (sPass s)) acc' = Panic <->
    exists k' v', (k', v') ∈ (k, v) :: l /\ bad_pair (m !! k') v') as G.
  { intros x acc' NB. rewrite (IH (<[k := x]> m)) by (auto; reflexivity). split.
    - intros (k' & v' & Hin & B). exists k', v'. split; [right; assumption|].
      rewrite lookup_insert_ne in B; [assumption|]. intros <-. apply Nk. apply elem_of_list_fmap. exists (k, v'). auto.
    - intros (k' & v' & Hin & B). apply elem_of_cons in Hin as [[= -> ->]|Hin]; [contradiction|].
      exists k', v'. split; [assumption|]. rewrite lookup_insert_ne; [assumption|].
      intros <-. apply Nk. apply elem_of_list_fmap. exists (k, v'). auto. }
  assert (bad_pair (m !! k) v -> exists k' v', (k', v') ∈ (k, v) :: l /\ bad_pair (m !! k') v') as Bad.
  { intros B. exists k, v. split; [left|assumption]. }
  cbn [merge_loop]. rewrite (recs_some s m E). unfold set_rec. rewrite E.
  destruct (m !! k) as [[a|]|] eqn:Ek; destruct v as [b|]; cbn [rec_merge obind fst snd bad_pair] in *.
  - destruct (decide (rTime a >= rTime b)); cbn [fst snd]; apply G; intros [[=]|[=]].
  - split; auto.
  - split; auto.
  - split; auto.
  - apply G. discriminate.
  - split; auto.
Qed.
Lemma merge_panics now order s o : order ≡ₚ map_to_list (recs o) ->
  store_merge now order s = Panic <->
  (sRecs s = None /\ recs o <> ∅) \/
  (exists m k v, sRecs s = Some m /\ recs o !! k = Some v /\ bad_pair (m !! k) v).
Proof.
  intros P. assert (store_merge now order s = Panic <-> merge_loop order s [] = Panic) as ->.
  { unfold store_merge. destruct (merge_loop order s []); cbn [obind]; split; auto; discriminate. }
  destruct (sRecs s) as [m|] eqn:E.
  - rewrite (merge_loop_panics order m s [] E).
    + split.
      * intros (k & v & Hin & B). right. exists m, k, v. rewrite P in Hin. apply elem_of_map_to_list in Hin. auto.
      * intros [[[=] _]|(m' & k & v & [= <-] & Hin & B)]. exists k, v. rewrite P. split; [|assumption]. apply elem_of_map_to_list. assumption.
    + rewrite P. apply NoDup_fst_map_to_list.
  - assert (recs s = ∅) as Er by (unfold recs; rewrite E; reflexivity).
    split.
    + intros H. left. split; [reflexivity|]. intros E'. rewrite E' in P. rewrite map_to_list_empty in P.
      symmetry in P. apply Permutation_nil in P. subst. discriminate.
    + intros [[_ N]|(? & ? & ? & [=] & _)]. destruct order as [|[k v] order].
      * exfalso. apply N. apply Permutation_nil in P. apply map_to_list_empty_iff in P. assumption.
      * cbn [merge_loop]. rewrite Er, lookup_empty. cbn [obind]. unfold set_rec. rewrite E. reflexivity.
Qed.

(** *** Algebra *)
Lemma combine_assoc a b c : combine a (combine b c) = combine (combine a b) c.
Proof.
  destruct a as [a|], b as [b|], c as [c|]; cbn [combine]; try reflexivity;
    repeat (case_decide; cbn [combine]); try reflexivity; try lia.
Qed.
Lemma combine_idem a b : combine (combine a b) b = combine a b.
Proof. destruct a as [a|], b as [b|]; cbn [combine]; repeat (case_decide; cbn [combine]); try reflexivity; try lia. Qed.
Lemma combine_not_takes a b : ~ takes (combine a (Some b)) b.
Proof. destruct a as [a|]; cbn [combine takes]; repeat (case_decide; cbn [takes]); try lia. Qed.
Lemma merge_twice now now' order order' s o s' l : no_nil s -> no_nil o ->
  order ≡ₚ map_to_list (recs o) -> order' ≡ₚ map_to_list (recs o) ->
  store_merge now order s = Ret (s', l) ->
  exists s2, store_merge now' order' s' = Ret (s2, []) /\ sRecs s2 = sRecs s' /\ sTime s2 = now'.
Proof.
  intros [M D]%no_nil_describes [Mo Do]%no_nil_describes P1 P2.
  destruct (store_merge_plain now order M Mo s o D Do P1) as (s1 & ts1 & -> & V1 & Pp1 & T1 & (M1 & D1 & H1) & ND1 & Pt1).
  intros [= <- <-].
  destruct (store_merge_plain now' order' M1 Mo s1 o D1 Do P2) as (s2 & ts2 & -> & V2 & Pp2 & T2 & (M2 & D2 & H2) & ND2 & Pt2).
  exists s2. split_and!; auto.
  - destruct ts2 as [|[k r] ts2]; [reflexivity|]. exfalso.
    assert ((k, r) ∈ filter (fun kv => takes (M1 !! fst kv) (snd kv)) (map_to_list Mo)) as Hin by (rewrite <- Pt2; left).
    apply elem_of_list_filter in Hin as [Ht Hin]. apply elem_of_map_to_list in Hin. cbn [fst snd] in Ht.
    rewrite H1, Hin in Ht. exact (combine_not_takes _ _ Ht).
  - assert (M2 = M1) as -> by (apply map_eq; intros k; rewrite H2, H1; apply combine_idem).
    destruct D1 as (m1 & E1 & F1), D2 as (m2 & E2 & F2). rewrite E1, E2. f_equal.
    apply map_eq. intros k. rewrite F1, F2. reflexivity.
Qed.
Lemma store_merge_assoc n1 n2 n3 n4 oab obc oabc oabc' a b c ab bc r r' l1 l2 l3 l4 : no_nil a -> no_nil b -> no_nil c ->
  oab ≡ₚ map_to_list (recs b) -> store_merge n1 oab a = Ret (ab, l1) ->
  oabc ≡ₚ map_to_list (recs c) -> store_merge n2 oabc ab = Ret (r, l2) ->
  obc ≡ₚ map_to_list (recs c) -> store_merge n3 obc b = Ret (bc, l3) ->
  oabc' ≡ₚ map_to_list (recs bc) -> store_merge n4 oabc' a = Ret (r', l4) ->
  sRecs r = sRecs r'.
Proof.
  intros [A DA]%no_nil_describes [B DB]%no_nil_describes [K DC]%no_nil_describes P1 E1 P2 E2 P3 E3 P4 E4.
  destruct (store_merge_plain n1 oab A B a b DA DB P1) as (x1 & ? & F1 & _ & _ & _ & (M1 & D1 & H1) & _).
  rewrite F1 in E1. injection E1 as -> _.
  destruct (store_merge_plain n2 oabc M1 K ab c D1 DC P2) as (x2 & ? & F2 & _ & _ & _ & (M2 & D2 & H2) & _).
  rewrite F2 in E2. injection E2 as -> _.
  destruct (store_merge_plain n3 obc B K b c DB DC P3) as (x3 & ? & F3 & _ & _ & _ & (M3 & D3 & H3) & _).
  rewrite F3 in E3. injection E3 as -> _.
  destruct (store_merge_plain n4 oabc' A M3 a bc DA D3 P4) as (x4 & ? & F4 & _ & _ & _ & (M4 & D4 & H4) & _).
  rewrite F4 in E4. injection E4 as -> _.
  assert (M2 = M4) as -> by (apply map_eq; intros k; rewrite H2, H1, H4, H3; symmetry; apply combine_assoc).
  destruct D2 as (m2 & Q2 & R2), D4 as (m4 & Q4 & R4). rewrite Q2, Q4. f_equal.
  apply map_eq. intros k. rewrite R2, R4. reflexivity.
Qed.
Lemma merge_converges n1 n2 oa ob a b ab ba l1 l2 k : no_nil a -> no_nil b ->
  ob ≡ₚ map_to_list (recs b) -> store_merge n1 ob a = Ret (ab, l1) ->
  oa ≡ₚ map_to_list (recs a) -> store_merge n2 oa b = Ret (ba, l2) ->
  (forall r r', holds a k r -> holds b k r' -> rTime r = rTime r' -> r = r') ->
  forall o, at_label ab k o <-> at_label ba k o.
Proof.
  intros [A DA]%no_nil_describes [B DB]%no_nil_describes P1 E1 P2 E2 T o.
  destruct (store_merge_plain n1 ob A B a b DA DB P1) as (x1 & ? & F1 & _ & _ & _ & (M1 & D1 & H1) & _).
  rewrite F1 in E1. injection E1 as -> _.
  destruct (store_merge_plain n2 oa B A b a DB DA P2) as (x2 & ? & F2 & _ & _ & _ & (M2 & D2 & H2) & _).
  rewrite F2 in E2. injection E2 as -> _.
  rewrite (at_label_iff M1), (at_label_iff M2) by assumption. rewrite H1, H2.
  assert (combine (A !! k) (B !! k) = combine (B !! k) (A !! k)) as ->; [|tauto].
  destruct (A !! k) as [r|] eqn:Ea, (B !! k) as [r'|] eqn:Eb; cbn [combine]; try reflexivity.
  repeat case_decide; try reflexivity; try lia. f_equal. apply T; [apply (describes_holds A); assumption|apply (describes_holds B); assumption|lia].
Qed.

(** ** Wiping *)
Lemma wiped_zero b : wiped b (option_map zero b).
Proof.
  destruct b as [b|]; cbn [option_map wiped]; [|exact I]. rewrite zero_zeros. split; [apply replicate_length|].
  intros x H. unfold zeros in H. apply elem_of_replicate in H. tauto.
Qed.
Lemma wiped_rec_zero r : wiped_rec r (rec_zero r).
Proof.
  unfold wiped_rec, rec_zero. cbn [rLabel rTime rSecret rMeta]. split_and!; auto; [apply wiped_zero|].
  destruct (rMeta r) as [m|]; cbn [option_map wiped_meta]; [|exact I]. intros k. rewrite lookup_fmap.
  destruct (m !! k); cbn; [apply wiped_zero|exact I].
Qed.
Lemma wiped_store_zero s : wiped_store s (store_zero s).
Proof.
  unfold wiped_store, store_zero. cbn [sVersion sTime sPass sRecs]. split_and!; auto; [apply wiped_zero|].
  destruct (sRecs s) as [m|]; cbn [option_map]; [|exact I]. intros k. rewrite lookup_fmap.
  destruct (m !! k) as [[r|]|]; cbn; auto. apply wiped_rec_zero.
Qed.

(** ** JSON *)
Lemma perm_sorted {A} (m : gmap bytes A) : sorted_entries m ≡ₚ map_to_list m.
Proof. apply merge_sort_Permutation. Qed.

Lemma int_json_obj l : int_json (JObj l) <-> Forall (fun kv => int_json (snd kv)) l.
Proof. cbn [int_json]. apply (fold_and (fun kv : bytes * json => int_json (snd kv))). Qed.
Lemma int_jint z : int_json (jint z).
Proof. rewrite jint_lit. cbn. eauto. Qed.
Lemma int_jbytes b : int_json (jbytes b).
Proof. destruct b; exact I. Qed.
Lemma int_jmap {A} (enc : A -> json) m : (forall x, int_json (enc x)) -> int_json (jmap enc m).
Proof.
  intros H. destruct m as [m|]; [|exact I]. unfold jmap. rewrite int_json_obj.
  apply Forall_fmap. apply Forall_forall. intros kv _. apply H.
Qed.
Lemma int_jrec r : int_json (jrec r).
Proof.
  destruct r as [r|]; [|exact I]. unfold jrec. rewrite int_json_obj.
  repeat (apply Forall_cons; split); cbn [snd]; try apply Forall_nil; auto using int_jint, int_jbytes.
  - exact I.
  - apply int_jmap, int_jbytes.
Qed.
Lemma int_jstore s : int_json (jstore s).
Proof.
  unfold jstore. rewrite int_json_obj.
  repeat (apply Forall_cons; split); cbn [snd]; try apply Forall_nil; auto using int_jint.
  apply int_jmap, int_jrec.
Qed.

Lemma depth_jbytes b : depth (jbytes b) <= 0.
Proof. destruct b; cbn; lia. Qed.
Lemma depth_jmap {A} (enc : A -> json) m n : 0 <= n -> (forall x, depth (enc x) <= n) -> depth (jmap enc m) <= n + 1.
Proof.
  intros Hn H. destruct m as [m|]; [|cbn; lia]. unfold jmap. apply depth_obj; [lia|]. split; [lia|].
  apply Forall_fmap. apply Forall_forall. intros kv _. cbn. specialize (H (snd kv)). lia.
Qed.
Lemma depth_jrec r : depth (jrec r) <= 2.
Proof.
  destruct r as [r|]; [|cbn; lia]. unfold jrec. apply depth_obj; [lia|]. split; [lia|].
  pose proof (depth_jbytes (rSecret r)). pose proof (depth_jmap jbytes (rMeta r) 0 ltac:(lia) depth_jbytes).
  repeat (apply Forall_cons; split); cbn [snd jint depth]; try apply Forall_nil; lia.
Qed.
Lemma depth_jstore s : depth (jstore s) <= 10000.
Proof.
  unfold jstore. apply depth_obj; [lia|]. split; [lia|]. pose proof (depth_jmap jrec (sRecs s) 2 ltac:(lia) depth_jrec).
  repeat (apply Forall_cons; split); cbn [snd jint depth]; try apply Forall_nil; lia.
Qed.
(** Rebuilding a map from its entries with the keys made valid. *)
Definition reins {A B} (f : A -> B) (l : list (bytes * A)) (m : gmap bytes B) : gmap bytes B :=
  fold_left (fun m kv => <[san (fst kv) := f (snd kv)]> m) l m.
Lemma dec_elems_reins {A B} (enc : A -> json) (dec : json -> option B) (f : A -> B) l :
  (forall k x, (k, x) ∈ l -> dec (san_json (enc x)) = Some (f x)) ->
  forall m, dec_elems dec (map (fun kv => (san (fst kv), san_json (snd kv))) (map (fun kv => (fst kv, enc (snd kv))) l)) m
            = Some (reins f l m).
Proof.
  induction l as [|[k x] l IH]; intros H m; [reflexivity|].
  cbn [map dec_elems fst snd]. rewrite (H k x) by left. rewrite IH; [reflexivity|].
  intros k' x' Hin. apply (H k'). right. assumption.
Qed.
Lemma dec_map_jmap {A B} (enc : A -> json) (dec : json -> option B) (f : A -> B) m :
  (forall m' k x, m = Some m' -> m' !! k = Some x -> dec (san_json (enc x)) = Some (f x)) ->
  dec_map dec None (san_json (jmap enc m)) = Some (option_map (fun m => reins f (sorted_entries m) ∅) m).
Proof.
  intros H. destruct m as [m|]; [|reflexivity]. unfold jmap. cbn [san_json dec_map option_map].
  change (default ∅ None) with (∅ : gmap bytes B). rewrite (dec_elems_reins enc dec f); [reflexivity|].
  intros k x Hin. rewrite perm_sorted in Hin. apply elem_of_map_to_list in Hin. eauto.
Qed.
Lemma reins_lookup {A B} (f : A -> B) l : forall m k v,
  reins f l m !! k = Some v ->
  (exists k0 x, (k0, x) ∈ l /\ san k0 = k /\ v = f x) \/ (m !! k = Some v /\ forall k0 x, (k0, x) ∈ l -> san k0 <> k).
Proof.
  induction l as [|[k1 x1] l IH]; intros m k v H.
  { right. split; [assumption|]. intros ? ? Hin. inversion Hin. }
  cbn [reins fold_left fst snd] in H. apply IH in H as [(k0 & x & Hin & E & ->)|[H N]].
  - left. exists k0, x. split_and!; auto. right. assumption.
  - destruct (decide (san k1 = k)) as [E|E].
    + subst k. rewrite lookup_insert in H. injection H as <-. left. exists k1, x1. split_and!; auto. left.
    + rewrite lookup_insert_ne in H by assumption. right. split; [assumption|].
      intros k0 x Hin. apply elem_of_cons in Hin as [[= -> ->]|Hin]; eauto.
Qed.
Lemma reins_dom {A B} (f : A -> B) l : forall m k,
  (is_Some (m !! k) \/ exists k0 x, (k0, x) ∈ l /\ san k0 = k) -> is_Some (reins f l m !! k).
Proof.
  induction l as [|[k1 x1] l IH]; intros m k H.
  { destruct H as [H|(? & ? & H & _)]; [assumption|inversion H]. }
  cbn [reins fold_left fst snd]. apply IH. destruct (decide (san k1 = k)) as [E|E].
  - left. subst k. rewrite lookup_insert. eauto.
  - rewrite lookup_insert_ne by assumption. destruct H as [H|(k0 & x & Hin & E')]; [auto|].
    apply elem_of_cons in Hin as [[= -> ->]|Hin]; [congruence|]. right. eauto.
Qed.
Lemma reins_san {A B} (f : A -> B) (m : gmap bytes A) :
  (forall k x, m !! k = Some x -> san k = k) -> reins f (sorted_entries m) ∅ = f <$> m.
Proof.
  intros H. apply map_eq. intros k. rewrite lookup_fmap.
  destruct (reins f (sorted_entries m) ∅ !! k) as [v|] eqn:E.
  - apply reins_lookup in E as [(k0 & x & Hin & E & ->)|[E _]]; [|rewrite lookup_empty in E; discriminate].
    rewrite perm_sorted in Hin. apply elem_of_map_to_list in Hin. rewrite (H _ _ Hin) in E. subst k0. rewrite Hin. reflexivity.
  - destruct (m !! k) as [x|] eqn:Ex; [|reflexivity]. exfalso.
    destruct (reins_dom f (sorted_entries m) ∅ k) as [v Hv]; [|congruence].
    right. exists k, x. rewrite perm_sorted. split; [apply elem_of_map_to_list; assumption|eauto].
Qed.
Lemma reins_collapsed {A} (f : A -> A) (R : A -> A -> Prop) (m : gmap bytes A) :
  (forall k x, m !! k = Some x -> R x (f x)) -> collapsed R m (reins f (sorted_entries m) ∅).
Proof.
  intros H. split.
  - intros k v Hk. destruct (reins_dom f (sorted_entries m) ∅ (san k)) as [v' Hv'].
    { right. exists k, v. rewrite perm_sorted. split; [apply elem_of_map_to_list; assumption|reflexivity]. }
    exists (san k), v'. split; [apply made_valid_san|assumption].
  - intros k' v' Hk. apply reins_lookup in Hk as [(k0 & x & Hin & E & ->)|[E _]]; [|rewrite lookup_empty in E; discriminate].
    rewrite perm_sorted in Hin. apply elem_of_map_to_list in Hin. exists k0, x. subst k'.
    split_and!; auto using made_valid_san. eauto.
Qed.

(** *** Reloading *)
Definition reload_rec (r : srec) : srec :=
  SRec (san (rLabel r)) (rTime r) (rSecret r) (option_map (fun m => reins id (sorted_entries m) ∅) (rMeta r)).
Definition reload (s : sstore) : sstore :=
  SStore (sVersion s) (sTime s) (option_map (fun m => reins (option_map reload_rec) (sorted_entries m) ∅) (sRecs s)) (sPass s).
Lemma san_jint z : san_json (jint z) = jint z. Proof. reflexivity. Qed.
Lemma san_jbytes b : san_json (jbytes b) = jbytes b.
Proof. destruct b as [b|]; [|reflexivity]. cbn [jbytes san_json]. rewrite san_b64. reflexivity. Qed.
Lemma san_id_ascii s : forallb (fun b => bz b <? 128) s = true -> san s = s.
Proof.
  intros H. apply san_utf8, utf8_ascii. apply Forall_forall. intros b Hb.
  rewrite forallb_forall in H. apply elem_of_list_In in Hb. specialize (H b Hb). lia.
Qed.
Lemma rec_field_Label j c : rec_field (bs "Label") j c = match dec_str (rLabel c) j with Some v => Some (SRec v (rTime c) (rSecret c) (rMeta c)) | None => None end.
Proof. reflexivity. Qed.
Lemma rec_field_Timestamp j c : rec_field (bs "Timestamp") j c = match dec_int (rTime c) j with Some v => Some (SRec (rLabel c) v (rSecret c) (rMeta c)) | None => None end.
Proof. reflexivity. Qed.
Lemma rec_field_Secret j c : rec_field (bs "Secret") j c = match dec_bytes (rSecret c) j with Some v => Some (SRec (rLabel c) (rTime c) v (rMeta c)) | None => None end.
Proof. reflexivity. Qed.
Lemma rec_field_Metadata j c : rec_field (bs "Metadata") j c = match dec_map (dec_bytes None) (rMeta c) j with Some v => Some (SRec (rLabel c) (rTime c) (rSecret c) v) | None => None end.
Proof. reflexivity. Qed.
Lemma store_field_Version j c : store_field (bs "Version") j c = match dec_int (sVersion c) j with Some v => Some (SStore v (sTime c) (sRecs c) (sPass c)) | None => None end.
Proof. reflexivity. Qed.
Lemma store_field_Timestamp j c : store_field (bs "Timestamp") j c = match dec_int (sTime c) j with Some v => Some (SStore (sVersion c) v (sRecs c) (sPass c)) | None => None end.
Proof. reflexivity. Qed.
Lemma store_field_Store j c : store_field (bs "Store") j c = match dec_map (dec_ptr dec_rec) (sRecs c) j with Some v => Some (SStore (sVersion c) (sTime c) v (sPass c)) | None => None end.
Proof. reflexivity. Qed.
Lemma dec_rec_jrec r : go_rec r -> dec_rec (san_json (jrec (Some r))) = Some (reload_rec r).
Proof.
  intros G. unfold dec_rec, jrec. cbn [san_json map fst snd]. rewrite !san_id_ascii by reflexivity.
  rewrite san_jint, san_jbytes. unfold dec_struct. cbn [dec_fields].
  rewrite rec_field_Label.
  cbn [dec_str rLabel rTime rSecret rMeta].
  rewrite rec_field_Timestamp.
  cbn [rLabel rTime rSecret rMeta]. rewrite dec_int_jint by exact G.
  rewrite rec_field_Secret.
  cbn [rLabel rTime rSecret rMeta]. rewrite dec_bytes_jbytes.
  rewrite rec_field_Metadata.
  cbn [rLabel rTime rSecret rMeta]. rewrite (dec_map_jmap jbytes (dec_bytes None) id); [reflexivity|].
  intros m k x _ _. rewrite san_jbytes, dec_bytes_jbytes. reflexivity.
Qed.
Lemma dec_ptr_jrec r : (forall r', r = Some r' -> go_rec r') -> dec_ptr dec_rec (san_json (jrec r)) = Some (option_map reload_rec r).
Proof.
  intros G. destruct r as [r|]; [|reflexivity]. unfold dec_ptr. rewrite dec_rec_jrec by auto. reflexivity.
Qed.
Lemma dec_store_jstore s : go_store s ->
  dec_store (san_json (jstore s)) = Some (SStore (sVersion s) (sTime s) (sRecs (reload s)) None).
Proof.
  intros (G1 & G2 & G3). unfold dec_store, jstore. cbn [san_json map fst snd]. rewrite !san_id_ascii by reflexivity.
  rewrite !san_jint. unfold dec_struct. cbn [dec_fields].
  rewrite store_field_Version.
  cbn [sVersion sTime sRecs sPass]. rewrite dec_int_jint by exact G1.
  rewrite store_field_Timestamp.
  cbn [sVersion sTime sRecs sPass]. rewrite dec_int_jint by exact G2.
  rewrite store_field_Store.
  cbn [sVersion sTime sRecs sPass]. rewrite (dec_map_jmap jrec (dec_ptr dec_rec) (option_map reload_rec)); [reflexivity|].
  intros m k x E H. apply dec_ptr_jrec. intros r ->. eapply G3; eauto.
Qed.
Lemma reloaded_reload s : reloaded s (reload s).
Proof.
  unfold reloaded, reload. cbn [sVersion sTime sRecs sPass]. split_and!; auto.
  destruct (sRecs s) as [m|]; cbn [option_map opt]; [|exact I]. apply reins_collapsed. intros k [r|] _; cbn [option_map opt]; [|exact I].
  unfold reloaded_rec, reload_rec. cbn [rLabel rTime rSecret rMeta]. split_and!; auto using made_valid_san.
  destruct (rMeta r) as [md|]; cbn [option_map opt]; [|exact I]. apply reins_collapsed. reflexivity.
Qed.
Lemma reload_text s : text_store s -> reload s = s.
Proof.
  intros T. destruct s as [v t [m|] p]; [|reflexivity]. unfold reload. cbn [sVersion sTime sRecs sPass option_map].
  f_equal. f_equal. unfold text_store in T. cbn [sRecs] in T.
  rewrite reins_san by (intros k x H; apply san_utf8, text_utf8; exact (proj1 (T m k x eq_refl H))).
  apply map_eq. intros k. rewrite lookup_fmap. destruct (m !! k) as [[r|]|] eqn:E; cbn; auto.
  f_equal. f_equal. destruct (T m k (Some r) eq_refl E) as [_ T2]. destruct (T2 r eq_refl) as [T3 T4].
  destruct r as [l tm sc md]; unfold reload_rec; cbn [rLabel rTime rSecret rMeta] in *. f_equal.
  - apply san_utf8, text_utf8. assumption.
  - destruct md as [md|]; [|reflexivity]. cbn [option_map]. f_equal.
    rewrite reins_san by (intros k' x H; apply san_utf8, text_utf8; eapply T4; eauto).
    apply map_fmap_id.
Qed.

(** ** Marshalling *)
Section WithCrypto.
Context {C : Crypto} {L : CryptoLaws}.

Lemma mode_key_iff m pass salt key : derive_key_strength pass salt m = Some key <-> mode_key m pass salt key.
Proof.
  unfold mode_key. destruct (derive_exact pass salt m) as (D0 & D1 & D2 & _). split.
  - intros H. destruct (decide (m = 0)) as [->|N0]; [left; rewrite D0 in H by reflexivity; split; congruence|].
    destruct (decide (m = 1)) as [->|N1]; [right; rewrite D1 in H by reflexivity; split; congruence|].
    rewrite D2 in H by assumption. discriminate.
  - intros [[-> ->]|[-> ->]]; auto.
Qed.
Lemma marshal_inv s m g r s' g' :
  marshal_store s m g = Ret (r, s', g') ->
  (r = None /\ s' = s /\ (~ sound s \/ ~ (m = 0 \/ m = 1) \/ starved g 32 \/
      exists salt g1, length salt = 32%nat /\ delivers g salt g1 /\ starved g1 24)) \/
  (exists salt key nonce g1, sound s /\ length salt = 32%nat /\ length nonce = 24%nat /\
      delivers g salt g1 /\ delivers g1 nonce g' /\ mode_key m (default [] (sPass s)) salt key /\
      r = Some (salt ++ nonce ++ sbox_seal key nonce (print (jstore s))) /\ s' = store_zero s).
Proof.
  unfold marshal_store. destruct (store_valid s) eqn:V; cbn [negb].
  2:{ intros [= <- <- <-]. left. split_and!; auto. left. rewrite <- store_valid_iff. congruence. }
  apply store_valid_iff in V.
  destruct (delivers_or_starved g 32) as [(salt & g1 & Ls & D)|S].
  2:{ destruct (rand_starved 32 g S) as [h E]. unfold saltSize. rewrite E. intros [= <- <- <-]. left. split_and!; auto. }
  unfold saltSize. rewrite (rand_delivers _ _ _ _ Ls D). unfold default.
  destruct (derive_key_strength _ salt m) as [key|] eqn:Ek.
  2:{ intros [= <- <- <-]. left. split_and!; auto. right. left. intros Hm.
      destruct (derive_exact (default [] (sPass s)) salt m) as (D0 & D1 & _). unfold default in *.
      destruct Hm as [Hm|Hm]; [rewrite D0 in Ek by assumption|rewrite D1 in Ek by assumption]; discriminate. }
  apply mode_key_iff in Ek.
  destruct (delivers_or_starved g1 24) as [(nonce & g2 & Ln & D2)|S].
  2:{ destruct (encrypt_starved (Some key) (print (jstore s)) g1 S) as [h ->]. cbn [obind].
      intros [= <- <- <-]. left. split_and!; auto. right. right. right. eauto. }
  rewrite (encrypt_delivers _ _ _ _ _ Ln D2). cbn [obind]. intros [= <- <- <-]. right.
  exists salt, key, nonce, g1. split_and!; auto.
Qed.
Lemma marshal_total s m g : exists r, marshal_store s m g = Ret r.
Proof.
  unfold marshal_store. destruct (store_valid s); cbn [negb]; [|eauto].
  destruct (rand saltSize g) as [[salt|] g1]; [|eauto]. destruct (derive_key_strength _ _ _) as [key|]; [|eauto].
  destruct (delivers_or_starved g1 24) as [(nonce & g2 & Ln & D2)|S].
  - rewrite (encrypt_delivers _ _ _ _ _ Ln D2). cbn [obind]. eauto.
  - destruct (encrypt_starved (Some key) (print (jstore s)) g1 S) as [h ->]. cbn [obind]. eauto.
Qed.
Lemma marshal_succeeds s m g salt nonce g1 g' key :
  sound s -> length salt = 32%nat -> length nonce = 24%nat -> delivers g salt g1 -> delivers g1 nonce g' ->
  mode_key m (default [] (sPass s)) salt key ->
  marshal_store s m g = Ret (Some (salt ++ nonce ++ sbox_seal key nonce (print (jstore s))), store_zero s, g').
Proof.
  intros V Ls Ln D1 D2 K. unfold marshal_store. apply store_valid_iff in V. rewrite V. cbn [negb].
  unfold saltSize. rewrite (rand_delivers _ _ _ _ Ls D1). apply mode_key_iff in K. rewrite K.
  rewrite (encrypt_delivers _ _ _ _ _ Ln D2). cbn [obind]. reflexivity.
Qed.

Lemma unmarshal_exact input pass m s :
  unmarshal_store input pass m = Ret (Some s) <->
  exists text j s0, store_file m pass text input /\ parse_json text = Some j /\ dec_store j = Some s0 /\
    s = SStore (sVersion s0) (sTime s0) (sRecs s0) (Some pass).
Proof.
  unfold unmarshal_store, store_file, saltSize. split.
  - case_decide as Hl; [discriminate|]. cbn zeta.
    destruct (derive_key_strength _ _ _) as [key|] eqn:Ek; [|discriminate]. apply mode_key_iff in Ek.
    destruct (decrypt (Some key) (drop 32 input)) as [[data|]|] eqn:Ed; cbn [obind]; try discriminate.
    apply decrypt_exact in Ed as [nonce Ed].
    destruct (parse_json data) as [j|] eqn:Ej; [|discriminate].
    destruct (dec_store j) as [s0|] eqn:Es; [|discriminate]. intros [= <-].
    exists data, j, s0. split_and!; auto.
    exists (take 32 input), key, nonce, (drop 32 input). split_and!; auto.
    + rewrite take_length. lia.
    + symmetry. apply take_drop.
  - intros (text & j & s0 & (salt & key & nonce & c & Ls & K & S & ->) & Ej & Es & ->).
    rewrite decide_False by (rewrite app_length; lia). cbn zeta.
    rewrite take_app_alt, drop_app_alt by auto. apply mode_key_iff in K. rewrite K.
    assert (decrypt (Some key) c = Ret (Some text)) as -> by (apply decrypt_exact; eauto).
    cbn [obind]. rewrite Ej, Es. reflexivity.
Qed.
Lemma unmarshal_total input pass m : exists r, unmarshal_store input pass m = Ret r.
Proof.
  unfold unmarshal_store. case_decide; [eauto|]. cbn zeta. destruct (derive_key_strength _ _ _) as [key|]; [|eauto].
  destruct (decrypt_total key (drop saltSize input)) as [r ->]. cbn [obind]. destruct r; [|eauto].
  destruct (parse_json _); [|eauto]. destruct (dec_store _); eauto.
Qed.
Lemma store_file_salt m pass text data salt c : length salt = 32%nat -> data = salt ++ c ->
  store_file m pass text data <-> exists key nonce, mode_key m pass salt key /\ sealed_with key nonce text c.
Proof.
  intros Ls ->. split.
  - intros (salt' & key & nonce & c' & Ls' & K & S & E). apply app_inj_1 in E as [<- <-]; [|congruence]. eauto.
  - intros (key & nonce & K & S). exists salt, key, nonce, c. auto.
Qed.
Lemma marshal_roundtrip s m g out s' g' : go_store s ->
  marshal_store s m g = Ret (Some out, s', g') ->
  exists s2, unmarshal_store out (default [] (sPass s)) m = Ret (Some s2) /\ reloaded s s2 /\ (text_store s -> s2 = s).
Proof.
  intros G H. apply marshal_inv in H as [([=] & _)|(salt & key & nonce & g1 & V & Ls & Ln & _ & _ & K & Er & _)]. apply (inj Some) in Er. subst out.
  exists (reload s). split_and!.
  - apply unmarshal_exact. do 3 eexists. split_and!.
    + exists salt, key, nonce. eexists. split_and!; eauto. split; [assumption|reflexivity].
    + apply parse_print; [apply int_jstore|apply depth_jstore].
    + apply dec_store_jstore. assumption.
    + cbn [sVersion sTime sRecs]. destruct V as (_ & _ & _ & V). destruct s as [v t r [p|]]; [reflexivity|]. cbn in V. congruence.
  - apply reloaded_reload.
  - apply reload_text.
Qed.
(** A store sealed under one key does not open under a passphrase and mode that
    derive another, if no box under the one is a box under the other. *)
Lemma unmarshal_wrong_key s m g out s' g' pass' m' :
  marshal_store s m g = Ret (Some out, s', g') ->
  (forall k k' t', mode_key m (default [] (sPass s)) (take 32 out) k -> mode_key m' pass' (take 32 out) k' ->
     sbox_seal k (take 24 (drop 32 out)) (print (jstore s)) <> sbox_seal k' (take 24 (drop 32 out)) t') ->
  unmarshal_store out pass' m' = Ret None.
Proof.
  intros H N. apply marshal_inv in H as [([=] & _)|(salt & key & nonce & g1 & V & Ls & Ln & _ & _ & K & Er & _)]. apply (inj Some) in Er. subst out.
  destruct (unmarshal_total (salt ++ nonce ++ sbox_seal key nonce (print (jstore s))) pass' m') as [[s2|] E]; [|assumption].
  rewrite take_app_alt, drop_app_alt, take_app_alt in N by auto.
  exfalso. apply unmarshal_exact in E as (text & j & s0 & F & _).
  rewrite (store_file_salt m' pass' text _ salt _ Ls eq_refl) in F. destruct F as (k' & n' & K' & [Ln' E']).
  apply app_inj_1 in E' as [<- E']; [|congruence]. exact (N _ _ _ K K' E').
Qed.
End WithCrypto.

(** ** Consequences used by the properties *)
Lemma present_describes s k : no_nil s -> present s k <-> exists r, holds s k r.
Proof.
  intros [M D]%no_nil_describes. rewrite (describes_present M) by assumption. split.
  - intros [r H]. exists r. apply (describes_holds M); assumption.
  - intros [r H]. apply (describes_holds M) in H; [eauto|assumption].
Qed.
Lemma histories_exact h s : sound s -> no_nil s ->
  exists s' M, describes M s /\ store_ops h s = Ret s' /\ describes (fold_left plain h M) s' /\ sound s' /\ sTime s' = sTime s.
Proof.
  intros V [M D]%no_nil_describes. destruct (store_ops_plain h M s V D) as (s' & E & V' & D' & T). exists s', M. auto.
Qed.
Lemma never_overwritten h s s' k r : sound s -> no_nil s -> holds s k r ->
  Forall (fun o => match o with OUpdate _ n _ | ODelete n => n <> k | _ => True end) h ->
  store_ops h s = Ret s' -> holds s' k r.
Proof.
  intros V [M D]%no_nil_describes Hr F E. destruct (store_ops_plain h M s V D) as (s2 & E2 & _ & D' & _).
  rewrite E2 in E. injection E as ->. apply (describes_holds _ s' k r D').
  apply (describes_holds M) in Hr; [|assumption]. clear - F Hr. revert M Hr.
  induction F as [|o h H F IH]; intros M Hr; [assumption|]. cbn [fold_left]. apply IH. clear IH.
  destruct o as [now n sec md|now n sec|n|p]; cbn [plain]; auto.
  - destruct (M !! n) eqn:E; [assumption|]. rewrite lookup_insert_ne; [assumption|congruence].
  - destruct (M !! n); [|assumption]. rewrite lookup_insert_ne; assumption.
  - rewrite lookup_delete_ne; assumption.
Qed.
(** The last addition or deletion of a label decides whether it is there. *)
Lemma presence_exact h s s' k : sound s -> no_nil s -> store_ops h s = Ret s' ->
  store_has s' k = fold_left (fun b o => match o with
      | OAdd _ n _ _ => if decide (n = k) then true else b
      | ODelete n => if decide (n = k) then false else b
      | _ => b end) h (store_has s k).
Proof.
  intros V [M D]%no_nil_describes E. destruct (store_ops_plain h M s V D) as (s2 & E2 & _ & D' & _).
  rewrite E2 in E. injection E as ->.
  assert (forall t N, describes N t -> store_has t k = bool_decide (is_Some (N !! k))) as B.
  { intros t N Dt. apply eq_bool_prop_intro. rewrite bool_decide_spec. rewrite <- (describes_present N t k Dt), <- store_has_iff.
    destruct (store_has t k); cbn; split; auto; discriminate. }
  rewrite (B _ _ D'), (B _ _ D). clear. revert M. induction h as [|o h IH]; intros M; [reflexivity|].
  cbn [fold_left]. rewrite IH. f_equal. apply eq_bool_prop_intro.
  destruct o as [now n sec md|now n sec|n|p]; cbn [plain].
  - destruct (decide (n = k)) as [->|N].
    + rewrite bool_decide_spec. destruct (M !! k) eqn:E; [rewrite E; split; [intros _; exact I|eauto]|]. rewrite lookup_insert. split; [intros _; exact I|eauto].
    + destruct (M !! n); [tauto|]. rewrite lookup_insert_ne by assumption. tauto.
  - rewrite !bool_decide_spec. destruct (M !! n) as [r|] eqn:E; [|tauto]. destruct (decide (n = k)) as [->|N].
    + rewrite lookup_insert, E. split; eauto.
    + rewrite lookup_insert_ne by assumption. tauto.
  - destruct (decide (n = k)) as [->|N].
    + rewrite lookup_delete. cbn. tauto.
    + rewrite lookup_delete_ne by assumption. tauto.
  - tauto.
Qed.

Lemma zero_go s : go_store s -> go_store (store_zero s).
Proof.
  intros (A & B & H). split_and!; auto. cbn [store_zero sRecs]. intros m k r E Hk.
  destruct (sRecs s) as [m0|] eqn:E0; [|discriminate]. injection E as <-. rewrite lookup_fmap in Hk.
  destruct (m0 !! k) as [[r0|]|] eqn:E1; try discriminate. cbn in Hk. injection Hk as <-. exact (H _ _ _ eq_refl E1).
Qed.
Lemma zero_text s : text_store s -> text_store (store_zero s).
Proof.
  intros T m k v E Hk. cbn [store_zero sRecs] in E. destruct (sRecs s) as [m0|] eqn:E0; [|discriminate]. injection E as <-.
  rewrite lookup_fmap in Hk. destruct (m0 !! k) as [v0|] eqn:E1; [|discriminate]. cbn in Hk. injection Hk as <-.
  destruct (T _ _ _ E0 E1) as [T1 T2]. split; [assumption|]. intros r Hr. destruct v0 as [r0|]; [|discriminate]. cbn in Hr. injection Hr as <-.
  destruct (T2 r0 eq_refl) as [T3 T4]. split; [assumption|]. intros md k' v' Em Hk'. cbn [rec_zero rMeta] in Em.
  destruct (rMeta r0) as [md0|]; [|discriminate]. injection Em as <-. rewrite lookup_fmap in Hk'.
  destruct (md0 !! k') as [v0|] eqn:E2; [|discriminate]. eapply T4; eauto.
Qed.

Section WithCrypto.
Context {C : Crypto} {L : CryptoLaws}.
Lemma marshal_exact s m g :
  (forall salt nonce g1 g' key, sound s -> length salt = 32%nat -> length nonce = 24%nat ->
     delivers g salt g1 -> delivers g1 nonce g' -> mode_key m (default [] (sPass s)) salt key ->
     exists out c s', marshal_store s m g = Ret (Some out, s', g') /\ out = salt ++ c /\
       sealed_with key nonce (print (jstore s)) c) /\
  (exists r, marshal_store s m g = Ret r) /\
  (~ sound s \/ (m <> 0 /\ m <> 1) \/ starved g 32 -> exists g', marshal_store s m g = Ret (None, s, g')).
Proof.
  split_and!.
  - intros salt nonce g1 g' key V Ls Ln D1 D2 K. do 3 eexists.
    rewrite (marshal_succeeds s m g salt nonce g1 g' key) by assumption. split_and!; [reflexivity|reflexivity|]. split; [assumption|reflexivity].
  - apply marshal_total.
  - intros H. destruct (marshal_total s m g) as [[[r s'] g'] E]. pose proof E as E'.
    apply marshal_inv in E' as [(-> & -> & _)|(salt & key & nonce & g1 & V & Ls & Ln & D1 & D2 & K & _)]; [eauto|].
    exfalso. destruct H as [H|[[H0 H1]|H]]; [contradiction| |exact (H _ _ Ls D1)].
    destruct K as [[-> _]|[-> _]]; congruence.
Qed.
Lemma marshal_wipes s m g r s' g' : marshal_store s m g = Ret (r, s', g') ->
  (r = None -> s' = s) /\ (forall out, r = Some out -> wiped_store s s').
Proof.
  intros E. apply marshal_inv in E as [(-> & -> & _)|(salt & key & nonce & g1 & V & Ls & Ln & D1 & D2 & K & -> & ->)].
  - split; [auto|discriminate].
  - split; [discriminate|]. intros out _. apply wiped_store_zero.
Qed.
Lemma marshal_twice s m g out s' g' m2 out2 s2 g2 : go_store s ->
  marshal_store s m g = Ret (Some out, s', g') -> marshal_store s' m2 g' = Ret (Some out2, s2, g2) ->
  wiped_store s s' /\
  exists s3, unmarshal_store out2 (zeros (length (default [] (sPass s)))) m2 = Ret (Some s3) /\
    reloaded s' s3 /\ (text_store s -> s3 = s').
Proof.
  intros G E E2. pose proof E as W. apply marshal_wipes in W as [_ W]. split; [eauto|].
  apply marshal_inv in E as [([=] & _)|(salt & key & nonce & g1 & V & Ls & Ln & D1 & D2 & K & _ & ->)].
  destruct (marshal_roundtrip _ _ _ _ _ _ (zero_go s G) E2) as (s3 & E3 & R & T). exists s3. split_and!; auto.
  - rewrite <- E3. f_equal. cbn [store_zero sPass]. destruct (sPass s) as [p|]; cbn [option_map from_option id]; [|reflexivity].
    symmetry. apply zero_zeros.
  - intros T0. apply T. apply zero_text. assumption.
Qed.
Lemma change_password_roundtrip s pass m g out s' g' : go_store s ->
  marshal_store (change_password s pass) m g = Ret (Some out, s', g') ->
  exists s2, unmarshal_store out pass m = Ret (Some s2) /\ reloaded (change_password s pass) s2 /\
    (text_store s -> s2 = change_password s pass).
Proof.
  intros G E. destruct (marshal_roundtrip (change_password s pass) m g out s' g' G E) as (s2 & E2 & R & T).
  exists s2. auto.
Qed.
Lemma unmarshal_null pass m data : store_file m pass (bs "null") data ->
  unmarshal_store data pass m = Ret (Some (SStore 0 0 None (Some pass))).
Proof. intros F. apply unmarshal_exact. exists (bs "null"), JNull, (SStore 0 0 None None). split_and!; auto. Qed.
End WithCrypto.
