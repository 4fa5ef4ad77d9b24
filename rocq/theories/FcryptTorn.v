(** Proofs about Fcrypt.v: writes of the key store that are cut short. *)
From Verif Require Export KeySrvLives.
Local Open Scope Z_scope.

Section WithCrypto.
Context {C : Crypto} {L : CryptoLaws}.

Lemma raw_write_cut w p d ok w' : w_raw_write w p d = (ok, w') -> wFs w' = wFs w \/ exists n, wFs w' = <[p := take n d]> (wFs w).
Proof.
  unfold w_raw_write. destruct (decide _); [intros [= <- <-]; left; reflexivity|].
  destruct (match wFate w with [] => _ | _ => _ end) as [fate rest]. destruct fate as [| |cut]; cbn; intros [= <- <-]; cbn; [|left; reflexivity|right; eauto].
  right. exists (length d). rewrite firstn_all. reflexivity.
Qed.
(** After any run the store's file is the one found, one that cannot be loaded, or a whole dump. *)
Lemma fcr_store_file f o l w w' : ends (fc_main f o l w) w' -> (forall k a, chosen l = Some (k, a) -> out_path k (lArgs l) <> Some (lPath l)) ->
  wFs w' !! lPath l = wFs w !! lPath l \/ unloadable (wFs w') (lPath l) \/ exists s, wFs w' !! lPath l = Some (ks_dump s).
Proof.
  intros He No. destruct (decide (wFs w' !! lPath l = wFs w !! lPath l)) as [|Hp]; [left; assumption|right].
  destruct (fcr_files f o l w w' (lPath l) He Hp) as (k & a & s & Hc & K & [X|[_ Hm]]); [destruct (No k a Hc X)|].
  apply ends_iff in He.
  destruct (decide (length (lArgs l) < required_argc k)%nat) as [Ha|Ha].
  { unfold fc_main in He. rewrite Hc in He. destruct (decide _); [|contradiction]. injection He as <-. contradiction. }
  assert (required_argc k <= length (lArgs l))%nat as Ha' by lia.
  assert (forall w2, touches (out_path k (lArgs l)) w w2 -> wFs w2 !! lPath l = wFs w !! lPath l) as T1.
  { intros w2 T. specialize (No k a Hc). destruct (out_path k (lArgs l)) as [q|]; [|rewrite (keeps_fs _ _ T); reflexivity].
    destruct T as [T _]. apply T. congruence. }
  destruct (main_cases f o l k a s w Hc Ha' K) as [(wx & Kx & [E|E])|(s1 & w1 & B & K1 & G & Ek & Hh & D)].
  1,2: rewrite E in He; injection He as <-; rewrite (keeps_fs _ _ Kx) in Hp; contradiction.
  pose proof (fc_run_within f o k s1 (cfg_of l a) w1 Ha') as Wi. change (fArgs (cfg_of l a)) with (lArgs l) in Wi.
  destruct D as [(wx & R & E)|[(wx & R & E)|[[_ E]|(s2 & rep & w2 & R & T & _ & Q & M)]]].
  1,2: rewrite E in He; injection He as <-; destruct Hp; apply T1; eapply touches_keeps; [exact K1|]; apply Wi; rewrite R; reflexivity.
  1: rewrite E in He; discriminate He.
  assert (wFs w2 !! lPath l = wFs w !! lPath l) as T2 by (apply T1; eapply touches_keeps; eauto).
  rewrite (M (proj2 (must_iff _ _) Hm)) in He. destruct (w_raw_write (tick w2) _ _) as [ok w3] eqn:W.
  assert (w' = w3) as -> by (destruct ok; injection He as <-; reflexivity).
  apply raw_write_cut in W as [W|[n W]]; [destruct Hp; rewrite W; exact T2|].
  match type of W with context [take n (ks_dump ?x)] => set (d := x) in W end.
  destruct (decide (n < length (ks_dump d))%nat) as [Hn|Hn].
  - left. eapply (torn_dump d n); [exact Hn|]. rewrite W. apply lookup_insert.
  - right. exists d. rewrite W, take_ge by lia. apply lookup_insert.
Qed.
(** Whatever is written of it, a store that is cut short is lost. *)
Lemma fcr_cut f o l a label rest s w n fates : key_file (wFs w) (lPath l) s -> chosen l = Some (FRemove, a) -> lArgs l = label :: rest ->
  label <> bs "self" -> kpresent s label -> wFate w = WPartial n :: fates ->
  exists w' s', let d := ks_dump (at_time s' (nth 2 (wClk w) 0)) in fc_main f o l w = Fail w' /\ without s label s' /\
    wFs w' = <[lPath l := take n d]> (wFs w) /\ (2 <= length d)%nat /\
    ((n < length d)%nat -> unloadable (wFs w') (lPath l) /\ forall s2, ~ key_file (wFs w') (lPath l) s2).
Proof.
  intros K Hc Ha N Pr Fa0. destruct (key_file_locked _ _ _ K) as (R & P & Lk & Bl).
  rewrite (main_eq f o l FRemove a s w Hc) by (try exact K; rewrite Ha; cbn; lia). cbn [needs_unlock then_ fc_run].
  assert (farg 0 (cfg_of l a) = label) as Fa by (unfold farg; cbn [fArgs cfg_of]; rewrite Ha; reflexivity).
  assert (fc_remove s (cfg_of l a) (tick (tick w)) = Done (remove_key s label) (tick (tick w))) as ->.
  { apply remove_done. rewrite Fa. split; [exact N|]. split; [|auto]. apply ks_has_iff. auto. }
  cbn [silent then_ fst snd must should_write orb]. rewrite finish_writes by (apply no_priv; exact P).
  unfold w_raw_write. destruct (decide (lPath l = [])) as [X|_]; [destruct K; contradiction|]. cbn [tick wFate]. rewrite Fa0. cbn [write_file].
  rewrite <- clock_tick2. eexists _, (remove_key s label). cbv zeta. split; [reflexivity|]. split; [apply without_remove; apply R|]. cbn [wFs tick].
  split; [reflexivity|]. set (s' := at_time (remove_key s label) (clock (tick (tick w)))). split.
  - rewrite dump_json. destruct (print_obj (match jkstore s' with JObj x => x | _ => [] end)) as [x Ex].
    match goal with |- (_ <= length ?y)%nat => replace y with (x7b :: x ++ [x7d]) by (symmetry; exact Ex) end. cbn [length]. rewrite app_length. cbn. lia.
  - intros Hn. assert (unloadable (<[lPath l := take n (ks_dump s')]> (wFs w)) (lPath l)) as U.
    { eapply torn_dump; [exact Hn|]. apply lookup_insert. }
    split; [exact U|]. intros s2 (_ & _ & Ld & _). specialize (Ld true 0 0 []). specialize (U true 0 0 []). rewrite U in Ld. discriminate Ld.
Qed.
End WithCrypto.
