(** What secretscli's commands show, and what its dialogues leave. *)
From Verif Require Export CmdCliClaims SpecShow.
Local Open Scope Z_scope.

(** *** Numbers, hexadecimal and characters *)
Lemma show_natural z : 0 <= z -> natural_text (show z) z.
Proof.
  intros H. destruct (show_spec z H) as [D V]. split_and!; [|exact D|exact V|].
  - unfold show. cbn [show_fuel]. destruct (decide _) as [|N]; [discriminate|]. generalize (Z.to_nat (Z.log2 z)). intros n.
    assert (forall n z acc, acc <> [] -> show_fuel n z acc <> []) as A.
    { clear. intros n. induction n as [|n IH]; intros z acc Na; cbn [show_fuel]; [exact Na|]. destruct (decide _); [discriminate|]. apply IH. discriminate. }
    apply A. discriminate.
  - destruct (show z) as [|c t] eqn:E; [discriminate|]. intros [= ->]. destruct t as [|c t]; [reflexivity|exfalso].
    rewrite dval_cons in V. change (bz x30 - 48) with 0 in V. apply Forall_cons in D as [_ D]. pose proof (dval_range _ D) as R.
    unfold zlen in R. cbn [length] in R. pose proof (show_length z (length t) ltac:(lia)) as Ln. rewrite E in Ln. cbn in Ln. lia.
Qed.
Lemma show_int_text z : integer_text (show_int z) z.
Proof.
  unfold show_int. destruct (decide (z < 0)) as [N|N]; [right; exists (show (- z)); split; [reflexivity|split; [apply show_natural; lia|exact N]]|left; apply show_natural; lia].
Qed.
Lemma hexdigit_nibble n : 0 <= n < 16 -> nibble (hexdigit n) n.
Proof.
  intros H. unfold nibble, hexdigit. destruct (decide (n < 10)) as [L|L]; [left|right]; (split; [lia|]); rewrite bz_zb; lia.
Qed.
Lemma hex_hexes b : hexes b (hex b).
Proof.
  induction b as [|x b IH]; [constructor|]. unfold hex. cbn [map concat app]. pose proof (bz_range x). constructor; [apply hexdigit_nibble; lia|apply hexdigit_nibble; lia|exact IH].
Qed.
Lemma utf8_none b s r c : utf8_len (b :: s) = 0%nat -> scalar r -> rfc3629 r c -> ~ c `prefix_of` b :: s.
Proof. intros Z R E [t Hp]. destruct (rfc3629_len r c t R E) as [N Ln]. rewrite <- Hp, Z in Ln. destruct c; [congruence|discriminate]. Qed.
Lemma chunks_characters s : characters s (length (chunks s)).
Proof.
  remember (length s) as n eqn:E. assert (length s <= n)%nat as H by lia. clear E. revert s H.
  induction n as [|n IH]; intros s H; [destruct s; [constructor|cbn in H; lia]|]. destruct s as [|a r]; [constructor|]. cbn in H.
  destruct (utf8_len (a :: r)) as [|k] eqn:E.
  - assert (chunks (a :: r) = [a] :: chunks r) as ->.
    { unfold chunks at 1. cbn [length chunks_fuel]. rewrite E. f_equal. }
    cbn [length]. apply ch_stray; [intros; eapply utf8_none; eauto|]. apply IH. lia.
  - assert (utf8_len (a :: r) <> 0)%nat as NZ by lia. pose proof (take_len_chunk _ NZ) as O. pose proof (utf8_len_le (a :: r)) as Le.
    assert (utf8_len (take (utf8_len (a :: r)) (a :: r)) <> 0%nat) as NZ'.
    { pose proof (utf8_len_app (a :: r) [] NZ) as U. rewrite app_nil_r in U. rewrite U. exact NZ. }
    destruct (chunk_rfc _ O NZ') as (rr & Rs & Rf). rewrite <- (take_drop (utf8_len (a :: r)) (a :: r)).
    set (c := take _ _) in *. set (t := drop _ _). destruct (rfc3629_len rr c t Rs Rf) as [Nc Lc]. rewrite (chunks_app c t Nc Lc). cbn [length].
    apply (ch_char rr c t); [exact Rs|exact Rf|]. apply IH. unfold t. rewrite drop_length. cbn [length]. lia.
Qed.

(** *** Order *)
Lemma leb_lt a : forall b, bytes_leb a b = true -> a <> b -> str_lt a b.
Proof.
  induction a as [|x a IH]; intros [|y b]; cbn; intros H N; [congruence|constructor|discriminate|].
  destruct (decide (x = y)) as [->|Ne]; [constructor; apply IH; [exact H|congruence]|]. constructor. apply bool_decide_eq_true in H. exact H.
Qed.
Lemma leb_total a : forall b, bytes_leb a b = true \/ bytes_leb b a = true.
Proof.
  induction a as [|x a IH]; intros [|y b]; cbn; auto. destruct (decide (x = y)) as [->|Ne]; [rewrite decide_True by reflexivity; apply IH|].
  rewrite decide_False by congruence. rewrite !bool_decide_eq_true. assert (bz x <> bz y) by (intros E; apply Ne; apply bz_inj, E). lia.
Qed.
Lemma leb_trans a : forall b c, bytes_leb a b = true -> bytes_leb b c = true -> bytes_leb a c = true.
Proof.
  induction a as [|x a IH]; intros [|y b] [|z c]; cbn; auto; try discriminate.
  destruct (decide (x = y)) as [->|N1]; destruct (decide (y = z)) as [->|N2].
  - apply IH.
  - rewrite bool_decide_eq_true. auto.
  - rewrite decide_False by assumption. auto.
  - rewrite !bool_decide_eq_true. intros H1 H2. destruct (decide (x = z)) as [->|]; [lia|]. rewrite bool_decide_eq_true. lia.
Qed.
Lemma sorted_strictly ks : NoDup ks -> StronglySorted str_le ks -> StronglySorted str_lt ks.
Proof.
  induction 1 as [|k ks N D IH]; intros S; [constructor|]. inversion S as [|? ? S' F]; subst. constructor; [auto|].
  rewrite Forall_forall in F |- *. intros x Hx. apply leb_lt; [apply F, Hx|]. intros ->. contradiction.
Qed.

(** *** Listings *)
Lemma contains_iff s sub : str_contains s sub = true <-> exists a b, s = a ++ sub ++ b.
Proof.
  induction s as [|x s IH]; cbn [str_contains]; rewrite orb_true_iff, bool_decide_eq_true.
  - split; [intros [[b E]|]; [|discriminate]; exists [], b; exact E|]. intros (a & b & E). left. destruct a; [exists b; exact E|discriminate].
  - rewrite IH. split.
    + intros [[b E]|(a & b & ->)]; [exists [], b; exact E|exists (x :: a), b; reflexivity].
    + intros ([|y a] & b & E); [left; exists b; exact E|]. injection E as -> E. right. eauto.
Qed.
Lemma list_keys_in s pats k : k ∈ list_keys s pats <-> chosen_label s pats k.
Proof.
  unfold list_keys, chosen_label. rewrite merge_sort_Permutation, elem_of_list_filter. rewrite slot_recs.
  assert (k ∈ map fst (map_to_list (recs s)) <-> is_Some (recs s !! k)) as ->.
  { rewrite elem_of_list_fmap. split; [intros ([k' x] & -> & H); apply elem_of_map_to_list in H; eauto|]. intros [x H]. exists (k, x). split; [reflexivity|]. now apply elem_of_map_to_list. }
  split; intros [A B].
  - split; [exact B|]. destruct A as [A|A]; [auto|]. right. apply existsb_exists in A as (p & Hp & A). apply contains_iff in A as (a & b & ->). exists p, a, b. split; [now apply elem_of_list_In|reflexivity].
  - split; [|exact A]. destruct B as [B|(p & a & b & Hp & ->)]; [auto|]. right. apply existsb_exists. exists p. split; [now apply elem_of_list_In|]. apply contains_iff. eauto.
Qed.
Lemma list_keys_sorted s pats : StronglySorted str_lt (list_keys s pats).
Proof.
  apply sorted_strictly.
  - unfold list_keys. rewrite merge_sort_Permutation. apply NoDup_filter. apply NoDup_fst_map_to_list.
  - apply Sorted_StronglySorted; [intros a b c; apply leb_trans|]. apply Sorted_merge_sort. intros a b. apply leb_total.
Qed.
Lemma columns_rows n : 0 <= n -> forall ks, rows n ks (columns (Z.to_nat n) true ks).
Proof.
  intros Hn. assert (forall m ks, (length ks <= m)%nat -> rows n ks (columns (Z.to_nat n) true ks)) as A; [|intros ks; eapply A; reflexivity].
  assert (forall k, pad_right (Z.to_nat n) k = k ++ replicate (Z.to_nat (n - Z.of_nat (length (chunks k)))) x20) as P by (intros k; unfold pad_right; do 2 f_equal; lia).
  induction m as [|m IH]; intros [|k [|k' ks]] H; cbn in H; try lia; cbn [columns negb]; rewrite ?P, <- ?app_assoc; try constructor.
  - eapply rw_one; [apply chunks_characters|reflexivity].
  - eapply rw_two; [apply chunks_characters|reflexivity|]. apply IH. lia.
Qed.

Section WithCrypto.
Context `{C : Crypto} `{TT : Tty} {L : CryptoLaws} {TL : TtyLaws}.
Lemma list_listing s pats out : listing (default 80 (tty_width out)) s pats (list_text s pats out).
Proof.
  unfold list_text. set (w := default 80 (tty_width out)). exists (list_keys s pats). eexists _, _. split_and!; [apply list_keys_sorted|apply list_keys_in|apply show_natural; unfold zlen; lia| |reflexivity].
  destruct (decide (Exists _ _)) as [E|E].
  - left. apply Exists_exists in E as (k & Hk & Lk). split; [eauto|reflexivity].
  - right. split; [|apply columns_rows; lia]. intros k Hk. rewrite Exists_exists in E. apply Z.nlt_ge. intros Z. apply E. eauto.
Qed.
Lemma w_print_app w a b : w_print (w_print w a) b = w_print w (a ++ b).
Proof. unfold w_print. cbn. rewrite app_assoc. reflexivity. Qed.
Lemma w_print_nil w : w_print w [] = w. Proof. unfold w_print. rewrite app_nil_r. destruct w. reflexivity. Qed.
(** One step of a line: its verb. *)
Lemma command_at path m l cmd args v w : line_words l (cmd :: args) -> command path m l v w =
  if decide (cmd = bs "clear") then CRet true v (w_print w clear_text) else
  if decide (cmd = bs "help") then match help_text args with Some t => CRet true v (w_print w t) | None => CRet false v w end else
  if decide (cmd = bs "list") then CRet true v (w_print w (list_text (vStore v) args (wOut w))) else
  if decide (cmd = bs "quit") then match shutdown path m v w with CRet _ v w => CExit v w | r => r end else
  if decide (cmd = bs "passwd") then cli_passwd v w else
  if decide (cmd = bs "rmeta") then read_meta args v w else
  if decide (cmd = bs "show") then show_cmd false args v w else
  if decide (cmd = bs "showhex") then show_cmd true args v w else
  if decide (cmd = bs "store") then store_cmd path m args v w else
  if decide (cmd = bs "wmeta") then write_meta args v w else
  if decide (cmd = bs "write") then write_cmd path m args v w else CRet false v w.
Proof. intros W. apply fields_iff in W. unfold command. rewrite W. reflexivity. Qed.

(** C77: listing. *)
Lemma cli_lists path m l pats v w : line_words l (bs "list" :: pats) ->
  exists t, listing (default 80 (tty_width (wOut w))) (vStore v) pats t /\ command path m l v w = CRet true v (w_print w t).
Proof. intros W. rewrite (command_at _ _ _ _ _ _ _ W). repeat (rewrite decide_False by discriminate). rewrite decide_True by reflexivity. eexists. split; [apply list_listing|reflexivity]. Qed.

(** C77: showing secrets. *)
Definition show_verb (hx : bool) : bytes := if hx then bs "showhex" else bs "show".
Lemma show_whole hx many s args : whole s args -> forall v w, exists ts, Forall2 (shown hx many s) args ts /\ cli_show hx many s args v w = CRet true v (w_print w (concat ts)).
Proof.
  induction 1 as [|l args N F IH]; intros v w; cbn [cli_show]; [exists []; split; [constructor|cbn; rewrite w_print_nil; reflexivity]|].
  rewrite slot_recs in N. destruct (recs s !! l) as [[r|]|] eqn:E; [|congruence|].
  - edestruct (IH v (w_print w ((if many then l ++ bs ": " else []) ++ (if hx then hex (default [] (rSecret r)) else default [] (rSecret r)) ++ [x0a]))) as (ts & F2 & ->).
    eexists (_ :: ts). split; [constructor; [eapply sn_some|exact F2]|cbn [concat]; rewrite w_print_app; reflexivity]; [rewrite slot_recs; exact E|].
    destruct hx; [apply hex_hexes|reflexivity].
  - destruct (IH v (w_print w (not_found l))) as (ts & F2 & ->). eexists (_ :: ts). split; [constructor; [apply sn_none; rewrite slot_recs; exact E|exact F2]|].
    cbn [concat]. rewrite w_print_app. reflexivity.
Qed.
Lemma show_hole hx many s pre l post : whole s pre -> slot s l = Some None -> forall v w,
  exists ts, Forall2 (shown hx many s) pre ts /\ cli_show hx many s (pre ++ l :: post) v w = CPanic v (w_print w (concat ts)).
Proof.
  intros W E. rewrite slot_recs in E. induction W as [|k pre N F IH]; intros v w; cbn [cli_show app].
  { exists []. rewrite E. split; [constructor|cbn; rewrite w_print_nil; reflexivity]. }
  rewrite slot_recs in N. destruct (recs s !! k) as [[r|]|] eqn:Ek; [|congruence|].
  - edestruct (IH v (w_print w ((if many then k ++ bs ": " else []) ++ (if hx then hex (default [] (rSecret r)) else default [] (rSecret r)) ++ [x0a]))) as (ts & F2 & ->).
    eexists (_ :: ts). split; [constructor; [eapply sn_some|exact F2]|cbn [concat]; rewrite w_print_app; reflexivity]; [rewrite slot_recs; exact Ek|].
    destruct hx; [apply hex_hexes|reflexivity].
  - destruct (IH v (w_print w (not_found k))) as (ts & F2 & ->). eexists (_ :: ts). split; [constructor; [apply sn_none; rewrite slot_recs; exact Ek|exact F2]|].
    cbn [concat]. rewrite w_print_app. reflexivity.
Qed.
Lemma show_line (hx : bool) path m l args v w : line_words l ((if hx then bs "showhex" else bs "show") :: args) -> command path m l v w = show_cmd hx args v w.
Proof. intros W. rewrite (command_at _ _ _ _ _ _ _ W). destruct hx; repeat (rewrite decide_False by discriminate); rewrite decide_True by reflexivity; reflexivity. Qed.
Lemma cli_shows (hx : bool) path m l args v w : line_words l ((if hx then bs "showhex" else bs "show") :: args) -> args <> [] -> whole (vStore v) args ->
  exists ts, Forall2 (shown hx (bool_decide (1 < length args)%nat) (vStore v)) args ts /\ command path m l v w = CRet true v (w_print w (concat ts)).
Proof. intros W N H. rewrite (show_line _ _ _ _ _ _ _ W). unfold show_cmd. rewrite decide_False by exact N. apply show_whole, H. Qed.
Lemma cli_show_panics (hx : bool) path m l pre a post v w : line_words l ((if hx then bs "showhex" else bs "show") :: pre ++ a :: post) -> whole (vStore v) pre -> slot (vStore v) a = Some None ->
  exists ts, Forall2 (shown hx (bool_decide (0 < length pre + length post)%nat) (vStore v)) pre ts /\ command path m l v w = CPanic v (w_print w (concat ts)).
Proof.
  intros W H E. rewrite (show_line _ _ _ _ _ _ _ W). unfold show_cmd. rewrite decide_False by (destruct pre; discriminate).
  replace (bool_decide (0 < length pre + length post)%nat) with (bool_decide (1 < length (pre ++ a :: post))%nat) by (apply bool_decide_ext; rewrite app_length; cbn; lia).
  apply show_hole; assumption.
Qed.

(** C77: showing metadata. *)
Lemma meta_described s l r out : slot s l = Some (Some r) -> described tty_time s l (meta_head l r ++ meta_lines out r).
Proof.
  intros E. pose proof (meta_all out (default ∅ (rMeta r))) as P. set (es := tty_meta out (default ∅ (rMeta r))) in P.
  unfold meta_head, meta_lines. destruct (decide (default ∅ (rMeta r) = ∅)) as [Z|Z].
  - assert (es = []) as N. { rewrite Z, map_to_list_empty in P. apply Permutation_nil_r in P. exact P. }
    pose proof (ds_some tty_time s l r (show_int (rTime r)) es E (show_int_text _) P) as D. rewrite N in D.
    refine (eq_rect _ (described tty_time s l) D _ _). rewrite <- ?app_assoc. cbn [app]. rewrite ?app_nil_r. reflexivity.
  - pose proof (ds_some tty_time s l r (show_int (rTime r)) es E (show_int_text _) P) as D.
    assert (es <> []) as N. { intros Ez. rewrite Ez in P. symmetry in P. apply Permutation_nil_r in P. apply map_to_list_empty_iff in P. contradiction. }
    refine (eq_rect _ (described tty_time s l) D _ _). fold es. destruct es as [|e es']; [congruence|]. rewrite <- ?app_assoc. cbn [app]. rewrite <- ?app_assoc. reflexivity.
Qed.
Lemma metas_whole s args : whole s args -> forall v w, exists ts, Forall2 (described tty_time s) args ts /\ read_metas s args v w = CRet true v (w_print w (concat ts)).
Proof.
  induction 1 as [|l args N F IH]; intros v w; cbn [read_metas]; [exists []; split; [constructor|cbn; rewrite w_print_nil; reflexivity]|].
  rewrite slot_recs in N. destruct (recs s !! l) as [[r|]|] eqn:E; [|congruence|].
  - rewrite w_print_app. edestruct (IH v) as (ts & F2 & ->). eexists (_ :: ts). split; [constructor; [apply meta_described; rewrite slot_recs; exact E|exact F2]|].
    cbn [concat]. rewrite w_print_app. reflexivity.
  - destruct (IH v (w_print w (not_found l))) as (ts & F2 & ->). eexists (_ :: ts). split; [constructor; [apply ds_none; rewrite slot_recs; exact E|exact F2]|].
    cbn [concat]. rewrite w_print_app. reflexivity.
Qed.
Lemma cli_describes path m l args v w : line_words l (bs "rmeta" :: args) -> args <> [] -> whole (vStore v) args ->
  exists ts, Forall2 (described tty_time (vStore v)) args ts /\ command path m l v w = CRet true v (w_print w (concat ts)).
Proof.
  intros W N H. rewrite (command_at _ _ _ _ _ _ _ W). repeat (rewrite decide_False by discriminate). rewrite decide_True by reflexivity.
  unfold read_meta. rewrite decide_False by exact N. apply metas_whole, H.
Qed.
Lemma metas_hole s pre l post : whole s pre -> slot s l = Some None -> forall v w,
  exists ts, Forall2 (described tty_time s) pre ts /\ read_metas s (pre ++ l :: post) v w = CPanic v (w_print w (concat ts ++ bs "Record: " ++ l ++ [x0a])).
Proof.
  intros W E. rewrite slot_recs in E. induction W as [|k pre N F IH]; intros v w; cbn [read_metas app].
  { exists []. rewrite E. split; [constructor|reflexivity]. }
  rewrite slot_recs in N. destruct (recs s !! k) as [[r|]|] eqn:Ek; [|congruence|].
  - rewrite w_print_app. edestruct (IH v) as (ts & F2 & ->). eexists (_ :: ts). split; [constructor; [apply meta_described; rewrite slot_recs; exact Ek|exact F2]|].
    cbn [concat]. rewrite w_print_app, <- !app_assoc. reflexivity.
  - destruct (IH v (w_print w (not_found k))) as (ts & F2 & ->). eexists (_ :: ts). split; [constructor; [apply ds_none; rewrite slot_recs; exact Ek|exact F2]|].
    cbn [concat]. rewrite w_print_app, <- !app_assoc. reflexivity.
Qed.
Lemma cli_describe_panics path m l pre a post v w : line_words l (bs "rmeta" :: pre ++ a :: post) -> whole (vStore v) pre -> slot (vStore v) a = Some None ->
  exists ts, Forall2 (described tty_time (vStore v)) pre ts /\ command path m l v w = CPanic v (w_print w (concat ts ++ bs "Record: " ++ a ++ [x0a])).
Proof.
  intros W H E. rewrite (command_at _ _ _ _ _ _ _ W). repeat (rewrite decide_False by discriminate). rewrite decide_True by reflexivity.
  unfold read_meta. rewrite decide_False by (destruct pre; discriminate). apply metas_hole; assumption.
Qed.
(** C77: nothing named. *)
Lemma cli_no_labels path m l cmd v w : line_words l [cmd] -> cmd ∈ map bs ["rmeta"; "show"; "showhex"; "store"; "wmeta"]%string -> command path m l v w = CRet false v w.
Proof. clear L TL.
  intros W H. cbn [map] in H. apply fields_iff in W. unfold command. rewrite W.
  repeat (apply elem_of_cons in H as [-> |H]; [reflexivity|]). apply elem_of_nil in H. tauto.
Qed.

(** C77: help, and words that are no commands. *)
Lemma help_of_iff c : is_Some (help_of c) <-> c ∈ verbs.
Proof. clear L TL.
  unfold help_of. assert (c ∈ verbs <-> c ∈ map fst help_table) as ->.
  { split; intros H; cbn [verbs map fst help_table] in H |- *; set_solver. }
  induction help_table as [|[k h] t IH]; cbn [find map fst]; [split; [intros [? [=]]|intros H; apply elem_of_nil in H; tauto]|].
  destruct (bool_decide (k = c)) eqn:E; [apply bool_decide_eq_true in E as ->; cbn; split; [left|eauto]|].
  apply bool_decide_eq_false in E. rewrite IH, elem_of_cons. split; [auto|]. intros [->|]; [congruence|assumption].
Qed.
Lemma help_line path m l args v w : line_words l (bs "help" :: args) -> command path m l v w = match help_text args with Some t => CRet true v (w_print w t) | None => CRet false v w end.
Proof. clear L TL. intros W. rewrite (command_at _ _ _ _ _ _ _ W). rewrite decide_False by discriminate. rewrite decide_True by reflexivity. reflexivity. Qed.
Lemma cli_help path m l v w : line_words l [bs "help"] -> exists t, command path m l v w = CRet true v (w_print w t) /\
  forall c, c ∈ verbs -> exists a b d, t = a ++ [x0a; x09] ++ c ++ bs ": " ++ d ++ [x0a] ++ b /\ d <> [].
Proof. clear L TL.
  intros W. rewrite (help_line _ _ _ _ _ _ W). eexists. split; [reflexivity|]. unfold commands_text. intros c Hc.
  assert (exists h t1 t2, help_table = t1 ++ (c, h) :: t2 /\ hOld h <> []) as (h & t1 & t2 & -> & N).
  { assert (c ∈ map fst help_table) as H by (revert Hc; cbn [verbs map fst help_table]; set_solver).
    apply elem_of_list_fmap in H as ([c' h] & -> & H). apply elem_of_list_split in H as (t1 & t2 & H). exists h, t1, t2. split; [exact H|].
    assert (Forall (fun kv => hOld (snd kv) <> []) help_table) as F by (repeat constructor; discriminate). rewrite H in F. apply Forall_app in F as [_ F]. apply Forall_cons in F as [F _]. exact F. }
  rewrite map_app, concat_app. cbn [map concat fst snd].
  set (row := fun kv : bytes * cmd_help => [x09] ++ fst kv ++ bs ": " ++ hOld (snd kv) ++ [nl]).
  set (last := bs "Use help command (e.g. help list) to read more detailed help messages." ++ [nl]). clearbody last.
  assert (forall t, exists a, bs "Commands:" ++ [nl] ++ concat (map row t) = a ++ [x0a]) as A.
  { intros t. destruct t as [|e t] using rev_ind; [exists (bs "Commands:"); cbn [map concat]; rewrite app_nil_r; reflexivity|]. clear IHt.
    rewrite map_app, concat_app. cbn [map concat]. unfold row at 2. rewrite app_nil_r. exists (bs "Commands:" ++ [nl] ++ concat (map row t) ++ [x09] ++ fst e ++ bs ": " ++ hOld (snd e)).
    rewrite <- !app_assoc. reflexivity. }
  destruct (A t1) as [a Ea]. exists a, (concat (map row t2) ++ last), (hOld h). split; [|exact N].
  fold row. rewrite <- !app_assoc. rewrite (app_assoc [nl]), (app_assoc (bs "Commands:")). rewrite Ea. rewrite <- !app_assoc. reflexivity.
Qed.
Lemma cli_help_on path m l c args v w : line_words l (bs "help" :: c :: args) ->
  (c ∈ verbs -> exists t, command path m l v w = CRet true v (w_print w (c ++ bs ": " ++ t))) /\ (c ∉ verbs -> command path m l v w = CRet false v w).
Proof. clear L TL.
  intros W. rewrite (help_line _ _ _ _ _ _ W). cbn [help_text]. rewrite <- help_of_iff. split.
  - intros [h E]. rewrite E. eexists. reflexivity.
  - intros N. destruct (help_of c); [exfalso; eauto|reflexivity].
Qed.
Lemma cli_unknown path m l cmd args v w : line_words l (cmd :: args) -> cmd ∉ verbs -> command path m l v w = CRet false v w.
Proof. clear L TL.
  intros W N. rewrite (command_at _ _ _ _ _ _ _ W).
  repeat (rewrite decide_False by (intros ->; apply N; cbn [verbs map]; set_solver)). reflexivity.
Qed.
Lemma cli_clear path m l args v w : line_words l (bs "clear" :: args) -> command path m l v w = CRet true v (w_print w (map zb [27; 91; 72; 27; 91; 50; 74; 10])).
Proof. clear L TL. intros W. apply fields_iff in W. unfold command. rewrite W. reflexivity. Qed.

(** C78: metadata dialogues. *)
Lemma wmeta_loop_exact n : forall md w md' b w', (pending (wIn w) < n)%nat -> wmeta_loop n md w = (md', b, w') ->
  exists ls, (if b : bool then dialogue (wIn w) ls (wIn w') else breaks_off (wIn w) ls (wIn w')) /\ dictates ls md md' /\ w' = set_in w (wIn w').
Proof.
  induction n as [|n IH]; intros md w md' b w' Ln; cbn [wmeta_loop]; [lia|].
  destruct (w_line w) as [[line|] w1] eqn:E.
  2:{ intros [= <- <- <-]. unfold w_line in E. destruct (read_line (wIn w)) as [o i] eqn:R. injection E as -> <-. exists []. split; [apply bo_end; exact R|]. split; [constructor|reflexivity]. }
  assert (read_line (wIn w) = (Some line, wIn w1) /\ w1 = set_in w (wIn w1)) as [R Ew].
  { unfold w_line in E. destruct (read_line (wIn w)) as [o i]. injection E as -> <-. split; reflexivity. }
  destruct (decide (line = [])) as [->|N].
  - intros [= <- <- <-]. exists []. split; [apply dialogue_nil; exact R|]. split; [constructor|exact Ew].
  - pose proof (read_line_shrinks _ _ _ R) as Sh. assert (pending (wIn w1) < n)%nat as Ln' by lia.
    destruct (split_meta line) as [[k x]|] eqn:S; intros H; apply IH in H as (ls & D & T & F); try exact Ln'; exists (line :: ls).
    + split; [destruct b; [eapply dialogue_cons|eapply bo_line]; eauto|]. split; [eapply dc_pair; [apply split_meta_some; exact S|exact T]|]. rewrite F, Ew. reflexivity.
    + split; [destruct b; [eapply dialogue_cons|eapply bo_line]; eauto|]. split; [apply dc_skip; [apply split_meta_none; exact S|exact T]|]. rewrite F, Ew. reflexivity.
Qed.
Lemma wmeta_line path m l args v w : line_words l (bs "wmeta" :: args) -> command path m l v w = write_meta args v w.
Proof. intros W. rewrite (command_at _ _ _ _ _ _ _ W). repeat (rewrite decide_False by discriminate). rewrite decide_True by reflexivity. reflexivity. Qed.
Lemma cli_wmeta path m l label v w r : line_words l [bs "wmeta"; label] -> slot (vStore v) label = Some (Some r) ->
  exists ls i' md' v' w', dictates ls (default ∅ (rMeta r)) md' /\ same_but label (vStore v) (vStore v') /\
    sVersion (vStore v') = sVersion (vStore v) /\ sPass (vStore v') = sPass (vStore v) /\
    (dialogue (wIn w) ls i' /\ command path m l v w = CRet true v' w' /\ vDirty v' = true /\ sTime (vStore v') = nth 0 (wClk w) 0 /\
       slot (vStore v') label = Some (Some (SRec (rLabel r) (nth 0 (wClk w) 0) (rSecret r) (Some md'))) /\
       w' = World (wFs w) i' (wPw w) (drop 1 (wClk w)) (wRng w) (wFate w) (wOut w) \/
     breaks_off (wIn w) ls i' /\ command path m l v w = CRet false v' w' /\ vDirty v' = vDirty v /\ sTime (vStore v') = sTime (vStore v) /\
       slot (vStore v') label = Some (Some (SRec (rLabel r) (rTime r) (rSecret r) (Some md'))) /\ w' = set_in w i').
Proof.
  intros W E. rewrite (wmeta_line _ _ _ _ _ _ W). unfold write_meta. pose proof E as E0. rewrite slot_recs in E. rewrite E.
  destruct (wmeta_loop _ _ w) as [[md b] w1] eqn:El. apply wmeta_loop_exact in El as (ls & D & T & Ew); [|lia].
  unfold slot in E0. destruct (sRecs (vStore v)) as [mm|] eqn:Em; [|discriminate].
  exists ls, (wIn w1), md. destruct b.
  - destruct (w_now w1) as [t w2] eqn:En. assert (t = nth 0 (wClk w) 0 /\ w2 = World (wFs w) (wIn w1) (wPw w) (drop 1 (wClk w)) (wRng w) (wFate w) (wOut w)) as [-> ->].
    { rewrite Ew in En |- *. unfold w_now in En. cbn in En |- *. destruct (wClk w) as [|t0 ts] eqn:Ec; injection En as <- <-; unfold set_in; rewrite ?Ec; split; reflexivity. }
    unfold set_rec. cbn [sRecs]. eexists (Sess (SStore (sVersion (vStore v)) (nth 0 (wClk w) 0) (Some (<[label := Some (SRec (rLabel r) (nth 0 (wClk w) 0) (rSecret r) (Some md))]> mm)) (sPass (vStore v))) true), _. split; [exact T|]. cbn [vStore sVersion sPass sTime vDirty]. split_and!; [|reflexivity|reflexivity|].
    + intros k Nk. unfold slot. cbn [sRecs]. rewrite Em. apply lookup_insert_ne. congruence.
    + left. split_and!; try reflexivity; [exact D|]. unfold slot. cbn [sRecs]. apply lookup_insert.
  - unfold set_rec. rewrite Em. eexists (Sess (SStore (sVersion (vStore v)) (sTime (vStore v)) (Some (<[label := Some (SRec (rLabel r) (rTime r) (rSecret r) (Some md))]> mm)) (sPass (vStore v))) (vDirty v)), _. split; [exact T|]. cbn [vStore sVersion sPass sTime vDirty set_store]. split_and!; [|reflexivity|reflexivity|].
    + intros k Nk. unfold slot. cbn [sRecs]. rewrite Em. apply lookup_insert_ne. congruence.
    + right. split_and!; try reflexivity; [exact D| |exact Ew]. unfold slot. cbn [sRecs]. apply lookup_insert.
Qed.
Lemma cli_wmeta_fails path m l args v w : line_words l (bs "wmeta" :: args) ->
  (length args <> 1%nat -> command path m l v w = CRet false v w) /\
  (forall label, args = [label] -> slot (vStore v) label = None -> command path m l v w = CRet false v w) /\
  (forall label, args = [label] -> slot (vStore v) label = Some None -> command path m l v w = CPanic v w).
Proof.
  intros W. rewrite (wmeta_line _ _ _ _ _ _ W). split_and!.
  - intros N. destruct args as [|a [|b args]]; [reflexivity|cbn in N; congruence|reflexivity].
  - intros label -> E. rewrite slot_recs in E. unfold write_meta. rewrite E. reflexivity.
  - intros label -> E. rewrite slot_recs in E. unfold write_meta. rewrite E. reflexivity.
Qed.

(** C58: the end of the input. *)
Lemma done_closed path m v0 w0 c : reaches path m (cli_start v0 w0) c -> tRead c = RDone -> tInClosed c = true \/ tPrClosed c = true.
Proof.
  induction 1 as [|c c' R IH S]; [discriminate|]. destruct S; cbn in *; intros E; try discriminate; auto.
Qed.
Lemma eof_ends path m v0 w0 c : reaches path m (cli_start v0 w0) c -> tRead c = RDone -> tLoop c = LSelect ->
  exists c', cli_step path m c c' /\ tLoop c' = LReturned /\ tPrClosed c' = false /\ tSess c' = tSess c /\ tWorld c' = tWorld c /\ tDone c' = tDone c.
Proof.
  intros R E El. pose proof (done_closed _ _ _ _ _ R E) as D. apply ahead_reach in R. unfold ahead_of in R. rewrite El in R. destruct R as [P _].
  destruct c as [r q ic pc v w d]. cbn in *. subst. destruct D as [-> |]; [|discriminate]. eexists. split; [apply st_in_closed|]. cbn. auto.
Qed.
Lemma eof_closes path m v0 w0 c i : reaches path m (cli_start v0 w0) c -> tRead c = RRead -> tLoop c = LSelect -> read_line (wIn (tWorld c)) = (None, i) ->
  exists c1 c2, cli_step path m c c1 /\ tRead c1 = RDone /\ tInClosed c1 = true /\ cli_step path m c1 c2 /\ tLoop c2 = LReturned /\ tPrClosed c2 = false /\
    tSess c2 = tSess c /\ wFs (tWorld c2) = wFs (tWorld c) /\ tDone c2 = tDone c.
Proof.
  intros R E El Ei. destruct c as [r q ic pc v w d]. cbn in *. subst. assert (pc = false) as ->.
  { apply ahead_reach in R. unfold ahead_of in R. cbn in R. tauto. }
  eexists _, _. split; [eapply st_eof; [discriminate|exact Ei]|]. cbn. split_and!; try reflexivity; [apply st_in_closed|reflexivity..].
Qed.
End WithCrypto.
