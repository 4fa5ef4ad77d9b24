(** Proofs about CmdCli.v. *)
From Verif Require Export SpecCli CmdSecretsClaims.
Local Open Scope Z_scope.

(** *** Words *)
Lemma words_sep w s xs : white_space w -> line_words s xs -> line_words (w ++ s) xs.
Proof.
  intros W H. inversion H; subst.
  - apply (wd_end (w :: sep)). constructor; assumption.
  - rewrite app_assoc. apply (wd_word (w :: sep)); auto.
Qed.
Lemma fields_from_words f : forall cur s, (length s < f)%nat ->
  (forall u v, cur = u ++ v -> v <> [] -> lead_space (v ++ s) = None) ->
  line_words (cur ++ s) (fields_from f cur s).
Proof.
  induction f as [|f IH]; intros cur s Lf I; cbn [fields_from]; [lia|].
  assert (forall rest, (s = [] \/ exists w u, white_space w /\ s = w ++ u) -> line_words s rest -> line_words (cur ++ s) ((if decide (cur = []) then [] else [cur]) ++ rest)) as A.
  { intros rest S H. destruct (decide (cur = [])) as [->|N]; [exact H|]. apply (wd_word []); [constructor|exact N| |exact S|exact H].
    intros w u v W E. destruct S as [->|(w' & u' & W' & E')].
    - specialize (I u (w ++ v) E). rewrite app_nil_r in I. apply (lead_space_none _ (I ltac:(pose proof (white_nonempty w W); destruct w; [cbn in *; lia|discriminate])) w v W eq_refl).
    - specialize (I u (w ++ v) E ltac:(pose proof (white_nonempty w W); destruct w; [cbn in *; lia|discriminate])).
      apply (lead_space_none _ I w (v ++ s) W). rewrite <- app_assoc. reflexivity. }
  destruct (lead_space s) as [w|] eqn:El.
  - apply lead_space_some in El as [W E]. pose proof (white_nonempty w W).
    assert (line_words s (fields_from f [] (drop (length w) s))) as B.
    { rewrite E at 1. apply words_sep; [exact W|]. apply (IH []); [apply (f_equal length) in E; rewrite app_length in E; rewrite drop_length in *; lia|]. intros u v Ev Nv. destruct u; [destruct v; [congruence|discriminate]|discriminate]. }
    apply A; [right; eauto|exact B].
  - destruct s as [|b s].
    + rewrite <- (app_nil_r (if decide _ then _ else _)). apply A; [auto|]. apply (wd_end []). constructor.
    + replace (cur ++ b :: s) with ((cur ++ [b]) ++ s) by (rewrite <- app_assoc; reflexivity). apply IH; [cbn in Lf; lia|].
      intros u v E Nv. destruct v as [|b' v] using rev_ind; [congruence|]. rewrite app_assoc in E. apply app_inj_tail in E as [E <-].
      rewrite <- app_assoc. cbn. destruct v as [|c v]; [exact El|]. apply (I u (c :: v) E). discriminate.
Qed.
Lemma fields_words s : line_words s (str_fields s).
Proof. apply (fields_from_words _ []); [lia|]. intros u v E N. destruct u, v; try discriminate; congruence. Qed.

Lemma word_starts x s : x <> [] -> no_space_in x -> (s = [] \/ exists w u, white_space w /\ s = w ++ u) ->
  forall w u, white_space w -> x ++ s <> w ++ u.
Proof.
  intros N X S w u W E. apply app_eq_inv in E as [(k & -> & ->)|(k & -> & ->)].
  - exact (X w [] k W eq_refl).
  - destruct k as [|b k]; [rewrite app_nil_r in W; exact (X x [] [] W (eq_sym (app_nil_r x)))|].
    destruct S as [S|(w' & u' & W' & S)]; [destruct u; discriminate|].
    pose proof (white_head _ W') as (b' & r & -> & Cb). cbn in S. injection S as -> _.
    destruct x as [|c x]; [congruence|]. pose proof (white_rest _ W c (x ++ b' :: k) eq_refl) as F. apply Forall_app in F as [_ F]. inversion F; congruence.
Qed.
Lemma word_unique x s x' s' : no_space_in x -> no_space_in x' -> x' <> [] ->
  (s = [] \/ exists w u, white_space w /\ s = w ++ u) -> (s' = [] \/ exists w u, white_space w /\ s' = w ++ u) ->
  x ++ s = x' ++ s' -> forall k, x' = x ++ k -> s = k ++ s' -> k = [].
Proof.
  intros X X' N S S' E k -> Es. destruct k as [|b k]; [reflexivity|]. exfalso. destruct S as [->|(w & u & W & S)]; [discriminate|].
  rewrite Es in S. refine (word_starts (b :: k) s' _ _ S' w u W S); [discriminate|]. intros w' u' v' W' E'. apply (X' w' (x ++ u') v' W'). rewrite E', !app_assoc. reflexivity.
Qed.
Lemma words_unique s xs : line_words s xs -> forall ys, line_words s ys -> xs = ys.
Proof.
  induction 1 as [sep F|sep x s xs F N X S H IH]; intros ys H'.
  - remember (concat sep) as t eqn:Et. inversion H' as [sep' F'|sep' x' s' ys' F' N' X' S' H1']; subst; [reflexivity|]. exfalso.
    pose proof (lead_unique sep sep' [] (x' ++ s') F F') as U. rewrite app_nil_r in U.
    assert ([] = x' ++ s') as U1; [apply U; auto|].
    + intros w u W E. pose proof (white_nonempty w W). destruct w; [cbn in *; lia|discriminate].
    + apply word_starts; assumption.
    + destruct x'; [congruence|discriminate].
  - remember (concat sep ++ x ++ s) as t eqn:Et. inversion H' as [sep' F'|sep' x' s' ys' F' N' X' S' H1']; subst.
    + exfalso. pose proof (lead_unique sep sep' (x ++ s) [] F F') as U. rewrite app_nil_r in U. assert (x ++ s = []) as U1; [apply U; auto|].
      * apply word_starts; assumption.
      * intros w u W E. pose proof (white_nonempty w W). destruct w; [cbn in *; lia|discriminate].
      * destruct x; [congruence|discriminate].
    + assert (x ++ s = x' ++ s') as U by (apply (lead_unique sep sep' (x ++ s) (x' ++ s') F F'); auto using word_starts).
      assert (x = x' /\ s = s') as [-> ->]; [|f_equal; auto].
      pose proof U as U0. apply app_eq_inv in U as [(k & -> & Es)|(k & -> & Es)].
      * pose proof (word_unique x' s' (x' ++ k) s X' X N S' S (eq_sym U0) k eq_refl Es) as ->. rewrite app_nil_r. split; [reflexivity|]. symmetry. exact Es.
      * pose proof (word_unique x s (x ++ k) s' X X' N' S S' U0 k eq_refl Es) as ->. rewrite app_nil_r. split; [reflexivity|exact Es].
Qed.
Lemma fields_iff s xs : str_fields s = xs <-> line_words s xs.
Proof. split; [intros <-; apply fields_words|]. intros H. eapply words_unique; [apply fields_words|exact H]. Qed.
