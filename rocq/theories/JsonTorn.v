(** A dump of an object that has been cut short is not JSON. *)
From Verif Require Export StoreText.
Local Open Scope Z_scope.

(** An object is recognised whatever follows it. *)
Lemma pval_object t l f r : jvalue t (JObj l) -> (2 * length t < f)%nat -> pval f (t ++ r) = Some (JObj l, r).
Proof.
  intros J Hf. destruct f; [lia|]. inversion J as [| | | | | | |w W E1 E2|s l' M E1 E2]; subst; cbn [pval app skip_ws]; change (is_ws x7b) with false; cbv iota;
    rewrite !(decide_False (P := x7b = _)) by discriminate; rewrite decide_True by reflexivity; rewrite <- app_assoc; cbn [app].
  - rewrite skip_blank by exact W. reflexivity.
  - destruct (jmembers_head _ _ M) as (b & u & E & N). rewrite (skip_app _ _ _ _ E). rewrite decide_False by (cbn; congruence).
    rewrite (proj2 (proj2 pval_complete) s l M); [reflexivity|]. cbn [length] in Hf. rewrite app_length in Hf. cbn [length] in Hf. lia.
Qed.
Lemma jvalue_brace t j : jvalue (x7b :: t) j -> exists l, j = JObj l.
Proof.
  intros J. remember (x7b :: t) as u eqn:E. destruct J as [| | |n N|s v S|w W|s l S|w W|s l S]; try discriminate E; eauto.
  - exfalso. subst n. destruct (jvalue_head _ _ (jv_number _ N)) as (b & u & [= <- <-] & _ & _ & _ & H). specialize (H _ eq_refl). tauto.
  - destruct S as (u & -> & _). discriminate E.
Qed.
Lemma print_obj l : exists m, print (JObj l) = x7b :: m ++ [x7d].
Proof. cbn [print]. eauto. Qed.
Lemma torn_object l p q : int_json (JObj l) -> print (JObj l) = p ++ q -> q <> [] -> parse_json p = None.
Proof.
  intros I E Q. destruct (parse_json p) as [j|] eqn:P; [exfalso|reflexivity].
  apply parse_json_exact in P as (w & t & w' & -> & W & J & W' & _).
  destruct (print_obj l) as (m & Em).
  assert (w = []) as ->.
  { rewrite Em in E. destruct w as [|b w]; [reflexivity|]. injection E as <- _. inversion W as [|? ? H _]; subst. destruct H as [H|[H|[H|H]]]; discriminate H. }
  cbn [app] in E. assert (exists l', j = JObj l') as [l' ->].
  { destruct (jvalue_head _ _ J) as (b & u & -> & _). rewrite Em in E. injection E as <- _. eapply jvalue_brace, J. }
  pose proof (pval_print _ I (S (2 * length (print (JObj l)))) []) as Pp. rewrite app_nil_r in Pp. specialize (Pp ltac:(lia) ltac:(intros b [=])).
  rewrite E in Pp. rewrite <- app_assoc in Pp.
  rewrite (pval_object t l') in Pp; [|exact J|rewrite !app_length; lia].
  injection Pp as _ Es. apply app_eq_nil in Es as [_ Es]. contradiction.
Qed.
