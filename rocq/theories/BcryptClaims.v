(** bcrypt's text: what is written and exactly what is accepted; the law [AuthLibLaws] assumes. *)
From Verif Require Export BcryptFacts Auth.
From Verif Require Import BytesFacts CodecFacts Base64Facts WrittenClaims AuthFacts AuthRuns.
Local Open Scope Z_scope.

(** *** Characters *)
Definition unbc (c : byte) : option Z := match list_find (fun d => d = c) bcrypt_alphabet with Some (i, _) => Some (Z.of_nat i) | None => None end.
Lemma unbc_digit c v : unbc c = Some v <-> digit bcrypt_alphabet c v.
Proof. apply digit_in; [vm_compute; reflexivity|]. apply (bool_decide_unpack _). vm_compute. exact I. Qed.
Lemma bc_char_digit n : 0 <= n < 64 -> digit bcrypt_alphabet (bc_char n) n.
Proof.
  intros H. split; [lia|]. unfold bc_char. change bc_alphabet with bcrypt_alphabet.
  destruct (lookup_lt_is_Some_2 bcrypt_alphabet (Z.to_nat n)) as [c E]; [change (length bcrypt_alphabet) with 64%nat; lia|].
  rewrite E. f_equal. rewrite nth_lookup, E. reflexivity.
Qed.
Lemma digit_fun al c v c' : digit al c v -> digit al c' v -> c = c'.
Proof. intros (_ & A) (_ & B). congruence. Qed.
Lemma bc_num_digit c v : bc_num c = Some v <-> decimal c v.
Proof. apply digit_in; [vm_compute; reflexivity|]. apply (bool_decide_unpack _). vm_compute. exact I. Qed.
Lemma bc_digit_digit n : 0 <= n <= 9 -> decimal (bc_digit n) n.
Proof. intros H. apply bc_num_digit. unfold bc_num, bc_digit. rewrite bz_zb, Z.mod_small by lia. rewrite decide_True by lia. f_equal. lia. Qed.

(** *** Written *)
Lemma bc_written b : radix64_written (bc_encode b) b.
Proof.
  induction b as [|x|x y|x y z b IH] using three_step.
  - exists []. split; [constructor|]. exists 0. split_and!; auto; lia.
  - pose proof (bz_range x). cbn [bc_encode]. eexists [_; _]. split; [repeat constructor; apply bc_char_digit; lia|].
    exists 4. split_and!; [lia..|reflexivity|]. unfold radix, unbe. cbn [fold_left unbe_acc]. lia.
  - pose proof (bz_range x). pose proof (bz_range y). cbn [bc_encode]. eexists [_; _; _]. split; [repeat constructor; apply bc_char_digit; lia|].
    exists 2. split_and!; [lia..|reflexivity|]. unfold radix, unbe. cbn [fold_left unbe_acc]. lia.
  - pose proof (bz_range x). pose proof (bz_range y). pose proof (bz_range z). cbn [bc_encode].
    destruct IH as (vs & D & P). set (v := (bz x * 256 + bz y) * 256 + bz z).
    exists ([v / 262144; v / 4096 mod 64; v / 64 mod 64; v mod 64] ++ vs). split.
    + cbn [app]. do 4 (constructor; [apply bc_char_digit; unfold v; lia|]). exact D.
    + change (x :: y :: z :: b) with ([x; y; z] ++ b). apply exact_bits_app; [lia|reflexivity| |exact P].
      unfold radix, unbe. cbn [fold_left unbe_acc]. unfold v. lia.
Qed.
Lemma bc_written_fun s s' b : radix64_written s b -> radix64_written s' b -> s = s'.
Proof.
  intros (vs & D & k & K & L & V) (vs' & D' & k' & K' & L' & V').
  assert (length vs = length vs') as Ll by lia. assert (k = k') as <- by lia.
  assert (Forall (fun v => 0 <= v < 2 ^ 6) vs) as R by (apply digits_range in D; exact D).
  assert (Forall (fun v => 0 <= v < 2 ^ 6) vs') as R' by (apply digits_range in D'; exact D').
  assert (vs = vs') as <- by (apply (radix_inj 6); auto; lia).
  clear -D D'. revert s' D'. induction D as [|d v ds vs H D IH]; intros ds' D'; inversion D' as [|d' ? ? ? H']; subst; [reflexivity|].
  f_equal; [eapply digit_fun; eassumption|auto].
Qed.
Lemma bc_written_iff s b : s = bc_encode b <-> radix64_written s b.
Proof. split; [intros ->; apply bc_written|intros H; apply (bc_written_fun s _ b H), bc_written]. Qed.
Lemma bc_written_length s b : radix64_written s b -> 6 * zlen s - 5 <= 8 * zlen b <= 6 * zlen s.
Proof. intros (vs & D & k & K & L & _). apply Forall2_length in D. unfold zlen in *. lia. Qed.
Lemma bc_encode_inj a b : length a = length b -> bc_encode a = bc_encode b -> a = b.
Proof.
  intros L E. destruct (bc_written a) as (vs & D & k & K & Lv & V). destruct (bc_written b) as (vs' & D' & k' & K' & Lv' & V').
  rewrite <- E in D'. assert (vs = vs') as <-.
  { clear -D D'. revert vs' D'. induction D as [|d v ds vs H D IH]; intros ds' D'; inversion D' as [|? v' ? ? H']; subst; [reflexivity|].
    f_equal; [|auto]. apply unbc_digit in H, H'. congruence. }
  unfold zlen in *. assert (k = k') as <- by lia. apply unbe_inj; [exact L|]. rewrite V in V'. apply Z.mul_cancel_r in V'; [exact V'|]. apply Z.pow_nonzero; lia.
Qed.
Lemma length_bc_encode b : length b = 16%nat -> length (bc_encode b) = 22%nat.
Proof. intros H. pose proof (bc_written_length _ _ (bc_written b)) as X. unfold zlen in X. lia. Qed.
Lemma length_bc_encode23 b : length b = 23%nat -> length (bc_encode b) = 31%nat.
Proof. intros H. pose proof (bc_written_length _ _ (bc_written b)) as X. unfold zlen in X. lia. Qed.

(** *** Read *)
Lemma bc_std_ok c : forall v, (digit bcrypt_alphabet c v <-> digit b64_alphabet (bc_std c) v).
Proof.
  intros v. rewrite <- unbc_digit, <- unb64_digit.
  pose proof (all_bytes_ok (fun c => match unbc c, unb64 (bc_std c) with Some a, Some b => a =? b | None, None => true | _, _ => false end) ltac:(vm_compute; reflexivity) c) as X.
  cbn beta in X. destruct (unbc c), (unb64 (bc_std c)); try discriminate X; [apply Z.eqb_eq in X; rewrite X|]; reflexivity.
Qed.
Lemma bc_std_break c : (bc_std c = x0a \/ bc_std c = x0d) <-> (c = x0a \/ c = x0d).
Proof.
  pose proof (all_bytes_ok (fun c => Bool.eqb (bool_decide (bc_std c = x0a \/ bc_std c = x0d)) (bool_decide (c = x0a \/ c = x0d)))) as X.
  specialize (X ltac:(vm_compute; reflexivity) c).
  cbn beta in X. apply Bool.eqb_prop in X. rewrite <- (bool_decide_eq_true (c = x0a \/ c = x0d)), <- X. apply (symmetry (bool_decide_eq_true _)).
Qed.
Lemma no_breaks_std s : no_breaks (map bc_std s) = map bc_std (no_breaks s).
Proof.
  unfold no_breaks. induction s as [|c s IH]; [reflexivity|]. cbn [map List.filter].
  assert (bool_decide (bc_std c = x0a \/ bc_std c = x0d) = bool_decide (c = x0a \/ c = x0d)) as -> by apply bool_decide_ext, bc_std_break.
  destruct (bool_decide _); cbn [negb map]; [exact IH|f_equal; exact IH].
Qed.
Lemma bc_decode_exact ss salt : length ss = 22%nat -> bc_decode ss = Some salt <-> salt_text ss salt.
Proof.
  intros L. unfold bc_decode. rewrite b64_exact, L. change (repeat x3d (4 - 22 mod 4)) with [x3d; x3d].
  unfold base64_text, salt_text. assert (no_breaks (map bc_std ss ++ [x3d; x3d]) = map bc_std (no_breaks ss) ++ [x3d; x3d]) as ->.
  { rewrite <- no_breaks_std. unfold no_breaks. rewrite List.filter_app. reflexivity. }
  split.
  - intros (ds & vs & n & E & D & N & M & P). exists vs.
    assert (n = 2%nat /\ ds = map bc_std (no_breaks ss)) as (-> & ->).
    { assert (~ exists v, digit b64_alphabet x3d v) as Nd. { intros (v & Hv). apply unb64_digit in Hv. vm_compute in Hv. discriminate. }
      destruct n as [|[|[|n]]]; [| | |lia].
      - exfalso. cbn [replicate] in E. rewrite app_nil_r in E. subst ds. apply Forall2_app_inv_l in D as (v1 & v2 & _ & D & _). inversion D; subst. eauto.
      - exfalso. change [x3d; x3d] with ([x3d] ++ [x3d]) in E. rewrite app_assoc in E. apply app_inj_tail in E as (E & _). subst ds.
        apply Forall2_app_inv_l in D as (v1 & v2 & _ & D & _). inversion D; subst. eauto.
      - split; [reflexivity|]. change (replicate 2 x3d) with [x3d; x3d] in E. apply app_inv_tail in E. auto. }
    rewrite map_length in M. split_and!; [|lia|exact P].
    clear -D. remember (map bc_std (no_breaks ss)) as l eqn:El. revert El. generalize (no_breaks ss). induction D as [|d v ds vs H D IH]; intros [|c s]; try discriminate; [constructor|].
    intros [= -> ->]. constructor; [apply bc_std_ok, H|]. apply IH. reflexivity.
  - intros (vs & D & M & P). exists (map bc_std (no_breaks ss)), vs, 2%nat. split_and!; [reflexivity| |lia|rewrite map_length; lia|exact P].
    clear -D. induction D as [|d v ds vs H D IH]; [constructor|]. constructor; [apply bc_std_ok, H|exact IH].
Qed.
Lemma salt_nonempty ss salt : salt_text ss salt -> salt <> [].
Proof.
  intros (vs & D & M & k & e & K & L & _) ->. apply Forall2_length in D. unfold zlen in L. cbn [length] in L.
  assert (2 <= length (no_breaks ss))%nat by lia. lia.
Qed.
Lemma encode_salt_text salt : length salt = 16%nat -> salt_text (bc_encode salt) salt.
Proof.
  intros H. destruct (bc_written salt) as (vs & D & k & K & L & V). pose proof (length_bc_encode salt H) as L22. pose proof (Forall2_length _ _ _ D) as Ld.
  unfold zlen in L. assert (k = 4) as -> by lia.
  assert (no_breaks (bc_encode salt) = bc_encode salt) as E.
  { clear -D. unfold no_breaks. induction D as [|d v ds vs H D IH]; [reflexivity|]. cbn [List.filter].
    assert (bool_decide (d = x0a \/ d = x0d) = false) as ->; [|cbn [negb]; f_equal; exact IH].
    apply bool_decide_eq_false. apply unbc_digit in H. intros [-> | ->]; vm_compute in H; discriminate. }
  exists vs. rewrite E. split_and!; [exact D|rewrite L22; reflexivity|]. exists 4, 0. unfold zlen. split_and!; lia.
Qed.
Lemma cost_exact a b cost : 4 <= cost -> bc_cost a b = Some cost <-> cost_text a b cost.
Proof.
  intros Hc. unfold bc_cost, cost_text. split.
  - destruct (bc_num b) as [y|] eqn:B; [|discriminate]. exists y. split; [apply bc_num_digit, B|]. revert H. case_decide as A.
    + intros [= <-]. left. auto.
    + case_decide as A2.
      * intros [= <-]. exfalso. apply bc_num_digit, digit_range in B. lia.
      * destruct (bc_num a) as [x|] eqn:X; [|discriminate]. intros [= <-]. right. exists x. split; [apply bc_num_digit, X|reflexivity].
  - intros (y & B & C). apply bc_num_digit in B. rewrite B. destruct C as [(-> & ->)|(x & A & ->)].
    + rewrite decide_True by reflexivity. reflexivity.
    + apply bc_num_digit in A. rewrite !decide_False by (intros ->; vm_compute in A; discriminate). rewrite A. reflexivity.
Qed.

(** *** Comparing *)
Lemma copy_written tl e : length e = 31%nat -> Forall (fun c => c <> x00) e -> copy_into 31 tl = e <-> exists rest, tl = e ++ rest.
Proof.
  intros L F. split.
  - intros E. destruct (decide (31 <= length tl)%nat) as [G|G].
    + exists (drop 31 tl). rewrite <- E. unfold copy_into. replace (31 - length tl)%nat with 0%nat by lia. cbn [zeros repeat].
      rewrite app_nil_r, take_drop. reflexivity.
    + exfalso. assert (x00 ∈ e) as X.
      { rewrite <- E. unfold copy_into. destruct (31 - length tl)%nat as [|k] eqn:K; [lia|]. apply elem_of_app. right. left. }
      rewrite Forall_forall in F. exact (F _ X eq_refl).
  - intros (rest & ->). unfold copy_into. rewrite take_app_alt by lia. rewrite app_length. replace (31 - (length e + length rest))%nat with 0%nat by lia.
    cbn. apply app_nil_r.
Qed.
Lemma written_chars s b : radix64_written s b -> Forall (fun c => c <> x00) s.
Proof.
  intros (vs & D & _). induction D as [|d v ds vs H D IH]; constructor; [|exact IH]. intros ->. apply unbc_digit in H. vm_compute in H. discriminate.
Qed.
Definition compare_rest (a b : byte) (ss tl pw : bytes) : bool :=
  match bc_cost a b with
  | None => false
  | Some cost =>
      if decide (cost < 4 \/ 31 < cost) then false else
      match bc_decode ss with
      | None => false
      | Some salt => bool_decide (copy_into 31 tl = bc_encode (bc_raw cost salt (pw ++ [x00])))
      end
  end.
Lemma compare_form h v minor a b sep ss tl pw :
  h = x24 :: v :: minor ++ [a; b; sep] ++ ss ++ tl -> (minor = [x24] \/ exists c d, minor = [c; d] /\ c <> x24) ->
  bz v <= 50 -> length ss = 22%nat -> (59 <= length h)%nat -> bcrypt_compare h pw = compare_rest a b ss tl pw.
Proof.
  intros E M V L Lh. unfold bcrypt_compare, compare_rest. rewrite decide_False by lia. subst h.
  rewrite decide_False by (intros N; apply N; reflexivity). rewrite decide_False by (change (bz x32) with 50; cbn [nth]; lia).
  assert (take 22 (ss ++ tl) = ss) as T by (rewrite <- L; apply take_app). assert (drop 22 (ss ++ tl) = tl) as D by (rewrite <- L; apply drop_app).
  destruct M as [-> | (c & d & -> & N)].
  - cbn [nth app]. rewrite decide_True by reflexivity. cbn [nth Nat.add]. change (drop 6 (x24 :: v :: x24 :: a :: b :: sep :: ss ++ tl)) with (ss ++ tl).
    change (drop 28 (x24 :: v :: x24 :: a :: b :: sep :: ss ++ tl)) with (drop 22 (ss ++ tl)). rewrite T, D. reflexivity.
  - cbn [nth app]. rewrite decide_False by exact N. cbn [nth Nat.add]. change (drop 7 (x24 :: v :: c :: d :: a :: b :: sep :: ss ++ tl)) with (ss ++ tl).
    change (drop 29 (x24 :: v :: c :: d :: a :: b :: sep :: ss ++ tl)) with (drop 22 (ss ++ tl)). rewrite T, D. reflexivity.
Qed.
Lemma compare_shape h pw : bcrypt_compare h pw = true ->
  exists v minor a b sep ss tl, h = x24 :: v :: minor ++ [a; b; sep] ++ ss ++ tl /\ (minor = [x24] \/ exists c d, minor = [c; d] /\ c <> x24) /\
    bz v <= 50 /\ length ss = 22%nat /\ (59 <= length h)%nat.
Proof.
  unfold bcrypt_compare. case_decide as L; [discriminate|]. case_decide as X; [discriminate|]. case_decide as V; [discriminate|]. intros _.
  change (bz x32) with 50 in V. destruct h as [|c0 [|c1 [|c2 [|c3 [|c4 [|c5 [|c6 t]]]]]]]; cbn [length] in L; try lia. cbn [nth] in X, V.
  assert (c0 = x24) as -> by (destruct (decide (c0 = x24)); [assumption|contradiction]).
  destruct (decide (c2 = x24)) as [-> |N].
  - exists c1, [x24], c3, c4, c5, (take 22 (c6 :: t)), (drop 22 (c6 :: t)). rewrite take_drop. split; [reflexivity|].
    split; [left; reflexivity|]. split; [lia|]. split; [rewrite take_length; cbn [length]; lia|cbn [length]; lia].
  - exists c1, [c2; c3], c4, c5, c6, (take 22 t), (drop 22 t). rewrite take_drop. split; [reflexivity|].
    split; [right; exists c2, c3; auto|]. split; [lia|]. split; [rewrite take_length; lia|cbn [length]; lia].
Qed.
Lemma compare_exact h pw : bcrypt_compare h pw = true <-> bcrypt_accepts h pw.
Proof.
  split.
  - intros E. destruct (compare_shape h pw E) as (v & minor & a & b & sep & ss & tl & Eh & M & V & L & Lh).
    rewrite (compare_form h v minor a b sep ss tl pw Eh M V L Lh) in E. unfold compare_rest in E.
    destruct (bc_cost a b) as [cost|] eqn:Ec; [|discriminate]. destruct (decide _) as [|Nc]; [discriminate|].
    destruct (bc_decode ss) as [salt|] eqn:Es; [|discriminate]. apply bool_decide_eq_true in E.
    apply cost_exact in Ec; [|lia]. apply bc_decode_exact in Es; [|exact L].
    rewrite (raw_is cost salt (pw ++ [x00])) in E; [|lia|destruct pw; discriminate|exact (salt_nonempty _ _ Es)].
    assert (length (bcrypt_23 cost salt (pw ++ [x00])) = 23%nat) as Lr.
    { rewrite <- raw_is; [apply length_raw|lia|destruct pw; discriminate|exact (salt_nonempty _ _ Es)]. }
    revert E Lr. remember (bcrypt_23 cost salt (pw ++ [x00])) as raw eqn:Er. intros E Lr.
    apply copy_written in E as (rest & ->); [|apply length_bc_encode23, Lr|eapply written_chars, bc_written].
    exists v, minor, a, b, sep, ss, (bc_encode raw), rest, cost, salt. split_and!; try assumption; try lia; [apply length_bc_encode23, Lr|]. rewrite <- Er.
    apply bc_written.
  - intros (v & minor & a & b & sep & ss & hs & rest & cost & salt & Eh & V & M & L & L31 & Ec & Hc & Es & R).
    rewrite (compare_form h v minor a b sep ss (hs ++ rest) pw Eh M V L).
    2: { rewrite Eh. cbn [length]. rewrite !app_length. destruct M as [-> | (? & ? & -> & _)]; cbn [length]; lia. }
    unfold compare_rest. apply (cost_exact a b cost) in Ec; [|lia]. rewrite Ec, decide_False by lia.
    pose proof Es as Es'. apply bc_decode_exact in Es'; [|exact L]. rewrite Es'. apply bool_decide_eq_true.
    apply bc_written_iff in R. rewrite (raw_is cost salt (pw ++ [x00])); [|lia|destruct pw; discriminate|exact (salt_nonempty _ _ Es)].
    rewrite <- R. apply copy_written; [exact L31| |eauto]. eapply written_chars. rewrite R. apply bc_written.
Qed.

(** *** The law *)
Lemma word_bkey pw n : (n < 18)%nat -> bf_word (pw ++ [x00]) n = bf_word (bkey pw) n.
Proof.
  intros H. unfold bf_word. f_equal. apply map_ext_in. intros i Hi. assert (4 * n + i < 72)%nat by (cbn in Hi; lia).
  rewrite length_bkey, (Nat.mod_small (4 * n + i) 72) by lia. rewrite app_length. cbn [length]. rewrite Nat.add_1_r. unfold bkey.
  rewrite (nth_indep (map _ _) x00 ((fun i => nth (i mod S (length pw)) (pw ++ [x00]) x00) 0%nat)) by (rewrite map_length, seq_length; lia).
  rewrite (map_nth (fun i => nth (i mod S (length pw)) (pw ++ [x00]) x00)), seq_nth by lia. reflexivity.
Qed.
Lemma keyed_bkey pw c : bf_keyed (pw ++ [x00]) c = bf_keyed (bkey pw) c.
Proof. unfold bf_keyed. f_equal. f_equal. apply map_ext_in. intros n Hn. apply in_seq in Hn. apply word_bkey. lia. Qed.
Lemma expand_bkey pw c : bf_expand (pw ++ [x00]) c = bf_expand (bkey pw) c.
Proof. unfold bf_expand. rewrite keyed_bkey. reflexivity. Qed.
Lemma raw_bkey cost s pw : bc_raw cost s (pw ++ [x00]) = bc_raw cost s (bkey pw).
Proof.
  unfold bc_raw. assert (bc_setup cost s (pw ++ [x00]) = bc_setup cost s (bkey pw)) as ->; [|reflexivity].
  unfold bc_setup. rewrite !Pos2Nat.inj_iter. unfold bf_expand_salted. rewrite keyed_bkey.
  generalize (Pos.to_nat (Z.to_pos (2 ^ cost))), (bf_fill (bf_word s) bf_slots 0 0 0 (bf_keyed (bkey pw) bf_init)). intros n c.
  apply iter_pair. intros y. rewrite expand_bkey. reflexivity.
Qed.
Lemma join_form cost salt hash : bc_join cost salt hash =
  x24 :: x32 :: [x61; x24] ++ [bc_digit (cost / 10); bc_digit (cost mod 10); x24] ++ bc_encode salt ++ bc_encode hash.
Proof. reflexivity. Qed.
Lemma string_join cost salt key : bcrypt_string cost salt key = bc_join cost salt (bc_raw cost salt key).
Proof. reflexivity. Qed.
Lemma join_length cost salt hash : length salt = 16%nat -> length hash = 23%nat -> length (bc_join cost salt hash) = 60%nat.
Proof.
  intros L L'. rewrite join_form. cbn [length app]. rewrite !app_length, (length_bc_encode salt L), length_bc_encode23 by exact L'. reflexivity.
Qed.
Lemma string_length cost salt key : length salt = 16%nat -> length (bcrypt_string cost salt key) = 60%nat.
Proof. intros L. rewrite string_join. apply join_length; [exact L|apply length_raw]. Qed.
Lemma join_text cost salt hash s : 0 <= cost < 100 ->
  s = bc_join cost salt hash <-> exists a b x y ss hs, s = bs "$2a$" ++ [a; b] ++ bs "$" ++ ss ++ hs /\
    decimal a x /\ decimal b y /\ cost = 10 * x + y /\ radix64_written ss salt /\ radix64_written hs hash.
Proof.
  intros Hc. split.
  - intros ->. exists (bc_digit (cost / 10)), (bc_digit (cost mod 10)), (cost / 10), (cost mod 10), (bc_encode salt), (bc_encode hash).
    split; [reflexivity|]. split; [apply bc_digit_digit; lia|]. split; [apply bc_digit_digit; lia|]. split; [lia|]. split; apply bc_written.
  - intros (a & b & x & y & ss & hs & -> & A & B & E & S & H).
    apply bc_written_iff in S, H. subst ss hs. pose proof (digit_range _ _ _ A) as Ra. pose proof (digit_range _ _ _ B) as Rb.
    change (Z.of_nat (length (bs "0123456789"))) with 10 in Ra, Rb.
    assert (x = cost / 10) as -> by lia. assert (y = cost mod 10) as -> by lia.
    rewrite (digit_fun _ _ _ _ A (bc_digit_digit (cost / 10) ltac:(lia))), (digit_fun _ _ _ _ B (bc_digit_digit (cost mod 10) ltac:(lia))). reflexivity.
Qed.
Lemma string_text cost salt key s : 0 <= cost < 100 -> salt <> [] -> key <> [] -> s = bcrypt_string cost salt key <-> bcrypt_text cost salt key s.
Proof. intros Hc Hs Hk. rewrite string_join, raw_is by (auto; lia). apply join_text, Hc. Qed.
Lemma compare_join cost salt hash q : 4 <= cost <= 31 -> length salt = 16%nat -> length hash = 23%nat ->
  bcrypt_compare (bc_join cost salt hash) q = bool_decide (bc_raw cost salt (bkey q) = hash).
Proof.
  intros Hc L L'. rewrite (compare_form _ x32 [x61; x24] (bc_digit (cost / 10)) (bc_digit (cost mod 10)) x24 (bc_encode salt) (bc_encode hash) q (join_form cost salt hash)).
  2: { right. exists x61, x24. split; [reflexivity|discriminate]. }
  2: { change (bz x32) with 50. lia. }
  2: { apply length_bc_encode, L. }
  2: { rewrite join_length by assumption. lia. }
  unfold compare_rest. assert (bc_cost (bc_digit (cost / 10)) (bc_digit (cost mod 10)) = Some cost) as ->.
  { apply cost_exact; [lia|]. exists (cost mod 10). split; [apply bc_digit_digit; lia|]. right. exists (cost / 10). split; [apply bc_digit_digit; lia|lia]. }
  rewrite decide_False by lia. assert (bc_decode (bc_encode salt) = Some salt) as ->.
  { apply bc_decode_exact; [apply length_bc_encode, L|apply encode_salt_text, L]. }
  rewrite copy_into_id by apply length_bc_encode23, L'. rewrite raw_bkey. apply bool_decide_ext. pose proof (length_raw cost salt (bkey q)) as Lq. revert Lq.
  generalize (bc_raw cost salt (bkey q)). intros v Lv. split; [|intros ->; reflexivity]. intros E. symmetry. apply bc_encode_inj; [congruence|exact E].
Qed.
Lemma join_inj cost salt u v : length u = length v -> bc_join cost salt u = bc_join cost salt v -> u = v.
Proof.
  intros L. rewrite !join_form. cbn [app]. intros E. apply (f_equal (skipn 7)) in E. cbn [skipn] in E.
  apply app_inv_head in E. apply bc_encode_inj; assumption.
Qed.
Lemma real_law cost salt pw q : 4 <= cost <= 31 -> length salt = 16%nat ->
  bcrypt_compare (bcrypt_string cost salt (bkey pw)) q = bool_decide (bcrypt_string cost salt (bkey q) = bcrypt_string cost salt (bkey pw)).
Proof.
  intros Hc L. rewrite !string_join, compare_join by (auto using length_raw). apply bool_decide_ext.
  pose proof (length_raw cost salt (bkey q)) as Lq. pose proof (length_raw cost salt (bkey pw)) as Lp. revert Lp Lq.
  generalize (bc_raw cost salt (bkey pw)), (bc_raw cost salt (bkey q)). intros u v Lu Lv. split; [intros ->; reflexivity|]. apply join_inj. congruence.
Qed.
Global Instance real_laws : AuthLibLaws (A := real_auth).
Proof. constructor. exact real_law. Qed.

(** *** Consequences *)
Lemma zeros_refused n pw : bcrypt_compare (replicate n x00) pw = false.
Proof.
  apply not_true_is_false. intros E. apply compare_exact in E as (v & minor & a & b & sep & ss & hs & rest & cost & salt & E & _).
  destruct n; discriminate.
Qed.
Lemma wiped_password_refuses a pw g : aType a = bs "password" ->
  validate_password (A := real_auth) (Some (auth_zero a)) pw g = Ret (VRes (Some (auth_zero a)) false (Some EValidationFail) g).
Proof.
  intros T. rewrite auth_zero_is. unfold validate_password. cbn [aType aSecret]. rewrite T, decide_False by (intros N; apply N; reflexivity).
  change (@bcrypt_cmp real_auth) with bcrypt_compare. rewrite zeros_refused. reflexivity.
Qed.
Lemma validate_exact a pw g : aType a = bs "password" ->
  (validate_password (A := real_auth) (Some a) pw g = Ret (VRes (Some a) false None g) <-> bcrypt_accepts (aSecret a) pw) /\
  (validate_password (A := real_auth) (Some a) pw g = Ret (VRes (Some a) false (Some EValidationFail) g) <-> ~ bcrypt_accepts (aSecret a) pw).
Proof.
  intros T. rewrite <- compare_exact. unfold validate_password. rewrite T, decide_False by (intros N; apply N; reflexivity).
  change (@bcrypt_cmp real_auth) with bcrypt_compare. destruct (bcrypt_compare (aSecret a) pw); split; split; intros; congruence.
Qed.
(** What is made is accepted with its password, whatever follows it. *)
Lemma made_accepted cost salt pw rest : 4 <= cost <= 31 -> length salt = 16%nat -> bcrypt_accepts (bcrypt_string cost salt (bkey pw) ++ rest) pw.
Proof.
  intros Hc L. pose proof (length_raw cost salt (bkey pw)) as Lr.
  assert (radix64_written (bc_encode (bc_raw cost salt (bkey pw))) (bcrypt_23 cost salt (pw ++ [x00]))) as W.
  { rewrite <- raw_bkey, raw_is by (lia || (destruct pw; discriminate) || (destruct salt; discriminate)). apply bc_written. }
  rewrite string_join. revert Lr W. generalize (bc_raw cost salt (bkey pw)). intros hash Lr W.
  exists x32, [x61; x24], (bc_digit (cost / 10)), (bc_digit (cost mod 10)), x24, (bc_encode salt), (bc_encode hash), rest, cost, salt.
  split. { rewrite join_form. cbn [app]. rewrite <- !app_assoc. reflexivity. }
  split; [change (bz x32) with 50; lia|]. split. { right. exists x61, x24. split; [reflexivity|discriminate]. }
  split; [apply length_bc_encode, L|]. split; [apply length_bc_encode23, Lr|].
  split. { exists (cost mod 10). split; [apply bc_digit_digit; lia|]. right. exists (cost / 10). split; [apply bc_digit_digit; lia|lia]. }
  split; [exact Hc|]. split; [apply encode_salt_text, L|exact W].
Qed.
(** The same words of key, the same answer. *)
Lemma same_key_same h p q : bkey p = bkey q -> bcrypt_accepts h p <-> bcrypt_accepts h q.
Proof.
  intros E. assert (bcrypt_compare h p = bcrypt_compare h q) as X; [|rewrite <- !compare_exact, X; reflexivity].
  assert (forall cost s, bc_raw cost s (p ++ [x00]) = bc_raw cost s (q ++ [x00])) as R by (intros; rewrite !raw_bkey, E; reflexivity).
  unfold bcrypt_compare. destruct (decide (length h < 59)%nat); [reflexivity|]. destruct (decide (nth 0 h x00 <> x24)); [reflexivity|].
  destruct (decide (bz x32 < bz (nth 1 h x00))); [reflexivity|]. destruct (bc_cost _ _) as [cost|]; [|reflexivity]. destruct (decide (cost < 4 \/ 31 < cost)); [reflexivity|].
  destruct (bc_decode _) as [salt|]; [|reflexivity]. rewrite R. reflexivity.
Qed.
