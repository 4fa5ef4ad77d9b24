(** Proofs about Base32.v. *)
From Verif Require Export SpecBase32 TextFacts.
Local Open Scope Z_scope.

Lemma quantum_more c v j buf src : unb32 c = Some v -> (j < 8)%nat -> b32_quantum j buf (c :: src) = b32_quantum (S j) (buf ++ [v]) src.
Proof.
  intros U Hj. cbn [b32_quantum]. rewrite decide_False by lia. rewrite decide_False; [rewrite U; reflexivity|].
  intros [-> _]. vm_compute in U. discriminate.
Qed.
Lemma quantum_all cs vs : Forall2 (fun c v => unb32 c = Some v) cs vs -> forall j buf src, (j + length cs <= 8)%nat ->
  b32_quantum j buf (cs ++ src) = b32_quantum (j + length cs) (buf ++ vs) src.
Proof.
  induction 1 as [|c v cs vs U F IH]; intros j buf src Hj; cbn [app length] in *; [rewrite app_nil_r, Nat.add_0_r; reflexivity|].
  rewrite (quantum_more c v) by (assumption || lia). rewrite IH by lia. rewrite <- app_assoc. cbn. f_equal. lia.
Qed.
Lemma alphabet_val n : 0 <= n < 32 -> unb32 (nth (Z.to_nat n) b32_alphabet x00) = Some n.
Proof.
  intros Hn. assert (forallb (fun i => bool_decide (unb32 (nth i b32_alphabet x00) = Some (Z.of_nat i))) (seq 0 32) = true) as F by (vm_compute; reflexivity).
  rewrite forallb_forall in F. specialize (F (Z.to_nat n)). rewrite in_seq, bool_decide_eq_true in F. rewrite F by lia. f_equal. lia.
Qed.
(** Values of the characters of a group. *)
Definition b32_vals (g : bytes) : list Z :=
  let n := ((8 * length g + 4) / 5)%nat in
  let v := unbe g * 2 ^ (5 * Z.of_nat n - 8 * zlen g) in
  map (fun i => v / 32 ^ (Z.of_nat n - 1 - Z.of_nat i) mod 32) (seq 0 n).
Lemma chars_vals g : Forall2 (fun c v => unb32 c = Some v) (b32_chars g) (b32_vals g).
Proof.
  unfold b32_chars, b32_vals. cbv zeta. apply Forall2_fmap_2. apply Forall2_same_length_lookup_2; [reflexivity|].
  intros i x y H1 H2. rewrite H1 in H2. injection H2 as <-. apply alphabet_val. apply Z.mod_pos_bound. lia.
Qed.
Ltac conses := repeat match goal with |- _ :: _ = _ :: _ => apply (f_equal2 cons) end; try reflexivity.
Ltac powers := repeat match goal with |- context [?a ^ ?b] => let v := eval vm_compute in (a ^ b) in change (a ^ b) with v end.
Lemma vals_1 a : b32_vals [a] = [bz a / 8; bz a mod 8 * 4].
Proof. pose proof (bz_range a). unfold b32_vals. cbn [length Nat.mul Nat.add Nat.div Nat.divmod fst seq map]. powers. change (unbe [a]) with (0 * 256 + bz a). conses; lia. Qed.
Lemma vals_2 a b : b32_vals [a; b] = [bz a / 8; bz a mod 8 * 4 + bz b / 64; bz b / 2 mod 32; bz b mod 2 * 16].
Proof. pose proof (bz_range a). pose proof (bz_range b). unfold b32_vals. cbn [length Nat.mul Nat.add Nat.div Nat.divmod fst seq map]. powers. change (unbe [a; b]) with ((0 * 256 + bz a) * 256 + bz b). conses; lia. Qed.
Lemma vals_3 a b c : b32_vals [a; b; c] = [bz a / 8; bz a mod 8 * 4 + bz b / 64; bz b / 2 mod 32; bz b mod 2 * 16 + bz c / 16; bz c mod 16 * 2].
Proof. pose proof (bz_range a). pose proof (bz_range b). pose proof (bz_range c). unfold b32_vals. cbn [length Nat.mul Nat.add Nat.div Nat.divmod fst seq map]. powers. change (unbe [a; b; c]) with (((0 * 256 + bz a) * 256 + bz b) * 256 + bz c). conses; lia. Qed.
Lemma vals_4 a b c d : b32_vals [a; b; c; d] =
  [bz a / 8; bz a mod 8 * 4 + bz b / 64; bz b / 2 mod 32; bz b mod 2 * 16 + bz c / 16; bz c mod 16 * 2 + bz d / 128; bz d / 4 mod 32; bz d mod 4 * 8].
Proof.
  pose proof (bz_range a). pose proof (bz_range b). pose proof (bz_range c). pose proof (bz_range d). unfold b32_vals. cbn [length Nat.mul Nat.add Nat.div Nat.divmod fst seq map]. powers.
  change (unbe [a; b; c; d]) with ((((0 * 256 + bz a) * 256 + bz b) * 256 + bz c) * 256 + bz d). conses; lia.
Qed.
Lemma vals_5 a b c d e : b32_vals [a; b; c; d; e] =
  [bz a / 8; bz a mod 8 * 4 + bz b / 64; bz b / 2 mod 32; bz b mod 2 * 16 + bz c / 16; bz c mod 16 * 2 + bz d / 128; bz d / 4 mod 32; bz d mod 4 * 8 + bz e / 32; bz e mod 32].
Proof.
  pose proof (bz_range a). pose proof (bz_range b). pose proof (bz_range c). pose proof (bz_range d). pose proof (bz_range e). unfold b32_vals. cbn [length Nat.mul Nat.add Nat.div Nat.divmod fst seq map]. powers.
  change (unbe [a; b; c; d; e]) with (((((0 * 256 + bz a) * 256 + bz b) * 256 + bz c) * 256 + bz d) * 256 + bz e). conses; lia.
Qed.
Lemma pack_vals g : (length g <= 5)%nat -> b32_pack (b32_vals g) = g.
Proof.
  intros Hg. destruct g as [|a [|b [|c [|d [|e [|]]]]]]; [..|cbn in Hg; lia]; [reflexivity|rewrite vals_1|rewrite vals_2|rewrite vals_3|rewrite vals_4|rewrite vals_5];
    unfold b32_pack; cbn -[Z.div Z.modulo Z.mul Z.add];
    conses; apply bz_inj; rewrite bz_zb;
    repeat match goal with |- context [bz ?x] => lazymatch goal with H : 0 <= bz x < 256 |- _ => fail | _ => pose proof (bz_range x) end end; lia.
Qed.

(** *** Decoding an encoding *)
Lemma chars_length g : length (b32_chars g) = ((8 * length g + 4) / 5)%nat.
Proof. unfold b32_chars. rewrite map_length, seq_length. reflexivity. Qed.
Lemma vals_length g : length (b32_vals g) = ((8 * length g + 4) / 5)%nat.
Proof. unfold b32_vals. rewrite map_length, seq_length. reflexivity. Qed.
Lemma forall_repeat n : Forall (eq x3d) (repeat x3d n).
Proof. induction n; cbn; auto. Qed.
Lemma quantum_full g src : length g = 5%nat -> b32_quantum 0 [] (b32_chars g ++ src) = Some (b32_vals g, src, false).
Proof.
  intros Lg. rewrite (quantum_all _ _ (chars_vals g)); rewrite chars_length, Lg; [|cbn; lia]. cbn. destruct src; reflexivity.
Qed.
Lemma quantum_pad g n : (0 < length g < 5)%nat -> (length (b32_chars g) + n = 8)%nat -> b32_quantum 0 [] (b32_chars g ++ repeat x3d n) = Some (b32_vals g, repeat x3d (n - 1), true).
Proof.
  intros Lg Ln. rewrite (quantum_all _ _ (chars_vals g)) by lia. rewrite chars_length in *. set (j := ((8 * length g + 4) / 5)%nat) in *.
  assert (j = 2 \/ j = 4 \/ j = 5 \/ j = 7)%nat as Hj. { unfold j. destruct g as [|a [|b [|c [|d [|]]]]]; cbn in Lg |- *; lia. }
  destruct n as [|n]; [lia|]. cbn [repeat app]. cbn [b32_quantum Nat.add]. rewrite decide_False by lia. rewrite decide_True by (rewrite repeat_length; split_and!; [reflexivity|lia..]).
  rewrite decide_False by (rewrite repeat_length; lia). rewrite decide_True by (apply Forall_take, forall_repeat). rewrite decide_False by lia. replace (S n - 1)%nat with n by lia. reflexivity.
Qed.
Lemma b32_loop_decodes k s n fuel : b32 k s -> (n < 8)%nat -> (length (s ++ repeat x3d n) mod 8 = 0)%nat -> (length (s ++ repeat x3d n) <= fuel)%nat ->
  b32_loop fuel (s ++ repeat x3d n) = Some k.
Proof.
  intros H. revert n fuel. induction H as [g Lg|g k s Lg H IH]; intros n fuel Ln Lm Lf.
  - assert (length (b32_chars g) < 8)%nat as Lc. { rewrite chars_length. apply Nat.div_lt_upper_bound; lia. }
    rewrite app_length, repeat_length in *. destruct g as [|a g].
    + change (length (b32_chars [])) with 0%nat in *. assert (n = 0)%nat as -> by lia. destruct fuel; reflexivity.
    + assert (2 <= length (b32_chars (a :: g)))%nat as L2. { rewrite chars_length. apply Nat.div_le_lower_bound; cbn; lia. }
      assert (length (b32_chars (a :: g)) + n = 8)%nat as L8.
      { lia. }
      destruct fuel as [|fuel]; [lia|]. destruct (b32_chars (a :: g)) as [|c0 cs] eqn:Ec; [cbn in L2; lia|]. cbn [b32_loop app]. rewrite app_comm_cons, <- Ec.
      rewrite quantum_pad; [|cbn in *; lia|rewrite Ec; exact L8]. rewrite pack_vals by (cbn in *; lia). reflexivity.
  - rewrite <- app_assoc in *. rewrite app_length in Lm, Lf. assert (length (b32_chars g) = 8)%nat as L8 by (rewrite chars_length, Lg; reflexivity).
    rewrite L8 in *. destruct fuel as [|fuel]; [lia|]. destruct (b32_chars g) as [|c0 cs] eqn:Ec; [cbn in L8; lia|]. cbn [b32_loop app]. rewrite app_comm_cons, <- Ec.
    rewrite quantum_full by exact Lg. rewrite IH; [|assumption| |lia]; [rewrite pack_vals by lia; reflexivity|].
    lia.
Qed.

(** *** What is decoded *)
Lemma all_bytes_ok (P : byte -> bool) : forallb (fun n => P (zb (Z.of_nat n))) (seq 0 256) = true -> forall c, P c = true.
Proof.
  intros H c. rewrite forallb_forall in H. specialize (H (Z.to_nat (bz c))). pose proof (bz_range c). rewrite in_seq, Z2Nat.id, zb_bz in H by lia. apply H. lia.
Qed.
Lemma unb32_alphabet c v : unb32 c = Some v -> c ∈ b32_alphabet.
Proof.
  intros H. assert (forall c, match unb32 c with None => true | Some _ => existsb (fun x => bool_decide (c = x)) b32_alphabet end = true) as X by (apply all_bytes_ok; vm_compute; reflexivity).
  specialize (X c). rewrite H in X. apply existsb_exists in X as (x & Hx & E). apply bool_decide_eq_true in E as ->. apply elem_of_list_In, Hx.
Qed.
Lemma quantum_inv src : forall j buf buf' rest fin, (j <= 8)%nat -> b32_quantum j buf src = Some (buf', rest, fin) ->
  exists pre, src = pre ++ rest /\ Forall b32_letter pre /\
    (fin = false -> (j + length pre = 8)%nat) /\
    (fin = true -> (j + length pre <= 8 /\ length rest < 8 /\ 8 - (j + length pre) <= length rest)%nat /\ Forall (eq x3d) (take (8 - (j + length pre)) rest)).
Proof.
  induction src as [|c src IH]; intros j buf buf' rest fin Hj; cbn [b32_quantum]; (destruct (decide (j = 8%nat)) as [->|Nj]; [intros [= <- <- <-]; exists []; split_and!; [reflexivity|constructor|reflexivity|discriminate]|]).
  - discriminate.
  - destruct (decide (c = x3d /\ _)) as [(-> & H2 & H3)|Nc].
    + destruct (decide _) as [|H4]; [discriminate|]. destruct (decide (Forall _ _)) as [F|]; [|discriminate]. destruct (decide _); [discriminate|]. intros [= <- <- <-].
      exists [x3d]. split; [reflexivity|]. split; [repeat constructor; right; reflexivity|]. split; [discriminate|]. intros _. cbn [length]. replace (8 - (j + 1))%nat with (7 - j)%nat by lia. split; [lia|exact F].
    + destruct (unb32 c) as [v|] eqn:U; [|discriminate]. intros H. destruct (IH (S j) _ _ _ _ ltac:(lia) H) as (pre & -> & F & A & B). exists (c :: pre). split; [reflexivity|].
      split; [constructor; [left; eapply unb32_alphabet, U|exact F]|]. cbn [length]. replace (j + S (length pre))%nat with (S j + length pre)%nat by lia. auto.
Qed.
Lemma b32_loop_letters fuel : forall src k, (length src mod 8 = 0)%nat -> b32_loop fuel src = Some k -> Forall b32_letter src.
Proof.
  induction fuel as [|fuel IH]; intros src k Lm; destruct src as [|c src]; cbn [b32_loop]; try discriminate; try (intros _; constructor; fail).
  destruct (b32_quantum 0 [] (c :: src)) as [[[buf rest] fin]|] eqn:Q; [|discriminate].
  destruct (quantum_inv _ _ _ _ _ _ (Nat.le_0_l 8) Q) as (pre & E & F & A & B). rewrite E in *. rewrite app_length in Lm. cbn [Nat.add] in *. destruct fin.
  - intros _. destruct (B eq_refl) as ((B1 & B2 & B3) & B4). apply Forall_app. split; [exact F|].
    assert (length rest = 8 - length pre)%nat as Lr by lia. rewrite take_ge in B4 by lia. eapply Forall_impl; [exact B4|]. intros x <-. right. reflexivity.
  - destruct (b32_loop fuel rest) as [l|] eqn:El; [|discriminate]. intros _. apply Forall_app. split; [exact F|]. eapply IH; [|exact El]. specialize (A eq_refl). lia.
Qed.
Definition plain_letter (c : byte) : bool := bool_decide (bz c < 128) && bool_decide (c <> x20) && bool_decide (upper c = c) && bool_decide (c <> x0d) && bool_decide (c <> x0a).
Lemma letter_plain c : b32_letter c -> bz c < 128 /\ c <> x20 /\ upper c = c /\ c <> x0d /\ c <> x0a.
Proof.
  intros H. assert (plain_letter c = true) as X.
  { destruct H as [H| ->]; [|reflexivity]. assert (forallb plain_letter b32_alphabet = true) as F by (vm_compute; reflexivity).
    rewrite forallb_forall in F. apply F, elem_of_list_In, H. }
  unfold plain_letter in X. rewrite !andb_true_iff, !bool_decide_eq_true in X. tauto.
Qed.

Lemma filter_all (P : byte -> Prop) `{forall x, Decision (P x)} l : Forall P l -> filter P l = l.
Proof. induction 1 as [|x l Hx F IH]; [reflexivity|]. rewrite filter_cons_True by exact Hx. f_equal. exact IH. Qed.
Lemma map_upper_all l : Forall (fun c => upper c = c) l -> map upper l = l.
Proof. induction 1 as [|c l Hc F IH]; cbn; [reflexivity|congruence]. Qed.
Lemma sanitise_pad up s : exists n, sanitise up s = filter (fun c => c <> x20) (up s) ++ repeat x3d n /\ (n < 8)%nat /\ (length (sanitise up s) mod 8 = 0)%nat.
Proof.
  unfold sanitise. set (f := filter _ _). unfold zlen. destruct (decide _) as [E|N].
  - exists 0%nat. cbn [repeat]. rewrite app_nil_r. split; [reflexivity|]. lia.
  - exists (Z.to_nat (8 - Z.of_nat (length f) mod 8)). split; [reflexivity|]. rewrite app_length, repeat_length. lia.
Qed.
Lemma sanitise_shape up s : x20 ∉ sanitise up s /\ (length (sanitise up s) mod 8 = 0)%nat.
Proof.
  destruct (sanitise_pad up s) as (n & E & _ & Lm). split; [|exact Lm]. rewrite E. intros H. apply elem_of_app in H as [H|H].
  - apply elem_of_list_filter in H as [H _]. congruence.
  - apply elem_of_list_In, repeat_spec in H. discriminate.
Qed.
Lemma upper_twice c : upper (upper c) = upper c.
Proof. apply (bool_decide_eq_true (upper (upper c) = upper c)). revert c. apply all_bytes_ok. vm_compute. reflexivity. Qed.
Lemma upper_ascii c : bz c < 128 -> bz (upper c) < 128.
Proof. intros H. unfold upper. destruct (decide _); [|exact H]. rewrite bz_zb. lia. Qed.
Lemma sanitise_upper up s : ascii_upper up -> ascii s -> ascii (sanitise up s) /\ Forall (fun c => upper c = c) (sanitise up s).
Proof.
  intros U A. destruct (sanitise_pad up s) as (n & E & _). rewrite E, U by exact A. apply Forall_and. apply Forall_app. split.
  - apply Forall_forall. intros c H. apply elem_of_list_filter in H as [_ H]. apply elem_of_list_fmap in H as (c0 & -> & H). split; [|apply upper_twice].
    unfold ascii in A. rewrite Forall_forall in A. apply upper_ascii, A, H.
  - apply Forall_forall. intros c H. apply elem_of_list_In, repeat_spec in H as ->. split; vm_compute; reflexivity.
Qed.
Lemma sanitise_fixed up s : ascii_upper up -> ascii s -> Forall (fun c => upper c = c) s -> x20 ∉ s -> (length s mod 8 = 0)%nat -> sanitise up s = s.
Proof.
  intros U A Fu Ns Lm. unfold sanitise. rewrite U by exact A. rewrite map_upper_all by exact Fu. rewrite filter_all; [|apply Forall_forall; intros c Hc ->; contradiction].
  rewrite decide_True; [reflexivity|]. unfold zlen. lia.
Qed.
Lemma sanitise_idem up s : ascii_upper up -> ascii s -> sanitise up (sanitise up s) = sanitise up s.
Proof.
  intros U A. destruct (sanitise_upper up s U A) as [A2 F]. destruct (sanitise_shape up s) as [Ns Lm]. apply sanitise_fixed; assumption.
Qed.
(** A string that decodes, of a multiple of eight characters and without line
    breaks, is left as it is. *)
Lemma sanitise_valid up s k : ascii_upper up -> b32_decode s = Some k -> (length s mod 8 = 0)%nat -> x0a ∉ s -> x0d ∉ s -> sanitise up s = s.
Proof.
  intros U D Lm N1 N2. unfold b32_decode in D. rewrite filter_all in D; [|apply Forall_forall; intros c Hc; split; intros ->; contradiction].
  pose proof (b32_loop_letters _ _ _ Lm D) as F. apply sanitise_fixed; auto; try (eapply Forall_impl; [exact F|]; intros c Hc; apply letter_plain in Hc; tauto).
  intros H. rewrite Forall_forall in F. apply F, letter_plain in H as (_ & H & _). congruence.
Qed.
Lemma b32_letters k s : b32 k s -> Forall b32_letter s.
Proof.
  assert (forall g, Forall b32_letter (b32_chars g)) as A.
  { intros g. pose proof (chars_vals g) as F. induction F as [|c v cs vs Hc F IH]; constructor; [left; eapply unb32_alphabet, Hc|exact IH]. }
  induction 1; [apply A|]. apply Forall_app. auto.
Qed.
Lemma letters_decode s : Forall b32_letter s -> b32_decode s = b32_loop (length s) s.
Proof. intros F. unfold b32_decode. rewrite filter_all; [reflexivity|]. eapply Forall_impl; [exact F|]. intros c Hc. apply letter_plain in Hc. tauto. Qed.
Lemma letters_pad s n : Forall b32_letter s -> Forall b32_letter (s ++ repeat x3d n).
Proof. intros F. apply Forall_app. split; [exact F|]. eapply Forall_impl; [apply forall_repeat|]. intros c <-. right. reflexivity. Qed.
Lemma padded_decodes k t : b32_padded k t -> b32_decode t = Some k.
Proof.
  intros (s & n & B & -> & Ln & Lm). rewrite letters_decode by (apply letters_pad; eapply b32_letters, B). apply b32_loop_decodes; auto.
Qed.
(** However it is spaced and in whatever case, padded or not, the encoding of a key
    comes out as that key. *)
Lemma sanitise_decodes up s k t : ascii_upper up -> ascii s -> b32 k t \/ b32_padded k t -> map upper (filter (fun c => c <> x20) s) = t -> b32_decode (sanitise up s) = Some k.
Proof.
  intros U A B E. assert (filter (fun c => c <> x20) (map upper s) = t) as E2.
  { rewrite <- E. clear. induction s as [|c s IH]; [reflexivity|]. cbn [map]. assert (upper c = x20 <-> c = x20) as Hc.
    { split; [|intros ->; reflexivity]. unfold upper. destruct (decide _) as [Hl|]; [|auto]. intros H. apply (f_equal bz) in H. rewrite bz_zb in H. change (bz x20) with 32 in H. lia. }
    destruct (decide (c = x20)) as [->|N].
    - rewrite !filter_cons_False by (cbn; intros X; apply X; reflexivity). exact IH.
    - rewrite !filter_cons_True by (try rewrite Hc; exact N). cbn. f_equal. exact IH. }
  destruct (sanitise_pad up s) as (n & Es & Ln & Lm). rewrite Es in Lm |- *. rewrite (U s A), E2 in *. destruct B as [B|B].
  - apply padded_decodes. exists t, n. auto.
  - pose proof B as (s0 & n0 & B0 & -> & Ln0 & Lm0). assert (n = 0)%nat as ->. { rewrite !app_length, repeat_length in *. rewrite repeat_length in *. lia. }
    cbn [repeat]. rewrite app_nil_r. apply padded_decodes, B.
Qed.

(** Texts that decode, and no longer do: a line end counts as a character, and what
    follows the padding is not looked at unless its length is wrong. *)
Lemma sanitise_breaks up : ascii_upper up ->
  (exists s k, b32_decode s = Some k /\ b32_decode (sanitise up s) = None /\ Forall (fun c => b32_letter c \/ c = x0a) s) /\
  (exists s k, b32_decode s = Some k /\ b32_decode (sanitise up s) = None /\ Forall b32_letter s).
Proof.
  intros U. split.
  - exists (bs "MZXW6YTB" ++ [x0a]), (bs "fooba"). split; [vm_compute; reflexivity|]. unfold sanitise. rewrite U by (repeat constructor). split; [vm_compute; reflexivity|].
    repeat constructor; unfold b32_letter; (left; left; repeat constructor) || (right; reflexivity).
  - exists (bs "ABCDEFG=XYZ"), [x00; x44; x32; x14]. split; [vm_compute; reflexivity|]. unfold sanitise. rewrite U by (repeat constructor). split; [vm_compute; reflexivity|].
    repeat constructor; unfold b32_letter; (left; repeat constructor) || (right; reflexivity).
Qed.
