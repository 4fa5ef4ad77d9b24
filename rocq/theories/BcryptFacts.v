(** The model of Blowfish and bcrypt is what [SpecBcrypt] says: one row of words instead of
    five tables, the rounds as published, the key as an endless repetition. *)
From Verif Require Export SpecBcrypt Bcrypt.
From Verif Require Import BytesFacts.
Local Open Scope Z_scope.

(** *** The row *)
Definition row (c : bf) : list Z := bfP c ++ bf0 c ++ bf1 c ++ bf2 c ++ bf3 c.
Definition wf_bf (c : bf) : Prop :=
  length (bfP c) = 18%nat /\ length (bf0 c) = 256%nat /\ length (bf1 c) = 256%nat /\ length (bf2 c) = 256%nat /\ length (bf3 c) = 256%nat.
Lemma row_init_is : row bf_init = row_init.
Proof. reflexivity. Qed.
Lemma wf_init : wf_bf bf_init.
Proof. repeat split. Qed.
Lemma row_P c i : wf_bf c -> (i < 18)%nat -> nth i (bfP c) 0 = P_ (row c) (S i).
Proof. intros (H & _) Hi. unfold P_, row. replace (S i - 1)%nat with i by lia. rewrite app_nth1 by lia. reflexivity. Qed.
Lemma row_S c k x : wf_bf c -> (k = 1 \/ k = 2 \/ k = 3 \/ k = 4)%nat ->
  S_ (row c) k x = nth (Z.to_nat (bz x)) (match k with 1 => bf0 c | 2 => bf1 c | 3 => bf2 c | _ => bf3 c end)%nat 0.
Proof.
  intros (H & H0 & H1 & H2 & H3) K. pose proof (bz_range x). unfold S_, row. set (n := Z.to_nat (bz x)). assert (n < 256)%nat by lia.
  destruct K as [->|[->|[-> | ->]]].
  - rewrite app_nth2, app_nth1 by lia. f_equal. lia.
  - rewrite app_nth2, app_nth2, app_nth1 by lia. f_equal. lia.
  - rewrite app_nth2, app_nth2, app_nth2, app_nth1 by lia. f_equal. lia.
  - rewrite app_nth2, app_nth2, app_nth2, app_nth2 by lia. f_equal. lia.
Qed.
Lemma f_is c x : wf_bf c -> bf_f c x = F_ (row c) x.
Proof.
  intros W. unfold bf_f, F_, wadd. cbn [be]. rewrite !row_S by auto. rewrite !Z.shiftr_div_pow2 by lia.
  assert (forall z, bz (zb z) = z mod 256) as Z1 by apply bz_zb. rewrite !Z1. reflexivity.
Qed.

(** *** A block *)
Lemma rounds_is c l r n : wf_bf c -> (n <= 16)%nat ->
  fold_left (fun (s : Z * Z) k => let '(a, b) := s in (Z.lxor (Z.lxor b (bf_f c a)) k, a)) (take n (drop 1 (bfP c))) (Z.lxor l (nth 0 (bfP c) 0), r)
  = (Z.lxor (fst (feistel (row c) n (l, r))) (P_ (row c) (S n)), snd (feistel (row c) n (l, r))).
Proof.
  intros W. induction n as [|n IH]; intros Hn.
  - cbn [take fold_left feistel fst snd]. rewrite row_P by (auto; lia). reflexivity.
  - assert (drop 1 (bfP c) !! n = Some (nth (S n) (bfP c) 0)) as E.
    { rewrite lookup_drop. destruct W as (W & _). rewrite nth_lookup. destruct (lookup_lt_is_Some_2 (bfP c) (1 + n)) as [z Z]; [lia|].
      rewrite Z. cbn in Z. rewrite Z. reflexivity. }
    rewrite (take_S_r _ _ _ E), fold_left_app, IH by lia. cbn [fold_left feistel]. destruct (feistel (row c) n (l, r)) as [a b]. cbn [fst snd].
    rewrite f_is, row_P by (auto; lia). f_equal. f_equal. apply Z.lxor_comm.
Qed.
Lemma encrypt_is c l r : wf_bf c -> bf_encrypt c l r = blowfish (row c) (l, r).
Proof.
  intros W. unfold bf_encrypt, blowfish. rewrite rounds_is by (auto; lia). destruct (feistel (row c) 16 (l, r)) as [a b]. cbn [fst snd].
  rewrite row_P by (auto; lia). reflexivity.
Qed.

(** *** Filling *)
Definition base_of (b : nat) : nat := match b with 0 => 0 | 1 => 18 | 2 => 274 | 3 => 530 | _ => 786 end%nat.
Definition size_of (b : nat) : nat := match b with 0 => 18 | _ => 256 end%nat.
Lemma put_wf c b i l r : wf_bf c -> wf_bf (bf_put c b i l r).
Proof. intros (H & H0 & H1 & H2 & H3). destruct b as [|[|[|[|b]]]]; unfold bf_put, wf_bf; cbn [bfP bf0 bf1 bf2 bf3]; rewrite ?insert_length; auto. Qed.
Lemma put_row c b i l r : wf_bf c -> (i + 1 < size_of b)%nat ->
  row (bf_put c b i l r) = <[(base_of b + i + 1)%nat := r]> (<[(base_of b + i)%nat := l]> (row c)).
Proof.
  intros (H & H0 & H1 & H2 & H3) Hi.
  assert (forall (u v : list Z) n z, n = (length u + (n - length u))%nat -> <[n := z]> (u ++ v) = u ++ <[(n - length u)%nat := z]> v) as R.
  { intros u v n z E. rewrite E at 1. apply insert_app_r. }
  destruct b as [|[|[|[|b]]]]; unfold bf_put, row, base_of, size_of in *; cbn [bfP bf0 bf1 bf2 bf3].
  - rewrite !insert_app_l by (rewrite ?insert_length; lia). repeat f_equal; lia.
  - rewrite !(R (bfP c)) by lia. rewrite !insert_app_l by (rewrite ?insert_length; lia). repeat f_equal; lia.
  - rewrite !(R (bfP c)) by lia. rewrite !(R (bf0 c)) by lia. rewrite !insert_app_l by (rewrite ?insert_length; lia). repeat f_equal; lia.
  - rewrite !(R (bfP c)) by lia. rewrite !(R (bf0 c)) by lia. rewrite !(R (bf1 c)) by lia. rewrite !insert_app_l by (rewrite ?insert_length; lia). repeat f_equal; lia.
  - rewrite !(R (bfP c)) by lia. rewrite !(R (bf0 c)) by lia. rewrite !(R (bf1 c)) by lia. rewrite !(R (bf2 c)) by lia. repeat f_equal; lia.
Qed.
(** From the left, as the model does it. *)
Fixpoint refill (salt : nat -> Z) (k t : nat) (m : list Z) (l r : Z) : list Z :=
  match k with
  | O => m
  | S k =>
      let '(l, r) := blowfish m (Z.lxor l (salt (2 * t)%nat), Z.lxor r (salt (2 * t + 1)%nat)) in
      refill salt k (S t) (<[(2 * t + 1)%nat := r]> (<[(2 * t)%nat := l]> m)) l r
  end.
Lemma refill_is salt k m : forall t, fst (overwrite salt (t + k) m) = refill salt k t (fst (overwrite salt t m)) (fst (snd (overwrite salt t m))) (snd (snd (overwrite salt t m))).
Proof.
  induction k as [|k IH]; intros t; [rewrite Nat.add_0_r; reflexivity|].
  replace (t + S k)%nat with (S t + k)%nat by lia. rewrite IH. cbn [overwrite refill]. destruct (overwrite salt t m) as [m' [l r]]. cbn [fst snd].
  destruct (blowfish _ _) as [l' r']. reflexivity.
Qed.
Lemma fill_is salt slots : forall t l r c, wf_bf c ->
  map (fun s => (base_of (fst s) + snd s)%nat) slots = map (fun i => (2 * i)%nat) (seq t (length slots)) ->
  Forall (fun s => (snd s + 1 < size_of (fst s))%nat) slots ->
  row (bf_fill salt slots (2 * t) l r c) = refill salt (length slots) t (row c) l r /\ wf_bf (bf_fill salt slots (2 * t) l r c).
Proof.
  induction slots as [|[b i] slots IH]; intros t l r c W E B; [split; [reflexivity|exact W]|].
  cbn [map seq length fst snd] in E. injection E as E1 E2. inversion B as [|? ? B1 B2]; subst. cbn [fst snd] in B1.
  cbn [bf_fill refill length]. replace (S (2 * t)) with (2 * t + 1)%nat by lia. rewrite encrypt_is by exact W.
  destruct (blowfish _ _) as [l' r']. replace (S (2 * t + 1)) with (2 * S t)%nat by lia.
  destruct (IH (S t) l' r' (bf_put c b i l' r')) as (A & Q); [apply put_wf, W|exact E2|exact B2|].
  split; [|exact Q]. rewrite A, put_row by assumption. rewrite E1. replace (t + (t + 0))%nat with (2 * t)%nat by lia. reflexivity.
Qed.
Lemma slots_are : map (fun s => (base_of (fst s) + snd s)%nat) bf_slots = map (fun i => (2 * i)%nat) (seq 0 521).
Proof. vm_compute. reflexivity. Qed.
Lemma slots_fit : Forall (fun s => (snd s + 1 < size_of (fst s))%nat) bf_slots.
Proof. apply List.Forall_forall. intros s H. assert (forallb (fun s => (snd s + 1 <? size_of (fst s))%nat) bf_slots = true) as T by (vm_compute; reflexivity).
  rewrite forallb_forall in T. specialize (T s H). apply Nat.ltb_lt in T. exact T. Qed.
Lemma slots_length : length bf_slots = 521%nat.
Proof. vm_compute. reflexivity. Qed.

(** *** The key *)
Lemma nth_repeated (k : bytes) n : forall j, (j < n * length k)%nat -> nth j (concat (replicate n k)) x00 = nth (j mod length k) k x00.
Proof.
  induction n as [|n IH]; intros j H; [lia|]. cbn [replicate concat]. destruct (decide (j < length k)%nat).
  - rewrite app_nth1, Nat.mod_small by lia. reflexivity.
  - rewrite app_nth2 by lia. rewrite IH by lia. f_equal.
    replace j with ((j - length k) + 1 * length k)%nat at 2 by lia. rewrite Nat.mod_add by lia. reflexivity.
Qed.
Lemma length_repeated (k : bytes) n : length (concat (replicate n k)) = (n * length k)%nat.
Proof. induction n as [|n IH]; [reflexivity|]. cbn [replicate concat]. rewrite app_length, IH. lia. Qed.
Lemma word_is k n : k <> [] -> bf_word k n = word_of k n.
Proof.
  intros K. assert (1 <= length k)%nat as L by (destruct k; [congruence|cbn; lia]).
  unfold bf_word, word_of. f_equal. apply (nth_ext _ _ x00 x00).
  - rewrite map_length, take_length, drop_length, length_repeated. cbn [length]. nia.
  - intros i Hi. cbn [map length] in Hi. rewrite (nth_lookup (take _ _)), lookup_take by lia. rewrite lookup_drop, <- nth_lookup, nth_repeated by nia.
    destruct i as [|[|[|[|i]]]]; [reflexivity..|lia].
Qed.
Lemma keyed_is k c : wf_bf c -> k <> [] -> row (bf_keyed k c) = with_key k (row c) /\ wf_bf (bf_keyed k c).
Proof.
  intros W K. pose proof W as (H & H0 & H1 & H2 & H3).
  assert (zip_with Z.lxor (bfP c) (map (bf_word k) (seq 0 18)) = map (fun i => Z.lxor (nth i (row c) 0) (word_of k i)) (seq 0 18)) as E.
  { apply (nth_ext _ _ 0 0).
    - rewrite zip_with_length, !map_length, !seq_length. lia.
    - rewrite zip_with_length, map_length, seq_length. intros i Hi. rewrite !nth_lookup, lookup_zip_with.
      assert (forall (f : nat -> Z) j, map f (seq 0 18) !! j = f <$> seq 0 18 !! j) as Lk by (intros; apply list_lookup_fmap). rewrite !Lk, lookup_seq_lt by lia.
      destruct (lookup_lt_is_Some_2 (bfP c) i) as [z Z]; [lia|]. rewrite Z. cbn [fmap option_fmap option_map from_option id Nat.add]. rewrite word_is by exact K.
      unfold row. rewrite app_nth1, nth_lookup, Z by lia. reflexivity. }
  split.
  - unfold bf_keyed, row at 1, with_key. cbn [bfP bf0 bf1 bf2 bf3]. rewrite E. f_equal. unfold row.
    rewrite drop_app_alt by lia. reflexivity.
  - unfold bf_keyed, wf_bf. cbn [bfP bf0 bf1 bf2 bf3]. rewrite E, map_length, seq_length. auto.
Qed.
Lemma expand_gen salt f k c : wf_bf c -> k <> [] -> (forall n, f n = (match salt with Some s => word_of s | None => fun _ => 0 end) n) ->
  row (bf_fill f bf_slots 0 0 0 (bf_keyed k c)) = expand_key salt k (row c) /\ wf_bf (bf_fill f bf_slots 0 0 0 (bf_keyed k c)).
Proof.
  intros W K E. destruct (keyed_is k c W K) as (A & Q).
  destruct (fill_is f bf_slots 0 0 0 _ Q) as (X & Y); [rewrite slots_length; apply slots_are|apply slots_fit|].
  change (2 * 0)%nat with 0%nat in X, Y. split; [|exact Y]. rewrite X, A, slots_length. unfold expand_key.
  pose proof (refill_is (match salt with Some s => word_of s | None => fun _ => 0 end) 521 (with_key k (row c)) 0) as R. cbn [overwrite fst snd] in R.
  change (0 + 521)%nat with 521%nat in R. rewrite R.
  assert (forall g h n t m l r, (forall n, g n = h n) -> refill g n t m l r = refill h n t m l r) as Ext.
  { intros g h. intros n. induction n as [|n IH]; intros t m l r G; [reflexivity|]. cbn [refill]. rewrite !G. destruct (blowfish _ _). apply IH, G. }
  apply Ext, E.
Qed.
Lemma expand_is k c : wf_bf c -> k <> [] -> row (bf_expand k c) = expand_key None k (row c) /\ wf_bf (bf_expand k c).
Proof. intros W K. apply (expand_gen None); auto. Qed.
Lemma expand_salted_is k s c : wf_bf c -> k <> [] -> s <> [] -> row (bf_expand_salted k s c) = expand_key (Some s) k (row c) /\ wf_bf (bf_expand_salted k s c).
Proof. intros W K Hs. apply (expand_gen (Some s)); auto. intros n. apply word_is, Hs. Qed.
Lemma setup_is cost s k : 0 <= cost -> k <> [] -> s <> [] -> row (bc_setup cost s k) = eks_setup cost s k /\ wf_bf (bc_setup cost s k).
Proof.
  intros Hc K Hs. unfold bc_setup, eks_setup. rewrite Pos2Nat.inj_iter.
  replace (Pos.to_nat (Z.to_pos (2 ^ cost))) with (Z.to_nat (2 ^ cost)).
  2: { pose proof (Z.pow_pos_nonneg 2 cost ltac:(lia) Hc). rewrite <- (Z2Pos.id (2 ^ cost)) at 1 by assumption. reflexivity. }
  destruct (expand_salted_is k s bf_init wf_init K Hs) as (A & W). rewrite row_init_is in A. rewrite <- A. clear A.
  generalize (bf_expand_salted k s bf_init), W. clear W. generalize (Z.to_nat (2 ^ cost)). intros n c W.
  induction n as [|n (IH & IW)]; [split; [reflexivity|exact W]|]. cbn [Nat.iter nat_rect].
  change (nat_rect (fun _ => ?A) ?x (fun _ => ?f) n) with (Nat.iter n f x) in *.
  destruct (expand_is k _ IW K) as (A & W1). destruct (expand_is s _ W1 Hs) as (B & W2).
  split; [|exact W2]. etransitivity; [exact B|]. f_equal. etransitivity; [exact A|]. f_equal. exact IH.
Qed.

(** *** bcrypt *)
Lemma iter_pair {A} (f g : A -> A) n x : (forall y, f y = g y) -> Nat.iter n f x = Nat.iter n g x.
Proof. intros E. induction n as [|n IH]; [reflexivity|]. simpl. rewrite IH. apply E. Qed.
Lemma iter_map {A} (f : A -> A) n l : Nat.iter n (map f) l = map (Nat.iter n f) l.
Proof. induction n as [|n IH]; [symmetry; apply map_id|]. simpl. rewrite IH, map_map. reflexivity. Qed.
Lemma blocks_are c n (bs : list bytes) : wf_bf c ->
  concat (map (fun b => let '(l, r) := Nat.iter n (fun s => bf_encrypt c (fst s) (snd s)) (unbe (take 4 b), unbe (drop 4 b)) in be 4 l ++ be 4 r) bs) =
  flat_map (fun b => be 4 (fst b) ++ be 4 (snd b)) (Nat.iter n (map (blowfish (row c))) (map (fun b => (unbe (take 4 b), unbe (drop 4 b))) bs)).
Proof.
  intros W. rewrite iter_map, map_map, flat_map_concat_map, map_map. f_equal. apply map_ext. intros b.
  rewrite (iter_pair _ (blowfish (row c))) by (intros [l r]; apply encrypt_is, W).
  destruct (Nat.iter n _ _) as [l r]. reflexivity.
Qed.
Lemma raw_is cost s k : 0 <= cost -> k <> [] -> s <> [] -> bc_raw cost s k = bcrypt_23 cost s k.
Proof.
  intros Hc K Hs. destruct (setup_is cost s k Hc K Hs) as (A & W). unfold bc_raw, bcrypt_23. rewrite <- A. clear A.
  generalize (bc_setup cost s k), W. clear. intros c W. f_equal. unfold bc_block, magic.
  generalize 64%nat, (bs "OrpheanB"), (bs "eholderS"), (bs "cryDoubt"). intros n b1 b2 b3.
  rewrite <- (blocks_are c n [b1; b2; b3] W). cbn [map concat]. rewrite app_nil_r. reflexivity.
Qed.
Lemma length_raw cost s k : length (bc_raw cost s k) = 23%nat.
Proof.
  unfold bc_raw. rewrite take_length, !app_length. assert (forall c b, length (bc_block c b) = 8%nat) as B; [|rewrite !B; reflexivity].
  intros c b. unfold bc_block. destruct (Nat.iter _ _ _). reflexivity.
Qed.
