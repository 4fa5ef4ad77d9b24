(** Prime numbers: Fermat's theorem, Pocklington's criterion, and the two primes of the
    curves. *)
From Coq Require Import Znumtheory.
From Verif Require Export BytesFacts.
Local Open Scope Z_scope.

(** *** Congruences *)
Definition cong (n a b : Z) : Prop := (n | a - b).
Lemma cong_refl n a : cong n a a.
Proof. exists 0. lia. Qed.
Lemma cong_sym n a b : cong n a b -> cong n b a.
Proof. intros [k H]. exists (- k). lia. Qed.
Lemma cong_trans n a b c : cong n a b -> cong n b c -> cong n a c.
Proof. intros [k H] [l G]. exists (k + l). lia. Qed.
Lemma cong_add n a b c d : cong n a b -> cong n c d -> cong n (a + c) (b + d).
Proof. intros [k H] [l G]. exists (k + l). lia. Qed.
Lemma cong_mul n a b c d : cong n a b -> cong n c d -> cong n (a * c) (b * d).
Proof. intros [k H] [l G]. exists (k * c + b * l). replace (a * c - b * d) with ((a - b) * c + b * (c - d)) by ring. rewrite H, G. ring. Qed.
Lemma cong_mod n a : n <> 0 -> cong n (a mod n) a.
Proof. intros N. exists (- (a / n)). pose proof (Z.div_mod a n N). lia. Qed.
Lemma cong_eq n a b : n <> 0 -> cong n a b <-> a mod n = b mod n.
Proof.
  intros N. split.
  - intros [k H]. replace a with (b + k * n) by lia. apply Z.mod_add. exact N.
  - intros E. exists (a / n - b / n). pose proof (Z.div_mod a n N). pose proof (Z.div_mod b n N). lia.
Qed.
Lemma cong_small n a b : 0 <= a < n -> 0 <= b < n -> cong n a b -> a = b.
Proof. intros A B H. apply cong_eq in H; [|lia]. rewrite !Z.mod_small in H by lia. exact H. Qed.
Lemma cong_pow n a b e : 0 <= e -> cong n a b -> cong n (a ^ e) (b ^ e).
Proof. intros E H. revert e E. apply natlike_ind; [apply cong_refl|]. intros e E IH. rewrite !Z.pow_succ_r by exact E. apply cong_mul; assumption. Qed.
Lemma cong_divides m n a b : (m | n) -> cong n a b -> cong m a b.
Proof. intros D H. unfold cong in *. eapply Z.divide_trans; eassumption. Qed.
Lemma prime_cancel r a b c : prime r -> ~ (r | a) -> cong r (a * b) (a * c) -> cong r b c.
Proof.
  intros P N H. unfold cong in *. replace (a * b - a * c) with (a * (b - c)) in H by ring. apply prime_mult in H as [H|H]; [contradiction|exact H|exact P].
Qed.

(** *** Fermat *)
Definition prodz (l : list Z) : Z := fold_right Z.mul 1 l.
Lemma prodz_perm l k : l ≡ₚ k -> prodz l = prodz k.
Proof. unfold prodz. induction 1 as [|x l k H IH|x y l|l k m H IH H' IH']; cbn [fold_right]; [reflexivity|rewrite IH; reflexivity|ring|congruence]. Qed.
Lemma prodz_mul n a l : n <> 0 -> cong n (prodz (map (fun k => (a * k) mod n) l)) (a ^ Z.of_nat (length l) * prodz l).
Proof.
  intros N. unfold prodz. induction l as [|x l IH]; [apply cong_refl|]. cbn [map fold_right length]. rewrite Nat2Z.inj_succ, Z.pow_succ_r by lia.
  replace (a * a ^ Z.of_nat (length l) * (x * fold_right Z.mul 1 l)) with ((a * x) * (a ^ Z.of_nat (length l) * fold_right Z.mul 1 l)) by ring. apply cong_mul; [apply cong_mod; exact N|exact IH].
Qed.
Lemma prodz_unit r l : prime r -> Forall (fun k => 0 < k < r) l -> ~ (r | prodz l).
Proof.
  intros P. induction 1 as [|x l H F IH]; cbn.
  - intros D. apply Z.divide_1_r_nonneg in D; [|destruct P; lia]. destruct P; lia.
  - intros D. apply prime_mult in D as [D|D]; [apply Z.divide_pos_le in D; lia|contradiction|exact P].
Qed.
Lemma fermat r a : prime r -> ~ (r | a) -> cong r (a ^ (r - 1)) 1.
Proof.
  intros P N. assert (1 < r) as R by (destruct P; lia).
  set (l := seqZ 1 (r - 1)). assert (Forall (fun k => 0 < k < r) l) as F.
  { apply Forall_forall. intros k I. apply elem_of_seqZ in I. lia. }
  assert (l ≡ₚ map (fun k => (a * k) mod r) l) as Q.
  { symmetry. apply submseteq_Permutation_length_eq; [rewrite map_length; reflexivity|].
    { apply NoDup_submseteq.
      + change (map (fun k => (a * k) mod r) l) with ((fun k => (a * k) mod r) <$> l). apply NoDup_fmap_2_strong; [|apply NoDup_seqZ].
        intros x y X Y E. rewrite Forall_forall in F. apply F in X, Y. apply cong_eq in E; [|lia]. apply (prime_cancel r a x y P N) in E. apply (cong_small r); lia || exact E.
      + intros x I. apply elem_of_list_fmap in I as (k & -> & I). rewrite Forall_forall in F. apply F in I. apply elem_of_seqZ.
        pose proof (Z.mod_pos_bound (a * k) r). assert ((a * k) mod r <> 0); [|lia]. intros E. apply Z.mod_divide in E; [|lia]. apply prime_mult in E as [E|E]; [contradiction| |exact P]. apply Z.divide_pos_le in E; lia. } }
  pose proof (prodz_mul r a l ltac:(lia)) as H. rewrite <- (prodz_perm _ _ Q) in H.
  assert (Z.of_nat (length l) = r - 1) as L by (unfold l; rewrite seqZ_length; lia). rewrite L in H.
  apply (prime_cancel r (prodz l)); [exact P|apply prodz_unit; assumption|]. rewrite Z.mul_1_r, Z.mul_comm. apply cong_sym. exact H.
Qed.

(** *** Pocklington *)
Lemma prime_divisor n : 1 < n -> exists r, prime r /\ (r | n).
Proof.
  intros H. assert (0 <= n) as H0 by lia. revert n H0 H. apply (Z_lt_induction (fun n => 1 < n -> exists r, prime r /\ (r | n))).
  intros n IH H. destruct (prime_dec n) as [P|P]; [exists n; split; [exact P|apply Z.divide_refl]|].
  apply not_prime_divide in P as (d & D & E); [|exact H]. destruct (IH d ltac:(lia) ltac:(lia)) as (r & P & R). exists r. split; [exact P|]. eapply Z.divide_trans; eassumption.
Qed.
Lemma prime_by_divisors n : 1 < n -> (forall r, prime r -> (r | n) -> n < r * r) -> prime n.
Proof.
  intros H A. destruct (prime_dec n) as [P|P]; [exact P|]. exfalso. apply not_prime_divide in P as (d & D & [e E]); [|exact H].
  assert (1 < e) as He by nia.
  assert (exists m, 1 < m /\ m * m <= n /\ (m | n)) as (m & M & S & V).
  { destruct (Z_le_gt_dec d e) as [L|L].
    - exists d. split; [lia|]. split; [nia|]. exists e. lia.
    - exists e. split; [lia|]. split; [nia|]. exists d. lia. }
  destruct (prime_divisor m M) as (r & P & R). assert (r <= m) by (apply Z.divide_pos_le; [lia|exact R]).
  pose proof (A r P (Z.divide_trans _ _ _ R V)). assert (1 < r) by (destruct P; lia). nia.
Qed.
Lemma cong_pow_gcd r b q m : prime r -> 0 <= q -> 0 <= m -> rel_prime q m -> ~ (r | b) -> cong r (b ^ q) 1 -> cong r (b ^ m) 1 -> cong r b 1.
Proof.
  intros P Q M G N H1 H2. destruct (rel_prime_bezout _ _ G) as [u v E].
  (* b^(|u| q) = 1 and b^(|v| m) = 1 *)
  assert (forall k x, 0 <= k -> 0 <= x -> cong r (b ^ x) 1 -> cong r (b ^ (k * x)) 1) as K.
  { intros k x Hk Hx H. rewrite Z.mul_comm, Z.pow_mul_r by assumption. eapply cong_trans; [apply cong_pow; [exact Hk|exact H]|]. rewrite Z.pow_1_l by exact Hk. apply cong_refl. }
  pose proof (K (Z.abs u) q ltac:(lia) Q H1) as U. pose proof (K (Z.abs v) m ltac:(lia) M H2) as V.
  destruct (Z_le_gt_dec 0 u) as [Pu|Pu].
  - destruct (Z_le_gt_dec 0 v) as [Pv|Pv].
    + rewrite !Z.abs_eq in U, V by lia. pose proof (cong_mul _ _ _ _ _ U V) as W. rewrite <- Z.pow_add_r in W by (try apply Z.mul_nonneg_nonneg; lia). rewrite E, Z.pow_1_r in W. exact W.
    + rewrite Z.abs_eq in U by lia. rewrite Z.abs_neq in V by lia. replace (u * q) with (- v * m + 1) in U by (clear -E; lia). rewrite Z.pow_add_r, Z.pow_1_r in U by (try apply Z.mul_nonneg_nonneg; lia).
      eapply cong_trans; [|exact U]. apply cong_sym. replace b with (1 * b) at 3 by ring. apply cong_mul; [exact V|apply cong_refl].
  - destruct (Z_le_gt_dec 0 v) as [Pv|Pv].
    + rewrite Z.abs_neq in U by lia. rewrite Z.abs_eq in V by lia. replace (v * m) with (- u * q + 1) in V by (clear -E; lia). rewrite Z.pow_add_r, Z.pow_1_r in V by (try apply Z.mul_nonneg_nonneg; lia).
      eapply cong_trans; [|exact V]. apply cong_sym. replace b with (1 * b) at 3 by ring. apply cong_mul; [exact U|apply cong_refl].
    + clear -E Q M Pu Pv. pose proof (Z.mul_nonpos_nonneg u q ltac:(lia) Q). pose proof (Z.mul_nonpos_nonneg v m ltac:(lia) M). lia.
Qed.
(** With [b = a ^ ((n-1)/q)]: [q] divides [r - 1] for every prime [r] dividing [n]. *)
Lemma pocklington n q a m w r :
  prime q -> n - 1 = q * m -> 0 <= m -> cong n (a ^ (n - 1)) 1 -> cong n ((a ^ m - 1) * w) 1 ->
  prime r -> (r | n) -> (q | r - 1).
Proof.
  intros Pq E M H G Pr D. assert (1 < r) as R by (destruct Pr; lia). assert (1 < q) as Q by (destruct Pq; lia).
  destruct (Zdivide_dec q (r - 1)) as [V|V]; [exact V|]. exfalso.
  pose proof (cong_divides r n _ _ D H) as H'. pose proof (cong_divides r n _ _ D G) as G'.
  set (b := a ^ m) in *. assert (cong r (b ^ q) 1) as B.
  { unfold b. rewrite <- Z.pow_mul_r by lia. rewrite (Z.mul_comm m q), <- E. exact H'. }
  assert (~ (r | b)) as N.
  { intros X. assert (r | b ^ q) as Y. { replace q with (Z.succ (q - 1)) by lia. rewrite Z.pow_succ_r by lia. apply Z.divide_mul_l. exact X. }
    unfold cong in B. assert (r | 1) as Z1. { replace 1 with (b ^ q - (b ^ q - 1)) by ring. apply Z.divide_sub_r; assumption. } apply Z.divide_1_r_nonneg in Z1; lia. }
  assert (cong r b 1) as B1.
  { apply (cong_pow_gcd r b q (r - 1)); try assumption; try lia; [apply prime_rel_prime; assumption|apply fermat; assumption]. }
  assert (cong r 0 1) as X. { eapply cong_trans; [|exact G']. replace 0 with ((1 - 1) * w) by ring. apply cong_mul; [|apply cong_refl]. unfold cong in *. replace (1 - 1 - (b - 1)) with (- (b - 1)) by ring. apply Z.divide_opp_r. exact B1. }
  destruct X as [k X]. assert (r = 1 \/ r = -1) by (apply Z.divide_1_r; exists (- k); lia). lia.
Qed.
Lemma primes_coprime q r : prime q -> prime r -> q <> r -> rel_prime q r.
Proof.
  intros P R N. apply prime_rel_prime; [exact P|]. intros D. apply prime_div_prime in D; auto.
Qed.
(** One prime factor or two. *)
Lemma prime_one n q a m w : 1 < n -> n < q * q -> prime q -> n - 1 = q * m -> 0 <= m ->
  cong n (a ^ (n - 1)) 1 -> cong n ((a ^ m - 1) * w) 1 -> prime n.
Proof.
  intros N S Q E M H G. apply prime_by_divisors; [exact N|]. intros r R D. pose proof (pocklington n q a m w r Q E M H G R D) as V.
  assert (1 < r) by (destruct R; lia). apply Z.divide_pos_le in V; [|lia]. assert (1 < q) by (destruct Q; lia). nia.
Qed.
Lemma prime_two n q q' a m m' w w' : 1 < n -> n < (q * q') * (q * q') -> prime q -> prime q' -> q <> q' -> n - 1 = q * m -> 0 <= m -> n - 1 = q' * m' -> 0 <= m' ->
  cong n (a ^ (n - 1)) 1 -> cong n ((a ^ m - 1) * w) 1 -> cong n ((a ^ m' - 1) * w') 1 -> prime n.
Proof.
  intros N S Q Q' X E M E' M' H G G'. apply prime_by_divisors; [exact N|]. intros r R D.
  pose proof (pocklington n q a m w r Q E M H G R D) as V. pose proof (pocklington n q' a m' w' r Q' E' M' H G' R D) as V'.
  assert (q * q' | r - 1) as W.
  { destruct V as [k V]. rewrite V, Z.mul_comm in V'. apply Gauss in V' as [j J]; [|apply primes_coprime; auto]. exists j. rewrite V. rewrite J. ring. }
  assert (1 < r) by (destruct R; lia). apply Z.divide_pos_le in W; [|lia]. assert (1 < q) by (destruct Q; lia). assert (1 < q') by (destruct Q'; lia). nia.
Qed.

(** *** Computing *)
(** Reduction by Barrett's estimate, which need not be right. *)
Record modulus := Modulus { mN : Z; mB : Z; mU : Z }.
Definition mkmod (n : Z) : modulus := Modulus n (Z.log2 n) (2 ^ (2 * Z.log2 n + 2) / n).
Definition fmod (k : modulus) (x : Z) : Z :=
  let q := Z.shiftr (Z.shiftr x (mB k) * mU k) (mB k + 2) in
  let r := x - q * mN k in
  if (0 <=? r) && (r <? mN k) then r else
  let r := r - mN k in
  if (0 <=? r) && (r <? mN k) then r else x mod mN k.
Lemma fmod_mod k x : 0 < mN k -> fmod k x = x mod mN k.
Proof.
  intros N. unfold fmod. set (q := Z.shiftr _ _). clearbody q. cbv zeta. destruct ((0 <=? x - q * mN k) && (x - q * mN k <? mN k)) eqn:E1.
  - apply andb_true_iff in E1 as [A B]. apply Z.leb_le in A. apply Z.ltb_lt in B. apply (Z.mod_unique x (mN k) q); lia.
  - destruct ((0 <=? x - q * mN k - mN k) && (x - q * mN k - mN k <? mN k)) eqn:E2; [|reflexivity].
    apply andb_true_iff in E2 as [A B]. apply Z.leb_le in A. apply Z.ltb_lt in B. apply (Z.mod_unique x (mN k) (q + 1)); lia.
Qed.
Fixpoint powm (k : modulus) (a : Z) (e : positive) : Z :=
  match e with
  | xH => fmod k a
  | xO e => let b := powm k a e in fmod k (b * b)
  | xI e => let b := powm k a e in fmod k (fmod k (b * b) * a)
  end.
Lemma powm_cong k a e : 0 < mN k -> cong (mN k) (powm k a e) (a ^ Z.pos e).
Proof.
  intros N. induction e as [e IH|e IH|]; cbn [powm]; cbv zeta; rewrite ?fmod_mod by exact N.
  - eapply cong_trans; [apply cong_mod; lia|]. rewrite Pos2Z.inj_xI. rewrite Z.pow_add_r, Z.pow_1_r by lia. apply cong_mul; [|apply cong_refl].
    eapply cong_trans; [apply cong_mod; lia|]. replace (2 * Z.pos e) with (Z.pos e + Z.pos e) by lia. rewrite Z.pow_add_r by lia. apply cong_mul; exact IH.
  - eapply cong_trans; [apply cong_mod; lia|]. rewrite Pos2Z.inj_xO. replace (2 * Z.pos e) with (Z.pos e + Z.pos e) by lia. rewrite Z.pow_add_r by lia. apply cong_mul; exact IH.
  - rewrite Z.pow_1_r. apply cong_mod. lia.
Qed.
(** The certificates: with base 2, one prime or two. *)
Definition cert1 (n q m w : Z) : bool :=
  match m, q with
  | Zpos em, Zpos eq =>
      let k := mkmod n in
      let b := powm k 2 em in
      (1 <? n) && (n <? q * q) && (n - 1 =? q * m) && (powm k b eq =? 1) && (fmod k ((b - 1) * w) =? 1)
  | _, _ => false
  end.
Lemma cert1_prime n q m w : prime q -> cert1 n q m w = true -> prime n.
Proof.
  intros Q H. unfold cert1 in H. destruct m as [|em|]; try discriminate. destruct q as [|eq|]; try discriminate. cbv zeta in H. set (k := mkmod n) in H. set (b := powm k 2 em) in H.
  apply andb_true_iff in H as [H H5]. apply andb_true_iff in H as [H H4]. apply andb_true_iff in H as [H H3]. apply andb_true_iff in H as [H1 H2].
  apply Z.ltb_lt in H1, H2. apply Z.eqb_eq in H3, H4, H5. assert (0 < mN k) as N by (unfold k, mkmod; cbn [mN]; lia). assert (mN k = n) as K by reflexivity.
  pose proof (powm_cong k 2 em N) as P1. fold b in P1. pose proof (powm_cong k b eq N) as P2. rewrite H4 in P2. rewrite fmod_mod in H5 by exact N. rewrite K in *.
  apply (prime_one n (Zpos eq) 2 (Zpos em) w); try assumption; try lia.
  - rewrite H3, Z.mul_comm, Z.pow_mul_r by lia. apply cong_sym. eapply cong_trans; [exact P2|]. apply cong_pow; [lia|exact P1].
  - apply cong_sym. eapply cong_trans; [rewrite <- H5 at 1; apply cong_mod; lia|]. apply cong_mul; [|apply cong_refl]. apply cong_add; [exact P1|apply cong_refl].
Qed.
(** [n - 1 = q * q' * c]. *)
Definition cert2 (n q q' c w w' : Z) : bool :=
  match c, q, q' with
  | Zpos ec, Zpos eq, Zpos eq' =>
      let k := mkmod n in
      let b := powm k 2 ec in
      let bq := powm k b eq in
      let bq' := powm k b eq' in
      (1 <? n) && (n <? (q * q') * (q * q')) && (n - 1 =? q * q' * c) && negb (q =? q') &&
      (powm k bq eq' =? 1) && (fmod k ((bq' - 1) * w) =? 1) && (fmod k ((bq - 1) * w') =? 1)
  | _, _, _ => false
  end.
Lemma cert2_prime n q q' c w w' : prime q -> prime q' -> cert2 n q q' c w w' = true -> prime n.
Proof.
  intros Q Q' H. unfold cert2 in H. destruct c as [|ec|]; try discriminate. destruct q as [|eq|]; try discriminate. destruct q' as [|eq'|]; try discriminate. cbv zeta in H. set (k := mkmod n) in H. set (b := powm k 2 ec) in H.
  apply andb_true_iff in H as [H H7]. apply andb_true_iff in H as [H H6]. apply andb_true_iff in H as [H H5]. apply andb_true_iff in H as [H H4]. apply andb_true_iff in H as [H H3]. apply andb_true_iff in H as [H1 H2].
  apply Z.ltb_lt in H1, H2. apply Z.eqb_eq in H3, H5, H6, H7. apply negb_true_iff, Z.eqb_neq in H4. assert (0 < mN k) as N by (unfold k, mkmod; cbn [mN]; lia). assert (mN k = n) as K by reflexivity.
  pose proof (powm_cong k 2 ec N) as P1. fold b in P1. pose proof (powm_cong k b eq N) as P2. pose proof (powm_cong k b eq' N) as P3. pose proof (powm_cong k (powm k b eq) eq' N) as P4. rewrite H5 in P4.
  rewrite fmod_mod in H6, H7 by exact N. rewrite K in *.
  assert (forall e x, cong n x (b ^ Zpos e) -> cong n x (2 ^ (Zpos e * Zpos ec))) as U.
  { intros e x H. rewrite Z.mul_comm, Z.pow_mul_r by lia. eapply cong_trans; [exact H|]. apply cong_pow; [lia|exact P1]. }
  apply (prime_two n (Zpos eq) (Zpos eq') 2 (Zpos eq' * Zpos ec) (Zpos eq * Zpos ec) w w'); try assumption; try lia.
  - rewrite H3. replace (Zpos eq * Zpos eq' * Zpos ec) with ((Zpos eq * Zpos ec) * Zpos eq') by ring. rewrite Z.pow_mul_r by lia. apply cong_sym. eapply cong_trans; [exact P4|]. apply cong_pow; [lia|]. apply U. exact P2.
  - apply cong_sym. eapply cong_trans; [rewrite <- H6 at 1; apply cong_mod; lia|]. apply cong_mul; [|apply cong_refl]. apply cong_add; [apply U; exact P3|apply cong_refl].
  - apply cong_sym. eapply cong_trans; [rewrite <- H7 at 1; apply cong_mod; lia|]. apply cong_mul; [|apply cong_refl]. apply cong_add; [apply U; exact P2|apply cong_refl].
Qed.
(** Trial division by all numbers from two to [s + 1]. *)
Fixpoint trial (n d : Z) (s : nat) : bool :=
  match s with O => true | S s => negb (n mod d =? 0) && trial n (d + 1) s end.
Lemma trial_prime n s : (1 <? n) && trial n 2 s && (n <? (Z.of_nat s + 2) * (Z.of_nat s + 2)) = true -> prime n.
Proof.
  intros H. apply andb_true_iff in H as [H H3]. apply andb_true_iff in H as [H1 H2]. apply Z.ltb_lt in H1, H3.
  apply prime_by_divisors; [exact H1|]. intros r P R. assert (1 < r) by (destruct P; lia).
  assert (forall s d, trial n d s = true -> 0 < d -> d <= r < d + Z.of_nat s -> False) as A.
  { clear - R H. intros s. induction s as [|s IH]; intros d T D B; [lia|]. cbn [trial] in T. apply andb_true_iff in T as [T1 T2].
    destruct (Z.eq_dec d r) as [-> |X]; [|apply (IH (d + 1) T2); lia]. apply negb_true_iff, Z.eqb_neq in T1. apply T1. apply Z.mod_divide; [lia|exact R]. }
  assert (Z.of_nat s + 2 <= r); [|nia]. apply Z.nlt_ge. intros X. apply (A s 2 H2); lia.
Qed.
