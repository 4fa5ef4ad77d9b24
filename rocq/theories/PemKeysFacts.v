(** Proofs about PemKeys.v. *)
From Verif Require Export PemKeys PublicFacts PemFacts.
Local Open Scope Z_scope.

Section WithCrypto.
Context `{C : Crypto} {L : CryptoLaws}.

Lemma pem_private_roundtrip k pass g salt nonce g' junk :
  priv_valid (Some k) = true -> wf_priv k ->
  length salt = 32%nat -> length nonce = 24%nat -> delivers g (salt ++ nonce) g' ->
  exists p, export_private (Some k) pass g = Ret (Some p, g') /\ import_private (p ++ junk) pass = Ret (Some k).
Proof.
  intros V W L1 L2 D. destruct (lock_unlock k pass g salt nonce g' V W L1 L2 D) as (l & E & _ & U).
  unfold export_private. rewrite E. cbn [obind]. eexists. split; [reflexivity|]. unfold import_private.
  rewrite pem_roundtrip.
  - rewrite decide_True by reflexivity. exact U.
  - split; intros I; repeat (apply elem_of_cons in I as [I|I]; [discriminate I|]); inversion I.
  - constructor; [|constructor]. split; intros I; repeat (apply elem_of_cons in I as [I|I]; [discriminate I|]); inversion I.
Qed.
Lemma pem_private_fails k pass g :
  (priv_valid k = false -> export_private k pass g = Ret (None, g)) /\
  (priv_valid k = true -> starved g 56 -> exists g', export_private k pass g = Ret (None, g')).
Proof.
  destruct (lock_key_fails k pass g) as [A B]. unfold export_private. split.
  - intros V. rewrite (A V). reflexivity.
  - intros V S. destruct (B V S) as [g' ->]. cbn. eauto.
Qed.
Lemma pem_private_exact enc pass k :
  import_private enc pass = Ret (Some k) <->
  exists locked out, pem_decode enc = Some (bs "CRYPTUTIL PRIVATE KEY", locked) /\ genuine_file pass out locked /\
    unmarshal_private out = Ret (Some k).
Proof.
  unfold import_private. split.
  - destruct (pem_decode enc) as [[ty b]|]; [|discriminate]. destruct (decide _) as [->|]; [|discriminate].
    intros H. apply unlock_key_exact in H as (out & G & U). exists b, out. auto.
  - intros (locked & out & -> & G & U). rewrite decide_True by reflexivity. apply unlock_key_exact. eauto.
Qed.
Lemma pem_private_rejects enc pass :
  (forall locked out, pem_decode enc = Some (bs "CRYPTUTIL PRIVATE KEY", locked) -> ~ genuine_file pass out locked) ->
  import_private enc pass = Ret None.
Proof.
  intros H. unfold import_private. destruct (pem_decode enc) as [[ty b]|]; [|reflexivity]. destruct (decide _) as [->|]; [|reflexivity].
  apply unlock_key_rejects. intros out. apply (H b out). reflexivity.
Qed.
End WithCrypto.
