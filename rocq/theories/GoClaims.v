(** What the stores are loaded from, by [SpecGo]. *)
From Verif Require Export GoFacts.
From Verif Require Import StoreFacts KeyStoreLocks.
Local Open Scope Z_scope.

Section WithCrypto.
Context `{C : Crypto} {L : CryptoLaws}.
Lemma unmarshal_reads input pass m s :
  unmarshal_store input pass m = Ret (Some s) <->
  exists text j s0, store_file m pass text input /\ json_text text j /\ go_sstore j s0 /\
    s = SStore (sVersion s0) (sTime s0) (sRecs s0) (Some pass).
Proof.
  rewrite unmarshal_exact. split; intros (text & j & s0 & A & B & D & E); exists text, j, s0.
  - apply parse_json_exact in B. apply dec_store_exact in D. auto.
  - apply parse_json_exact in B. apply dec_store_exact in D. auto.
Qed.
End WithCrypto.

Section Keys.
Context `{C : Crypto}.
Lemma kstore_rules_kept (n : bytes) (R : json -> kstore -> kstore -> Prop) j s s' : (n, R) ∈ kstore_rules -> R j s s' -> ksPriv s' = ksPriv s /\ ksLocked s' = ksLocked s.
Proof.
  unfold kstore_rules. intros I. repeat (apply elem_of_cons in I as [I|I]; [injection I as -> ->; intros (v & _ & ->); split; reflexivity|]). inversion I.
Qed.
Lemma kstore_members_kept l s s' : go_members kstore_rules l s s' -> ksPriv s' = ksPriv s /\ ksLocked s' = ksLocked s.
Proof.
  induction 1 as [a|k j l n R a a' b I S X H IH|k j l a b N H IH]; [auto| |exact IH]. destruct IH as [-> ->]. eapply kstore_rules_kept; eassumption.
Qed.
Lemma go_kstore_kept j s : go_kstore_json j s -> ksPriv s = None /\ ksLocked s = false.
Proof. intros [|l a H]; [auto|]. apply kstore_members_kept in H. exact H. Qed.
Lemma load_reads f path orNew now now2 g s g' data :
  f !! path = Some data ->
  (load_kstore f path orNew now now2 g = Ret (Some s, g') <->
   g' = g /\ exists j s0, json_text data j /\ go_kstore_json j s0 /\ ksVersion s0 = 1 /\ ksTime s0 <> 0 /\
     s = KStore (ksVersion s0) (ksTime s0) (Some (default ∅ (ksKeys s0))) (ksBlob s0) (ksPub s0) (ksExport s0) None
           (match ksBlob s0 with None => false | Some _ => true end)).
Proof.
  intros F. unfold load_kstore, read_file. rewrite F. split.
  - destruct (parse_json data) as [j|] eqn:P; [|discriminate]. destruct (dec_kstore j) as [s0|] eqn:D; [|discriminate]. cbv zeta.
    destruct (ks_quick _) eqn:Q; [|discriminate]. cbn [negb]. intros [= <- <-]. split; [reflexivity|]. apply parse_json_exact in P. apply dec_kstore_exact in D. exists j, s0.
    destruct (go_kstore_kept _ _ D) as [K1 K2]. rewrite K1, K2. apply ks_quick_iff in Q as (Q1 & Q2 & _). cbn [ksVersion ksTime] in Q1, Q2. repeat split; auto.
  - intros (-> & j & s0 & P & D & V & T' & ->). destruct (go_kstore_kept _ _ D) as [K1 K2]. apply parse_json_exact in P. apply dec_kstore_exact in D. rewrite P, D. cbv zeta. rewrite K1, K2.
    match goal with |- context [ks_quick ?x] => assert (ks_quick x = true) as -> end; [|reflexivity]. apply ks_quick_iff. split; [exact V|]. split; [exact T'|discriminate].
Qed.
End Keys.
