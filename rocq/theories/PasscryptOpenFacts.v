(** Facts about reading archives with passcrypt. *)
From Verif Require Export PasscryptCmdFacts.
From Verif Require Import SecretFacts PemFacts.
Local Open Scope Z_scope.

Section WithCrypto.
Context (G : gzip) `{C : Crypto} {L : CryptoLaws}.

Lemma genuine_size pass m c : genuine_file pass m c -> (32 < length c)%nat.
Proof. intros (salt & nonce & LS & e & [LN ->] & ->). rewrite !app_length. lia. Qed.
Lemma open_archive_frame arch w r w' : open_archive arch w = (r, w') -> alike w w' /\ kept w w' /\ qOut w' = qOut w /\ qRng w' = qRng w.
Proof.
  intros H. unfold open_archive, sys_read in H. destruct (fate w) as [x w1] eqn:EF. destruct (fate_calm _ _ _ EF) as (K1 & Ef & _).
  assert (alike w w1 /\ kept w w1 /\ qOut w1 = qOut w /\ qRng w1 = qRng w) as S1. { split; [apply calm_alike; assumption|]. destruct K1 as (?&?&?&?&?&?). split; [split; [assumption|]; split; assumption|]. split; assumption. }
  destruct x as [j|]; [injection H as <- <-; exact S1|]. destruct (match locate w1 arch with At l => match qFs w1 !! l with Some (Reg m d) => Some (m, d) | _ => None end | _ => None end) as [[m d]|]; [|injection H as <- <-; exact S1].
  destruct (match pem_decode d with Some (ty, b) => if decide (ty = archive_type) then Some b else None | None => Some d end) as [c|]; [|injection H as <- <-; exact S1]. destruct (decide (length c <= 32)%nat); [injection H as <- <-; exact S1|].
  destruct (q_pass w1) as [x w2] eqn:EP. assert (alike w w2 /\ kept w w2 /\ qOut w2 = qOut w /\ qRng w2 = qRng w) as S2. { unfold q_pass in EP. destruct (qPw w1); injection EP as <- <-; exact S1. }
  destruct x as [pass|]; [|injection H as <- <-; exact S2]. destruct (derive_key pass (take 32 c)) as [k|]; [|injection H as <- <-; exact S2]. destruct (decrypt (Some k) (drop 32 c)); injection H as <- <-; exact S2.
Qed.
Lemma archive_genuine pass c s k : derive_key pass (take 32 c) = Some k -> (32 < length c)%nat -> decrypt (Some k) (drop 32 c) = Ret (Some s) <-> genuine_file pass s c.
Proof.
  intros Ek Lc. rewrite derive_key_is in Ek. injection Ek as <-. rewrite decrypt_exact. split.
  - intros (nonce & H). exists (take 32 c), nonce. split; [rewrite take_length; lia|]. exists (drop 32 c). split; [exact H|symmetry; apply take_drop].
  - intros (salt & nonce & LS & e & H & E). exists nonce. subst c. rewrite take_app_alt, drop_app_alt by (symmetry; exact LS). exact H.
Qed.
Lemma open_archive_exact arch w s : ready w -> 
  (forall w', open_archive arch w = (Some s, w') -> reaches w arch /\ exists m d c pass pws, qFs w !! loc w arch = Some (Reg m d) /\ enclosed d c /\ qPw w = Some pass :: pws /\ qPw w' = pws /\ genuine_file pass s c) /\
  (forall m d c pass pws, qFate w = [] -> reaches w arch -> qFs w !! loc w arch = Some (Reg m d) -> enclosed d c -> qPw w = Some pass :: pws -> genuine_file pass s c -> exists w', open_archive arch w = (Some s, w') /\ qPw w' = pws).
Proof.
  intros Rw. unfold open_archive, sys_read. split.
  - intros w' H. destruct (fate w) as [x w1] eqn:EF. destruct (fate_calm _ _ _ EF) as (K1 & Ef & _). pose proof (calm_alike _ _ K1 Ef) as A1. destruct x as [j|]; [discriminate|].
    destruct (locate w1 arch) as [l| |] eqn:EL; [|discriminate..]. destruct (qFs w1 !! l) as [[m|m d|]|] eqn:En; try discriminate.
    destruct (proj1 (locate_reaches w1 arch (Reg m d) (alike_ready _ _ A1 Rw))) as [Re E1]; [eauto|]. split; [apply (alike_reaches w w1 arch A1), Re|]. rewrite (alike_loc w w1 arch A1) in E1. rewrite Ef in E1.
    assert (exists c, enclosed d c /\ (if decide (length c <= 32)%nat then (None, w1) else
          match q_pass w1 with
          | (None, w) => (None, w)
          | (Some pass, w) => match derive_key pass (take 32 c) with None => (None, w) | key => match decrypt key (drop 32 c) with Ret r => (r, w) | Panic => (None, w) end end
          end) = (Some s, w')) as (c & En' & H').
    { unfold enclosed. destruct (pem_decode d) as [[ty b]|]; [|exists d; split; [auto|exact H]]. destruct (decide (ty = archive_type)) as [->|]; [|discriminate]. exists b. split; [left; reflexivity|exact H]. }
    destruct (decide (length c <= 32)%nat) as [|Lc]; [discriminate|]. destruct (q_pass w1) as [x w2] eqn:EP. destruct x as [pass|]; [|discriminate]. unfold q_pass in EP. replace (qPw w1) with (qPw w) in EP by (symmetry; apply K1). destruct (qPw w) as [|q pws] eqn:EQ; [discriminate|]. injection EP as -> <-.
    destruct (derive_key pass (take 32 c)) as [k|] eqn:Ek; [|discriminate]. destruct (decrypt (Some k) (drop 32 c)) as [r|] eqn:ED; [|discriminate]. injection H' as -> <-. exists m, d, c, pass, pws. split; [exact E1|]. split; [exact En'|]. split; [reflexivity|]. split; [reflexivity|]. eapply archive_genuine; [exact Ek|lia|exact ED].
  - intros m d c pass pws HF Re E1 En EP Gf. unfold fate. rewrite HF. destruct (proj2 (locate_reaches w arch (Reg m d) Rw)) as (l & -> & ->); [auto|]. pose proof (genuine_size _ _ _ Gf) as Lc.
    assert ((match pem_decode d with Some (ty, b) => if decide (ty = archive_type) then Some b else None | None => Some d end) = Some c) as ->. { destruct En as [->|[-> ->]]; [rewrite decide_True by reflexivity; reflexivity|reflexivity]. }
    rewrite decide_False by lia. unfold q_pass. rewrite EP. destruct (derive_key pass (take 32 c)) as [k|] eqn:Ek; [|rewrite derive_key_is in Ek; discriminate]. rewrite (proj2 (archive_genuine pass c s k Ek Lc) Gf). eexists. split; reflexivity.
Qed.
Lemma enclosed_fun d c c' : enclosed d c -> enclosed d c' -> c = c'.
Proof. intros [A|[A ->]] [B|[B ->]]; congruence. Qed.
Lemma not_elem (x : byte) (l : bytes) : bool_decide (x ∈ l) = false -> x ∉ l.
Proof. intros H. apply bool_decide_eq_false in H. exact H. Qed.
Lemma content_enclosed armour c : (armour = false -> forall u v, c <> u ++ bs "-----BEGIN " ++ v) -> enclosed (content armour c) c.
Proof.
  intros H. destruct armour; cbn [content].
  - left. rewrite <- (app_nil_r (pem_encode _ _ _)). apply pem_roundtrip; [|constructor]. split; apply not_elem; vm_compute; reflexivity.
  - right. split; [|reflexivity]. apply pem_no_marker. auto.
Qed.

(** *** Listing *)
Lemma manifest_line_of x : manifest_line x = line_of x.
Proof. unfold manifest_line, line_of. rewrite folder_is_dir. reflexivity. Qed.
Lemma pc_list_exact arch w b w' : pc_list arch w = (b, w') ->
  alike w w' /\ kept w w' /\ qRng w' = qRng w /\
  ((b = false /\ qOut w' = qOut w) \/
   (b = true /\ exists s es w1, open_archive arch w = (Some s, w1) /\ parse_files s = Some es /\ qOut w' = qOut w ++ bs "Manifest for " ++ arch ++ [x0a; x0a] ++ concat (map line_of es))).
Proof.
  intros H. unfold pc_list in H. destruct (open_archive arch w) as [r w1] eqn:EO. destruct (open_archive_frame _ _ _ _ EO) as (A & K & O & R). destruct r as [s|]; [|injection H as <- <-; auto 10]. destruct (parse_files s) as [es|] eqn:EP; [|injection H as <- <-; auto 10].
  injection H as <- <-. split; [exact A|]. split; [exact K|]. split; [exact R|]. right. split; [reflexivity|]. exists s, es, w1. split; [reflexivity|]. split; [exact EP|]. cbn [qOut q_print]. rewrite O. rewrite flat_map_concat_map. rewrite (map_ext _ _ manifest_line_of). reflexivity.
Qed.
Lemma pc_list_live arch w s es w1 : open_archive arch w = (Some s, w1) -> parse_files s = Some es -> exists w', pc_list arch w = (true, w').
Proof. intros E P. unfold pc_list. rewrite E, P. eexists. reflexivity. Qed.

(** *** Unpacking *)
Lemma pc_unpack_spec arch top w b w' : ready w -> top <> [] -> pc_unpack G arch top w = (b, w') ->
  let T := loc w top in let tops := way (base w top) (comps top) in
  (b = false /\ alike w w' /\ kept w w' /\ qOut w' = qOut w /\ forall s w1, open_archive arch w = (Some s, w1) -> parse_files s = None) \/
  exists s es es0 w1, open_archive arch w = (Some s, w1) /\ parse_files s = Some es /\ es0 `prefix_of` es /\ (b = true -> es0 = es) /\ kept w w' /\ ready w' /\ qOut w' = qOut w ++ flat_map dir_line es0 /\
    touched T tops es (qFs w) (qFs w') /\
    (qFate w = [] -> (forall k, k ∈ tops -> can_be_dir (qFs w) k) -> Forall tidy es -> (b = true <-> fits G T tops es (qFs w)) /\ (b = true -> unpacked G (qUmask w) T tops es (qFs w) (qFs w'))).
Proof.
  intros Rw Nt H T tops. unfold pc_unpack in H. destruct (open_archive arch w) as [r w1] eqn:EO. destruct (open_archive_frame _ _ _ _ EO) as (A & K & O & R). destruct r as [s|]; [|injection H as <- <-; left; do 4 (split; [assumption || reflexivity|]); intros; congruence].
  destruct (parse_files s) as [es|] eqn:EP; [|unfold unpack_files in H; rewrite EP in H; injection H as <- <-; left; do 4 (split; [assumption || reflexivity|]); intros; congruence]. right.
  pose proof (alike_ready _ _ A Rw) as R1. destruct (unpack_files_spec G s es top w1 b w' R1 Nt EP H) as (es0 & P0 & B0 & K0 & R0 & T0 & X0). rewrite (alike_loc w w1 top A), (alike_base w w1 top A) in *. fold T tops in T0, X0. destruct A as [EA EB]. rewrite EA in *. destruct K as (K1 & K2 & K3). rewrite K2 in X0. destruct K0 as (?&?&?&?&?&?). cbn in *.
  exists s, es, es0, w1. split; [reflexivity|]. split; [exact EP|]. split; [exact P0|]. split; [exact B0|]. split; [split; [congruence|]; split; [congruence|auto]|]. split; [exact R0|]. split; [congruence|]. split; [exact T0|]. auto.
Qed.
End WithCrypto.
