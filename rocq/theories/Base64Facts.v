(** Facts about base64. *)
From Verif Require Export Base64 TextFacts.
Local Open Scope Z_scope.

Definition b64_alpha (c : byte) : Prop :=
  65 <= bz c <= 90 \/ 97 <= bz c <= 122 \/ 47 <= bz c <= 57 \/ bz c = 43 \/ bz c = 61.

Lemma b64char_bz n : 0 <= n < 64 ->
  bz (b64char n) = (if decide (n < 26) then 65 + n
      else if decide (n < 52) then 97 + (n - 26)
      else if decide (n < 62) then 48 + (n - 52)
      else if decide (n = 62) then 43 else 47).
Proof. intros H. unfold b64char. rewrite bz_zb. apply Z.mod_small. repeat case_decide; lia. Qed.
Lemma unb64_char n : 0 <= n < 64 -> unb64 (b64char n) = Some n.
Proof.
  intros H. unfold unb64. rewrite b64char_bz by assumption.
  repeat case_decide; try lia; f_equal; lia.
Qed.
Lemma b64char_alpha n : 0 <= n < 64 -> b64_alpha (b64char n).
Proof. intros H. unfold b64_alpha. rewrite b64char_bz by assumption. repeat case_decide; lia. Qed.
Lemma unb64_pad : unb64 x3d = None.
Proof. reflexivity. Qed.

Lemma three_step {A} (P : list A -> Prop) :
  P [] -> (forall x, P [x]) -> (forall x y, P [x; y]) -> (forall x y z l, P l -> P (x :: y :: z :: l)) -> forall l, P l.
Proof.
  intros H0 H1 H2 H3. fix IH 1. intros [|x [|y [|z l]]]; [exact H0|exact (H1 x)|exact (H2 x y)|exact (H3 x y z l (IH l))].
Qed.

Lemma zb_eq z b : z mod 256 = bz b -> zb z = b.
Proof. intros H. apply bz_inj. rewrite bz_zb. exact H. Qed.

Lemma b64_groups_encode b : b64_groups (b64_encode b) = Some b.
Proof.
  induction b as [|x|x y|x y z b IH] using three_step; [reflexivity| | |].
  - cbn [b64_encode]. pose proof (bz_range x). set (v := bz x * 16).
    cbn [b64_groups]. rewrite !unb64_char by (unfold v; lia). rewrite unb64_pad.
    rewrite decide_True by auto. do 2 f_equal. apply zb_eq. unfold v. lia.
  - cbn [b64_encode]. pose proof (bz_range x). pose proof (bz_range y). set (v := (bz x * 256 + bz y) * 4).
    cbn [b64_groups]. rewrite !unb64_char by (unfold v; lia). rewrite unb64_pad.
    rewrite decide_True by auto.
    replace (((v / 4096 * 64 + v / 64 mod 64) * 64 + v mod 64) / 4) with (bz x * 256 + bz y) by (unfold v; lia).
    f_equal. f_equal; [|f_equal]; apply zb_eq; lia.
  - cbn [b64_encode]. pose proof (bz_range x). pose proof (bz_range y). pose proof (bz_range z).
    set (v := (bz x * 256 + bz y) * 256 + bz z).
    cbn [b64_groups]. rewrite !unb64_char by (unfold v; lia). rewrite IH.
    replace (((v / 262144 * 64 + v / 4096 mod 64) * 64 + v / 64 mod 64) * 64 + v mod 64) with v by (unfold v; lia).
    f_equal. f_equal; [|f_equal; [|f_equal]]; apply zb_eq; unfold v; lia.
Qed.

Lemma b64_encode_alpha b : Forall b64_alpha (b64_encode b).
Proof.
  assert (b64_alpha x3d) as P by (unfold b64_alpha; cbn; lia).
  induction b as [|x|x y|x y z b IH] using three_step; [constructor| | |]; cbn [b64_encode];
    pose proof (bz_range x); try pose proof (bz_range y); try pose proof (bz_range z);
    repeat (constructor; [first [exact P|apply b64char_alpha; lia]|]); auto.
Qed.
Lemma b64_alpha_filter s : Forall b64_alpha s ->
  List.filter (fun c => negb (bool_decide (c = x0a \/ c = x0d))) s = s.
Proof.
  induction 1 as [|c s H Hs IH]; [reflexivity|]. cbn [List.filter].
  rewrite bool_decide_eq_false_2; [cbn; f_equal; exact IH|].
  intros [-> | ->]; unfold b64_alpha in H; cbn in H; lia.
Qed.
Lemma b64_roundtrip b : b64_decode (b64_encode b) = Some b.
Proof. unfold b64_decode. rewrite b64_alpha_filter by apply b64_encode_alpha. apply b64_groups_encode. Qed.
Lemma b64_encode_inj a b : b64_encode a = b64_encode b -> a = b.
Proof. intros E. apply (f_equal b64_decode) in E. rewrite !b64_roundtrip in E. congruence. Qed.
Lemma b64_length b : zlen (b64_encode b) = 4 * ((zlen b + 2) / 3).
Proof.
  unfold zlen. induction b as [|x|x y|x y z b IH] using three_step; try reflexivity.
  cbn [b64_encode length]. rewrite !Nat2Z.inj_succ in *. lia.
Qed.
