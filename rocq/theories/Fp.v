(** The field with 2^255 - 19 elements, under the curves of common/public/crypto.go:225 and
    :230. No proofs here but that reduction reduces. *)
From Verif Require Export Bytes.
Local Open Scope Z_scope.

(** 2^255 - 19 (RFC 7748, 4.1; RFC 8032, 5.1). *)
Definition fp : Z := 57896044618658097711785492504343953926634992332820282019728792003956564819949.
(** An element is its representative from 0 to fp - 1. *)
Definition reduced (z : Z) : bool := (0 <=? z) && (z <? fp).
Record fe := Fe { fv : Z; fv_reduced : reduced fv = true }.
Lemma mod_reduced z : reduced (z mod fp) = true.
Proof.
  unfold reduced. apply andb_true_iff. rewrite Z.leb_le, Z.ltb_lt. apply Z.mod_pos_bound. reflexivity.
Qed.
Definition fe_of (z : Z) : fe := Fe (z mod fp) (mod_reduced z).
Definition fzero : fe := fe_of 0.
Definition fone : fe := fe_of 1.
Definition fadd (a b : fe) : fe := fe_of (fv a + fv b).
Definition fsub (a b : fe) : fe := fe_of (fv a - fv b).
Definition fmul (a b : fe) : fe := fe_of (fv a * fv b).
Definition fopp (a : fe) : fe := fe_of (- fv a).
(** Square and multiply; the inverse by Fermat's theorem, that of 0 being 0. *)
Fixpoint fpow (a : fe) (e : positive) : fe :=
  match e with
  | xH => a
  | xO e => let b := fpow a e in fmul b b
  | xI e => let b := fpow a e in fmul (fmul b b) a
  end.
Definition finv (a : fe) : fe := fpow a (Z.to_pos (fp - 2)).
Definition fdiv (a b : fe) : fe := fmul a (finv b).
