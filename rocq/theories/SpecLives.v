(** Specification vocabulary for the key server over several processes. *)
From Verif Require Export SpecKeySrv.
Local Open Scope Z_scope.

Section WithCrypto.
Context `{C : Crypto}.
(** The labels of keys added are UTF-8, and the times of the clock 64-bit numbers. *)
Definition text_uploads (tr : trace) : Prop :=
  forall w l d, (w, Cmd Upload l d, Resp (Some (bs "public key added successfully")) None) ∈ dones tr -> utf8_text l.
Definition real_times (tr : trace) : Prop := forall t e, (t, e) ∈ tr -> int64 t.
(** The file cannot be loaded. *)
Definition unloadable (f : fs) (path : bytes) : Prop := forall orNew n1 n2 g, load_kstore f path orNew n1 n2 g = Ret (None, g).
(** The server is started again and again, each time with a passphrase that opens [k], and
    runs up to any point; [ds] are the commands it has dealt with each time. Other programs
    may change other files. *)
Inductive lives (path : bytes) (k : privkey) : fs -> list (list (who * command * response)) -> fs -> Prop :=
  | lv_nil f : lives path k f [] f
  | lv_serve f pass n1 n2 n3 g w s g' t0 tr v ds f' :
      serve_load f path (Some pass) n1 n2 n3 g w = Ret (Some s, f, g') -> ksPriv s = Some k ->
      runs path (serving s f t0) tr v -> text_uploads tr -> real_times tr -> lives path k (vFs v) ds f' ->
      lives path k f (dones tr :: ds) f'
  | lv_other f f1 ds f' : f1 !! path = f !! path -> lives path k f1 ds f' -> lives path k f ds f'.
End WithCrypto.
