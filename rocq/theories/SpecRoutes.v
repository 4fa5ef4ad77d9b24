(** Which paths mean what to the key server. *)
From Verif Require Export Routes SpecPath.
Local Open Scope Z_scope.

(** The pages there are: [fname] says that a label is a component of a path that names
    something. *)
Inductive page : bytes -> bytes + bytes -> request -> Prop :=
  | pg_server body : page (bs "/public/") body GetServer
  | pg_key l body : fname l -> page (bs "/public/" ++ l) body (GetPublic l)
  | pg_print l body : fname l -> page (bs "/fingerprint/" ++ l) body (GetFingerprint l)
  | pg_upload l b : fname l -> page (bs "/upload/" ++ l) (inl b) (PutKey l b)
  | pg_broken l e : fname l -> page (bs "/upload/" ++ l) (inr e) (BadBody e).
(** A path written in the one way that is not redirected: where a walk from the root
    leads, and a slash at the end if there was one. *)
Definition tidy (p : bytes) : bytes :=
  match go_to [] (comps p) with
  | [] => bs "/"
  | n => x2f :: slashed n ++ (if decide (list.last p = Some x2f) then [x2f] else [])
  end.
