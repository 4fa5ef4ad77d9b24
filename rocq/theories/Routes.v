(** Model of the routes of exp/keysrv/keysrv.go:312-315 as the router (gorilla/mux)
    takes them: the path of a request, percent-decoded by net/http, to the handler that
    gets it. The method, the query and the host are not looked at by any of the routes
    and left out. No proofs here. *)
From Verif Require Export KeySrv Path.
Local Open Scope Z_scope.

(** mux's [cleanPath]; path.Clean does what filepath.Clean does on Unix. *)
Definition clean_url (p : bytes) : bytes :=
  if decide (p = []) then [slash] else
  let p := if is_rooted p then p else slash :: p in
  let np := clean p in
  if decide (list.last p = Some slash /\ np <> [slash]) then np ++ [slash] else np.
(** A route with a variable after [prefix]: the expression ^prefix([^/]+)$. *)
Definition variable (prefix p : bytes) : option bytes :=
  if decide (take (length prefix) p = prefix) then
    let l := drop (length prefix) p in
    if decide (l <> [] /\ slash ∉ l) then Some l else None
  else None.

(** What becomes of a request: sent elsewhere (301), no such page (404), or given to a
    handler. *)
Inductive arrival := Moved (to : bytes) | Unknown | Handled (q : request).
(** [Router.ServeHTTP] with the routes of exp/keysrv/keysrv.go:312-315, in their order.
    [body] is what reading the body gives, or the text of the error. *)
Definition arrive (p : bytes) (body : bytes + bytes) : arrival :=
  if decide (clean_url p <> p) then Moved (clean_url p) else
  if decide (p = bs "/public/") then Handled GetServer else
  match variable (bs "/public/") p with
  | Some l => Handled (GetPublic l)
  | None =>
      match variable (bs "/upload/") p with
      | Some l => Handled match body with inl b => PutKey l b | inr e => BadBody e end
      | None => match variable (bs "/fingerprint/") p with Some l => Handled (GetFingerprint l) | None => Unknown end
      end
  end.
