(** C91: the pages of the key server. *)
From Verif Require Import RoutesFacts.
Local Open Scope Z_scope.

(** Which paths reach which handler with which label, and no others do. *)
Theorem C91_pages :
  forall p body q, arrive p body = Handled q <-> page p body q.
Proof. exact arrive_page. Qed.
Print Assumptions C91_pages.

(** Which paths are sent elsewhere, and where. *)
Theorem C91_moved :
  forall p body to, arrive p body = Moved to <-> p <> tidy p /\ to = tidy p.
Proof. exact arrive_moved. Qed.
Print Assumptions C91_moved.

(** Who follows is not sent on again. *)
Theorem C91_moved_once :
  forall p body to, arrive p body = Moved to -> forall body' to', arrive to body' <> Moved to'.
Proof. exact moved_once. Qed.
Print Assumptions C91_moved_once.

(** The keys that can be asked for. *)
Theorem C91_reachable :
  forall l, (exists p body, arrive p body = Handled (GetPublic l)) <-> fname l.
Proof. exact label_asked. Qed.
Print Assumptions C91_reachable.

(** A key that was uploaded can be asked for. *)
Theorem C91_uploaded_reachable :
  forall p body l b, arrive p body = Handled (PutKey l b) ->
    arrive (bs "/public/" ++ l) body = Handled (GetPublic l) /\ arrive (bs "/fingerprint/" ++ l) body = Handled (GetFingerprint l).
Proof. intros p body l b H. apply arrive_page in H. inversion H; subst. split; apply arrive_page; constructor; assumption. Qed.
Print Assumptions C91_uploaded_reachable.

(** No command comes without a label: the answer "missing label" is never given. *)
Theorem C91_label :
  forall p body q c, arrive p body = Handled q -> command_of q = Some c -> cLabel c <> [].
Proof. intros p body q c H E. exact (proj1 (label_given p body q c H E)). Qed.
Print Assumptions C91_label.

(** That every key of a store can be asked for is false: a label with a slash, and one
    that is a dot. *)
Theorem C91_every_key_refuted :
  forall p body, arrive p body <> Handled (GetPublic (bs "work/alice")) /\ arrive p body <> Handled (GetPublic (bs ".")).
Proof.
  intros p body. split; intros H; apply arrive_page in H; inversion H as [|l b (A & B & D & S)| | |]; subst.
  - apply S. apply elem_of_list_In. cbn. tauto.
  - apply B. reflexivity.
Qed.
Print Assumptions C91_every_key_refuted.

(** That the server's own fingerprint is given where no label is (what
    [getFingerprint] provides for) is false: there is no such page. *)
Theorem C91_own_fingerprint_refuted :
  forall body, arrive (bs "/fingerprint/") body = Unknown /\ arrive (bs "/fingerprint") body = Unknown.
Proof. intros body. split; vm_compute; reflexivity. Qed.
Print Assumptions C91_own_fingerprint_refuted.

Example C91_nonvacuous :
  arrive (bs "/public/alice") (inl []) = Handled (GetPublic (bs "alice")) /\
  arrive (bs "/upload/bob") (inl (bs "key")) = Handled (PutKey (bs "bob") (bs "key")) /\
  arrive (bs "//public/./x/../alice") (inl []) = Moved (bs "/public/alice") /\
  arrive (bs "/public/alice/") (inl []) = Unknown /\
  arrive (bs "/public/..") (inl []) = Moved (bs "/") /\
  arrive (bs "/public") (inl []) = Unknown /\
  arrive [] (inl []) = Moved (bs "/").
Proof. vm_compute. repeat split. Qed.
