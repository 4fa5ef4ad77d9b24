(** Specification vocabulary for the secret store with references. *)
From Verif Require Export StoreHeap SpecStore.
Local Open Scope Z_scope.

(** A slice lies within an existing array. *)
Definition inb (h : heap) (s : slice) : Prop :=
  exists b, hArr h !! slArr s = Some b /\ (slOff s + slLen s <= length b)%nat.
Definition inbo (h : heap) (o : option slice) : Prop := forall s, o = Some s -> inb h s.
Definition wf_meta (h : heap) (o : option nat) : Prop :=
  forall l, o = Some l -> exists m, hMap h !! l = Some m /\ forall k v, m !! k = Some v -> inbo h v.
Definition wf_rec (h : heap) (r : hrec) : Prop := inbo h (hSecret r) /\ wf_meta h (hMeta r).
Definition wf_ptr (h : heap) (p : option nat) : Prop :=
  forall l, p = Some l -> exists r, hRec h !! l = Some r /\ wf_rec h r.
(** All references of the store are to allocated things. *)
Definition wf_store (h : heap) (s : hstore) : Prop :=
  inbo h (hPass s) /\ forall m k p, hsRecs s = Some m -> m !! k = Some p -> wf_ptr h p.

(** [h2] still has what was allocated between [h] and [h']. *)
Definition agree (h h' h2 : heap) : Prop :=
  (forall a b, hArr h !! a = None -> hArr h' !! a = Some b -> hArr h2 !! a = Some b) /\
  (forall a b, hMap h !! a = None -> hMap h' !! a = Some b -> hMap h2 !! a = Some b) /\
  (forall a b, hRec h !! a = None -> hRec h' !! a = Some b -> hRec h2 !! a = Some b).
