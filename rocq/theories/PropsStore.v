(** Properties C36-C43: the secret store. *)
From Verif Require Export StoreHeapFacts GoClaims Toy.
Local Open Scope Z_scope.

(** Stores can be compared, for the examples. *)
Global Instance srec_eq_dec : EqDecision srec. Proof. solve_decision. Defined.
Global Instance sstore_eq_dec : EqDecision sstore. Proof. solve_decision. Defined.

(** C36. *)
Theorem C36_add :
  forall now s name sec md,
    (sound s -> ~ present s name ->
       exists m, sRecs s = Some m /\
         add_record now s name sec md =
           Ret (true, SStore (sVersion s) (sTime s) (Some (<[name := Some (SRec name now sec md)]> m)) (sPass s))) /\
    (~ sound s \/ present s name -> add_record now s name sec md = Ret (false, s)).
Proof. exact @add_record_exact. Qed.
Print Assumptions C36_add.

Theorem C36_update :
  forall now s name sec,
    (forall r, holds s name r -> exists m, sRecs s = Some m /\
        update_secret now s name sec =
          Ret (true, SStore (sVersion s) (sTime s) (Some (<[name := Some (SRec (rLabel r) now sec (rMeta r))]> m)) (sPass s))) /\
    (~ present s name -> update_secret now s name sec = Ret (false, s)) /\
    (update_secret now s name sec = Panic <-> exists m, sRecs s = Some m /\ m !! name = Some None).
Proof. exact @update_secret_exact. Qed.
Print Assumptions C36_update.

Theorem C36_has :
  forall s k,
    store_has s k = true <-> present s k.
Proof. exact @store_has_iff. Qed.
Print Assumptions C36_has.

Theorem C36_histories :
  forall h s,
    sound s -> no_nil s ->
    exists s' M, describes M s /\ store_ops h s = Ret s' /\ describes (fold_left plain h M) s' /\ sound s' /\ sTime s' = sTime s.
Proof. exact @histories_exact. Qed.
Print Assumptions C36_histories.

Theorem C36_each_step :
  forall M s o,
    sound s -> describes M s ->
    exists b s', store_op o s = Ret (b, s') /\ (b = true <-> plain_ok M o) /\ sound s' /\ describes (plain M o) s' /\ sTime s' = sTime s.
Proof. exact @store_op_plain. Qed.
Print Assumptions C36_each_step.

Theorem C36_never_overwritten :
  forall h s s' k r,
    sound s -> no_nil s -> holds s k r ->
    Forall (fun o => match o with OUpdate _ n _ | ODelete n => n <> k | _ => True end) h ->
    store_ops h s = Ret s' -> holds s' k r.
Proof. exact @never_overwritten. Qed.
Print Assumptions C36_never_overwritten.

Theorem C36_presence :
  forall h s s' k,
    sound s -> no_nil s -> store_ops h s = Ret s' ->
    store_has s' k = fold_left (fun b o => match o with
        | OAdd _ n _ _ => if decide (n = k) then true else b
        | ODelete n => if decide (n = k) then false else b
        | _ => b end) h (store_has s k).
Proof. exact @presence_exact. Qed.
Print Assumptions C36_presence.

Example C36_nonvacuous :
  let s := new_store 5 (bs "pw") in
  store_valid s = true /\ no_nil s /\
  match store_ops [OAdd 7 (bs "a") (Some (bs "x")) None; OAdd 8 (bs "a") (Some (bs "y")) None; OUpdate 9 (bs "b") None] s with
  | Ret s' => recs s' !! bs "a" = Some (Some (SRec (bs "a") 7 (Some (bs "x")) None))
  | Panic => False end.
Proof.
  cbn zeta. split; [reflexivity|]. split.
  - exists ∅. split; [reflexivity|]. intros k. rewrite lookup_empty. discriminate.
  - vm_compute. reflexivity.
Qed.

(** C37. *)
Theorem C37_newest_wins :
  forall now order s o,
    no_nil s -> no_nil o -> order ≡ₚ map_to_list (recs o) ->
    exists s' ts, store_merge now order s = Ret (s', map (fun kv => rLabel (snd kv)) ts) /\
      sVersion s' = sVersion s /\ sPass s' = sPass s /\ sTime s' = now /\ no_nil s' /\
      (forall k a b, at_label s k a -> at_label o k b -> forall c, at_label s' k c <-> newest a b c) /\
      NoDup ts.*1 /\ (forall k r, (k, r) ∈ ts <-> taken s o k r).
Proof. exact @merge_exact. Qed.
Print Assumptions C37_newest_wins.

Theorem C37_reported_labels :
  forall s o ts,
    well_labelled o -> (forall k r, (k, r) ∈ ts <-> taken s o k r) -> NoDup ts.*1 ->
    NoDup (map (fun kv => rLabel (snd kv)) ts) /\
    forall k, k ∈ map (fun kv => rLabel (snd kv)) ts <-> exists r, taken s o k r.
Proof. exact @merge_labels. Qed.
Print Assumptions C37_reported_labels.

Theorem C37_order_irrelevant :
  forall now order1 order2 s o s1 s2 l1 l2,
    no_nil s -> no_nil o ->
    order1 ≡ₚ map_to_list (recs o) -> order2 ≡ₚ map_to_list (recs o) ->
    store_merge now order1 s = Ret (s1, l1) -> store_merge now order2 s = Ret (s2, l2) -> s1 = s2 /\ l1 ≡ₚ l2.
Proof. exact @merge_order_irrelevant. Qed.
Print Assumptions C37_order_irrelevant.

(** Stores read from a file may have a nil map or nil records: when Merge panics. *)
Theorem C37_panics_exactly :
  forall now order s o,
    order ≡ₚ map_to_list (recs o) ->
    store_merge now order s = Panic <->
    (sRecs s = None /\ recs o <> ∅) \/
    (exists m k v, sRecs s = Some m /\ recs o !! k = Some v /\
       match m !! k with None => v = None | Some r => r = None \/ v = None end).
Proof. exact @merge_panics. Qed.
Print Assumptions C37_panics_exactly.

(** The list holds labels of records, not the map's keys: a record stored under
    another name (as the secretscli command does) is misreported. *)
Theorem C37_reports_keys_refuted :
  exists s o k, no_nil s /\ no_nil o /\ present o k /\
    forall order now, order ≡ₚ map_to_list (recs o) ->
      exists s', store_merge now order s = Ret (s', [[]]) /\ present s' k /\ k <> [].
Proof.
  exists (new_store 1 []), (SStore 1 1 (Some {[ bs "k" := Some (SRec [] 1 None None) ]}) (Some [])), (bs "k").
  assert (no_nil (new_store 1 [])) as N1.
  { exists ∅. split; [reflexivity|]. intros k. rewrite lookup_empty. discriminate. }
  split_and!; auto.
  - eexists. split; [reflexivity|]. intros k. destruct (decide (k = bs "k")) as [->|N].
    + rewrite lookup_singleton. discriminate.
    + rewrite lookup_singleton_ne by congruence. discriminate.
  - do 2 eexists. split; [reflexivity|apply lookup_singleton].
  - intros order now P. unfold recs in P. cbn [sRecs from_option id] in P. rewrite map_to_list_singleton in P.
    symmetry in P. apply Permutation_singleton_l in P. subst order.
    eexists. split; [reflexivity|]. split; [|discriminate].
    do 2 eexists. split; [reflexivity|]. vm_compute. reflexivity.
Qed.
Print Assumptions C37_reports_keys_refuted.
Example C37_nonvacuous :
  let a := SRec (bs "l") 5 (Some (bs "old")) None in let b := SRec (bs "l") 6 (Some (bs "new")) None in
  let s := SStore 1 1 (Some {[ bs "l" := Some a ]}) (Some []) in
  let o := SStore 1 1 (Some {[ bs "l" := Some b ]}) (Some []) in
  well_labelled o /\
  match store_merge 9 (map_to_list (recs o)) s with
  | Ret (s', l) => l = [bs "l"] /\ recs s' !! bs "l" = Some (Some b) | Panic => False end.
Proof.
  cbn zeta. split.
  - intros k r (m & [= <-] & H). destruct (decide (k = bs "l")) as [->|N].
    + rewrite lookup_singleton in H. injection H as <-. reflexivity.
    + rewrite lookup_singleton_ne in H by congruence. discriminate.
  - vm_compute. split; reflexivity.
Qed.

(** C38. *)
Theorem C38_idempotent :
  forall now now' order order' s o s' l,
    no_nil s -> no_nil o ->
    order ≡ₚ map_to_list (recs o) -> order' ≡ₚ map_to_list (recs o) ->
    store_merge now order s = Ret (s', l) ->
    exists s2, store_merge now' order' s' = Ret (s2, []) /\ sRecs s2 = sRecs s' /\ sTime s2 = now'.
Proof. exact @merge_twice. Qed.
Print Assumptions C38_idempotent.

Theorem C38_associative :
  forall n1 n2 n3 n4 oab obc oabc oabc' a b c ab bc r r' l1 l2 l3 l4,
    no_nil a -> no_nil b -> no_nil c ->
    oab ≡ₚ map_to_list (recs b) -> store_merge n1 oab a = Ret (ab, l1) ->
    oabc ≡ₚ map_to_list (recs c) -> store_merge n2 oabc ab = Ret (r, l2) ->
    obc ≡ₚ map_to_list (recs c) -> store_merge n3 obc b = Ret (bc, l3) ->
    oabc' ≡ₚ map_to_list (recs bc) -> store_merge n4 oabc' a = Ret (r', l4) ->
    sRecs r = sRecs r'.
Proof. exact @store_merge_assoc. Qed.
Print Assumptions C38_associative.

Theorem C38_converges :
  forall n1 n2 oa ob a b ab ba l1 l2 k,
    no_nil a -> no_nil b ->
    ob ≡ₚ map_to_list (recs b) -> store_merge n1 ob a = Ret (ab, l1) ->
    oa ≡ₚ map_to_list (recs a) -> store_merge n2 oa b = Ret (ba, l2) ->
    (forall r r', holds a k r -> holds b k r' -> rTime r = rTime r' -> r = r') ->
    forall o, at_label ab k o <-> at_label ba k o.
Proof. exact @merge_converges. Qed.
Print Assumptions C38_converges.

(** With equal timestamps each side keeps its own record. *)
Theorem C38_ties_diverge_refuted :
  exists a b k, no_nil a /\ no_nil b /\
    forall n1 n2 oa ob ab ba l1 l2,
      ob ≡ₚ map_to_list (recs b) -> store_merge n1 ob a = Ret (ab, l1) ->
      oa ≡ₚ map_to_list (recs a) -> store_merge n2 oa b = Ret (ba, l2) ->
      ~ (forall o, at_label ab k o <-> at_label ba k o).
Proof.
  set (ra := SRec (bs "k") 1 (Some (bs "a")) None). set (rb := SRec (bs "k") 1 (Some (bs "b")) None).
  exists (SStore 1 1 (Some {[ bs "k" := Some ra ]}) (Some [])), (SStore 1 1 (Some {[ bs "k" := Some rb ]}) (Some [])), (bs "k").
  assert (forall r, no_nil (SStore 1 1 (Some {[ bs "k" := Some r ]}) (Some []))) as N.
  { intros r. eexists. split; [reflexivity|]. intros k. destruct (decide (k = bs "k")) as [->|N].
    + rewrite lookup_singleton. discriminate.
    + rewrite lookup_singleton_ne by congruence. discriminate. }
  split_and!; auto. intros n1 n2 oa ob ab ba l1 l2 Pb Ea Pa Eb H.
  unfold recs in Pa, Pb. cbn [sRecs from_option id] in Pa, Pb. rewrite map_to_list_singleton in Pa, Pb.
  symmetry in Pa, Pb. apply Permutation_singleton_l in Pa, Pb. subst oa ob.
  injection Ea as <- _. injection Eb as <- _.
  assert (holds (SStore 1 n2 (Some (<[bs "k" := Some rb]> {[ bs "k" := Some rb ]})) (Some [])) (bs "k") ra) as (m & [= <-] & Hm).
  { apply (proj1 (H (Some ra))). eexists. split; [reflexivity|]. vm_compute. reflexivity. }
  vm_compute in Hm. discriminate.
Qed.
Print Assumptions C38_ties_diverge_refuted.
Example C38_nonvacuous :
  match store_merge 9 (map_to_list (recs (SStore 1 1 (Some {[ bs "l" := Some (SRec (bs "l") 6 None None) ]}) (Some [])))) (new_store 3 []) with
  | Ret (s', l) => l = [bs "l"] | Panic => False end.
Proof. vm_compute. reflexivity. Qed.

(** C39. *)
Theorem C39_marshal :
  forall (C : Crypto) (L : CryptoLaws) s m g,
    (forall salt nonce g1 g' key, sound s -> length salt = 32%nat -> length nonce = 24%nat ->
       delivers g salt g1 -> delivers g1 nonce g' -> mode_key m (default [] (sPass s)) salt key ->
       exists out c s', marshal_store s m g = Ret (Some out, s', g') /\ out = salt ++ c /\
         sealed_with key nonce (print (jstore s)) c) /\
    (exists r, marshal_store s m g = Ret r) /\
    (~ sound s \/ (m <> 0 /\ m <> 1) \/ starved g 32 -> exists g', marshal_store s m g = Ret (None, s, g')).
Proof. exact @marshal_exact. Qed.
Print Assumptions C39_marshal.

Theorem C39_roundtrip :
  forall (C : Crypto) (L : CryptoLaws) s m g out s' g',
    go_store s -> marshal_store s m g = Ret (Some out, s', g') ->
    exists s2, unmarshal_store out (default [] (sPass s)) m = Ret (Some s2) /\ reloaded s s2 /\ (text_store s -> s2 = s).
Proof. exact @marshal_roundtrip. Qed.
Print Assumptions C39_roundtrip.

Definition C39_two : sstore :=
  SStore 1 1 (Some (<[ [xff] := Some (SRec [xff] 1 (Some (bs "a")) None) ]> {[ [xfe] := Some (SRec [xfe] 1 (Some (bs "b")) None) ]})) (Some (bs "pw")).
(** Two labels that are not UTF-8 become one: a secret is lost. *)
Theorem C39_labels_collapse_refuted :
  forall (C : Crypto) (L : CryptoLaws) m g out s' g',
    marshal_store C39_two m g = Ret (Some out, s', g') ->
    exists s2, unmarshal_store out (bs "pw") m = Ret (Some s2) /\
      present C39_two [xff] /\ present C39_two [xfe] /\
      forall k, present s2 k <-> k = [xef; xbf; xbd].
Proof.
  intros C L m g out s' g' E.
  apply marshal_inv in E as [([=] & _)|(salt & key & nonce & g1 & V & Ls & Ln & _ & _ & K & Er & _)].
  apply (inj Some) in Er. subst out.
  exists (reload C39_two). split_and!.
  - apply unmarshal_exact. exists (print (jstore C39_two)), (san_json (jstore C39_two)). eexists. split_and!.
    + exists salt, key, nonce. eexists. split_and!; eauto. split; [assumption|reflexivity].
    + apply parse_print; [apply int_jstore|apply depth_jstore].
    + apply dec_store_jstore.
      split; [unfold int64; cbn [C39_two sVersion]; lia|split; [unfold int64; cbn [C39_two sTime]; lia|]]. intros mm k r [= <-] Hk.
      destruct (decide (k = [xff])) as [->|N1]; [rewrite lookup_insert in Hk; injection Hk as <-; unfold go_rec, int64; cbn [rTime]; lia|].
      rewrite lookup_insert_ne in Hk by congruence.
      destruct (decide (k = [xfe])) as [->|N2]; [rewrite lookup_singleton in Hk; injection Hk as <-; unfold go_rec, int64; cbn [rTime]; lia|].
      rewrite lookup_singleton_ne in Hk by congruence. discriminate.
    + reflexivity.
  - do 2 eexists. split; [reflexivity|]. apply lookup_insert.
  - do 2 eexists. split; [reflexivity|]. vm_compute. reflexivity.
  - intros k. assert (map_to_list (recs (reload C39_two)) =
      [([xef; xbf; xbd], Some (SRec [xef; xbf; xbd] 1 (Some (bs "a")) None))]) as E by (vm_compute; reflexivity).
    assert (sRecs (reload C39_two) = Some (recs (reload C39_two))) as E2 by reflexivity.
    unfold present. rewrite E2. split.
    + intros (mm & v' & [= <-] & Hk). apply elem_of_map_to_list in Hk. rewrite E in Hk.
      apply elem_of_list_singleton in Hk. injection Hk. auto.
    + intros ->. do 2 eexists. split; [reflexivity|]. apply elem_of_map_to_list. rewrite E. left.
Qed.
Print Assumptions C39_labels_collapse_refuted.
Definition C39_store : sstore :=
  SStore 1 77 (Some {[ bs "mail" := Some (SRec (bs "mail") 78 (Some [x00; xff; x22]) (Some {[ bs "user" := Some (bs "kyle"); bs "nil" := None ]})) ]}) (Some (bs "pw")).
Definition C39_source : rng := replicate 70 (Some x2a).
Example C39_nonvacuous :
  match marshal_store (C:=toy) C39_store 1 C39_source with
  | Ret (Some out, _, _) => match unmarshal_store (C:=toy) out (bs "pw") 1 with Ret (Some s) => bool_decide (s = C39_store) = true | _ => False end
  | _ => False end.
Proof. vm_compute. reflexivity. Qed.

(** C40. *)
Theorem C40_accepts_exactly :
  forall (C : Crypto) (L : CryptoLaws) input pass m s,
    unmarshal_store input pass m = Ret (Some s) <->
    exists text j s0, store_file m pass text input /\ json_text text j /\ go_sstore j s0 /\
      s = SStore (sVersion s0) (sTime s0) (sRecs s0) (Some pass).
Proof. exact @unmarshal_reads. Qed.
Print Assumptions C40_accepts_exactly.

Theorem C40_never_panics :
  forall (C : Crypto) input pass m,
    exists r, unmarshal_store input pass m = Ret r.
Proof. exact @unmarshal_total. Qed.
Print Assumptions C40_never_panics.

Theorem C40_wrong_key :
  forall (C : Crypto) (L : CryptoLaws) s m g out s' g' pass' m',
    marshal_store s m g = Ret (Some out, s', g') ->
    (forall k k' t', mode_key m (default [] (sPass s)) (take 32 out) k -> mode_key m' pass' (take 32 out) k' ->
     sbox_seal k (take 24 (drop 32 out)) (print (jstore s)) <> sbox_seal k' (take 24 (drop 32 out)) t') ->
    unmarshal_store out pass' m' = Ret None.
Proof. exact @unmarshal_wrong_key. Qed.
Print Assumptions C40_wrong_key.

(** What is accepted need not be a valid store: a file holding null. *)
Theorem C40_accepts_invalid_store_refuted :
  forall (C : Crypto) (L : CryptoLaws) pass m data,
    store_file m pass (bs "null") data ->
    exists s, unmarshal_store data pass m = Ret (Some s) /\ ~ sound s /\ sRecs s = None.
Proof.
  intros C L pass m data F. eexists. split; [apply unmarshal_null; exact F|]. split; [|reflexivity].
  intros (V & _). discriminate.
Qed.
Print Assumptions C40_accepts_invalid_store_refuted.
Example C40_nonvacuous :
  match marshal_store (C:=toy) C39_store 1 C39_source with
  | Ret (Some out, _, _) => match unmarshal_store (C:=toy) out (bs "px") 1, unmarshal_store (C:=toy) (take 40 out) (bs "pw") 1 with Ret None, Ret None => True | _, _ => False end
  | _ => False end.
Proof. vm_compute. exact I. Qed.
(** The hypothesis of C40_wrong_key can be met. *)
Lemma C40_toy_boxes k k' n t t' :
  bool_decide (toy_hash 16 (k ++ n ++ t) = toy_hash 16 (k' ++ n ++ t)) = false ->
  sbox_seal (Crypto:=toy) k n t <> sbox_seal (Crypto:=toy) k' n t'.
Proof.
  intros B%bool_decide_eq_false H. cbn [sbox_seal toy] in H.
  apply app_inj_1 in H as [H1 <-]; [auto|]. unfold toy_hash. rewrite !length_be. reflexivity.
Qed.
Example C40_wrong_key_nonvacuous :
  forall k k' t', mode_key (C:=toy) 1 (bs "pw") (replicate 32 x2a) k -> mode_key (C:=toy) 1 (bs "px") (replicate 32 x2a) k' ->
    sbox_seal (Crypto:=toy) k (replicate 24 x2a) (print (jstore C39_store)) <> sbox_seal (Crypto:=toy) k' (replicate 24 x2a) t'.
Proof.
  intros k k' t' [[Z1 _]|[_ ->]]; [discriminate Z1|]. intros [[Z1 _]|[_ ->]]; [discriminate Z1|].
  apply C40_toy_boxes. vm_compute. reflexivity.
Qed.

(** C41. *)
Theorem C41_wipes :
  forall (C : Crypto) (L : CryptoLaws) s m g r s' g',
    marshal_store s m g = Ret (r, s', g') ->
    (r = None -> s' = s) /\ (forall out, r = Some out -> wiped_store s s').
Proof. exact @marshal_wipes. Qed.
Print Assumptions C41_wipes.

Theorem C41_zero :
  forall s,
    wiped_store s (store_zero s).
Proof. exact @wiped_store_zero. Qed.
Print Assumptions C41_zero.

Theorem C41_second_marshal :
  forall (C : Crypto) (L : CryptoLaws) s m g out s' g' m2 out2 s2 g2,
    go_store s ->
    marshal_store s m g = Ret (Some out, s', g') -> marshal_store s' m2 g' = Ret (Some out2, s2, g2) ->
    wiped_store s s' /\
    exists s3, unmarshal_store out2 (zeros (length (default [] (sPass s)))) m2 = Ret (Some s3) /\
      reloaded s' s3 /\ (text_store s -> s3 = s').
Proof. exact @marshal_twice. Qed.
Print Assumptions C41_second_marshal.

Example C41_nonvacuous :
  match marshal_store (C:=toy) C39_store 1 (C39_source ++ C39_source) with
  | Ret (Some out, s', g') =>
      match marshal_store (C:=toy) s' 1 g' with
      | Ret (Some out2, _, _) =>
          match unmarshal_store (C:=toy) out2 [x00; x00] 1 with
          | Ret (Some s3) => bool_decide (recs s3 !! bs "mail" = Some (Some (SRec (bs "mail") 78 (Some [x00; x00; x00]) (Some {[ bs "user" := Some [x00; x00; x00; x00]; bs "nil" := None ]})))) = true
          | _ => False end
      | _ => False end
  | _ => False end.
Proof. vm_compute. reflexivity. Qed.

(** C42. *)
Theorem C42_opens_under_new :
  forall (C : Crypto) (L : CryptoLaws) s pass m g out s' g',
    go_store s ->
    marshal_store (change_password s pass) m g = Ret (Some out, s', g') ->
    exists s2, unmarshal_store out pass m = Ret (Some s2) /\ reloaded (change_password s pass) s2 /\
      (text_store s -> s2 = change_password s pass).
Proof. exact @change_password_roundtrip. Qed.
Print Assumptions C42_opens_under_new.

Theorem C42_changes_nothing_else :
  forall s pass, sRecs (change_password s pass) = sRecs s /\ sVersion (change_password s pass) = sVersion s /\
    sTime (change_password s pass) = sTime s /\ sPass (change_password s pass) = Some pass.
Proof. auto. Qed.
Print Assumptions C42_changes_nothing_else.
(** The new passphrase is a copy: whatever happens to memory that existed before
    does not change it; the old one is wiped. *)
Theorem C42_copies :
  forall h s pass s' h',
    h_change_password h s pass = (s', h') ->
    exists b, sPass (view h' s') = Some b /\
      (forall p, hPass s = Some p -> slArr p <> slArr pass -> b = readsl h pass) /\ (hPass s = None -> b = readsl h pass) /\
      (forall p, hPass s = Some p -> inb h p -> readsl h' p = zero (readsl h p)) /\
      (forall h2, (forall a, a ∉ dom (hArr h) -> hArr h2 !! a = hArr h' !! a) -> sPass (view h2 s') = Some b).
Proof. exact @change_password_copies. Qed.
Print Assumptions C42_copies.

Example C42_nonvacuous :
  match marshal_store (C:=toy) (change_password C39_store (bs "new")) 1 C39_source with
  | Ret (Some out, _, _) => match unmarshal_store (C:=toy) out (bs "new") 1 with Ret (Some s) => bool_decide (sRecs s = sRecs C39_store) = true | _ => False end
  | _ => False end.
Proof. vm_compute. reflexivity. Qed.

(** C43: with references. The operations agree with the ones above ... *)
Theorem C43_add_refines :
  forall now h s name sec md b s' h',
    wf_store h s -> h_add now h s name sec md = Ret (b, s', h') ->
    add_record now (view h s) name (osl (readsl h) sec) (option_map (meta_view h) md) = Ret (b, view h' s') /\
    hArr h' = hArr h /\ hMap h' = hMap h.
Proof. exact @add_refines. Qed.
Print Assumptions C43_add_refines.

Theorem C43_add_keeps_wf :
  forall now h s name sec md b s' h',
    wf_store h s -> inbo h sec -> wf_meta h md ->
    h_add now h s name sec md = Ret (b, s', h') -> wf_store h' s'.
Proof. exact @add_wf. Qed.
Print Assumptions C43_add_keeps_wf.

Theorem C43_update_refines :
  forall now h s name sec b h',
    wf_store h s -> inbo h sec ->
    (forall m k l, hsRecs s = Some m -> m !! name = Some (Some l) -> m !! k = Some (Some l) -> k = name) ->
    h_update now h s name sec = Ret (b, h') ->
    update_secret now (view h s) name (osl (readsl h) sec) = Ret (b, view h' s) /\ hArr h' = hArr h /\ hMap h' = hMap h.
Proof. exact @update_refines. Qed.
Print Assumptions C43_update_refines.

Theorem C43_merge_refines :
  forall now h order s,
    store_merge now (prod_map id (ptr_view h) <$> order) (view h s) =
    match h_merge now h order s with Ret (s', l) => Ret (view h s', l) | Panic => Panic end.
Proof. exact @merge_refines. Qed.
Print Assumptions C43_merge_refines.

Theorem C43_zero_refines :
  forall l h s,
    wf_store h s -> l ≡ₚ store_slices h s -> view (h_zero l h) s = store_zero (view h s).
Proof. exact @zero_refines. Qed.
Print Assumptions C43_zero_refines.

(** ... and show the sharing. *)
Theorem C43_add_keeps_references :
  forall now h s name sec md s' h',
    h_add now h s name sec md = Ret (true, s', h') ->
    forall h2, hRec h2 = hRec h' ->
      holds (view h2 s') name (SRec name now (osl (readsl h2) sec) (option_map (meta_view h2) md)).
Proof. exact @add_aliases. Qed.
Print Assumptions C43_add_keeps_references.

Theorem C43_zero_wipes_caller :
  forall now h s name sec md s' h' l x,
    wf_store h s -> inbo h (Some sec) -> wf_meta h md ->
    h_add now h s name (Some sec) md = Ret (true, s', h') -> l ≡ₚ store_slices h' s' ->
    x = sec \/ (exists ml m k, md = Some ml /\ hMap h !! ml = Some m /\ m !! k = Some (Some x)) ->
    readsl (h_zero l h') x = zero (readsl h x).
Proof. exact @add_zero_wipes_caller. Qed.
Print Assumptions C43_zero_wipes_caller.

Theorem C43_merge_shares :
  forall now h order s o s' out k r l,
    order ≡ₚ map_to_list (hrecs o) -> wf_store h o -> no_nil (view h s) ->
    h_merge now h order s = Ret (s', out) -> taken (view h s) (view h o) k r ->
    l ≡ₚ store_slices h o -> holds (view (h_zero l h) s') k (rec_zero r).
Proof. exact @merge_zero_other. Qed.
Print Assumptions C43_merge_shares.

Theorem C43_merge_update_shared :
  forall now now' h order s o s' out k r sec h',
    order ≡ₚ map_to_list (hrecs o) -> no_nil (view h s) ->
    h_merge now h order s = Ret (s', out) -> taken (view h s) (view h o) k r ->
    h_update now' h s' k sec = Ret (true, h') ->
    holds (view h' o) k (SRec (rLabel r) now' (osl (readsl h) sec) (rMeta r)).
Proof. exact @merge_update_shared. Qed.
Print Assumptions C43_merge_update_shared.

Theorem C43_new_copies :
  forall now pass h s h',
    h_new now pass h = (s, h') ->
    view h' s = new_store now (readsl h pass) /\
    (forall h2, (forall a, a ∉ dom (hArr h) -> hArr h2 !! a = hArr h' !! a) -> sPass (view h2 s) = Some (readsl h pass)).
Proof. exact @new_copies. Qed.
Print Assumptions C43_new_copies.

Theorem C43_unmarshal_copies :
  forall (C : Crypto) h input pass m s h',
    h_unmarshal h input pass m = Ret (Some (s, h')) ->
    exists v, unmarshal_store (readsl h input) (readsl h pass) m = Ret (Some v) /\
      forall h2, agree h h' h2 -> view h2 s = v.
Proof. exact @unmarshal_copies. Qed.
Print Assumptions C43_unmarshal_copies.

Theorem C43_marshal_wipes :
  forall (C : Crypto) (L : CryptoLaws) l h s m g out h' g',
    wf_store h s -> l ≡ₚ store_slices h s ->
    h_marshal l h s m g = Ret (out, h', g') ->
    (out = None -> h' = h) /\
    (forall x, out <> None -> x ∈ store_slices h s -> inb h x -> readsl h' x = zero (readsl h x)).
Proof. exact @h_marshal_wipes. Qed.
Print Assumptions C43_marshal_wipes.

Definition C43_heap : heap := Heap {[ 0%nat := bs "secret"; 1%nat := bs "pw" ]} ∅ ∅.
(** A caller's buffer is wiped by the store, and the caller's write is seen by it. *)
Example C43_nonvacuous :
  let '(s, h) := h_new 5 (Sl 1 0 2) C43_heap in
  match h_add 6 h s (bs "a") (Some (Sl 0 1 3)) None with
  | Ret (true, s', h') =>
      rSecret <$> (recs (view h' s') !! bs "a" ≫= id) = Some (Some (bs "ecr")) /\
      rSecret <$> (recs (view (set_arr h' 0 (bs "SECRET")) s') !! bs "a" ≫= id) = Some (Some (bs "ECR")) /\
      hArr (h_zero (store_slices h' s') h') !! 0%nat = Some (x73 :: x00 :: x00 :: x00 :: bs "et")
  | _ => False end.
Proof. vm_compute. split_and!; reflexivity. Qed.
