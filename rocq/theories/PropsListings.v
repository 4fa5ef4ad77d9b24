(** Property C89: what secrets and fcrypt print about a store. *)
From Verif Require Export ListingsClaims PropsSecretsCmd PropsCalendar.
Local Open Scope Z_scope.

(** C89. secrets -l. *)
Theorem C89_list :
  forall (C : Crypto) loc path m w pass ps s,
    plain_path path -> wPw w = Some pass :: ps -> opens (wFs w) path m pass s ->
    exists t w', secrets_listing (minute_text loc) s t /\ secrets_list loc path m w = Done tt w' /\ wOut w' = wOut w ++ t /\ wFs w' = wFs w /\ wPw w' = ps.
Proof. exact @secrets_listed. Qed.
Print Assumptions C89_list.

(** The listing says nothing of secrets, metadata and the times of entries. *)
Theorem C89_list_reveals :
  forall (when : Z -> bytes) s s' t t',
    secrets_listing when s t -> secrets_listing when s' t' -> (forall k, slot s k = None <-> slot s' k = None) -> sTime s = sTime s' -> t = t'.
Proof. exact listing_depends. Qed.
Print Assumptions C89_list_reveals.

(** But not even the labels can be read from it with certainty. *)
Theorem C89_labels_refuted :
  exists s s' t k,
    secrets_listing (minute_text (fun _ => (bs "UTC", 0))) s t /\ secrets_listing (minute_text (fun _ => (bs "UTC", 0))) s' t /\ slot s k <> None /\ slot s' k = None.
Proof.
  pose (A := SStore 1 5 (Some {[ bs "a" ++ [x0a; x09] ++ bs "b" := None; bs "c" := None ]}) None).
  pose (B := SStore 1 5 (Some {[ bs "a" := None; bs "b" ++ [x0a; x09] ++ bs "c" := None ]}) None).
  exists A, B, (secrets_list_text (fun _ => (bs "UTC", 0)) A), (bs "c"). split; [apply list_text_listing|]. split; [|vm_compute; split; [discriminate|reflexivity]].
  assert (secrets_list_text (fun _ => (bs "UTC", 0)) A = secrets_list_text (fun _ => (bs "UTC", 0)) B) as -> by (vm_compute; reflexivity). apply list_text_listing.
Qed.
Print Assumptions C89_labels_refuted.

(** secrets with a label: -clip prints the secret alone, whatever other options say. *)
Theorem C89_show :
  forall (C : Crypto) loc ord path m c w pass ps s label rest r,
    (forall md, ord md ≡ₚ map_to_list md) -> plain_path path -> wPw w = Some pass :: ps -> opens (wFs w) path m pass s ->
    cArgs c = label :: rest -> slot s label = Some (Some r) ->
    exists t w', secrets_showing (minute_text loc) r (cClip c) (cMeta c) t /\ secrets_show loc ord path m c w = Done tt w' /\ wOut w' = wOut w ++ t /\ wFs w' = wFs w /\ wPw w' = ps.
Proof. exact @secrets_shown. Qed.
Print Assumptions C89_show.

(** These are the runs of C54, with the texts they leave out. *)
Theorem C89_same_list :
  forall (C : Crypto) n loc path m c w, same_but_output (secrets_list loc path m w) (run_cmd n m CList path c w).
Proof. exact @list_same_run. Qed.
Print Assumptions C89_same_list.

Theorem C89_same_show :
  forall (C : Crypto) n loc ord path m c w,
    same_but_output (secrets_show loc ord path m c w) (run_cmd n m CShow path c w) /\
    (cClip c = true \/ cMeta c = false -> secrets_show loc ord path m c w = run_cmd n m CShow path c w).
Proof. intros. split; [apply show_same_run|apply show_same_plain]. Qed.
Print Assumptions C89_same_show.

(** fcrypt -k. *)
Theorem C89_keys :
  forall (C : Crypto) loc f o l a s w m,
    key_file (wFs w) (lPath l) s -> chosen l = Some (FList, a) -> kwell s -> ksKeys s = Some m -> an_order s (foList o) -> orders s (foListFind o) ->
    exists rep w', fc_main f o l w = Done rep w' /\ keys_listing (minute_text loc) s (foList o) (fc_report_text loc rep) /\ wFs w' = wFs w /\ wPw w' = wPw w.
Proof. exact @keys_listed. Qed.
Print Assumptions C89_keys.

(** "Signed by: <unknown>" is also what is shown of a key signed by one that was given this name. *)
Theorem C89_unknown_refuted :
  exists s r k y,
    krecord s k y /\ SpecKeyStore.subject y = SpecKeyStore.signer r /\ shown_signer s r (bs "<unknown>").
Proof.
  exists (KStore 0 0 (Some {[ bs "<unknown>" := Some (KRec (bs "<unknown>") 0 0 (Some (bs "k")) None None 0 None) ]}) None (Some (bs "o")) None None true),
    (KRec (bs "bob") 0 0 (Some (bs "b")) None (Some (bs "k")) 0 None), (bs "<unknown>"), (KRec (bs "<unknown>") 0 0 (Some (bs "k")) None None 0 None).
  split; [eexists; split; [reflexivity|vm_compute; reflexivity]|]. split; [reflexivity|]. right. split; [vm_compute; discriminate|]. left.
  exists (bs "<unknown>"), (KRec (bs "<unknown>") 0 0 (Some (bs "k")) None None 0 None). split; [eexists; split; [reflexivity|vm_compute; reflexivity]|]. split; reflexivity.
Qed.
Print Assumptions C89_unknown_refuted.

Definition xl_loc : Calendar.location := fun _ => (bs "UTC", 0).
Definition xl_out {A} (r : res A) : bytes := match r with Done _ w => wOut w | _ => bs "no" end.
Example C89_nonvacuous :
  xl_out (secrets_list (C:=toy) xl_loc xs_path 1 (xs_world [] [bs "pw"])) =
    bs "Secrets store was updated  1970-01-1 00:00 UTC" ++ [x0a] ++ bs "1 entries" ++ [x0a; x0a] ++ bs "Names:" ++ [x0a; x09] ++ bs "mail" ++ [x0a] /\
  (let show clip meta := xl_out (secrets_show (C:=toy) xl_loc map_to_list xs_path 1 (SCfg [bs "mail"] clip false meta) (xs_world [] [bs "pw"])) in
   show true true = bs "s1" /\ show false false = bs "Secret: s1" ++ [x0a] /\
   show false true = bs "Secret: s1" ++ [x0a] ++ bs "Timestamp: 3 (1970-01-1 00:00 UTC)" ++ [x0a; x09] ++ bs "user: kyle" ++ [x0a]).
Proof. vm_compute. split_and!; reflexivity. Qed.
Example C89_nonvacuous_keys :
  match xf_run FList false (bs "self") [] xf_fs [] [] with
  | Done rep _ => take 83 (fc_report_text xl_loc rep)
  | _ => []
  end = bs "Key store was last updated 1970-01-1 00:00 UTC" ++ [x0a] ++ bs "2 keys stored" ++ [x0a] ++ bs "Owner public key:" ++ [x0a; x09] ++ bs "Fin".
Proof. vm_compute. reflexivity. Qed.
