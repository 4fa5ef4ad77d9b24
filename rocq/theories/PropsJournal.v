(** Properties C59 and C60: the journal command. *)
From Verif Require Export CmdJournalFacts Toy.
Local Open Scope Z_scope.

(** For the examples: a small journal under the toy primitives. *)
Definition xj_store : sstore :=
  SStore 1 5 (Some {[ bs "a" := Some (SRec (bs "a") 3 (Some (bs "A")) None); bs "b" := Some (SRec (bs "b") 3 (Some (bs "B")) None) ]}) (Some (bs "p")).
Definition xj_rng : rng := replicate 56 (Some x2a).
Definition xj_file : bytes := match marshal_store (C:=toy) xj_store 1 xj_rng with Ret (Some d, _, _) => d | _ => [] end.
Definition xj_world (ls : list bytes) : world := World {[ bs "f" := xj_file ]} (map typed ls) [Some (bs "p")] [7; 8; 9] xj_rng [] [].
Definition xj_cfg (title : bytes) : jcfg := JCfg [title] (fun c => Some (bs "x" ++ take 1 c)) (fun t => [zb (48 + t)]) (fun l => l).
Definition xj_view (r : res unit) : option (list (bytes * (Z * option bytes))) :=
  match r with
  | Done _ w =>
      match wFs w !! bs "f" with
      | Some d =>
          match unmarshal_store (C:=toy) d (bs "p") 1 with
          | Ret (Some s) => Some (map (fun kv => (fst kv, match snd kv with Some r => (rTime r, rSecret r) | None => (0, None) end)) (map_to_list (recs s)))
          | _ => None
          end
      | None => None
      end
  | _ => None
  end.
(** C59. What journal changes. *)
Theorem C59_edit :
  forall (C : Crypto) (L : CryptoLaws) m path c w w',
    plain_path path -> good_clock w -> journal_run m JEdit path c w = Done tt w' ->
    exists pass s s' title rest r d, head (wPw w) = Some (Some pass) /\ jArgs c = title :: rest /\ opens (wFs w) path m pass s /\ saved (wFs w') path m s' /\
      sPass s' = Some pass /\ sVersion s' = sVersion s /\ same_but title s s' /\
      slot s title = Some (Some r) /\ jEdit c (default [] (rSecret r)) = Some d /\
      slot s' title = Some (Some (SRec (rLabel r) (rTime r) (Some d) (rMeta r))).
Proof. exact @journal_edit. Qed.
Print Assumptions C59_edit.

Theorem C59_write :
  forall (C : Crypto) (L : CryptoLaws) m path c w w',
    plain_path path -> good_clock w -> journal_run m JWrite path c w = Done tt w' ->
    exists pass s s' arg rest title, head (wPw w) = Some (Some pass) /\ jArgs c = arg :: rest /\ trimmed arg title /\
      opens (wFs w) path m pass s /\ saved (wFs w') path m s' /\ sPass s' = Some pass /\ sVersion s' = sVersion s /\
      ((* a fresh title, or another one after a refusal to edit *)
       (exists t d, (t = title /\ slot s title = None \/ slot s title <> None /\ t <> [] /\ exists a i i2, read_line (wIn w) = (Some a, i) /\ ~ affirmative a /\ read_line i = (Some t, i2)) /\
          jEdit c (t ++ [x0a] ++ jFmt c (nth 0 (wClk w) 0) ++ [x0a; x0a] ++ bs "-----" ++ [x0a]) = Some d /\
          same_but t s s' /\ slot s' t = Some (Some (SRec t (nth 1 (wClk w) 0) (Some d) None))) \/
       (* editing *)
       (exists a i r d, slot s title <> None /\ read_line (wIn w) = (Some a, i) /\ affirmative a /\
          slot s arg = Some (Some r) /\ jEdit c (default [] (rSecret r)) = Some d /\
          same_but arg s s' /\ slot s' arg = Some (Some (SRec (rLabel r) (rTime r) (Some d) (rMeta r))))).
Proof. exact @journal_write. Qed.
Print Assumptions C59_write.

Theorem C59_show :
  forall (C : Crypto) (L : CryptoLaws) m path c w w',
    plain_path path -> good_clock w -> journal_run m JShow path c w = Done tt w' ->
    exists pass s title rest r, head (wPw w) = Some (Some pass) /\ jArgs c = title :: rest /\ opens (wFs w) path m pass s /\ slot s title = Some (Some r) /\
      wOut w' = wOut w ++ default [] (rSecret r) ++ [x0a] /\ wFs w' = wFs w.
Proof. exact @journal_show. Qed.
Print Assumptions C59_show.

Theorem C59_read_only :
  forall (C : Crypto) m e path c w w',
    e = JList \/ e = JShow -> ends (journal_run m e path c w) w' -> wFs w' = wFs w.
Proof. exact @journal_read_only. Qed.
Print Assumptions C59_read_only.

Theorem C59_failures :
  forall (C : Crypto) (L : CryptoLaws) m e path c w w',
    (journal_run m e path c w = Fail w' /\ disk_ok w) \/ journal_run m e path c w = Crash w' -> wFs w' = wFs w.
Proof. exact @journal_fails. Qed.
Print Assumptions C59_failures.

Theorem C59_other_files :
  forall (C : Crypto) m i e l wr path c w w',
    ends (journal_main m i e l wr path c w) w' -> only_changes path (wFs w) (wFs w').
Proof. exact @journal_only. Qed.
Print Assumptions C59_other_files.

Theorem C59_init :
  forall (C : Crypto) (L : CryptoLaws) path m w w',
    plain_path path -> good_clock w -> init_any path m w = Done tt w' ->
    exists pass, head (wPw w) = Some (Some pass) /\ only_changes path (wFs w) (wFs w') /\
      opens (wFs w') path m pass (SStore 1 (nth 0 (wClk w) 0) (Some ∅) (Some pass)).
Proof. exact @init_any_exact. Qed.
Print Assumptions C59_init.

Theorem C59_edit_not_merged :
  forall (C : Crypto) (L : CryptoLaws) m path c w w',
    plain_path path -> good_clock w -> journal_run m JEdit path c w = Done tt w' ->
    exists pass s s' title rest r r', head (wPw w) = Some (Some pass) /\ jArgs c = title :: rest /\ opens (wFs w) path m pass s /\ saved (wFs w') path m s' /\
      holds s title r /\ holds s' title r' /\ jEdit c (default [] (rSecret r)) = rSecret r' /\
      forall o now order, no_nil o -> no_nil s' -> order ≡ₚ map_to_list (recs s') -> holds o title r ->
        exists o' ts, store_merge now order o = Ret (o', ts) /\ holds o' title r.
Proof. exact @journal_edit_merge. Qed.
Print Assumptions C59_edit_not_merged.

Theorem C59_no_silent_loss_refuted :
  forall (C : Crypto) (L : CryptoLaws) m path c w pass ps s arg rest a t i i2 old d salt nonce g1 g2,
    m = 0 \/ m = 1 -> plain_path path -> disk_ok w -> wPw w = Some pass :: ps ->
    opens (wFs w) path m pass s -> jArgs c = arg :: rest -> (exists title, trimmed arg title /\ slot s title <> None) ->
    read_line (wIn w) = (Some a, i) -> ~ affirmative a -> read_line i = (Some t, i2) -> t <> [] -> slot s t = Some (Some old) -> sVersion s = 1 ->
    jEdit c (t ++ [x0a] ++ jFmt c (nth 0 (wClk w) 0) ++ [x0a; x0a] ++ bs "-----" ++ [x0a]) = Some d ->
    good_clock w -> nth 2 (wClk w) 0 <> 0 -> length salt = 32%nat -> length nonce = 24%nat -> delivers (wRng w) salt g1 -> delivers g1 nonce g2 ->
    exists w' s', journal_run m JWrite path c w = Done tt w' /\ saved (wFs w') path m s' /\ same_but t s s' /\
      slot s' t = Some (Some (SRec t (nth 1 (wClk w) 0) (Some d) None)).
Proof. exact @journal_retitle. Qed.
Print Assumptions C59_no_silent_loss_refuted.

Example C59_nonvacuous :
  (* edited, with the time of before *)
  xj_view (journal_run (C:=toy) 1 JEdit (bs "f") (xj_cfg (bs "a")) (xj_world [])) = Some [(bs "a", (3, Some (bs "xA"))); (bs "b", (3, Some (bs "B")))] /\
  (* a new entry *)
  xj_view (journal_run (C:=toy) 1 JWrite (bs "f") (xj_cfg (bs " c")) (xj_world [])) = Some [(bs "a", (3, Some (bs "A"))); (bs "b", (3, Some (bs "B"))); (bs "c", (8, Some (bs "xc")))] /\
  (* not edited; b is replaced *)
  xj_view (journal_run (C:=toy) 1 JWrite (bs "f") (xj_cfg (bs "a")) (xj_world [bs "n"; bs "b"])) = Some [(bs "a", (3, Some (bs "A"))); (bs "b", (8, Some (bs "xb")))].
Proof. vm_compute. split_and!; reflexivity. Qed.

(** C60. The listing of journal. *)
Theorem C60_list :
  forall (C : Crypto) (L : CryptoLaws) m path c w w',
    permutes (jPerm c) -> plain_path path -> good_clock w -> journal_run m JList path c w = Done tt w' ->
    exists pass s es ls, head (wPw w) = Some (Some pass) /\ opens (wFs w) path m pass s /\ entries s es /\ lists es ls /\
      wOut w' = wOut w ++ listing (jFmt c) ls /\ wFs w' = wFs w.
Proof. exact @journal_list. Qed.
Print Assumptions C60_list.

Theorem C60_complete :
  forall es ls,
    NoDup es.*1 -> lists es ls -> ((forall k r, (k, r) ∈ es -> (rTime r, k) ∈ ls) <-> NoDup (map (fun e => rTime (snd e)) es)).
Proof. exact @lists_complete. Qed.
Print Assumptions C60_complete.

Theorem C60_any_title :
  forall s es k r,
    entries s es -> (k, r) ∈ es -> exists order ls, order ≡ₚ map_to_list (recs s) /\ list_lines order = Ret ls /\ lists es ls /\ (rTime r, k) ∈ ls.
Proof. exact @lists_any. Qed.
Print Assumptions C60_any_title.

Theorem C60_null_panics :
  forall (C : Crypto) m path c w pass ps s k,
    permutes (jPerm c) -> plain_path path -> wPw w = Some pass :: ps -> opens (wFs w) path m pass s -> slot s k = Some None ->
    exists w', journal_run m JList path c w = Crash w' /\ wFs w' = wFs w.
Proof. exact @journal_list_null. Qed.
Print Assumptions C60_null_panics.

Example C60_nonvacuous :
  (* two entries of one time: one title twice *)
  match journal_run (C:=toy) 1 JList (bs "f") (xj_cfg []) (xj_world []) with
  | Done _ w => bool_decide (wOut w = listing (fun t => [zb (48 + t)]) [(3, bs "b"); (3, bs "b")])
  | _ => false
  end = true /\
  (* distinct times *)
  list_lines [(bs "a", Some (SRec (bs "a") 3 None None)); (bs "b", Some (SRec (bs "b") 9 None None)); (bs "c", Some (SRec (bs "c") 4 None None))] =
    Ret [(9, bs "b"); (4, bs "c"); (3, bs "a")].
Proof. vm_compute. split; reflexivity. Qed.

