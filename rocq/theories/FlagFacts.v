(** Facts about command lines: the parser against the grammar of SpecFlag. *)
From Verif Require Export Flag SpecFlag PemFacts CmdFacts.
Local Open Scope Z_scope.

Lemma name_cut body name v : x3d ∉ name -> body = name ++ [x3d] ++ v -> cut [x3d] body = Some (name, v).
Proof. intros N ->. now apply cut_char. Qed.

Lemma cut_eq_inv body name v : cut [x3d] body = Some (name, v) -> x3d ∉ name /\ body = name ++ [x3d] ++ v.
Proof. intros E. now apply cut_eq_some in E as []. Qed.

Lemma cut_eq_absent body : cut [x3d] body = None -> x3d ∉ body.
Proof.
  intros H I. destruct (cut_char_some _ _ I) as (a & b & E). congruence.
Qed.

Definition flag_body (body : bytes) : fword :=
  match body with
  | [] => WBad
  | c :: _ => if decide (c = x2d \/ c = x3d) then WBad else match cut [x3d] body with Some (n, v) => WOption n (Some v) | None => WOption body None end
  end.
Lemma flag_word_one b r : b <> x2d -> flag_word (x2d :: b :: r) = flag_body (b :: r).
Proof.
  intros N. unfold flag_word. rewrite bool_decide_eq_true_2 by reflexivity. cbn [negb].
  rewrite bool_decide_eq_false_2 by exact N. cbn [andb]. rewrite decide_False by exact N. reflexivity.
Qed.
Lemma flag_word_two r : r <> [] -> flag_word (x2d :: x2d :: r) = flag_body r.
Proof.
  intros N. unfold flag_word. rewrite !bool_decide_eq_true_2 by reflexivity. cbn [negb andb].
  rewrite bool_decide_eq_false_2 by exact N. reflexivity.
Qed.
Lemma dashed_word s body : dashed s body -> flag_word s = flag_body body.
Proof.
  intros [[-> | ->] (c & r & -> & N1 & N2)]; [now apply flag_word_one|now apply flag_word_two].
Qed.
Lemma dashed_body s body c r : dashed s body -> body = c :: r -> c <> x2d /\ c <> x3d.
Proof. intros [_ (c' & r' & E & N1 & N2)] E'. rewrite E in E'. injection E' as -> ->. auto. Qed.

Lemma word_switch s name : dashed s name -> x3d ∉ name -> flag_word s = WOption name None.
Proof.
  intros D N. rewrite (dashed_word _ _ D). destruct D as [_ (c & r & -> & N1 & N2)]. unfold flag_body.
  rewrite decide_False by tauto. now rewrite cut_char_none.
Qed.
Lemma word_equals s name v : dashed s (name ++ [x3d] ++ v) -> x3d ∉ name -> flag_word s = WOption name (Some v).
Proof.
  intros D N. rewrite (dashed_word _ _ D). destruct D as [_ (c & r & E & N1 & N2)]. rewrite E. unfold flag_body.
  rewrite decide_False by tauto. rewrite <- E. now rewrite (name_cut _ name v).
Qed.
Lemma word_option_inv s name value : flag_word s = WOption name value ->
  x3d ∉ name /\ dashed s (match value with Some v => name ++ [x3d] ++ v | None => name end).
Proof.
  intros E.
  assert (B : exists body, dashed s body /\ flag_body body = WOption name value).
  { destruct s as [|a [|b r]]; [discriminate|discriminate|].
    destruct (decide (a = x2d)) as [->|N]; [|unfold flag_word in E; rewrite bool_decide_eq_false_2 in E by exact N; discriminate].
    assert (K : forall body, flag_body body = WOption name value -> exists c r, body = c :: r /\ c <> x2d /\ c <> x3d).
    { intros [|c q] F; [discriminate|]. unfold flag_body in F. destruct (decide (c = x2d \/ c = x3d)); [discriminate|].
      exists c, q. tauto. }
    destruct (decide (b = x2d)) as [->|Nb].
    - destruct r as [|c r]; [vm_compute in E; discriminate|]. rewrite flag_word_two in E by discriminate.
      exists (c :: r). split; [split; [auto|now apply K]|exact E].
    - rewrite flag_word_one in E by exact Nb. exists (b :: r). split; [split; [auto|now apply K]|exact E]. }
  destruct B as (body & D & F). unfold flag_body in F. destruct body as [|c r]; [discriminate|].
  destruct (decide (c = x2d \/ c = x3d)); [discriminate|]. destruct (cut [x3d] (c :: r)) as [[u v]|] eqn:C; injection F as <- <-.
  - apply cut_eq_inv in C as [N E']. rewrite <- E'. auto.
  - apply cut_eq_absent in C. auto.
Qed.
Lemma word_arg s : flag_word s = WArg <-> no_option s.
Proof.
  split.
  - intros E c r ->. destruct (decide (c = x2d)) as [->|N].
    + destruct r as [|d r]; [vm_compute in E; discriminate|]. rewrite flag_word_two in E by discriminate. unfold flag_body in E.
      destruct (decide _); [discriminate|]. destruct (cut _ _) as [[]|]; discriminate.
    + rewrite flag_word_one in E by exact N. unfold flag_body in E.
      destruct (decide _); [discriminate|]. destruct (cut _ _) as [[]|]; discriminate.
  - intros N. destruct s as [|a [|b r]]; [reflexivity|reflexivity|]. unfold flag_word.
    rewrite bool_decide_eq_false_2; [reflexivity|]. intros ->. now apply (N b r).
Qed.
Lemma word_end s : flag_word s = WEnd <-> s = bs "--".
Proof.
  split; [|intros ->; reflexivity].
  intros E. destruct s as [|a [|b r]]; [discriminate|discriminate|].
  destruct (decide (a = x2d)) as [->|N]; [|unfold flag_word in E; rewrite bool_decide_eq_false_2 in E by exact N; discriminate].
  assert (K : forall body, flag_body body <> WEnd).
  { intros [|c q]; unfold flag_body; [discriminate|]. destruct (decide _); [discriminate|]. destruct (cut _ _) as [[]|]; discriminate. }
  destruct (decide (b = x2d)) as [->|Nb].
  - destruct r as [|c r]; [reflexivity|]. rewrite flag_word_two in E by discriminate. now apply K in E.
  - rewrite flag_word_one in E by exact Nb. now apply K in E.
Qed.

(** *** Values *)
Lemma parse_bool_true v : parse_bool v = Some true <-> v ∈ true_words.
Proof.
  unfold parse_bool. destruct (decide _) as [I|N].
  - split; [intros _|reflexivity]. revert I. unfold true_words. set_solver.
  - split; [destruct (decide _); discriminate|]. intros I. exfalso. apply N. revert I. unfold true_words. set_solver.
Qed.
Lemma true_not_false v : v ∈ true_words -> v ∈ false_words -> False.
Proof.
  intros T F. assert (K : forallb (fun x => negb (bool_decide (x ∈ false_words))) true_words = true) by (vm_compute; reflexivity).
  rewrite forallb_forall in K. apply elem_of_list_In in T. specialize (K v T). apply negb_true_iff, bool_decide_eq_false in K. auto.
Qed.
Lemma parse_bool_false v : parse_bool v = Some false <-> v ∈ false_words.
Proof.
  split.
  - unfold parse_bool. destruct (decide _) as [I|N]; [discriminate|]. destruct (decide _) as [I|]; [intros _|discriminate].
    revert I. unfold false_words. set_solver.
  - intros I. destruct (parse_bool v) as [[]|] eqn:E; [|reflexivity|].
    + apply parse_bool_true in E. now destruct (true_not_false v).
    + exfalso. unfold parse_bool in E. destruct (decide _); [discriminate|]. destruct (decide _) as [|N]; [discriminate|].
      apply N. revert I. unfold false_words. set_solver.
Qed.

Section WithDur.
Context (dur : bytes -> option Z).
Notation isdur := (fun v => is_Some (dur v)).

(** The formal options are those of the specification. *)
Definition agree (f : fset) (o : optset) : Prop := forall name,
  match f !! name with
  | Some (BoolF _) => name ∈ switches o /\ name ∉ texts o /\ name ∉ waits o
  | Some (TextF _) => name ∉ switches o /\ name ∈ texts o /\ name ∉ waits o
  | Some (TimeF _) => name ∉ switches o /\ name ∉ texts o /\ name ∈ waits o
  | None => ~ defined o name
  end.
Lemma agree_acceptable f o name v : agree f o ->
  acceptable isdur o name v <-> exists k x, f !! name = Some k /\ set_flag dur k v = Some x.
Proof.
  intros A. specialize (A name). split.
  - unfold acceptable, defined in *. destruct (f !! name) as [[b|s|d]|] eqn:E.
    + destruct A as (A1 & A2 & A3). intros [[_ V]|[?|[? _]]]; try tauto.
      destruct V as [V|V]; [exists (BoolF b), (BoolF true)|exists (BoolF b), (BoolF false)]; cbn.
      * apply parse_bool_true in V. now rewrite V.
      * apply parse_bool_false in V. now rewrite V.
    + intros _. exists (TextF s), (TextF v). auto.
    + destruct A as (A1 & A2 & A3). intros [[? _]|[?|[_ [t V]]]]; try tauto. exists (TimeF d), (TimeF t). cbn. now rewrite V.
    + tauto.
  - intros (k & x & E & S). rewrite E in A. unfold acceptable. destruct k as [b|s|d]; cbn in S.
    + left. split; [tauto|]. destruct (parse_bool v) as [[]|] eqn:P; [left; now apply parse_bool_true|right; now apply parse_bool_false|discriminate].
    + tauto.
    + right; right. split; [tauto|]. destruct (dur v); [eauto|discriminate].
Qed.
Lemma agree_set f o name k v x : agree f o -> f !! name = Some k -> set_flag dur k v = Some x -> agree (<[name := x]> f) o.
Proof.
  intros A E S n. specialize (A n). destruct (decide (n = name)) as [->|N].
  - rewrite lookup_insert, E in *. destruct k; cbn in S; [destruct (parse_bool v)|..|destruct (dur v)]; try discriminate; injection S as <-; exact A.
  - rewrite lookup_insert_ne by auto. exact A.
Qed.
Lemma agree_switch f o name : agree f o -> name ∈ switches o -> exists b, f !! name = Some (BoolF b).
Proof. intros A I. specialize (A name). destruct (f !! name) as [[]|]; [eauto|tauto|tauto|]. destruct A. left. exact I. Qed.

Definition assign (f : fset) (p : bytes * bytes) : fset :=
  match f !! fst p with Some k => match set_flag dur k (snd p) with Some x => <[fst p := x]> f | None => f end | None => f end.
Definition assigns (f : fset) (set : list (bytes * bytes)) : fset := fold_left assign set f.
Lemma assign_agree f o p : agree f o -> agree (assign f p) o.
Proof.
  intros A. unfold assign. destruct (f !! fst p) as [k|] eqn:E; [|exact A]. destruct (set_flag dur k (snd p)) as [x|] eqn:S; [|exact A].
  eapply agree_set; eauto.
Qed.

Lemma options_parse o pre set : options isdur o pre set -> forall f tail, agree f o ->
  parse_flags dur f (pre ++ tail) = parse_flags dur (assigns f set) tail.
Proof.
  induction 1 as [|s name l set D N I _ IH|s name v l set D N V _ IH|s name v l set D N I V _ IH]; intros f tail A.
  - reflexivity.
  - change (assigns f ((name, bs "true") :: set)) with (assigns (assign f (name, bs "true")) set).
    rewrite <- IH by now apply assign_agree. destruct (agree_switch _ _ _ A I) as [b E].
    cbn [app parse_flags]. rewrite (word_switch _ _ D N), E. f_equal. unfold assign. cbn [fst snd]. rewrite E. reflexivity.
  - change (assigns f ((name, v) :: set)) with (assigns (assign f (name, v)) set).
    rewrite <- IH by now apply assign_agree. destruct (proj1 (agree_acceptable _ _ _ _ A) V) as (k & x & E & S).
    cbn [app parse_flags]. rewrite (word_equals _ _ _ D N), E. unfold assign. cbn [fst snd]. rewrite E, S. destruct k; reflexivity.
  - change (assigns f ((name, v) :: set)) with (assigns (assign f (name, v)) set).
    rewrite <- IH by now apply assign_agree. destruct (proj1 (agree_acceptable _ _ _ _ A) V) as (k & x & E & S).
    cbn [app parse_flags]. rewrite (word_switch _ _ D N), E. unfold assign. cbn [fst snd]. rewrite E, S.
    specialize (A name). rewrite E in A. destruct k; [tauto|reflexivity|reflexivity].
Qed.
Lemma leaves_parse f tail rest : leaves tail rest -> parse_flags dur f tail = Parsed f rest.
Proof.
  intros [|a l N|l]; [reflexivity| |]; cbn [parse_flags].
  - apply word_arg in N. now rewrite N.
  - now rewrite (proj2 (word_end (bs "--")) eq_refl).
Qed.

Lemma line_parse f o args set rest : agree f o -> line_sets isdur o args set rest -> parse_flags dur f args = Parsed (assigns f set) rest.
Proof. intros A (pre & tail & -> & O & V). rewrite (options_parse _ _ _ O) by exact A. now apply leaves_parse. Qed.
Lemma help_not_defined f o name : agree f o -> ~ defined o name -> f !! name = None.
Proof. intros A N. specialize (A name). unfold defined in N. destruct (f !! name) as [[]|]; [tauto..|reflexivity]. Qed.
Lemma assigns_agree set : forall f o, agree f o -> agree (assigns f set) o.
Proof. induction set as [|p set IH]; intros f o A; [exact A|]. apply IH. now apply assign_agree. Qed.
Lemma help_parse f o args : agree f o -> asks_help isdur o args -> parse_flags dur f args = Helped.
Proof.
  intros A (pre & set & s & body & name & l & -> & O & D & B & H & U).
  rewrite (options_parse _ _ _ O) by exact A. cbn [parse_flags].
  assert (N : x3d ∉ name). { destruct H as [-> | ->]; apply (bool_decide_eq_false (x3d ∈ _)); vm_compute; reflexivity. }
  assert (W : exists value, flag_word s = WOption name value).
  { destruct B as [-> |[v ->]]; [exists None; now apply word_switch|exists (Some v); now apply word_equals]. }
  destruct W as [value ->]. rewrite (help_not_defined _ o); [|now apply assigns_agree|exact U]. rewrite decide_True by tauto. reflexivity.
Qed.

Lemma line_cons o s l set1 args set rest :
  (forall pre set, options isdur o pre set -> options isdur o (s ++ pre) (set1 ++ set)) -> args = s ++ l ->
  line_sets isdur o l set rest -> line_sets isdur o args (set1 ++ set) rest.
Proof.
  intros K -> (pre & tail & -> & O & V). exists (s ++ pre), tail. split; [now rewrite app_assoc|]. split; [now apply K|exact V].
Qed.
Lemma help_cons o s l set1 args :
  (forall pre set, options isdur o pre set -> options isdur o (s ++ pre) (set1 ++ set)) -> args = s ++ l ->
  asks_help isdur o l -> asks_help isdur o args.
Proof.
  intros K -> (pre & set & h & body & name & r & -> & O & V). exists (s ++ pre), (set1 ++ set), h, body, name, r.
  split; [now rewrite app_assoc|]. split; [now apply K|exact V].
Qed.

Lemma parse_reads o n : forall f args, (length args <= n)%nat -> agree f o ->
  match parse_flags dur f args with
  | Parsed f' rest => exists set, line_sets isdur o args set rest
  | Helped => asks_help isdur o args
  | Refused => True
  end.
Proof.
  induction n as [|n IH]; intros f args Hn A.
  { destruct args; [|cbn in Hn; lia]. cbn. exists [], [], []. split; [reflexivity|]. split; constructor. }
  destruct args as [|s l]; cbn [parse_flags].
  { exists [], [], []. split; [reflexivity|]. split; constructor. }
  cbn [length] in Hn.
  destruct (flag_word s) as [| | |name value] eqn:W.
  - exists [], [], (s :: l). split; [reflexivity|]. split; [constructor|]. constructor. now apply word_arg.
  - apply word_end in W as ->. exists [], [], (bs "--" :: l). split; [reflexivity|]. split; constructor.
  - exact I.
  - apply word_option_inv in W as [N D].
    assert (Step : forall (s1 : list bytes) l1 set1 f1, (length l1 <= n)%nat -> s :: l = s1 ++ l1 -> agree f1 o ->
      (forall pre set, options isdur o pre set -> options isdur o (s1 ++ pre) (set1 ++ set)) ->
      match parse_flags dur f1 l1 with
      | Parsed f' rest => exists set, line_sets isdur o (s :: l) set rest
      | Helped => asks_help isdur o (s :: l)
      | Refused => True
      end).
    { intros s1 l1 set1 f1 H1 E1 A1 K. specialize (IH f1 l1 H1 A1). destruct (parse_flags dur f1 l1) as [f' rest| |]; [|eapply help_cons; eauto|exact I].
      destruct IH as [set IH]. exists (set1 ++ set). eapply line_cons; eauto. }
    destruct (f !! name) as [k|] eqn:E.
    2:{ destruct (decide _) as [H|]; [|exact I]. exists [], [], s, (match value with Some v => name ++ [x3d] ++ v | None => name end), name, l.
        split; [reflexivity|]. split; [constructor|]. split; [exact D|]. split; [destruct value; eauto|]. split; [tauto|].
        specialize (A name). now rewrite E in A. }
    pose proof (A name) as Ak. rewrite E in Ak.
    destruct value as [v|].
    + destruct (set_flag dur k v) as [x|] eqn:S; [|destruct k; exact I].
      assert (R : match parse_flags dur (<[name := x]> f) l with
        | Parsed f' rest => exists set, line_sets isdur o (s :: l) set rest | Helped => asks_help isdur o (s :: l) | Refused => True end).
      { apply (Step [s] l [(name, v)]); [lia|reflexivity|eapply agree_set; eauto|]. intros pre set O.
        apply op_equals; auto. apply (agree_acceptable f); eauto. }
      destruct k; exact R.
    + destruct k as [b|t|d].
      * apply (Step [s] l [(name, bs "true")]); [lia|reflexivity|eapply (agree_set f o name (BoolF b) (bs "true")); eauto|]. intros pre set O.
        apply op_switch; tauto.
      * destruct l as [|v l]; [exact I|]. cbn [set_flag]. apply (Step [s; v] l [(name, v)]); [cbn in Hn; lia|reflexivity|eapply (agree_set f o name (TextF t) v); eauto|]. intros pre set O.
        apply op_value; auto; [tauto|]. right; left. tauto.
      * destruct l as [|v l]; [exact I|]. destruct (set_flag dur (TimeF d) v) as [x|] eqn:S; [|exact I].
        apply (Step [s; v] l [(name, v)]); [cbn in Hn; lia|reflexivity|eapply (agree_set f o name (TimeF d) v); eauto|]. intros pre set O.
        apply op_value; auto; [tauto|]. apply (agree_acceptable f); eauto.
Qed.

Lemma parse_exact f o args f' rest : agree f o ->
  parse_flags dur f args = Parsed f' rest <-> exists set, line_sets isdur o args set rest /\ f' = assigns f set.
Proof.
  intros A. split.
  - intros P. pose proof (parse_reads o (length args) f args (le_n _) A) as R. rewrite P in R. destruct R as [set R].
    exists set. split; [exact R|]. rewrite (line_parse _ _ _ _ _ A R) in P. congruence.
  - intros (set & R & ->). now apply (line_parse f o).
Qed.
Lemma parse_helps f o args : agree f o -> parse_flags dur f args = Helped <-> asks_help isdur o args.
Proof.
  intros A. split; [|now apply help_parse].
  intros P. pose proof (parse_reads o (length args) f args (le_n _) A) as R. now rewrite P in R.
Qed.
Lemma parse_refuses f o args : agree f o ->
  parse_flags dur f args = Refused <-> ~ asks_help isdur o args /\ forall set rest, ~ line_sets isdur o args set rest.
Proof.
  intros A. split.
  - intros P. split; [intros H; apply (help_parse _ _ _ A) in H; congruence|]. intros set rest R. apply (line_parse _ _ _ _ _ A) in R. congruence.
  - intros [H R]. destruct (parse_flags dur f args) as [f' rest| |] eqn:P; [|now apply (parse_helps _ _ _ A) in P|reflexivity].
    apply (parse_exact _ _ _ _ _ A) in P as (set & L & _). now apply R in L.
Qed.

(** *** What the options then hold *)
Lemma set_flag_kind k v x w : set_flag dur k v = Some x -> set_flag dur x w = set_flag dur k w.
Proof.
  destruct k; cbn; [destruct (parse_bool v)|..|destruct (dur v)]; cbn; try discriminate; intros [= <-]; reflexivity.
Qed.
Lemma assigns_lookup o pre set : options isdur o pre set -> forall f name k, agree f o -> f !! name = Some k ->
  assigns f set !! name = match last_value set name with Some v => set_flag dur k v | None => Some k end.
Proof.
  assert (Gen : forall n v set f name k, agree f o -> acceptable isdur o n v -> f !! name = Some k ->
    (forall f name k, agree f o -> f !! name = Some k -> assigns f set !! name = match last_value set name with Some v => set_flag dur k v | None => Some k end) ->
    assigns f ((n, v) :: set) !! name = match last_value ((n, v) :: set) name with Some v => set_flag dur k v | None => Some k end).
  { intros n v set' f name k A V E IH. change (assigns f ((n, v) :: set')) with (assigns (assign f (n, v)) set').
    destruct (proj1 (agree_acceptable _ _ _ _ A) V) as (k' & x & E' & S).
    assert (Q : assign f (n, v) = <[n := x]> f) by (unfold assign; cbn [fst snd]; rewrite E', S; reflexivity).
    cbn [last_value]. rewrite Q. destruct (decide (n = name)) as [<-|Nn].
    - rewrite E' in E. injection E as ->. rewrite (IH _ n x); [|eapply agree_set; eauto|apply lookup_insert].
      destruct (last_value set' n); [now apply (set_flag_kind k v)|now rewrite S].
    - rewrite (IH _ name k); [|eapply agree_set; eauto|now rewrite lookup_insert_ne]. destruct (last_value set' name); reflexivity. }
  induction 1 as [|s name l set D N I _ IH|s name v l set D N V _ IH|s name v l set D N I V _ IH]; intros f nm k A E.
  - exact E.
  - apply Gen; auto. left. split; [exact I|]. left. unfold true_words. set_solver.
  - apply Gen; auto.
  - apply Gen; auto.
Qed.
Lemma last_acceptable o pre set : options isdur o pre set -> forall name v, last_value set name = Some v -> acceptable isdur o name v.
Proof.
  induction 1 as [|s name l set D N I _ IH|s name v l set D N V _ IH|s name v l set D N I V _ IH]; intros nm x; cbn [last_value]; [discriminate|..];
    (destruct (last_value set nm) as [y|] eqn:E; [intros [= <-]; now apply IH|]); (destruct (decide _) as [<-|]; [|discriminate]); intros [= <-]; auto.
  left. split; [exact I|]. left. unfold true_words. set_solver.
Qed.

Section Reading.
Context (f : fset) (o : optset) (args : list bytes) (set : list (bytes * bytes)) (rest : list bytes).
Context (A : agree f o) (R : line_sets isdur o args set rest).
Lemma read_bool name : f !! name = Some (BoolF false) -> bool_flag (assigns f set) name = on set name.
Proof using A R.
  intros E. destruct R as (pre & tail & _ & O & _). unfold bool_flag, on. rewrite (assigns_lookup _ _ _ O f name _ A E).
  destruct (last_value set name) as [v|] eqn:V; [|reflexivity]. cbn [set_flag].
  pose proof (last_acceptable _ _ _ O _ _ V) as K. apply (agree_acceptable f) in K as (k & x & E' & S); [|exact A].
  rewrite E in E'. injection E' as <-. cbn in S. destruct (parse_bool v) as [[]|] eqn:P; [| |discriminate]; cbn.
  - apply parse_bool_true in P. now rewrite bool_decide_eq_true_2.
  - rewrite bool_decide_eq_false_2; [reflexivity|]. intros T. apply parse_bool_true in T. congruence.
Qed.
Lemma read_text name d : f !! name = Some (TextF d) -> text_flag (assigns f set) name = given set name d.
Proof using A R.
  intros E. destruct R as (pre & tail & _ & O & _). unfold text_flag, given. rewrite (assigns_lookup _ _ _ O f name _ A E).
  destruct (last_value set name) as [v|] eqn:V; reflexivity.
Qed.
Lemma read_time name d : f !! name = Some (TimeF d) ->
  match last_value set name with Some v => dur v = Some (time_flag (assigns f set) name) | None => time_flag (assigns f set) name = d end.
Proof using A R.
  intros E. destruct R as (pre & tail & _ & O & _). unfold time_flag. rewrite (assigns_lookup _ _ _ O f name _ A E).
  destruct (last_value set name) as [v|] eqn:V; [|reflexivity]. cbn [set_flag].
  pose proof (last_acceptable _ _ _ O _ _ V) as K. apply (agree_acceptable f) in K as (k & x & E' & S); [|exact A].
  rewrite E in E'. injection E' as <-. cbn in S. destruct (dur v); [reflexivity|discriminate].
Qed.
End Reading.
End WithDur.

(** *** A line is read in one way only *)
Lemma leaves_no_option s name value l rest : flag_word s = WOption name value -> ~ leaves (s :: l) rest.
Proof.
  intros W V. remember (s :: l) as t eqn:E. destruct V as [|a l' N|l']; [discriminate E|..]; injection E as E1 E2.
  - apply word_arg in N. congruence.
  - rewrite <- E1 in W. vm_compute in W. discriminate.
Qed.
Lemma leaves_det t rest rest' : leaves t rest -> leaves t rest' -> rest = rest'.
Proof.
  intros [|a l N|l] V; inversion V as [|a' l' N'|l']; subst; auto.
  - exfalso. exact (N x2d [] eq_refl).
  - exfalso. exact (N' x2d [] eq_refl).
Qed.
Lemma line_det_gen d o pre set : options d o pre set -> forall pre' set' tail tail' rest rest', options d o pre' set' -> leaves tail rest -> leaves tail' rest' ->
  pre ++ tail = pre' ++ tail' -> set = set' /\ rest = rest'.
Proof.
  induction 1 as [|s name l set D N I _ IH|s name v l set D N V _ IH|s name v l set D N I V _ IH]; intros pre' set' tail tail' rest rest' O' L L' E.
  - destruct O' as [|s' name' l' set' D' N' I' O'|s' name' v' l' set' D' N' V' O'|s' name' v' l' set' D' N' I' V' O']; cbn [app] in E.
    + subst tail'. split; [reflexivity|]. eapply leaves_det; eauto.
    + subst tail. exfalso. revert L. eapply leaves_no_option, word_switch; eauto.
    + subst tail. exfalso. revert L. eapply leaves_no_option, word_equals; eauto.
    + subst tail. exfalso. revert L. eapply leaves_no_option, word_switch; eauto.
  - pose proof (word_switch _ _ D N) as W.
    destruct O' as [|s' name' l' set' D' N' I' O'|s' name' v' l' set' D' N' V' O'|s' name' v' l' set' D' N' I' V' O']; cbn [app] in E.
    + subst tail'. exfalso. revert L'. eapply leaves_no_option; eauto.
    + injection E as <- E. pose proof (word_switch _ _ D' N') as W'. rewrite W in W'. injection W' as <-.
      destruct (IH _ _ _ _ _ _ O' L L' E) as [-> ->]. auto.
    + injection E as <- E. pose proof (word_equals _ _ _ D' N') as W'. congruence.
    + injection E as <- E. pose proof (word_switch _ _ D' N') as W'. rewrite W in W'. injection W' as <-. contradiction.
  - pose proof (word_equals _ _ _ D N) as W.
    destruct O' as [|s' name' l' set' D' N' I' O'|s' name' v' l' set' D' N' V' O'|s' name' v' l' set' D' N' I' V' O']; cbn [app] in E.
    + subst tail'. exfalso. revert L'. eapply leaves_no_option; eauto.
    + injection E as <- E. pose proof (word_switch _ _ D' N') as W'. congruence.
    + injection E as <- E. pose proof (word_equals _ _ _ D' N') as W'. rewrite W in W'. injection W' as <- <-.
      destruct (IH _ _ _ _ _ _ O' L L' E) as [-> ->]. auto.
    + injection E as <- E. pose proof (word_switch _ _ D' N') as W'. congruence.
  - pose proof (word_switch _ _ D N) as W.
    destruct O' as [|s' name' l' set' D' N' I' O'|s' name' v' l' set' D' N' V' O'|s' name' v' l' set' D' N' I' V' O']; cbn [app] in E.
    + subst tail'. exfalso. revert L'. eapply leaves_no_option; eauto.
    + injection E as <- E. pose proof (word_switch _ _ D' N') as W'. rewrite W in W'. injection W' as <-. contradiction.
    + injection E as <- E. pose proof (word_equals _ _ _ D' N') as W'. congruence.
    + injection E as <- <- E. pose proof (word_switch _ _ D' N') as W'. rewrite W in W'. injection W' as <-.
      destruct (IH _ _ _ _ _ _ O' L L' E) as [-> ->]. auto.
Qed.
Lemma line_det d o args set rest set' rest' : line_sets d o args set rest -> line_sets d o args set' rest' -> set = set' /\ rest = rest'.
Proof. intros (pre & tail & -> & O & L) (pre' & tail' & E & O' & L'). eapply line_det_gen; eauto. Qed.
(** A line in order is no request for help. *)
Lemma help_word s body name : dashed s body -> (body = name \/ exists v, body = name ++ [x3d] ++ v) -> name = bs "h" \/ name = bs "help" ->
  exists value, flag_word s = WOption name value.
Proof.
  intros D B N. assert (x3d ∉ name) as Nx by (destruct N as [->| ->]; apply (bool_decide_eq_false (x3d ∈ _)); vm_compute; reflexivity).
  destruct B as [->|[v ->]]; [exists None; now apply word_switch|exists (Some v); now apply word_equals].
Qed.
Lemma help_apart_gen d o pre set : options d o pre set -> forall pre' set' tail rest s name value l, options d o pre' set' -> leaves tail rest ->
  flag_word s = WOption name value -> ~ defined o name -> pre ++ tail = pre' ++ s :: l -> False.
Proof.
  assert (Ac : forall n v, acceptable d o n v -> defined o n) by (intros n v [[? _]|[?|[? _]]]; [now left|now right; left|now right; right]).
  induction 1 as [|s name l set D N I _ IH|s name v l set D N V _ IH|s name v l set D N I V _ IH]; intros pre' set' tail rest s0 name0 value0 l0 O' L W0 U E.
  - destruct O' as [|s' name' l' set' D' N' I' O'|s' name' v' l' set' D' N' V' O'|s' name' v' l' set' D' N' I' V' O']; cbn [app] in E; subst tail; revert L.
    + eapply leaves_no_option; eauto.
    + eapply leaves_no_option, word_switch; eauto.
    + eapply leaves_no_option, word_equals; eauto.
    + eapply leaves_no_option, word_switch; eauto.
  - pose proof (word_switch _ _ D N) as W.
    destruct O' as [|s' name' l' set' D' N' I' O'|s' name' v' l' set' D' N' V' O'|s' name' v' l' set' D' N' I' V' O']; cbn [app] in E.
    + injection E as <- E. rewrite W in W0. injection W0 as <- _. apply U. now left.
    + injection E as <- E. exact (IH _ _ _ _ _ _ _ _ O' L W0 U E).
    + injection E as <- E. pose proof (word_equals _ _ _ D' N') as W'. congruence.
    + injection E as <- E. pose proof (word_switch _ _ D' N') as W'. rewrite W in W'. injection W' as <-. contradiction.
  - pose proof (word_equals _ _ _ D N) as W.
    destruct O' as [|s' name' l' set' D' N' I' O'|s' name' v' l' set' D' N' V' O'|s' name' v' l' set' D' N' I' V' O']; cbn [app] in E.
    + injection E as <- E. rewrite W in W0. injection W0 as <- _. apply U. eauto.
    + injection E as <- E. pose proof (word_switch _ _ D' N') as W'. congruence.
    + injection E as <- E. exact (IH _ _ _ _ _ _ _ _ O' L W0 U E).
    + injection E as <- E. pose proof (word_switch _ _ D' N') as W'. congruence.
  - pose proof (word_switch _ _ D N) as W.
    destruct O' as [|s' name' l' set' D' N' I' O'|s' name' v' l' set' D' N' V' O'|s' name' v' l' set' D' N' I' V' O']; cbn [app] in E.
    + injection E as <- E. rewrite W in W0. injection W0 as <- _. apply U. eauto.
    + injection E as <- E. pose proof (word_switch _ _ D' N') as W'. rewrite W in W'. injection W' as <-. contradiction.
    + injection E as <- E. pose proof (word_equals _ _ _ D' N') as W'. congruence.
    + injection E as <- <- E. exact (IH _ _ _ _ _ _ _ _ O' L W0 U E).
Qed.
Lemma help_apart d o args set rest : line_sets d o args set rest -> ~ asks_help d o args.
Proof.
  intros (pre & tail & -> & O & L) (pre' & set' & s & body & name & l & E & O' & D & B & N & U).
  destruct (help_word _ _ _ D B N) as [value W]. exact (help_apart_gen _ _ _ _ O _ _ _ _ _ _ _ _ O' L W U E).
Qed.
