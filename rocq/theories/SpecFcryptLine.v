(** Specification vocabulary for fcrypt's options, from its usage text. *)
From Verif Require Export SpecFcrypt SpecMains.
Local Open Scope Z_scope.

(** How many file names, or labels to remove, a command takes. *)
Definition arguments (k : fcmd) : nat :=
  match k with
  | FEncrypt | FCryptSign | FDecrypt | FDecryptSigned | FSign | FVerify => 2  (* two files *)
  | FExport | FExportSelf | FImport | FUImport => 1                           (* a file *)
  | FRemove => 1                                                              (* a label *)
  | FCheck | FList => 0
  end%nat.

(** The options that say what to do, and what is done when exactly these are on. *)
Definition fcrypt_verbs : list bytes :=
  [bs "check"; bs "export"; bs "import"; bs "d"; bs "e"; bs "k"; bs "r"; bs "s"; bs "u"; bs "v"].
Definition fcrypt_does (label : bytes) : list (list bytes * fcmd) :=
  [([bs "check"], FCheck); ([bs "d"], FDecrypt); ([bs "e"], FEncrypt); ([bs "k"], FList); ([bs "r"], FRemove); ([bs "s"], FSign);
   ([bs "v"], FVerify); ([bs "e"; bs "s"], FCryptSign); ([bs "export"], if decide (label = bs "self") then FExportSelf else FExport);
   ([bs "import"], FImport); ([bs "import"; bs "u"], FUImport)].
(** Exactly the verbs [vs] are on. *)
Definition only_verbs (set : list (bytes * bytes)) (vs : list bytes) : Prop :=
  forall v, v ∈ fcrypt_verbs -> (on set v = true <-> v ∈ vs).
