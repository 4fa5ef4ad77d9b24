(** Model of [ReadLine], common/util/util.go:137-146, with the parts of bufio and
    strings it uses (Go 1.23). No proofs here. *)
From Verif Require Export Pem.
Local Open Scope Z_scope.

(** Standard input as the reads it will answer: each element is what one read(2)
    would deliver to a large enough buffer; an empty element is a read that
    reports the end of input once (control-D on a terminal); after the last
    element every read reports the end. Simplification: reads do not fail
    otherwise. *)
Definition stdin := list bytes.

(** [os.Stdin.Read(p)] with [len p = n > 0]; an empty result is io.EOF. What does
    not fit stays for the next read. *)
Definition os_read (n : nat) (i : stdin) : bytes * stdin :=
  match i with
  | [] => ([], [])
  | c :: i => (take n c, if decide (drop n c = []) then i else drop n c :: i)
  end.

(** [bufio.NewReader]'s buffer size. *)
Definition bufSize : nat := Z.to_nat 4096.

(** [bufio.Reader.ReadString('\n')] on a fresh reader: [acc] holds the full
    buffers already set aside, [buf] what is buffered. [None] is io.EOF. What is
    buffered behind the newline is lost with the reader. *)
Fixpoint read_string (f : nat) (acc buf : bytes) (i : stdin) : option bytes * stdin :=
  match f with
  | O => (None, i)
  | S f =>
      match cut [x0a] buf with
      | Some (l, _) => (Some (acc ++ l ++ [x0a]), i)
      | None =>
          if decide (bufSize <= length buf)%nat then read_string f (acc ++ buf) [] i else
          match os_read (bufSize - length buf) i with
          | ([], i) => (None, i)
          | (p, i) => read_string f acc (buf ++ p) i
          end
      end
  end.
(** Fuel: a round in which a buffer is set aside is followed by one that reads. *)
Definition pending (i : stdin) : nat := sum_list (length <$> i).
Definition read_fuel (i : stdin) : nat := S (S (2 * pending i)).

(** The UTF-8 encodings of the characters for which unicode.IsSpace holds. *)
Definition spaces : list bytes :=
  [[x09]; [x0a]; [x0b]; [x0c]; [x0d]; [x20]; [xc2; x85]; [xc2; xa0]; [xe1; x9a; x80];
   [xe2; x80; x80]; [xe2; x80; x81]; [xe2; x80; x82]; [xe2; x80; x83]; [xe2; x80; x84]; [xe2; x80; x85];
   [xe2; x80; x86]; [xe2; x80; x87]; [xe2; x80; x88]; [xe2; x80; x89]; [xe2; x80; x8a];
   [xe2; x80; xa8]; [xe2; x80; xa9]; [xe2; x80; xaf]; [xe2; x81; x9f]; [xe3; x80; x80]].
(** [strings.TrimSpace]. No space starts with a continuation byte, so a space at
    either end is found by comparing bytes, whatever surrounds it. *)
Definition lead_space (s : bytes) : option bytes := List.find (fun w => has_prefix w s) spaces.
Definition tail_space (s : bytes) : option bytes := List.find (fun w => has_suffix w s) spaces.
Fixpoint trim_left (f : nat) (s : bytes) : bytes :=
  match f with
  | O => s
  | S f => match lead_space s with Some w => trim_left f (drop (length w) s) | None => s end
  end.
Fixpoint trim_tail (f : nat) (s : bytes) : bytes :=
  match f with
  | O => s
  | S f => match tail_space s with Some w => trim_tail f (take (length s - length w) s) | None => s end
  end.
Definition trim_space (s : bytes) : bytes :=
  let t := trim_left (length s) s in trim_tail (length t) t.

(** [ReadLine], common/util/util.go:137-146; [None] is an error. The prompt is not
    modelled. *)
Definition read_line (i : stdin) : option bytes * stdin :=
  match read_string (read_fuel i) [] [] i with
  | (Some l, i') => (Some (trim_space l), i')
  | (None, i') => (None, i')
  end.

(** [ioutil.ReadAll(os.Stdin)]. *)
Fixpoint read_all (i : stdin) : bytes * stdin :=
  match i with
  | [] => ([], [])
  | [] :: i => ([], i)
  | c :: i => let '(b, i') := read_all i in (c ++ b, i')
  end.
