(** Property theorems about common/tlv (C01-C06). Only statements, each closed
    by a lemma of TlvFacts.v, with non-vacuity examples beside them. *)
From Verif Require Import TlvFacts.
Local Open Scope Z_scope.

(** C01. Whatever was encoded before ([enc]) and whatever follows ([rest], [h]),
    encoding a sequence succeeds, only appends, and decoding the appended part
    returns the same values and stops exactly at [rest]. *)
Theorem C01_roundtrip :
  forall enc vs rest h,
    Forall (fits (2 ^ 31)) vs -> Forall nonempty_value vs ->
    exists out, encode_seq enc vs = Some (enc ++ out) /\
      (zlen (out ++ rest) < 2 ^ 31 + 5 ->
       decode_seq (Slice (out ++ rest) h) (map target_of vs)
         = Ret (SOk (map Some vs) (Slice rest h))).
Proof. exact roundtrip_seq. Qed.
Print Assumptions C01_roundtrip.

Definition C01_vs : list value := [VInt I8 (-3); VBytes (bs "abc"); VInt U64 (2 ^ 64 - 1); VInt I32 (- 2 ^ 31)].
Example C01_nonvacuous :
  Forall (fits (2 ^ 31)) C01_vs /\ Forall nonempty_value C01_vs.
Proof.
  split; repeat constructor; cbn; try lia; discriminate.
Qed.

(** What each record looks like on the wire. *)
Theorem C01_wire_format :
  forall enc v, fits (2 ^ 32) v ->
    exists r, tlv_encode enc v = Some (enc ++ r) /\ wire_record v r.
Proof. exact encode_appends. Qed.
Print Assumptions C01_wire_format.

(** The unrestricted round trip is false: the empty byte slice is not consumed. *)
Theorem C01_empty_bytes_refuted :
  exists out, encode_seq [] [VBytes []; VInt U8 7] = Some out /\
    decode_seq (Slice out []) [TBytes; TInt U8] = Ret (SOk [None; None] (Slice out [])).
Proof. exact empty_bytes_stuck. Qed.
Print Assumptions C01_empty_bytes_refuted.

(** Nor does it hold once the buffer body reaches 2^31 bytes: int32(len) wraps. *)
Theorem C01_large_buffer_refuted :
  forall t len body h tgt, length len = 4%nat -> unbe len < 2 ^ 31 -> 2 ^ 31 <= zlen body < 2 ^ 32 ->
    tlv_decode (Slice (t :: len ++ body) h) tgt = Ret (DErr EInvalidLength).
Proof. exact large_buffer_rejected. Qed.
Print Assumptions C01_large_buffer_refuted.

Theorem C02_injective :
  forall enc vs ws out,
    Forall (fits (2 ^ 32)) vs -> Forall (fits (2 ^ 32)) ws ->
    encode_seq enc vs = Some out -> encode_seq enc ws = Some out -> vs = ws.
Proof. exact encode_seq_inj. Qed.
Print Assumptions C02_injective.

Theorem C02_prefix_free :
  forall vs ws o1 o2 r1 r2,
    Forall (fits (2 ^ 32)) vs -> Forall (fits (2 ^ 32)) ws -> length vs = length ws ->
    encode_seq [] vs = Some o1 -> encode_seq [] ws = Some o2 -> o1 ++ r1 = o2 ++ r2 ->
    vs = ws /\ r1 = r2.
Proof. exact encode_seq_inj_suffix. Qed.
Print Assumptions C02_prefix_free.

Example C02_nonvacuous : Forall (fits (2 ^ 32)) (VBytes [] :: C01_vs).
Proof. repeat constructor; cbn; lia. Qed.

(** C03. Exact set of panicking inputs. *)
Theorem C03_panics_exactly :
  forall b h tgt, tlv_decode (Slice b h) tgt = Panic <-> panic_spec b h tgt.
Proof. exact decode_panics. Qed.
Print Assumptions C03_panics_exactly.

Theorem C03_never_panics_refuted :
  (exists b, length b = 5%nat /\ tlv_decode (Slice b []) TBytes = Panic) /\
  (forall t, exists b, length b = 5%nat /\ tlv_decode (Slice b []) (TInt t) = Panic).
Proof. exact five_byte_panics. Qed.
Print Assumptions C03_never_panics_refuted.

(** ... and a short integer record can instead expose bytes that are not part of
    the buffer handed to NewDecoder. *)
Theorem C03_reads_beyond_length_refuted :
  exists b h z rest, tlv_decode (Slice b h) (TInt U32) = Ret (DOk (Some (VInt U32 z)) rest)
    /\ length b = 5%nat /\ z = unbe h.
Proof. exact reads_hidden. Qed.
Print Assumptions C03_reads_beyond_length_refuted.

(** C04. Exact set of inputs from which a value is stored, and which value; exact
    set of inputs accepted without storing anything. *)
Theorem C04_value_exactly :
  forall b h tgt v rest,
    tlv_decode (Slice b h) tgt = Ret (DOk (Some v) rest) <-> value_spec b h tgt v rest.
Proof. exact decode_value. Qed.
Print Assumptions C04_value_exactly.

Theorem C04_untouched_exactly :
  forall b h tgt rest,
    tlv_decode (Slice b h) tgt = Ret (DOk None rest) <-> empty_spec b /\ rest = Slice b h.
Proof. exact decode_untouched. Qed.
Print Assumptions C04_untouched_exactly.

Theorem C04_tag_mismatch_is_error :
  forall b h tgt tag l body, header b tag l body ->
    (match tgt with TInt t => tag <> wire_tag t | TBytes => tag <> wire_tag_bytes | _ => True end) ->
    ~ (tag = wire_tag_bytes /\ l = 0) ->
    exists e, tlv_decode (Slice b h) tgt = Ret (DErr e).
Proof. exact tag_mismatch_error. Qed.
Print Assumptions C04_tag_mismatch_is_error.

Example C04_nonvacuous : exists v rest,
  value_spec [x04; x00; x00; x00; x02; xff; xfe; x01] [] (TInt I16) v rest
  /\ v = VInt I16 (-2) /\ rest = Slice [x01] [].
Proof.
  exists (VInt I16 (-2)), (Slice [x01] []). split; [|auto].
  apply decode_value. vm_compute. reflexivity.
Qed.

(** C05. *)
Theorem C05_progress :
  forall b h tgt v rest,
    tlv_decode (Slice b h) tgt = Ret (DOk (Some v) rest) ->
    hid rest = h /\ vis rest `suffix_of` b /\ (length (vis rest) + 5 <= length b)%nat.
Proof. exact decode_progress. Qed.
Print Assumptions C05_progress.

Theorem C05_loop_bound :
  forall s ts vs rest,
    decode_seq s ts = Ret (SOk vs rest) -> Forall (fun o => o <> None) vs ->
    (5 * length ts + length (vis rest) <= length (vis s))%nat.
Proof. exact decode_seq_bound. Qed.
Print Assumptions C05_loop_bound.

(** However many Decode calls are made, with whatever targets, an empty byte
    record at the front is never passed. *)
Theorem C05_empty_record_spins :
  forall body h n ts, 0 <= n -> seen_length body n ->
    let s := Slice ([x03; x00; x00; x00; x00] ++ body) h in
    decode_seq s ts = Ret (SOk (map (fun _ => None) ts) s).
Proof. exact decode_seq_spins. Qed.
Print Assumptions C05_empty_record_spins.

Example C05_nonvacuous : seen_length (bs "tail") 4.
Proof. split; [lia|]. exists 0. reflexivity. Qed.

(** C06. *)
Theorem C06_encode_total :
  forall enc v, (tlv_encode enc v = None <-> v = VOther) /\
    (forall enc', tlv_encode enc v = Some enc' -> exists r, enc' = enc ++ r).
Proof. exact encode_total. Qed.
Print Assumptions C06_encode_total.

Theorem C06_length :
  forall enc v enc', fits (2 ^ 32) v -> tlv_encode enc v = Some enc' ->
    enc_length enc' = enc_length enc + 5 +
      match v with VInt t _ => Z.of_nat (width t) | VBytes b => zlen b | VOther => 0 end
    /\ enc_length (enc_zero enc') = 0.
Proof. exact encode_length. Qed.
Print Assumptions C06_length.

(** Decoder.Zero wipes the caller's bytes (up to the slice length, not beyond)
    and leaves a decoder from which nothing decodes. *)
Theorem C06_decoder_zero :
  forall s s' d t, dec_zero s = (s', d) ->
    length (vis s') = length (vis s) /\ (forall i b, vis s' !! i = Some b -> b = x00) /\ hid s' = hid s /\
    dec_length d = 0 /\ exists e, tlv_decode d t = Ret (DErr e).
Proof. exact dec_zero_exact. Qed.
Print Assumptions C06_decoder_zero.
