(** C03, C04, C59: the broker's stream reader. *)
From Coq Require Import String.
From Verif Require Import Common Bytes HeaderModel HeaderSpec FramingModel FramingSpec FramingProofs.
Local Open Scope string_scope.
Local Open Scope list_scope.

(** Whatever sizes the successive recv calls return (enough of them to see all
    bytes), exactly the messages written are dispatched, in order. *)
Theorem C03_framing : forall cap0 ms ks, 542 <= cap0 ->
  forallb sendable ms = true -> forallb nonempty ms = true ->
  length (concat (map wire_bytes ms)) <= length ks ->
  exists out s, reader_run cap0 (reader_init cap0) (concat (map wire_bytes ms)) ks = Ok (out, [], s, false) /\
    map content out = map content ms.
Proof. exact framing. Qed.
Print Assumptions C03_framing.

Definition sample_header (plen : Z) : header :=
  mkHeader 2 0 7 1 99 plen 0 (bs "Device.WiFi." ++ repeat 0%Z 244) 0 (bs "INBOX.1" ++ repeat 0%Z 249).
Definition sample_message : message := (sample_header 3, bs "abc").

Example C03_witness : forallb sendable [sample_message; sample_message] = true /\
  forallb nonempty [sample_message; sample_message] = true /\
  length (concat (map wire_bytes [sample_message; sample_message])) = 108.
Proof. vm_compute. auto. Qed.

(** At every point of every run the dispatched messages are an initial segment
    of the messages written, and the client is still connected. *)
Theorem C03_framing_any_prefix : forall cap0 ms ks, 542 <= cap0 ->
  forallb sendable ms = true -> forallb nonempty ms = true ->
  exists out rest s ms1 ms2, reader_run cap0 (reader_init cap0) (concat (map wire_bytes ms)) ks = Ok (out, rest, s, false) /\
    ms = ms1 ++ ms2 /\ map content out = map content ms1.
Proof. exact framing_prefix. Qed.
Print Assumptions C03_framing_any_prefix.

(** For any bytes at all, from any state of the reader, the outcome does not
    depend on the chunking. *)
Theorem C03_chunking_irrelevant : forall cap0 s stream ks1 ks2,
  length stream <= length ks1 -> length stream <= length ks2 ->
  reader_run cap0 s stream ks1 = reader_run cap0 s stream ks2.
Proof. exact chunking_irrelevant. Qed.
Print Assumptions C03_chunking_irrelevant.

Example C03_chunking_witness :
  length (wire_bytes sample_message) <= length (repeat 1 54) /\ length (wire_bytes sample_message) <= length (repeat 54 60) /\
  match reader_run 600 (reader_init 600) (wire_bytes sample_message) (repeat 1 54) with
  | Ok ([_], [], _, false) => True | _ => False end.
Proof. vm_compute. repeat split; repeat constructor. Qed.

(** A message without payload is never dispatched, and the next byte the client
    sends gets it disconnected. *)
Theorem C04_empty_payload_refuted : forall cap0 m rest ks, 542 <= cap0 ->
  sendable m = true -> snd m = [] -> rest <> [] -> length (wire_bytes m ++ rest) <= length ks ->
  exists s, reader_run cap0 (reader_init cap0) (wire_bytes m ++ rest) ks = Ok ([], rest, s, true).
Proof. exact empty_payload_drops. Qed.
Print Assumptions C04_empty_payload_refuted.

Example C04_witness : sendable (sample_header 0, []) = true /\ wire_bytes sample_message <> [].
Proof. vm_compute. split; [reflexivity|discriminate]. Qed.

(** With the 64 KB buffer, a client that never announces a header shorter than
    22 bytes or a payload of (nearly) 2 GB cannot make the reader touch memory
    outside its buffer, whatever else it sends. *)
Theorem C59_reader_memory_safe_partial : forall cap0 stream ks, (65536 <= Z.of_nat cap0)%Z ->
  bytes_ok stream = true -> tame stream ->
  reader_run cap0 (reader_init cap0) stream ks <> UB.
Proof. exact reader_safe. Qed.
Print Assumptions C59_reader_memory_safe_partial.

Example C59_witness : tame (wire_bytes sample_message ++ repeat 255%Z 100) /\
  bytes_ok (wire_bytes sample_message ++ repeat 255%Z 100) = true.
Proof. split; [apply tameb_tame|]; vm_compute; reflexivity. Qed.

(** Without those conditions it can: six magic bytes announcing a 5 byte header
    and one more byte suffice. *)
Theorem C59_short_header_refuted : exists stream ks, bytes_ok stream = true /\ length stream = 7 /\
  reader_run (Z.to_nat 65536) (reader_init (Z.to_nat 65536)) stream ks = UB.
Proof. exact short_header_ub. Qed.
Print Assumptions C59_short_header_refuted.

(** An announced payload of 4 GB - 1. *)
Theorem C59_huge_payload_refuted : exists stream ks, bytes_ok stream = true /\ length stream <= 60 /\
  reader_run (Z.to_nat 65536) (reader_init (Z.to_nat 65536)) stream ks = UB.
Proof. exact huge_payload_ub. Qed.
Print Assumptions C59_huge_payload_refuted.

(** In the build with an 8 KB buffer even tame bytes overrun it. *)
Theorem C59_small_buffer_refuted : exists stream ks, bytes_ok stream = true /\ tame stream /\
  reader_run (Z.to_nat 8192) (reader_init (Z.to_nat 8192)) stream ks = UB.
Proof. exact small_buffer_ub. Qed.
Print Assumptions C59_small_buffer_refuted.
