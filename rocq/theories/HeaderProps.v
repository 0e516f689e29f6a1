(** C02: the message header codec. *)
From Coq Require Import String.
From Verif Require Import Common Bytes HeaderModel HeaderSpec HeaderProofs.
Local Open Scope Z_scope.

(** Decoding the encoded bytes into an initialised header gives back every
    user-visible field, with any bytes following; the encoder's header_length is
    the number of bytes it wrote. *)
Theorem C02_header_roundtrip : forall h, header_wf h = true ->
  exists h1 b h2, header_encode h = Ok (h1, b) /\
    Z.of_nat (length b) = h_header_length h1 /\
    (forall rest, header_decode header_init (b ++ rest) = Ok h2) /\
    header_content h2 = header_content h /\
    h_version h2 = 2 /\ h_header_length h2 = h_header_length h1 /\
    Some (h_topic_length h2) = option_map (fun s => Z.of_nat (length s)) (cstring (h_topic h)) /\
    Some (h_reply_topic_length h2) = option_map (fun s => Z.of_nat (length s)) (cstring (h_reply_topic h)).
Proof. exact header_roundtrip. Qed.
Print Assumptions C02_header_roundtrip.

Example C02_witness :
  let h := mkHeader 2 0 4294967295 17 99 1 0 (bs "Device.WiFi." ++ repeat 0 244) 0 (bs "INBOX.1" ++ repeat 0 249) in
  header_wf h = true /\ cstring (h_topic h) = Some (bs "Device.WiFi.").
Proof. vm_compute. split; reflexivity. Qed.

(** Adversarial bytes: decode never reads past 542 bytes of input, whatever they are. *)
Theorem C02_header_decode_no_overread : forall h buff,
  bytes_ok buff = true -> (542 <= length buff)%nat -> header_decode h buff <> UB.
Proof. exact header_decode_safe. Qed.
Print Assumptions C02_header_decode_no_overread.

Example C02_no_overread_witness : bytes_ok (repeat 255 542) = true /\ (542 <= length (repeat 255 542))%nat
  /\ header_decode header_init (repeat 255 542) = Err tt.
Proof. split; [reflexivity|]. split; [rewrite repeat_length; apply le_n|reflexivity]. Qed.

(** Whatever bytes decode successfully, the resulting topics are shorter than
    256 bytes and NUL-terminated inside their arrays. *)
Theorem C02_header_decode_bounded : forall buff h,
  bytes_ok buff = true -> header_decode header_init buff = Ok h ->
  0 <= h_topic_length h < 256 /\ 0 <= h_reply_topic_length h < 256 /\
  length (h_topic h) = 256%nat /\ length (h_reply_topic h) = 256%nat /\
  is_some (cstring (h_topic h)) = true /\ is_some (cstring (h_reply_topic h)) = true.
Proof. exact header_decode_bounds. Qed.
Print Assumptions C02_header_decode_bounded.

(** The round trip needs the preceding rtMessageHeader_Init: decoding over a
    header that already holds a longer topic leaves a wrong topic behind. *)
Theorem C02_header_without_init_refuted :
  exists h0 h1 b h2, header_wf h0 = true /\ header_encode h1 = Ok (h1, b) /\ header_wf h1 = true /\
    header_decode h0 b = Ok h2 /\ cstring (h_topic h2) <> cstring (h_topic h1).
Proof. exact header_decode_stale_refuted. Qed.
Print Assumptions C02_header_without_init_refuted.
