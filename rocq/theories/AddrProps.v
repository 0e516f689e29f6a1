(** C98: the text that names a broker's socket is understood. *)
From Coq Require Import String.
From Coq Require Import List ZArith Bool Lia ZifyBool.
From Verif Require Import Common CommonFacts TextSpec TextModel TextProofs AddrModel AddrSpec AddrProofs.
Import ListNotations.
Local Open Scope string_scope.
Local Open Scope list_scope.
Local Open Scope Z_scope.

(** A well written text gives the socket address it names, whatever interfaces there are. *)
Theorem C98_reads : forall iface v6 s x, names s x ->
  from_string iface v6 s = Ok match x with
    | inl p => mkEndpoint AF_UNIX p [] 0
    | inr (a, b, c, d, n) => mkEndpoint AF_INET [] [a; b; c; d] n
    end.
Proof.
  intros iface v6 s x [p L|a b c d n A B C D N].
  - rewrite unix_any, firstn_all2 by exact L. reflexivity.
  - apply (tcp_quad iface v6 a b c d n); assumption.
Qed.
Print Assumptions C98_reads.

(** Writing the address gives the text back. *)
Theorem C98_writes : forall iface v6 s x e, names s x -> from_string iface v6 s = Ok e ->
  exists t n, to_text e 128 = Some (t, n) /\
    s = match x with inl _ => t | inr _ => bs "tcp://" ++ t ++ bs ":" ++ print_dec n end.
Proof.
  intros iface v6 s x e H E. rewrite (C98_reads _ _ _ _ H) in E. injection E as <-. destruct H as [p L|a b c d n A B C D N].
  - eexists _, _. split; [reflexivity|]. cbn [sun_path]. rewrite firstn_all2; [reflexivity|]. rewrite app_length.
    change (List.length (bs "unix://")) with 7%nat. lia.
  - unfold to_text. cbn [family sin_addr sin_port]. rewrite Z.eqb_refl. pose proof (quad_len a b c d A B C D) as Q.
    replace (Nat.ltb (List.length (ntop4 [a; b; c; d])) 128) with true by (symmetry; apply Nat.ltb_lt; lia).
    eexists _, _. split; [reflexivity|]. exact (quad_shape a b c d (print_dec n)).
Qed.
Print Assumptions C98_writes.

(** Different texts name different sockets, ... *)
Theorem C98_distinct_partial : forall iface v6 s s' x x', names s x -> names s' x' ->
  from_string iface v6 s = from_string iface v6 s' -> s = s'.
Proof.
  intros iface v6 s s' x x' H H' E. rewrite (C98_reads _ _ _ _ H), (C98_reads _ _ _ _ H') in E.
  destruct H, H'; injection E; intros; subst; try reflexivity; discriminate.
Qed.
Print Assumptions C98_distinct_partial.

(** ... and they can be connected to: the length of the address is that of the structure of its family (110 bytes for a path, 16 for an IPv4 address). *)
Theorem C98_usable_partial : forall iface v6 s x e, names s x -> from_string iface v6 s = Ok e ->
  get_length e = Ok match x with inl _ => 110 | inr _ => 16 end.
Proof.
  intros iface v6 s x e H E. rewrite (C98_reads _ _ _ _ H) in E. injection E as <-. destruct H; reflexivity.
Qed.
Print Assumptions C98_usable_partial.

(** A version 6 address that starts with a digit is read as inet_pton reads it, with the port after the last
    colon, and has the length of such an address; see C98_v6_refuted for those that start with a letter. *)
Theorem C98_v6_partial : forall iface v6 h n l x r, h = x :: r -> dec_char x -> In 58 h -> (List.length h < 128)%nat -> v6 h = Some l -> 0 <= n <= 65535 ->
  from_string iface v6 (bs "tcp://" ++ h ++ bs ":" ++ print_dec n) = Ok (mkEndpoint AF_INET6 [] l n) /\
  get_length (mkEndpoint AF_INET6 [] l n) = Ok 28.
Proof.
  intros iface v6 h n l x r Eh Dx C L V N. split; [|reflexivity]. change (bs ":" ++ print_dec n) with (58 :: print_dec n).
  assert (P : forall s done cur, In 58 s -> pton4 s done cur = None).
  { induction s as [|a s IH]; intros done cur Hs; [destruct Hs|]. cbn [pton4]. destruct Hs as [-> |Hs]; [reflexivity|].
    destruct (isdigit a).
    - destruct cur as [c|]; [destruct ((c =? 0) || (255 <? c * 10 + (a - 48))); [reflexivity|]|]; apply IH; exact Hs.
    - destruct (a =? 46); [|reflexivity]. destruct cur as [c|]; [|reflexivity]. destruct (Nat.eqb (List.length done) 3); [reflexivity|apply IH; exact Hs]. }
  rewrite (tcp_at iface v6 h _ n L).
  - replace (is_numeric h) with true.
    + cbn [obind]. rewrite (P h [] None C), V. reflexivity.
    + symmetry. unfold is_numeric. subst h. cbn [hd]. apply forallb_forall. intros y _. unfold dec_char, isdigit in *. lia.
  - apply no_char; [apply print_digits; lia|unfold dec_char; lia].
  - symmetry. apply port_value. exact N.
Qed.
Print Assumptions C98_v6_partial.
Example C98_v6_witness : let v6 := fun s => if bytes_eqb s (bs "2001:db8::1") then Some [32; 1; 13; 184; 0; 0; 0; 0; 0; 0; 0; 0; 0; 0; 0; 1] else None in
  In 58 (bs "2001:db8::1") /\ from_string (fun _ => None) v6 (bs "tcp://2001:db8::1:80") = Ok (mkEndpoint AF_INET6 [] [32; 1; 13; 184; 0; 0; 0; 0; 0; 0; 0; 0; 0; 0; 0; 1] 80).
Proof. cbv zeta. split; [vm_compute; tauto|vm_compute; reflexivity]. Qed.

(** The name of an interface stands for its address. *)
Theorem C98_interface : forall iface v6 h a b c d n, octet a -> octet b -> octet c -> octet d -> 0 <= n <= 65535 ->
  (exists x r, h = x :: r /\ ~ dec_char x /\ x <> 46) -> (List.length h <= 15)%nat -> iface h = Some [a; b; c; d] ->
  from_string iface v6 (bs "tcp://" ++ h ++ bs ":" ++ print_dec n) = Ok (mkEndpoint AF_INET [] [a; b; c; d] n).
Proof.
  intros iface v6 h a b c d n A B C D N (x & r & -> & Nx & Dx) L I. change (bs ":" ++ print_dec n) with (58 :: print_dec n).
  rewrite (tcp_at iface v6 _ _ n).
  - unfold is_numeric. cbn [hd forallb]. replace (isdigit x || (x =? 46)) with false by (unfold dec_char, isdigit in *; lia). cbn [andb].
    unfold interface_address. rewrite firstn_all2 by exact L. rewrite I. cbn [obind]. rewrite pton4_ntop4 by assumption. reflexivity.
  - lia.
  - apply no_char; [apply print_digits; lia|unfold dec_char; lia].
  - symmetry. apply port_value. exact N.
Qed.
Print Assumptions C98_interface.

(** Anything else that is not of the two forms is refused. *)
Theorem C98_refused : forall iface v6 s,
  (forall t, s <> bs "unix://" ++ t) -> (forall h p, s <> bs "tcp://" ++ h ++ bs ":" ++ p) ->
  from_string iface v6 s = Err RT_ERROR_INVALID_ARG.
Proof.
  intros iface v6 s U T. unfold from_string.
  destruct (prefix (bs "unix://") s) eqn:Pu. { apply prefix_inv in Pu. destruct Pu as (t & ->). exfalso. eapply U. reflexivity. }
  destruct (prefix (bs "tcp://") s) eqn:Pt; [|reflexivity]. apply prefix_inv in Pt. destruct Pt as (t & ->). cbn [negb].
  change (skipn 6 (bs "tcp://" ++ t)) with t. destruct (parse_port _); [|reflexivity].
  destruct (last_split 58 t) as [(h, p)|] eqn:L; [|reflexivity]. exfalso. apply (T h p). f_equal.
  clear - L. revert h p L. induction t as [|a t IH]; intros h p L; [discriminate|]. cbn [last_split] in L.
  destruct (last_split 58 t) as [(x, y)|]; [injection L as <- <-; cbn; f_equal; apply IH; reflexivity|].
  destruct (Z.eqb_spec a 58) as [->|]; [|discriminate]. injection L as <- <-. reflexivity.
Qed.
Print Assumptions C98_refused.

(** As long as what is before the port is shorter than 128 bytes the text is read within its memory. *)
Theorem C98_safe_partial : forall iface v6 s,
  (forall h p, s = bs "tcp://" ++ h ++ bs ":" ++ p -> (List.length h < 128)%nat) -> from_string iface v6 s <> UB.
Proof.
  intros iface v6 s H. unfold from_string.
  destruct (prefix (bs "unix://") s); [discriminate|]. destruct (prefix (bs "tcp://") s) eqn:Pt; [|discriminate].
  apply prefix_inv in Pt. destruct Pt as (t & ->). cbn [negb]. destruct (parse_port _); [|discriminate].
  change (skipn 6 (bs "tcp://" ++ t)) with t. destruct (last_split 58 t) as [(h, p)|] eqn:L; [|discriminate].
  assert (S : (List.length h < 128)%nat).
  { apply (H h p). f_equal. clear - L. revert h p L. induction t as [|a t IH]; intros h p L; [discriminate|]. cbn [last_split] in L.
    destruct (last_split 58 t) as [(x, y)|]; [injection L as <- <-; cbn; f_equal; apply IH; reflexivity|].
    destruct (Z.eqb_spec a 58) as [->|]; [|discriminate]. injection L as <- <-. reflexivity. }
  replace (Nat.leb 128 (List.length h)) with false by (symmetry; apply Nat.leb_gt; exact S).
  destruct (is_numeric h); cbn [obind]; unfold interface_address; [|destruct (iface (firstn 15 h)); [|discriminate]; cbn [obind]];
    (destruct (pton4 _ _ _); [discriminate|]; destruct (v6 _); discriminate).
Qed.
Print Assumptions C98_safe_partial.

Definition no_iface : list Z -> option (list Z) := fun _ => None.

Example C98_witness :
  names (bs "tcp://127.0.0.1:10001") (inr (127, 0, 0, 1, 10001)) /\ names (bs "unix:///tmp/rtrouted") (inl (bs "/tmp/rtrouted")) /\
  from_string no_iface no_iface (bs "tcp://127.0.0.1:10001") = Ok (mkEndpoint AF_INET [] [127; 0; 0; 1] 10001) /\
  from_string no_iface no_iface (bs "unix:///tmp/rtrouted") = Ok (mkEndpoint AF_UNIX (bs "/tmp/rtrouted") [] 0) /\
  from_string (fun s => if bytes_eqb s (bs "br0") then Some [10; 0; 0; 1] else None) no_iface (bs "tcp://br0:80") = Ok (mkEndpoint AF_INET [] [10; 0; 0; 1] 80) /\
  from_string no_iface no_iface (bs "udp://1.2.3.4:5") = Err RT_ERROR_INVALID_ARG.
Proof.
  split; [apply (name_tcp 127 0 0 1 10001); unfold octet; lia|]. split; [apply name_unix; cbn; lia|].
  split; [vm_compute; reflexivity|]. split; [vm_compute; reflexivity|]. split; vm_compute; reflexivity.
Qed.

(** The path of a unix socket is cut after 107 bytes: two texts that differ later name the same socket. *)
Theorem C98_cut_refuted :
  ~ (forall iface v6 p q, from_string iface v6 (bs "unix://" ++ p) = from_string iface v6 (bs "unix://" ++ q) -> p = q).
Proof.
  intros H. specialize (H no_iface no_iface (repeat 97 107 ++ [98]) (repeat 97 107 ++ [99]) eq_refl). discriminate.
Qed.
Print Assumptions C98_cut_refuted.

(** A host of 128 bytes or more is copied beyond its buffer. *)
Theorem C98_overflow_refuted : forall iface v6 h p, (128 <= List.length h)%nat -> ~ In 58 p ->
  from_string iface v6 (bs "tcp://" ++ h ++ bs ":" ++ p) = UB.
Proof.
  intros iface v6 h p L N. unfold from_string. change (prefix (bs "unix://") (bs "tcp://" ++ h ++ bs ":" ++ p)) with false. cbv iota.
  rewrite prefix_app. cbn [negb]. unfold parse_port. change (bs ":" ++ p) with (58 :: p).
  rewrite app_assoc, last_split_app by exact N. rewrite <- app_assoc.
  change (skipn 6 (bs "tcp://" ++ h ++ 58 :: p)) with (h ++ 58 :: p). rewrite last_split_app by exact N.
  replace (Nat.leb 128 (List.length h)) with true by (symmetry; apply Nat.leb_le; exact L). reflexivity.
Qed.
Print Assumptions C98_overflow_refuted.

(** A host that begins with a digit is taken for an address; if it is none, reading reports success and the
    connection then ends the process (abort). *)
Theorem C98_unset_refuted :
  ~ (forall iface v6 s e, from_string iface v6 s = Ok e -> exists n, get_length e = Ok n).
Proof.
  intros H. destruct (H no_iface no_iface (bs "tcp://1.2.3.256:10001") (mkEndpoint 0 [] [] 0)) as (n & E); [vm_compute; reflexivity|discriminate].
Qed.
Print Assumptions C98_unset_refuted.

(** A port that is no 16-bit number is taken modulo 65536, and one that is no number as 0. *)
Theorem C98_port_refuted :
  from_string no_iface no_iface (bs "tcp://1.2.3.4:65616") = from_string no_iface no_iface (bs "tcp://1.2.3.4:80") /\
  from_string no_iface no_iface (bs "tcp://1.2.3.4:http") = Ok (mkEndpoint AF_INET [] [1; 2; 3; 4] 0) /\
  from_string no_iface no_iface (bs "tcp://1.2.3.4:-1") = Ok (mkEndpoint AF_INET [] [1; 2; 3; 4] 65535).
Proof. split; [|split]; vm_compute; reflexivity. Qed.
Print Assumptions C98_port_refuted.

(** An IPv6 address that begins with a letter is taken for the name of an interface and refused, though the
    library would read it. *)
Theorem C98_v6_refuted :
  ~ (forall v6 h l, v6 h = Some l -> ~ In 91 h -> (List.length h < 128)%nat ->
       exists e, from_string no_iface v6 (bs "tcp://" ++ h ++ bs ":10001") = Ok e).
Proof.
  intros H. destruct (H (fun s => if bytes_eqb s (bs "fe80::1") then Some [254; 128; 0; 0; 0; 0; 0; 0; 0; 0; 0; 0; 0; 0; 0; 1] else None) (bs "fe80::1") _ eq_refl) as (e & E).
  - vm_compute. intuition discriminate.
  - cbn. lia.
  - vm_compute in E. discriminate.
Qed.
Print Assumptions C98_v6_refuted.
