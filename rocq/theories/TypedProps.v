(** C109: typed reads give what was last written, or say why not. *)
From Coq Require Import String.
From Verif Require Import Common Bytes Value TypedModel TypedSpec TypedProofs.
Local Open Scope string_scope.
Local Open Scope list_scope.
Local Open Scope Z_scope.

(** C109: whatever was written to a value before, a checked read of a type gives the number last
    written if it was written with that type, and an error that leaves the variable alone if not.
    The value is not NULL: see C109_null_refuted. *)
Theorem C109_read_partial : forall l s k, Forall fine l -> last_written l s -> get_ex k (Some (sets l)) = Ok (read_says s k).
Proof.
  intros l [x|] k F H; cbn [last_written] in H.
  - destruct H as [l' ->]. rewrite sets_snoc. apply read_after. apply (fine_last l' x F).
  - subst l. destruct k; reflexivity.
Qed.
Print Assumptions C109_read_partial.

(** C109: the unchecked read of the type last written gives what was written; that of any other type
    stops the program. *)
Theorem C109_plain : forall l k n k', Forall fine (l ++ [SKind k n]) -> get_plain k' (sets (l ++ [SKind k n])) = if same k k' then Ok n else Err tt.
Proof.
  intros l k n k' F. pose proof (C109_read_partial (l ++ [SKind k n]) (Some (SKind k n)) k' F (ex_intro _ l eq_refl)) as G.
  unfold get_ex in G. unfold get_plain. cbn [read_says] in G. destruct (c_type _ =? _), (same k k'); congruence.
Qed.
Print Assumptions C109_plain.

(** C109: texts and bytes read back, with their length, whatever was written before; a NULL one reads
    as NULL of length 0, and a number as an error. *)
Theorem C109_text : forall l s, Forall fine l -> last_written l s ->
  get_string_ex (Some (sets l)) = Ok (string_says s) /\ get_bytes_ex (Some (sets l)) = Ok (bytes_says s).
Proof.
  intros l [x|] F H; cbn [last_written] in H.
  - destruct H as [l' ->]. rewrite sets_snoc. pose proof (fine_last l' x F) as X. split; [apply string_after|apply bytes_after]; exact X.
  - subst l. split; reflexivity.
Qed.
Print Assumptions C109_text.

(** C109: "For anything else len is set to 0 and the function returns NULL" (rbus_value.c:431-435):
    the unchecked read of a text does so only if the number in the value is zero in its first eight
    bytes; any other number is used as an address. *)
Theorem C109_any_type_partial : forall l k n, Forall fine (l ++ [SKind k n]) ->
  get_string (Some (sets (l ++ [SKind k n]))) = (if n mod 2 ^ 64 =? 0 then Ok (None, Some 0) else UB) /\
  get_bytes (Some (sets (l ++ [SKind k n]))) = (if n mod 2 ^ 64 =? 0 then Ok (None, Some 0) else UB).
Proof.
  intros l k n F. apply fine_last in F. cbn [fine] in F. rewrite sets_snoc. cbn [set].
  assert (G : get_bytes (Some (set_kind k n (sets l))) = (if n mod 2 ^ 64 =? 0 then Ok (None, Some 0) else UB)).
  { unfold get_bytes. rewrite (kind_pointer k n (sets l) F), kind_not_text. reflexivity. }
  split; [|exact G]. unfold get_string. rewrite G. destruct (n mod 2 ^ 64 =? 0); reflexivity.
Qed.
Print Assumptions C109_any_type_partial.

(** C109: reading the text of a value that holds the number 5 uses 5 as an address, although the
    comment of rbusValue_GetString promises NULL and length 0. *)
Theorem C109_any_type_refuted : ~ (forall l k n, Forall fine (l ++ [SKind k n]) -> get_string (Some (sets (l ++ [SKind k n]))) = Ok (None, Some 0)).
Proof.
  intros H. specialize (H [] KInt32 5). cbn [app] in H.
  assert (F : Forall fine [SKind KInt32 5]) by (repeat constructor; cbn; lia).
  specialize (H F). vm_compute in H. discriminate.
Qed.
Print Assumptions C109_any_type_refuted.

(** C109: a checked read of a NULL value is an error for texts, bytes, times, properties and objects,
    but for booleans and numbers NULL is dereferenced. *)
Theorem C109_null_refuted : (exists k, get_ex k None = UB) /\
  get_string_ex None = Ok (ENull, None) /\ get_bytes_ex None = Ok (ENull, None) /\ get_ex KTime None = Ok (ENull, None) /\ get_ex KProperty None = Ok (ENull, None) /\ get_ex KObject None = Ok (ENull, None).
Proof. repeat split. exists KInt32. reflexivity. Qed.
Print Assumptions C109_null_refuted.

(** C109: an object is a map from names to what was last written under the name: a typed read gives
    it, an error if it is of another type, and RBUS_VALUE_ERROR_NOT_FOUND if the name was never
    written. *)
Theorem C109_object : forall l n s k, Forall fine (map snd l) -> last_for l n s ->
  object_get k (object_sets l) n = Ok (match s with None => (ENotFound, None) | Some _ => read_says s k end) /\
  object_get_string (object_sets l) n = Ok (match s with None => (ENotFound, None) | Some _ => string_says s end) /\
  object_get_bytes (object_sets l) n = Ok (match s with None => (ENotFound, None) | Some _ => bytes_says s end).
Proof.
  intros l n s k F H. unfold object_get, object_get_string, object_get_bytes. rewrite (object_last l n s H). destruct s as [x|].
  - assert (X : fine x).
    { destruct H as (a & b & -> & _). rewrite map_app in F. apply Forall_app in F. destruct F as [_ F]. cbn in F. inversion F; assumption. }
    rewrite read_after, string_after, bytes_after by exact X. repeat split.
  - repeat split.
Qed.
Print Assumptions C109_object.

(** C109: of several properties of a name the first is read; one without a value gives
    RBUS_VALUE_ERROR_NULL, for every type. *)
Theorem C109_first : forall a n v b k, ~ In n (map fst a) ->
  object_get k (a ++ (n, v) :: b) n = match v with None => Ok (ENull, None) | Some c => get_ex k (Some c) end /\
  object_get_string (a ++ (n, v) :: b) n = match v with None => Ok (ENull, None) | Some c => get_string_ex (Some c) end /\
  object_get_bytes (a ++ (n, v) :: b) n = match v with None => Ok (ENull, None) | Some c => get_bytes_ex (Some c) end.
Proof.
  intros a n v b k H. assert (G : get_property (a ++ (n, v) :: b) n = Some v).
  { induction a as [|(m, w) a IH]; cbn [app get_property].
    - destruct (bytes_eqb_spec n n); [reflexivity|congruence].
    - cbn in H. destruct (bytes_eqb_spec m n) as [-> |N]; [exfalso; apply H; left; reflexivity|]. apply IH. intros K. apply H. right. exact K. }
  unfold object_get, object_get_string, object_get_bytes. rewrite G. destruct v; repeat split.
Qed.
Print Assumptions C109_first.
Example C109_first_witness : ~ In (bs "b") (map fst [(bs "a", Some (sets [SKind KInt8 1]))]) /\
  object_get KInt8 [(bs "a", Some (sets [SKind KInt8 1])); (bs "b", None)] (bs "b") = Ok (ENull, None) /\
  object_get KInt8 [(bs "a", Some (sets [SKind KInt8 1])); (bs "a", Some (sets [SKind KInt8 2]))] (bs "a") = Ok (Success, Some 1).
Proof. split; [cbn; intuition discriminate|split; reflexivity]. Qed.

(** C109: a value made from the type, length and contents of another, whatever both held before, reads
    as the other for every type.  NULL texts, properties and objects are excepted: see
    C109_copy_null_refuted and C109_copy_nested_refuted. *)
Theorem C109_copy_partial : forall q l s l', 0 < q < 18446744073709551616 -> Forall fine (l ++ [s]) -> flat s ->
  exists c, copy q (sets (l ++ [s])) (sets l') = Ok c /\
  (forall k, get_ex k (Some c) = Ok (read_says (Some s) k)) /\ get_string_ex (Some c) = Ok (string_says (Some s)) /\ get_bytes_ex (Some c) = Ok (bytes_says (Some s)).
Proof. intros q l s l' Q F G. rewrite sets_snoc. apply copy_flat; [exact Q|apply (fine_last l s F)|exact G]. Qed.
Print Assumptions C109_copy_partial.

(** C109: the length of a NULL text or of NULL bytes is looked for behind the NULL pointer, so such a
    value cannot be put into a message (rbus.c:815-830). *)
Theorem C109_copy_null_refuted : forall l q s, Forall fine (l ++ [s]) -> (s = SString q None \/ s = SBytes q None) ->
  get_l (sets (l ++ [s])) = UB /\ get_v (sets (l ++ [s])) = UB.
Proof.
  intros l q s _ H. rewrite sets_snoc. unfold get_l, get_v. destruct H as [-> | ->]; cbn [set set_string set_bytes];
    rewrite freed_zero; split; reflexivity.
Qed.
Print Assumptions C109_copy_null_refuted.

(** C109: a property or an object has length 0, so that a value made from its type, length and contents
    successfully reads as a NULL one. *)
Theorem C109_copy_nested_refuted : ~ (forall q l k n l', 0 < q < 18446744073709551616 -> Forall fine (l ++ [SKind k n]) ->
  exists c, copy q (sets (l ++ [SKind k n])) (sets l') = Ok c /\ get_ex k (Some c) = Ok (Success, Some n)).
Proof.
  intros H. destruct (H 64 [] KObject 4096 []) as (c & C & G); [lia|repeat constructor; cbn; lia|].
  vm_compute in C. injection C as C. subst c. vm_compute in G. discriminate.
Qed.
Print Assumptions C109_copy_nested_refuted.
Example C109_copy_witness : Forall fine ([SKind KTime 5] ++ [SString 64 (Some (bs "abc"))]) /\ flat (SString 64 (Some (bs "abc"))) /\ flat (SKind KInt16 (-2)) /\
  (do c <- copy 128 (sets [SKind KTime (2 ^ 383); SKind KInt16 (-2)]) (sets [SBytes 64 (Some [1])]) ; get_ex KInt16 (Some c)) = Ok (Success, Some (-2)).
Proof. split; [repeat constructor; cbn; lia|]. split; [discriminate|]. split; [exact Logic.I|vm_compute; reflexivity]. Qed.

(** A value that held a text, a large number and a date is written a negative number and read. *)
Definition example : list setting := [SString 64 (Some (bs "abc")); SKind KUInt64 18446744073709551615; SKind KTime (2 ^ 383 + 7); SKind KInt16 (-2)].
Example C109_witness : Forall fine example /\ last_written example (Some (SKind KInt16 (-2))) /\
  get_ex KInt16 (Some (sets example)) = Ok (Success, Some (-2)) /\ get_ex KUInt16 (Some (sets example)) = Ok (EType, None) /\ c_d (sets example) <> 65534 /\
  get_string_ex (Some (sets [SKind KInt32 7; SString 64 (Some (bs "abc"))])) = Ok (Success, Some (Some (bs "abc" ++ [0]), Some 3)).
Proof.
  split; [repeat constructor; cbn; lia|]. split; [exists (firstn 3 example); reflexivity|].
  split; [vm_compute; reflexivity|]. split; [vm_compute; reflexivity|]. split; [vm_compute; discriminate|vm_compute; reflexivity].
Qed.
(** An object with two properties, one written twice. *)
Example C109_object_witness : let l := [(bs "a", SKind KInt8 1); (bs "b", SBytes 64 (Some [0; 1])); (bs "a", SKind KBoolean 1)] in
  Forall fine (map snd l) /\ last_for l (bs "a") (Some (SKind KBoolean 1)) /\ last_for l (bs "c") None /\
  object_get KBoolean (object_sets l) (bs "a") = Ok (Success, Some 1) /\ object_get KInt8 (object_sets l) (bs "a") = Ok (EType, None) /\
  object_get_bytes (object_sets l) (bs "b") = Ok (Success, Some (Some [0; 1], Some 2)) /\ object_get KInt8 (object_sets l) (bs "c") = Ok (ENotFound, None).
Proof.
  cbv zeta. split; [repeat constructor; cbn; lia|].
  split; [exists [(bs "a", SKind KInt8 1); (bs "b", SBytes 64 (Some [0; 1]))], []; split; [reflexivity|intros []]|].
  split; [cbn; intuition discriminate|]. repeat split.
Qed.
