(** C96: the fields of a text message. *)
From Coq Require Import String ZifyBool.
From Verif Require Import Common CommonFacts Base64Model Base64Spec Base64Proofs Base64Props JsonModel JsonSpec JsonProofs.
Local Open Scope string_scope.
Local Open Scope list_scope.
Local Open Scope Z_scope.

Lemma get_item_alike m k n : alike k n -> get_item m k = get_item m n.
Proof.
  intros A. apply lower_names in A. unfold get_item. induction (j_kids m) as [|y l IH]; cbn; auto.
  assert (Q : name_is k y = name_is n y) by (unfold name_is; rewrite A; reflexivity). rewrite Q, IH. reflexivity.
Qed.

(** C96: after any calls on a new message, reading a name (in any case of letters) gives what the
    first call that put a field of this name was given, in the type it was given.  Partial: the first
    call, not the last one ([C96_again_refuted], [C96_case_refuted]). *)
Theorem C96_first_partial : forall h1 c h2 m n k,
  run create (h1 ++ c :: h2) = Ok m ->
  (forall x d, c = AddBinary x d -> Forall (fun b => 0 <= b < 256) d) ->
  (forall d, In d h1 -> ~ puts_like d k) -> puts c n -> alike k n ->
  (forall x j, c = SetMessage x (Some j) -> forall d, In d h2 -> appends d -> ~ puts_like d k) ->
  reads m k c.
Proof.
  intros h1 c h2 m n k R D N P L X.
  assert (C : clean c) by (destruct c; cbn; auto; eapply D; reflexivity).
  destruct (run_first k h1 c h2 m n C R N P L) as (x & F & G).
  destruct (more_parts (renamed n x) (extras k h2)) as (Mk & Ms & Mi & Md & Ml).
  destruct (renamed_parts n x) as (Rk & Rs & Ri & Rd & Rl).
  destruct P as [n v|n z|n b|n d|n y|n v|n y|n d S|t]; cbn [fresh create_string] in F; cbn [reads]; auto.
  - injection F as <-. unfold get_string, get_string_value. rewrite G, Ms, Rs. cbn [j_str]. split; [reflexivity|].
    intros room H. replace (_ <=? room) with true by lia. replace (room =? 0) with false by lia.
    rewrite firstn_all2 by lia. reflexivity.
  - injection F as <-. intros H. unfold get_int32, get_double. rewrite G, Mi, Ri, Md, Rd. cbn [create_number j_int j_dbl].
    split; [|reflexivity]. unfold int_of. cbn [d_p d_q]. change (2 ^ Z.of_N 0) with 1. rewrite !Z.mul_1_r.
    destruct (2147483647 <=? z) eqn:A; [f_equal; lia|]. destruct (z <=? -2147483648) eqn:B; [f_equal; lia|].
    rewrite Z.quot_1_r. reflexivity.
  - injection F as <-. unfold get_bool. rewrite G, Mk, Rk. destruct b; reflexivity.
  - injection F as <-. unfold get_int32, get_double. rewrite G, Mi, Ri, Md, Rd. cbn [create_number j_int j_dbl].
    split; [reflexivity|]. intros H. eexists. split; [reflexivity|]. unfold int_of.
    replace (_ <=? d_p d) with false by lia. replace (d_p d <=? _) with false by lia.
    apply quot_cut. apply Z.pow_pos_nonneg; lia.
  - injection F as <-. unfold get_message. rewrite G. eexists. split; [reflexivity|]. unfold same_content.
    rewrite Mk, Ms, Mi, Md, Ml, Rk, Rs, Ri, Rd, Rl. rewrite (extras_none k h2 (X n y eq_refl)), app_nil_r. auto.
  - intros Db Ne. destruct (C01_base64_roundtrip_partial d Db Ne S) as (t & s & E & De). rewrite E in F. injection F as <-.
    unfold get_binary. rewrite G, Ms, Rs. exact De.
  - injection F as <-. intros room H. unfold get_topic. rewrite <- (get_item_alike m k topic_name L), G, Ms, Rs. cbn [j_str].
    replace (_ <? room) with true by lia. reflexivity.
Qed.
Print Assumptions C96_first_partial.

Definition a_message : list call :=
  [SetString (bs "name") (Some (bs "eth0")); SetInt32 (bs "count") (-7); AddString (bs "list") (Some (bs "x"));
   SetDouble (bs "rate") (Double 11 2); SetTopic (Some (bs "A.B")); AddBinary (bs "raw") [1; 2; 255];
   AddString (bs "LIST") (Some (bs "y")); SetBool (bs "up") true].
Definition outer (m : json) : list call := [SetMessage (bs "part") (Some m); AddMessage (bs "parts") (Some m)].

Example C96_witness : exists m m', run create a_message = Ok m /\ run create (outer m) = Ok m' /\
  get_string m (bs "NAME") = Ok (Some (bs "eth0")) /\ get_int32 m (bs "count") = Ok (-7) /\
  get_int32 m (bs "rate") = Ok 2 /\ get_topic m 10 = Ok (bs "A.B") /\ get_binary m (bs "raw") = Ok [1; 2; 255] /\
  get_length m (bs "list") = 2 /\ get_string_item m (bs "list") 1 = Ok (Some (bs "y")) /\
  (exists p, get_message m' (bs "part") = Ok p /\ same_content m p).
Proof.
  eexists. eexists. split; [vm_compute; reflexivity|]. split; [vm_compute; reflexivity|].
  repeat (split; [vm_compute; reflexivity|]). eexists. split; [vm_compute; reflexivity|]. vm_compute. auto.
Qed.

Lemma more_cons p x l : more p (x :: l) = more (with_kid p x) l.
Proof. destruct p. unfold more. cbn. rewrite <- app_assoc. reflexivity. Qed.

Lemma run_list k l : (forall c, In c l -> puts_like c k -> appends c) -> forall m m', get_item m k = None -> run m l = Ok m' ->
  (get_item m' k = None /\ extras k l = []) \/ exists n, get_item m' k = Some (more (renamed n create_array) (extras k l)).
Proof.
  induction l as [|c l IH]; intros H m m' G R; cbn [run] in R.
  - injection R as <-. auto.
  - destruct (apply m c) as [m1| |] eqn:A; try discriminate. cbn [obind] in R.
    pose proof (apply_get m c m1 k A) as G1. rewrite G in G1. cbn [extras flat_map]. fold (extras k l).
    destruct (fresh c) as [(n, x)|] eqn:F; [destruct (likeb k n) eqn:L|].
    + right. assert (Ap : appends c).
      { apply H; [now left|]. exists n. split; [exact (fresh_puts _ _ _ F)|apply likeb_alike; exact L]. }
      exists n. rewrite (run_some k l m1 m' _ G1 R). f_equal.
      destruct c; try contradiction; cbn [fresh extra] in *; injection F as <- <-; rewrite L, renamed_opt.
      * destruct (create_string v); cbn [opt_kid app]; [|reflexivity]. rewrite more_cons. reflexivity.
      * match goal with |- context[opt_kid _ ?o] => destruct o end; cbn [opt_kid app]; [|reflexivity]. rewrite more_cons. reflexivity.
    + replace (match extra c with Some (n0, Some x0) => if likeb k n0 then [x0] else [] | _ => [] end) with (@nil json)
        by (destruct c; cbn [fresh extra] in *; auto; injection F as <- <-; rewrite L; match goal with |- context[match ?o with Some _ => _ | None => _ end] => destruct o end; reflexivity).
      apply (IH (fun c I => H c (or_intror I)) m1 m' G1 R).
    + replace (match extra c with Some (n0, Some x0) => if likeb k n0 then [x0] else [] | _ => [] end) with (@nil json)
        by (destruct c; cbn [fresh extra] in *; auto; discriminate).
      apply (IH (fun c I => H c (or_intror I)) m1 m' G1 R).
Qed.

(** C96: a name under which all calls only append is read as the list of what was appended, in
    order; an index at or behind its end is refused. *)
Theorem C96_list : forall h m k r, run create h = Ok m ->
  (forall c, In c h -> puts_like c k -> appends c) -> appended k h r ->
  get_length m k = Z.of_nat (length r) /\
  (forall i v, nth_error r i = Some (Text v) -> get_string_item m k (Z.of_nat i) = Ok (Some v)) /\
  (forall i x, nth_error r i = Some (Part x) -> get_message_item m k (Z.of_nat i) = Ok (Some x)) /\
  (forall i, Z.of_nat (length r) <= i -> get_string_item m k i = Err tt /\ get_message_item m k i = Err tt).
Proof.
  intros h m k r R H A. apply appended_extras in A.
  destruct (run_list k h H create m eq_refl R) as [(G & E)|(n & G)].
  - rewrite A in E. destruct r; [|discriminate]. unfold get_length, get_string_item, get_message_item. rewrite G.
    split; [reflexivity|]. split; [intros [|i]; discriminate|]. split; [intros [|i]; discriminate|auto].
  - rewrite A in G. unfold get_length, get_string_item, get_message_item, array_item. rewrite G.
    cbn [renamed create_array more j_kids with_kids app].
    rewrite map_length. split; [reflexivity|]. split; [|split].
    + intros i v N. assert (i < length r)%nat by (apply nth_error_Some; congruence).
      replace (_ <=? Z.of_nat i) with false by lia. replace (Z.of_nat i <? 0) with false by lia.
      rewrite Nat2Z.id, (map_nth_error _ _ _ N). reflexivity.
    + intros i v N. assert (i < length r)%nat by (apply nth_error_Some; congruence).
      replace (_ <=? Z.of_nat i) with false by lia. replace (Z.of_nat i <? 0) with false by lia.
      rewrite Nat2Z.id, (map_nth_error _ _ _ N). reflexivity.
    + intros i L. replace (_ <=? i) with true by lia. auto.
Qed.
Print Assumptions C96_list.

Example C96_list_witness : exists m, run create a_message = Ok m /\
  (forall c, In c a_message -> puts_like c (bs "list") -> appends c) /\
  appended (bs "list") a_message [Text (bs "x"); Text (bs "y")].
Proof.
  eexists. split; [vm_compute; reflexivity|]. split.
  - intros c I (n & P & L). apply likeb_alike in L.
    repeat (destruct I as [<-|I]; [first [exact Logic.I | inversion P; subst; vm_compute in L; discriminate]|]). contradiction.
  - unfold a_message. do 2 (apply app_other; [intros []|]). apply app_text; [apply likeb_alike; vm_compute; reflexivity|].
    do 3 (apply app_other; [intros []|]). apply app_text; [apply likeb_alike; vm_compute; reflexivity|].
    apply app_other; [intros []|]. constructor.
Qed.

(** C96: a field that was not put as a truth value is not read as a true one. *)
Theorem C96_not_true : forall h1 c h2 m n k,
  run create (h1 ++ c :: h2) = Ok m ->
  (forall d, In d h1 -> ~ puts_like d k) -> puts c n -> alike k n ->
  match c with SetString _ (Some _) | SetInt32 _ _ | SetDouble _ _ => True | _ => False end -> get_bool m k = Ok false.
Proof.
  intros h1 c h2 m n k R N P L X.
  assert (C : clean c) by (destruct c; cbn; auto; contradiction).
  destruct (run_first k h1 c h2 m n C R N P L) as (x & F & G).
  destruct (more_parts (renamed n x) (extras k h2)) as (Mk & _).
  destruct (renamed_parts n x) as (Rk & _).
  destruct P as [n v|n z|n b|n d|n y|n v|n y|n d S|t]; try contradiction; cbn [fresh create_string] in F; injection F as <-; unfold get_bool; rewrite G, Mk, Rk; reflexivity.
Qed.
Print Assumptions C96_not_true.
Example C96_not_true_witness : exists m, run create a_message = Ok m /\ get_bool m (bs "Count") = Ok false /\ get_bool m (bs "name") = Ok false /\ get_bool m (bs "UP") = Ok true.
Proof. eexists. split; [vm_compute; reflexivity|]. repeat split; vm_compute; reflexivity. Qed.
(** C96: a name no call put a field under is reported as missing by every getter. *)
Theorem C96_absent : forall h m k, run create h = Ok m -> (forall c, In c h -> ~ puts_like c k) ->
  get_string m k = Err tt /\ get_int32 m k = Err tt /\ get_bool m k = Err tt /\ get_double m k = Err tt /\
  get_message m k = Err tt /\ get_binary m k = Err tt /\ (forall room, get_string_value m k room = Err tt) /\
  get_length m k = 0 /\ (forall i, get_string_item m k i = Err tt) /\ (forall i, get_message_item m k i = Err tt).
Proof.
  intros h m k R N. assert (G : get_item m k = None) by (apply (run_none k h N create m); [reflexivity|exact R]).
  unfold get_string, get_int32, get_bool, get_double, get_message, get_binary, get_string_value, get_length, get_string_item, get_message_item.
  rewrite G. repeat split; reflexivity.
Qed.
Print Assumptions C96_absent.

Example C96_absent_witness : exists m, run create a_message = Ok m /\ (forall c, In c a_message -> ~ puts_like c (bs "other")).
Proof.
  eexists. split; [vm_compute; reflexivity|]. intros c I (n & P & L). apply likeb_alike in L.
  repeat (destruct I as [<-|I]; [inversion P; subst; vm_compute in L; discriminate|]). contradiction.
Qed.

(** C96: building a message never goes wrong when the send topic is set at most once and nothing else
    is called "_topic".  Partial: setting it again is undefined ([C96_topic_refuted]). *)
Theorem C96_builds_partial : forall h,
  (forall n d, In (AddBinary n d) h -> Forall (fun b => 0 <= b < 256) d) ->
  (forall h1 t h2, h = h1 ++ SetTopic t :: h2 -> forall c, In c h1 -> ~ puts_like c (bs "_topic")) ->
  exists m, run create h = Ok m.
Proof.
  intros h. induction h as [|c h IH] using rev_ind; intros B T; [exists create; reflexivity|].
  destruct IH as (m & R).
  { intros n d I. apply (B n d). apply in_or_app. auto. }
  { intros h1 t h2 E. apply (T h1 t (h2 ++ [c])). rewrite E, <- app_assoc. reflexivity. }
  rewrite run_app, R. cbn [obind run].
  assert (exists m', apply m c = Ok m') as (m' & ->); [|cbn; eauto].
  destruct c as [n v|n z|n b|n d|n x|n v|n x|n d|t]; cbn [apply]; eauto.
  - unfold add_binary. destruct (Z_le_gt_dec (Z.of_nat (length d)) 1026) as [L|L].
    + destruct (C01_base64_encode d (B n d ltac:(apply in_or_app; right; now left)) L) as (t & s & -> & _). eauto.
    + rewrite (proj1 (C01_base64_limits d)) by lia. eauto.
  - unfold set_topic. rewrite (run_none topic_name h) with (m := create) (m' := m); eauto.
Qed.
Print Assumptions C96_builds_partial.

Example C96_builds_witness : (forall n d, In (AddBinary n d) a_message -> Forall (fun b => 0 <= b < 256) d) /\
  (forall h1 t h2, a_message = h1 ++ SetTopic t :: h2 -> forall c, In c h1 -> ~ puts_like c (bs "_topic")).
Proof.
  split.
  - intros n d I. repeat (destruct I as [I|I]; [try discriminate; injection I as <- <-; repeat constructor; lia|]). contradiction.
  - intros h1 t h2 E c I (n & P & L). apply likeb_alike in L.
    assert (J : In c (firstn 4 a_message)).
    { unfold a_message in E |- *. cbn [firstn].
      do 4 (destruct h1 as [|? h1]; [discriminate|]; injection E as <- E; destruct I as [<-|I]; [cbn; auto 8|]).
      exfalso. destruct h1 as [|? h1]; [exact I|]. injection E as <- E.
      do 3 (destruct h1 as [|? h1]; [discriminate|]; injection E as <- E). destruct h1; discriminate. }
    repeat (destruct J as [<-|J]; [inversion P; subst; vm_compute in L; discriminate|]). contradiction.
Qed.

(** Setting a field again adds a second one of the same name behind the first; reading still gives
    the first value. *)
Theorem C96_again_refuted : ~ (forall n v w m, run create [SetString n (Some v); SetString n (Some w)] = Ok m -> get_string m n = Ok (Some w)).
Proof.
  intros H. specialize (H (bs "a") (bs "1") (bs "2") _ eq_refl). vm_compute in H. discriminate.
Qed.
Print Assumptions C96_again_refuted.

(** Two names that differ in the case of letters only are one field when read. *)
Theorem C96_case_refuted : ~ (forall n n' v w m, n <> n' -> run create [SetInt32 n v; SetInt32 n' w] = Ok m -> get_int32 m n' = Ok w).
Proof.
  intros H. specialize (H (bs "a") (bs "A") 1 2 _ ltac:(vm_compute; discriminate) eq_refl). vm_compute in H. discriminate.
Qed.
Print Assumptions C96_case_refuted.

(** Setting the send topic of a message a second time frees the old one twice. *)
Theorem C96_topic_refuted : ~ (forall t u, exists m, run create [SetTopic (Some t); SetTopic (Some u)] = Ok m).
Proof. intros H. destruct (H (bs "A") (bs "B")) as (m & E). vm_compute in E. discriminate. Qed.
Print Assumptions C96_topic_refuted.

(** Reading a field in another type than it has is not refused: a string read as a number is 0. *)
Theorem C96_type_refuted : ~ (forall n v m, run create [SetString n (Some v)] = Ok m -> get_int32 m n = Err tt).
Proof. intros H. specialize (H (bs "a") (bs "5") _ eq_refl). vm_compute in H. discriminate. Qed.
Print Assumptions C96_type_refuted.

(** Reading a number as a string into a buffer, or as binary data, follows a null pointer. *)
Theorem C96_null_refuted : ~ (forall h m n room, run create h = Ok m -> get_string_value m n room <> UB /\ get_binary m n <> UB).
Proof. intros H. destruct (H [SetInt32 (bs "a") 5] _ (bs "a") 10 eq_refl) as (X & _). apply X. vm_compute. reflexivity. Qed.
Print Assumptions C96_null_refuted.

(** A string as long as the buffer loses its last character without notice: the check leaves no
    room for the terminator. *)
Theorem C96_cut_refuted : ~ (forall h m n room v w, run create h = Ok m -> get_string m n = Ok (Some v) ->
  get_string_value m n room = Ok (Some w) -> w = v).
Proof.
  intros H. specialize (H [SetString (bs "a") (Some (bs "four"))] _ (bs "a") 4 (bs "four") (bs "fou") eq_refl
    ltac:(vm_compute; reflexivity) ltac:(vm_compute; reflexivity)). vm_compute in H. discriminate.
Qed.
Print Assumptions C96_cut_refuted.

(** A negative index into a list of messages is not refused: it gives a message without content. *)
Theorem C96_index_refuted : ~ (forall h m n i, run create h = Ok m -> i < 0 -> get_message_item m n i = Err tt).
Proof.
  intros H. specialize (H [AddMessage (bs "a") (Some create)] _ (bs "a") (-1) eq_refl ltac:(lia)). vm_compute in H. discriminate.
Qed.
Print Assumptions C96_index_refuted.
