(** Element registry lookup (C22) and table rows (C23). *)
From Coq Require Import String.
From Verif Require Import Common CommonFacts VecList TextModel Errors ElemModel ElemSpec ElemProofs ElemRows.
Local Open Scope string_scope.
Local Open Scope list_scope.
Local Open Scope Z_scope.

Definition tbl (h : Z) : info := {| typ := TABLE; hid := h; getter := false |}.
Definition prop (h : Z) : info := {| typ := 1; hid := h; getter := true |}.

(** C22.  After any orderly history of registrations and row additions and removals, looking
    a name up yields the description last registered under that name, or nothing.  Missing for
    the full claim: an arbitrary history (see the refutation below). *)
Theorem C22_registry_partial : forall l t s, orderly empty l -> run empty l = Ok t ->
  option_map inf (retrieve t s) = lookup (registered l) s.
Proof. exact registry_ok. Qed.
Print Assumptions C22_registry_partial.

(** C22.  What was registered is kept until something is registered at that name or a table is
    registered above it. *)
Theorem C22_kept : forall l1 l2 s i path, s <> [] -> path = tokens (strip (typ i) s) -> Forall (spares path) l2 ->
  registered (l1 ++ Register s i :: l2) path = Some i.
Proof. intros l1 l2 s i path NE -> F. exact (kept l2 l1 s i NE F). Qed.
Print Assumptions C22_kept.

(** C22 fails for arbitrary histories: registering a table after an element inside it makes the
    element unreachable, although no call failed. *)
Theorem C22_table_overwrites_refuted : exists l t, run empty l = Ok t /\
  In (Register (bs "A.T.{i}.X") (prop 1)) l /\ Forall (fun o => match o with Register _ _ => True | _ => False end) l /\
  retrieve t (bs "A.T.{i}.X") = None.
Proof.
  exists [Register (bs "A.T.{i}.X") (prop 1); Register (bs "A.T.{i}.") (tbl 2)]. eexists. vm_compute.
  split; [reflexivity|]. split; [left; reflexivity|]. split; [repeat constructor|reflexivity].
Qed.
Print Assumptions C22_table_overwrites_refuted.

(** C23.  Registering a row of a table that has no such row makes exactly the elements of the
    table's template available under the row, everything else unchanged; a second registration
    of the row is refused without effect; and unregistering the row gives back exactly the state
    before. *)
Theorem C23_register_row : forall t T n a,
  getterless t -> T <> [] -> forallb good_name T = true -> forallb plain_tok T = true -> 0 <= n < 2^31 ->
  (length (dotted T ++ print_dec n) < 256)%nat ->
  get t (T ++ [TEMPLATE]) <> None ->
  let row := dotted T ++ print_dec n in
  if match get t (T ++ [print_dec n]) with Some _ => true | None => false end
  then step t (RegisterRow (dotted T) n a) = Ok (t, E_INVALID_INPUT)
  else exists t', step t (RegisterRow (dotted T) n a) = Ok (t', E_SUCCESS) /\
    (forall q, get t' q = match below (T ++ [print_dec n]) q with Some r => get t (T ++ TEMPLATE :: r) | None => get t q end) /\
    step t' (RegisterRow (dotted T) n a) = Ok (t', E_INVALID_INPUT) /\
    step t' (UnregisterRow row) = Ok (t, E_SUCCESS).
Proof. exact register_row_ok. Qed.
Print Assumptions C23_register_row.

(** C23.  Unregistering removes exactly the row and what is below it. *)
Theorem C23_unregister_row : forall t T n,
  names_unique t -> getterless t -> forallb good_name (T ++ [n]) = true -> forallb plain_tok (T ++ [n]) = true ->
  let row := dotted T ++ n in
  if match get t (T ++ [n]) with Some _ => true | None => false end
  then exists t', step t (UnregisterRow row) = Ok (t', E_SUCCESS) /\
    forall q, get t' q = match below (T ++ [n]) q with Some _ => None | None => get t q end
  else step t (UnregisterRow row) = Ok (t, E_INVALID_INPUT).
Proof. exact unregister_row_ok. Qed.
Print Assumptions C23_unregister_row.

(** C23.  Names stay unique in every history that uses each row number once at a time (the
    hypothesis of the theorem before). *)
Theorem C23_names_unique : forall l t, fresh empty l -> run empty l = Ok t -> names_unique t.
Proof. exact unique_ok. Qed.
Print Assumptions C23_names_unique.

(** C23.  The alias given at registration finds the same row, and everything below it, as the
    number does. *)
Theorem C23_alias : forall t T n a t' r,
  getterless t -> T <> [] -> forallb good_name T = true -> forallb plain_tok T = true -> 0 <= n < 2^31 ->
  table_at (get t) T = true -> good_name a = true ->
  (forall x, sub t T = Some x -> find_inst true true (bracket a) (kids x) 0 = None) ->
  step t (RegisterRow (dotted T) n (Some a)) = Ok (t', E_SUCCESS) ->
  forallb good_name r = true ->
  retrieve_instance t' (dotted (T ++ [bracket a]) ++ dotted r) = retrieve_instance t' (dotted (T ++ [print_dec n]) ++ dotted r).
Proof. exact alias_row_ok. Qed.
Print Assumptions C23_alias.

Definition ex_hist : list op :=
  [Register (bs "A.T.{i}.") (tbl 1); Register (bs "A.T.{i}.X") (prop 2); Register (bs "A.P") (prop 3);
   RegisterRow (bs "A.T.") 1 (Some (bs "one")); Register (bs "A.T.{i}.Y") (prop 4);
   RegisterRow (bs "A.T.") 22 None; UnregisterRow (bs "A.T.22"); AddRequest (bs "A.T.") None (Some 7)].

(** C23 fails without the trailing dot: the check for an existing row looks at another name, the
    row is added twice, and after one removal it is still there. *)
Theorem C23_no_dot_refuted : exists l t t2, run empty l = Ok t /\
  retrieve_instance t (bs "A.T.1") <> None /\
  step t (RegisterRow (bs "A.T") 1 None) = Ok (t2, E_SUCCESS) /\ ~ names_unique t2 /\
  exists t3, step t2 (UnregisterRow (bs "A.T.1")) = Ok (t3, E_SUCCESS) /\ retrieve_instance t3 (bs "A.T.1") <> None.
Proof.
  exists [Register (bs "A.T.{i}.") (tbl 1); RegisterRow (bs "A.T.") 1 None]. eexists. eexists.
  split; [vm_compute; reflexivity|]. split; [vm_compute; discriminate|]. split; [vm_compute; reflexivity|]. split.
  - intros N. specialize (N [bs "A"; bs "T"] _ eq_refl). cbn in N. inversion N as [|? ? _ N2]. inversion N2 as [|? ? I _]. apply I. left. reflexivity.
  - eexists. split; [vm_compute; reflexivity|]. vm_compute. discriminate.
Qed.
Print Assumptions C23_no_dot_refuted.

(** C23.  "Unregister row" also accepts the name of any other element, here a plain property. *)
Theorem C23_unregister_any_refuted : exists l t t2, run empty l = Ok t /\
  option_map inf (retrieve t (bs "A.P")) = Some (prop 3) /\
  step t (UnregisterRow (bs "A.P")) = Ok (t2, E_SUCCESS) /\ retrieve t2 (bs "A.P") = None.
Proof.
  exists [Register (bs "A.P") (prop 3)]. eexists. eexists. vm_compute. repeat split.
Qed.
Print Assumptions C23_unregister_any_refuted.

(** C23.  Registering a row below an element that is no table runs into an assertion that is
    compiled out in release builds. *)
Theorem C23_not_a_table_refuted : exists l t, run empty l = Ok t /\
  step t (RegisterRow (bs "A.P.") 1 None) = UB.
Proof. exists [Register (bs "A.P") (prop 3)]. eexists. vm_compute. repeat split. Qed.
Print Assumptions C23_not_a_table_refuted.

Example C22_witness : orderly empty ex_hist /\ exists t, run empty ex_hist = Ok t /\
  option_map inf (retrieve t (bs "A.T.1.Y")) = Some (prop 4) /\ lookup (registered ex_hist) (bs "A.T.1.Y") = Some (prop 4).
Proof.
  split.
  - unfold ex_hist. cbn [orderly orderly_op].
    repeat match goal with
    | |- True => exact I
    | |- _ /\ _ => split
    | |- match step ?t ?o with _ => _ end => let v := eval vm_compute in (step t o) in change (step t o) with v; cbv iota beta; cbn [orderly orderly_op]
    | |- tokens _ <> [] => vm_compute; discriminate
    | |- _ -> typ _ = TABLE => vm_compute; congruence
    | |- forall pos x, retrieve_instance ?t ?s = Some (pos, x) -> is_table x = true =>
        let p := fresh in let x := fresh in let H := fresh in
        intros p x H; vm_compute in H; injection H as <- <-; reflexivity
    | |- forall pos x, retrieve_instance ?t ?s = Some (pos, x) -> _ =>
        let p := fresh in let x := fresh in let H := fresh in
        intros p x H; vm_compute in H; injection H as <- <-; do 2 eexists; split; [vm_compute; reflexivity|vm_compute; discriminate]
    end.
  - eexists. vm_compute. repeat split.
Qed.
(** the tree of [ex_hist] satisfies the hypotheses of the C23 theorems *)
Definition getterlessb := fix g (t : tree) : bool :=
  match t with Node i _ k => negb ((typ i =? TABLE) && getter i) && forallb (fun nc => g (snd nc)) k end.
Lemma getterlessb_ok : forall t, getterlessb t = true -> getterless t.
Proof.
  intros t H p. revert t H. induction p as [|n p IH]; intros [i a k] H u S; cbn [getterlessb] in H; apply andb_prop in H as [H1 H2].
  - cbn in S. injection S as <-. unfold is_table. cbn [inf]. intros T. rewrite T in H1. destruct (getter i); [discriminate|reflexivity].
  - cbn [sub kids] in S. destruct (find_kid n k 0) as [(j, c)|] eqn:F; [|discriminate]. apply find_kid_nth, nth_error_In in F.
    rewrite forallb_forall in H2. apply (IH c (H2 _ F) u S).
Qed.
Example C23_witness : fresh empty ex_hist /\ exists t, run empty ex_hist = Ok t /\ getterless t /\
  get t [bs "A"; bs "T"; TEMPLATE] <> None /\ get t [bs "A"; bs "T"; print_dec 7; bs "Y"] = Some (prop 4) /\
  get t [bs "A"; bs "T"; print_dec 9] = None /\
  (length (dotted [bs "A"; bs "T"] ++ print_dec 9) < 256)%nat /\
  forallb good_name [bs "A"; bs "T"] = true /\ forallb plain_tok [bs "A"; bs "T"] = true /\
  (forall x, sub t [bs "A"; bs "T"] = Some x -> find_inst true true (bracket (bs "nine")) (kids x) 0 = None) /\
  exists t', step t (RegisterRow (dotted [bs "A"; bs "T"]) 9 (Some (bs "nine"))) = Ok (t', E_SUCCESS) /\
    retrieve_instance t' (bs "A.T.[nine].X") <> None.
Proof.
  split.
  - unfold ex_hist. cbn [ElemSpec.fresh fresh_op].
    repeat match goal with
    | |- True => exact I
    | |- _ /\ _ => split
    | |- match step ?t ?o with _ => _ end => let v := eval vm_compute in (step t o) in change (step t o) with v; cbv iota beta; cbn [ElemSpec.fresh fresh_op]
    | |- forall pos x, retrieve_instance ?t ?s = Some (pos, x) -> _ =>
        let p := fresh in let x := fresh in let H := fresh in
        intros p x H; vm_compute in H; injection H as <- <-; vm_compute; reflexivity
    end.
  - eexists. split; [vm_compute; reflexivity|]. split; [apply getterlessb_ok; vm_compute; reflexivity|].
    split; [vm_compute; discriminate|]. split; [vm_compute; reflexivity|]. split; [vm_compute; reflexivity|].
    split; [apply PeanoNat.Nat.ltb_lt; vm_compute; reflexivity|]. split; [reflexivity|]. split; [reflexivity|]. split.
    + intros x H. vm_compute in H. injection H as <-. vm_compute. reflexivity.
    + eexists. split; [vm_compute; reflexivity|]. vm_compute. discriminate.
Qed.
