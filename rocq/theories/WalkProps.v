(** Partial path queries (C69) and wildcard queries (C70). *)
From Coq Require Import String Sorted.
From Verif Require Import Common CommonFacts VecList TextModel Errors ElemModel ElemSpec ElemProofs ElemRows WalkModel WalkSpec WalkProofs.
From Verif Require ElemProps.
From Coq Require Import Lia.
Local Open Scope string_scope.
Local Open Scope list_scope.
Local Open Scope Z_scope.

(** C69.  A query for the path [Q] of an element, ending in a dot, gives the answers of exactly
    the elements below with a get handler that are neither below another such element nor inside
    a row template: in the order of the data model, each once, and each called by the path asked
    for followed by its path from there -- also when the element lies below a table that answers
    for its rows itself, where the registered names have the row placeholder instead.  Missing
    for the full claim: names of 256 bytes and more, and names that begin with a brace. *)
Theorem C69_partial_path_partial : forall V t (h : handlers V) Q pos u,
  forallb good_name Q = true -> forallb plain_tok Q = true -> Forall (fun m => ~ In 42 m) Q ->
  Forall (fun m => hd 0 m <> 123 \/ m = TEMPLATE) Q -> (length (dotted Q) < 256)%nat ->
  retrieve_instance t (dotted Q) = Some (pos, u) -> tidy u ->
  (forall p, answers u p -> (length (full (Q ++ path_of u p)) < 256)%nat) ->
  exists l, query t h (dotted Q) = Ok (E_SUCCESS, l) /\ answered h u Q l.
Proof. exact partial_plain. Qed.
Print Assumptions C69_partial_path_partial.

(** C69.  The same for any way to name an element that is not in a row template (an alias for a
    row, a star after the last dot left out): the answers are under the instance's own path. *)
Theorem C69_instance : forall V t (h : handlers V) s pos u, (length s < 256)%nat -> ~ In 42 s -> last s 0 = 46 ->
  retrieve_instance t s = Some (pos, u) -> has_template (full (path_of t pos)) = false ->
  exists l, query t h s = Ok (E_SUCCESS, l) /\ answered h u (path_of t pos) l.
Proof. exact partial_instance. Qed.
Print Assumptions C69_instance.

(** C69.  What is not there is an error. *)
Theorem C69_missing : forall V t (h : handlers V) s, (length s < 256)%nat -> s <> [] -> ~ In 42 s ->
  retrieve_instance t s = None -> query t h s = Ok (E_ELEMENT_DOES_NOT_EXIST, []).
Proof. intros V t h s L N ST R. rewrite query_direct by assumption. unfold direct. rewrite R. reflexivity. Qed.
Print Assumptions C69_missing.

(** C69.  No name comes twice, and each name asked for on its own gives the same value, in a data
    model whose tables have no get handlers of their own. *)
Theorem C69_once : forall V t (h : handlers V) s pos u l, names_unique t -> getterless t -> askable t ->
  (length s < 256)%nat -> ~ In 42 s -> last s 0 = 46 -> retrieve_instance t s = Some (pos, u) -> has_template (full (path_of t pos)) = false ->
  query t h s = Ok (E_SUCCESS, l) -> NoDup (map fst l).
Proof.
  intros V t h s pos u l U GL AS L ST LA R HT Q. destruct (partial_instance V t h s pos u L ST LA R HT) as (l' & E & A).
  rewrite E in Q. assert (l' = l) by congruence. subst l'. eapply answered_once; eauto.
Qed.
Print Assumptions C69_once.
Theorem C69_single : forall V t (h : handlers V) s pos u l nm v, names_unique t -> getterless t -> askable t ->
  (length s < 256)%nat -> ~ In 42 s -> last s 0 = 46 -> retrieve_instance t s = Some (pos, u) -> has_template (full (path_of t pos)) = false ->
  query t h s = Ok (E_SUCCESS, l) -> In (nm, v) l -> (length nm < 256)%nat -> query t h nm = Ok (E_SUCCESS, [(nm, v)]).
Proof. exact single_ok. Qed.
Print Assumptions C69_single.

Definition tbl (h : Z) (g : bool) : info := {| typ := TABLE; hid := h; getter := g |}.
Definition prop (h : Z) : info := {| typ := 1; hid := h; getter := true |}.
(** handlers that answer with the name they are called by; handler 13 fails *)
Definition ex : handlers name := mkHandlers (fun i n => (if i =? 13 then E_BUS_ERROR else E_SUCCESS, n)) (fun i n => Some [(n ++ bs "7.Z", bs "z")]).

(** C69 fails for a star after the last dot below a table with its own get handler: the walk
    does not end (rbus.c:1690-1735 goes round without advancing). *)
Theorem C69_star_refuted : exists l t, run empty l = Ok t /\
  query t ex (bs "A.T.1.S.") = Ok (E_SUCCESS, [(bs "A.T.1.S.X", bs "A.T.1.S.X")]) /\
  query t ex (bs "A.T.1.S.*") = UB.
Proof.
  exists [Register (bs "A.T.{i}.") (tbl 1 true); Register (bs "A.T.{i}.S.X") (prop 2)]. eexists. vm_compute. repeat split.
Qed.
Print Assumptions C69_star_refuted.
(** C69 fails for a property below a property: it is left out although asking for it works. *)
Theorem C69_below_property_refuted : exists l t, run empty l = Ok t /\
  query t ex (bs "A.P.Q") = Ok (E_SUCCESS, [(bs "A.P.Q", bs "A.P.Q")]) /\
  query t ex (bs "A.") = Ok (E_SUCCESS, [(bs "A.P", bs "A.P")]).
Proof. exists [Register (bs "A.P") (prop 1); Register (bs "A.P.Q") (prop 2)]. eexists. vm_compute. repeat split. Qed.
Print Assumptions C69_below_property_refuted.

(** C70.  A wildcard query gives what asking for each row in turn gives, in the order of the
    table. *)
Theorem C70_rows : forall V t (h : handlers V) pre post pos el ans, pre <> [] -> ~ In 42 pre -> (length (pre ++ 42%Z :: post) < 256)%nat ->
  star_off (pre ++ 42 :: post) = pre ++ 42 :: post ->
  retrieve_instance t pre = Some (pos, el) -> is_table el = true ->
  (forall n, In n (row_names (kids el)) -> ~ In 42 n /\ (length (pre ++ n ++ post) < 256)%nat /\ query t h (pre ++ n ++ post) = Ok (E_SUCCESS, ans n)) ->
  query t h (pre ++ 42 :: post) = Ok (E_SUCCESS, flat_map ans (row_names (kids el))).
Proof.
  intros V t h pre post pos el ans N ST L SO R T H. rewrite query_star by assumption. rewrite R, T. cbn [negb].
  rewrite (row_walk_ok V t h pre post ans (kids el) ST H). reflexivity.
Qed.
Print Assumptions C70_rows.
(** C70.  If a row fails, the query fails as the first such row does and gives nothing. *)
Theorem C70_failure : forall V t (h : handlers V) pre post pos el ans a n b rc, pre <> [] -> ~ In 42 pre -> (length (pre ++ 42%Z :: post) < 256)%nat ->
  star_off (pre ++ 42 :: post) = pre ++ 42 :: post ->
  retrieve_instance t pre = Some (pos, el) -> is_table el = true -> row_names (kids el) = a ++ n :: b ->
  (forall m, In m (a ++ [n]) -> ~ In 42 m /\ (length (pre ++ m ++ post) < 256)%nat) ->
  (forall m, In m a -> query t h (pre ++ m ++ post) = Ok (E_SUCCESS, ans m)) ->
  query t h (pre ++ n ++ post) = Ok (rc, []) -> rc <> E_SUCCESS ->
  query t h (pre ++ 42 :: post) = Ok (rc, []).
Proof.
  intros V t h pre post pos el ans a n b rc N ST L SO R T RN S A Q F. rewrite query_star by assumption. rewrite R, T. cbn [negb].
  destruct (row_walk_fail V t h pre post ans rc a n b (kids el) ST RN S A Q F) as [l ->]. cbn [obind]. destruct (Z.eqb_spec rc E_SUCCESS); [congruence|reflexivity].
Qed.
Print Assumptions C70_failure.
(** C70.  Only a table can have a wildcard for its rows. *)
Theorem C70_refused : forall V t (h : handlers V) pre post, pre <> [] -> ~ In 42 pre -> (length (pre ++ 42%Z :: post) < 256)%nat ->
  star_off (pre ++ 42 :: post) = pre ++ 42 :: post ->
  match retrieve_instance t pre with
  | None => query t h (pre ++ 42 :: post) = Ok (E_ELEMENT_DOES_NOT_EXIST, [])
  | Some (_, el) => is_table el = false -> query t h (pre ++ 42 :: post) = Ok (E_ACCESS_NOT_ALLOWED, [])
  end.
Proof.
  intros V t h pre post N ST L SO. rewrite query_star by assumption.
  destruct (retrieve_instance t pre) as [[p el]|]; [|reflexivity]. intros T. rewrite T. reflexivity.
Qed.
Print Assumptions C70_refused.
(** C70 fails for a table with its own get handler: asking for a row works, the wildcard gives
    nothing, and a query for the whole table gives what the handler says. *)
Theorem C70_own_handler_refuted : exists l t, run empty l = Ok t /\
  query t ex (bs "A.T.1.X") = Ok (E_SUCCESS, [(bs "A.T.1.X", bs "A.T.1.X")]) /\
  query t ex (bs "A.T.*.X") = Ok (E_SUCCESS, []) /\
  query t ex (bs "A.T.") = Ok (E_SUCCESS, [(bs "A.T.7.Z", bs "z")]).
Proof.
  exists [Register (bs "A.T.{i}.") (tbl 1 true); Register (bs "A.T.{i}.X") (prop 2)]. eexists. vm_compute. repeat split.
Qed.
Print Assumptions C70_own_handler_refuted.
(** C70: one property that cannot be read makes the wildcard query fail, where the partial path
    query over the same rows leaves it out. *)
Theorem C70_one_bad_refuted : exists l t, run empty l = Ok t /\
  query t ex (bs "A.T.*.X") = Ok (E_BUS_ERROR, []) /\
  query t ex (bs "A.T.") = Ok (E_SUCCESS, [(bs "A.T.1.Y", bs "A.T.1.Y")]).
Proof.
  exists [Register (bs "A.T.{i}.") (tbl 1 false); Register (bs "A.T.{i}.X") (prop 13); Register (bs "A.T.{i}.Y") (prop 3); RegisterRow (bs "A.T.") 1 None].
  eexists. vm_compute. repeat split.
Qed.
Print Assumptions C70_one_bad_refuted.

(** a data model with a table, two rows, a nested object and properties *)
Definition ex_hist : list op :=
  [Register (bs "A.T.{i}.") (tbl 1 false); Register (bs "A.T.{i}.X") (prop 2); Register (bs "A.T.{i}.S.Y") (prop 3); Register (bs "A.P") (prop 4);
   Register (bs "A.U.{i}.") (tbl 5 true); Register (bs "A.U.{i}.S.V") (prop 6);
   RegisterRow (bs "A.T.") 1 None; RegisterRow (bs "A.T.") 2 (Some (bs "two"))].
Fixpoint nodes (t : tree) : list (name * tree * tree) :=
  match t with Node i a k => map (fun nc => (fst nc, snd nc, t)) k ++ flat_map (fun nc => nodes (snd nc)) k end.
Lemma nodes_in : forall pos t y n c, node_of t pos = Some y -> In (n, c) (kids y) -> In (n, c, y) (nodes t).
Proof.
  induction pos as [|j pos IH]; intros [i a k] y n c N I.
  - cbn in N. injection N as <-. cbn [nodes]. apply in_app_iff. left. apply in_map_iff. exists (n, c). auto.
  - cbn [node_of kids] in N. destruct (nth_error k j) as [(m, d)|] eqn:E; [|discriminate]. cbn [nodes]. apply in_app_iff. right.
    apply in_flat_map. exists (m, d). split; [eapply nth_error_In; eauto|]. eapply IH; eauto.
Qed.
Example C69_witness : exists t, run empty ex_hist = Ok t /\ tidy t /\
  query t ex (bs "A.") = Ok (E_SUCCESS, map (fun s => (s, s)) [bs "A.T.1.X"; bs "A.T.1.S.Y"; bs "A.T.2.X"; bs "A.T.2.S.Y"; bs "A.P"] ++ [(bs "A.U.7.Z", bs "z")]) /\
  query t ex (bs "A.T.[two].S.") = Ok (E_SUCCESS, [(bs "A.T.2.S.Y", bs "A.T.2.S.Y")]) /\
  (exists pos u, retrieve_instance t (dotted [bs "A"; bs "U"; bs "4"; bs "S"]) = Some (pos, u) /\ has_template (full (path_of t pos)) = true) /\
  query t ex (bs "A.U.4.S.") = Ok (E_SUCCESS, [(bs "A.U.4.S.V", bs "A.U.4.S.V")]) /\
  query t ex (bs "A.T.*.S.Y") = Ok (E_SUCCESS, map (fun s => (s, s)) [bs "A.T.1.S.Y"; bs "A.T.2.S.Y"]).
Proof.
  eexists. split; [vm_compute; reflexivity|]. split.
  { intros pos y n c N I. pose proof (nodes_in _ _ _ _ _ N I) as IN. vm_compute in IN.
    repeat destruct IN as [IN|IN]; try (injection IN as <- <- <-; split; [discriminate|]; first [left; discriminate|right; repeat split]). destruct IN. }
  split; [vm_compute; reflexivity|]. split; [vm_compute; reflexivity|]. split; [do 2 eexists; vm_compute; split; reflexivity|].
  split; vm_compute; reflexivity.
Qed.
(** the hypotheses of C69_once, C69_single and C70_rows *)
Example C70_witness : exists t pos u el, run empty (firstn 4 ex_hist ++ skipn 6 ex_hist) = Ok t /\ names_unique t /\ getterless t /\ askable t /\
  retrieve_instance t (bs "A.") = Some (pos, u) /\ has_template (full (path_of t pos)) = false /\
  retrieve_instance t (bs "A.T.") = Some (pos ++ [0%nat], el) /\ is_table el = true /\ row_names (kids el) = [bs "1"; bs "2"] /\
  query t ex (bs "A.T." ++ bs "1" ++ bs ".S.") = Ok (E_SUCCESS, [(bs "A.T.1.S.Y", bs "A.T.1.S.Y")]).
Proof.
  do 4 eexists. split; [vm_compute; reflexivity|]. split; [|split; [|split]].
  - intros p u S. revert u S.
    assert (W : forall p t u, (forall pos y, node_of t pos = Some y -> NoDup (map fst (kids y))) -> sub t p = Some u -> NoDup (map fst (kids u))).
    { clear. induction p as [|n p IH]; intros t u H S; [cbn in S; injection S as <-; apply (H []); reflexivity|].
      cbn [sub] in S. destruct (find_kid n (kids t) 0) as [(j, c)|] eqn:F; [|discriminate]. apply find_kid_nth in F. apply (IH c u); [|exact S].
      intros pos y N. apply (H (j :: pos)). cbn [node_of]. rewrite F. exact N. }
    intros u S. eapply W; [|exact S]. clear.
    intros pos y N. destruct (kids y) as [|[n c] k] eqn:K; [constructor|]. rewrite <- K.
    assert (I : In (n, c) (kids y)) by (rewrite K; left; reflexivity).
    pose proof (nodes_in _ _ _ _ _ N I) as IN. vm_compute in IN.
    repeat destruct IN as [IN|IN]; try (injection IN as <- <- <-; cbn; repeat constructor; cbn; intuition discriminate). destruct IN.
  - apply ElemProps.getterlessb_ok. vm_compute. reflexivity.
  - intros pos y n c N I. pose proof (nodes_in _ _ _ _ _ N I) as IN. vm_compute in IN.
    repeat destruct IN as [IN|IN]; try (injection IN as <- <- <-; repeat split; cbn; intuition discriminate). destruct IN.
  - repeat split; vm_compute; reflexivity.
Qed.
