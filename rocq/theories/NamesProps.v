(** Properties of the names of rows and elements: C79, C80. *)
From Coq Require Import String Sorted.
From Verif Require Import Common CommonFacts VecList TextModel Errors ElemModel ElemSpec ElemProofs ElemRows MsgModel WireModel WalkModel WalkProofs NamesModel NamesSpec NamesProofs NamesList.
From Coq Require Import Lia ZifyBool.
Local Open Scope string_scope.
Local Open Scope list_scope.
Local Open Scope Z_scope.

(** ** C79: the rows of a table *)
(** After any history of calls, a consumer asking for the rows of a table gets exactly those added
    and not removed since the table was registered, in the order they were added, each with its
    number, its alias and the name under which its elements are found. *)
Theorem C79_rows_partial : forall T t s i, path_ok T -> quiet t -> s <> [] -> typ i = TABLE -> getter i = false -> tokens (strip TABLE s) = T ->
  exists t0, step t (Register s i) = Ok (t0, E_SUCCESS) /\
  forall cs t' l, history T t0 [] cs t' l -> text_ok (dotted T) ->
  Forall (fun r => match snd r with Some a => text_ok a | None => True end) l -> Z.of_nat (length l) < 2 ^ 31 ->
  Forall (fun r => (length (dotted T ++ print_dec (fst r) ++ bs ".") < 256)%nat) l ->
  get_row_names t' (dotted T) = Ok (E_SUCCESS, map (shown_row T) l).
Proof.
  intros T t s i PO QT NS TY GI TK. assert (E : step t (Register s i) = Ok (insert_element s i t, E_SUCCESS)) by (destruct s; [congruence|reflexivity]).
  exists (insert_element s i t). split; [exact E|]. intros cs t' l H TT TA LE LN.
  pose proof (fresh_table t s i NS TY) as F. rewrite TY, TK in F.
  assert (Q0 : quiet (insert_element s i t)) by (eapply step_quiet; [exact QT| |exact E]; intros _; exact GI).
  destruct (history_holds T cs _ _ _ _ PO Q0 F H) as [HO QE]. apply get_row_names_ok; assumption.
Qed.
Print Assumptions C79_rows_partial.
(** From any state in which the table has the rows [l], so from any point of such a history. *)
Theorem C79_later_partial : forall T t l cs t' l', path_ok T -> quiet t -> holds t T l -> history T t l cs t' l' -> text_ok (dotted T) ->
  Forall (fun r => match snd r with Some a => text_ok a | None => True end) l' -> Z.of_nat (length l') < 2 ^ 31 ->
  Forall (fun r => (length (dotted T ++ print_dec (fst r) ++ bs ".") < 256)%nat) l' ->
  get_row_names t' (dotted T) = Ok (E_SUCCESS, map (shown_row T) l').
Proof. intros T t l cs t' l' PO QT HO H TT TA LE LN. destruct (history_holds T cs _ _ _ _ PO QT HO H) as [HO' QE]. apply get_row_names_ok; assumption. Qed.
Print Assumptions C79_later_partial.
(** Asking for the rows of nothing, or of what is no table, is an error. *)
Theorem C79_errors_partial : forall t T, path_ok T -> quiet t -> text_ok (dotted T) ->
  (sub t T = None -> get_row_names t (dotted T) = Ok (E_ELEMENT_DOES_NOT_EXIST, [])) /\
  (forall x, sub t T = Some x -> is_table x = false -> get_row_names t (dotted T) = Ok (E_INVALID_INPUT, [])).
Proof.
  intros t T (NE & G & P) QT TT. pose proof (instance_plain t (dotted T) T (quiet_getterless t QT) (table_tokens T G) NE P) as I. split.
  - intros S. rewrite S in I. apply get_row_names_missing; assumption.
  - intros x S TX. rewrite S in I. eapply get_row_names_no_table; eauto.
Qed.
Print Assumptions C79_errors_partial.

Definition tab : info := mkInfo TABLE 1 false.
Definition pty (h : Z) : info := mkInfo 1 h true.
Definition AT : list name := [bs "A"; bs "T"].
Definition calls : list call :=
  [CRegister (bs "A.T.{i}.X") (pty 2); CAddRow AT 3 (Some (bs "three")); CRequestRow AT None (Some 10); CRegister (bs "A.P") (pty 4);
   CAddRow AT 7 (Some (bs "seven")); CRemoveRow AT 3; CAddRow AT 7 None; CRequestRemove AT 10 false; CAddRow AT 1 None].
Ltac decide_call := vm_compute; repeat split; intros; try discriminate; try congruence; intuition congruence.
Lemma history_step : forall T t l c cs t1 rc l1 t' l', call_ok T l c -> step t (op_of c) = Ok (t1, rc) -> l1 = listed T l c rc -> history T t1 l1 cs t' l' -> history T t l (c :: cs) t' l'.
Proof. intros T t l c cs t1 rc l1 t' l' A B -> H. split; [exact A|]. exists t1, rc. auto. Qed.
Example C79_witness : path_ok AT /\ tokens (strip TABLE (bs "A.T.{i}.")) = AT /\ text_ok (dotted AT) /\
  exists t0 t', step empty (Register (bs "A.T.{i}.") tab) = Ok (t0, E_SUCCESS) /\
  history AT t0 [] calls t' [(10, None); (7, Some (bs "seven")); (1, None)] /\
  get_row_names t' (bs "A.T.") = Ok (E_SUCCESS,
    [mkRow 10 None (bs "A.T.10."); mkRow 7 (Some (bs "seven")) (bs "A.T.7."); mkRow 1 None (bs "A.T.1.")]).
Proof.
  split; [split; [discriminate|split; reflexivity]|]. split; [reflexivity|]. split; [split; [reflexivity|vm_compute; reflexivity]|].
  eexists. eexists. split; [vm_compute; reflexivity|]. split.
  - unfold calls. repeat (eapply history_step; [solve [decide_call]|vm_compute; reflexivity|vm_compute; reflexivity|]).
    split; reflexivity.
  - vm_compute. reflexivity.
Qed.
(** A table name without the dot at its end is accepted, and names are given that belong to nothing. *)
Theorem C79_no_dot_refuted : exists l t, run empty l = Ok t /\ Forall quiet_op l /\
  get_row_names t (bs "A.T") = Ok (E_SUCCESS, [mkRow 1 None (bs "A.T1.")]) /\ retrieve_instance t (bs "A.T1.") = None.
Proof.
  exists [Register (bs "A.T.{i}.") tab; RegisterRow (bs "A.T.") 1 None]. eexists. split; [vm_compute; reflexivity|].
  split; [repeat constructor; cbn; intros; reflexivity|]. vm_compute. repeat split.
Qed.
Print Assumptions C79_no_dot_refuted.
(** An element other than a row that is registered in a table is shown as row 0. *)
Theorem C79_no_row_refuted : exists l t, run empty l = Ok t /\ Forall quiet_op l /\
  get_row_names t (bs "A.T.") = Ok (E_SUCCESS, [mkRow 0 None (bs "A.T.0.")]) /\ retrieve_instance t (bs "A.T.0.") = None.
Proof.
  exists [Register (bs "A.T.{i}.") tab; Register (bs "A.T.Total") (pty 3)]. eexists. split; [vm_compute; reflexivity|].
  split; [repeat constructor; cbn; intros; first [reflexivity|discriminate]|]. vm_compute. repeat split.
Qed.
Print Assumptions C79_no_row_refuted.

(** ** C80: the names of elements *)
Lemma Forall2_in_r : forall A B (R : A -> B -> Prop) l l' y, Forall2 R l l' -> In y l' -> exists x, In x l /\ R x y.
Proof. intros A B R l l' y F. induction F as [|a b l l' H F IH]; intros []; [subst; exists a; split; [left; reflexivity|exact H]|]. destruct (IH H0) as (x & I & X). exists x. split; [right; exact I|exact X]. Qed.
(** For components that can be asked, the answer holds, component by component, the element asked
    for and what is below it down to the given depth, or at it for a negative one: every such
    element once, parents before children and siblings in their order, with full name, type and
    access bits. Components that fail or do not have the element add nothing. The code is that of
    the last component. *)
Theorem C80_elements_partial : forall Q s depth ds, path_ok Q -> s = full Q \/ s = dotted Q -> text_ok s -> Z.abs depth <= 16 ->
  Forall (fun d => ready Q depth (snd d)) ds ->
  exists code es, element_info (Some ds) s depth = Ok (code, es) /\ told_all Q depth E_SUCCESS ds code es.
Proof.
  intros Q s depth ds (NE & G & P) SQ TS D F.
  assert (TK : tokens s = Q) by (destruct SQ as [->| ->]; [apply tokens_full; assumption|apply table_tokens, G]).
  destruct (ask_all_ok Q depth s ds E_SUCCESS NE P TK TS ltac:(lia) F) as (code & es & A & B). exists code, es. split; [|exact A].
  unfold element_info, MAX_DEPTH. replace (depth =? - 2 ^ 31) with false by lia. replace (16 <? Z.abs depth) with false by lia. exact B.
Qed.
Print Assumptions C80_elements_partial.
(** One component that has the element. *)
Theorem C80_one_partial : forall Q s depth comp other t u, path_ok Q -> s = full Q \/ s = dotted Q -> text_ok s -> Z.abs depth <= 16 ->
  ready Q depth (Answers other t) -> sub t Q = Some u -> is_table u && getter (inf u) = false ->
  exists l, element_info (Some [(comp, Answers other t)]) s depth = Ok (E_SUCCESS, map (fun e => (comp, e)) l) /\ described other u (table_above t Q) Q depth l.
Proof.
  intros Q s depth comp other t u PO SQ TS D R S G. destruct (C80_elements_partial Q s depth [(comp, Answers other t)] PO SQ TS D) as (code & es & E & T); [constructor; [exact R|constructor]|].
  cbn [told_all] in T. destruct T as (c & l & es' & T & (-> & ->) & ->). rewrite app_nil_r in E. exists l.
  inversion T as [|? ? N|? ? u' S' G'|? ? u' ? S' G' D']; subst; try congruence. rewrite S in S'. injection S' as <-. auto.
Qed.
Print Assumptions C80_one_partial.
(** No name is given twice. *)
Theorem C80_once : forall other u it P depth l, names_unique u -> P <> [] -> forallb good_name P = true ->
  (forall pos, forallb good_name (path_of u pos) = true) -> described other u it P depth l -> NoDup (map e_name l).
Proof.
  intros other u it P depth l NU NP GP GU (L & S & _ & F).
  assert (TN : forall pos e, entry_at other u it P pos e -> tokens (e_name e) = P ++ path_of u pos).
  { intros pos e (x & N & T & M & _). assert (NE : P ++ path_of u pos <> []) by (destruct P; [congruence|discriminate]).
    assert (GG : forallb good_name (P ++ path_of u pos) = true) by (rewrite forallb_app, GP, GU; reflexivity). rewrite M.
    destruct ((typ (inf x) =? 0) || (typ (inf x) =? TABLE)); [|rewrite app_nil_r; apply tokens_full; assumption].
    destruct (@exists_last _ _ NE) as (R & n & E). rewrite E in GG |- *. rewrite full_dotted, <- app_assoc.
    assert (Q : dotted R ++ n ++ bs "." = dotted (R ++ [n])) by (clear; induction R as [|m R IH]; cbn [dotted app]; [rewrite app_nil_r; reflexivity|rewrite <- IH, <- !app_assoc; reflexivity]).
    rewrite Q. apply table_tokens, GG. }
  assert (IR : forall p : list nat, ~ precedes p p). { clear. induction p as [|j p IH]; intros H; inversion H; subst; [lia|auto]. }
  induction F as [|pos e L l E F IH]; cbn [map]; [constructor|]. inversion S as [|? ? S1 S2]; subst. constructor; [|auto].
  intros I. apply in_map_iff in I as (e' & EQ & I'). destruct (Forall2_in_r _ _ _ _ _ _ F I') as (pos' & I2 & E').
  pose proof (TN _ _ E) as A. pose proof (TN _ _ E') as B. rewrite EQ, A in B. apply app_inv_head in B.
  destruct E as (x & N & _). destruct E' as (x' & N' & _). assert (pos = pos') by (rewrite <- (ipos_path pos u x NU N), <- (ipos_path pos' u x' NU N'), B; reflexivity).
  subst pos'. rewrite Forall_forall in S2. exact (IR _ (S2 _ I2)).
Qed.
Print Assumptions C80_once.
(** More than 16 levels are refused, and so is a name discovery fails on. *)
Theorem C80_refused : forall found s depth, - 2 ^ 31 < depth < 2 ^ 31 ->
  (16 < Z.abs depth -> element_info found s depth = Ok (E_INVALID_INPUT, [])) /\
  (Z.abs depth <= 16 -> element_info None s depth = Ok (E_ELEMENT_DOES_NOT_EXIST, [])).
Proof.
  intros found s depth B. unfold element_info, MAX_DEPTH. replace (depth =? - 2 ^ 31) with false by lia. split; intros D.
  - replace (16 <? Z.abs depth) with true by lia. reflexivity.
  - replace (16 <? Z.abs depth) with false by lia. reflexivity.
Qed.
Print Assumptions C80_refused.

Definition model : list op :=
  [Register (bs "A.T.{i}.") tab; Register (bs "A.T.{i}.X") (pty 2); Register (bs "A.P") (pty 4); RegisterRow (bs "A.T.") 3 None; RegisterRow (bs "A.T.") 5 None].
Definition bits (h : Z) : Z := if h =? 4 then ACCESS_SET else 0.
(** deciding the conditions, for the examples *)
Fixpoint nodes (P : list name) (t : tree) {struct t} : list (list name * info) :=
  match t with Node i _ k => (P, i) :: (fix go (k : list (name * tree)) := match k with [] => [] | (n, c) :: k => nodes (P ++ [n]) c ++ go k end) k end.
Lemma nodes_eq : forall P i a k, nodes P (Node i a k) = (P, i) :: flat_map (fun nc => nodes (P ++ [fst nc]) (snd nc)) k.
Proof. intros. cbn [nodes]. f_equal. induction k as [|[n c] k IH]; [reflexivity|]. cbn [flat_map fst snd]. rewrite <- IH. reflexivity. Qed.
Lemma nodes_all : forall pos t P x, node_of t pos = Some x -> In (P ++ path_of t pos, inf x) (nodes P t).
Proof.
  induction pos as [|j pos IH]; intros [i a k] P x N; rewrite nodes_eq.
  - cbn in N. injection N as <-. cbn [path_of]. rewrite app_nil_r. left. reflexivity.
  - cbn [node_of path_of kids] in *. destruct (nth_error k j) as [[n c]|] eqn:E; [|discriminate]. right. apply in_flat_map. exists (n, c). split; [eapply nth_error_In, E|]. cbn [fst snd].
    specialize (IH c (P ++ [n]) x N). rewrite <- app_assoc in IH. exact IH.
Qed.
Definition sendableb (other : Z -> Z) (u : tree) (P : list name) : bool :=
  forallb (fun q => is_cstr (full (fst q)) && Nat.ltb (length (full (fst q))) 255 && (0 <=? typ (snd q)) && (typ (snd q) <? 2 ^ 31) && (0 <=? other (hid (snd q))) && (other (hid (snd q)) <? 2 ^ 31)) (nodes P u).
Lemma sendableb_ok : forall other u P, sendableb other u P = true -> sendable other u P.
Proof.
  intros other u P H pos x N. unfold sendableb in H. rewrite forallb_forall in H. specialize (H _ (nodes_all pos u P x N)). cbn [fst snd] in H.
  repeat (apply andb_prop in H as [H ?]). apply Nat.ltb_lt in H4. repeat split; auto; lia.
Qed.
Lemma described_places : forall other u it P depth l, described other u it P depth l -> (length l <= length (places depth 0 u))%nat.
Proof.
  intros other u it P depth l (L & S & IL & F). assert (LE : length L = length l) by (clear - F; induction F; cbn; congruence). rewrite <- LE.
  apply NoDup_incl_length; [|intros p I; apply places_listed, IL, I]. clear - S.
  assert (IR : forall p : list nat, ~ precedes p p) by (induction p as [|j p IH]; intros H; inversion H; subst; [lia|auto]).
  induction S as [|p L S IH F]; constructor; [|exact IH]. intros I. rewrite Forall_forall in F. exact (IR _ (F _ I)).
Qed.
Example C80_witness : exists t u, run empty model = Ok t /\ path_ok [bs "A"] /\ text_ok (bs "A.") /\ ready [bs "A"] 2 (Answers bits t) /\
  sub t [bs "A"] = Some u /\ is_table u && getter (inf u) = false /\
  element_info (Some [(bs "one", Answers bits t)]) (bs "A.") 2 = Ok (E_SUCCESS, map (fun e => (bs "one", e))
    [mkEntry (bs "A.") 0 0; mkEntry (bs "A.T.") 2 0; mkEntry (bs "A.T.3.") 0 3; mkEntry (bs "A.T.5.") 0 3; mkEntry (bs "A.P") 1 3]) /\
  element_info (Some [(bs "one", Answers bits t)]) (bs "A.T.5") (-1) = Ok (E_SUCCESS, [(bs "one", mkEntry (bs "A.T.5.X") 1 1)]) /\
  element_info (Some [(bs "one", Answers bits t)]) (bs "A.T.5") 0 = Ok (E_SUCCESS, [(bs "one", mkEntry (bs "A.T.5.") 0 3)]).
Proof.
  eexists. eexists. split; [vm_compute; reflexivity|]. split; [split; [discriminate|split; reflexivity]|]. split; [split; [reflexivity|vm_compute; reflexivity]|]. split.
  - split.
    + intros [|n a] b y E NA NB S TY; [congruence|]. destruct a; [|destruct a; discriminate]. destruct b; [congruence|discriminate].
    + intros u S. vm_compute in S. injection S as <-. split; [apply sendableb_ok; vm_compute; reflexivity|]. intros l D.
      apply described_places in D. match type of D with (_ <= length ?x)%nat => let v := eval vm_compute in (length x) in change (length x) with v in D end. lia.
  - split; [vm_compute; reflexivity|]. split; [reflexivity|]. vm_compute. repeat split.
Qed.
(** The failure of a component is hidden by the answer of a later one, and a success by a later
    failure. *)
Theorem C80_code_refuted : exists t e, run empty model = Ok t /\
  element_info (Some [(bs "one", Fails 12); (bs "two", Answers bits t)]) (bs "A.P") 0 = Ok (E_SUCCESS, [(bs "two", e)]) /\
  element_info (Some [(bs "two", Answers bits t); (bs "one", Fails 12)]) (bs "A.P") 0 = Ok (E_DESTINATION_NOT_REACHABLE, [(bs "two", e)]).
Proof. eexists. eexists. split; [vm_compute; reflexivity|]. split; vm_compute; reflexivity. Qed.
Print Assumptions C80_code_refuted.
(** A table with a get handler of its own is answered with success and without any entry, not even
    its own; and below it the name of a row shows "{i}" whatever row was asked for. *)
Theorem C80_own_table_refuted : exists l t, run empty l = Ok t /\
  element_info (Some [(bs "one", Answers bits t)]) (bs "A.T.") 1 = Ok (E_SUCCESS, []) /\
  element_info (Some [(bs "one", Answers bits t)]) (bs "A.T.7.") 1 = Ok (E_SUCCESS, [(bs "one", mkEntry (bs "A.T.{i}.") 0 3); (bs "one", mkEntry (bs "A.T.{i}.X") 1 1)]).
Proof.
  exists [Register (bs "A.T.{i}.") (mkInfo TABLE 1 true); Register (bs "A.T.{i}.X") (pty 2)]. eexists. split; [vm_compute; reflexivity|]. split; vm_compute; reflexivity.
Qed.
Print Assumptions C80_own_table_refuted.
