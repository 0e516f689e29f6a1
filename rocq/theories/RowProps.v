(** Properties of adding and removing rows from another component: C87, C88. *)
From Coq Require Import String.
From Verif Require Import Common CommonFacts VecList Bytes TextModel Errors ElemModel ElemSpec ElemProofs ElemRows MsgModel WireModel NamesModel NamesSpec NamesProofs RowModel RowSpec RowProofs.
From Coq Require Import Lia ZifyBool.
Local Open Scope string_scope.
Local Open Scope list_scope.
Local Open Scope Z_scope.

(** ** C87: one call *)
(** Adding a row to a table that is there: its handler is called exactly once, with the table's
    name and the alias; its code and number are returned; when it succeeds the tree gets exactly
    the new row, which looks like the table's template, and otherwise it stays as it is. A table
    without a handler refuses. *)
Theorem C87_add_partial : forall P t T a e x, quiet t -> path_ok T -> text_ok (dotted T) -> alias_ok a -> stands t T e -> sub t T = Some x ->
  match on_add P (hid (inf e)) with
  | None => rbusTable_addRow Answered P t (dotted T) a = (Ok (E_INVALID_OPERATION, Some 0), (t, []))
  | Some f => let c := mkAdd (hid (inf e)) (dotted T) (given a) in
    forall rc num, f c = (rc, num) -> 0 <= rc < 100 -> 0 <= num < 2 ^ 32 ->
    (rc <> E_SUCCESS -> rbusTable_addRow Answered P t (dotted T) a = (Ok (rc, Some num), (t, [Adds c]))) /\
    (rc = E_SUCCESS -> get t (T ++ [TEMPLATE]) <> None -> get t (T ++ [print_dec num]) = None ->
     exists t', rbusTable_addRow Answered P t (dotted T) a = (Ok (E_SUCCESS, Some num), (t', [Adds c])) /\
       (forall y, sub t' (T ++ [print_dec num]) = Some y -> alias y = given a) /\
       forall q, get t' q = match below (T ++ [print_dec num]) q with Some r => get t (T ++ TEMPLATE :: r) | None => get t q end)
  end.
Proof.
  intros P t T a e x Q PO TT TA ST S. assert (L := last_dotted T (proj1 PO)). apply stands_table in ST; [|exact PO].
  destruct (on_add P (hid (inf e))) as [f|] eqn:O.
  2:{ apply add_answered; auto; [unfold add_one; rewrite ST, instance_table, S, O by assumption; reflexivity|unfold E_INVALID_OPERATION; lia|lia]. }
  intros c rc num F RC NU. split.
  - intros NE. apply add_answered; auto. unfold add_one. rewrite ST, instance_table, S, O by assumption. fold c. cbv zeta. rewrite F. replace (rc =? E_SUCCESS) with false by lia. reflexivity.
  - intros -> TM FR. unfold get in TM, FR. rewrite (sub_snoc T t x _ S) in TM. rewrite (sub_snoc T t x _ S) in FR.
    destruct (kid TEMPLATE (kids x)) as [tm|] eqn:KT; [|cbn in TM; congruence]. destruct (kid (print_dec num) (kids x)) as [|] eqn:KN; [discriminate|].
    assert (AR : add_row (ipos t T) x num (given a) t = Ok (at_pos (ipos t T) (append_row (print_dec num) (set_alias (given a) (dup tm))) t)).
    { unfold add_row. unfold kid in KT. destruct (vfind (named TEMPLATE) (kids x)) as [(m, c')|]; [|discriminate]. cbn in KT. injection KT as ->. reflexivity. }
    eexists. split; [apply add_answered; auto|].
    { unfold add_one. rewrite ST, instance_table, S, O by assumption. fold c. cbv zeta. rewrite F. cbn [E_SUCCESS Z.eqb]. rewrite AR. reflexivity. }
    split; [|exact (add_row_get t T x num (given a) _ S KN AR)].
    intros y SY. destruct (ipos_added T t x (print_dec num) (set_alias (given a) (dup tm)) S KN) as [_ I2]. rewrite SY in I2. injection I2 as ->. reflexivity.
Qed.
Print Assumptions C87_add_partial.
(** A table that is not there is an error, whatever handlers there are, and nothing happens. *)
Theorem C87_add_missing_partial : forall P t T a, quiet t -> path_ok T -> text_ok (dotted T) -> alias_ok a ->
  (sub t T = None \/ forall e, ~ stands t T e) ->
  rbusTable_addRow Answered P t (dotted T) a = (Ok (E_ELEMENT_DOES_NOT_EXIST, Some 0), (t, [])).
Proof.
  intros P t T a Q PO TT TA M. apply add_answered; auto; [apply last_dotted, PO| |unfold E_ELEMENT_DOES_NOT_EXIST; lia|lia].
  unfold add_one. rewrite instance_table by assumption. destruct M as [->|M]; [destruct (retrieve t (dotted T)); reflexivity|].
  destruct (retrieve t (dotted T)) as [e|] eqn:R; [|reflexivity]. exfalso. apply (M e). apply stands_table; assumption.
Qed.
Print Assumptions C87_add_missing_partial.
(** A name that does not end with a dot, or a request that does not arrive: nothing happens and the
    caller is told so. *)
Theorem C87_add_refused : forall f P t s a, s <> [] -> last s 0 <> 46 -> rbusTable_addRow f P t s a = (Ok (E_INVALID_INPUT, None), (t, [])).
Proof. intros f P t s a N L. unfold rbusTable_addRow. destruct s as [|c s]; [congruence|]. replace (last (c :: s) 0 =? 46) with false by lia. reflexivity. Qed.
Print Assumptions C87_add_refused.
Theorem C87_lost : forall err P t s a row, err <> 0 -> s <> [] ->
  (exists rc, rbusTable_addRow (Lost err) P t s a = (Ok (rc, None), (t, [])) /\ rc <> E_SUCCESS) /\
  (exists rc, rbusTable_removeRow (Lost err) P t row = (Ok rc, (t, [])) /\ rc <> E_SUCCESS).
Proof.
  intros err P t s a row N NE. split.
  - destruct (Z.eq_dec (last s 0) 46) as [L|L].
    + exists (bus_error err). split; [apply add_lost, L|apply bus_error_no, N].
    + exists E_INVALID_INPUT. split; [apply C87_add_refused; assumption|discriminate].
  - exists (bus_error err). split; [apply remove_lost|apply bus_error_no, N].
Qed.
Print Assumptions C87_lost.
(** Removing a row: the handler of its table is called exactly once, with the row's name; its code
    is returned; when it succeeds the row and what is below it are gone and all else stays, and
    otherwise nothing changes. A row that is not there is an error, and no handler is called. *)
Theorem C87_remove_partial : forall P t T n e, quiet t -> names_unique t -> path_ok T -> text_ok (dotted T ++ print_dec n) ->
  stands t T e -> is_table e = true -> sub e [TEMPLATE] <> None ->
  match get t (T ++ [print_dec n]), on_remove P (hid (inf e)) with
  | None, _ => rbusTable_removeRow Answered P t (dotted T ++ print_dec n) = (Ok E_ELEMENT_DOES_NOT_EXIST, (t, []))
  | Some _, None => rbusTable_removeRow Answered P t (dotted T ++ print_dec n) = (Ok E_INVALID_OPERATION, (t, []))
  | Some _, Some f => let c := mkRemove (hid (inf e)) (dotted T ++ print_dec n) in
    0 <= f c < 100 ->
    exists t', rbusTable_removeRow Answered P t (dotted T ++ print_dec n) = (Ok (f c), (t', [Removes c])) /\
      (f c <> E_SUCCESS -> t' = t) /\
      (f c = E_SUCCESS -> forall q, get t' q = match below (T ++ [print_dec n]) q with Some _ => None | None => get t q end)
  end.
Proof.
  intros P t T n e Q NU PO TT ST TE TM. pose proof (pair_row t T n e PO ST TE) as PR. unfold get at 1.
  assert (TK : exists c, kid TEMPLATE (kids e) = Some c).
  { rewrite sub_one in TM. rewrite <- (find_kid_kid TEMPLATE (kids e) 0). destruct (find_kid TEMPLATE (kids e) 0) as [(j, c)|]; [exists c; reflexivity|cbn in TM; congruence]. }
  destruct TK as (tm & KT). rewrite KT in PR.
  destruct (sub t (T ++ [print_dec n])) as [x|] eqn:S; cbn [option_map].
  2:{ apply remove_answered; auto; [unfold remove_one; rewrite PR, instance_row, S by assumption; reflexivity|unfold E_ELEMENT_DOES_NOT_EXIST; lia]. }
  destruct (on_remove P (hid (inf e))) as [f|] eqn:O.
  2:{ apply remove_answered; auto; [unfold remove_one; rewrite PR, instance_row, S, O by assumption; reflexivity|unfold E_INVALID_OPERATION; lia]. }
  set (c := mkRemove (hid (inf e)) (dotted T ++ print_dec n)). intros B. exists (if f c =? E_SUCCESS then delete (ipos t (T ++ [print_dec n])) t else t). split; [|split].
  - apply remove_answered; auto. unfold remove_one. rewrite PR, instance_row, S, O by assumption. reflexivity.
  - intros NE. replace (f c =? E_SUCCESS) with false by lia. reflexivity.
  - intros ->. change (E_SUCCESS =? E_SUCCESS) with true. cbn iota. assert (SX : exists y, sub t T = Some y) by (rewrite sub_app in S; destruct (sub t T); [eauto|discriminate]).
    destruct SX as [y SX]. exact (delete_get T t y (print_dec n) x SX (NU T y SX) S).
Qed.
Print Assumptions C87_remove_partial.

Definition tab : info := mkInfo TABLE 1 false.
Definition AT : list name := [bs "A"; bs "T"].
(** numbers rows by the length of the alias, refuses "bad", accepts every removal but that of row 9 *)
Definition prog : program := mkProgram
  (fun h => if h =? 1 then Some (fun c => match a_alias c with Some a => if bytes_eqb a (bs "bad") then (E_INVALID_INPUT, 77) else (0, Z.of_nat (length a)) | None => (0, 9) end) else None)
  (fun h => if h =? 1 then Some (fun c => if bytes_eqb (d_row c) (bs "A.T.9") then E_ACCESS_NOT_ALLOWED else 0) else None).
Definition base : tree := insert_element (bs "A.T.{i}.X") (mkInfo 1 2 true) (insert_element (bs "A.T.{i}.") tab empty).
Lemma at_ok : path_ok AT.
Proof. split; [discriminate|split; reflexivity]. Qed.
Lemma base_quiet : quiet base.
Proof.
  unfold base. eapply (step_quiet _ (Register (bs "A.T.{i}.X") (mkInfo 1 2 true)) _ E_SUCCESS); [eapply (step_quiet empty (Register (bs "A.T.{i}.") tab) _ E_SUCCESS); [exact quiet_empty| |reflexivity]| |reflexivity]; cbn; intros; first [reflexivity|discriminate].
Qed.
Example C87_witness : quiet base /\ path_ok AT /\ text_ok (dotted AT) /\ exists e x t',
  stands base AT e /\ is_table e = true /\ sub e [TEMPLATE] <> None /\ sub base AT = Some x /\ get base (AT ++ [TEMPLATE]) <> None /\ get base (AT ++ [bs "4"]) = None /\
  rbusTable_addRow Answered prog base (bs "A.T.") (Some (bs "four")) = (Ok (0, Some 4), (t', [Adds (mkAdd 1 (bs "A.T.") (Some (bs "four")))])) /\
  get t' (AT ++ [bs "4"; bs "X"]) = Some (mkInfo 1 2 true) /\
  rbusTable_addRow Answered prog t' (bs "A.T.") (Some (bs "bad")) = (Ok (E_INVALID_INPUT, Some 77), (t', [Adds (mkAdd 1 (bs "A.T.") (Some (bs "bad")))])) /\
  rbusTable_removeRow Answered prog t' (bs "A.T.4") = (Ok 0, (base, [Removes (mkRemove 1 (bs "A.T.4"))])).
Proof.
  split; [exact base_quiet|]. split; [exact at_ok|]. split; [split; [reflexivity|vm_compute; reflexivity]|].
  eexists. eexists. eexists. split; [apply stands_table; [exact at_ok|]; vm_compute; reflexivity|].
  split; [vm_compute; reflexivity|]. split; [vm_compute; discriminate|]. split; [vm_compute; reflexivity|]. split; [vm_compute; discriminate|].
  repeat (lazymatch goal with |- _ /\ _ => split; [vm_compute; reflexivity|] end). vm_compute; reflexivity.
Qed.
(** The empty table name is read one byte before its start. *)
Theorem C87_empty_refuted : forall f P t a, fst (rbusTable_addRow f P t [] a) = UB.
Proof. reflexivity. Qed.
Print Assumptions C87_empty_refuted.
(** Asking to remove the row "{i}" removes the template of the table when the handler accepts it;
    the next row added makes the provider abort. *)
Theorem C87_template_refuted : exists t', rbusTable_removeRow Answered prog base (bs "A.T.{i}") = (Ok 0, (t', [Removes (mkRemove 1 (bs "A.T.{i}"))])) /\
  fst (rbusTable_addRow Answered prog t' (bs "A.T.") None) = UB.
Proof. eexists. split; [vm_compute; reflexivity|vm_compute; reflexivity]. Qed.
Print Assumptions C87_template_refuted.
(** An add handler that returns 100, the success code of the older bus, makes the caller see success
    though no row is there. *)
Theorem C87_legacy_refuted : exists P, 
  rbusTable_addRow Answered P base (bs "A.T.") None = (Ok (E_SUCCESS, Some 5), (base, [Adds (mkAdd 1 (bs "A.T.") None)])) /\ get base (AT ++ [bs "5"]) = None.
Proof. exists (mkProgram (fun _ => Some (fun _ => (100, 5))) (fun _ => None)). split; [vm_compute; reflexivity|vm_compute; reflexivity]. Qed.
Print Assumptions C87_legacy_refuted.

(** ** C88: what consumers were told *)
(** Every call considered is answered. *)
Theorem C88_answered_partial : forall T l t f P q, quiet t -> ask_ok T l t f P q -> exists r t1 cs, consumer f P t q = (Ok r, (t1, cs)).
Proof. intros T l t f P q Q K. destruct (consumer_one T l t f P q Q K) as (r & t1 & cs & C & _). eauto. Qed.
Print Assumptions C88_answered_partial.
(** After any session of consumers adding and removing rows, the rows of a table that a consumer is
    shown are exactly the ones whose adding was reported as a success, without those whose removal
    was reported as a success since, in the order they were added, with their aliases. *)
Theorem C88_session_partial : forall T t l qs t' l', path_ok T -> quiet t -> holds t T l -> asking T t l qs t' l' -> text_ok (dotted T) ->
  Forall (fun r => match snd r with Some a => text_ok a | None => True end) l' -> Z.of_nat (length l') < 2 ^ 31 ->
  Forall (fun r => (length (dotted T ++ print_dec (fst r) ++ bs ".") < 256)%nat) l' ->
  get_row_names t' (dotted T) = Ok (E_SUCCESS, map (shown_row T) l').
Proof. intros T t l qs t' l' PO Q H A TT TA LE LN. destruct (asking_holds T qs t l t' l' PO Q H A) as [H' Q']. apply get_row_names_ok; assumption. Qed.
Print Assumptions C88_session_partial.

Definition asks : list (fate * program * asked) :=
  [(Answered, prog, AskAdd AT (Some (bs "four"))); (Answered, prog, AskAdd AT None); (Lost 7, prog, AskAdd AT (Some (bs "lost!"))); (Answered, prog, AskAdd AT (Some (bs "bad")));
   (Answered, prog, AskAdd AT (Some (bs "xy"))); (Answered, prog, AskRemove AT 9); (Answered, prog, AskRemove AT 4); (Answered, prog, AskRemove AT 4)].
Lemma asking_step : forall T t l f P q qs r t1 cs l1 t' l', ask_ok T l t f P q -> consumer f P t q = (Ok r, (t1, cs)) -> l1 = told T l q r -> asking T t1 l1 qs t' l' -> asking T t l ((f, P, q) :: qs) t' l'.
Proof. intros T t l f P q qs r t1 cs l1 t' l' A B -> H. split; [exact A|]. exists r, t1, cs. auto. Qed.
Lemma add_ok : forall l t f a, (match f with Answered => True | Lost err => err <> 0 | NoAnswer _ => False end) -> alias_ok a ->
  sub t (AT ++ [TEMPLATE]) <> None -> (forall n, n = match given a with Some a => Z.of_nat (length a) | None => 9 end -> ~ In n (map fst l) /\ n < 100) -> ask_ok AT l t f prog (AskAdd AT a).
Proof.
  intros l t f a F A TM NI. split; [exact F|]. split; [exact at_ok|]. split; [split; [reflexivity|vm_compute; reflexivity]|]. split; [exact A|].
  intros e h R O. split; [intros _; exact TM|]. unfold prog in O. cbn [on_add] in O. destruct (hid (inf e) =? 1); [|discriminate]. injection O as <-. cbn [a_alias].
  destruct (given a) as [s|].
  - destruct (NI _ eq_refl) as [NI1 NI2]. destruct (bytes_eqb s (bs "bad")); (split; [unfold E_INVALID_INPUT; lia|split; [lia|]]); [discriminate|]. intros _ _. exact NI1.
  - split; [lia|]. split; [lia|]. intros _ _. apply NI. reflexivity.
Qed.
Lemma remove_ok : forall l t n, 0 <= n < 100 -> text_ok (dotted AT ++ print_dec n) -> below (AT ++ [print_dec n]) AT = None -> ask_ok AT l t Answered prog (AskRemove AT n).
Proof.
  intros l t n B TT BL. split; [exact I|]. split; [exact at_ok|]. split; [exact TT|]. split; [lia|]. split; [exact BL|].
  intros k h O. unfold prog in O. cbn [on_remove] in O. destruct (k =? 1); [|discriminate]. injection O as <-. cbn [d_row]. destruct (bytes_eqb _ _); unfold E_ACCESS_NOT_ALLOWED; lia.
Qed.
Ltac asked_ok := first
  [ apply add_ok; [first [exact I|discriminate]|first [exact I|split; [reflexivity|vm_compute; reflexivity]]|vm_compute; discriminate|intros n ->; split; [vm_compute; intuition discriminate|vm_compute; reflexivity]]
  | apply remove_ok; [lia|split; [reflexivity|vm_compute; reflexivity]|reflexivity] ].
Example C88_witness : path_ok AT /\ quiet base /\ holds base AT [] /\ exists t', asking AT base [] asks t' [(9, None); (2, Some (bs "xy"))] /\
  get_row_names t' (bs "A.T.") = Ok (E_SUCCESS, [mkRow 9 None (bs "A.T.9."); mkRow 2 (Some (bs "xy")) (bs "A.T.2.")]).
Proof.
  split; [exact at_ok|]. split; [exact base_quiet|]. split.
  { eexists. split; [vm_compute; reflexivity|]. split; [reflexivity|]. split; [reflexivity|]. split; constructor. }
  eexists. split; [|].
  - unfold asks. repeat (eapply asking_step; [asked_ok|vm_compute; reflexivity|vm_compute; reflexivity|]). vm_compute; split; reflexivity.
  - vm_compute. reflexivity.
Qed.
(** A lost answer: the consumer is told of an error though the row is there, and adding it again
    makes a second one. *)
Theorem C88_lost_answer_refuted : exists f P t', rbusTable_addRow f P base (bs "A.T.") (Some (bs "four")) = (Ok (E_TIMEOUT, None), (t', [Adds (mkAdd 1 (bs "A.T.") (Some (bs "four")))])) /\
  get_row_names t' (bs "A.T.") = Ok (E_SUCCESS, [mkRow 4 (Some (bs "four")) (bs "A.T.4.")]).
Proof. exists (NoAnswer 7), prog. eexists. split; [vm_compute; reflexivity|vm_compute; reflexivity]. Qed.
Print Assumptions C88_lost_answer_refuted.
(** A handler that answers with a number in use makes a second row of this number; one removal
    leaves the other. *)
Theorem C88_in_use_refuted : exists t1 t2 t3 c1 c2 c3,
  rbusTable_addRow Answered prog base (bs "A.T.") (Some (bs "ab")) = (Ok (0, Some 2), (t1, c1)) /\
  rbusTable_addRow Answered prog t1 (bs "A.T.") (Some (bs "cd")) = (Ok (0, Some 2), (t2, c2)) /\
  rbusTable_removeRow Answered prog t2 (bs "A.T.2") = (Ok 0, (t3, c3)) /\
  get_row_names t3 (bs "A.T.") = Ok (E_SUCCESS, [mkRow 2 (Some (bs "cd")) (bs "A.T.2.")]).
Proof. do 6 eexists. repeat (lazymatch goal with |- _ /\ _ => split; [vm_compute; reflexivity|] end). vm_compute; reflexivity. Qed.
Print Assumptions C88_in_use_refuted.
