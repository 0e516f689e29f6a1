(** The theorems of C20, and the histories on which the promise fails. *)
From Coq Require Import String.
From Verif Require Import Common CommonFacts RefModel RefSpec RefProofs RefProofs2 RefProofs3 RefProofs4.
Local Open Scope string_scope.
Local Open Scope list_scope.

Lemma spec_get_set c nm d nm' : spec_get (spec_set c nm d) nm' = if bytes_eqb nm nm' then Some d else spec_get c nm'.
Proof.
  induction c as [|(k, x) c IH]; cbn; [reflexivity|].
  destruct (bytes_eqb k nm) eqn:E.
  - apply bytes_eqb_eq in E as ->. cbn. destruct (bytes_eqb nm nm'); reflexivity.
  - cbn. destruct (bytes_eqb k nm') eqn:E'; [|exact IH]. apply bytes_eqb_eq in E' as ->.
    rewrite (bytes_eqb_sym nm nm'), E. reflexivity.
Qed.
Lemma spec_set_names c nm d :
  map fst (spec_set c nm d) = if is_some (spec_get c nm) then map fst c else map fst c ++ [nm].
Proof.
  induction c as [|(k, x) c IH]; cbn; [reflexivity|].
  destruct (bytes_eqb k nm) eqn:E; cbn; [apply bytes_eqb_eq in E as ->; reflexivity|]. rewrite IH. destruct (is_some _); reflexivity.
Qed.
Lemma spec_get_in c nm : spec_get c nm = None -> ~ In nm (map fst c).
Proof.
  induction c as [|(k, x) c IH]; cbn; [auto|]. destruct (bytes_eqb k nm) eqn:E; [discriminate|].
  intros H [->|I]; [rewrite bytes_eqb_refl in E; discriminate|exact (IH H I)].
Qed.
Lemma spec_run_nodup ops : NoDup (map fst (sp_contents (spec_run ops))).
Proof.
  unfold spec_run.
  assert (K : forall s, NoDup (map fst (sp_contents s)) -> NoDup (map fst (sp_contents (fold_left spec_step ops s)))).
  { induction ops as [|o ops IH]; intros s H; cbn; [exact H|]. apply IH.
    assert (S1 : forall nm d, NoDup (map fst (spec_set (sp_contents s) nm d))).
    { intros nm d. rewrite spec_set_names. destruct (spec_get (sp_contents s) nm) eqn:G; cbn; [exact H|].
      apply nodup_snoc; [exact H|apply spec_get_in; exact G]. }
    destruct o; cbn; auto. }
  apply K. constructor.
Qed.
Lemma memo_read h p m : memo_ok h p m -> match m with
                      | MProp => exists nm v nx, load h p = Ok (CProp nm v nx)
                      | MVal d => read_value h p = Ok d
                      end.
Proof.
  destruct m; cbn; [intros (nm & v & nx & B); exists nm, v, nx; apply load_bd; exact B|].
  intros B. unfold read_value. rewrite (load_bd _ _ _ B). reflexivity.
Qed.

Lemma object_history name ops :
  exists s, client_run (new_client name) ops = Ok s /\
    api_contents (cl_heap s) (cl_obj s) = Ok (sp_contents (spec_run ops)) /\
    (forall nm, api_get (cl_heap s) (cl_obj s) nm = Ok (spec_get (sp_contents (spec_run ops)) nm)) /\
    held_ok (cl_heap s) (cl_held s) (sp_held (spec_run ops)) /\
    exists h', release_each (cl_heap s) (cl_obj s :: cl_held s) = Ok h' /\ forall p, get h' p = None.
Proof.
  destruct (run_ok ops _ _ (new_ok name)) as (s & E & Eo & [I A (l & R & C) H]).
  fold (spec_run ops) in *. exists s. split; [exact E|].
  split; [rewrite (api_contents_ok _ _ _ R); congruence|].
  split; [intros nm; rewrite (api_get_ok _ _ _ nm R); congruence|].
  split; [unfold held_ok; clear - H; induction H; constructor; auto; apply memo_read; assumption|].
  destruct (release_each_ok _ _ I A) as (h' & E' & I' & A'). exists h'. split; [exact E'|]. apply no_roots_empty; assumption.
Qed.

(** Setting a property that the object already contains, when another follows it:
    rbusProperty_Append(newProp, next) links the list to itself. *)
Definition reset_same : outcome unit (heap * nat) :=
  let (h, o) := object_init [] (Some (bs "obj")) in
  let (h, v) := value_init h 1 in
  do (h, p) <- property_init h (Some (bs "a")) (Some v);
  do (h, q) <- property_init h (Some (bs "b")) (Some v);
  do h <- object_set_property h o p;
  do h <- object_set_property h o q;
  do h <- object_set_property h o p;
  Ok (h, o).
Lemma reset_same_refuted :
  exists h o, reset_same = Ok (h, o) /\ forall fuel, exists p, object_properties h o = Ok (Some p) /\ walk fuel h (Some p) = UB.
Proof.
  eexists _, _. split; [vm_compute; reflexivity|]. intros fuel. eexists. split; [vm_compute; reflexivity|].
  match goal with |- walk _ ?h0 _ = _ => set (h := h0) end.
  assert (Q : forall fuel, walk fuel h (Some 3) = UB).
  { clear fuel. induction fuel as [|fuel IH]; [reflexivity|]. cbn [walk].
    replace (property_name h 3) with (@Ok unit _ (Some (bs "b"))) by (vm_compute; reflexivity).
    replace (property_value h 3) with (@Ok unit _ (Some 1)) by (vm_compute; reflexivity).
    replace (property_next h 3) with (@Ok unit _ (Some 3)) by (vm_compute; reflexivity). cbn [obind].
    replace (read_value h 1) with (@Ok unit _ 1%Z) by (vm_compute; reflexivity). cbn [obind]. rewrite IH. reflexivity. }
  destruct fuel as [|fuel]; [reflexivity|]. cbn [walk].
  replace (property_name h 2) with (@Ok unit _ (Some (bs "a"))) by (vm_compute; reflexivity).
  replace (property_value h 2) with (@Ok unit _ (Some 1)) by (vm_compute; reflexivity).
  replace (property_next h 2) with (@Ok unit _ (Some 3)) by (vm_compute; reflexivity). cbn [obind].
  replace (read_value h 1) with (@Ok unit _ 1%Z) by (vm_compute; reflexivity). cbn [obind]. rewrite Q. reflexivity.
Qed.
