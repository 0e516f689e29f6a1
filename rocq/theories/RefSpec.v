(** Specification for C20 and C50 (single threaded part): what the client of an
    object sees, in terms of names and contents, without pointers or counts. *)
From Verif Require Import Common RefModel.
Local Open Scope Z_scope.

(** The properties of an object: name and contents, in order. *)
Definition contents := list (list Z * Z).

Fixpoint spec_get (c : contents) (nm : list Z) : option Z :=
  match c with
  | [] => None
  | (k, d) :: c => if bytes_eqb k nm then Some d else spec_get c nm
  end.
(** Overwrite in place, or append at the end. *)
Fixpoint spec_set (c : contents) (nm : list Z) (d : Z) : contents :=
  match c with
  | [] => [(nm, d)]
  | (k, d') :: c => if bytes_eqb k nm then (nm, d) :: c else (k, d') :: spec_set c nm d
  end.

(** The client of one object: it sets properties (either way), takes references to
    the value found under a name (keeping them as long as it likes) and gives them
    back in any order. *)
Inductive op : Type :=
| SetProp (nm : list Z) (d : Z)   (* rbusProperty_Init + rbusObject_SetProperty + Release *)
| SetVal (nm : list Z) (d : Z)    (* rbusObject_SetPropertyXxx *)
| HoldProp (nm : list Z)          (* rbusObject_GetProperty + rbusProperty_Retain *)
| HoldVal (nm : list Z)           (* rbusObject_GetValue + rbusValue_Retain *)
| Drop (i : nat).                 (* Release of the i-th reference still held *)

(** What the client remembers of the references it holds: for a value its contents. *)
Inductive memo : Type := MProp | MVal (d : Z).

Definition drop_at {A} (l : list A) (i : nat) : list A := firstn i l ++ skipn (S i) l.

Record spec := mkSpec { sp_contents : contents; sp_held : list memo }.
Definition spec_step (s : spec) (o : op) : spec :=
  match o with
  | SetProp nm d | SetVal nm d => mkSpec (spec_set (sp_contents s) nm d) (sp_held s)
  | HoldProp nm =>
    mkSpec (sp_contents s) (match spec_get (sp_contents s) nm with Some _ => sp_held s ++ [MProp] | None => sp_held s end)
  | HoldVal nm =>
    mkSpec (sp_contents s) (match spec_get (sp_contents s) nm with Some d => sp_held s ++ [MVal d] | None => sp_held s end)
  | Drop i => mkSpec (sp_contents s) (drop_at (sp_held s) i)
  end.
Definition spec_run (ops : list op) : spec := fold_left spec_step ops (mkSpec [] []).

(** The same client on the implementation: heap, object, references held. *)
Record client := mkClient { cl_heap : heap; cl_obj : nat; cl_held : list nat }.

Definition new_client (name : option (list Z)) : client :=
  let (h, o) := object_init [] name in mkClient h o [].

Definition client_step (s : client) (o : op) : outcome unit client :=
  match o with
  | SetProp nm d =>
    let (h, v) := value_init (cl_heap s) d in
    do (h, p) <- property_init h (Some nm) (Some v);
    do h <- release h v;
    do h <- object_set_property h (cl_obj s) p;
    do h <- release h p;
    Ok (mkClient h (cl_obj s) (cl_held s))
  | SetVal nm d =>
    let (h, v) := value_init (cl_heap s) d in
    do h <- object_set_value h (cl_obj s) (Some nm) (Some v);
    do h <- release h v;
    Ok (mkClient h (cl_obj s) (cl_held s))
  | HoldProp nm =>
    do p <- object_get_property (cl_heap s) (cl_obj s) (Some nm);
    match p with
    | None => Ok s
    | Some p => do h <- retain (cl_heap s) p; Ok (mkClient h (cl_obj s) (cl_held s ++ [p]))
    end
  | HoldVal nm =>
    do p <- object_get_value (cl_heap s) (cl_obj s) (Some nm);
    match p with
    | None => Ok s
    | Some p => do h <- retain (cl_heap s) p; Ok (mkClient h (cl_obj s) (cl_held s ++ [p]))
    end
  | Drop i =>
    match nth_error (cl_held s) i with
    | None => Ok s
    | Some p => do h <- release (cl_heap s) p; Ok (mkClient h (cl_obj s) (drop_at (cl_held s) i))
    end
  end.
Fixpoint client_run (s : client) (ops : list op) : outcome unit client :=
  match ops with
  | [] => Ok s
  | o :: ops => do s <- client_step s o; client_run s ops
  end.

(** What rbusObject_GetValue (+ reading the value) gives. *)
Definition read_value (h : heap) (v : nat) : outcome unit Z :=
  do c <- load h v; match c with CVal d _ => Ok d | _ => UB end.
Definition api_get (h : heap) (o : nat) (nm : list Z) : outcome unit (option Z) :=
  do v <- object_get_value h o (Some nm);
  match v with Some v => do d <- read_value h v; Ok (Some d) | None => Ok None end.

(** Walking the list with rbusObject_GetProperties / rbusProperty_GetNext. *)
Fixpoint walk (fuel : nat) (h : heap) (p : option nat) : outcome unit contents :=
  match p with
  | None => Ok []
  | Some p =>
    match fuel with
    | O => UB
    | S fuel =>
      do nm <- property_name h p;
      do v <- property_value h p;
      do nx <- property_next h p;
      match nm, v with
      | Some nm, Some v => do d <- read_value h v; do r <- walk fuel h nx; Ok ((nm, d) :: r)
      | _, _ => UB
      end
    end
  end.
Definition api_contents (h : heap) (o : nat) : outcome unit contents :=
  do ps <- object_properties h o; walk (S (length h)) h ps.

(** Held references still read back what they referred to. *)
Definition held_ok (h : heap) (held : list nat) (memos : list memo) : Prop :=
  Forall2 (fun p m => match m with
                      | MProp => exists nm v nx, load h p = Ok (CProp nm v nx)
                      | MVal d => read_value h p = Ok d
                      end) held memos.

(** Releasing everything. *)
Fixpoint release_each (h : heap) (l : list nat) : outcome unit heap :=
  match l with [] => Ok h | p :: l => do h <- release h p; release_each h l end.
