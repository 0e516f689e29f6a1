(** Specification of core events (C55): who is listening to what, as functions. *)
From Verif Require Import Common CoreModel.
Local Open Scope Z_scope.

Record world := mkWorld {
  w_obj : name -> bool;                    (* registered objects *)
  w_over : name -> bool;                   (* with a subscribe handler of their own *)
  w_ev : name -> name -> option bool;      (* registered events, and whether they have a callback *)
  w_in : name -> name -> name -> bool }.   (* who listens *)

Definition world0 : world := mkWorld (fun _ => false) (fun _ => false) (fun _ _ => None) (fun _ _ _ => false).
Definition legal_name (n : name) : bool := negb ((256 <=? strlen n) || (strlen n =? 0)).

(** The effect of a call that returned [code]. *)
Definition spec_step (w : world) (o : op) (code : Z) : world :=
  match o with
  | RegObj n _ =>
    if code =? 0
    then mkWorld (fun x => bytes_eqb x n || w_obj w x) (fun x => negb (bytes_eqb x n) && w_over w x)
                 (fun x => if bytes_eqb x n then (fun _ => None) else w_ev w x)
                 (fun x => if bytes_eqb x n then (fun _ _ => false) else w_in w x)
    else w
  | UnregObj n _ =>
    if code =? 0
    then mkWorld (fun x => negb (bytes_eqb x n) && w_obj w x) (fun x => negb (bytes_eqb x n) && w_over w x)
                 (fun x => if bytes_eqb x n then (fun _ => None) else w_ev w x)
                 (fun x => if bytes_eqb x n then (fun _ _ => false) else w_in w x)
    else w
  | RegMethod _ _ | UnregMethod _ _ | Publish _ _ => w
  | RegEvent obj ev cb =>
    if w_obj w obj && (strlen ev <? 256) && negb (is_some (w_ev w obj ev))
    then mkWorld (w_obj w) (w_over w)
                 (fun x y => if bytes_eqb x obj && bytes_eqb y ev then Some cb else w_ev w x y)
                 (w_in w)
    else w
  | UnregEvent obj ev =>
    mkWorld (w_obj w) (w_over w)
            (fun x y => if bytes_eqb x obj && bytes_eqb y ev then None else w_ev w x y)
            (fun x y l => negb (bytes_eqb x obj && bytes_eqb y ev) && w_in w x y l)
  | RegOverride obj => mkWorld (w_obj w) (fun x => if bytes_eqb x obj then w_obj w obj else w_over w x) (w_ev w) (w_in w)
  | Request obj ev l added ans =>
    if (strlen l <? 256) && (strlen ev <? 256) && negb (w_over w obj && negb (ans =? 14)) && is_some (w_ev w obj ev)
    then mkWorld (w_obj w) (w_over w) (w_ev w)
           (fun x y z => if bytes_eqb x obj && bytes_eqb y ev && bytes_eqb z l then added else w_in w x y z)
    else w
  end.

(** The calls of the provider's event callbacks that an operation must make. *)
Definition callbacks (acts : list action) : list action :=
  filter (fun a => match a with SubCallback _ _ _ _ => true | _ => false end) acts.
Definition sends (acts : list action) : list action :=
  filter (fun a => match a with SendEvent _ _ _ => true | _ => false end) acts.

(** The callback is called exactly when the listener's membership changes. *)
Definition expected_callbacks (w w' : world) (o : op) : list action :=
  match o with
  | Request obj ev l added _ =>
    match w_ev w obj ev with
    | Some true => if Bool.eqb (w_in w obj ev l) (w_in w' obj ev l) then [] else [SubCallback obj ev l (w_in w' obj ev l)]
    | _ => []
    end
  | _ => []
  end.

Definition obs_ok (w : world) (o : op) (code : Z) (acts : list action) : Prop :=
  let w' := spec_step w o code in
  callbacks acts = expected_callbacks w w' o /\
  match o with
  | Publish obj ev =>
    (code = 0 <-> w_ev w obj ev <> None) /\
    NoDup acts /\
    (forall a, In a acts <-> exists l, a = SendEvent obj ev l /\ w_in w obj ev l = true)
  | Request obj ev l added _ => sends acts = [] /\ (code = 0 -> w_over w obj = true \/ w_ev w obj ev <> None)
  | _ => acts = []
  end.

(** All the operations of a history, each checked against the world before it. *)
Fixpoint history_ok (s : server) (w : world) (ops : list op) : Prop :=
  match ops with
  | [] => True
  | o :: ops =>
    let '(code, s', acts) := step s o in
    obs_ok w o code acts /\ history_ok s' (spec_step w o code) ops
  end.

(** Everything a history makes the provider see. *)
Fixpoint run (s : server) (ops : list op) : server * list action :=
  match ops with
  | [] => (s, [])
  | o :: ops => let '(_, s', acts) := step s o in let '(s'', rest) := run s' ops in (s'', acts ++ rest)
  end.

Definition is_cb (obj ev l : name) (added : bool) (a : action) : bool :=
  match a with
  | SubCallback o e x d => bytes_eqb o obj && bytes_eqb e ev && bytes_eqb x l && Bool.eqb d added
  | _ => false
  end.
Definition times (obj ev l : name) (added : bool) (acts : list action) : Z :=
  Z.of_nat (length (filter (is_cb obj ev l added) acts)).
(** operations that take the event away *)
Definition destroys (obj ev : name) (o : op) : bool :=
  match o with
  | UnregObj n _ => bytes_eqb n obj
  | UnregEvent o e => bytes_eqb o obj && bytes_eqb e ev
  | _ => false
  end.

(** The world after a history. *)
Fixpoint world_after (s : server) (w : world) (ops : list op) : world :=
  match ops with
  | [] => w
  | o :: ops => let '(code, s', _) := step s o in world_after s' (spec_step w o code) ops
  end.
(** does a publish of the event now reach this listener? *)
Definition reaches (s : server) (obj ev l : name) : Prop :=
  let '(_, _, acts) := publish s obj ev in In (SendEvent obj ev l) acts.
Definition flag (P : Prop) (z : Z) : Prop := (P /\ z = 1) \/ (~ P /\ z = 0).

(** Calls a provider makes about methods of its own. *)
Definition is_regmethod (o : op) : bool := match o with RegMethod _ _ => true | _ => false end.
Definition reserved_name (m : name) : bool := bytes_eqb m METHOD_SUBSCRIBE || bytes_eqb m METHOD_UNSUBSCRIBE.
Definition count_regmethod (ops : list op) : Z := Z.of_nat (length (filter is_regmethod ops)).
Definition touches_reserved (o : op) : bool :=
  match o with RegMethod _ m | UnregMethod _ m => reserved_name m | _ => false end.
