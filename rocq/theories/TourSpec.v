(** What a get of an object, of a list and of everything below is to be, without the code. *)
From Coq Require Import String Relations.
From Verif Require Import Common TextModel DmModel DmSpec TourModel.
Local Open Scope string_scope.
Local Open Scope list_scope.
Local Open Scope Z_scope.

(** the names that results were handed to the notifier for *)
Definition shows (log : list note) : list name := flat_map (fun e => match e with Shown s _ => [s] | _ => [] end) log.
(** what was shown is what was answered: the log [new] after [log] *)
Definition honest (W : answers) (log new : list note) : Prop := forall a s rs b, new = a ++ Shown s rs :: b -> rs = W (log ++ a) s.
(** what asks for all of an instance *)
Definition all_of (l : list step) : name := instance_of l ++ [46].
(** the property [n] of the instance [o] is answered with [v]: the answer can hold other properties,
    and earlier values of this one *)
Definition says (W : answers) (o n v : name) : Prop := forall log, exists a o' c b, W log (under o n) = a ++ (under o' n, v, c) :: b /\
  forall r, In r b -> fst (fst r) <> n /\ forall p, fst (fst r) <> under p n.

(** an instance has properties: it is not a list, or an item of one *)
Definition holds (db : database) (l : list step) (i : info) : Prop := declared db (object_of l) i /\ (i_list i = false \/ is_item l = true).
(** from a list to an item, from an object to one right below; [ids]: the items of the lists *)
Inductive one (db : database) (ids : list step -> list name) : list step -> list step -> Prop :=
| one_item pre t i k : declared db (object_of (pre ++ [(t, None)])) i -> i_list i = true -> In k (ids (pre ++ [(t, None)])) -> one db ids (pre ++ [(t, None)]) (pre ++ [(t, Some k)])
| one_below l i t : holds db l i -> without 46 t -> known db (object_of (l ++ [(t, None)])) -> one db ids l (l ++ [(t, None)]).
(** an instance that is above another, or the same *)
Definition reaches (db : database) (ids : list step -> list name) : list step -> list step -> Prop := clos_refl_trans (list step) (one db ids).
(** what is to be got *)
Definition gotten (db : database) (ids : list step -> list name) (l m : list step) : Prop := reaches db ids l m /\ exists i, holds db m i.

(** a list's items can be listed: there is one at least, each once, and no comma or dot is in an id *)
Definition listed (x : list name) : Prop := x <> [] /\ NoDup x /\ Forall (without 44) x /\ Forall (without 46) x /\ Z.of_nat (length x) < 2 ^ 31.
(** the list [pre ++ [(t, None)]] says how many items it has, and which *)
Definition tells (W : answers) (pre : list step) (t : name) (x : list name) : Prop :=
  says W (instance_of pre) (t ++ bs "NumberOfEntries") (print_dec (Z.of_nat (length x))) /\
  says W (instance_of pre) (t ++ bs "IdsOfEntries") (join 44 x).
(** so do all lists at [l] and below it *)
Definition lists_tell (db : database) (W : answers) (ids : list step -> list name) (l : list step) : Prop := forall pre t i,
  reaches db ids l (pre ++ [(t, None)]) -> declared db (object_of (pre ++ [(t, None)])) i -> i_list i = true ->
  pre <> [] /\ (exists j, leads db pre j) /\ listed (ids (pre ++ [(t, None)])) /\ tells W pre t (ids (pre ++ [(t, None)])).
(** every object is below a root: its name has a dot *)
Definition rooted (db : database) : Prop := forall i, In i db -> In 46 (i_object i).
