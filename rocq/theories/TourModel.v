(** Model of the data model client's get of an object, of a list and of everything below
    (utils/dataProvider/dmClient.cpp, dmProviderDatabase.cpp).
    Simplifications: names, queries and the database are those of DmModel; a query whose object is
    known is answered with any parameters, which can depend on what went before (what DmModel's
    providers and losses make of it is a case); status messages are left out. *)
From Coq Require Import String.
From Verif Require Import Common TextModel DmModel.
Local Open Scope string_scope.
Local Open Scope list_scope.
Local Open Scope Z_scope.

(** libc atoi (stdlib.h) of a C string: strtol, converted to int *)
Definition atoi (s : name) : Z := match strto 10 s with Some (neg, m, _) => (fst (strtol_value neg m) + 2 ^ 31) mod 2 ^ 32 - 2 ^ 31 | None => 0 end.

(** what a client does: a query for a value of its own, a query whose results are handed to the
    notifier (onResult), an error handed to the notifier (onError); dmClient.cpp:179-222 *)
Inductive note := Asked (s : name) | Shown (s : name) (rs : list shown) | Failed.
(** what is answered to a query, after what went before; dmProviderDatabase.cpp:78-195 *)
Notation answers := (list note -> name -> list shown).

(** dmProviderDatabase.cpp:372-398 buildProviderTree: getChildren() of an object; [k]: how many
    databases the process has made (model_db is one for all, and each adds the children again) *)
Definition children (db : database) (k : nat) (i : info) : list info :=
  concat (repeat (filter (fun j => bytes_eqb (trim_property (i_object j)) (i_object i)) db) k).

(** dmClient.cpp:30-41 getResultValue, 207-211: the value of the parameter of that name, the last if
    there are several, or 0 *)
Definition result_value (rs : list shown) (n : name) : name :=
  fold_left (fun v r => if bytes_eqb (trim_property_name (fst (fst r))) n then snd (fst r) else v) rs (bs "0").
(** dmClient.cpp:179-222 runOneQuery for a get, with a notifier *)
Definition one_shown (db : database) (W : answers) (log : list note) (s : name) : list note * bool :=
  match resolve_property db s with
  | Some _ => (log ++ [Shown s (W log s)], true)
  | None => (log ++ [Failed], false)
  end.
(** dmClient.cpp:179-222 runOneQuery for a get, for a value; [None]: false *)
Definition one_value (db : database) (W : answers) (log : list note) (s : name) : list note * option name :=
  match resolve_property db s with
  | Some _ => (log ++ [Asked s], Some (result_value (W log s) (trim_property_name s)))
  | None => (log, None)
  end.

(** dmClient.cpp:129-136, 149-156: the children, each with its name after [at_]; the result is that
    of the last *)
Fixpoint each_child (get : list note -> name -> outcome unit (list note * bool)) (at_ : name) (cs : list info) (log : list note) (ok : bool) : outcome unit (list note * bool) :=
  match cs with
  | [] => Ok (log, ok)
  | j :: cs => do r <- get log (at_ ++ trim_property_name (i_object j) ++ [46]) ; each_child get at_ cs (fst r) (snd r)
  end.
(** dmClient.cpp:116-138: the items of a list *)
Fixpoint each_item (db : database) (k : nat) (W : answers) (rec : bool) (get : list note -> name -> outcome unit (list note * bool)) (lname : name) (ids : list name)
  (log : list note) (ok : bool) : outcome unit (list note * bool) :=
  match ids with
  | [] => Ok (log, ok)
  | x :: ids =>
    let s := lname ++ [46] ++ x ++ [46] in
    let (log, b) := one_shown db W log s in
    let ok := if b then ok else false in
    do r <- (if rec then
               match resolve_property db s with
               | None => UB (* objectInfo->objectName() of a null pointer *)
               | Some (i, _) => each_child get s (children db k i) log ok
               end
             else Ok (log, ok)) ;
    each_item db k W rec get lname ids (fst r) (snd r)
  end.
(** dmClient.cpp:58-161 runGet and 168-175 runQuery; [Err tt]: the calls are nested deeper than [fuel] *)
Fixpoint run_get (fuel : nat) (db : database) (k : nat) (W : answers) (rec : bool) (log : list note) (s : name) : outcome unit (list note * bool) :=
  match fuel with
  | O => Err tt
  | S fuel =>
    match s with
    | [] => UB (* isWildcard of the empty string *)
    | _ =>
      let whole :=
        let (log, ok) := one_shown db W log s in
        if rec then
          match resolve_property db s with
          | None => UB (* objectInfo->objectName() of a null pointer *)
          | Some (i, _) => each_child (run_get fuel db k W rec) (trim_property s ++ [46]) (children db k i) log ok
          end
        else Ok (log, ok) in
      if is_wildcard s then
        match resolve_property db s with
        | None => Ok (log, false)
        | Some (i, item) =>
          if negb item && i_list i then
            let lname := trim_wildcard s in
            match one_value db W log (lname ++ bs "NumberOfEntries") with
            | (log, None) => Ok (log ++ [Failed], false)
            | (log, Some n) =>
              match one_value db W log (lname ++ bs "IdsOfEntries") with
              | (log, None) => Ok (log ++ [Failed], false)
              | (log, Some v) =>
                let ids := split 44 v in
                if Z.of_nat (length ids) =? atoi n then each_item db k W rec (run_get fuel db k W rec) lname ids log true
                else Ok (log ++ [Failed], false)
              end
            end
          else whole
        end
      else whole
    end
  end.
(** a name deeper than any chain of children; no code of its own *)
Definition deepest (db : database) : nat := S (S (fold_right Nat.max 0%nat (map (fun i => length (i_object i)) db))).
(** dmClient.cpp:168-175 runQuery for a get *)
Definition get_all (db : database) (k : nat) (W : answers) (rec : bool) (s : name) : outcome unit (list note * bool) := run_get (deepest db) db k W rec [] s.
