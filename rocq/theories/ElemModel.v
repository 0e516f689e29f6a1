(** Model of the element tree of a provider: src/rbus/rbus_element.c, the row functions of
    src/rbus/rbus.c and the insertion part of rbus_regDataElements.
    Simplifications: fullName is the path and is not stored; the callbacks of an element are
    the number [hid], and [getter] says whether there is a getHandler; table sync handlers
    (which may call back) are taken to be absent; locks and subscriptions are left out. *)
From Coq Require Import String.
From Verif Require Import Common VecList TextModel Errors.
Local Open Scope string_scope.
Local Open Scope list_scope.
Local Open Scope Z_scope.

Notation name := (list Z).
(** rbus_element.h:60-75: type and cbTable *)
Record info := mkInfo { typ : Z; hid : Z; getter : bool }.
Definition TABLE : Z := 2.              (* include/rbus.h:361 *)
Definition object : info := mkInfo 0 0 false.
(** struct elementNode; the children in sibling order; rbus_element.h:60-75 *)
Inductive tree := Node (inf : info) (alias : option name) (kids : list (name * tree)).
(** include/rbus.h:361, continued *)
Definition inf (t : tree) := let 'Node i _ _ := t in i.
(** include/rbus.h:361, continued *)
Definition alias (t : tree) := let 'Node _ a _ := t in a.
(** include/rbus.h:361, continued *)
Definition kids (t : tree) := let 'Node _ _ k := t in k.
(** rbus_element.c:63-75 getEmptyElementNode *)
Definition empty : tree := Node object None [].
(** rbus_element.c:63-75, continued *)
Definition TEMPLATE : name := bs "{i}".
(** rbus_element.c:63-75, continued *)
Definition is_table (t : tree) : bool := typ (inf t) =? TABLE.
(** rbus_element.c:63-75, continued *)
Definition named (n : name) (kc : name * tree) : bool := bytes_eqb (fst kc) n.

(** strtok_r(name, "."): the non-empty pieces; libc, as used in rbus_element.c:255-342 *)
Fixpoint strtok (s cur : list Z) : list name :=
  match s with
  | [] => match cur with [] => [] | _ => [cur] end
  | c :: s => if c =? 46 then match cur with [] => strtok s [] | _ => cur :: strtok s [] end
              else strtok s (cur ++ [c])
  end.
(** libc strtok_r over a whole name *)
Definition tokens (s : list Z) : list name := strtok s [].
(** rbus_element.c:265-279: the row placeholder at the end of a table name *)
Definition strip (ty : Z) (s : list Z) : list Z :=
  let n := length s in
  if (ty =? TABLE) && (Nat.ltb 4 n) then
    if bytes_eqb (skipn (n - 5) s) (bs ".{i}.") then firstn (n - 5) s
    else if bytes_eqb (skipn (n - 4) s) (bs ".{i}") then firstn (n - 4) s
    else s
  else s.

(** rbus_element.c:283-342 finds or creates the node; 345-371 sets it: a table gets a new
    list of children with only the row template *)
Definition set_node (i : info) (t : tree) : tree :=
  Node i (alias t) (if typ i =? TABLE then [(TEMPLATE, empty)] else kids t).
(** rbus_element.c:283-342, continued *)
Fixpoint insert (p : list name) (i : info) (t : tree) : tree :=
  match p with
  | [] => set_node i t
  | n :: p =>
    Node (inf t) (alias t)
      (if vhas (named n) (kids t) then vupdate (named n) (fun kc => (fst kc, insert p i (snd kc))) (kids t)
       else kids t ++ [(n, insert p i empty)])
  end.
(** rbus_element.c:919-955 duplicateNode: the copy has no aliases *)
Fixpoint dup (t : tree) : tree :=
  match t with Node i _ k => Node i None (map (fun kc => (fst kc, dup (snd kc))) k) end.
(** rbus_element.c:192-220 createElementChain, below the node [t] *)
Fixpoint chain_of (t : tree) (p : list name) : list (name * tree) :=
  match p with
  | [] => []
  | n :: p => match vfind (named n) (kids t) with Some (m, c) => (m, c) :: chain_of c p | None => [] end
  end.
(** rbus_element.c:1091-1152 replicateAcrossTableRowInstancesInternal *)
Fixpoint rep (chain : list (name * tree)) (t : tree) : tree :=
  match chain with
  | [] => t
  | (n, sub) :: rest =>
    Node (inf t) (alias t)
      (if is_table t then map (fun kc => (fst kc, rep rest (snd kc))) (kids t)
       else if vhas (named n) (kids t) then vupdate (named n) (fun kc => (fst kc, rep rest (snd kc))) (kids t)
       else kids t ++ [(n, dup sub)])
  end.
(** rbus_element.c:1154-1187 replicateAcrossTableRowInstances: at the first table on the path *)
Definition is_row (kc : name * tree) : bool := (typ (inf (snd kc)) =? 0) && negb (bytes_eqb (fst kc) TEMPLATE).
(** rbus_element.c:1154-1187, continued *)
Fixpoint replicate (p : list name) (t : tree) : tree :=
  match p with
  | [] => t
  | n :: q =>
    Node (inf t) (alias t)
      (if is_table t then
         let chain := match vfind (named n) (kids t) with Some (_, c) => chain_of c q | None => [] end in
         map (fun kc => if is_row kc then (fst kc, rep chain (snd kc)) else kc) (kids t)
       else vupdate (named n) (fun kc => (fst kc, replicate q (snd kc))) (kids t))
  end.
(** rbus_element.c:224-386 insertElement *)
Definition insert_element (s : list Z) (i : info) (root : tree) : tree :=
  let p := tokens (strip (typ i) s) in replicate p (insert p i root).

(** rbus_element.c:388-478 retrieveElement, as the position (child numbers) and the node *)
Fixpoint find_kid (n : name) (k : list (name * tree)) (j : nat) : option (nat * tree) :=
  match k with
  | [] => None
  | (m, c) :: k => if bytes_eqb m n then Some (j, c) else find_kid n k (S j)
  end.
(** rbus_element.c:388-478, continued *)
Fixpoint retrieve_loop (t : tree) (first : name) (rest : list name) : option tree :=
  match find_kid first (kids t) 0 with
  | None => None
  | Some (_, c) =>
    match rest with
    | [] => Some c
    | tok :: rest =>
      match kids c with
      | [] => None
      | _ => retrieve_loop c (if is_table c then TEMPLATE else tok) rest
      end
    end
  end.
(** rbus_element.c:388-478, continued *)
Definition retrieve (root : tree) (s : list Z) : option tree :=
  match tokens s with [] => None | tok :: rest => retrieve_loop root tok rest end.

(** rbus_element.c:485-604 retrieveInstanceElementEx.  The alias is compared from the second
    child on (540-556). *)
Definition alias_is (tok : name) (c : tree) : bool :=
  match alias c with
  | Some a => Nat.ltb 2 (length tok) && bytes_eqb tok (bs "[" ++ a ++ bs "]")
  | None => false
  end.
(** rbus_element.c:485-604, continued *)
Fixpoint find_inst (rows : bool) (first : bool) (tok : name) (k : list (name * tree)) (j : nat) : option (nat * tree) :=
  match k with
  | [] => None
  | (m, c) :: k =>
    if bytes_eqb m tok || (negb first && rows && alias_is tok c) then Some (j, c)
    else find_inst rows false tok k (S j)
  end.
(** rbus_element.c:485-604, continued *)
Fixpoint inst_loop (t : tree) (wild : bool) (first : name) (rest : list name) : option (list nat * tree) :=
  match find_inst (is_table t) true first (kids t) 0 with
  | None => None
  | Some (j, c) =>
    match rest with
    | [] => Some ([j], c)
    | tok :: rest =>
      match kids c with
      | [] => None
      | _ =>
        let wild := if is_table c then wild || bytes_eqb tok (bs "*") else wild in
        let tok := if is_table c && (wild || getter (inf c)) then TEMPLATE else tok in
        match inst_loop c wild tok rest with
        | Some (pos, x) => Some (j :: pos, x)
        | None => None
        end
      end
    end
  end.
(** rbus_element.c:485-604, continued *)
Definition retrieve_instance (root : tree) (s : list Z) : option (list nat * tree) :=
  match tokens s with [] => None | tok :: rest => inst_loop root false tok rest end.

(** assignment at a position; helper, no code of its own *)
Fixpoint at_pos (pos : list nat) (f : tree -> tree) (t : tree) : tree :=
  match pos with
  | [] => f t
  | j :: pos =>
    match nth_error (kids t) j with
    | Some (m, c) => Node (inf t) (alias t) (upd (kids t) j (m, at_pos pos f c))
    | None => t
    end
  end.
(** rbus_element.c:114-146 freeElementNode, unlinking the node (1053-1089 deleteTableRow) *)
Fixpoint drop_nth {A} (l : list A) (j : nat) : list A :=
  match l, j with [], _ => [] | _ :: l, O => l | x :: l, S j => x :: drop_nth l j end.
(** rbus_element.c:114-146, continued *)
Fixpoint delete (pos : list nat) (t : tree) : tree :=
  match pos with
  | [] => t
  | [j] => Node (inf t) (alias t) (drop_nth (kids t) j)
  | j :: pos =>
    match nth_error (kids t) j with
    | Some (m, c) => Node (inf t) (alias t) (upd (kids t) j (m, delete pos c))
    | None => t
    end
  end.
(** rbus_element.c:987-1051 instantiateTableRow; without a template it asserts *)
Definition set_alias (a : option name) (t : tree) : tree := Node (inf t) a (kids t).
(** rbus_element.c:987-1051, continued *)
Definition add_row (pos : list nat) (table : tree) (num : Z) (a : option name) (t : tree) : outcome unit tree :=
  match vfind (named TEMPLATE) (kids table) with
  | None => UB
  | Some (_, tmpl) =>
    Ok (at_pos pos (fun tb => Node (inf tb) (alias tb) (kids tb ++ [(print_dec num, set_alias a (dup tmpl))])) t)
  end.
(** printf %d of a uint32_t *)
Definition as_int (n : Z) : Z := (n + 2 ^ 31) mod 2 ^ 32 - 2 ^ 31.

(** The operations a history consists of, one for each function modelled above; no code of its own. *)
Inductive op :=
| Register (s : list Z) (i : info)                        (* rbus.c:3275-3374, after rbus_addElement *)
| RegisterRow (table : list Z) (num : Z) (a : option name)     (* rbus.c:4598-4642 *)
| UnregisterRow (row : list Z)                            (* rbus.c:4644-4666 *)
| AddRequest (table : list Z) (a : option name) (answer : option Z)  (* rbus.c:2336-2392; the handler's answer *)
| RemoveRequest (row : list Z) (accepted : bool).         (* rbus.c:2394-2449 *)

(** One operation of a history: calls the functions modelled above; no code of its own. *)
Definition step (t : tree) (o : op) : outcome unit (tree * Z) :=
  match o with
  | Register s i => match s with [] => Ok (t, E_INVALID_INPUT) | _ => Ok (insert_element s i t, E_SUCCESS) end
  | RegisterRow tb n a =>
    let row := tb ++ print_dec (as_int n) in
    if Nat.leb 256 (length row) then Ok (t, E_INVALID_INPUT) else
    match retrieve_instance t row, retrieve_instance t tb with
    | Some _, _ => Ok (t, E_INVALID_INPUT)
    | None, None => Ok (t, E_INVALID_INPUT)
    | None, Some (pos, x) => do t' <- add_row pos x n a t ; Ok (t', E_SUCCESS)
    end
  | UnregisterRow row =>
    match retrieve_instance t row with
    | Some (pos, _) => Ok (delete pos t, E_SUCCESS)
    | None => Ok (t, E_INVALID_INPUT)
    end
  | AddRequest tb a answer =>
    match retrieve t tb, retrieve_instance t tb with
    | Some _, Some (pos, x) =>
      match answer with
      | Some n => do t' <- add_row pos x n a t ; Ok (t', E_SUCCESS)
      | None => Ok (t, E_BUS_ERROR)
      end
    | _, _ => Ok (t, E_ELEMENT_DOES_NOT_EXIST)
    end
  | RemoveRequest row ok =>
    match retrieve t row, retrieve_instance t row with
    | Some _, Some (pos, _) => if ok then Ok (delete pos t, E_SUCCESS) else Ok (t, E_BUS_ERROR)
    | _, _ => Ok (t, E_ELEMENT_DOES_NOT_EXIST)
    end
  end.
(** A history: one operation after the other; no code of its own. *)
Fixpoint run (t : tree) (l : list op) : outcome unit tree :=
  match l with [] => Ok t | o :: l => do (t', _) <- step t o ; run t' l end.
