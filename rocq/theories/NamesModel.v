(** Model of the queries for the names of elements and rows: the provider's handler
    src/rbus/rbus.c:2118-2335 (_get_parameter_names_recurse, _get_parameter_names_handler) over
    the element tree of ElemModel, and the callers rbusTable_getRowNames (4666-4765) and
    rbusElementInfo_get (4788-4895), with the messages between them.
    Simplifications: the names are written as one list (the walk that counts and the walk that
    writes are the same function called twice); table sync handlers are absent; allocation does
    not fail; what a consumer receives is the content the provider wrote (see LinkModel for the
    transport). *)
From Coq Require Import String.
From Verif Require Import Common TextModel Errors ElemModel MsgModel WireModel WalkModel.
From Verif Require TransModel.
Local Open Scope string_scope.
Local Open Scope list_scope.
Local Open Scope Z_scope.

(** include/rbus.h:684-692 *)
Definition ACCESS_GET : Z := 1.
(** include/rbus.h:687, continued *)
Definition ACCESS_SET : Z := 2.
(** the entry of an element: name, type, access; include/rbus.h:697-706 without the component *)
Record entry := mkEntry { e_name : name; e_type : Z; e_access : Z }.
(** rbus.c:2133-2151: the access bits; [other] are those of the handlers other than the get
    handler, for the number of the callbacks; a row shows read and write access *)
Definition access (other : Z -> Z) (in_table : bool) (i : info) : Z :=
  Z.lor (Z.lor (if getter i then ACCESS_GET else 0) (other (hid i)))
        (if (typ i =? 0) && in_table then Z.lor ACCESS_GET ACCESS_SET else 0).
(** rbus.c:2153-2163: the name of an object or a table ends with a dot (snprintf into
    RBUS_MAX_NAME_LENGTH bytes) *)
Definition shown_name (i : info) (fn : name) : name :=
  if (typ i =? 0) || (typ i =? TABLE) then firstn 255 (fn ++ bs ".") else fn.
(** rbus.c:2118-2190 _get_parameter_names_recurse *)
Fixpoint list_names (other : Z -> Z) (depth : Z) (in_table : bool) (fn : name) (cur : Z) (t : tree) {struct t} : list entry :=
  match t with
  | Node i _ k =>
    (if (0 <=? depth) || (Z.abs depth =? cur) then [mkEntry (shown_name i fn) (typ i) (access other in_table i)] else []) ++
    (if cur <? Z.abs depth then
       (fix children (k : list (name * tree)) : list entry :=
          match k with
          | [] => []
          | (n, c) :: k =>
            (if negb (is_table c && getter (inf c)) && negb ((typ i =? TABLE) && bytes_eqb n TEMPLATE)
             then list_names other depth (typ i =? TABLE) (fn ++ bs "." ++ n) (cur + 1) c
             else []) ++ children k
          end) k
     else [])
  end.
(** whether the parent is a table; elementNode.parent, rbus_element.h:67 *)
Fixpoint parent_table (t : tree) (pos : list nat) : bool :=
  match pos with
  | [] => false
  | [_] => is_table t
  | j :: pos => match nth_error (kids t) j with Some (_, c) => parent_table c pos | None => false end
  end.

(** libc atoi: (int) of strtol with base 10 *)
Definition atoi (s : list Z) : Z :=
  match strto 10 s with Some (neg, m, _) => as_int (fst (strtol_value neg m)) | None => 0 end.
(** rbus.c:2232-2261: number and alias of the rows, in sibling order *)
Fixpoint rows_of (k : list (name * tree)) : list (Z * name) :=
  match k with
  | [] => []
  | (n, c) :: k =>
    if bytes_eqb n TEMPLATE then rows_of k
    else (atoi n, match alias c with Some a => a | None => [] end) :: rows_of k
  end.
(** rbus.c:2250-2260, continued *)
Definition put_rows (m : msg) (l : list (Z * name)) : msg :=
  fold_left (fun m r => set_string (set_int32 m (fst r)) (Some (snd r))) l m.
(** rbus.c:2156-2165: the three fields of an entry *)
Definition put_entries (m : msg) (l : list entry) : msg :=
  fold_left (fun m e => set_int32 (set_int32 (set_string m (Some (e_name e))) (e_type e)) (e_access e)) l m.
(** rbus.c:2192-2335 _get_parameter_names_handler; a request without the third field is one for
    names; abs of the least int is undefined *)
Definition names_handler (other : Z -> Z) (t : tree) (req : msg) : outcome unit msg :=
  do (s, m) <- need (get_string req) ;
  do (depth, m) <- need (get_int32 m) ;
  do only_rows <- match get_int32 m with Ok (n, _) => Ok n | Err _ => Ok 0 | UB => UB end ;
  match retrieve_instance t s with
  | None => Ok (set_int32 msg_init E_ELEMENT_DOES_NOT_EXIST)
  | Some (pos, el) =>
    if negb (only_rows =? 0) then
      if negb (is_table el) then Ok (set_int32 msg_init E_INVALID_INPUT) else
      let l := rows_of (kids el) in
      Ok (put_rows (set_int32 (set_int32 msg_init E_SUCCESS) (Z.of_nat (length l))) l)
    else if is_table el && getter (inf el) then Ok msg_init
    else if depth =? - 2 ^ 31 then UB
    else
      let l := list_names other depth (parent_table t pos) (full (path_of t pos)) 0 el in
      Ok (put_entries (set_int32 (set_int32 msg_init E_SUCCESS) (Z.of_nat (length l))) l)
  end.

(** struct _rbusRowName, include/rbus.h:674-680 *)
Record row := mkRow { r_num : Z; r_alias : option name; r_name : name }.
(** rbus.c:4724-4743: one row after the other *)
Fixpoint take_rows (table : name) (count : nat) (m : msg) : outcome unit (list row) :=
  match count with
  | O => Ok []
  | S count =>
    do (n, m) <- need (get_int32 m) ;
    do (a, m) <- need (get_string m) ;
    do l <- take_rows table count m ;
    Ok (mkRow n (match a with [] => None | _ => Some a end) (firstn 255 (table ++ print_dec n ++ bs ".")) :: l)
  end.
(** rbus.c:4694-4755: the answer; a code above 100 is one of the older interface *)
Definition rows_answer (table : name) (m : msg) : outcome unit (Z * list row) :=
  do (ret, m) <- match get_int32 m with Ok x => Ok x | Err _ => Ok (-1, m) | UB => UB end ;
  if TransModel.good ret then
    do (count, m) <- need (get_int32 m) ;
    do l <- take_rows table (Z.to_nat count) m ; Ok (E_SUCCESS, l)
  else Ok (TransModel.code_of ret, []).
(** rbus.c:4666-4765 rbusTable_getRowNames, with the provider's tree *)
Definition get_row_names (t : tree) (table : name) : outcome unit (Z * list row) :=
  let req := set_int32 (set_int32 (set_string msg_init (Some table)) (-1)) 1 in
  do resp <- names_handler (fun _ => 0) t (msg_from_bytes (m_data req)) ;
  rows_answer table (msg_from_bytes (m_data resp)).

(** include/rbus.h:99 *)
Definition MAX_DEPTH : Z := 16.
(** what becomes of the request to a component: rbuscore.c returns an error, or its handler
    answers; no code of its own *)
Inductive destination := Fails (err : Z) | Answers (other : Z -> Z) (t : tree).
(** rbus.c:4872-4879: the entries, one after the other *)
Fixpoint take_entries (count : nat) (m : msg) : outcome unit (list entry) :=
  match count with
  | O => Ok []
  | S count =>
    do (s, m) <- need (get_string m) ;
    do (ty, m) <- need (get_int32 m) ;
    do (ac, m) <- need (get_int32 m) ;
    do l <- take_entries count m ; Ok (mkEntry s ty ac :: l)
  end.
(** rbus.c:4845-4886: the answer of one component; a code that is not there is read as success and
    a count that is not there as none *)
Definition entries_answer (m : msg) : outcome unit (Z * list entry) :=
  do (ret, m) <- match get_int32 m with Ok x => Ok x | Err _ => Ok (0, m) | UB => UB end ;
  let code := if ret <? TransModel.LEGACY_SUCCESS then ret else if ret =? TransModel.LEGACY_SUCCESS then E_SUCCESS else TransModel.legacy ret in
  if code =? E_SUCCESS then
    do (count, m) <- match get_int32 m with Ok x => Ok x | Err _ => Ok (0, m) | UB => UB end ;
    do l <- take_entries (Z.to_nat count) m ; Ok (code, l)
  else Ok (code, []).
(** rbusCoreError_to_rbusError, rbus.c:135-193, of rbusCoreError_t, rbuscore_types.h:25-46 *)
Definition bus_error (err : Z) : Z :=
  if err =? 0 then E_SUCCESS else if err =? 2 then E_INVALID_INPUT else if err =? 3 then E_OUT_OF_RESOURCES
  else if err =? 4 then E_SESSION_ALREADY_EXIST else if (err =? 5) || (err =? 6) then E_DESTINATION_RESPONSE_FAILURE
  else if err =? 7 then E_TIMEOUT else if err =? 8 then E_INVALID_RESPONSE_FROM_DESTINATION
  else if err =? 9 then E_INVALID_METHOD else if err =? 10 then E_INVALID_EVENT else if err =? 11 then E_OUT_OF_RESOURCES
  else if err =? 12 then E_DESTINATION_NOT_REACHABLE else if err =? 13 then E_ASYNC_RESPONSE
  else if err =? 14 then E_INVALID_OPERATION else if err =? 17 then E_DESTINATION_NOT_FOUND else E_BUS_ERROR.
(** rbus.c:4832-4890: all components in turn; the code is that of the last one *)
Fixpoint ask_all (s : name) (depth : Z) (code : Z) (l : list (name * destination)) : outcome unit (Z * list (name * entry)) :=
  match l with
  | [] => Ok (code, [])
  | (comp, d) :: l =>
    do (code, es) <-
      match d with
      | Fails err => Ok (bus_error err, [])
      | Answers other t =>
        let req := set_int32 (set_int32 (set_string msg_init (Some s)) depth) 0 in
        do resp <- names_handler other t (msg_from_bytes (m_data req)) ;
        entries_answer (msg_from_bytes (m_data resp))
      end ;
    do (code', rest) <- ask_all s depth code l ;
    Ok (code', map (fun e => (comp, e)) es ++ rest)
  end.
(** rbus.c:4788-4895 rbusElementInfo_get; [found] is what discovery gives, [None] when it
    fails; abs of the least int is undefined *)
Definition element_info (found : option (list (name * destination))) (s : name) (depth : Z) : outcome unit (Z * list (name * entry)) :=
  if depth =? - 2 ^ 31 then UB else
  if MAX_DEPTH <? Z.abs depth then Ok (E_INVALID_INPUT, []) else
  match found with
  | None => Ok (E_ELEMENT_DOES_NOT_EXIST, [])
  | Some l => ask_all s depth E_SUCCESS l
  end.
