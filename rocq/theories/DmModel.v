(** Model of the data model library: queries by name, the providers that answer them and what is
    reported (utils/dataProvider: dmUtility.h, dmProviderDatabase.cpp, dmProviderHost.cpp,
    dmProvider.cpp, dmProviderInfo.cpp, dmQueryResult.cpp, dmValue.cpp, dmClient.cpp).
    Simplifications: the database is what has been loaded from the model directory (the reading of
    its files is not modelled) and the client and the hosts have the same; requests and responses
    are carried as they are (their JSON is the subject of JsonModel and their way that of
    RouterModel) or not at all; numbers in floating point and status messages are left out; a
    provider is asked through dmProvider's own doGet and doSet for lists of parameters. *)
From Coq Require Import String.
From Verif Require Import Common TextModel.
Local Open Scope string_scope.
Local Open Scope list_scope.
Local Open Scope Z_scope.
Notation name := (list Z).

(** ** names: dmUtility.h *)
(** std::string find and substr: what is before the first [c], and what is after it; libc *)
Fixpoint cut (c : Z) (s : name) : name * option name :=
  match s with
  | [] => ([], None)
  | x :: t => if x =? c then ([], Some t) else let (a, b) := cut c t in (x :: a, b)
  end.
(** std::string rfind and substr: what is before and after the last [c]; libc *)
Fixpoint rcut (c : Z) (s : name) : option (name * name) :=
  match s with
  | [] => None
  | x :: t => match rcut c t with Some (a, b) => Some (x :: a, b) | None => if x =? c then Some ([], t) else None end
  end.
(** std::string find; libc *)
Definition has (c : Z) (s : name) : bool := existsb (Z.eqb c) s.
(** dmUtility.h:47-52 isWildcard; for the empty string it reads before the string *)
Definition is_wildcard (s : name) : bool := last s 0 =? 46.
(** dmUtility.h:54-62 trimWildcard *)
Definition trim_wildcard (s : name) : name := if last s 0 =? 46 then removelast s else s.
(** dmUtility.h:64-73 trimProperty *)
Definition trim_property (s : name) : name := match rcut 46 s with Some (a, _) => a | None => s end.
(** dmUtility.h:75-84 trimPropertyName *)
Definition trim_property_name (s : name) : name := match rcut 46 s with Some (_, b) => b | None => s end.
(** dmUtility.h:86-94 trimSetProperty *)
Definition trim_set_property (s : name) : name :=
  match cut 61 s with
  | (a, Some (b :: _)) => if (b =? 123) && (last s 0 =? 125) then a else trim_property s
  | _ => trim_property s
  end.
(** dmUtility.h:117-130 splitString *)
Fixpoint split (c : Z) (s : name) : list name :=
  match s with
  | [] => [[]]
  | x :: t => match split c t with
              | [] => [[]]
              | w :: ws => if x =? c then [] :: w :: ws else (x :: w) :: ws
              end
  end.
(** dmUtility.h:103-113: the pairs with two parts; the others are left out *)
Fixpoint pairs (l : list name) : list (name * name) :=
  match l with
  | [] => []
  | p :: l => match split 61 p with [a; b] => (a, b) :: pairs l | _ => pairs l end
  end.
(** dmUtility.h:96-115 parseMultisetValue; [None]: false *)
Definition parse_multiset (s : name) : option (list (name * name)) :=
  match s with
  | x :: (_ :: _) as t => if (x =? 123) && (last s 0 =? 125) then Some (pairs (split 44 (removelast t))) else None
  | _ => None
  end.

(** ** the database *)
(** dmPropertyInfo.h:30-63; the type and whether it is optional are not used *)
Record prop := mkProp { p_name : name; p_full : name; p_writable : bool }.
(** dmProviderInfo.h:34-79: an object; [i_props]: the names of its properties and whether they can be written *)
Record info := mkInfo { i_object : name; i_list : bool; i_props : list (name * bool) }.
(** dmProviderDatabase.cpp:664-692: a property of an object *)
Definition declare (o : name) (p : name * bool) : prop := mkProp (fst p) (o ++ [46] ++ fst p) (snd p).
(** dmProviderInfo.h:45-46 properties() *)
Definition properties (i : info) : list prop := map (declare (i_object i)) (i_props i).
(** model_db, in the order of its keys; dmProviderDatabase.cpp:49-51 *)
Notation database := (list info).
(** std::map find; libc *)
Definition find_info (db : database) (o : name) : option info := find (fun i => bytes_eqb (i_object i) o) db.
(** dmProviderDatabase.cpp:443-478: the loop over the parts of a name; [full]: fullName,
    [is_list]: isList, [prov]: provider, [item]: isListItem *)
Fixpoint resolve_parts (db : database) (full : name) (is_list : bool) (prov : option info) (item : bool) (l : list name) : option (info * bool) :=
  match l with
  | [] => match prov with Some i => Some (i, item) | None => None end
  | t :: l =>
    if is_list then resolve_parts db full false prov true l else
    let full := match full with [] => t | _ => full ++ [46] ++ t end in
    match find_info db full with
    | Some i => resolve_parts db full (i_list i) (Some i) false l
    | None => match prov with Some _ => None | None => resolve_parts db full false None false l end
    end
  end.
(** dmProviderDatabase.cpp:429-484 getProviderByObjectName, with isListItem *)
Definition resolve (db : database) (p : name) : option (info * bool) :=
  match p with [] => None | _ => resolve_parts db [] false None false (split 46 p) end.
(** dmProviderDatabase.cpp:486-495 getProviderByPropertyName *)
Definition resolve_property (db : database) (s : name) : option (info * bool) :=
  match s with [] => None | _ => resolve db (if is_wildcard s then trim_wildcard s else trim_property s) end.
(** dmProviderInfo.cpp:47-65 getPropertyInfo *)
Definition property_info (i : info) (n : name) : option prop :=
  find (fun p => bytes_eqb (p_name p) (trim_property_name n)) (properties i).

(** ** queries *)
(** dmProviderOperation.h:24-28 *)
Inductive op := OGet | OSet.
(** dmProviderDatabase.cpp:265-277 dmQueryImpl; [q_info = None]: no m_providerInfo *)
Record query := mkQuery { q_op : op; q_name : name; q_value : name; q_instance : name; q_info : option info }.
(** the call does not return; no code of its own *)
Inductive forever := Forever.
(** dmProviderDatabase.cpp:602-611, 232-243: the loop that trims until there is no equals sign.
    [None]: the name became empty.  A round that changes nothing is followed by others like it *)
Fixpoint settle (fuel : nat) (s : name) : outcome forever (option name) :=
  if has 61 s then
    match fuel with
    | O => Err Forever
    | S fuel => match trim_set_property s with [] => Ok None | t => settle fuel t end
    end
  else Ok (Some s).
(** dmProviderDatabase.cpp:595-613: the object a set is for *)
Definition set_target (s : name) : outcome forever (option name) :=
  match trim_set_property s with [] => Ok None | t => settle (S (length t)) t end.
(** dmProviderDatabase.cpp:574-630 createQuery with 206-252 setQueryString; [Ok None]: NULL *)
Definition create_query (db : database) (o : op) (s : name) : outcome forever (option query) :=
  match o with
  | OGet =>
    match resolve_property db s with
    | Some (i, _) => Ok (Some (mkQuery OGet s [] (if is_wildcard s then trim_wildcard s else trim_property s) (Some i)))
    | None => Ok None
    end
  | OSet =>
    do t <- set_target s ;
    match t with
    | None => Ok None
    | Some t =>
      match resolve db t with
      | None => Ok None
      | Some (i, _) =>
        match cut 61 s with
        | (q, Some v) => Ok (Some (mkQuery OSet q v t (Some i)))
        | (_, None) => Ok (Some (mkQuery OSet [] [] [] None))
        end
      end
    end
  end.

(** ** values *)
(** dmValue.h:29-45; [VNumber]: the integers of 16, 32 and 64 bits *)
Inductive dvalue := VText (s : name) | VBool (b : bool) | VInt8 (n : Z) | VUInt8 (n : Z) | VNumber (n : Z).
(** dmValue.cpp:104-152 toString; a number of 8 bits is a character for std::ostream *)
Definition to_text (v : dvalue) : name :=
  match v with
  | VText s => s
  | VBool b => if b then bs "true" else bs "false"
  | VInt8 n | VUInt8 n => [n mod 256]
  | VNumber n => print_dec n
  end.
(** std::string c_str, read as a C string; libc *)
Definition c_text (s : name) : name := fst (cut 0 s).

(** ** providers *)
(** what happens to a provider: a registered getter or setter is called, one of its own doGet and
    doSet is, a transaction begins or ends; no code of its own *)
Inductive event := EGet (n : name) | ESet (n : name) (v : dvalue) | EOwnGet (p : prop) | EOwnSet (p : prop) (v : dvalue) | EBegin | EEnd.
(** dmProvider.h:29-61: the getters and setters registered with onGet and onSet and the doGet and
    doSet of the derived class; what they give may depend on what has happened; the latter give a
    status and values with a code *)
Record provider := mkProvider {
  getter : name -> option (list event -> dvalue); setter : name -> bool;
  own_get : list event -> prop -> Z * list (dvalue * Z); own_set : list event -> prop -> dvalue -> Z * list (dvalue * Z) }.
(** dmQueryResult.h:34-41 Param *)
Record param := mkParam { r_prop : prop; r_value : dvalue; r_code : Z }.
(** rtError.h:43 *)
Definition RT_ERROR : Z := 1.
(** rtError.h:47 *)
Definition RT_PROP_NOT_FOUND : Z := 4.
(** dmProvider.cpp:50-59, 96-105: what is made of the result of the derived class *)
Definition own_result (p : prop) (t : Z * list (dvalue * Z)) : param :=
  match t with
  | (status, (v, _) :: _) => if status =? RT_PROP_NOT_FOUND then mkParam p (VText []) RT_PROP_NOT_FOUND else mkParam p v 0
  | (_, []) => mkParam p (VText []) RT_PROP_NOT_FOUND
  end.
(** dmProvider.cpp:39-61: one parameter *)
Definition get_one (P : provider) (log : list event) (p : prop) : event * param :=
  match getter P (p_name p) with
  | Some g => (EGet (p_name p), mkParam p (g log) 0)
  | None => (EOwnGet p, own_result p (own_get P log p))
  end.
(** dmProvider.cpp:36-62 doGet *)
Fixpoint do_get (P : provider) (log : list event) (l : list prop) : list event * list param :=
  match l with
  | [] => (log, [])
  | p :: l =>
    let (e, r) := get_one P log p in
    let (log, rs) := do_get P (log ++ [e]) l in (log, r :: rs)
  end.
(** dmProvider.cpp:79-107: one parameter *)
Definition set_one (P : provider) (log : list event) (p : prop) (v : dvalue) : list event * param :=
  if negb (p_writable p) then (log, mkParam p (VText []) RT_ERROR)
  else if setter P (p_name p) then (log ++ [ESet (p_name p) v], mkParam p v 0)
  else (log ++ [EOwnSet p v], own_result p (own_set P log p v)).
(** dmProvider.cpp:78-108: the loop of doSet *)
Fixpoint set_all (P : provider) (log : list event) (l : list (prop * dvalue)) : list event * list param :=
  match l with
  | [] => (log, [])
  | (p, v) :: l =>
    let (log, r) := set_one P log p v in
    let (log, rs) := set_all P log l in (log, r :: rs)
  end.
(** dmProvider.cpp:70-113 doSet *)
Definition do_set (P : provider) (l : list (prop * dvalue)) : list event * list param :=
  match l with
  | _ :: _ :: _ => let (log, rs) := set_all P [EBegin] l in (log ++ [EEnd], rs)
  | _ => set_all P [] l
  end.

(** ** the host *)
(** dmProviderHost.cpp:170-215 decodeGetRequest *)
Definition get_params (db : database) (q : name) : list prop :=
  match resolve db (if is_wildcard q then trim_wildcard q else trim_property q) with
  | Some (i, _) =>
    if is_wildcard q then properties i
    else [match property_info i q with Some p => p | None => mkProp [] q false end]
  | None => []
  end.
(** dmProviderHost.cpp:268-292: the parameters of a set *)
Definition set_param (i : info) (target : name) (x : name * name) : prop * dvalue :=
  (match find (fun p => bytes_eqb (p_name p) (fst x)) (properties i) with
   | Some p => p
   | None => mkProp [] target true
   end, VText (snd x)).
(** dmProviderHost.cpp:217-300 decodeSetRequest *)
Definition set_params (db : database) (target v : name) : list (prop * dvalue) :=
  match v with
  | [] => []
  | _ =>
    match parse_multiset v with
    | Some nv => match resolve db target with Some (i, _) => map (set_param i target) nv | None => [] end
    | None => match resolve_property db target with Some (i, _) => [set_param i target (trim_property_name target, v)] | None => [] end
    end
  end.
(** dmProviderHost.cpp:107-158 requestHandler, 383-411: the request a query is, at provider [P] *)
Definition serve (db : database) (P : provider) (q : query) : list event * list param :=
  match q_op q with
  | OGet => do_get P [] (get_params db (q_name q))
  | OSet => do_set P (set_params db (q_name q) (q_value q))
  end.

(** ** the client *)
(** what becomes of a request: carried out and answered, not delivered in time, or answered too
    late; dmProviderDatabase.cpp:92, rtConnection_SendRequest *)
Inductive fate := Answered | Lost | Late.
(** what a client is shown of a parameter: name, value and status; dmQueryResult.h:34-41 *)
Definition shown := (name * name * Z)%type.
(** dmProviderHost.cpp:309-316 encodeResult and dmProviderDatabase.cpp:138-167: a parameter as the
    client gets it *)
Definition show (i : info) (r : param) : shown :=
  let n := c_text (p_full (r_prop r)) in
  (match property_info i n with Some p => p_full p | None => n end, c_text (to_text (r_value r)), r_code r).
(** dmProviderDatabase.cpp:178-195 exec, 78-176 makeRequest, with the providers registered under
    their names; [None]: false.  The status of the result is always RT_OK: no doGet or doSet of a
    host sets it, and a request that fails leaves it as it was *)
Definition exec (db : database) (ps : name -> option provider) (f : fate) (q : query) : list event * option (list shown) :=
  match q_info q with
  | None => ([], None)
  | Some i =>
    match ps (q_instance q), f with
    | Some P, Answered => let (log, rs) := serve db P q in (log, Some (map (show i) rs))
    | Some P, Late => (fst (serve db P q), Some [])
    | _, _ => ([], Some [])
    end
  end.
(** dmClient.cpp:179-222 runOneQuery: what happens to the provider, the results handed to the
    notifier, if it is, and the value returned *)
Definition run_one (db : database) (ps : name -> option provider) (f : fate) (o : op) (s : name) : outcome forever (list event * option (list shown) * bool) :=
  do q <- create_query db o s ;
  match q with
  | None => Ok ([], None, false)
  | Some q => match exec db ps f q with (log, Some rs) => Ok (log, Some rs, true) | (log, None) => Ok (log, None, false) end
  end.
