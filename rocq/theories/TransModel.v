(** Model of set and get requests over several parameters: the provider's handlers
    (src/rbus/rbus.c:1496-1672, 1956-2117) and the caller's side that splits a list of parameters
    by owning component (3562-3902, 3969-4056, 4128-4386).
    Simplifications: a value is an integer, [None] is a property without a value (RBUS_NONE); a set
    handler that reports success stores the value and one that does not leaves it as it was; a get
    handler that fails leaves the property without a value; what the broker answers to a discover
    does not change during a call; the reply of the wildcard walk (1853-1953) is an input;
    allocation succeeds; sessions and timeouts are left out. *)
From Verif Require Import Common Errors.
Local Open Scope list_scope.
Local Open Scope Z_scope.

(** which handlers an element was registered with (el->cbTable); rbus_element.h:69 *)
Record kind := mkKind { k_get : bool; k_set : bool }.
(** what happens to a request: it is answered, it is lost, its answer is lost; rbuscore.c:1111-1186 *)
Inductive fate := Arrives | Lost | Silent.
Notation item := (list Z * option Z)%type.
(** what is fixed: the elements, their owners, the answers of the handlers, the fates of the requests *)
Record env := mkEnv {
  me : list Z;                                     (* the calling component *)
  owner : list Z -> option (list Z);               (* rbus_discoverComponentName, 3411-3440 *)
  elem : list Z -> list Z -> option kind;          (* retrieveInstanceElementEx in a component *)
  set_code : nat -> Z;                             (* what the k-th call of a set handler returns *)
  get_code : nat -> Z;                             (* what the k-th call of a get handler returns *)
  fates : nat -> fate;                             (* of the k-th request *)
  walk : list Z -> list Z -> Z * list item         (* get_recursive_wildcard_handler, 1853-1953 *)
}.
(** what can be observed: requests with the component, the caller named in them and their content;
    calls of set handlers; no code of its own *)
Inductive event :=
| SetReq (c who : list Z) (roll : bool) (l : list item) (commit : bool)
| SetCall (c who n : list Z) (v : option Z) (commit : bool) (code : Z)
| GetReq (c who : list Z) (l : list (list Z)).
(** what changes: the values, how many handlers have been called and requests sent, what has been observed *)
Record world := mkWorld { store : list Z -> list Z -> option Z; sets : nat; gets : nat; sent : nat; log : list event }.

(** RBUS_LEGACY_ERR_SUCCESS, counted as success by every caller (3576, 4037, 4296) *)
Definition LEGACY_SUCCESS : Z := 100.
(** CCSPError_to_rbusError, 195-241, of rbusLegacyReturn_t, 97-110 *)
Definition legacy (r : Z) : Z :=
  if r =? 101 then E_OUT_OF_RESOURCES else if r =? 102 then E_BUS_ERROR else if r =? 190 then E_OUT_OF_RESOURCES
  else if r =? 191 then E_TIMEOUT else if r =? 192 then E_DESTINATION_NOT_FOUND else if r =? 193 then E_BUS_ERROR
  else if r =? 9004 then E_OUT_OF_RESOURCES else if r =? 9005 then E_INVALID_NAMESPACE else if r =? 9006 then E_INVALID_PARAMETER_TYPE
  else if r =? 9007 then E_INVALID_PARAMETER_VALUE else if r =? 9008 then E_NOT_WRITABLE else E_BUS_ERROR.
(** 3608-3612, 4350-4353: the comparison is one of unsigned numbers *)
Definition code_of (r : Z) : Z := if (r <? 0) || (r >? LEGACY_SUCCESS) then legacy r else r.
(** rbus.c:3608-3612, 4350-4353, continued *)
Definition good (r : Z) : bool := (r =? E_SUCCESS) || (r =? LEGACY_SUCCESS).
(** 980-1003: a name that ends with a dot or has a star (the empty name is not passed) *)
Definition wild (n : list Z) : bool := (last n 0 =? 46) || existsb (Z.eqb 42) n.

(** helper, no code of its own *)
Definition put (st : list Z -> list Z -> option Z) (c n : list Z) (v : option Z) : list Z -> list Z -> option Z :=
  fun c' n' => if bytes_eqb c' c && bytes_eqb n' n then v else st c' n'.
(** helper, no code of its own *)
Definition note (w : world) (e : event) : world := mkWorld (store w) (sets w) (gets w) (sent w) (log w ++ [e]).
(** helper, no code of its own *)
Definition ask (w : world) (e : event) : world := mkWorld (store w) (sets w) (gets w) (S (sent w)) (log w ++ [e]).
(** one call of an element's set handler (1569-1571, 1585-1587) *)
Definition call_set (E : env) (w : world) (c who n : list Z) (v : option Z) (commit : bool) : world * Z :=
  let r := set_code E (sets w) in
  (mkWorld (if r =? E_SUCCESS then put (store w) c n v else store w) (S (sets w)) (gets w) (sent w) (log w ++ [SetCall c who n v commit r]), r).
(** one call of an element's get handler: the property it leaves (1555-1562, 1974-1976) *)
Definition call_get (E : env) (w : world) (c n : list Z) : world * Z * option Z :=
  let r := get_code E (gets w) in
  (mkWorld (store w) (sets w) (S (gets w)) (sent w) (log w), r, if r =? E_SUCCESS then store w c n else None).

(** *** the provider; rbus.c:1496-1672, what a set handler answers *)
Inductive reply := Done (old : list item) | Failed (code : Z) (n : list Z).
(** 1580-1596: the remembered values, first one first; whether it works is only logged *)
Fixpoint restore (E : env) (w : world) (c who : list Z) (commit : bool) (l : list item) : world :=
  match l with [] => w | (n, v) :: l => restore E (fst (call_set E w c who n v commit)) c who commit l end.
(** 1548-1635.  The get handler is asked before the set handler and what it returns is ignored
    (1560); the commit flag is given with the last parameter and stays for the restoring calls
    (1566-1567, 1586); values are not restored when an element is missing or not writable *)
Fixpoint serve_loop (E : env) (w : world) (c who : list Z) (roll commit : bool) (old l : list item) : world * reply :=
  match l with
  | [] => (w, Done old)
  | (n, v) :: l =>
      match elem E c n with
      | None => (w, Failed E_ELEMENT_DOES_NOT_EXIST n)
      | Some k =>
          if negb (k_set k) then (w, Failed E_NOT_WRITABLE n) else
          let '(w1, cur) := if roll && k_get k then let '(w1, _, v0) := call_get E w c n in (w1, [(n, v0)]) else (w, []) in
          let last := commit && match l with [] => true | _ => false end in
          let '(w2, r) := call_set E w1 c who n v last in
          if r =? E_SUCCESS then serve_loop E w2 c who roll commit (old ++ cur) l
          else (if roll then restore E w2 c who last old else w2, Failed r n)
      end
  end.
(** _set_callback_handler, 1496-1672 *)
Definition serve (E : env) (w : world) (c who : list Z) (roll : bool) (l : list item) (commit : bool) : world * reply :=
  match l with [] => (w, Failed E_INVALID_INPUT who) | _ => serve_loop E w c who roll commit [] l end.

(** *** the caller; rbus.c:3562-3902, what the caller gets *)
Inductive answer := NoReply (code : Z) | Reply (r : reply).
(** rbus_invokeRemoteMethod with METHOD_SETPARAMETERVALUES, 4240-4277 *)
Definition request (E : env) (w : world) (c : list Z) (roll : bool) (l : list item) (commit : bool) : world * answer :=
  let w1 := ask w (SetReq c (me E) roll l commit) in
  match fates E (sent w) with
  | Lost => (w1, NoReply E_DESTINATION_NOT_REACHABLE)
  | Silent => (fst (serve E w1 c (me E) roll l commit), NoReply E_TIMEOUT)
  | Arrives => let '(w2, r) := serve E w1 c (me E) roll l commit in (w2, Reply r)
  end.
(** _setInternal, 3969-4056 *)
Definition single (E : env) (w : world) (n : list Z) (v : option Z) (commit : bool) : world * Z :=
  if wild n then (w, E_INVALID_INPUT) else
  match v with
  | None => (w, E_INVALID_INPUT)
  | Some _ =>
      match owner E n with
      | None => (w, E_DESTINATION_NOT_REACHABLE)
      | Some c =>
          match request E w c false [(n, v)] commit with
          | (w1, NoReply e) => (w1, e)
          | (w1, Reply (Done _)) => (w1, E_SUCCESS)
          | (w1, Reply (Failed r _)) => (w1, if good r then E_SUCCESS else code_of r)
          end
      end
  end.
(** 4222-4361: one request per component, in the order in which the components first appear.
    [old] is what the last successful reply carried (4303), [named] whether the name of a failing
    parameter is still to be reported (4304); a lost request does not end the loop (4283-4287) *)
Definition mine (c : list Z) (l : list (list Z * item)) : list (list Z * item) := filter (fun x => bytes_eqb (fst x) c) l.
(** rbus.c:4222-4361, continued *)
Definition rest (c : list Z) (l : list (list Z * item)) : list (list Z * item) := filter (fun x => negb (bytes_eqb (fst x) c)) l.
(** rbus.c:4222-4361, continued *)
Fixpoint batches (E : env) (undo : world -> list item -> world) (fuel : nat) (w : world) (roll commit : bool) (old : list item) (code : Z) (named : bool)
    (l : list (list Z * item)) : world * Z * option (list Z) :=
  match fuel, l with
  | _, [] => (w, code, None)
  | O, _ => (w, code, None)
  | S fuel, (c, _) :: _ =>
      match request E w c roll (map snd (mine c l)) commit with
      | (w1, NoReply e) => batches E undo fuel w1 roll commit old e named (rest c l)
      | (w1, Reply (Done o)) => batches E undo fuel w1 roll commit o E_SUCCESS false (rest c l)
      | (w1, Reply (Failed r n)) =>
          if good r then batches E undo fuel w1 roll commit [] E_SUCCESS false (rest c l)
          else (if roll then undo w1 old else w1, code_of r, if named then Some n else None)
      end
  end.
(** the owners of all parameters, if each has one (4192-4220) *)
Fixpoint owned (E : env) (l : list item) : option (list (list Z * item)) :=
  match l with
  | [] => Some []
  | x :: l => match owner E (fst x), owned E l with Some c, Some r => Some ((c, x) :: r) | _, _ => None end
  end.
(** _setMultiInternal, 4128-4386, with what it does to restore as a parameter; [num] is the number
    of properties the caller states, [named] whether it asked for the name of a failing one *)
Definition multi_with (E : env) (undo : world -> list item -> world) (w : world) (num : nat) (l : list item) (commit roll named : bool) : world * Z * option (list Z) :=
  match num, l with
  | O, _ | _, [] => (w, E_INVALID_INPUT, None)
  | _, [(n, v)] => let '(w1, r) := single E w n v commit in (w1, r, None)
  | _, _ =>
      let now := firstn num l in
      if existsb (fun x => wild (fst x) || negb (is_some (snd x))) now then (w, E_INVALID_INPUT, None)
      else if (length l <? num)%nat then (w, E_INVALID_INPUT, None)
      else match owned E now with
           | None => (w, E_INVALID_INPUT, None)
           | Some o => batches E undo (length o) w roll commit [] E_SUCCESS named o
           end
  end.
(** 4325-4349: the remembered properties are set again, with commit and without remembering *)
Definition undo (E : env) (w : world) (old : list item) : world :=
  fst (fst (multi_with E (fun w _ => w) w (length old) old true false true)).
(** rbus_setMulti and rbus_setMultiExt, 4378-4386 *)
Definition set_multi (E : env) (w : world) (num : nat) (l : list item) (commit named : bool) : world * Z * option (list Z) :=
  multi_with E (undo E) w num l commit true named.

(** *** getting several parameters *)
(** _get_callback_handler, 1999-2117: values in order, up to the first failure; a name with a
    wildcard is answered at once with what was found for it, whatever else was asked *)
Fixpoint serve_get (E : env) (w : world) (c : list Z) (got : list item) (l : list (list Z)) : world * Z * list item :=
  match l with
  | [] => (w, E_SUCCESS, got)
  | n :: l =>
      if wild n then let '(r, vs) := walk E c n in (w, r, if r =? E_SUCCESS then vs else [])
      else match elem E c n with
           | None => (w, E_ELEMENT_DOES_NOT_EXIST, [])
           | Some k =>
               if negb (k_get k) then (w, E_INVALID_OPERATION, []) else
               let '(w1, r, v) := call_get E w c n in
               if r =? E_SUCCESS then serve_get E w1 c (got ++ [(n, v)]) l else (w1, r, [])
           end
  end.
(** the answer to a get request, [None] when there is none.  An empty list of names is refused; rbus.c:1956-2117, 3562-3902 *)
Definition request_get (E : env) (w : world) (c who : list Z) (l : list (list Z)) : world * option (Z * list item) :=
  let w1 := ask w (GetReq c who l) in
  match fates E (sent w) with
  | Lost => (w1, None)
  | Silent => (fst (fst (serve_get E w1 c [] l)), None)
  | Arrives => let '(w2, r, vs) := match l with [] => (w1, E_INVALID_INPUT, []) | _ => serve_get E w1 c [] l end in (w2, Some (r, vs))
  end.
(** rbus.c:1999-2117, continued *)
Definition lost_code (E : env) (k : nat) : Z := match fates E k with Silent => E_TIMEOUT | _ => E_DESTINATION_NOT_REACHABLE end.
(** _getExt_response_parser, 3562-3618: code and properties *)
Definition parse (r : Z) (vs : list item) : Z * list item := if good r then (E_SUCCESS, vs) else (code_of r, []).
(** 3809-3893.  The component is given as the caller (3837); a request without answer ends the loop
    (3861), an answer with an error does not (3868-3871) *)
Definition mine_n (c : list Z) (l : list (list Z * list Z)) : list (list Z) := map snd (filter (fun x => bytes_eqb (fst x) c) l).
(** rbus.c:3809-3893, continued *)
Definition rest_n (c : list Z) (l : list (list Z * list Z)) : list (list Z * list Z) := filter (fun x => negb (bytes_eqb (fst x) c)) l.
(** rbus.c:3809-3893, continued *)
Fixpoint get_batches (E : env) (fuel : nat) (w : world) (code : Z) (got : list item) (l : list (list Z * list Z)) : world * Z * list item :=
  match fuel, l with
  | _, [] => (w, code, got)
  | O, _ => (w, code, got)
  | S fuel, (c, _) :: _ =>
      match request_get E w c c (mine_n c l) with
      | (w1, None) => (w1, lost_code E (sent w), got)
      | (w1, Some (r, vs)) => let '(code, vs) := parse r vs in get_batches E fuel w1 code (got ++ vs) (rest_n c l)
      end
  end.
(** rbus.c:3809-3893, continued *)
Fixpoint owned_n (E : env) (l : list (list Z)) : option (list (list Z * list Z)) :=
  match l with
  | [] => Some []
  | n :: l => match owner E n, owned_n E l with Some c, Some r => Some ((c, n) :: r) | _, _ => None end
  end.
(** rbus_getExt for more than one name, 3772-3902: the code and the properties *)
Definition get_many (E : env) (w : world) (l : list (list Z)) : world * Z * list item :=
  match owned_n E l with
  | None => (w, E_INVALID_INPUT, [])
  | Some o => get_batches E (length o) w E_SUCCESS [] o
  end.
(** rbus_get, 3465-3560, as used by rbus_getExt for one name without wildcard (3636-3663): the name
    in the reply is the one asked for *)
Definition get_one (E : env) (w : world) (n : list Z) : world * Z * list item :=
  match owner E n with
  | None => (w, E_DESTINATION_NOT_REACHABLE, [])
  | Some c =>
      match request_get E w c (me E) [n] with
      | (w1, None) => (w1, lost_code E (sent w), [])
      | (w1, Some (r, vs)) => let '(code, vs) := parse r vs in (w1, code, vs)
      end
  end.
(** rbus_getExt for one name with a wildcard, 3664-3769, over the components found for it.  [ret] is
    the list the caller's variable holds ([None]: NULL), [last] the list later replies are appended
    to.  A reply that starts the list although it is not the first is released at the end of its
    turn (3731-3742): [fst] of the list says whether it may still be used *)
Fixpoint wild_loop (E : env) (w : world) (n : list Z) (first : bool) (ret last : option (bool * list item)) (count : Z) (code : Z) (ds : list (list Z))
    : outcome unit (world * Z * option (bool * list item) * Z) :=
  match ds with
  | [] => Ok (w, code, ret, count)
  | d :: ds =>
      match request_get E w d (me E) [n] with
      | (w1, None) => Ok (w1, lost_code E (sent w), ret, count)
      | (w1, Some (r, vs)) =>
          let '(code, vs) := parse r vs in
          if negb (code =? E_SUCCESS) then Ok (w1, code, ret, count) else
          let add := Z.of_nat (length vs) in
          match vs with
          | [] => wild_loop E w1 n false ret last (count + add) code ds
          | _ =>
              if first then wild_loop E w1 n false (Some (true, vs)) (Some (true, vs)) (count + add) code ds
              else match last with
                   | None => wild_loop E w1 n false (Some (false, vs)) (Some (false, vs)) (count + add) code ds
                   | Some (true, l0) => wild_loop E w1 n false (Some (true, l0 ++ vs)) (Some (true, l0 ++ vs)) (count + add) code ds
                   | Some (false, _) => UB
                   end
          end
      end
  end.
(** 3756-3764: an error after something was put in the result is not reported *)
Definition get_wild (E : env) (w : world) (n : list Z) (ret : option (bool * list item)) (ds : list (list Z)) : outcome unit (world * Z * option (bool * list item) * Z) :=
  do (w1, code, ret, count) <- wild_loop E w n true ret None 0 E_SUCCESS ds ;
  Ok (w1, if is_some ret && negb (code =? E_SUCCESS) then E_SUCCESS else code, ret, count).
