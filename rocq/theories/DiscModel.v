(** Model of discovery: the broker's answers (src/rtmessage/rtrouted.c:890-1148) and what the
    client library makes of them (src/core/rbuscore.c:1880-2306, src/rbus/rbus.c:3411-3462).  An
    answer either arrives as sent or not at all ([lost]; how it travels is the subject of
    RouterModel, PendModel and FramingModel), and allocation succeeds. *)
From Coq Require Import String.
From Verif Require Import Common Errors RouteModel RouterModel.
Local Open Scope string_scope.
Local Open Scope list_scope.
Local Open Scope Z_scope.

(** rbuscore_types.h:27 *)
Definition RBUSCORE_SUCCESS : Z := 0.                     (* rbuscore_types.h; rbuscore_types.h:28 *)
Definition RBUSCORE_ERROR_GENERAL : Z := 1.
(** rbuscore_types.h:35 *)
Definition RBUSCORE_ERROR_MALFORMED_RESPONSE : Z := 8.
Definition RT_ERROR : Z := 1.                             (* rtError.h:43 *)
Definition MAX_OBJECT_NAME_LENGTH : nat := 256.           (* rbuscore.h:28, rtMessageHeader.h:31 *)
Definition strndup (s : list Z) : list Z := firstn MAX_OBJECT_NAME_LENGTH s.

(** the members of an answer: rtMessage_SetInt32 (rtMessage.c:232-237) appends a further member of the
    same name, rtMessage_GetInt32 (369) reads the first *)
Record answer := mkAnswer { a_result : option Z; a_counts : list Z; a_items : list (list Z) }.
(** rtTreeTopic.fullName, rtRoutingTree.c:59-72 *)
Fixpoint join (p : list (list Z)) : list Z :=
  match p with [] => [] | [t] => t | t :: p => t ++ 46 :: join p end.
(** rtRoutingTree.c:59-72, continued *)
Definition expr_of (es : list entry) (d : Z) : outcome unit (list Z) :=
  match find (fun x => e_id x =? d) es with Some r => Ok (e_expr r) | None => UB end.
(** rtRoutingTree.c:59-72, continued *)
Fixpoint exprs (es : list entry) (ds : list Z) : outcome unit (list (list Z)) :=
  match ds with [] => Ok [] | d :: ds => do x <- expr_of es d ; do xs <- exprs es ds ; Ok (x :: xs) end.

(** rtrouted.c:1063-1148 rtRouted_OnMessageDiscoverElementObjects; for an element whose list of
    routes exists but is empty the broker writes the count 0 twice, here once *)
Fixpoint element_loop (b : broker) (names : list (list Z)) (counts : list Z) (items : list (list Z)) : outcome unit answer :=
  match names with
  | [] => Ok (mkAnswer (Some RT_OK) counts items)
  | n :: names =>
    do ds <- get (tree_of b) n ;
    do xs <- exprs (entries b) ds ;
    element_loop b names (counts ++ [Z.of_nat (length xs)]) (items ++ xs)
  end.
(** rtrouted.c:1063-1148, continued *)
Definition element_objects (b : broker) (names : list (list Z)) : outcome unit answer :=
  match names with [] => Ok (mkAnswer (Some RT_ERROR) [] []) | _ => element_loop b names [] [] end.
(** rtrouted.c:993-1061 rtRouted_OnMessageDiscoverObjectElements *)
Definition object_elements (b : broker) (name : list Z) : answer :=
  match find (fun r => bytes_eqb (firstn RTMSG_MAX_EXPRESSION_LEN name) (firstn RTMSG_MAX_EXPRESSION_LEN (e_expr r))) (entries b) with
  | None => mkAnswer None [0] []
  | Some r =>
    let ps := match find_data (e_id r) (live (tree_of b)) with Some t => ttopics t | None => [] end in
    mkAnswer None [Z.of_nat (length ps)] (map join ps)
  end.
(** rtrouted.c:890-934 rtRouted_OnMessageDiscoverRegisteredComponents *)
Definition listed (s : list Z) : bool := match s with [] => false | c :: _ => negb (c =? 95) end.
(** rtrouted.c:890-934, continued *)
Definition registered_components (b : broker) : answer :=
  let xs := filter listed (map e_expr (entries b)) in mkAnswer None [Z.of_nat (length xs)] xs.
(** rtrouted.c:936-991 rtRouted_OnMessageDiscoverWildcardDestinations *)
Definition wildcard_destinations (b : broker) (q : list Z) : outcome unit answer :=
  if printable q RTMSG_MAX_EXPRESSION_LEN
  then do ps <- resolve (tree_of b) q ; Ok (mkAnswer (Some RT_OK) [Z.of_nat (length ps)] (map join ps))
  else Ok (mkAnswer (Some RT_ERROR) [] []).

(** ** the client *)
(** rbuscore.c:2174-2192: the inner loop; what has been read is also the next index *)
Fixpoint take_items (k : nat) (items acc : list (list Z)) : option (list (list Z)) :=
  match k with
  | O => Some acc
  | S k => match nth_error items (length acc) with
           | None => None
           | Some [] => take_items k items acc
           | Some x => take_items k items (acc ++ [strndup x])
           end
  end.
(** rbuscore.c:2150-2201: the loop over the elements, each time with the same count *)
Fixpoint take_all (n : nat) (a : answer) (acc : list (list Z)) : option (list (list Z)) :=
  match n with
  | O => Some acc
  | S n => match a_counts a with
           | [] => None
           | k :: _ => match take_items (Z.to_nat k) (a_items a) acc with Some acc => take_all n a acc | None => None end
           end
  end.
(** rbuscore.c:2114-2233 rbus_discoverElementsObjects: code and objects *)
Definition discover_elements_objects (lost : bool) (b : broker) (names : list (list Z)) : outcome unit (Z * list (list Z)) :=
  do a <- element_objects b names ;
  if lost then Ok (RBUSCORE_ERROR_MALFORMED_RESPONSE, []) else
  match a_result a with
  | Some 0 => match take_all (length names) a [] with Some xs => Ok (RBUSCORE_SUCCESS, xs) | None => Ok (RBUSCORE_ERROR_GENERAL, []) end
  | _ => Ok (RBUSCORE_ERROR_GENERAL, [])
  end.
(** rbus.c:3411-3440 rbus_discoverComponentName, given a handle *)
Definition discover_component_name (lost : bool) (b : broker) (names : list (list Z)) : outcome unit (Z * list (list Z)) :=
  match names with
  | [] => Ok (E_INVALID_INPUT, [])
  | _ => do (rc, xs) <- discover_elements_objects lost b names ; Ok (E_SUCCESS, if rc =? RBUSCORE_SUCCESS then xs else [])
  end.
(** the reading of count and items in rbuscore.c:1916-1945, 2007-2043 and 2264-2292: an array for
    the count is filled with as many strings as there are items *)
Definition read_items (a : answer) : outcome unit (list (list Z)) :=
  match a_counts a with
  | [k] => if k =? Z.of_nat (length (a_items a)) then Ok (map strndup (a_items a)) else UB
  | _ => UB
  end.
(** rbuscore.c:1967-2053 rbus_discoverObjectElements and rbus.c:3442-3462
    rbus_discoverComponentDataElements, given handle and name *)
Definition discover_component_elements (lost : bool) (b : broker) (name : list Z) : outcome unit (Z * list (list Z)) :=
  if lost then Ok (E_BUS_ERROR, []) else do xs <- read_items (object_elements b name) ; Ok (E_SUCCESS, xs).
(** rbuscore.c:2235-2306 rbus_discoverRegisteredComponents *)
Definition discover_registered (lost : bool) (b : broker) : outcome unit (Z * list (list Z)) :=
  if lost then Ok (RBUSCORE_ERROR_GENERAL, []) else do xs <- read_items (registered_components b) ; Ok (RBUSCORE_SUCCESS, xs).
(** rbuscore.c:1880-1965 rbus_discoverWildcardDestinations *)
Definition discover_wildcard (lost : bool) (b : broker) (q : list Z) : outcome unit (Z * list (list Z)) :=
  do a <- wildcard_destinations b q ;
  if lost then Ok (RBUSCORE_ERROR_MALFORMED_RESPONSE, []) else
  match a_result a with
  | Some 0 => do xs <- read_items a ; Ok (RBUSCORE_SUCCESS, xs)
  | _ => Ok (RBUSCORE_ERROR_GENERAL, [])
  end.
