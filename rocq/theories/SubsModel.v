(** Model of a provider's subscriptions: src/rbus/rbus_subscriptions.c, subscribeHandlerImpl and
    the row functions of src/rbus/rbus.c, and the part of src/rbus/rbus_element.c that links
    elements and subscriptions.  Elements and subscriptions are numbered in the order of their
    allocation; a number that is gone is a dangling pointer.
    Simplifications: requests are served one at a time (the handler calls made outside the lock
    are not interleaved with other requests); the element a name leads to is an input of the
    request (it is the subject of ElemModel); a provider's get handler succeeds when a property
    starts to be watched; the interval and value-change threads themselves are other models. *)
From Coq Require Import String.
From Verif Require Import Common Value CompareModel TokenModel Errors.
Local Open Scope string_scope.
Local Open Scope list_scope.
Local Open Scope Z_scope.

Definition PROPERTY : Z := 1.   (* include/rbus.h:353-370 *)
Definition EVENT : Z := 3.

(** ** elements *)
(** struct elementNode: name, alias and type; whether there are an eventSubHandler and a getHandler; rbus_element.h:60-75 *)
Record einfo := mkInfo { i_node : node; i_handler : bool; i_getter : bool }.
(** an element tree before it is allocated *)
Inductive shape := Sh (i : einfo) (ks : list shape).
(** an element tree with the numbers of its nodes; rbus_element.h:60-75 *)
Inductive el := El (no : nat) (i : einfo) (ks : list el).
(** helper, no code of its own *)
Definition el_no (t : el) := let 'El n _ _ := t in n.
(** helper, no code of its own *)
Definition el_info (t : el) := let 'El _ i _ := t in i.
(** helper, no code of its own *)
Definition el_node (t : el) := i_node (el_info t).
(** helper, no code of its own *)
Definition el_kids (t : el) := let 'El _ _ k := t in k.
(** allocation of a tree; no code of its own *)
Fixpoint number (n : nat) (s : shape) : el * nat :=
  match s with
  | Sh i ks =>
    let '(l, m) := (fix go n ks := match ks with
                                   | [] => ([], n)
                                   | c :: ks => let '(e, n) := number n c in let '(l, n) := go n ks in (e :: l, n)
                                   end) (S n) ks in
    (El n i l, m)
  end.
(** the row placeholder, rbus_element.c:265-279 *)
Definition TEMPLATE : list Z := bs "{i}".
(** rbus_subscriptions.c:234-261, 309-380: the typed nodes the walk visits, with their ancestors;
    it does not go below row templates *)
Fixpoint visited (up : path) (t : el) : list (nat * path) :=
  match t with
  | El no i ks =>
    (if ntype (i_node i) =? 0 then [] else [(no, i_node i :: up)]) ++
    (if in_table up && bytes_eqb (nname (i_node i)) TEMPLATE then [] else flat_map (visited (i_node i :: up)) ks)
  end.
(** rbus_subscriptions.c:267-306: here the walk stops at typed nodes *)
Fixpoint created (up : path) (t : el) : list (nat * path) :=
  match t with
  | El no i ks => if ntype (i_node i) =? 0 then flat_map (created (i_node i :: up)) ks else [(no, i_node i :: up)]
  end.
(** rbus_subscriptions.c:267-306, continued *)
Fixpoint nos (t : el) : list nat := match t with El no _ ks => no :: flat_map nos ks end.
(** the element with this number and its ancestors; helper, no code of its own *)
Fixpoint find_el (n : nat) (up : path) (t : el) : option (path * el) :=
  match t with
  | El no i ks =>
    if Nat.eqb no n then Some (up, t)
    else (fix go ks := match ks with [] => None | c :: ks => match find_el n (i_node i :: up) c with Some x => Some x | None => go ks end end) ks
  end.
(** rbus_subscriptions.c:267-306, continued *)
Fixpoint find_top (n : nat) (l : list el) : option (path * el) :=
  match l with [] => None | t :: l => match find_el n [] t with Some x => Some x | None => find_top n l end end.
(** rbus_element.c:987-1051, 114-146: a row at the end of its table; a row unlinked *)
Fixpoint add_kid (n : nat) (c : el) (t : el) : el :=
  match t with El no i ks => El no i (if Nat.eqb no n then ks ++ [c] else map (add_kid n c) ks) end.
(** rbus_element.c:987-1051, 114-146, continued *)
Fixpoint drop_el (n : nat) (t : el) : el :=
  match t with El no i ks => El no i (flat_map (fun c => if Nat.eqb (el_no c) n then [] else [drop_el n c]) ks) end.

(** ** subscriptions *)
(** what identifies a subscription (rbus_subscriptions.c:48-70) *)
Record key := mkKey { k_listener : list Z; k_comp : Z; k_event : list Z; k_filter : filter; k_interval : Z; k_duration : Z; k_raw : bool }.
(** rbus_subscriptions.h:35-52 *)
Record sub := mkSub { s_no : nat; s_key : key; s_auto : bool; s_el : option nat; s_chain : option chain; s_insts : list nat; s_id : Z }.
(** elementNode.subscriptions: all the lists in one, each in its order; [l_auto]: the subscription
    pointed to has autoPublish and no interval; rbus_element.h:70 *)
Record link := mkLink { l_el : nat; l_sub : nat; l_auto : bool }.
(** rbus_subscriptions.h:35-52, continued *)
Inductive action := SUBSCRIBE | UNSUBSCRIBE.
(** rbus_subscriptions.h:35-52, continued *)
Record call := mkCall { c_action : action; c_key : key; c_err : Z }.
(** rbus_subscriptions.h:35-52, continued *)
Record state := mkState {
  tops : list el; next_el : nat; subs : list sub; links : list link;
  next_sub : nat; next_id : Z; watched : list nat; timers : list (nat * nat) (* element, subscription *);
  log : list call; file : list sub }.

(** rbus_filter.c:305-346 rbusFilter_Compare *)
Fixpoint filter_compare (a b : filter) : outcome unit Z :=
  match a, b with
  | FNull, FNull => Ok 0
  | FNull, _ => Ok (-1)
  | _, FNull => Ok 1
  | FRel o1 v1, FRel o2 v2 => if o1 =? o2 then value_compare v1 v2 else Ok (if o1 <? o2 then 1 else -1)
  | FLogic o1 l1 r1, FLogic o2 l2 r2 =>
    if o1 =? o2 then do rc <- filter_compare l1 l2 ; if negb (rc =? 0) then Ok rc else filter_compare r1 r2
    else Ok (if o1 <? o2 then 1 else -1)
  | FRel _ _, FLogic _ _ _ => Ok 1
  | FLogic _ _ _, FRel _ _ => Ok (-1)
  end.
(** rbus_subscriptions.c:48-70: is it 0 *)
Definition key_match (a b : key) : outcome unit bool :=
  if negb (bytes_eqb (k_listener a) (k_listener b)) then Ok false
  else if negb (k_comp a =? k_comp b) then Ok false
  else if negb (bytes_eqb (k_event a) (k_event b)) then Ok false
  else do c <- filter_compare (k_filter a) (k_filter b) ;
       if negb (c =? 0) then Ok false
       else Ok ((k_interval a =? k_interval b) && (k_duration a =? k_duration b) && eqb (k_raw a) (k_raw b)).
(** rbus_subscriptions.c:171-201 rbusSubscriptions_getSubscription *)
Fixpoint get_sub (l : list sub) (k : key) : outcome unit (option sub) :=
  match l with
  | [] => Ok None
  | x :: l => do m <- key_match (s_key x) k ; if (m : bool) then Ok (Some x) else get_sub l k
  end.
(** the matching nodes, in the order of the walk; rbus_subscriptions.c:225-262 *)
Fixpoint matching (c : chain) (l : list (nat * path)) : outcome unit (list nat) :=
  match l with
  | [] => Ok []
  | (n, p) :: l => do m <- match_ c p ; do r <- matching c l ; Ok (if (m : bool) then n :: r else r)
  end.
(** rbus_subscriptions.c:171-201, continued *)
Definition is_link (n x : nat) (y : link) : bool := Nat.eqb (l_el y) n && Nat.eqb (l_sub y) x.
(** rbus_element.c:799-831, 833-860 addElementSubscription, removeElementSubscription *)
Definition link_to (x : sub) (n : nat) : link := mkLink n (s_no x) (s_auto x && (k_interval (s_key x) =? 0)).
(** rbus_element.c:799-831, 833-860, continued *)
Fixpoint unlink (n x : nat) (l : list link) : list link :=
  match l with [] => [] | y :: l => if is_link n x y then l else y :: unlink n x l end.
(** rbus_element.c:799-831, 833-860, continued *)
Definition all_nodes (s : state) : list (nat * path) := flat_map (visited []) (tops s).
(** rbus_subscriptions.c:121-168 rbusSubscriptions_addSubscription; no result when the name does not fit *)
Definition add_sub (s : state) (k : key) (auto : bool) (e : nat) (p : path) : outcome unit (option (sub * state)) :=
  match create (k_event k) p with
  | UB => UB
  | Err _ => Ok None
  | Ok c =>
    do insts <- matching c (all_nodes s) ;
    let x := mkSub (next_sub s) k auto (Some e) (Some c) insts (next_id s) in
    Ok (Some (x, mkState (tops s) (next_el s) (subs s ++ [x]) (links s ++ map (link_to x) insts)
                   (S (next_sub s)) ((next_id s + 1) mod 4294967296) (watched s) (timers s) (log s) (subs s ++ [x])))
  end.
(** rbus_subscriptions.c:121-168, continued *)
Definition alive (n : nat) (s : state) : bool := is_some (find_top n (tops s)).
(** rbus_subscriptions.c:72-95 subscriptionFree: the links of the instances *)
Fixpoint unlink_all (s : state) (insts : list nat) (x : nat) (l : list link) : outcome unit (list link) :=
  match insts with
  | [] => Ok l
  | n :: insts => if alive n s then unlink_all s insts x (unlink n x l) else UB
  end.
(** rbus_subscriptions.c:204-229 rbusSubscriptions_removeSubscription *)
Definition remove_sub (s : state) (x : sub) : outcome unit state :=
  do l <- unlink_all s (s_insts x) (s_no x) (links s) ;
  let r := List.filter (fun y => negb (Nat.eqb (s_no y) (s_no x))) (subs s) in
  Ok (mkState (tops s) (next_el s) r l (next_sub s) (next_id s) (watched s) (timers s) (log s) r).

(** rbus_element.c:862-893 elementHasAutoPubSubscriptions *)
Definition auto_linked (s : state) (n : nat) (but : option nat) : bool :=
  existsb (fun y => Nat.eqb (l_el y) n && l_auto y && negb (match but with Some b => Nat.eqb b (l_sub y) | None => false end)) (links s).
(** rbus_valuechange.c:247-370: adding asserts that there is a get handler *)
Definition watch (s : state) (n : nat) : outcome unit state :=
  match find_top n (tops s) with
  | None => UB
  | Some (_, t) =>
    if negb (i_getter (el_info t)) then UB else
    Ok (mkState (tops s) (next_el s) (subs s) (links s) (next_sub s) (next_id s) (if existsb (Nat.eqb n) (watched s) then watched s else watched s ++ [n]) (timers s) (log s) (file s))
  end.
(** rbus_valuechange.c:247-370, continued *)
Definition unwatch (s : state) (n : nat) : state :=
  mkState (tops s) (next_el s) (subs s) (links s) (next_sub s) (next_id s) (List.filter (fun m => negb (Nat.eqb m n)) (watched s)) (timers s) (log s) (file s).
(** rbus_intervalsubscription.c:217-301: one record per subscription *)
Definition with_timers (s : state) (l : list (nat * nat)) : state :=
  mkState (tops s) (next_el s) (subs s) (links s) (next_sub s) (next_id s) (watched s) l (log s) (file s).
(** rbus_intervalsubscription.c:217-301, continued *)
Definition start_timer (s : state) (n x : nat) : state :=
  match find_top n (tops s) with
  | Some (_, t) => if i_getter (el_info t) && negb (existsb (fun y => Nat.eqb (snd y) x) (timers s)) then with_timers s (timers s ++ [(n, x)]) else s
  | None => s
  end.
(** rbus_intervalsubscription.c:217-301, continued *)
Definition stop_timer (s : state) (x : nat) : state := with_timers s (List.filter (fun y => negb (Nat.eqb (snd y) x)) (timers s)).
(** rbus.c:1183-1224: the instances of an auto-published property *)
Fixpoint publish_setup (s : state) (added : bool) (x : sub) (insts : list nat) : outcome unit state :=
  match insts with
  | [] => Ok s
  | n :: insts =>
    if negb (k_interval (s_key x) =? 0) then Ok (if added then start_timer s n (s_no x) else stop_timer s (s_no x))
    else if auto_linked s n (Some (s_no x)) then publish_setup s added x insts
    else if added then do s <- watch s n ; publish_setup s added x insts
    else publish_setup (unwatch s n) added x insts
  end.

(** what the handler answers: an error and, possibly, a value for autoPublish; the n-th call gets
    the n-th answer; the provider's code *)
Definition answers := nat -> Z * option bool.
(** helper, no code of its own *)
Definition with_log (s : state) (c : call) : state :=
  mkState (tops s) (next_el s) (subs s) (links s) (next_sub s) (next_id s) (watched s) (timers s) (log s ++ [c]) (file s).
(** helper, no code of its own *)
Definition ends_dot (s : list Z) : bool := last s 0 =? 46.
(** rbus.c:1092-1133: the handler is asked first; autoPublish, and the error with which the
    request ends here *)
Definition ask (ans : answers) (s : state) (added : bool) (i : einfo) (k : key) : state * bool * option Z :=
  let auto0 := negb (k_raw k) in
  if i_handler i then
    let '(err, o) := ans (length (log s)) in
    let auto := match o with Some b => b | None => auto0 end in
    (with_log s (mkCall (if added then SUBSCRIBE else UNSUBSCRIBE) k err), auto,
     if k_raw k && auto then Some E_INVALID_INPUT else if negb (err =? 0) then Some err else None)
  else (s, if negb (k_interval k =? 0) then true else auto0, None).
(** rbus.c:1070-1237 subscribeHandlerImpl on an element *)
Definition handle (ans : answers) (s : state) (added : bool) (e : nat) (k : key) : outcome unit (state * Z) :=
  match find_top e (tops s) with
  | None => UB
  | Some (up, t) =>
    let i := el_info t in
    let '(s, auto, early) := ask ans s added i k in
    match early with
    | Some err => Ok (s, err)
    | None =>
      if added && negb (k_interval k =? 0) && ends_dot (k_event k) then Ok (s, E_INVALID_OPERATION) else
      do f <- get_sub (subs s) k ;
      let rest (s : state) (x : sub) :=
        if k_raw k && negb (ntype (i_node i) =? EVENT) then Ok (s, E_INVALID_INPUT) else
        do s <- (if (ntype (i_node i) =? PROPERTY) && s_auto x then publish_setup s added x (s_insts x) else Ok s) ;
        do s <- (if added then Ok s else remove_sub s x) ;
        Ok (s, E_SUCCESS) in
      match added, f with
      | true, Some _ => Ok (s, E_SUBSCRIPTION_ALREADY_EXIST)
      | true, None =>
        do r <- add_sub s k auto e (i_node i :: up) ;
        match r with None => Ok (s, E_INVALID_INPUT) | Some (x, s) => rest s x end
      | false, None => Ok (s, E_INVALID_INPUT)
      | false, Some x => rest s x
      end
    end
  end.

(** rbus.c:2565-2640: the request; [e]: the element its name leads to *)
Definition request (ans : answers) (s : state) (added : bool) (e : option nat) (k : key) : outcome unit (state * Z) :=
  match e with
  | None => Ok (s, E_ELEMENT_DOES_NOT_EXIST)
  | Some n =>
    match find_top n (tops s) with
    | None => Err tt
    | Some (_, t) => if (ntype (el_node t) =? TABLE) && negb (ends_dot (k_event k)) then Ok (s, E_INVALID_EVENT) else handle ans s added n k
    end
  end.

(** the item of the list with this subscription, and the next one; rtList_GetFront/rtListItem_GetNext walks *)
Fixpoint item (x : nat) (l : list sub) : option (sub * option nat) :=
  match l with
  | [] => None
  | y :: l => if Nat.eqb (s_no y) x then Some (y, match l with z :: _ => Some (s_no z) | [] => None end) else item x l
  end.
(** rtList_GetFront *)
Definition front (l : list sub) : option nat := match l with y :: _ => Some (s_no y) | [] => None end.
(** rtList_RemoveItem *)
Fixpoint drop_one (n : nat) (l : list nat) : list nat := match l with [] => [] | m :: l => if Nat.eqb m n then l else m :: drop_one n l end.
(** rtList_RemoveItem(sub->instances, ...) and removeElementSubscription; rbus_subscriptions.c:345-346 *)
Definition drop_inst (s : state) (n : nat) (x : sub) : state :=
  mkState (tops s) (next_el s)
    (map (fun y => if Nat.eqb (s_no y) (s_no x) then mkSub (s_no y) (s_key y) (s_auto y) (s_el y) (s_chain y) (drop_one n (s_insts y)) (s_id y) else y) (subs s))
    (unlink n (s_no x) (links s)) (next_sub s) (next_id s) (watched s) (timers s) (log s) (file s).
(** rbus_subscriptions.c:327-367: the loop for one deleted element; an item that is no longer in
    the list has been freed *)
Fixpoint deleted_loop (fuel : nat) (n : nat) (cur : option nat) (val : bool) (s : state) : outcome unit state :=
  match cur, fuel with
  | None, _ => Ok s
  | Some _, O => UB
  | Some c, S fuel =>
    match item c (subs s) with
    | None => UB
    | Some (x, next) =>
      let hit := existsb (Nat.eqb n) (s_insts x) in
      let s := if hit then drop_inst s n x else s in
      let val := hit || val in
      do s <- (if val then
                 do f <- get_sub (subs s) (s_key x) ;
                 match f with Some y => remove_sub s y | None => Ok s end
               else Ok s) ;
      deleted_loop fuel n next val s
    end
  end.
(** rbus_subscriptions.c:327-367, continued *)
Fixpoint deleted_all (l : list (nat * path)) (s : state) : outcome unit state :=
  match l with
  | [] => Ok s
  | (n, _) :: l => do s <- deleted_loop (length (subs s)) n (front (subs s)) false s ; deleted_all l s
  end.
(** rbus.c:1028-1068 valueChangeTableRowUpdate, over the properties of a row *)
Definition is_prop (p : path) : bool := match p with n :: _ => ntype n =? PROPERTY | [] => false end.
(** rbus.c:1028-1068, continued *)
Fixpoint row_watch (l : list (nat * path)) (added : bool) (s : state) : outcome unit state :=
  match l with
  | [] => Ok s
  | (n, p) :: l =>
    if is_prop p && auto_linked s n None then
      if added then do s <- watch s n ; row_watch l added s else row_watch l added (unwatch s n)
    else row_watch l added s
  end.
(** rbus.c:1303-1316 unregisterTableRow; the events it publishes are another model *)
Definition remove_row (s : state) (r : nat) : outcome unit state :=
  match find_top r (tops s) with
  | None => Err tt
  | Some (up, t) =>
    let l := flat_map (visited (el_node t :: up)) (el_kids t) in
    do s <- row_watch l false s ;
    do s <- deleted_all l s ;
    let gone := nos t in
    Ok (mkState (flat_map (fun c => if Nat.eqb (el_no c) r then [] else [drop_el r c]) (tops s)) (next_el s) (subs s)
          (List.filter (fun y => negb (existsb (Nat.eqb (l_el y)) gone)) (links s)) (next_sub s) (next_id s) (watched s) (timers s) (log s) (file s))
  end.
(** rbus_subscriptions.c:284-298: one new element against the subscriptions, in order.  The chain
    points to the element it was built for *)
Fixpoint link_new (s : state) (n : nat) (p : path) (l : list sub) : outcome unit (list sub * list link) :=
  match l with
  | [] => Ok ([], [])
  | x :: l =>
    do m <- match s_chain x, s_el x with
            | Some c, Some e => if alive e s then match_ c p else UB
            | _, _ => Ok false
            end ;
    do (l', k) <- link_new s n p l ;
    Ok (if (m : bool) then (mkSub (s_no x) (s_key x) (s_auto x) (s_el x) (s_chain x) (s_insts x ++ [n]) (s_id x) :: l', link_to x n :: k) else (x :: l', k))
  end.
(** rbus_subscriptions.c:284-298, continued *)
Fixpoint link_all (new : list (nat * path)) (s : state) : outcome unit state :=
  match new with
  | [] => Ok s
  | (n, p) :: new =>
    do (l, k) <- link_new s n p (subs s) ;
    link_all new (mkState (tops s) (next_el s) l (links s ++ k) (next_sub s) (next_id s) (watched s) (timers s) (log s) (file s))
  end.
(** rtList_RemoveItem(subscriptions->subList, item, NULL); rbus_subscriptions.c:770, 817 *)
Definition take_out (s : state) (x : nat) : state :=
  mkState (tops s) (next_el s) (List.filter (fun y => negb (Nat.eqb (s_no y) x)) (subs s)) (links s) (next_sub s) (next_id s) (watched s) (timers s) (log s) (file s).
(** rbus_subscriptions.c:284-298, continued *)
Definition free_sub (s : state) (x : sub) : outcome unit state :=
  do l <- unlink_all s (s_insts x) (s_no x) (links s) ;
  Ok (mkState (tops s) (next_el s) (subs s) l (next_sub s) (next_id s) (watched s) (timers s) (log s) (file s)).
(** rbus_subscriptions.c:764-773, 808-815: out of the list, subscribed again, freed; errors are ignored *)
Definition again (ans : answers) (s : state) (x : sub) (e : nat) : outcome unit state :=
  do (s, _) <- handle ans (take_out s (s_no x)) true e (s_key x) ;
  free_sub s x.
(** node->fullName; rbus_element.h:63 *)
Fixpoint full_name (p : path) : list Z :=
  match p with [] => [] | [n] => nname n | n :: p => full_name p ++ [46] ++ nname n end.
(** rbus_subscriptions.c:764-773, 808-815, continued *)
Fixpoint is_prefix (a b : list Z) : bool :=
  match a, b with [], _ => true | x :: a, y :: b => (x =? y) && is_prefix a b | _ :: _, [] => false end.
(** rbus_subscriptions.c:783-830 rbusSubscriptions_resubscribeRowElementCache; [count] items;
    [look]: the elements names lead to *)
Fixpoint row_again (count : nat) (ans : answers) (look : list Z -> option nat) (row : list Z) (cur : option nat) (s : state) : outcome unit state :=
  match cur, count with
  | None, _ | _, O => Ok s
  | Some c, S count =>
    match item c (subs s) with
    | None => UB
    | Some (x, next) =>
      do s <- (if is_prefix row (k_event (s_key x)) then
                 match look (k_event (s_key x)) with Some e => if alive e s then again ans s x e else Err tt | None => Ok s end
               else Ok s) ;
      row_again count ans look row next s
    end
  end.
(** rbus.c:1239-1300 registerTableRow; the event it publishes is another model *)
Definition add_row (ans : answers) (look : list Z -> option nat) (s : state) (table : nat) (row : shape) : outcome unit state :=
  match find_top table (tops s) with
  | None => Err tt
  | Some (up, t) =>
    let '(r, m) := number (next_el s) row in
    let below := el_node r :: el_node t :: up in
    let s := mkState (map (add_kid table r) (tops s)) m (subs s) (links s) (next_sub s) (next_id s) (watched s) (timers s) (log s) (file s) in
    do s <- link_all (flat_map (created below) (el_kids r)) s ;
    do s <- row_watch (flat_map (visited below) (el_kids r)) true s ;
    row_again (length (subs s)) ans look (full_name below) (front (subs s)) s
  end.
(** rbus_subscriptions.c:702-744 *)
Fixpoint name_fits (a b : list Z) : bool :=
  match a, b with
  | [], [] => true
  | x :: a, y :: b =>
    if x =? y then name_fits a b
    else if (x =? 42) && is_prefix TEMPLATE (y :: b) then name_fits a (skipn 2 b) else false
  | _, _ => false
  end.
(** rbus_subscriptions.c:746-781 rbusSubscriptions_resubscribeElementCache, for an element that
    has just been registered under [name] *)
Fixpoint cache_again (fuel : nat) (ans : answers) (name : list Z) (e : nat) (cur : option nat) (s : state) : outcome unit state :=
  match cur, fuel with
  | None, _ => Ok s
  | Some _, O => UB
  | Some c, S fuel =>
    match item c (subs s) with
    | None => UB
    | Some (x, next) =>
      if negb (is_some (s_el x)) && negb (is_some (s_chain x)) && name_fits (k_event (s_key x)) name then
        do s <- again ans s x e ; cache_again fuel ans name e next s
      else cache_again fuel ans name e next s
    end
  end.
(** rbus_subscriptions.c:746-781, continued *)
Definition registered (ans : answers) (s : state) (name : list Z) (e : nat) : outcome unit state :=
  match find_top e (tops s) with
  | None => Err tt
  | Some _ => cache_again (2 * length (subs s)) ans name e (front (subs s)) s
  end.

(** rbus_subscriptions.c:832-862 rbusSubscriptions_handleClientDisconnect; [found]: the names that
    lead to an element *)
Fixpoint disconnect_loop (fuel : nat) (ans : answers) (found : list Z -> bool) (listener : list Z) (cur : option nat) (s : state) : outcome unit state :=
  match cur, fuel with
  | None, _ => Ok s
  | Some _, O => UB
  | Some c, S fuel =>
    match item c (subs s) with
    | None => UB
    | Some (x, next) =>
      do s <- (if bytes_eqb (k_listener (s_key x)) listener && found (k_event (s_key x)) then
                 match s_el x with
                 | None => Ok s
                 | Some e => do (s, _) <- handle ans s false e (mkKey (k_listener (s_key x)) (k_comp (s_key x)) (k_event (s_key x)) FNull 0 0 false) ; Ok s
                 end
               else Ok s) ;
      disconnect_loop fuel ans found listener next s
    end
  end.
(** rbus_subscriptions.c:832-862, continued *)
Definition disconnect (ans : answers) (found : list Z -> bool) (s : state) (listener : list Z) : outcome unit state :=
  disconnect_loop (length (subs s)) ans found listener (front (subs s)) s.

(** The operations a history consists of, one for each function modelled above; no code of its own. *)
Inductive op :=
  | Subscribe (e : option nat) (k : key) | Unsubscribe (e : option nat) (k : key)
  | AddRow (look : list Z -> option nat) (table : nat) (row : shape) | RemoveRow (row : nat) | Registered (name : list Z) (e : nat) | Disconnect (found : list Z -> bool) (listener : list Z).
(** [Err tt]: not a possible operation (no such element); calls the functions modelled above *)
Definition step (ans : answers) (s : state) (o : op) : outcome unit (state * Z) :=
  match o with
  | Subscribe e k => request ans s true e k
  | Unsubscribe e k => request ans s false e k
  | AddRow f t r => do s <- add_row ans f s t r ; Ok (s, 0)
  | RemoveRow r => do s <- remove_row s r ; Ok (s, 0)
  | Registered n e => do s <- registered ans s n e ; Ok (s, 0)
  | Disconnect f l => do s <- disconnect ans f s l ; Ok (s, 0)
  end.
(** A history: one operation after the other; no code of its own. *)
Fixpoint run (ans : answers) (s : state) (l : list op) : outcome unit (state * list Z) :=
  match l with
  | [] => Ok (s, [])
  | o :: l => do (s, r) <- step ans s o ; do (s, rs) <- run ans s l ; Ok (s, r :: rs)
  end.
(** helper, no code of its own *)
Fixpoint number_all (n : nat) (l : list shape) : list el * nat :=
  match l with [] => ([], n) | x :: l => let '(e, n) := number n x in let '(es, n) := number_all n l in (e :: es, n) end.
(** subscriptions read from the cache file have neither element nor chain (rbus_subscriptions.c:435-631) *)
Fixpoint cached (n : nat) (l : list (key * bool * Z)) : list sub :=
  match l with [] => [] | (k, a, id) :: l => mkSub n k a None None [] id :: cached (S n) l end.
(** a provider that has read its cache file; simplification: its elements are all in the tree
    before the first of them is announced with [Registered]; rbus.c:2942-3075 *)
Definition init (l : list shape) (c : list (key * bool * Z)) : state :=
  let '(es, n) := number_all 0 l in mkState es n (cached 0 c) [] (length c) 3 [] [] [] (cached 0 c).

(** ** publishing *)
(** rbusEvent_t: name, type VALUE_CHANGED or not, and the properties of its data; include/rbus.h:227-232 *)
Record event := mkEvent { ev_name : list Z; ev_change : bool; ev_data : list (list Z * value) }.
(** rbusObject_GetValue, rbus_object.c *)
Fixpoint get_prop (n : list Z) (l : list (list Z * value)) : option value :=
  match l with [] => None | (m, v) :: l => if bytes_eqb m n then Some v else get_prop n l end.
(** rbus_object.c:362-385 *)
Fixpoint set_prop (n : list Z) (v : value) (l : list (list Z * value)) : list (list Z * value) :=
  match l with [] => [(n, v)] | (m, w) :: l => if bytes_eqb m n then (m, v) :: l else (m, w) :: set_prop n v l end.
(** what rbusEventData_appendToMessage and rbus_publishSubscriberEvent are given; rbus.c:5913-6034 *)
Record message := mkMsg { m_to : key; m_id : Z; m_name : list Z; m_data : list (list Z * value) }.
(** rbus_object.c:362-385, continued *)
Definition sub_of (s : state) (x : nat) : option sub := find (fun y => Nat.eqb (s_no y) x) (subs s).
(** rbus.c:5967-6031; [sent i]: the error of the i-th send *)
Fixpoint publish_loop (s : state) (sent : nat -> Z) (l : list link) (ev : event) (i : nat) (err : Z) : outcome unit (list message * Z) :=
  match l with
  | [] => Ok ([], err)
  | y :: l =>
    match sub_of s (l_sub y) with
    | None => UB
    | Some x =>
      do (ev, pub) <-
        (match ev_change ev, k_filter (s_key x) with
         | false, _ | true, FNull => Ok (ev, true)
         | true, f =>
           match get_prop (bs "value") (ev_data ev), get_prop (bs "oldValue") (ev_data ev) with
           | Some vn, Some vo =>
             do a <- filter_apply f vn ; do b <- filter_apply f vo ;
             if eqb a b then Ok (ev, false) else Ok (mkEvent (ev_name ev) (ev_change ev) (set_prop (bs "filter") (VBool a) (ev_data ev)), true)
           | _, _ => UB
           end
         end) ;
      if pub && negb (k_raw (s_key x)) then
        do (ms, err) <- publish_loop s sent l ev (S i) (if err =? 0 then sent i else err) ;
        Ok (mkMsg (s_key x) (s_id x) (ev_name ev) (ev_data ev) :: ms, err)
      else publish_loop s sent l ev i err
    end
  end.
(** rbus.c:5913-6034 rbusEvent_Publish; [e]: the element of the name *)
Definition publish (s : state) (sent : nat -> Z) (e : option nat) (ev : event) : outcome unit (list message * Z) :=
  match e with
  | None => Ok ([], E_ELEMENT_DOES_NOT_EXIST)
  | Some n =>
    match List.filter (fun y => Nat.eqb (l_el y) n) (links s) with
    | [] => Ok ([], E_NOSUBSCRIBERS)
    | l =>
      if ev_change ev && negb (is_some (get_prop (bs "value") (ev_data ev)) && is_some (get_prop (bs "oldValue") (ev_data ev))) then Ok ([], E_INVALID_INPUT) else
      do (ms, err) <- publish_loop s sent l ev 0 0 ;
      Ok (ms, if err =? 0 then E_SUCCESS else E_BUS_ERROR)
    end
  end.
(** rbus.c:5849-5911 rbusEvent_PublishRawData: what is sent to subscribers, and the topic on which
    the data are sent as well; [sent i] as above, the result is that of the last send *)
Fixpoint raw_loop (s : state) (l : list link) (data : list Z) : outcome unit (list (key * Z * list Z)) :=
  match l with
  | [] => Ok []
  | y :: l =>
    match sub_of s (l_sub y) with
    | None => UB
    | Some x => do ms <- raw_loop s l data ; Ok (if k_raw (s_key x) then (s_key x, s_id x, data) :: ms else ms)
    end
  end.
(** rbus.c:5849-5911, continued *)
Definition publish_raw (s : state) (sent : nat -> Z) (e : option nat) (name data : list Z) : outcome unit (list (key * Z * list Z) * option (list Z) * Z) :=
  match e with
  | None => Ok ([], None, E_ELEMENT_DOES_NOT_EXIST)
  | Some n =>
    match List.filter (fun y => Nat.eqb (l_el y) n) (links s) with
    | [] => Ok ([], None, E_NOSUBSCRIBERS)
    | l => do ms <- raw_loop s l data ; Ok (ms, Some (bs "rawdata." ++ name), sent (length ms))
    end
  end.
