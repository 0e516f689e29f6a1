(** Model of src/rtmessage/rtRoutingTree.c, the broker's topic tree.  A topic is named by the
    path of its names (siblings have different names, so pointers to topics are paths); the
    rtTreeRoute objects are numbered in the order they are allocated, and a number that is no
    longer among the live ones is a dangling pointer. *)
From Coq Require Import String.
From Verif Require Import Common.
Local Open Scope string_scope.
Local Open Scope list_scope.
Local Open Scope Z_scope.

(** rtError.h:42 *)
Definition RT_OK : Z := 0.
Definition RT_ERROR_PROTOCOL_ERROR : Z := 1003.      (* rtError.h:42,56-62 *)
Definition RT_ERROR_INVALID_EXPRESSION : Z := 12.
(** rtError.h:42,56-62, continued *)
Definition RT_ERROR_DUPLICATE_ENTRY : Z := 1001.
(** rtError.h:42,56-62, continued *)
Definition MAX_TOKENS : nat := 32.
(** rtError.h:42,56-62, continued *)
Definition MAX_TOKEN_BUFFER_SIZE : nat := 512.

(** ** names; rtRoutingTree.c:143-162 tokenizeExpression *)
Fixpoint cut (s cur : list Z) : list (list Z) :=
  match s with
  | [] => [cur]
  | c :: r => if c =? 46 then cur :: match r with [] => [] | _ => cut r [] end else cut r (cur ++ [c])
  end.
(** rtRoutingTree.c:143-162 tokenizeExpression *)
Definition split (s : list Z) : list (list Z) := match s with [] => [] | _ => cut s [] end.
(** the bytes tokenizeExpression writes, rtRoutingTree.c:143-162 *)
Definition written (ts : list (list Z)) : nat := fold_right (fun t n => (S (length t) + n)%nat) 0%nat ts.
(** rtRoutingTree.c:143-162 tokenizeExpression into workTokens and workBuffer *)
Definition tokenize (s : list Z) : outcome unit (list (list Z)) :=
  let ts := split s in
  if Nat.leb (length ts) MAX_TOKENS && Nat.leb (written ts) MAX_TOKEN_BUFFER_SIZE then Ok ts else UB.
(** rtRoutingTree.c:143-162, continued *)
Fixpoint dots (s : list Z) : nat := match s with [] => 0 | c :: r => ((if (c =? 46)%Z then 1 else 0) + dots r)%nat end.
(** rtRoutingTree.c:143-162, continued *)
Fixpoint double_dot (s : list Z) : bool :=
  match s with
  | [] => false
  | c :: r => ((c =? 46) && match r with d :: _ => d =? 46 | [] => false end) || double_dot r
  end.
(** rtRoutingTree.c:114-141 validateExpression *)
Definition validate (s : list Z) : bool :=
  negb (double_dot s) && Nat.leb (length s) MAX_TOKEN_BUFFER_SIZE && Nat.leb (dots s) MAX_TOKENS.

(** ** the tree *)
(** rtRoutingTree.h rtTreeTopic; a NULL list is [None]; rtRoutingTree.h:137-146 *)
Inductive topic := Node (table : bool) (rl rl2 : option (list nat)) (ks : list (list Z * topic)).
(** rtRoutingTree.h:145 *)
Definition is_table (t : topic) := let '(Node b _ _ _) := t in b.
(** rtRoutingTree.h:141 *)
Definition routes (t : topic) := let '(Node _ r _ _) := t in r.
(** rtRoutingTree.h:142 *)
Definition routes2 (t : topic) := let '(Node _ _ r _) := t in r.
(** rtRoutingTree.h:140 *)
Definition kids (t : topic) := let '(Node _ _ _ k) := t in k.
(** rtRoutingTree.c:59-88 createTreeTopic *)
Definition blank : topic := Node false None None [].
(** rtRoutingTree.h rtTreeRoute; rtRoutingTree.h:131-135 *)
Record troute := mkTroute { tid : nat; tdata : Z; ttopics : list (list (list Z)) }.
(** rtRoutingTree.h:148-152 *)
Record state := mkState { root : topic; live : list troute; next : nat }.
(** rtRoutingTree.c:461-467 *)
Definition init : state := mkState blank [] 0.

(** helper, no code of its own *)
Definition first (n : list Z) : Z := match n with c :: _ => c | [] => 0 end.
(** a name that begins with "{" *)
Definition brace (n : list Z) : bool := first n =? 123.
(** a name that begins with a digit, "[" or "*"; used in the lookups below *)
Definition instance (n : list Z) : bool := ((48 <=? first n) && (first n <=? 57)) || (first n =? 91) || (first n =? 42).
(** rtRoutingTree.c:194-254 getChildByName: which child the loop stops at *)
Inductive hit := Exact (j : nat) (m : list Z) (c : topic) | Similar (j : nat) (m : list Z) (c : topic) | Clash (j : nat) (m : list Z) (c : topic) | Missing.
(** rtRoutingTree.c:194-254, continued *)
Fixpoint child (n : list Z) (k : list (list Z * topic)) (j : nat) : hit :=
  match k with
  | [] => Missing
  | (m, c) :: k =>
    if bytes_eqb m n then Exact j m c
    else if brace m && instance n then Similar j m c
    else if brace m || brace n then Clash j m c
    else child n k (S j)
  end.

(** rtRoutingTree.c:506-516 with createTreeTopic (59-88): the tree afterwards, the topic (none
    on error) and whether the last call created its topic *)
Fixpoint add_walk (ts : list (list Z)) (created : bool) (t : topic) : topic * option (list (list Z) * bool) :=
  match ts with
  | [] => (t, Some ([], created))
  | n :: ts =>
    let cons m r := match r with Some (p, b) => Some (m :: p, b) | None => None end in
    match child n (kids t) 0 with
    | Missing =>
      let '(c, r) := add_walk ts true blank in
      (Node (is_table t || brace n) (routes t) (routes2 t) (kids t ++ [(n, c)]), cons n r)
    | Exact j m c | Similar j m c =>
      let '(c, r) := add_walk ts false c in
      (Node (is_table t) (routes t) (routes2 t) (upd (kids t) j (m, c)), cons m r)
    | Clash _ _ _ => (t, None)
    end
  end.
(** the topic with exactly this path; a search among rtTreeTopic.childList *)
Fixpoint kid (n : list Z) (k : list (list Z * topic)) : option topic :=
  match k with [] => None | (m, c) :: k => if bytes_eqb m n then Some c else kid n k end.
(** rtRoutingTree.c:506-516, continued *)
Fixpoint sub (t : topic) (p : list (list Z)) : option topic :=
  match p with [] => Some t | n :: p => match kid n (kids t) with Some c => sub c p | None => None end end.
(** rtRoutingTree.c:506-516, continued *)
Fixpoint on_kid (n : list Z) (f : topic -> topic) (k : list (list Z * topic)) : list (list Z * topic) :=
  match k with [] => [] | (m, c) :: k => if bytes_eqb m n then (m, f c) :: k else (m, c) :: on_kid n f k end.
(** rtRoutingTree.c:506-516, continued *)
Definition olist {A} (o : option (list A)) : list A := match o with Some l => l | None => [] end.
(** rtRoutingTree.c:506-516, continued *)
Fixpoint path_eqb (a b : list (list Z)) : bool :=
  match a, b with
  | [], [] => true
  | x :: a, y :: b => bytes_eqb x y && path_eqb a b
  | _, _ => false
  end.
(** rtRoutingTree.c:277-295 *)
Definition add_once (i : nat) (l : list nat) : list nat := if existsb (Nat.eqb i) l then l else l ++ [i].
(** rtRoutingTree.c:277-295, continued *)
Definition add_path_once (p : list (list Z)) (l : list (list (list Z))) : list (list (list Z)) :=
  if existsb (path_eqb p) l then l else l ++ [p].
(** rtRoutingTree.c:525-534 with optimizeTopicsBackpropagate (297-304), below the root *)
Fixpoint push (p : list (list Z)) (i : nat) (t : topic) : topic :=
  match p with
  | [] => Node (is_table t) (Some (olist (routes t) ++ [i])) (routes2 t) (kids t)
  | n :: p => Node (is_table t) (routes t) (Some (add_once i (olist (routes2 t)))) (on_kid n (push p i) (kids t))
  end.
(** rtRoutingTree.c:525-534, continued *)
Definition push_root (p : list (list Z)) (i : nat) (t : topic) : topic :=
  match p with [] => t | n :: p => Node (is_table t) (routes t) (routes2 t) (on_kid n (push p i) (kids t)) end.

(** rtRoutingTree.c:256-275 getTreeRoute *)
Definition find_data (d : Z) (l : list troute) : option troute := find (fun r => tdata r =? d) l.
(** rtRoutingTree.c:256-275, continued *)
Definition find_id (i : nat) (l : list troute) : option troute := find (fun r => Nat.eqb (tid r) i) l.
(** rtRoutingTree.c:256-275, continued *)
Definition set_topics (i : nat) (f : list (list (list Z)) -> list (list (list Z))) (l : list troute) : list troute :=
  map (fun r => if Nat.eqb (tid r) i then mkTroute (tid r) (tdata r) (f (ttopics r)) else r) l.
(** rtRoutingTree.c:256-275, continued *)
Definition ADVISORY : list Z := bs "_RTROUTED.ADVISORY".

(** rtRoutingTree.c:477-535 rtRoutingTree_AddTopicRoute *)
Definition add (s : state) (name : list Z) (d : Z) (err_on_dup : bool) : outcome unit (state * Z) :=
  if negb (validate name) then Ok (s, RT_ERROR_INVALID_EXPRESSION) else
  do ts <- tokenize name ;
  match ts with
  | [] => Ok (s, RT_OK)
  | _ =>
    let '(s, i) := match find_data d (live s) with
                   | Some r => (s, tid r)
                   | None => (mkState (root s) (live s ++ [mkTroute (next s) d []]) (S (next s)), next s)
                   end in
    match add_walk ts false (root s) with
    | (t, None) => Ok (mkState t (live s) (next s), RT_ERROR_PROTOCOL_ERROR)
    | (t, Some (p, created)) =>
      if err_on_dup && negb created && is_some (match sub t p with Some x => routes x | None => None end) && negb (bytes_eqb name ADVISORY)
      then Ok (mkState t (live s) (next s), RT_ERROR_DUPLICATE_ENTRY)
      else Ok (mkState (push_root p i t) (set_topics i (add_path_once p) (live s)) (next s), RT_OK)
    end
  end.

(** the loops of rtRoutingTree.c:549-600, 688-694 *)
Fixpoint walk (ts : list (list Z)) (t : topic) : option topic :=
  match ts with
  | [] => Some t
  | n :: ts => match child n (kids t) 0 with
               | Exact _ _ c | Similar _ _ c | Clash _ _ c => walk ts c
               | Missing => None
               end
  end.
(** rtRoutingTree.c:549-600, 688-694, continued *)
Definition ends_dot (s : list Z) : bool := last s 0 =? 46.
(** what a caller reads through a list of routes; rtTreeRoute.route of each *)
Fixpoint datas (l : list troute) (ids : list nat) : outcome unit (list Z) :=
  match ids with
  | [] => Ok []
  | i :: ids => match find_id i l with
                | Some r => do ds <- datas l ids ; Ok (tdata r :: ds)
                | None => UB
                end
  end.
(** rtRoutingTree.c:537-627 rtRoutingTree_GetTopicRoutes (ENABLE_ROUTE2_QUICK_GET_OPTIMIZATION is
    not defined) and the reading of the routes by the caller *)
Definition get (s : state) (name : list Z) : outcome unit (list Z) :=
  do ts <- tokenize name ;
  match ts with
  | [] => Ok []
  | _ =>
    match walk ts (root s) with
    | None => Ok []
    | Some t =>
      if ends_dot name then datas (live s) (olist (routes2 t))
      else if is_table t then
        match child (bs "{i}") (kids t) 0 with
        | Exact _ _ c | Similar _ _ c | Clash _ _ c => datas (live s) (olist (routes c))
        | Missing => Ok []
        end
      else datas (live s) (olist (routes t))
    end
  end.

(** rtList_RemoveItemByCompare takes out the first one; rtList.c:262 *)
Fixpoint rm (i : nat) (l : list nat) : list nat :=
  match l with [] => [] | x :: l => if Nat.eqb x i then l else x :: rm i l end.
(** the same for topics *)
Fixpoint rm_path (p : list (list Z)) (l : list (list (list Z))) : list (list (list Z)) :=
  match l with [] => [] | x :: l => if path_eqb x p then l else x :: rm_path p l end.
(** rtRoutingTree.c:313-362: no child and no route *)
Definition unused (t : topic) : bool := match kids t, olist (routes t) with [], [] => true | _, _ => false end.
(** rtRoutingTree.c:313-362 removeRouteFromTopicTree, with the removal from the topic itself *)
Fixpoint prune (i : nat) (t : topic) : topic :=
  match t with
  | Node b r r2 k =>
    Node b (option_map (rm i) r) (option_map (rm i) r2)
      ((fix go k := match k with
                    | [] => []
                    | (n, c) :: k => let c := prune i c in if unused c then go k else (n, c) :: go k
                    end) k)
  end.
(** rtRoutingTree.c:643-657 rtRoutingTree_RemoveRoute *)
Definition remove_route (s : state) (d : Z) : state :=
  match find_data d (live s) with
  | None => s
  | Some r => mkState (prune (tid r) (root s)) (filter (fun x => negb (Nat.eqb (tid x) (tid r))) (live s)) (next s)
  end.

(** rtRoutingTree.c:171-183: the loop over a topic's routes *)
Fixpoint forget (p : list (list Z)) (ids : list nat) (l : list troute) : outcome unit (list troute) :=
  match ids with
  | [] => Ok l
  | i :: ids =>
    match find_id i l with
    | None => UB
    | Some r =>
      let l := set_topics i (rm_path p) l in
      let l := match rm_path p (ttopics r) with [] => filter (fun x => negb (Nat.eqb (tid x) i)) l | _ => l end in
      forget p ids l
    end
  end.
(** rtRoutingTree.c:164-192 removeTopicFromRoutes on the topic at [p] *)
Fixpoint forget_tree (p : list (list Z)) (t : topic) (l : list troute) : outcome unit (list troute) :=
  match t with
  | Node _ r _ k =>
    do l <- forget p (olist r) l ;
    (fix go k l := match k with
                   | [] => Ok l
                   | (n, c) :: k => do l <- forget_tree (p ++ [n]) c l ; go k l
                   end) k l
  end.
(** rtRoutingTree.c:164-192, continued *)
Fixpoint drop_nth {A} (l : list A) (j : nat) : list A :=
  match l, j with [], _ => [] | _ :: l, O => l | x :: l, S j => x :: drop_nth l j end.
(** rtRoutingTree.c:659-677 rtRoutingTree_RemoveTopic; [up] is the path of [t] *)
Fixpoint remove_walk (up : list (list Z)) (ts : list (list Z)) (t : topic) (l : list troute) : outcome unit (topic * list troute) :=
  match ts with
  | [] => Ok (t, l)
  | n :: ts =>
    match child n (kids t) 0, ts with
    | Exact j m c, [] =>
      do l <- forget_tree (up ++ [m]) c l ;
      Ok (Node (is_table t) (routes t) (routes2 t) (drop_nth (kids t) j), l)
    | Exact j m c, _ :: _ | Similar j m c, _ | Clash j m c, _ =>
      do (c, l) <- remove_walk (up ++ [m]) ts c l ;
      Ok (Node (is_table t) (routes t) (routes2 t) (upd (kids t) j (m, c)), l)
    | Missing, _ => Ok (t, l)
    end
  end.
(** rtRoutingTree.c:659-677, continued *)
Definition remove_topic (s : state) (name : list Z) : outcome unit state :=
  do ts <- tokenize name ;
  do (t, l) <- remove_walk [] ts (root s) (live s) ;
  Ok (mkState t l (next s)).

(** rtRoutingTree.c:679-717 rtRoutingTree_ResolvePartialPath: the first topic of every route
    below; a route without topics makes it read through NULL *)
Fixpoint first_topics (l : list troute) (ids : list nat) : outcome unit (list (list (list Z))) :=
  match ids with
  | [] => Ok []
  | i :: ids => match find_id i l with
                | Some (mkTroute _ _ (p :: _)) => do ps <- first_topics l ids ; Ok (p :: ps)
                | _ => UB
                end
  end.
(** rtRoutingTree.c:679-717, continued *)
Definition resolve (s : state) (name : list Z) : outcome unit (list (list (list Z))) :=
  do ts <- tokenize name ;
  match ts with
  | [] => Ok []
  | _ => match walk ts (root s) with None => Ok [] | Some t => first_topics (live s) (olist (routes2 t)) end
  end.

(** The operations a history consists of, one for each function modelled above; no code of its own. *)
Inductive op := Add (name : list Z) (d : Z) (err_on_dup : bool) | RemoveRoute (d : Z) | RemoveTopic (name : list Z).
(** One operation of a history: calls the functions modelled above; no code of its own. *)
Definition step (s : state) (o : op) : outcome unit (state * Z) :=
  match o with
  | Add n d e => add s n d e
  | RemoveRoute d => Ok (remove_route s d, RT_OK)
  | RemoveTopic n => do s <- remove_topic s n ; Ok (s, RT_OK)
  end.
(** the operations with the codes they returned; no code of its own *)
Fixpoint run (s : state) (l : list op) : outcome unit (state * list (op * Z)) :=
  match l with
  | [] => Ok (s, [])
  | o :: l => do (s, e) <- step s o ; do (s, h) <- run s l ; Ok (s, (o, e) :: h)
  end.
