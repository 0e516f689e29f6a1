(** Model of the queries of a provider for a partial path or a wildcard name:
    src/rbus/rbus.c:1682-1953 (_convert_reg_name_to_instance_name,
    _get_recursive_partialpath_handler, get_recursive_wildcard_handler) over the element tree
    of ElemModel.
    Simplifications: the get handler of a property is a function of the handler and the name
    it is called with, giving an error code and a value, and does not rename the property; the
    get handler of a table gives the properties it adds after the one it is called with, or
    fails; handlers do not change the tree; table sync handlers are absent, locks are left out.
    Reading or writing outside a buffer and not returning are both [UB]. *)
From Coq Require Import String.
From Verif Require Import Common TextModel Errors ElemModel.
Local Open Scope string_scope.
Local Open Scope list_scope.
Local Open Scope Z_scope.

(** the get handlers of the provider, called in rbus.c:1782, 1829, 1935-1945 *)
Record handlers (V : Type) := mkHandlers {
  prop_get : Z -> name -> Z * V;
  table_get : Z -> name -> option (list (name * V)) }.
Arguments prop_get {V}. Arguments table_get {V}. Arguments mkHandlers {V}.

(** elementNode.fullName: the names from the root down, with dots between (rbus_element.c:303-318,
    929-938); the cut at 255 bytes is left out *)
Fixpoint full (p : list name) : name :=
  match p with [] => [] | [n] => n | n :: p => n ++ bs "." ++ full p end.
(** the names on the way to a position; node->fullName, rbus_element.h:63 *)
Fixpoint path_of (t : tree) (pos : list nat) : list name :=
  match pos with
  | [] => []
  | j :: pos => match nth_error (kids t) j with Some (n, c) => n :: path_of c pos | None => [] end
  end.

(** rbus.c:1690-1695, the inner loop: it does not stop at the end of both strings *)
Fixpoint same (reg q : list Z) : option (list Z * list Z * list Z) :=
  match reg, q with
  | [], [] => None
  | x :: r, y :: s =>
    if x =? y then match same r s with Some (o, r, s) => Some (x :: o, r, s) | None => None end
    else Some ([], reg, q)
  | _, _ => Some ([], reg, q)
  end.
(** rbus.c:1690-1695, continued *)
Fixpoint upto_dot (s : list Z) : list Z * list Z :=
  match s with
  | [] => ([], [])
  | c :: r => if c =? 46 then ([], s) else let (a, b) := upto_dot r in (c :: a, b)
  end.
(** rbus.c:1682-1737; running out of fuel is going round without advancing *)
Fixpoint conv (fuel : nat) (reg q : list Z) : option (list Z) :=
  match reg, q with
  | [], _ | _, [] => Some []
  | _, _ =>
    match fuel with
    | O => None
    | S fuel =>
      match same reg q with
      | None => None
      | Some (o1, reg, q) =>
        let '(o2, reg, q) := match reg with
                             | 123 :: _ => (fst (upto_dot q), snd (upto_dot reg), snd (upto_dot q))
                             | _ => ([], reg, q)
                             end in
        let '(o3, reg) := match q with [] => (reg, []) | _ => ([], reg) end in
        match conv fuel reg q with Some o => Some (o1 ++ o2 ++ o3 ++ o) | None => None end
      end
    end
  end.
(** into a buffer of RBUS_MAX_NAME_LENGTH (include/rbus.h:96), with the closing zero *)
Definition convert (reg q : list Z) : outcome unit name :=
  match conv (S (length reg + length q)) reg q with
  | Some o => if Nat.leb 256 (length o) then UB else Ok o
  | None => UB
  end.
(** include/rbus.h:96, continued *)
Definition instance_name (q : option (list Z)) (fn : name) : outcome unit name :=
  match q with Some q => convert fn q | None => Ok fn end.

(** rbus.c:1751-1851 _get_recursive_partialpath_handler *)
Definition from_prop {V} (h : handlers V) (i : info) (nm : name) : list (name * V) :=
  let (rc, v) := prop_get h (hid i) nm in if rc =? E_SUCCESS then [(nm, v)] else [].
(** rbus.c:1751-1851, continued *)
Definition from_table {V} (h : handlers V) (i : info) (nm : name) : list (name * V) :=
  match table_get h (hid i) (firstn 254 (nm ++ bs ".")) with Some l => l | None => [] end.
(** rbus.c:1751-1851, continued *)
Fixpoint collect {V} (h : handlers V) (q : option (list Z)) (fn : name) (t : tree) {struct t} : outcome unit (list (name * V)) :=
  match t with
  | Node i _ k =>
    if (typ i =? TABLE) && getter i then
      do nm <- instance_name q fn ; Ok (from_table h i nm)
    else
      (fix children (k : list (name * tree)) : outcome unit (list (name * V)) :=
         match k with
         | [] => Ok []
         | (n, c) :: k =>
           let cn := fn ++ bs "." ++ n in
           do here <-
             (if negb (is_table c) && getter (inf c) then
                do nm <- instance_name q cn ; Ok (from_prop h (inf c) nm)
              else if negb match kids c with [] => true | _ => false end &&
                      negb ((typ i =? TABLE) && bytes_eqb n TEMPLATE && negb (getter (inf c)))
              then collect h q cn c
              else Ok []) ;
           do rest <- children k ;
           Ok (here ++ rest)
         end) k
  end.

(** rbus.c:1867-1875: the copy of the name, without a star after a last dot *)
Definition star_off (s : list Z) : list Z :=
  match rev s with 42 :: 46 :: r => rev (46 :: r) | _ => s end.
(** strstr(s, "*"); libc *)
Fixpoint at_star (s : list Z) : option (list Z * list Z) :=
  match s with
  | [] => None
  | c :: r => if c =? 42 then Some ([], r) else match at_star r with Some (a, b) => Some (c :: a, b) | None => None end
  end.
(** strstr(s, "{i}"); libc *)
Fixpoint has_template (s : list Z) : bool :=
  bytes_eqb (firstn 3 s) TEMPLATE || match s with [] => false | _ :: r => has_template r end.
(** rbus.c:1853-1953 get_recursive_wildcard_handler *)
Fixpoint wildcard {V} (fuel : nat) (t : tree) (h : handlers V) (param : list Z) {struct fuel} : outcome unit (Z * list (name * V)) :=
  match fuel with
  | O => UB
  | S fuel =>
    let s := firstn 255 param in
    match s with
    | [] | [42] => UB                     (* instanceName[-1] *)
    | _ =>
      let s := star_off s in
      match at_star s with
      | Some (pre, post) =>
        match retrieve_instance t pre with
        | None => Ok (E_ELEMENT_DOES_NOT_EXIST, [])
        | Some (_, el) =>
          if negb (is_table el) then Ok (E_ACCESS_NOT_ALLOWED, []) else
          (fix rows (k : list (name * tree)) : outcome unit (Z * list (name * V)) :=
             match k with
             | [] => Ok (E_SUCCESS, [])
             | (n, c) :: k =>
               if bytes_eqb n TEMPLATE then rows k else
               do (rc, l) <- wildcard fuel t h (firstn 255 (pre ++ n ++ post)) ;
               if rc =? E_SUCCESS then do (rc', l') <- rows k ; Ok (rc', l ++ l')
               else Ok (rc, l)
             end) (kids el)
        end
      | None =>
        match retrieve_instance t s with
        | None => Ok (E_ELEMENT_DOES_NOT_EXIST, [])
        | Some (pos, el) =>
          if last s 0 =? 46 then
            let fn := full (path_of t pos) in
            do l <- collect h (if has_template fn then Some param else None) fn el ;
            Ok (E_SUCCESS, l)
          else if negb (is_table el) && getter (inf el) then
            let (rc, v) := prop_get h (hid (inf el)) s in
            Ok (rc, if rc =? E_SUCCESS then [(s, v)] else [])
          else Ok (E_SUCCESS, [])
        end
      end
    end
  end.
(** rbus.c:1853-1953, continued *)
Definition stars (s : list Z) : nat := length (filter (fun c => c =? 42) s).
(** rbus.c:2037-2056: the answer to a query; the properties are sent only on success *)
Definition query {V} (t : tree) (h : handlers V) (s : list Z) : outcome unit (Z * list (name * V)) :=
  do (rc, l) <- wildcard (S (stars s)) t h s ;
  Ok (rc, if rc =? E_SUCCESS then l else []).
