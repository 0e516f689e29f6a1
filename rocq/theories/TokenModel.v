(** Model of src/rbus/rbus_tokenchain.c: cutting a subscription name into segments and
    matching it against an element.  An element is the list of its ancestors, itself first,
    without the root (the only node whose parent is NULL). *)
From Coq Require Import String.
From Verif Require Import Common TextModel.
Local Open Scope string_scope.
Local Open Scope list_scope.
Local Open Scope Z_scope.

(** src/rbus/rbus_element.h: elementNode, the fields used here; rbus_element.h:60-75 *)
Record node := mkNode { nname : list Z; nalias : option (list Z); ntype : Z }.
(** an element as the list of its ancestors *)
Definition path := list node.
Definition TABLE : Z := 2.   (* include/rbus.h:361 *)
(** node->parent->type == RBUS_ELEMENT_TYPE_TABLE, given the ancestors; the root has type 0
    (rbus_element.c:69) *)
Definition in_table (up : path) : bool := match up with q :: _ => ntype q =? TABLE | [] => false end.

(** rbus_tokenchain.h: Token; [off] is the position of text in the copy of the name; rbus_tokenchain.h:29-35 *)
Inductive kind := NonRow | InstNum | Alias | Wildcard.
(** rbus_tokenchain.h:37-44 *)
Record token := mkToken { off : nat; tkind : kind; tpath : path }.
(** rbus_tokenchain.h:46-50 *)
Record chain := mkChain { buf : list Z; toks : list token (* chain->last first *) }.

(** stdlib atoi on LP64: strtol cut to 32 bits *)
Definition atoi (s : list Z) : Z :=
  match strto 10 s with
  | Some (neg, m, _) => (fst (strtol_value neg m) + 2 ^ 31) mod 2 ^ 32 - 2 ^ 31
  | None => 0
  end.

(** rbus_tokenchain.c:124-127 *)
Fixpoint scan_back (b : list Z) (i : nat) : nat :=
  match i with
  | O => O
  | S j => if nth i b 0 =? 46 then i else scan_back b j
  end.
(** rbus_tokenchain.c:165-182: from [p], with [n] = nameLen - p steps to go; reading beyond
    the copy is undefined *)
Fixpoint find_close (b : list Z) (p n : nat) : outcome unit nat :=
  match nth_error b p with
  | None => UB
  | Some c => if c =? 93 then Ok p else match n with O => Err tt | S n => find_close b (S p) n end
  end.
(** rbus_tokenchain.c:114-210.  Result: the copy, ptr - name, the nodes not reached, tokens *)
Fixpoint tokenize (b : list Z) (len i : nat) (p : path) : outcome unit (list Z * nat * path * list token) :=
  match p with
  | [] => Ok (b, i, [], [])
  | n :: up =>
    if Nat.eqb i 0 then Ok (b, i, p, []) else
    let '(b, i) := if nth i b 0 =? 46 then (upd b i 0, (i - 1)%nat) else (b, i) in
    let j := scan_back b i in
    let o := if nth j b 0 =? 46 then S j else j in
    do (b, t) <-
      (if in_table up then
         if nth o b 0 =? 91 then
           do q <- find_close b (S (S o)) (len - S (S o)) ;
           Ok (upd b q 0, mkToken (S o) Alias p)
         else match c_str (skipn o b) with
              | None => UB
              | Some s => if bytes_eqb s (bs "*") then Ok (b, mkToken o Wildcard p)
                          else if 0 <? atoi s then Ok (b, mkToken o InstNum p) else Err tt
              end
       else Ok (b, mkToken o NonRow p)) ;
    do (b, i, left_, ts) <- tokenize b len j up ;
    Ok (b, i, left_, t :: ts)
  end.
(** rbus_tokenchain.c:71-233; [Err] is the result NULL *)
Definition create (name : list Z) (reg : path) : outcome unit chain :=
  match length name with
  | O => Err tt
  | S n =>
    do (b, i, left_, ts) <- tokenize (name ++ [0]) (S n) n reg ;
    match i, left_ with
    | O, [] => Ok (mkChain b ts)
    | _, _ => Err tt
    end
  end.

(** rbus_tokenchain.c:263-354; [cmp]: the variable rc has been set (and is then 0) *)
Fixpoint match_from (b : list Z) (ts : list token) (inst : path) (cmp : bool) : outcome unit bool :=
  match ts, inst with
  | [], [] => Ok true
  | [], _ :: _ => Ok false
  | _ :: _, [] => Ok false
  | t :: ts, n :: up =>
    match tpath t with
    | [] => UB
    | r :: rup =>
      if negb (ntype r =? ntype n) then Ok false
      else if in_table rup then
        if negb (in_table up) then Ok false
        else match tkind t with
             | InstNum => match c_str (skipn (off t) b) with
                          | None => UB
                          | Some s => if bytes_eqb (nname n) s then match_from b ts up true else Ok false
                          end
             | Alias => match nalias n with
                        | Some a => match c_str (skipn (off t) b) with
                                    | None => UB
                                    | Some s => if bytes_eqb a s then match_from b ts up true else Ok false
                                    end
                        | None => if cmp then match_from b ts up true else UB
                        end
             | Wildcard => match_from b ts up cmp
             | NonRow => UB
             end
      else match c_str (skipn (off t) b) with
           | None => UB
           | Some s => if bytes_eqb (nname n) s then match_from b ts up true else Ok false
           end
    end
  end.
(** rbus_tokenchain.c:263-354, continued *)
Definition match_ (c : chain) (inst : path) : outcome unit bool := match_from (buf c) (toks c) inst false.
(** a subscription as rbus_subscriptions.c uses it: a chain that could not be built matches
    nothing (rbus_tokenchain.c:253) *)
Definition event_matches (name : list Z) (reg inst : path) : outcome unit bool :=
  match create name reg with Ok c => match_ c inst | Err _ => Ok false | UB => UB end.
(** rbus_tokenchain.c:235-249: free(first->text) is defined only for the start of the copy *)
Definition destroy (c : chain) : outcome unit unit :=
  match rev (toks c) with
  | t :: _ => match off t with O => Ok tt | _ => UB end
  | [] => Ok tt
  end.
