(** Model of the memory of the element information a program gets (src/rbus/rbus.c).
    Simplifications: memory never runs out; realloc always moves; the type and access of an element
    are left out. *)
From Verif Require Import Common.
Local Open Scope Z_scope.

(** include/rbus.h rbusElementInfo_t: the addresses of the name and of the component's name, and next
    ([Wild]: not yet written); rbus.c:4788-4920 *)
Inductive nextp := Wild | Null | At (b i : nat).
(** include/rbus.h rbusElementInfo_t, written at rbus.c:4869-4880; [None]: not yet written *)
Record node := mkNode { n_name : option nat; n_comp : option nat; n_next : nextp }.
(** what malloc has given out at rbus.c:4860-4880: a text, an array of nodes, or something given back *)
Inductive cell := Str (s : list Z) | Nodes (l : list node) | Freed.
(** all of what malloc has given out at rbus.c:4860-4880 and before *)
Definition heap := list cell.
(** libc malloc and strdup, as used at rbus.c:4860-4880 *)
Definition alloc (h : heap) (c : cell) : heap * nat := (h ++ [c], length h).
(** libc free, as used at rbus.c:4910-4917 *)
Definition free (h : heap) (a : nat) : outcome unit heap :=
  match nth_error h a with Some Freed | None => UB | Some _ => Ok (upd h a Freed) end.
(** no code of its own: reading an array, as rbus.c:4870 and 4915 do *)
Definition nodes_at (h : heap) (b : nat) : outcome unit (list node) := match nth_error h b with Some (Nodes l) => Ok l | _ => UB end.
(** no code of its own: reading a text, as a program does with what rbus.c:4879-4880 wrote *)
Definition str_at (h : heap) (a : option nat) : outcome unit (list Z) :=
  match a with Some a => match nth_error h a with Some (Str s) => Ok s | _ => UB end | None => UB end.

(** rbus.c:4859-4863: rt_try_malloc or rt_try_realloc *)
Definition grow (h : heap) (e : option nat) (count : nat) : outcome unit (heap * nat) :=
  match e with
  | None => Ok (alloc h (Nodes (repeat (mkNode None None Wild) count)))
  | Some b => do l <- nodes_at h b ; do h <- free h b ; Ok (alloc h (Nodes (l ++ repeat (mkNode None None Wild) count)))
  end.
(** rbus.c:4869-4871: every next is written again *)
Fixpoint link (b i : nat) (l : list node) : list node :=
  match l with
  | [] => []
  | n :: l => mkNode (n_name n) (n_comp n) (match l with [] => Null | _ => At b (S i) end) :: link b (S i) l
  end.
(** rbus.c:4874-4882: as many names of one provider as it says; when none is left in the reply
    rbusMessage_GetString (rbuscore_message.c:190-195) writes nothing, and strdup reads from the
    address that happens to be in the node *)
Fixpoint fill (h : heap) (b i : nat) (comp : list Z) (n : nat) (names : list (list Z)) : outcome unit heap :=
  match n, names with
  | O, _ => Ok h
  | S _, [] => UB
  | S m, s :: names =>
    let (h, a) := alloc h (Str s) in
    let (h, c) := alloc h (Str comp) in
    do l <- nodes_at h b ;
    match nth_error l i with
    | Some n => fill (upd h b (Nodes (upd l i (mkNode (Some a) (Some c) (n_next n))))) b (S i) comp m names
    | None => UB
    end
  end.
(** rbus.c:4832-4850: what a provider answers: nothing, or a code, a count and names *)
Inductive reply := Lost (err : Z) | Answer (code count : Z) (names : list (list Z)).
(** rbus.c:4788-4803: *elemInfo, runningCount, errorcode *)
Record got := mkGot { g_heap : heap; g_elem : option nat; g_count : nat; g_code : Z }.
(** rbus.c:4830-4893: one destination; the codes are those after conversion *)
Definition merge (g : got) (x : list Z * reply) : outcome unit got :=
  match snd x with
  | Lost err => Ok (mkGot (g_heap g) (g_elem g) (g_count g) err)
  | Answer code count names =>
    if code =? 0 then
      if 0 <? count then
        do (h, b) <- grow (g_heap g) (g_elem g) (Z.to_nat count) ;
        do l <- nodes_at h b ;
        do h <- fill (upd h b (Nodes (link b 0 l))) b (g_count g) (fst x) (Z.to_nat count) names ;
        Ok (mkGot h (Some b) (g_count g + Z.to_nat count) 0)
      else Ok (mkGot (g_heap g) (g_elem g) (g_count g) 0)
    else Ok (mkGot (g_heap g) (g_elem g) (g_count g) code)
  end.
(** rbus.c:4830: all destinations *)
Fixpoint merges (g : got) (l : list (list Z * reply)) : outcome unit got :=
  match l with [] => Ok g | x :: l => do g <- merge g x ; merges g l end.
(** rbus.c:4788-4899 rbusElementInfo_get *)
Definition get_info (h : heap) (l : list (list Z * reply)) : outcome unit got := merges (mkGot h None 0 0) l.
(** no code of its own: the pointer a program is given by rbus.c:4860-4863 *)
Definition first (g : got) : nextp := match g_elem g with None => Null | Some b => At b 0 end.
(** no code of its own, the loop is that of rbus.c:4908-4916: a program that goes from node to node by next; [Err tt]: more than [fuel] nodes *)
Fixpoint walk (fuel : nat) (h : heap) (p : nextp) : outcome unit (list (list Z * list Z)) :=
  match p with
  | Wild => UB
  | Null => Ok []
  | At b i =>
    match fuel with
    | O => Err tt
    | S fuel =>
      do l <- nodes_at h b ;
      match nth_error l i with
      | None => UB
      | Some n => do s <- str_at h (n_name n) ; do c <- str_at h (n_comp n) ; do r <- walk fuel h (n_next n) ; Ok ((s, c) :: r)
      end
    end
  end.
(** rbus.c:4908-4916: the loop of rbusElementInfo_free *)
Fixpoint free_each (fuel : nat) (h : heap) (p : nextp) : outcome unit heap :=
  match p with
  | Wild => UB
  | Null => Ok h
  | At b i =>
    match fuel with
    | O => Err tt
    | S fuel =>
      do l <- nodes_at h b ;
      match nth_error l i with
      | Some (mkNode (Some a) (Some c) nx) => do h <- free h a ; do h <- free h c ; free_each fuel h nx
      | _ => UB
      end
    end
  end.
(** rbus.c:4901-4920 rbusElementInfo_free *)
Definition free_info (fuel : nat) (h : heap) (e : option nat) : outcome unit heap :=
  match e with None => Ok h | Some b => do h <- free_each fuel h (At b 0) ; free h b end.
