(** Model of the memory of the list of rows a program gets (src/rbus/rbus.c).
    Simplifications: memory never runs out; the reply holds as many rows as it says; the text of a
    row's full name is given (it is the subject of NamesModel); the nodes are written into the array
    together when all are made, not one by one. *)
From Verif Require Import Common.
Local Open Scope Z_scope.

(** include/rbus.h rbusRowName_t next, written at rbus.c:4741-4744 *)
Inductive rnext := RNull | RAt (b i : nat).
(** include/rbus.h rbusRowName_t, written at rbus.c:4737-4744; [None]: NULL *)
Record rnode := mkR { r_name : nat; r_inst : Z; r_alias : option nat; r_next : rnext }.
(** what malloc has given out at rbus.c:4718-4739: a text, an array of nodes, or something given back *)
Inductive rcell := RStr (s : list Z) | RNodes (l : list rnode) | RFreed.
(** libc malloc and strdup, as used at rbus.c:4718-4739 *)
Definition ralloc (h : list rcell) (c : rcell) : list rcell * nat := (h ++ [c], length h).
(** libc free, as used at rbus.c:4776-4783 *)
Definition rfree (h : list rcell) (a : nat) : outcome unit (list rcell) :=
  match nth_error h a with Some RFreed | None => UB | Some _ => Ok (upd h a RFreed) end.
(** no code of its own: reading a text, as a program does with what rbus.c:4737-4739 wrote *)
Definition rstr (h : list rcell) (a : nat) : outcome unit (list Z) := match nth_error h a with Some (RStr s) => Ok s | _ => UB end.
(** rbus.c:4728-4745: the loop over the rows of the reply: number, full name, alias *)
Fixpoint make (h : list rcell) (b i : nat) (l : list (Z * list Z * list Z)) : list rcell * list rnode :=
  match l with
  | [] => (h, [])
  | (n, s, al) :: l =>
    let (h, a) := ralloc h (RStr s) in
    let (h, c) := match al with [] => (h, None) | _ => let (h, c) := ralloc h (RStr al) in (h, Some c) end in
    let nx := match l with [] => RNull | _ => RAt b (S i) end in
    let (h, r) := make h b (S i) l in
    (h, mkR a n c nx :: r)
  end.
(** rbus.c:4707-4748: a reply that says success *)
Definition get_rows (h : list rcell) (l : list (Z * list Z * list Z)) : list rcell * option nat :=
  match l with
  | [] => (h, None)
  | _ => let (h, b) := ralloc h (RNodes []) in let (h, r) := make h b 0 l in (upd h b (RNodes r), Some b)
  end.
(** no code of its own: the pointer a program is given by rbus.c:4747 *)
Definition rfirst (e : option nat) : rnext := match e with None => RNull | Some b => RAt b 0 end.
(** no code of its own, the loop is that of rbus.c:4773-4782: a program that goes from node to node by
    next; [Err tt]: more than [fuel] nodes *)
Fixpoint rwalk (fuel : nat) (h : list rcell) (p : rnext) : outcome unit (list (Z * list Z * list Z)) :=
  match p with
  | RNull => Ok []
  | RAt b i =>
    match fuel with
    | O => Err tt
    | S fuel =>
      match nth_error h b with
      | Some (RNodes l) =>
        match nth_error l i with
        | None => UB
        | Some n =>
          do s <- rstr h (r_name n) ;
          do al <- match r_alias n with None => Ok [] | Some c => rstr h c end ;
          do r <- rwalk fuel h (r_next n) ; Ok ((r_inst n, s, al) :: r)
        end
      | _ => UB
      end
    end
  end.
(** rbus.c:4773-4782: the loop of rbusTable_freeRowNames *)
Fixpoint rfree_each (fuel : nat) (h : list rcell) (p : rnext) : outcome unit (list rcell) :=
  match p with
  | RNull => Ok h
  | RAt b i =>
    match fuel with
    | O => Err tt
    | S fuel =>
      match nth_error h b with
      | Some (RNodes l) =>
        match nth_error l i with
        | None => UB
        | Some n => do h <- rfree h (r_name n) ; do h <- match r_alias n with None => Ok h | Some c => rfree h c end ; rfree_each fuel h (r_next n)
        end
      | _ => UB
      end
    end
  end.
(** rbus.c:4766-4786 rbusTable_freeRowNames *)
Definition free_rows (fuel : nat) (h : list rcell) (e : option nat) : outcome unit (list rcell) :=
  match e with None => Ok h | Some b => do h <- rfree_each fuel h (RAt b 0) ; rfree h b end.
