(** Specification for handles (C49). *)
From Verif Require Import Common CoreModel HandleModel.
Local Open Scope Z_scope.

(** the allocator never hands out memory that is in use *)
Definition fresh_step (s : state) (o : op) : bool :=
  match o with
  | Open n a _ _ => negb (existsb (fun h => (h_addr h =? a) && negb (bytes_eqb (h_name h) n)) (handles s))
  | Close _ => true
  end.
Fixpoint allocs_fresh (s : state) (ops : list op) : Prop :=
  match ops with
  | [] => True
  | o :: ops =>
    fresh_step s o = true /\
    match o with
    | Close a => allocs_fresh (snd (close s a)) ops
    | Open n a b r => match open s n a b r with Ok (_, _, s') => allocs_fresh s' ops | _ => True end
    end
  end.
Definition opens (ops : list op) : Z := Z.of_nat (length (filter (fun o => match o with Open _ _ _ _ => true | _ => false end) ops)).
Definition broker_up (o : op) : bool := match o with Open _ _ b _ => b | _ => true end.
Definition live (s : state) (h : handle) : Prop := In h (handles s).
