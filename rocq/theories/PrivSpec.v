(** Specification for private connections (C54): which parameters are open through which
    provider, and what must have happened to the connections. *)
From Verif Require Import Common CoreModel PrivModel.
Local Open Scope Z_scope.

Definition created (l : list note) : list nat := flat_map (fun n => match n with Created c => [c] | _ => [] end) l.
Definition destroyed (l : list note) : list nat := flat_map (fun n => match n with Destroyed c => [c] | _ => [] end) l.
(** a connection that exists now *)
Definition alive (s : state) (c : nat) : Prop := In c (created (notes s)) /\ ~ In c (destroyed (notes s)).

(** The parameters open through each provider, independently of the connections. *)
Definition table := list (name * name).
Definition has_dml (t : table) (d : name) : bool := existsb (fun e => bytes_eqb (fst e) d) t.
Definition spec_step (t : table) (o : op) : table :=
  match o with
  | Open d (Some p) ok =>
    if has_dml t d then t
    else if existsb (fun e => bytes_eqb (snd e) p) t || ok then t ++ [(d, p)] else t
  | Open _ None _ => t
  | Close d ok => if ok then filter (fun e => negb (bytes_eqb (fst e) d)) t else t
  | Gone p => filter (fun e => negb (bytes_eqb (snd e) p)) t
  end.
Definition spec_run (ops : list op) : table := fold_left spec_step ops [].

Definition fits (o : op) : bool :=
  match o with
  | Open d (Some p) _ => (strlen d <? 256) && (strlen p <? 256)
  | _ => true
  end.
(** every provider's parameters share one living connection, no two providers share one,
    every living connection serves some parameter, and none was destroyed twice *)
Definition conns_ok (s : state) : Prop :=
  NoDup (created (notes s)) /\ NoDup (destroyed (notes s)) /\
  (forall c, In c (destroyed (notes s)) -> In c (created (notes s))) /\
  (forall c, alive s c <-> exists d, find_conn s d = Some c).
Definition agrees (s : state) (t : table) : Prop :=
  (forall d, is_some (find_conn s d) = has_dml t d) /\
  (forall d1 p1 d2 p2 c1 c2, In (d1, p1) t -> In (d2, p2) t ->
     find_conn s d1 = Some c1 -> find_conn s d2 = Some c2 -> (c1 = c2 <-> p1 = p2)).
Definition one_provider (t : table) : Prop := forall d1 p1 d2 p2, In (d1, p1) t -> In (d2, p2) t -> p1 = p2.
