(** Specification of adding and removing rows from another component (C87, C88). *)
From Coq Require Import String.
From Verif Require Import Common TextModel Errors ElemModel ElemSpec NamesModel NamesSpec RowModel.
Local Open Scope string_scope.
Local Open Scope list_scope.
Local Open Scope Z_scope.

(** an empty alias is none *)
Definition given (a : option name) : option name := match a with Some [] => None | a => a end.
Definition alias_ok (a : option name) : Prop := match a with Some a => text_ok a | None => True end.
(** the registered element [e] at [p]: rows stand for the template of their table *)
Inductive stands : tree -> list name -> tree -> Prop :=
| St_here : forall t n c, sub t [n] = Some c -> stands t [n] c
| St_in : forall t n c m p e, sub t [n] = Some c -> kids c <> [] -> stands c ((if is_table c then TEMPLATE else m) :: p) e -> stands t (n :: m :: p) e.

(** ** a session: what consumers ask for, one after the other, and what they are told *)
Inductive asked := AskAdd (T : list name) (a : option name) | AskRemove (T : list name) (n : Z).
Definition results := (Z * option Z)%type.
(** one call of a consumer; its answer may be lost *)
Definition consumer (f : fate) (P : program) (t : tree) (q : asked) : outcome unit results * (tree * list called) :=
  match q with
  | AskAdd T a => rbusTable_addRow f P t (dotted T) a
  | AskRemove T n => let (rc, w) := rbusTable_removeRow f P t (dotted T ++ print_dec n) in (do rc <- rc ; Ok (rc, None), w)
  end.
(** the rows [l] of [T] after a call for which the consumer was told [r] *)
Definition told (T : list name) (l : list (Z * option name)) (q : asked) (r : results) : list (Z * option name) :=
  if fst r =? E_SUCCESS then
    match q with
    | AskAdd T' a => if path_eqb T' T then match snd r with Some n => l ++ [(n, given a)] | None => l end else l
    | AskRemove T' n => if path_eqb T' T then filter (fun x => negb (fst x =? n)) l else l
    end
  else l.
(** the calls considered, for a table [T] with rows [l] in the tree [t]: they are answered or do
    not arrive; handlers for adding rows belong to tables; they return codes below 100 and, on
    success, a number below 2^31 that is not in use; no row that [T] lies in is removed *)
Definition ask_ok (T : list name) (l : list (Z * option name)) (t : tree) (f : fate) (P : program) (q : asked) : Prop :=
  (match f with Answered => True | Lost err => err <> 0 | NoAnswer _ => False end) /\
  match q with
  | AskAdd T' a => path_ok T' /\ text_ok (dotted T') /\ alias_ok a /\
      forall e h, retrieve t (dotted T') = Some e -> on_add P (hid (inf e)) = Some h ->
        (sub t T' <> None -> sub t (T' ++ [TEMPLATE]) <> None) /\
        let (rc, n) := h (mkAdd (hid (inf e)) (dotted T') (given a)) in
        0 <= rc < 100 /\ 0 <= n < 2 ^ 31 /\ (rc = E_SUCCESS -> T' = T -> ~ In n (map fst l))
  | AskRemove T' n => path_ok T' /\ text_ok (dotted T' ++ print_dec n) /\ 0 <= n < 2 ^ 31 /\ below (T' ++ [print_dec n]) T = None /\
      forall k h, on_remove P k = Some h -> 0 <= h (mkRemove k (dotted T' ++ print_dec n)) < 100
  end.
(** a session from [t] with [l] the rows of [T]: where it ends, and what was told *)
Fixpoint asking (T : list name) (t : tree) (l : list (Z * option name)) (qs : list (fate * program * asked)) (t' : tree) (l' : list (Z * option name)) : Prop :=
  match qs with
  | [] => t' = t /\ l' = l
  | (f, P, q) :: qs => ask_ok T l t f P q /\ exists r t1 cs, consumer f P t q = (Ok r, (t1, cs)) /\ asking T t1 (told T l q r) qs t' l'
  end.
