(** Specification of reading and setting parameters (C82, C83, C84). *)
From Coq Require Import String.
From Verif Require Import Common TextModel Errors ElemModel ElemSpec NamesSpec Value WireSpec ParamModel.
Local Open Scope string_scope.
Local Open Scope list_scope.
Local Open Scope Z_scope.

(** a name of one parameter: no star, no dot at the end, and not one of an event or a method *)
Definition one_name (nm : list Z) : Prop := nm <> [] /\ ~ In 42 nm /\ last nm 0 <> 46.
Definition no_call (nm : list Z) : Prop := ~ In 40 nm /\ last nm 0 <> 33 /\ last nm 0 <> 41.
(** the names considered: texts without aliases *)
Definition text (s : list Z) : Prop := is_cstr s = true /\ Z.of_nat (length s) < 2 ^ 31 - 2.
Definition plain (nm : list Z) : Prop := tokens nm <> [] /\ forallb plain_tok (tokens nm) = true /\ text nm.

(** the session and the commit flag a set comes with *)
Definition session_of (o : option set_opts) : Z := match o with Some o => o_session o | None => 0 end.
Definition commit_of (o : option set_opts) : bool := match o with Some o => o_commit o | None => true end.
Definition opts_ok (o : option set_opts) : Prop := 0 <= session_of o < 2 ^ 32.
(** a property as it arrives *)
Definition seen_pair (nv : list Z * value) : list Z * value := (fst nv, seen_value (snd nv)).

(** ** parameters as registers (C84) *)
(** a call of one of the client functions, by a component, and what it gives *)
Inductive request := Get (who nm : list Z) | Set_ (who nm : list Z) (v : value) (opts : option set_opts).
Inductive result := Got (code : Z) (v : option value) | Done (code : Z).
(** the parameters: what each of them holds *)
Definition bank := list Z -> value.
Definition change (b : bank) (nm : list Z) (v : value) : bank := fun n => if bytes_eqb n nm then v else b n.
(** what has to come out *)
Definition serve (b : bank) (q : request) : result * bank :=
  match q with
  | Get _ nm => (Got E_SUCCESS (Some (b nm)), b)
  | Set_ _ nm v _ => (Done E_SUCCESS, change b nm v)
  end.
Fixpoint serve_all (b : bank) (l : list request) : list result :=
  match l with [] => [] | q :: l => let (r, b) := serve b q in r :: serve_all b l end.
(** a program whose handlers keep what they are given *)
Definition keeper (b : bank) : program :=
  mkProgram (fun c => (E_SUCCESS, Some (g_name c), b (g_name c))) (fun _ _ _ => None) (fun _ => Some (fun _ => E_SUCCESS)).
Definition kept (b : bank) (cs : list set_call) : bank := fold_left (fun b c => change b (s_name c) (s_value c)) cs b.
(** that program on the bus *)
Definition one_call (t : tree) (b : bank) (q : request) : outcome unit (result * bank) :=
  match q with
  | Get who nm => let (r, _) := rbus_get (Provides (keeper b) t) who nm in do (c, v) <- r ; Ok (Got c v, b)
  | Set_ who nm v opts => let (r, cs) := rbus_set (Provides (keeper b) t) who nm v opts in do c <- r ; Ok (Done c, kept b cs)
  end.
Fixpoint all_calls (t : tree) (b : bank) (l : list request) : outcome unit (list result) :=
  match l with [] => Ok [] | q :: l => do (r, b) <- one_call t b q ; do rs <- all_calls t b l ; Ok (r :: rs) end.
(** the requests considered: for parameters of [t], with values that can be sent *)
Definition parameter (t : tree) (nm : list Z) : Prop := plain nm /\ one_name nm /\ no_call nm /\ exists i, get t (tokens nm) = Some i /\ getter i = true.
Definition whole (v : value) : Prop := sendable_value v = true /\ complete_value v = true /\ v <> VNull.
Definition asks_ok (t : tree) (q : request) : Prop :=
  match q with
  | Get who nm => text who /\ parameter t nm
  | Set_ who nm v opts => text who /\ parameter t nm /\ whole v /\ v <> VNone /\ opts_ok opts
  end.
