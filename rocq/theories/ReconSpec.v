(** What reconnecting is for. *)
From Verif Require Import Common ListenModel ReconModel.
From Coq Require Import List ZArith Bool.
Import ListNotations.
Local Open Scope Z_scope.

(** A thread is renewing the connection. *)
Definition renewing (p : place) : Prop := match p with Out | Waits => False | _ => True end.

(** The operating system gives sockets when asked. *)
Definition calm (a : act) : Prop := match a with SocketFails _ | FcntlFails _ => False | _ => True end.

(** The states a connection gets into. *)
Definition reach (retries : Z) (s : conn) : Prop :=
  exists l0 w0 t0 l, Forall calm l /\ steps retries (opened l0 w0 t0) l = Ok s.

(** The listeners of a connection, in the order of their places. *)
Definition listeners (s : conn) : list listener := flat_map (fun o => match o with Some x => [x] | None => [] end) (lists s).

(** What is written to the broker when these listeners are added to a new connection. *)
Definition adding (l : list listener) : list wire_msg := map (fun x => mkWire true (l_expr x) (l_id x)) l.

(** Nobody adds or removes listeners meanwhile. *)
Definition still (a : act) : Prop := match a with Listens _ | Unlistens _ | Alias _ _ => False | _ => True end.

(** What went to one socket. *)
Definition told (s : conn) (f : nat) : list wire_msg := map snd (filter (fun x => Nat.eqb (fst x) f) (sent s)).
