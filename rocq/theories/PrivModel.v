(** Model of the client side of private (direct) connections in src/core/rbuscore.c and of
    rbus_openDirect / rbus_closeDirect.  The list of entries is gListOfClientDirectDMLs;
    connections are numbered in the order they are created; the remote provider's answers
    are arguments. *)
From Verif Require Import Common VecList CoreModel.
Local Open Scope Z_scope.

(** rbuscore.c:2452-2458 rbusClientDMLList_t (m_consumerName is never used) *)
Record entry := mkEntry { e_dml : name; e_prov : name; e_conn : nat }.
(** rbuscore.c:2452-2458, continued *)
Inductive note := Created (c : nat) | Destroyed (c : nat).
(** rbuscore.c:2452-2458, continued *)
Record state := mkState { entries : list entry; next : nat; notes : list note }.
(** rbuscore.c:2452-2458, continued *)
Definition init : state := mkState [] 0 [].

(** rbuscore.c:2857-2860 _findClientPrivateConnection, 2862-2865 _findClientPrivateDML *)
Definition prov_is (p : name) (e : entry) : bool := strneq MAX_OBJECT_NAME_LENGTH (e_prov e) p.
(** rbuscore.c:2857-2860, continued *)
Definition dml_is (d : name) (e : entry) : bool := strneq MAX_OBJECT_NAME_LENGTH (e_dml e) d.

(** rbuscore.c:2892-2909 rbuscore_FindClientPrivateConnection *)
Definition find_conn (s : state) (d : name) : option nat := option_map e_conn (vfind (dml_is d) (entries s)).

(** rbuscore.c:2948-3010 rbuscore_openPrivateConnectionToProvider; [connect_ok]: the new
    connection can be created.  Names that do not fit the 256-byte arrays overflow them. *)
Definition open_private (s : state) (d p : name) (connect_ok : bool) : outcome unit (option nat * state) :=
  let push c s := if (256 <=? strlen d) || (256 <=? strlen p) then UB
                  else Ok (Some c, mkState (entries s ++ [mkEntry d p c]) (next s) (notes s)) in
  match vfind (prov_is p) (entries s) with
  | Some e => push (e_conn e) s
  | None =>
    if connect_ok then push (next s) (mkState (entries s) (S (next s)) (notes s ++ [Created (next s)]))
    else Ok (None, s)
  end.
(** rbus.c:3079-3129 rbus_openDirect with rbuscore.c:3012-3040 createPrivateConnection;
    [answer] is the provider's name when the remote method succeeds *)
Inductive open_result := OpenOk (c : nat) | OpenDuplicate | OpenNotExist.
(** rbus.c:3079-3129, continued *)
Definition open_direct (s : state) (d : name) (answer : option name) (connect_ok : bool) : outcome unit (open_result * state) :=
  match find_conn s d with
  | Some _ => Ok (OpenDuplicate, s)
  | None =>
    match answer with
    | None => Ok (OpenNotExist, s)
    | Some p =>
      do r <- open_private s d p connect_ok ;
      match r with
      | (Some c, s') => Ok (OpenOk c, s')
      | (None, s') => Ok (OpenNotExist, s')
      end
    end
  end.

(** rtConnection_Destroy of one connection, noted *)
Definition destroy (c : nat) (s : state) : state := mkState (entries s) (next s) (notes s ++ [Destroyed c]).
(** rbuscore.c:3042-3099 rbuscore_closePrivateConnection, called by rbus_closeDirect
    (rbus.c:3131-3161), which ignores its result; [remote_ok]: the provider answered with success.
    rtVector_RemoveItem removes the found (first matching) entry; rtConnection_Destroy(NULL) does nothing. *)
Definition close_direct (s : state) (d : name) (remote_ok : bool) : state :=
  match vfind (dml_is d) (entries s) with
  | None => s
  | Some e =>
    if remote_ok then
      let s1 := mkState (vremove (dml_is d) (entries s)) (next s) (notes s) in
      if is_some (vfind (prov_is (e_prov e)) (entries s1)) then s1 else destroy (e_conn e) s1
    else s
  end.
(** rbuscore.c:3101-3122 rbuscore_terminatePrivateConnection: the loop removes matching
    entries while there is one *)
Fixpoint remove_all (fuel : nat) (p : name) (l : list entry) : list entry :=
  match fuel with
  | O => l
  | S fuel => if is_some (vfind (prov_is p) l) then remove_all fuel p (vremove (prov_is p) l) else l
  end.
(** rbuscore.c:3101-3122, continued *)
Definition terminate (s : state) (p : name) : state :=
  match vfind (prov_is p) (entries s) with
  | None => s
  | Some e =>
    let s1 := destroy (e_conn e) s in
    mkState (remove_all (length (entries s)) p (vremove (prov_is p) (entries s))) (next s1) (notes s1)
  end.

(** rbuscore.c:2867-2890 _rbuscore_destroy_clientPrivate_connections.  [None]: the loops have
    not ended within the given number of iterations. *)
Fixpoint inner_loop (fuel : nat) (p : name) (l : list entry) : option (list entry) :=
  match l with
  | [] => Some []
  | _ => match fuel with O => None | S fuel => inner_loop fuel p (vremove (prov_is p) l) end
  end.
(** rbuscore.c:2867-2890, continued *)
Fixpoint destroy_all (fuel : nat) (s : state) : option state :=
  match entries s with
  | [] => Some s
  | e :: l =>
    match fuel with
    | O => None
    | S fuel =>
      match inner_loop (S fuel) (e_prov e) l with
      | None => None
      | Some l' => destroy_all fuel (mkState l' (next s) (notes s ++ [Destroyed (e_conn e)]))
      end
    end
  end.

(** The operations a history consists of, one for each function modelled above; no code of its own. *)
Inductive op :=
| Open (d : name) (answer : option name) (connect_ok : bool)
| Close (d : name) (remote_ok : bool)
| Gone (p : name).   (* the provider disconnected; calls the functions modelled above; no code of its own *)
Definition step (s : state) (o : op) : outcome unit state :=
  match o with
  | Open d a ok => do r <- open_direct s d a ok ; Ok (snd r)
  | Close d ok => Ok (close_direct s d ok)
  | Gone p => Ok (terminate s p)
  end.
(** A history: one operation after the other; no code of its own. *)
Fixpoint run (s : state) (ops : list op) : outcome unit state :=
  match ops with [] => Ok s | o :: ops => do s' <- step s o ; run s' ops end.
