(** Model of how long the calls of a program wait for an answer: the timeouts
    of a handle in src/rbus/rbus_handle.c and their use in src/rbus/rbus.c.
    A file's content is a list of bytes.  The directory RBUS_TMP_DIRECTORY is
    /tmp; a file that is there can be read; int has 32 bits. *)
From Coq Require Import String.
From Verif Require Import Common TextModel.
From Coq Require Import List ZArith Bool.
Import ListNotations.
Local Open Scope string_scope.
Local Open Scope list_scope.
Local Open Scope Z_scope.

(** the fields of rbusTimeoutValues_t; include/rbus.h *)
Inductive kind := KGet | KSet | KGetMulti | KSetMulti | KSubscribe.
(** rbus_handle.c 29-32, rbus_handle.h 32 *)
Definition default (k : kind) : Z :=
  match k with KGet => 15000 | KSet => 15000 | KGetMulti => 120000 | KSetMulti => 60000 | KSubscribe => 600000 end.
(** the timeoutValues of a handle; rbus_handle.h *)
Definition timeouts := kind -> Z.
(** one of them changed; no code of its own *)
Definition put (h : timeouts) (k : kind) (n : Z) : timeouts :=
  fun j => match k, j with
           | KGet, KGet | KSet, KSet | KGetMulti, KGetMulti | KSetMulti, KSetMulti | KSubscribe, KSubscribe => n
           | _, _ => h j
           end.

(** libc atoi: (int) of strtol with base 10 *)
Definition atoi (s : list Z) : Z :=
  match strto 10 s with Some (neg, m, _) => (fst (strtol_value neg m) + 2 ^ 31) mod 2 ^ 32 - 2 ^ 31 | None => 0 end.

(** rbus_handle.c 42-47, 174-183 rbusHandle_TimeoutValuesInit; [env]: the variable of that name, if it is set *)
Definition init (env : kind -> option (list Z)) : timeouts :=
  fun k => match env k with Some (c :: s) => atoi (c :: s) mod 2 ^ 32 | _ => default k end.

(** rbus_handle.c 186-233: rbusHandle_ConfigGetTimeout and the others *)
Definition config (h : timeouts) (k : kind) (n : Z) : timeouts := put h k (if n =? 0 then default k else n).
(** rbus.c 326-335 rbusHandle_ConfigTimeoutValues *)
Definition config_all (h : timeouts) (v : timeouts) : timeouts :=
  config (config (config (config (config h KSet (v KSet)) KGet (v KGet)) KSetMulti (v KSetMulti)) KGetMulti (v KGetMulti)) KSubscribe (v KSubscribe).
(** what a program may call; no code of its own *)
Inductive op := Config (k : kind) (n : Z) | ConfigAll (v : timeouts).
(** one call after the other; no code of its own *)
Fixpoint run (h : timeouts) (l : list op) : timeouts :=
  match l with [] => h | Config k n :: l => run (config h k n) l | ConfigAll v :: l => run (config_all h v) l end.

(** rbus_handle.c 242, 265, 288, 311 *)
Definition suffix (k : kind) : list Z :=
  match k with KGet => bs "_timeout_get" | KSet => bs "_timeout_set" | KGetMulti => bs "_timeout_get_wildcard_query" | KSetMulti => bs "_timeout_setMulti" | KSubscribe => [] end.
(** rbus_handle.c 241-243, 28: snprintf into BUF_LEN-1 bytes *)
Definition file_name (prog : list Z) (k : kind) : list Z := firstn 126 (bs "/tmp/rbus_" ++ prog ++ suffix k).
(** libc: a buffer as C string: up to the first 0 *)
Fixpoint upto0 (s : list Z) : list Z := match s with [] => [] | c :: s => if c =? 0 then [] else c :: upto0 s end.
(** rbus_handle.c 240, 248-249: the number in a file, read into 25 bytes; a text that fills them and ends in
    digits, or is all blank, is read beyond them *)
Definition file_number (content : list Z) : outcome unit Z :=
  let buf := firstn 25 content in
  if (Nat.eqb (List.length buf) 25) && negb (existsb (Z.eqb 0) buf) &&
     match strto 10 buf with Some (_, _, []) => true | Some _ => false | None => match skip_ws buf with [] | [43] | [45] => true | _ => false end end
  then UB else Ok (atoi (upto0 buf)).

(** rbus_handle.c 235-331 rbusHandle_FetchGetTimeout and the others; [fs]: the files *)
Definition fetch (fs : list Z -> option (list Z)) (prog : list Z) (h : timeouts) (k : kind) : outcome unit Z :=
  match k with
  | KSubscribe => Ok (h k)
  | _ =>
    match fs (file_name prog k) with
    | None => Ok (h k)
    | Some content =>
      do t <- file_number content;
      if t >? 0 then if t * 1000 >? 2 ^ 31 - 1 then UB else Ok (t * 1000) else Ok (h k)
    end
  end.

(** the calls; [t]: the timeout given by the caller, 0 for none (-1 when subscribing); include/rbus.h *)
Inductive call := Get | GetExtWild | GetExt | Set_ (t : Z) | SetMulti (t : Z) | SetCommit | AddRow | RemoveRow | RowNames | ElementInfo | Invoke | Subscribe (t : Z).
(** how long a call waits, in milliseconds; rbus.c 3507, 3694, 3857, 4019, 4094, 4141, 4502, 4568, 4696, 4836, 6130;
    5065-5072, where the result is an int *)
Definition waits (fs : list Z -> option (list Z)) (prog : list Z) (h : timeouts) (c : call) : outcome unit Z :=
  match c with
  | Get | GetExt | RowNames | ElementInfo => fetch fs prog h KGet
  | GetExtWild => fetch fs prog h KGetMulti
  | SetCommit | AddRow | RemoveRow | Invoke => fetch fs prog h KSet
  | Set_ t => if t =? 0 then fetch fs prog h KSet else Ok t
  | SetMulti t => if t =? 0 then fetch fs prog h KSetMulti else Ok t
  | Subscribe t =>
    if t =? -1 then do n <- fetch fs prog h KSubscribe; Ok ((n + 2 ^ 31) mod 2 ^ 32 - 2 ^ 31)
    else if (t * 1000 >? 2 ^ 31 - 1) || (t * 1000 <? - 2 ^ 31) then UB else Ok (t * 1000)
  end.
