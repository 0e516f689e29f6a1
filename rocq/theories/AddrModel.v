(** Model of the texts naming a broker's socket: src/rtmessage/rtSocket.c.
    A text is a C string without its terminator.  The address of a network
    interface (ioctl SIOCGIFADDR) and inet_pton for AF_INET6 are parameters. *)
From Coq Require Import String.
From Verif Require Import Common TextModel.
From Coq Require Import List ZArith Bool.
Import ListNotations.
Local Open Scope string_scope.
Local Open Scope list_scope.
Local Open Scope Z_scope.

(** sys/socket.h, libc *)
Definition AF_UNIX : Z := 1.
(** sys/socket.h, libc *)
Definition AF_INET : Z := 2.
(** sys/socket.h, libc *)
Definition AF_INET6 : Z := 10.
(** rtError.h 47 *)
Definition RT_ERROR_INVALID_ARG : Z := 3.
(** rtError.c 172-176: an errno as result; the errno itself is left out *)
Definition RT_ERRNO : Z := 2147483648.

(** struct sockaddr_storage as the code fills it; zeroed before (rtConnection.c 582, rtrouteBase.c 68).
    [sun_path]: the bytes before the terminator; [sin_addr]: of either family; libc *)
Record endpoint := mkEndpoint { family : Z; sun_path : list Z; sin_addr : list Z; sin_port : Z }.

(** libc strncmp (s, p, strlen(p)) == 0 *)
Fixpoint prefix (p s : list Z) : bool :=
  match p, s with [], _ => true | a :: p, b :: s => (a =? b) && prefix p s | _, _ => false end.
(** libc strrchr (s, c): what is before and after the last [c] *)
Fixpoint last_split (c : Z) (s : list Z) : option (list Z * list Z) :=
  match s with
  | [] => None
  | a :: s => match last_split c s with
              | Some (x, y) => Some (a :: x, y)
              | None => if a =? c then Some ([], s) else None
              end
  end.
(** libc isdigit *)
Definition isdigit (c : Z) : bool := (48 <=? c) && (c <=? 57).

(** rtSocket.c 39-54 rtSocket_IsNumeric: the loop looks at s[0], not s[i], for the digit *)
Definition is_numeric (s : list Z) : bool := forallb (fun c => isdigit (hd 0 s) || (c =? 46)) s.

(** rtSocket.c 85-97 rtSocketStorage_ParsePort *)
Definition parse_port (s : list Z) : option Z :=
  match last_split 58 s with
  | None => None
  | Some (_, p) => Some (match strto 10 p with Some (neg, m, _) => fst (strtol_value neg m) mod 65536 | None => 0 end)
  end.

(** libc inet_pton for AF_INET: [done] the octets read, [cur] the one being read *)
Fixpoint pton4 (s : list Z) (done : list Z) (cur : option Z) : option (list Z) :=
  match s with
  | [] => match cur with Some c => if Nat.eqb (List.length done) 3 then Some (done ++ [c]) else None | None => None end
  | a :: s =>
    if isdigit a then
      match cur with
      | None => pton4 s done (Some (a - 48))
      | Some c => if (c =? 0) || (255 <? c * 10 + (a - 48)) then None else pton4 s done (Some (c * 10 + (a - 48)))
      end
    else if a =? 46 then
      match cur with
      | Some c => if Nat.eqb (List.length done) 3 then None else pton4 s (done ++ [c]) None
      | None => None
      end
    else None
  end.
(** libc inet_ntoa, inet_ntop for AF_INET *)
Definition ntop4 (l : list Z) : list Z :=
  match l with
  | [a; b; c; d] => print_dec a ++ 46 :: print_dec b ++ 46 :: print_dec c ++ 46 :: print_dec d
  | _ => []
  end.

(** rtSocket.c 56-83 rtSocket_InterfaceNameToAddress; net/if.h IFNAMSIZ is 16 *)
Definition interface_address (iface : list Z -> option (list Z)) (s : list Z) : outcome Z (list Z) :=
  match iface (firstn 15 s) with Some l => Ok (ntop4 l) | None => Err RT_ERRNO end.

(** rtSocket.c 160-252 rtSocketStorage_FromString; sun_path has 108 bytes, ip has 128 *)
Definition from_string (iface v6 : list Z -> option (list Z)) (addr : list Z) : outcome Z endpoint :=
  if prefix (bs "unix://") addr then Ok (mkEndpoint AF_UNIX (firstn 107 (skipn 7 addr)) [] 0)
  else if negb (prefix (bs "tcp://") addr) then Err RT_ERROR_INVALID_ARG
  else match parse_port addr with
  | None => Err RT_ERROR_INVALID_ARG
  | Some port =>
    match last_split 58 (skipn 6 addr) with
    | None => Err RT_ERROR_INVALID_ARG
    | Some (host, _) =>
      if Nat.leb 128 (List.length host) then UB else
      do ip <- (if is_numeric host then Ok host else interface_address iface host);
      match pton4 ip [] None with
      | Some l => Ok (mkEndpoint AF_INET [] l port)
      | None => match v6 ip with
                | Some l => Ok (mkEndpoint AF_INET6 [] l port)
                | None => Ok (mkEndpoint 0 [] [] 0)
                end
      end
    end
  end.

(** rtSocket.c 99-117 rtSocketStorage_GetLength; [Err]: abort() *)
Definition get_length (e : endpoint) : outcome unit Z :=
  if family e =? AF_INET then Ok 16 else if family e =? AF_INET6 then Ok 28 else if family e =? AF_UNIX then Ok 110 else Err tt.

(** rtSocket.c 119-144 rtSocketStorage_ToString; the text put into a buffer of [n] bytes and the port, [None]: left alone *)
Definition to_text (e : endpoint) (n : nat) : option (list Z * Z) :=
  if family e =? AF_INET then
    if Nat.ltb (List.length (ntop4 (sin_addr e))) n then Some (ntop4 (sin_addr e), sin_port e) else None
  else if family e =? AF_UNIX then Some (firstn (n - 1) (bs "unix://" ++ sun_path e), 0)
  else None.
