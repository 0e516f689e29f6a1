(** Model of the file in which a provider keeps its subscriptions over restarts:
    src/rbus/rbus_subscriptions.c:435-701.  Simplifications: the files can be opened, written
    and removed; whether a listener is still there ([there]: its process runs and its
    componentId's marker file exists, 395-433 and 578-603) is an input; a bool
    read through an int pointer takes the low byte (the other three go into padding). *)
From Verif Require Import Common Bytes Value BufferModel SubsModel.
Local Open Scope Z_scope.

(** what is kept of a subscription: key, autoPublish and id *)
Notation record := (key * bool * Z)%type.

(** rbus_buffer.c:150-160, 172-176 rbusBuffer_WriteStringTLV, rbusBuffer_WriteInt32TLV *)
Definition write_string (b : buffer) (s : list Z) : buffer := write_tlv b RBUS_STRING (Z.of_nat (length s) + 1) (s ++ [0]).
(** rbus_buffer.c:150-160, 172-176, continued *)
Definition write_int (b : buffer) (n : Z) : buffer := write_tlv b RBUS_INT32 4 (le32 (to_unsigned 32 n)).
(** rbus_buffer.c:150-160, 172-176, continued *)
Definition flag (b : bool) : Z := if b then 1 else 0.
(** rbus_subscriptions.c:674-684 *)
Definition write_record (b : buffer) (r : record) : outcome unit buffer :=
  let '(k, auto, id) := r in
  let b := write_string b (k_listener k) in
  let b := write_string b (k_event k) in
  let b := write_int b (k_comp k) in
  let b := write_int b (k_interval k) in
  let b := write_int b (k_duration k) in
  let b := write_int b (flag auto) in
  let b := write_int b (to_signed 32 id) in
  let b := write_int b (flag (k_raw k)) in
  match k_filter k with
  | FNull => Ok (write_int b 0)
  | f => filter_encode f (write_int b 1)
  end.
(** rbus_subscriptions.c:674-684, continued *)
Fixpoint write_records (b : buffer) (l : list record) : outcome unit buffer :=
  match l with [] => Ok b | r :: l => do b <- write_record b r ; write_records b l end.
(** rbus_subscriptions.c:633-696 rbusSubscriptions_saveCache: the file afterwards *)
Definition save_cache (l : list record) : outcome unit (option (list Z)) :=
  match l with [] => Ok None | _ => do b <- write_records buffer_create l ; Ok (Some (b_data b)) end.

(** rbus_subscriptions.c:493-521: memcpy takes as many bytes as the file says, and the bytes are
    used as a string *)
Definition read_name (b : buffer) : outcome unit (list Z * buffer) :=
  do (type, b) <- read_u b 2 ;
  do (len, b) <- read_u b 2 ;
  if negb (type =? RBUS_STRING) || (256 <=? len) then Err tt
  else match get_bytes (Z.to_nat len) (skipn (Z.to_nat (b_read b)) (b_data b)) with
       | None => UB
       | Some (x, _) => match c_str x with
                        | None => UB
                        | Some s => Ok (s, mkB (b_alloc b) (b_data b) (b_read b + len))
                        end
       end.
(** rbus_subscriptions.c:523-563 *)
Definition read_int (b : buffer) : outcome unit (Z * buffer) :=
  do (type, b) <- read_u b 2 ;
  do (len, b) <- read_u b 2 ;
  if negb (type =? RBUS_INT32) && negb (len =? 4) then Err tt else read_s b 4.
(** rbus_subscriptions.c:523-563, continued *)
Definition low_byte (n : Z) : bool := negb (n mod 256 =? 0).
(** rbus_subscriptions.c:484-571, one turn of the loop *)
Definition read_record (b : buffer) : outcome unit (record * buffer) :=
  do (listener, b) <- read_name b ;
  do (event, b) <- read_name b ;
  do (comp, b) <- read_int b ;
  do (interval, b) <- read_int b ;
  do (duration, b) <- read_int b ;
  do (auto, b) <- read_int b ;
  do (id, b) <- read_int b ;
  do (raw, b) <- read_int b ;
  do (has, b) <- read_int b ;
  do (f, b) <- (if has =? 0 then Ok (FNull, b) else filter_decode (length (b_data b)) b) ;
  Ok ((mkKey listener comp event f interval duration (low_byte raw), low_byte auto, to_unsigned 32 id), b).
(** rbus_subscriptions.c:484-571, continued *)
Definition present (there : list Z -> Z -> bool) (r : record) : bool := let '(k, _, _) := r in there (k_listener k) (k_comp k).
(** rbus_subscriptions.c:482-606: what is in the list, whether some were left out (needSave) and
    whether the end of the file was reached.  The pid is looked for from the last character of the
    listener (395-408), which an empty one does not have *)
Fixpoint read_records (fuel : nat) (there : list Z -> Z -> bool) (b : buffer) : outcome unit (list record * bool * bool) :=
  match fuel with
  | O => UB
  | S fuel =>
    if negb (b_read b <? b_write_pos b) then Ok ([], false, true)
    else match read_record b with
         | UB => UB
         | Err _ => Ok ([], false, false)
         | Ok (r, b) =>
           match k_listener (fst (fst r)) with
           | [] => UB
           | _ =>
             do (l, out, done) <- read_records fuel there b ;
             if present there r then Ok (r :: l, out, done) else Ok (l, true, done)
           end
         end
  end.
(** rbus_subscriptions.c:435-631 rbusSubscriptions_loadCache: the list and the file afterwards *)
Definition load_cache (there : list Z -> Z -> bool) (file : option (list Z)) : outcome unit (list record * option (list Z)) :=
  match file with
  | None | Some [] => Ok ([], None)
  | Some d =>
    let e := buffer_reserve buffer_create (Z.of_nat (length d)) in
    do (l, out, done) <- read_records (S (length d)) there (mkB (b_alloc e) d 0) ;
    if negb done then Ok (l, None)
    else if out then do f <- save_cache l ; Ok (l, f)
    else Ok (l, Some d)
  end.
