(** Model of the text messages of src/rtmessage/rtMessage.c: fields by name
    in a JSON object.  The JSON library (cJSON) is not part of the repository;
    what is used of it is modelled as its documentation and sources (1.7)
    describe it.  Strings are lists of bytes without the terminator.
    Simplifications: allocation succeeds; a double is a fraction [p / 2^q]
    (no NaN or infinity); names are not null; the counter of references is
    left out (C50); printing and parsing are not modelled. *)
From Coq Require Import String.
From Verif Require Import Common Base64Model.
Local Open Scope string_scope.
Local Open Scope list_scope.
Local Open Scope Z_scope.

(** the type of a cJSON item; cJSON.h, used at rtMessage.c 253 *)
Inductive kind := KFalse | KTrue | KNumber | KString | KArray | KObject.

(** a finite double [p / 2^q]; rtMessage.c 265, 388 *)
Record double := Double { d_p : Z; d_q : N }.

(** a cJSON item: its name in the object around it, its type, valuestring (null unless it is a
    string), valueint, valuedouble and the list of its children; cJSON.h, rtMessage.c 36 *)
Inductive json := J (name : option (list Z)) (k : kind) (str : option (list Z)) (int : Z) (dbl : double) (kids : list json).

(** the parts of an item; rtMessage.c 253, 304, 374, 393 *)
Definition j_name (j : json) := let (n, _, _, _, _, _) := j in n.
(** rtMessage.c 253 *)
Definition j_kind (j : json) := let (_, k, _, _, _, _) := j in k.
(** rtMessage.c 304 *)
Definition j_str (j : json) := let (_, _, s, _, _, _) := j in s.
(** rtMessage.c 374 *)
Definition j_int (j : json) := let (_, _, _, i, _, _) := j in i.
(** rtMessage.c 393 *)
Definition j_dbl (j : json) := let (_, _, _, _, d, _) := j in d.
(** rtMessage.c 544 *)
Definition j_kids (j : json) := let (_, _, _, _, _, l) := j in l.

(** cJSON: an item in an object gets the name it is added under (rtMessage.c 222) *)
Definition renamed (n : list Z) (j : json) : json := let (_, k, s, i, d, l) := j in J (Some n) k s i d l.
(** cJSON: a list of children with one more at the end (rtMessage.c 222, 474) *)
Definition with_kid (j x : json) : json := let (n, k, s, i, d, l) := j in J n k s i d (l ++ [x]).

(** cJSON: valueint of a number is cut towards zero and limited to int (read at rtMessage.c 374) *)
Definition int_of (d : double) : Z :=
  let b := 2 ^ Z.of_N (d_q d) in
  if 2147483647 * b <=? d_p d then 2147483647
  else if d_p d <=? -2147483648 * b then -2147483648
  else Z.quot (d_p d) b.
(** cJSON_CreateNumber; rtMessage.c 235, 267 *)
Definition create_number (d : double) : json := J None KNumber None (int_of d) d [].
(** cJSON_CreateString; a null string gives no item; rtMessage.c 222 *)
Definition create_string (s : option (list Z)) : option json :=
  match s with Some s => Some (J None KString (Some s) 0 (Double 0 0) []) | None => None end.
(** cJSON_CreateBool; rtMessage.c 242 *)
Definition create_bool (b : bool) : json := J None (if b then KTrue else KFalse) None 0 (Double 0 0) [].
(** cJSON_CreateArray; rtMessage.c 471 *)
Definition create_array : json := J None KArray None 0 (Double 0 0) [].
(** cJSON_CreateObject: rtMessage.c 46-78 rtMessage_Create *)
Definition create : json := J None KObject None 0 (Double 0 0) [].

(** tolower in the C locale, used by cJSON to compare names; libc *)
Definition lower (c : Z) : Z := if (65 <=? c) && (c <=? 90) then c + 32 else c.
(** cJSON case_insensitive_strcmp; an item without a name is never equal; behind rtMessage.c 250 *)
Definition name_is (n : list Z) (j : json) : bool :=
  match j_name j with Some m => bytes_eqb (map lower n) (map lower m) | None => false end.
(** cJSON_GetObjectItem: the first child of that name, letter case ignored; rtMessage.c 250 *)
Definition get_item (m : json) (n : list Z) : option json := find (name_is n) (j_kids m).
(** cJSON_AddItemToObject: at the end, no look at what is there; a null item changes nothing;
    rtMessage.c 222 *)
Definition add_item (m : json) (n : list Z) (x : option json) : json :=
  match x with Some x => with_kid m (renamed n x) | None => m end.

(** rtMessage.c 220-224 rtMessage_SetString *)
Definition set_string (m : json) (n : list Z) (v : option (list Z)) : json := add_item m n (create_string v).
(** rtMessage.c 232-237 rtMessage_SetInt32 *)
Definition set_int32 (m : json) (n : list Z) (v : Z) : json := add_item m n (Some (create_number (Double v 0))).
(** rtMessage.c 239-244 rtMessage_SetBool *)
Definition set_bool (m : json) (n : list Z) (b : bool) : json := add_item m n (Some (create_bool b)).
(** rtMessage.c 264-269 rtMessage_SetDouble *)
Definition set_double (m : json) (n : list Z) (d : double) : json := add_item m n (Some (create_number d)).
(** rtMessage.c 278-289 rtMessage_SetMessage: cJSON_Duplicate copies the item, its name too; a
    message without content (json null) adds nothing *)
Definition set_message (m : json) (n : list Z) (item : option json) : json := add_item m n item.

(** the first item of that name put in place by [f]; the pointer held into the list, rtMessage.c 468-474 *)
Fixpoint on_first (n : list Z) (f : json -> json) (l : list json) : list json :=
  match l with [] => [] | x :: l => if name_is n x then f x :: l else x :: on_first n f l end.
(** an item with other children; rtMessage.c 468-474 *)
Definition with_kids (j : json) (l : list json) : json := let (n, k, s, i, d, _) := j in J n k s i d l.
(** rtMessage.c 466-477 and 511-529: the array of that name is made when there is none; the item
    is added to whatever is there, array or not *)
Definition add_to (m : json) (n : list Z) (x : option json) : json :=
  let m := match get_item m n with Some _ => m | None => add_item m n (Some create_array) end in
  match x with
  | Some x => with_kids m (on_first n (fun a => with_kid a x) (j_kids m))
  | None => m
  end.
(** rtMessage.c 465-477 rtMessage_AddString *)
Definition add_string (m : json) (n : list Z) (v : option (list Z)) : json := add_to m n (create_string v).
(** rtMessage.c 511-529 rtMessage_AddMessage *)
Definition add_message (m : json) (n : list Z) (item : option json) : json := add_to m n item.
(** rtMessage.c 487-503 rtMessage_AddBinaryData; [Err]: RT_FAIL, nothing changed *)
Definition add_binary (m : json) (n : list Z) (d : list Z) : outcome unit json :=
  match encode d with
  | Ok (t, _) => Ok (set_string m n (Some t))
  | Err _ => Err tt
  | UB => UB
  end.

(** the name "_topic"; rtMessage.c 431, 448-452 *)
Definition topic_name : list Z := bs "_topic".
(** rtMessage.c 446-457 rtMessage_SetSendTopic: cJSON_ReplaceItemInObject frees the item it takes
    out and line 454 frees it again *)
Definition set_topic (m : json) (t : option (list Z)) : outcome unit json :=
  match get_item m topic_name, create_string t with
  | None, x => Ok (add_item m topic_name x)
  | Some _, _ => UB
  end.

(** rtMessage.c 299-309 rtMessage_GetString; the pointer may be null *)
Definition get_string (m : json) (n : list Z) : outcome unit (option (list Z)) :=
  match get_item m n with Some p => Ok (j_str p) | None => Err tt end.
(** rtMessage.c 369-379 rtMessage_GetInt32 *)
Definition get_int32 (m : json) (n : list Z) : outcome unit Z :=
  match get_item m n with Some p => Ok (j_int p) | None => Err tt end.
(** rtMessage.c 246-256 rtMessage_GetBool *)
Definition get_bool (m : json) (n : list Z) : outcome unit bool :=
  match get_item m n with Some p => Ok (match j_kind p with KTrue => true | _ => false end) | None => Err tt end.
(** rtMessage.c 388-398 rtMessage_GetDouble *)
Definition get_double (m : json) (n : list Z) : outcome unit double :=
  match get_item m n with Some p => Ok (j_dbl p) | None => Err tt end.
(** rtMessage.c 407-420 rtMessage_GetMessage: a copy *)
Definition get_message (m : json) (n : list Z) : outcome unit json :=
  match get_item m n with Some p => Ok p | None => Err tt end.
(** rtMessage.c 318-334 rtMessage_GetBinaryData: strlen of a null pointer is undefined *)
Definition get_binary (m : json) (n : list Z) : outcome unit (list Z) :=
  match get_item m n with
  | Some p => match j_str p with Some s => decode s | None => UB end
  | None => Err tt
  end.
(** rtMessage.c 343-360 rtMessage_GetStringValue into a buffer of [room] bytes: what it holds
    afterwards; [None]: untouched.  snprintf puts in at most [room - 1] characters. *)
Definition get_string_value (m : json) (n : list Z) (room : Z) : outcome unit (option (list Z)) :=
  match get_item m n with
  | Some p =>
      match j_str p with
      | Some s => if Z.of_nat (length s) <=? room
                  then Ok (if room =? 0 then None else Some (firstn (Z.to_nat (room - 1)) s))
                  else Err tt
      | None => UB
      end
  | None => Err tt
  end.
(** rtMessage.c 427-437 rtMessage_GetSendTopic into a buffer of [room] bytes: strcpy *)
Definition get_topic (m : json) (room : Z) : outcome unit (list Z) :=
  match get_item m topic_name with
  | Some p => match j_str p with Some s => if Z.of_nat (length s) <? room then Ok s else UB | None => UB end
  | None => Err tt
  end.
(** rtMessage.c 538-547 rtMessage_GetArrayLength: the number of children *)
Definition get_length (m : json) (n : list Z) : Z :=
  match get_item m n with Some p => Z.of_nat (length (j_kids p)) | None => 0 end.
(** cJSON_GetArrayItem; rtMessage.c 566 *)
Definition array_item (p : json) (i : Z) : option json := if i <? 0 then None else nth_error (j_kids p) (Z.to_nat i).
(** rtMessage.c 557-574 rtMessage_GetStringItem *)
Definition get_string_item (m : json) (n : list Z) (i : Z) : outcome unit (option (list Z)) :=
  match get_item m n with
  | Some p => if Z.of_nat (length (j_kids p)) <=? i then Err tt
              else match array_item p i with Some x => Ok (j_str x) | None => Err tt end
  | None => Err tt
  end.
(** rtMessage.c 583-599 rtMessage_GetMessageItem: the copy of a null item is null *)
Definition get_message_item (m : json) (n : list Z) (i : Z) : outcome unit (option json) :=
  match get_item m n with
  | Some p => if Z.of_nat (length (j_kids p)) <=? i then Err tt else Ok (array_item p i)
  | None => Err tt
  end.

(** a call that changes a message; the functions of rtMessage.c 220-529 *)
Inductive call :=
| SetString (n : list Z) (v : option (list Z))
| SetInt32 (n : list Z) (v : Z)
| SetBool (n : list Z) (b : bool)
| SetDouble (n : list Z) (d : double)
| SetMessage (n : list Z) (item : option json)
| AddString (n : list Z) (v : option (list Z))
| AddMessage (n : list Z) (item : option json)
| AddBinary (n : list Z) (d : list Z)
| SetTopic (t : option (list Z)).

(** one call: rtMessage.c 220-529; a refused call leaves the message as it is (rtMessage.c 500) *)
Definition apply (m : json) (c : call) : outcome unit json :=
  match c with
  | SetString n v => Ok (set_string m n v)
  | SetInt32 n v => Ok (set_int32 m n v)
  | SetBool n b => Ok (set_bool m n b)
  | SetDouble n d => Ok (set_double m n d)
  | SetMessage n x => Ok (set_message m n x)
  | AddString n v => Ok (add_string m n v)
  | AddMessage n x => Ok (add_message m n x)
  | AddBinary n d => match add_binary m n d with Ok m => Ok m | Err _ => Ok m | UB => UB end
  | SetTopic t => set_topic m t
  end.
(** calls of rtMessage.c 220-529 one after the other on a message *)
Fixpoint run (m : json) (l : list call) : outcome unit json :=
  match l with [] => Ok m | c :: l => do m <- apply m c; run m l end.
