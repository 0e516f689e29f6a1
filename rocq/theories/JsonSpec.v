(** What a text message holds after a series of calls, said with the calls
    only. *)
From Coq Require Import String.
From Verif Require Import Common JsonModel.
Local Open Scope string_scope.
Local Open Scope list_scope.
Local Open Scope Z_scope.

(** Equal but for the case of the letters A-Z. *)
Definition alike_char (x y : Z) : Prop :=
  x = y \/ exists k, 0 <= k < 26 /\ ((x = 65 + k /\ y = 97 + k) \/ (x = 97 + k /\ y = 65 + k)).
Definition alike : list Z -> list Z -> Prop := Forall2 alike_char.

(** The call is meant to put a field of this name into the message. *)
Inductive puts : call -> list Z -> Prop :=
| puts_string n v : puts (SetString n (Some v)) n
| puts_int n z : puts (SetInt32 n z) n
| puts_bool n b : puts (SetBool n b) n
| puts_double n d : puts (SetDouble n d) n
| puts_message n x : puts (SetMessage n (Some x)) n
| puts_array n v : puts (AddString n v) n
| puts_array' n x : puts (AddMessage n x) n
| puts_binary n d : Z.of_nat (length d) <= 1026 -> puts (AddBinary n d) n
| puts_topic t : puts (SetTopic (Some t)) (bs "_topic").
Definition puts_like (c : call) (n : list Z) : Prop := exists m, puts c m /\ alike n m.

(** The call appends to a list field. *)
Definition appends (c : call) : Prop := match c with AddString _ _ | AddMessage _ _ => True | _ => False end.

(** What was appended under the name [n], in order. *)
Inductive item := Text (v : list Z) | Part (x : json).
Inductive appended (n : list Z) : list call -> list item -> Prop :=
| app_nil : appended n [] []
| app_text m v l r : alike n m -> appended n l r -> appended n (AddString m (Some v) :: l) (Text v :: r)
| app_part m x l r : alike n m -> appended n l r -> appended n (AddMessage m (Some x) :: l) (Part x :: r)
| app_other c l r : (appends c -> puts_like c n -> c = AddString (match c with AddString m _ => m | _ => n end) None \/
                                                  c = AddMessage (match c with AddMessage m _ => m | _ => n end) None) ->
    appended n l r -> appended n (c :: l) r.

(** Two items with the same content, whatever they are called. *)
Definition same_content (x y : json) : Prop :=
  j_kind x = j_kind y /\ j_str x = j_str y /\ j_int x = j_int y /\ j_dbl x = j_dbl y /\ j_kids x = j_kids y.

(** [i] is the fraction [p / 2^q] without what follows the point. *)
Definition cut (d : double) (i : Z) : Prop :=
  Z.abs i * 2 ^ Z.of_N (d_q d) <= Z.abs (d_p d) < (Z.abs i + 1) * 2 ^ Z.of_N (d_q d) /\ 0 <= i * d_p d.

(** Reading the field [n] of [m] gives what the call [c] was given. *)
Definition reads (m : json) (n : list Z) (c : call) : Prop :=
  match c with
  | SetString _ (Some v) => get_string m n = Ok (Some v) /\
      forall room, Z.of_nat (length v) < room -> get_string_value m n room = Ok (Some v)
  | SetInt32 _ z => -2147483648 <= z <= 2147483647 -> get_int32 m n = Ok z /\ get_double m n = Ok (Double z 0)
  | SetBool _ b => get_bool m n = Ok b
  | SetDouble _ d => get_double m n = Ok d /\
      (-2147483648 * 2 ^ Z.of_N (d_q d) < d_p d < 2147483647 * 2 ^ Z.of_N (d_q d) -> exists i, get_int32 m n = Ok i /\ cut d i)
  | SetMessage _ (Some x) => exists y, get_message m n = Ok y /\ same_content x y
  | AddBinary _ d => Forall (fun b => 0 <= b < 256) d -> d <> [] -> get_binary m n = Ok d
  | SetTopic (Some t) => forall room, Z.of_nat (length t) < room -> get_topic m room = Ok t
  | _ => True
  end.
