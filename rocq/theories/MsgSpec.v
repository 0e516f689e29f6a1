(** A message is a queue of typed fields. *)
From Verif Require Import Common Bytes.
Local Open Scope Z_scope.

Inductive field :=
| FStr (s : option (list Z))   (* None: NULL was passed *)
| FBin (s : list Z)
| FI32 (n : Z) | FU32 (n : Z) | FI64 (n : Z)
| FDbl (bits : Z)
| FMsg (s : list Z).           (* a nested message, by its bytes *)

(** The kinds of field: getters of one kind accept exactly fields of that kind. *)
Inductive kind := KStr | KBin | KInt | KFloat.
Definition kind_of (f : field) : kind :=
  match f with
  | FStr _ => KStr | FBin _ | FMsg _ => KBin | FI32 _ | FU32 _ | FI64 _ => KInt | FDbl _ => KFloat
  end.

(** The arguments the C signatures allow. *)
Definition field_ok (f : field) : bool :=
  match f with
  | FStr (Some s) => is_cstr s && (Z.of_nat (length s) <? 2147483647)
  | FStr None => true
  | FBin s | FMsg s => bytes_ok s && (Z.of_nat (length s) <? 4294967296)
  | FI32 n => (-2147483648 <=? n) && (n <? 2147483648)
  | FU32 n => (0 <=? n) && (n <? 4294967296)
  | FI64 n => (-9223372036854775808 <=? n) && (n <? 9223372036854775808)
  | FDbl b => (0 <=? b) && (b <? 18446744073709551616)
  end.
(** What the reader obtains: NULL becomes the empty string. *)
Definition read_back (f : field) : field :=
  match f with FStr None => FStr (Some []) | _ => f end.

Section Queue.
  Variable msg : Type.
  Variable write : msg -> field -> msg.
  Variable read : field -> msg -> outcome unit (field * msg).
  Fixpoint write_all (m : msg) (fs : list field) : msg :=
    match fs with [] => m | f :: fs => write_all (write m f) fs end.
  (** Reads with the getter types of [fs]. *)
  Fixpoint read_all (fs : list field) (m : msg) : outcome unit (list field * msg) :=
    match fs with
    | [] => Ok ([], m)
    | f :: fs => match read f m with
                 | Ok (x, m1) => match read_all fs m1 with
                                 | Ok (xs, m2) => Ok (x :: xs, m2)
                                 | Err e => Err e
                                 | UB => UB
                                 end
                 | Err e => Err e
                 | UB => UB
                 end
    end.
End Queue.
