(** What a value in the legacy text format means, and messages that carry such values. *)
From Coq Require Import String.
From Verif Require Import Common Value TextSpec MsgSpec WireSpec Base64Spec.
Local Open Scope string_scope.
Local Open Scope list_scope.
Local Open Scope Z_scope.

(** the letters of a word, small or capital *)
Inductive letter : Z -> Z -> Prop :=
| same c : letter c c
| capital c : 97 <= c <= 122 -> letter c (c - 32).
Definition word (w s : list Z) : Prop := Forall2 letter w s.

Section Means.
  (** what the C library makes of floating point numbers and times *)
  Variables (single double : list Z -> option Z) (time : list Z -> option datetime).
  (** the text [s] of the legacy type [code] means [v] *)
  Inductive means : Z -> list Z -> value -> Prop :=
  | m_string s : means 0 s (VString (Some s))
  | m_int s n : denotes s n -> - 2 ^ 31 <= n < 2 ^ 31 -> means 1 s (VInt32 n)
  | m_uint s n : denotes s n -> 0 <= n < 2 ^ 32 -> means 2 s (VUInt32 n)
  | m_true s : word (bs "true") s \/ s = bs "1" -> means 3 s (VBool true)
  | m_false s : word (bs "false") s \/ s = bs "0" -> means 3 s (VBool false)
  | m_time s d : time s = Some d -> means 4 s (VDateTime d)
  | m_base64 s l : writes s l -> means 5 s (VBytes (Some l))
  | m_long s n : denotes s n -> - 2 ^ 63 <= n < 2 ^ 63 -> means 6 s (VInt64 n)
  | m_ulong s n : denotes s n -> 0 <= n < 2 ^ 64 -> means 7 s (VUInt64 n)
  | m_float s b : single s = Some b -> means 8 s (VSingle b)
  | m_double s b : double s = Some b -> means 9 s (VDouble b)
  | m_byte c : means 10 [c] (VByte c).
End Means.

(** The types and texts for which the code reads exactly the texts that mean something. *)
Definition plain (code : Z) (s : list Z) : Prop :=
  In code [0; 1; 3; 4; 6; 8; 9; 11] \/ (code = 2 \/ code = 7) /\ ~ starts_with_space s \/ code = 10 /\ length s = 1%nat.

(** A property in a message: a value of this library or a legacy one; what its reader must get. *)
Inductive entry := Modern (v : value) | Text (code : Z) (s : list Z).
Definition entry_fields (value_fields : value -> list field) (n : list Z) (e : entry) : list field :=
  FStr (Some n) :: match e with Modern v => value_fields v | Text code s => [FI32 code; FStr (Some s)] end.
Definition legacy_code (code : Z) : Prop := 0 <= code <= 11.
Definition entry_ok (ne : list Z * entry) : Prop :=
  name_ok (Some (fst ne)) = true /\
  match snd ne with Modern v => sendable_value v = true | Text code s => legacy_code code /\ name_ok (Some s) = true end.
