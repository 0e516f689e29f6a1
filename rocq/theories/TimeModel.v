(** Model of src/rtmessage/rtTime.c.  A time is a struct timespec on a 64-bit
    platform; seconds are unbounded (64-bit time_t does not overflow in
    practice), nanoseconds are in [0,10^9) for every time produced by
    clock_gettime. *)
From Verif Require Import Common Bytes.
Local Open Scope Z_scope.

(** rtTime.h:30 *)
Record rtTime := mkTime { tv_sec : Z; tv_nsec : Z }.

(** rtTime.c:44-63 rtTime_Later with a non-NULL start; [ms] is unsigned int.
    Line 56 computes (ms % 1000) * 1000000 in unsigned int: at most 999000000,
    no wrap. *)
Definition rtTime_Later (start : rtTime) (ms : Z) : rtTime :=
  let s := tv_sec start + ms / 1000 in
  let n := tv_nsec start + (ms mod 1000) * 1000000 in
  if 1000000000 <=? n then mkTime (s + 1) (n - 1000000000) else mkTime s n.

(** rtTime.c:65-88 rtTime_Elapsed with a non-NULL end.  The sum is computed in
    long and converted to int: the wrap is written explicitly.  The divisions
    are of non-negative numbers, where C and Z.div agree. *)
Definition rtTime_Elapsed (start end_ : rtTime) : Z :=
  let ms := if tv_nsec start <=? tv_nsec end_
            then (tv_sec end_ - tv_sec start) * 1000 + (tv_nsec end_ - tv_nsec start) / 1000000
            else (tv_sec end_ - tv_sec start - 1) * 1000
                 + (1000000000 + tv_nsec end_ - tv_nsec start) / 1000000 in
  to_signed 32 (to_unsigned 32 ms).

(** rtTime.c:90-118 rtTime_Compare with non-NULL arguments. *)
Definition rtTime_Compare (left right : rtTime) : Z :=
  if (tv_sec left <? tv_sec right) ||
     ((tv_sec left =? tv_sec right) && (tv_nsec left <? tv_nsec right)) then -1
  else if (tv_sec left >? tv_sec right) ||
     ((tv_sec left =? tv_sec right) && (tv_nsec left >? tv_nsec right)) then 1
  else 0.
