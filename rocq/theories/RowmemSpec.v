(** What giving back a list of rows should leave. *)
From Verif Require Import Common RowmemModel.

(** nothing that was given out since [h0] is still held, and what was there before is as it was *)
Definition all_back (h0 h : list rcell) : Prop := exists k, h = h0 ++ repeat RFreed k.
