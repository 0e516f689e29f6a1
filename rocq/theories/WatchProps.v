(** Properties of value change detection: C38, C63. *)
From Coq Require Import String Lia QArith.
From Verif Require Import Common CommonFacts Value CompareModel CompareSpec WatchModel WatchSpec WatchProofs.
Local Open Scope string_scope.
Local Open Scope list_scope.
Local Open Scope Z_scope.

(** In every history, for every node: the events are exactly one for each read that gives another value
    than the current one, with that value and the current one, and none when it is not watched. *)
Theorem C38_chain_partial : forall st0 l s tr n, Forall (frozen st0) l -> orderly_run vc0 l -> vrun vc0 l = Ok (s, tr) -> follows n None None tr.
Proof. intros st0 l s tr n F O E. destruct (run_ok st0 _ _ _ _ (inv0 st0) F O E) as [_ H]. exact (H n). Qed.
Print Assumptions C38_chain_partial.
(** The polling thread runs exactly while something is watched. *)
Theorem C38_running_partial : forall st0 l s tr, Forall (frozen st0) l -> orderly_run vc0 l -> vrun vc0 l = Ok (s, tr) -> (running s = true <-> params s <> []) /\ NoDup (map v_node (params s)).
Proof. intros st0 l s tr F O E. destruct (run_ok st0 _ _ _ _ (inv0 st0) F O E) as [[I1 _ _ _ I5] _]. split; [|exact I1]. rewrite I5. destruct (params s); split; congruence. Qed.
Print Assumptions C38_running_partial.
(** What an event says about who made the change: the component that last set the value through the
    bus, or the provider if none did. *)
Theorem C63_by_partial : forall n c l s tr o s' a new old b, Forall (provided_by n c) (l ++ [o]) -> vrun vc0 l = Ok (s, tr) -> vstep s o = Ok (s', a) -> In (Sent n new old b) a ->
  b = match last_setter n l with Some d => d | None => c end.
Proof.
  intros n c l s tr o s' a new old b F R E J. apply Forall_app in F as [F1 F2]. inversion F2; subst. assert (B0 : by_inv n c (last_setter n []) vc0) by (constructor; cbn; tauto).
  apply (by_run n c l vc0 [] _ _ B0 F1) in R. apply (by_step n c l) in E as [_ E]; eauto.
Qed.
Print Assumptions C63_by_partial.

(** ** a history *)
Definition mem : store := fun a => nth a [VInt32 5; VInt32 5; VInt32 7; VString (Some (bs "up")); VString (Some (bs "down")); VDouble 0x401C000000000000] VNull.
Definition rd (a : nat) : option (option nat) := Some (Some a).
Definition day := [AddRead 1 (bs "prov") 10 (rd 0); AddPush mem 10; PollStart; PollOne mem (rd 1) 2000; PollEnd; AddRead 1 (bs "prov") 11 (rd 3); SetBy 10 (bs "web") 3000; AddPush mem 11;
  PollStart; PollOne mem (rd 2) 4000; PollOne mem None 4001; PollEnd; PollStart; PollOne mem (rd 5) 6000; PollOne mem (rd 4) 6001; PollEnd; RemoveNode 10; PollStart; PollOne mem (rd 3) 8000; PollEnd; CloseHandle 1].
Fixpoint orderlyb (s : vc) (l : list vop) : bool :=
  match l with
  | [] => true
  | o :: l => match o with AddRead _ _ n _ | RemoveNode n => match vc_find n (pending s) with None => true | _ => false end | CloseHandle _ => match pending s with [] => true | _ => false end | _ => true end &&
      match vstep s o with Ok (s', _) => orderlyb s' l | _ => true end
  end.
Lemma orderlyb_ok : forall l s, orderlyb s l = true -> orderly_run s l.
Proof.
  induction l as [|o l IH]; intros s H; [exact I|]. cbn [orderlyb] in H. apply andb_prop in H as [A B]. split.
  - destruct o; cbn; auto; [destruct (vc_find n (pending s)); [discriminate A|reflexivity]|destruct (vc_find n (pending s)); [discriminate A|reflexivity]|destruct (pending s); [reflexivity|discriminate A]].
  - intros s' a E. rewrite E in B. auto.
Qed.
Example C38_witness : Forall (frozen mem) day /\ orderly_run vc0 day /\ exists s, vrun vc0 day = Ok (s,
  [Watch 10 (VInt32 5); Polled 10 (VInt32 5); Watch 11 (VString (Some (bs "up"))); Polled 10 (VInt32 7); Sent 10 (VInt32 7) (VInt32 5) (bs "web");
   Polled 10 (VDouble 0x401C000000000000); Polled 11 (VString (Some (bs "down"))); Sent 11 (VString (Some (bs "down"))) (VString (Some (bs "up"))) (bs "prov");
   Unwatch 10; Polled 11 (VString (Some (bs "up"))); Sent 11 (VString (Some (bs "up"))) (VString (Some (bs "down"))) (bs "prov"); Unwatch 11]) /\ params s = [].
Proof.
  split; [|split; [apply orderlyb_ok; vm_compute; reflexivity|eexists; split; vm_compute; reflexivity]].
  repeat (constructor; [cbn; repeat split; try reflexivity; exact I|]). constructor.
Qed.
Example C63_witness : exists s tr s' a, Forall (provided_by 10 (bs "prov")) day /\ vrun vc0 (firstn 9 day) = Ok (s, tr) /\ vstep s (PollOne mem (rd 2) 4000) = Ok (s', a) /\
  In (Sent 10 (VInt32 7) (VInt32 5) (bs "web")) a /\ last_setter 10 (firstn 9 day) = Some (bs "web").
Proof.
  do 4 eexists. split; [repeat (constructor; [cbn; try (intros; reflexivity); exact I|]); constructor|]. split; [vm_compute; reflexivity|]. split; [vm_compute; reflexivity|]. split; [cbn; auto|reflexivity].
Qed.

(** ** where it fails *)
(** A provider that keeps one value object and changes it in place is never noticed: the detector
    compares the object with itself. *)
Theorem C38_shared_object_refuted : exists l s tr st1 st2, vrun vc0 l = Ok (s, tr) /\ st1 0%nat = VInt32 5 /\ st2 0%nat = VInt32 9 /\
  l = [AddRead 1 (bs "prov") 10 (rd 0); AddPush st1 10; PollStart; PollOne st2 (rd 0) 2000; PollEnd] /\ tr = [Watch 10 (VInt32 5); Polled 10 (VInt32 9)].
Proof. do 3 eexists. exists (fun _ => VInt32 5), (fun _ => VInt32 9). split; [|repeat split]; reflexivity. Qed.
Print Assumptions C38_shared_object_refuted.
(** Changes of a date-time are never noticed, nor are small changes of large integers. *)
Theorem C38_datetime_refuted : forall a b, exists s, let st := (fun i => match i with O => VDateTime a | _ => VDateTime b end) : store in
  vrun vc0 [AddRead 1 (bs "prov") 10 (rd 0); AddPush st 10; PollStart; PollOne st (rd 1) 2000; PollEnd] = Ok (s, [Watch 10 (VDateTime a); Polled 10 (VDateTime b)]).
Proof. intros a b. eexists. reflexivity. Qed.
Print Assumptions C38_datetime_refuted.
(** A 64-bit integer that changes by one beyond 2^53 is not noticed: the comparison is made in doubles. *)
Theorem C38_wide_refuted : exists s, let st := (fun i => match i with O => VUInt64 9007199254740992 | _ => VUInt64 9007199254740993 end) : store in
  vrun vc0 [AddRead 1 (bs "prov") 10 (rd 0); AddPush st 10; PollStart; PollOne st (rd 1) 2000; PollEnd] = Ok (s, [Watch 10 (VUInt64 9007199254740992); Polled 10 (VUInt64 9007199254740993)]).
Proof. eexists. vm_compute. reflexivity. Qed.
Print Assumptions C38_wide_refuted.
(** A value that is not a number is published at every poll although it does not change, and a byte
    string that gets shorter is compared past its end. *)
Theorem C38_nan_refuted : exists s, let st := (fun i => VDouble 0x7ff8000000000000) : store in
  vrun vc0 [AddRead 1 (bs "prov") 10 (rd 0); AddPush st 10; PollStart; PollOne st (rd 1) 2000; PollEnd; PollStart; PollOne st (rd 2) 4000] =
  Ok (s, [Watch 10 (st 0%nat); Polled 10 (st 0%nat); Sent 10 (st 0%nat) (st 0%nat) (bs "prov"); Polled 10 (st 0%nat); Sent 10 (st 0%nat) (st 0%nat) (bs "prov")]).
Proof. eexists. vm_compute. reflexivity. Qed.
Print Assumptions C38_nan_refuted.
(** Byte arrays of different lengths are compared past the end of the shorter one. *)
Theorem C38_bytes_refuted : let st := (fun i => match i with O => VBytes (Some [1]) | _ => VBytes (Some [1; 2]) end) : store in
  vrun vc0 [AddRead 1 (bs "prov") 10 (rd 0); AddPush st 10; PollStart; PollOne st (rd 1) 2000] = UB.
Proof. vm_compute. reflexivity. Qed.
Print Assumptions C38_bytes_refuted.
(** When a component set the value once, every later change the provider makes by itself is put down
    to that component: here a set at 3000, noticed at 4000, and a change of the provider's own noticed
    a day later. *)
Theorem C63_by_refuted : exists s, vrun vc0 [AddRead 1 (bs "prov") 10 (rd 0); AddPush mem 10; SetBy 10 (bs "web") 3000; PollStart; PollOne mem (rd 2) 4000; PollEnd; PollStart; PollOne mem (rd 1) 86400000] =
  Ok (s, [Watch 10 (VInt32 5); Polled 10 (VInt32 7); Sent 10 (VInt32 7) (VInt32 5) (bs "web"); Polled 10 (VInt32 5); Sent 10 (VInt32 5) (VInt32 7) (bs "web")]).
Proof. eexists. vm_compute. reflexivity. Qed.
Print Assumptions C63_by_refuted.
(** Closing the last handle that has watched values, while another one is about to add its first,
    frees the detector under it. *)
Theorem C38_freed_refuted : vrun vc0 [AddRead 1 (bs "a") 10 (rd 0); AddPush mem 10; AddRead 2 (bs "b") 20 (rd 0); CloseHandle 1; AddPush mem 20] = UB.
Proof. vm_compute. reflexivity. Qed.
Print Assumptions C38_freed_refuted.
