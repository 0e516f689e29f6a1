(** C111: the list of rows reads as it was answered, and giving it back gives all back. *)
From Coq Require Import String.
From Verif Require Import Common RowmemModel RowmemSpec RowmemProofs.
From Verif Require InfoProofs.
Local Open Scope string_scope.
Local Open Scope list_scope.
Local Open Scope Z_scope.

(** Going from node to node gives each row of the reply with its number, name and alias, in order, and
    ends after the last; there is a list just when there is a row. *)
Theorem C111_list h l : let (h', e) := get_rows h l in
  (forall fuel, (length l <= fuel)%nat -> rwalk fuel h' (rfirst e) = Ok l) /\ (e = None <-> l = []).
Proof.
  destruct (list_eq_dec (fun x y : Z * list Z * list Z => ltac:(repeat decide equality)) l []) as [-> |NE].
  { cbn. split; [intros [|f] _; reflexivity|tauto]. }
  destruct (get_ok h l NE) as (ext & r & E & F & M & O). rewrite E. split; [|split; [discriminate|congruence]].
  intros fuel Hf. pose proof (InfoProofs.F2_length _ _ _ F) as Lr.
  assert (N : nth_error (h ++ RNodes r :: ext) (length h) = Some (RNodes ([] ++ r))) by (rewrite nth_error_app2, Nat.sub_diag by lia; reflexivity).
  rewrite <- Lr in M. pose proof (rwalk_ok _ (length h) r [] l fuel N M F ltac:(lia)) as W. destruct r; [destruct l; [congruence|discriminate]|exact W].
Qed.
Print Assumptions C111_list.

(** Giving the list back gives back everything that was taken since, nothing twice, rows without an
    alias among them, and leaves what was there before as it was. *)
Theorem C111_free h l : let (h', e) := get_rows h l in
  forall fuel, (length l <= fuel)%nat -> exists h2, free_rows fuel h' e = Ok h2 /\ all_back h h2.
Proof.
  destruct (list_eq_dec (fun x y : Z * list Z * list Z => ltac:(repeat decide equality)) l []) as [-> |NE].
  { cbn. intros fuel _. exists h. split; [reflexivity|]. exists 0%nat. cbn. rewrite app_nil_r. reflexivity. }
  destruct (get_ok h l NE) as (ext & r & E & F & M & O). rewrite E. intros fuel Hf. pose proof (InfoProofs.F2_length _ _ _ F) as Lr.
  assert (N : nth_error (h ++ RNodes r :: ext) (length h) = Some (RNodes ([] ++ r))) by (rewrite nth_error_app2, Nat.sub_diag by lia; reflexivity).
  rewrite <- Lr in M. assert (ND : NoDup (owned r)) by (rewrite O; apply seq_NoDup).
  destruct (rfree_ok (length h) r [] l fuel _ N M F ND ltac:(lia)) as (h1 & E1 & L1 & Q).
  destruct r as [|n r]; [destruct l; [congruence|discriminate]|]. cbn [length] in E1. unfold free_rows. rewrite E1. cbn [obind].
  assert (NB : ~ In (length h) (owned (n :: r))) by (rewrite O, in_seq; lia).
  unfold rfree. rewrite (proj2 (Q _) NB), N. eexists. split; [reflexivity|]. exists (S (length ext)). apply InfoProofs.nth_ext_error. intros i.
  rewrite app_length in L1. cbn [length] in L1.
  rewrite InfoProofs.nth_upd. destruct (Nat.lt_ge_cases i (length h)) as [C|C].
  - rewrite nth_error_app1 by exact C. destruct (Nat.eqb_spec (length h) i); [lia|]. rewrite (proj2 (Q i)) by (rewrite O, in_seq; lia). apply nth_error_app1, C.
  - rewrite nth_error_app2 by exact C. destruct (Nat.lt_ge_cases i (length h1)) as [C2|C2].
    + transitivity (Some RFreed); [|symmetry; apply nth_error_repeat; lia]. destruct (Nat.eqb_spec (length h) i) as [Ei|Ni].
      * destruct (Nat.ltb_spec (length h) (length h1)); [reflexivity|lia].
      * apply (proj1 (Q i)). rewrite O, in_seq. lia.
    + destruct (Nat.eqb_spec (length h) i); [lia|]. transitivity (@None rcell); [apply nth_error_None; exact C2|]. symmetry. apply nth_error_None. rewrite repeat_length. lia.
Qed.
Print Assumptions C111_free.

(** Three rows, one of them without an alias, over memory in use. *)
Example C111_witness :
  let l := [(1, bs "T.1.", bs "x"); (5, bs "T.5.", []); (7, bs "T.7.", bs "z")] in
  let (h, e) := get_rows [RStr (bs "q")] l in
  rwalk 3 h (rfirst e) = Ok l /\ free_rows 3 h e = Ok (RStr (bs "q") :: repeat RFreed 6).
Proof. vm_compute. repeat split. Qed.
