(** C110: element information is one list of all that was answered, and giving it back gives all back. *)
From Coq Require Import String.
From Verif Require Import Common InfoModel InfoSpec InfoProofs.
Local Open Scope string_scope.
Local Open Scope list_scope.
Local Open Scope Z_scope.

(** Whatever the providers answer, if none says it has more names than it has, reading asks for no memory that is not held; going from node to
    node gives the names of every provider that answered, in order, each with its provider, and ends
    after as many as there are; there is a list just when there is a name. *)
Theorem C110_list_partial h l : honest l -> exists g, get_info h l = Ok g /\
  (forall fuel, (length (listing l) <= fuel)%nat -> walk fuel (g_heap g) (first g) = Ok (listing l)) /\
  (g_elem g = None <-> listing l = []).
Proof.
  intros HN. destruct (merges_ok h l (mkGot h None 0 0) [] HN (start_holds h)) as (g & E & H). cbn [app] in H. exists g. split; [exact E|].
  unfold first. destruct H as (L0 & K & C & H). destruct (g_elem g) as [b|].
  - destruct H as (ns & ps & N & NE & B0 & LK & P & F & ND & AB & CV).
    assert (Ln : length ns = length (listing l)).
    { apply F2_length in F. rewrite <- F. apply (f_equal (@length _)) in P. unfold pairs in P. rewrite !map_length in P. exact P. }
    split.
    + intros fuel Hf. pose proof (walk_ok (g_heap g) b ns [] ps (listing l) fuel N LK P F ltac:(lia)) as W. destruct ns; [congruence|exact W].
    + split; [discriminate|]. intros X. rewrite X in Ln. destruct ns; [congruence|discriminate].
  - destruct H as [-> _]. split; [intros [|fuel] _; reflexivity|tauto].
Qed.
Print Assumptions C110_list_partial.

(** Then giving the list back gives back everything that was taken since, nothing twice, and leaves what
    was there before as it was. *)
Theorem C110_free_partial h l : honest l -> exists g, get_info h l = Ok g /\
  forall fuel, (length (listing l) <= fuel)%nat -> exists h', free_info fuel (g_heap g) (g_elem g) = Ok h' /\ returned h h'.
Proof.
  intros HN. destruct (merges_ok h l (mkGot h None 0 0) [] HN (start_holds h)) as (g & E & H). cbn [app] in H. exists g. split; [exact E|]. intros fuel Hf.
  destruct (g_elem g) as [b|] eqn:Eb.
  - eapply free_all; eassumption.
  - exists (g_heap g). split; [reflexivity|]. destruct H as (L0 & K & C & _ & CV). exists (length (g_heap g) - length h)%nat. apply nth_ext_error. intros i.
    destruct (Nat.lt_ge_cases i (length h)) as [C1|C1]; [rewrite nth_error_app1 by exact C1; apply K, C1|]. rewrite nth_error_app2 by exact C1.
    destruct (Nat.lt_ge_cases i (length (g_heap g))) as [C2|C2].
    + rewrite CV by lia. symmetry. apply nth_error_repeat. lia.
    + transitivity (@None cell); [apply nth_error_None; exact C2|]. symmetry. apply nth_error_None. rewrite repeat_length. lia.
Qed.
Print Assumptions C110_free_partial.

(** A provider whose reply says it has more names than it has makes the program that asked read from
    an address nobody wrote: the result of reading the next name is not looked at. *)
Theorem C110_short_refuted : forall h comp count names, Z.of_nat (length names) < count -> get_info h [(comp, Answer 0 count names)] = UB.
Proof.
  intros h comp count names L. unfold get_info. cbn [merges]. unfold merge. cbn [fst snd]. change (0 =? 0) with true. cbv iota.
  destruct (Z.ltb_spec 0 count); [|lia]. cbn [grow g_elem g_heap alloc obind]. unfold nodes_at. rewrite nth_error_app2, Nat.sub_diag by lia. cbn [nth_error obind].
  rewrite short_fill by lia. reflexivity.
Qed.
Print Assumptions C110_short_refuted.

(** Two providers with three names, one that answers nothing and one that fails, over memory in use. *)
Example C110_witness :
  let l := [(bs "p", Answer 0 2 [bs "a"; bs "b"]); (bs "q", Lost 5); (bs "r", Answer 7 3 []); (bs "s", Answer 0 1 [bs "c"; bs "d"])] in
  honest l /\
  match get_info [Str (bs "x")] l with
  | Ok g => walk 3 (g_heap g) (first g) = Ok [(bs "a", bs "p"); (bs "b", bs "p"); (bs "c", bs "s")] /\ g_count g = 3%nat /\
            free_info 3 (g_heap g) (g_elem g) = Ok (Str (bs "x") :: repeat Freed 8)
  | _ => False
  end.
Proof.
  split; [|vm_compute; repeat split]. intros x code count names H E C. cbn [In] in H. repeat (destruct H as [<-|H]; [cbn [snd] in E; try discriminate E; injection E as <- <- <-; cbn; try lia|]). destruct H.
Qed.
