(** Properties of request and response matching: C28. *)
From Verif Require Import Common CommonFacts PendModel PendSpec PendProofs.
From Coq Require Import List ZArith Lia Bool.
Import ListNotations.
Local Open Scope Z_scope.

(** In every interleaving a call ends at most once, and it ends with a response only if that
    response came in with the call's own number; it is reported as undeliverable only if such a
    response said so; and it times out only if its time was up. *)
Theorem C28_matching_partial : forall l s, run init l = Ok s -> NoDup (map fst (results s)) /\ forall r x, In (r, x) (results s) -> (r < begun l)%nat /\
  match x with
  | Completed n m => nth_error (responses l) n = Some m /\ r_seq m = number r /\ r_undeliverable m = false
  | Gone => exists n m, nth_error (responses l) n = Some m /\ r_seq m = number r /\ r_undeliverable m = true
  | TimedOut => In (Expire r) l
  | NotSent => True
  | NoData => False
  end.
Proof.
  intros l s H. pose proof (run_inv [] l init s inv_init H) as V. cbn [app] in V. split; [apply (i_once _ _ V)|]. intros r x Hx. split; [rewrite <- (i_calls _ _ V); apply (i_done _ _ V _ _ Hx)|]. exact (i_res _ _ V _ _ Hx).
Qed.
Print Assumptions C28_matching_partial.
(** No message is handed to two callers, or handed to one and released, or released twice. *)
Theorem C28_ownership_partial : forall l s, run init l = Ok s -> NoDup (released s ++ given (results s)).
Proof.
  intros l s H. pose proof (i_own _ _ (run_inv [] l init s inv_init H)) as N. rewrite app_assoc in N. apply nodup_split in N. apply N.
Qed.
Print Assumptions C28_ownership_partial.
(** A response with a number that no unfinished call has is released and changes nothing else. *)
Theorem C28_discarded : forall l s m, run init l = Ok s -> held s = None -> (forall r, (r < begun l)%nat -> ~ In r (map fst (results s)) -> number r <> r_seq m) ->
  step s (Arrive m) = Ok (mkState (pend s) (held s) (calls s) (next_seq s) (S (arrived s)) (results s) (released s ++ [arrived s])).
Proof.
  intros l s m H HE NO. pose proof (run_inv [] l init s inv_init H) as V. cbn [app] in V. cbn [step]. rewrite HE. cbn [is_some]. destruct (find _ (pend s)) as [p|] eqn:FD; [|reflexivity]. exfalso.
  apply find_some in FD as [Ip E]. apply Z.eqb_eq in E. destruct (i_seqs _ _ V p Ip) as [S1 S2]. apply (NO (p_no p)); [rewrite <- (i_calls _ _ V); exact S2| |congruence].
  intros C. apply in_map_iff in C as ((r, x) & Er & C). cbn in Er. subst r. apply (i_done _ _ V) in C as [_ C]. apply C, in_map, Ip.
Qed.
Print Assumptions C28_discarded.
Lemma number_inj : forall n a b, (a < n)%nat -> (b < n)%nat -> Z.of_nat n < 2 ^ 32 -> number a = number b -> a = b.
Proof. intros n a b A B N E. unfold number in E. rewrite !Z.mod_small in E; lia. Qed.
(** As long as fewer than 2^32 calls were made, the response to a waiting call reaches that call,
    whatever other calls are waiting. *)
Theorem C28_completes : forall l s r p m, run init l = Ok s -> Z.of_nat (begun l) < 2 ^ 32 -> held s = None -> find_req r (pend s) = Some p -> p_phase p = Waiting -> r_seq m = number r ->
  exists s', run s [Arrive m; Store; Wake r; Finish r] = Ok s' /\ results s' = results s ++ [(r, if r_undeliverable m then Gone else Completed (arrived s) m)] /\
    pend s' = without r (pend s).
Proof.
  intros l s r p m H SM HE FD PW SQ. pose proof (run_inv [] l init s inv_init H) as V. cbn [app] in V. pose proof (find_req_some _ _ _ FD) as [Ip Er].
  assert (FS : find (fun q => p_seq q =? r_seq m) (pend s) = Some p).
  { destruct (find (fun q => p_seq q =? r_seq m) (pend s)) as [q|] eqn:F.
    - apply find_some in F as [Iq E]. apply Z.eqb_eq in E. destruct (i_seqs _ _ V q Iq) as [S1 S2]. destruct (i_seqs _ _ V p Ip) as [S3 S4]. rewrite (i_calls _ _ V) in S2, S4.
      assert (N : p_no q = r) by (rewrite Er in S4; apply (number_inj (begun l)); [exact S2|exact S4|exact SM|congruence]).
      pose proof (find_req_in _ _ (i_nos _ _ V) Iq) as X. rewrite N in X. congruence.
    - exfalso. pose proof (find_none _ _ F p Ip) as X. cbn in X. destruct (i_seqs _ _ V p Ip) as [S3 _]. rewrite S3, Er, SQ, Z.eqb_refl in X. discriminate. }
  cbn [run step]. rewrite HE. cbn [is_some]. rewrite FS. cbn [obind step held pend]. rewrite Er, FD. cbn [obind step pend].
  set (f := fun p0 => mkPreq (p_no p0) (p_seq p0) (S (p_sem p0)) (Some (arrived s, m)) (p_phase p0)).
  assert (F1 : find_req r (change r f (pend s)) = Some (f p)).
  { rewrite <- Er. apply (find_req_in _ (f p)); [rewrite change_nos by reflexivity; apply (i_nos _ _ V)|]. unfold change. apply in_map_iff. exists p. rewrite Nat.eqb_refl. auto. }
  rewrite F1. unfold f at 1. rewrite PW. cbn [obind step pend held].
  set (g := fun p0 => mkPreq (p_no p0) (p_seq p0) (p_sem p) (p_resp p0) Woken).
  assert (F2 : find_req r (change r g (change r f (pend s))) = Some (g (f p))).
  { rewrite <- Er. apply (find_req_in _ (g (f p))); [rewrite !change_nos by reflexivity; apply (i_nos _ _ V)|]. unfold change. apply in_map_iff. exists (f p). change (p_no (f p)) with (p_no p). rewrite Nat.eqb_refl. split; [reflexivity|]. apply in_map_iff. exists p. rewrite Nat.eqb_refl. auto. }
  rewrite F2. unfold g at 1, f at 1. cbn [is_some p_resp].
  assert (W : without r (change r g (change r f (pend s))) = without r (pend s)).
  { unfold without, change. clear. induction (pend s) as [|q k IH]; [reflexivity|]. cbn [map filter]. destruct (Nat.eqb_spec (p_no q) r) as [E|NE].
    - subst r. change (p_no (f q)) with (p_no q). rewrite Nat.eqb_refl. change (p_no (g (f q))) with (p_no q). rewrite Nat.eqb_refl. cbn [negb]. exact IH.
    - destruct (Nat.eqb_spec (p_no q) r); [contradiction|]. cbn [negb]. destruct (Nat.eqb_spec (p_no q) r); [contradiction|]. cbn [negb]. f_equal. exact IH. }
  destruct (r_undeliverable m); cbn [obind]; (eexists; split; [reflexivity|]); cbn [finish results pend]; rewrite W; auto.
Qed.
Print Assumptions C28_completes.
(** Memory is written out of turn only if some call timed out. *)
Theorem C28_safe_partial : forall l, run init l = UB -> exists l1 l2 s1 r, l = l1 ++ l2 /\ run init l1 = Ok s1 /\ In (Expire r) l1 /\ In (r, TimedOut) (results s1).
Proof. intros l H. exact (run_ub [] l init inv_init H). Qed.
Print Assumptions C28_safe_partial.
Definition m1 (sq : Z) : resp := mkResp sq false [1].
Example C28_witness : let l := [Begin true; Begin true; Begin false; Arrive (m1 2); Store; Arrive (m1 9); Wake 1; Arrive (mkResp 1 true []); Store; Finish 1; Wake 0; Finish 0; Arrive (m1 2)] in
  exists s, run init l = Ok s /\ results s = [(2%nat, NotSent); (1%nat, Completed 0 (m1 2)); (0%nat, Gone)] /\ released s = [1%nat; 2%nat; 3%nat] /\ pend s = [].
Proof. eexists. vm_compute. repeat split. Qed.
Example C28_completes_witness : exists s p, run init [Begin true; Begin true] = Ok s /\ held s = None /\ find_req 0 (pend s) = Some p /\ p_phase p = Waiting /\ number 0 = 1.
Proof. eexists _, _. vm_compute. repeat split. Qed.
(** A call that times out while its response is being stored returns under the reader's hands: the
    reader writes into a frame that is gone and posts a destroyed semaphore. *)
Theorem C28_timeout_refuted : exists m, run init [Begin true; Arrive m; Expire 0; Finish 0; Store] = UB.
Proof. exists (m1 1). vm_compute. reflexivity. Qed.
Print Assumptions C28_timeout_refuted.
(** A response stored between the time-out and the removal, and the first of two responses with
    the same number, are never released. *)
Theorem C28_leak_refuted : (exists m s, run init [Begin true; Expire 0; Arrive m; Store; Finish 0] = Ok s /\ pend s = [] /\ held s = None /\ arrived s = 1%nat /\ ~ In 0%nat (released s ++ given (results s))) /\
  (exists m s, run init [Begin true; Arrive m; Store; Arrive m; Store; Wake 0; Finish 0] = Ok s /\ pend s = [] /\ held s = None /\ arrived s = 2%nat /\ ~ In 0%nat (released s ++ given (results s))).
Proof.
  split; exists (m1 1); eexists; (split; [vm_compute; reflexivity|]); (split; [vm_compute; reflexivity|]); (split; [reflexivity|]); (split; [reflexivity|]); vm_compute; intuition discriminate.
Qed.
Print Assumptions C28_leak_refuted.
