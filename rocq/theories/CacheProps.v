(** Properties of the subscription file: C34. *)
From Coq Require Import String Lia.
From Verif Require Import Common CommonFacts Bytes Value BufferModel BufferSpec TokenModel SubsModel SubsSpec SubsTree SubsProofs SubsFacts SubsProps CacheModel CacheSpec CacheProofs Errors.
Local Open Scope string_scope.
Local Open Scope list_scope.
Local Open Scope Z_scope.

(** Whatever subscriptions were saved, loading gives exactly them, except those whose listener has
    gone, and leaves a file that holds what was loaded. *)
Theorem C34_restore_partial : forall there l, forallb record_ok l = true ->
  exists d f, save_cache l = Ok d /\ save_cache (remaining there l) = Ok f /\ load_cache there d = Ok (remaining there l, f).
Proof. exact restore_thm. Qed.
Print Assumptions C34_restore_partial.
(** If the write was cut off anywhere, and loading does not read memory that was never written, what
    is loaded is what stands at the beginning of the list, and the file is gone or holds just that. *)
Theorem C34_truncated_partial : forall there l n d x f, forallb record_ok l = true -> save_cache l = Ok (Some d) -> load_cache there (Some (firstn n d)) = Ok (x, f) ->
  exists m, x = remaining there (firstn m l) /\ (f = None \/ save_cache x = Ok f).
Proof. exact truncated_thm. Qed.
Print Assumptions C34_truncated_partial.
Definition all_there : list Z -> Z -> bool := fun _ _ => true.
Definition rec1 : record := (mkKey (bs "c1.INBOX.77") 5 (bs "Dev.Level") (FRel OP_GREATER_THAN (VInt32 7)) 0 0 false, true, 3).
Definition rec2 : record := (mkKey (bs "c2.INBOX.78") 1 (bs "Dev.T.*.P") FNull 10 60 false, true, 4).
Definition rec3 : record := (mkKey (bs "c3.INBOX.79") (-2) (bs "Dev.Ev") FNull 0 0 true, false, 4294967295).
Definition bytes_of (o : outcome unit (option (list Z))) : list Z := match o with Ok (Some d) => d | _ => [] end.
Example C34_witness : forallb record_ok [rec1; rec2; rec3] = true /\ length (bytes_of (save_cache [rec1; rec2; rec3])) = 279%nat /\
  load_cache all_there (Some (bytes_of (save_cache [rec1; rec2; rec3]))) = Ok ([rec1; rec2; rec3], Some (bytes_of (save_cache [rec1; rec2; rec3]))) /\
  (exists f, load_cache (fun l _ => negb (bytes_eqb l (bs "c2.INBOX.78"))) (Some (bytes_of (save_cache [rec1; rec2; rec3]))) = Ok ([rec1; rec3], Some f)) /\
  load_cache all_there (Some (firstn 191 (bytes_of (save_cache [rec1; rec2; rec3])))) = Ok ([rec1], None).
Proof. split; [vm_compute; reflexivity|]. split; [vm_compute; reflexivity|]. split; [vm_compute; reflexivity|]. split; [eexists; vm_compute; reflexivity|vm_compute; reflexivity]. Qed.
(** Part of a file is trusted: cut between two subscriptions it gives the first of them and
    everything looks well. *)
Theorem C34_prefix_refuted : exists l n d, forallb record_ok l = true /\ save_cache l = Ok (Some d) /\ (n < length d)%nat /\
  load_cache all_there (Some (firstn n d)) = Ok (firstn 1 l, Some (firstn n d)) /\ length l = 2%nat.
Proof. exists [rec1; rec2], (length (bytes_of (save_cache [rec1]))), (bytes_of (save_cache [rec1; rec2])). split; [reflexivity|]. split; [vm_compute; reflexivity|]. split; [vm_compute; lia|]. split; vm_compute; reflexivity. Qed.
Print Assumptions C34_prefix_refuted.
(** Cut elsewhere, the rest is read from memory that was never written. *)
Theorem C34_uninitialised_refuted : exists l n d, forallb record_ok l = true /\ save_cache l = Ok (Some d) /\ (n < length d)%nat /\ load_cache all_there (Some (firstn n d)) = UB.
Proof. exists [rec1; rec2], 30%nat, (bytes_of (save_cache [rec1; rec2])). split; [reflexivity|]. split; [vm_compute; reflexivity|]. split; [vm_compute; lia|]. vm_compute. reflexivity. Qed.
Print Assumptions C34_uninitialised_refuted.
(** A name of 255 bytes is saved but makes the loading give up; it and everything after it is lost. *)
Theorem C34_long_name_refuted : exists k d, length (k_event k) = 255%nat /\ short_name (k_listener k) = true /\ is_cstr (k_event k) = true /\ k_filter k = FNull /\
  save_cache [(k, true, 3); rec1] = Ok (Some d) /\ load_cache all_there (Some d) = Ok ([], None).
Proof.
  exists (mkKey (bs "c1.INBOX.77") 1 (repeat 65 255) FNull 0 0 false), (bytes_of (save_cache [(mkKey (bs "c1.INBOX.77") 1 (repeat 65 255) FNull 0 0 false, true, 3); rec1])).
  repeat (split; [vm_compute; reflexivity|]). vm_compute. reflexivity.
Qed.
Print Assumptions C34_long_name_refuted.
(** So is a subscription whose filter is a negation, and everything after it. *)
Theorem C34_not_filter_refuted : exists k d, short_name (k_listener k) = true /\ short_name (k_event k) = true /\ k_filter k = FLogic OP_NOT (FRel OP_EQUAL (VInt32 1)) FNull /\
  save_cache [(k, true, 3); rec1] = Ok (Some d) /\ load_cache all_there (Some d) = Ok ([], None).
Proof.
  exists (mkKey (bs "c1.INBOX.77") 1 (bs "Dev.Level") (FLogic OP_NOT (FRel OP_EQUAL (VInt32 1)) FNull) 0 0 false),
    (bytes_of (save_cache [(mkKey (bs "c1.INBOX.77") 1 (bs "Dev.Level") (FLogic OP_NOT (FRel OP_EQUAL (VInt32 1)) FNull) 0 0 false, true, 3); rec1])).
  repeat (split; [vm_compute; reflexivity|]). vm_compute. reflexivity.
Qed.
Print Assumptions C34_not_filter_refuted.

(** ** the file follows the registry *)
Lemma synced_core s s' : core_eq s s' -> synced s -> synced s'.
Proof. intros (_ & _ & C3 & _ & _ & _ & C7) H. unfold synced in *. congruence. Qed.
Lemma synced_eq s : file s = subs s -> synced s.
Proof. unfold synced. congruence. Qed.
Lemma handle_synced ans s b e k s' r : synced s -> handle ans s b e k = Ok (s', r) -> synced s'.
Proof.
  intros H Q. destruct b.
  - apply handle_add in Q as (up & t & s1 & early & _ & _ & _ & [(_ & C & _)|(_ & x & A & _)]); [eapply synced_core; eauto|]. unfold added_sub in A. apply synced_eq. destruct A as (_ & _ & _ & _ & _ & _ & _ & _ & A1 & _ & _ & _ & A2). congruence.
  - apply handle_del in Q as (up & t & s1 & early & _ & _ & _ & [(_ & C & _)|(_ & _ & x & A)]); [eapply synced_core; eauto|]. unfold removed_sub in A. apply synced_eq. destruct A as (_ & _ & _ & _ & _ & _ & _ & A2). congruence.
Qed.
Lemma remove_synced s x s' : remove_sub s x = Ok s' -> synced s'.
Proof. unfold remove_sub. destruct (unlink_all _ _ _ _); cbn [obind]; try discriminate. intros H. injection H as <-. apply synced_eq. reflexivity. Qed.
Lemma drop_synced s n x : synced s -> synced (drop_inst s n x).
Proof.
  unfold synced, drop_inst. cbn [file subs]. intros ->. rewrite map_map. apply map_ext. intros y. destruct (Nat.eqb (s_no y) (s_no x)); reflexivity.
Qed.
Lemma deleted_synced n : forall fuel cur val s s', synced s -> deleted_loop fuel n cur val s = Ok s' -> synced s'.
Proof.
  induction fuel as [|fuel IH]; intros [c|] val s s' H Q; try (now injection Q as <-); try discriminate Q. rewrite deleted_loop_eq in Q. destruct (item c (subs s)) as [[x next]|]; [|discriminate Q].
  match type of Q with obind ?X _ = _ => destruct X as [s1|[]|] eqn:E; cbn [obind] in Q; try discriminate Q end. eapply IH; [|exact Q]. destruct (targets x n || val); [|now injection E as <-]. cbv zeta in E.
  assert (H1 : synced (if targets x n then drop_inst s n x else s)) by (destruct (targets x n); [apply drop_synced|]; exact H).
  destruct (get_sub _ (s_key x)) as [[y|]|[]|]; cbn [obind] in E; try discriminate E; [eapply remove_synced; eauto|now injection E as <-].
Qed.
Lemma deleted_all_synced : forall l s s', synced s -> deleted_all l s = Ok s' -> synced s'.
Proof.
  induction l as [|[n p] l IH]; cbn; intros s s' H Q; [now injection Q as <-|]. destruct (deleted_loop _ n _ false s) as [s1|[]|] eqn:E; cbn [obind] in Q; try discriminate Q.
  eapply IH; [|exact Q]. eapply deleted_synced; eauto.
Qed.
Lemma disconnect_synced ans found ls : forall fuel cur s s', synced s -> disconnect_loop fuel ans found ls cur s = Ok s' -> synced s'.
Proof.
  induction fuel as [|fuel IH]; intros [c|] s s' H Q; cbn in Q; try (now injection Q as <-); try discriminate Q. destruct (item c (subs s)) as [[x next]|]; [|discriminate Q].
  match type of Q with obind ?X _ = _ => destruct X as [s1|[]|] eqn:E; cbn [obind] in Q; try discriminate Q end. eapply IH; [|exact Q].
  destruct (bytes_eqb _ ls && found _); [|now injection E as <-]. destruct (s_el x) as [e|]; [|now injection E as <-].
  destruct (handle _ _ _ _ _) as [[s2 r2]|[]|] eqn:HA; cbn [obind] in E; try discriminate E. injection E as <-. eapply handle_synced; eauto.
Qed.
Lemma cache_idle ans name e : forall fuel cur s s', (forall x, In x (subs s) -> name_fits (k_event (s_key x)) name = false) -> cache_again fuel ans name e cur s = Ok s' -> s' = s.
Proof.
  induction fuel as [|fuel IH]; intros [c|] s s' A Q; cbn in Q; try (now injection Q as <-); try discriminate Q. destruct (item c (subs s)) as [[x next]|] eqn:I; [|discriminate Q].
  apply item_in in I. rewrite (A x I), andb_false_r in Q. now apply IH in Q.
Qed.
Lemma link_all_file : forall new s s', link_all new s = Ok s' -> file s' = file s.
Proof. induction new as [|[n p] new IH]; cbn; intros s s' Q; [now injection Q as <-|]. destruct (link_new s n p (subs s)) as [[l k]|[]|]; cbn in Q; try discriminate Q. apply IH in Q. exact Q. Qed.
Lemma identity_saved : forall l l', map identity l = map identity l' -> map saved_of l = map saved_of l'.
Proof. induction l as [|x l IH]; intros [|y l'] H; try discriminate; [reflexivity|]. cbn in *. unfold identity in H. injection H as H1 H2 H3 H4 H. unfold saved_of at 1 3. rewrite H1, H2, H3. f_equal. auto. Qed.
Lemma step_synced ans s o s' r : synced s -> quiet s o -> step ans s o = Ok (s', r) -> synced s'.
Proof.
  intros H Q E. destruct o as [e k|e k|look t rw|rw|name e|found ls]; cbn [step] in E.
  - unfold request in E. destruct e as [n|]; [|now injection E as <- <-]. destruct (find_top n (tops s)) as [[up te]|]; [|discriminate E]. destruct (_ && _); [now injection E as <- <-|]. eapply handle_synced; eauto.
  - unfold request in E. destruct e as [n|]; [|now injection E as <- <-]. destruct (find_top n (tops s)) as [[up te]|]; [|discriminate E]. destruct (_ && _); [now injection E as <- <-|]. eapply handle_synced; eauto.
  - destruct rw as [i ks]. cbn [quiet] in Q. destruct (add_row ans look s t (Sh i ks)) as [s1|[]|] eqn:AR; cbn [obind] in E; try discriminate E. injection E as <- <-.
    unfold add_row in AR. destruct (find_top t (tops s)) as [[up te]|] eqn:F; [|discriminate AR]. specialize (Q up te eq_refl).
    destruct (number (next_el s) (Sh i ks)) as [re m] eqn:NU. assert (EN : el_node re = i_node i) by (unfold el_node; now rewrite (number_info _ _ _ _ NU)). rewrite EN in AR. remember (full_name (i_node i :: el_node te :: up)) as name eqn:ENM.
    match type of AR with obind (link_all ?nw ?st) _ = _ => destruct (link_all nw st) as [s2|[]|] eqn:LA; cbn [obind] in AR; try discriminate AR end.
    match type of AR with obind ?X _ = _ => destruct X as [s3|[]|] eqn:RW; cbn [obind] in AR; try discriminate AR end. apply row_watch_core in RW as [(_ & _ & R3 & _ & _ & _ & R7) _].
    pose proof (link_all_file _ _ _ LA) as LF. apply link_all_same in LA as [LI _]. cbn [file subs] in LF, LI.
    apply row_again_idle in AR.
    + subst s1. unfold synced in *. rewrite R3, R7, LF, H. apply identity_saved. auto.
    + intros x I. rewrite R3 in I. assert (In (identity x) (map identity (subs s))) as J by (rewrite <- LI; now apply in_map). apply in_map_iff in J as (y & EQ & J). unfold identity in EQ. injection EQ as E1 _ _ _. rewrite <- E1. now apply Q.
  - destruct (remove_row s rw) as [s1|[]|] eqn:RR; cbn [obind] in E; try discriminate E. injection E as <- <-. unfold remove_row in RR. destruct (find_top rw (tops s)) as [[up te]|]; [|discriminate RR].
    match type of RR with obind ?X _ = _ => destruct X as [s2|[]|] eqn:RW; cbn [obind] in RR; try discriminate RR end. apply row_watch_core in RW as [RW _]. apply (synced_core _ _ RW) in H.
    match type of RR with obind ?X _ = _ => destruct X as [s3|[]|] eqn:DA; cbn [obind] in RR; try discriminate RR end. injection RR as <-. apply (deleted_all_synced _ _ _ H) in DA. exact DA.
  - destruct (registered ans s name e) as [s1|[]|] eqn:RG; cbn [obind] in E; try discriminate E. injection E as <- <-. unfold registered in RG. destruct (find_top e (tops s)); [|discriminate RG].
    apply cache_idle in RG; [now subst|exact Q].
  - destruct (disconnect ans found s ls) as [s1|[]|] eqn:D; cbn [obind] in E; try discriminate E. injection E as <- <-. eapply disconnect_synced; eauto.
Qed.
(** In every history in which no held subscription is made anew (as it is after a restart), the file
    holds what the registry holds. *)
Theorem C34_synced_partial : forall ans shapes cache l s rs, quiet_run ans (init shapes cache) l -> run ans (init shapes cache) l = Ok (s, rs) -> synced s.
Proof.
  intros ans shapes cache l s rs Q R. assert (H : synced (init shapes cache)) by (unfold init; destruct (number_all 0 shapes); apply synced_eq; reflexivity).
  revert s rs Q R H. generalize (init shapes cache). induction l as [|o l IH]; intros s0 s rs Q R H; cbn [run] in R; [now injection R as <- <-|].
  destruct (step ans s0 o) as [[s1 r1]|[]|] eqn:E; cbn [obind] in R; try discriminate R. destruct (run ans s1 l) as [[s2 rs2]|[]|] eqn:RR; cbn [obind] in R; try discriminate R. injection R as <- <-.
  destruct Q as [Q1 Q2]. eapply IH; [eapply Q2; eauto|exact RR|]. eapply step_synced; eauto.
Qed.
Print Assumptions C34_synced_partial.
Definition quietb (s : state) (o : op) : bool :=
  match o with
  | AddRow _ t (Sh i _) => match find_top t (tops s) with Some (up, te) => forallb (fun x => negb (is_prefix (full_name (i_node i :: el_node te :: up)) (k_event (s_key x)))) (subs s) | None => true end
  | Registered n _ => forallb (fun x => negb (name_fits (k_event (s_key x)) n)) (subs s)
  | _ => true
  end.
Fixpoint quiet_runb (ans : answers) (s : state) (l : list op) : bool :=
  match l with [] => true | o :: l => quietb s o && match step ans s o with Ok (s', _) => quiet_runb ans s' l | _ => true end end.
Lemma quiet_runb_ok ans : forall l s, quiet_runb ans s l = true -> quiet_run ans s l.
Proof.
  induction l as [|o l IH]; intros s H; [exact I|]. cbn [quiet_runb] in H. apply andb_prop in H as [A B]. split.
  - destruct o as [e k|e k|look t [i ks]|rw|name e|found ls]; cbn [quiet quietb] in *; try exact I.
    + intros up te F x J. rewrite F in A. rewrite forallb_forall in A. apply A in J. now apply negb_true_iff in J.
    + intros x J. rewrite forallb_forall in A. apply A in J. now apply negb_true_iff in J.
  - intros s' r E. rewrite E in B. auto.
Qed.
Definition history := script ++ [Unsubscribe (Some 4%nat) (key0 "c1" "Dev.Level"); RemoveRow 8; Registered (bs "Dev.Other") 5; Disconnect (fun _ => true) (bs "c2")].
Example C34_synced_witness : quiet_run yes (init tree []) history /\
  exists s, run yes (init tree []) history = Ok (s, [0; 0; 0; 0; 0; 0; 0; 0; 0; 0; 0]) /\ map saved_of (file s) = [(wild, true, 5); (above "c2" "Dev.Level" 5, true, 7)] /\ length (file busy) = 5%nat.
Proof. split; [apply quiet_runb_ok; vm_compute; reflexivity|]. eexists. split; [vm_compute; reflexivity|]. split; vm_compute; reflexivity. Qed.
(** When a provider comes back and refuses a subscription it held, the subscription is gone but the
    file still has it. *)
Theorem C34_stale_refuted : exists s, run (fun _ => (E_BUS_ERROR, None)) (init tree [rec1]) [Registered (bs "Dev.Level") 4] = Ok (s, [0]) /\ keys s = [] /\ map s_key (file s) = [fst (fst rec1)].
Proof. eexists. split; [vm_compute; reflexivity|]. split; vm_compute; reflexivity. Qed.
Print Assumptions C34_stale_refuted.
(** When it accepts it, the subscription gets another number than the one its subscriber was told,
    and two subscriptions can come to have the same number. *)
Theorem C34_number_refuted : exists s, run yes (init tree [(fst (fst rec3), true, 3); (fst (fst rec1), true, 4)]) [Registered (bs "Dev.Level") 4] = Ok (s, [0]) /\
  map (fun x => (s_key x, s_id x)) (subs s) = [(fst (fst rec3), 3); (fst (fst rec1), 3)].
Proof. eexists. split; vm_compute; reflexivity. Qed.
Print Assumptions C34_number_refuted.
