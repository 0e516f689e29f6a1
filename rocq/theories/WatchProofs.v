From Coq Require Import QArith Lia.
From Verif Require Import Common CommonFacts Value CompareModel CompareSpec CompareProofs WatchModel WatchSpec.
Local Open Scope list_scope.
Local Open Scope Z_scope.

Lemma sgn_zero x y : sgn (x ?= y)%Q = 0 <-> (x == y)%Q.
Proof. rewrite Qeq_alt. destruct (x ?= y)%Q; cbn; split; intros; congruence. Qed.
Lemma plain_cases v : plain v = true -> (exists s, v = VString (Some s)) \/ (exists x, real_of v = Some x /\ exactly_representable v = true).
Proof. unfold plain. intros H. assert (D : (exists s, v = VString (Some s)) \/ match real_of v with Some _ => exactly_representable v | None => false end = true).
  { destruct v; try (right; exact H). match goal with |- (exists s, VString ?o = _) \/ _ => destruct o end; [left; eauto|right; exact H]. }
  destruct D as [D|D]; [auto|]. right. destruct (real_of v); [eauto|discriminate D].
Qed.
Lemma real_string s : real_of (VString s) = None.
Proof. reflexivity. Qed.
Lemma real_num v x : real_of v = Some x -> is_numeric v = true.
Proof. destruct v; cbn; intros; try discriminate; reflexivity. Qed.
Lemma compare_same v w : plain v = true -> plain w = true -> exists c, value_compare v w = Ok c /\ (c = 0 <-> same v w).
Proof.
  intros P Q. apply plain_cases in P as [(s & ->)|(x & R & X)]; apply plain_cases in Q as [(t & ->)|(y & R' & X')].
  - destruct (strings_lex s t) as (c & C & L). exists c. split; [exact C|]. unfold same. rewrite !real_string. unfold reports_lex in L.
    destruct L as [[-> ->]|[[L1 L2]|[L1 L2]]]; split; intros H; try lia; try reflexivity; injection H as ->; now apply lex_irrefl in L2.
  - exists (if vtype (VString (Some s)) <? vtype w then -1 else 1). split.
    + apply types_ordered; [discriminate|intros ->; discriminate R'|reflexivity|]. intros E. destruct w; discriminate R' || discriminate E.
    + unfold same. rewrite real_string, R'. split; [|tauto]. destruct (_ <? _); discriminate.
  - exists (if vtype v <? vtype (VString (Some t)) then -1 else 1). split.
    + apply types_ordered; [intros ->; discriminate R|discriminate|apply andb_false_r|]. intros E. destruct v; discriminate R || discriminate E.
    + unfold same. rewrite real_string, R. split; [|tauto]. destruct (_ <? _); discriminate.
  - exists (sgn (x ?= y)%Q). split; [now apply numbers_exact|]. unfold same. rewrite R, R'. apply sgn_zero.
Qed.

Lemma same_dec v w : plain v = true -> plain w = true -> same v w \/ ~ same v w.
Proof. intros P Q. destruct (compare_same v w P Q) as (c & _ & H). destruct (Z.eq_dec c 0); [left|right]; tauto. Qed.
Lemma same_refl v : same v v.
Proof. unfold same. destruct (real_of v); [apply Qeq_refl|reflexivity]. Qed.

(** ** the records *)
Lemma find_some n l r : vc_find n l = Some r -> In r l /\ v_node r = n.
Proof. induction l as [|x l IH]; cbn; [discriminate|]. destruct (Nat.eqb_spec (v_node x) n); intros H; [injection H as <-; auto|]. destruct (IH H). auto. Qed.
Lemma find_none n l : vc_find n l = None <-> ~ In n (map v_node l).
Proof.
  induction l as [|x l IH]; cbn; [intuition congruence|]. destruct (Nat.eqb_spec (v_node x) n); [split; [discriminate|tauto]|]. rewrite IH. tauto.
Qed.
Lemma find_app n l r : vc_find n (l ++ [r]) = match vc_find n l with Some x => Some x | None => if Nat.eqb (v_node r) n then Some r else None end.
Proof. induction l as [|x l IH]; cbn; [reflexivity|]. destruct (Nat.eqb (v_node x) n); [reflexivity|exact IH]. Qed.
Lemma drop_nodes n l x : In x (map v_node (vc_drop n l)) -> In x (map v_node l).
Proof. induction l as [|y l IH]; cbn; [tauto|]. destruct (Nat.eqb _ _); cbn; tauto. Qed.
Lemma drop_nodup n l : NoDup (map v_node l) -> NoDup (map v_node (vc_drop n l)).
Proof. induction l as [|y l IH]; cbn; intros H; [constructor|]. inversion H; subst. destruct (Nat.eqb _ _); [assumption|]. cbn. constructor; [intros J; apply drop_nodes in J; contradiction|auto]. Qed.
Lemma drop_in n l r : In r (vc_drop n l) -> In r l.
Proof. induction l as [|y l IH]; cbn; [tauto|]. destruct (Nat.eqb _ _); cbn; tauto. Qed.
Lemma find_drop m n l : NoDup (map v_node l) -> vc_find m (vc_drop n l) = if Nat.eqb m n then None else vc_find m l.
Proof.
  induction l as [|y l IH]; cbn; intros H; [now destruct (Nat.eqb m n)|]. inversion H; subst. destruct (Nat.eqb_spec (v_node y) n) as [E|E].
  - destruct (Nat.eqb_spec m n) as [F|F]; [apply find_none; congruence|]. destruct (Nat.eqb_spec (v_node y) m); [congruence|reflexivity].
  - cbn. destruct (Nat.eqb_spec (v_node y) m) as [G|G]; [destruct (Nat.eqb_spec m n); [congruence|reflexivity]|auto].
Qed.
Lemma filter_nodes (p : vrec -> bool) l x : In x (map v_node (List.filter p l)) -> In x (map v_node l).
Proof. intros H. apply in_map_iff in H as (r & <- & H). apply filter_In in H as [H _]. now apply in_map. Qed.
Lemma filter_nodup (p : vrec -> bool) l : NoDup (map v_node l) -> NoDup (map v_node (List.filter p l)).
Proof. induction l as [|y l IH]; cbn; intros H; [constructor|]. inversion H; subst. destruct (p y); cbn; [constructor; [intros J; apply filter_nodes in J; contradiction|]|]; auto. Qed.
Lemma find_filter p n l : NoDup (map v_node l) -> vc_find n (List.filter p l) = match vc_find n l with Some r => if p r then Some r else None | None => None end.
Proof.
  induction l as [|y l IH]; cbn; intros H; [reflexivity|]. inversion H; subst. destruct (Nat.eqb_spec (v_node y) n) as [E|E].
  - destruct (p y) eqn:P; cbn; [now rewrite (proj2 (Nat.eqb_eq _ _) E)|]. apply find_none. intros J. apply filter_nodes in J. congruence.
  - destruct (p y) eqn:P; cbn; [destruct (Nat.eqb_spec (v_node y) n); [contradiction|]|]; auto.
Qed.
Lemma set_nodes i r l x : nth_error l i = Some x -> v_node r = v_node x -> map v_node (vc_set i r l) = map v_node l.
Proof. revert i. induction l as [|y l IH]; intros [|i] H E; cbn in *; try discriminate; [injection H as ->; now rewrite E|f_equal; eauto]. Qed.
Lemma nth_find i l x : NoDup (map v_node l) -> nth_error l i = Some x -> vc_find (v_node x) l = Some x.
Proof.
  revert i. induction l as [|y l IH]; intros [|i] N H; cbn in *; try discriminate; [injection H as ->; now rewrite Nat.eqb_refl|]. inversion N; subst.
  destruct (Nat.eqb_spec (v_node y) (v_node x)) as [E|E]; [|eauto]. exfalso. apply nth_error_In in H. apply (in_map v_node) in H. congruence.
Qed.
Lemma find_set i r l x n : NoDup (map v_node l) -> nth_error l i = Some x -> v_node r = v_node x -> vc_find n (vc_set i r l) = if Nat.eqb (v_node x) n then Some r else vc_find n l.
Proof.
  revert i. induction l as [|y l IH]; intros [|i] N H E; cbn in *; try discriminate.
  - injection H as ->. rewrite E. destruct (Nat.eqb_spec (v_node x) n); reflexivity.
  - inversion N; subst. rewrite (IH i) by assumption. destruct (Nat.eqb_spec (v_node y) n) as [F|F]; [|reflexivity]. destruct (Nat.eqb_spec (v_node x) n) as [G|G]; [|reflexivity].
    exfalso. apply nth_error_In in H. apply (in_map v_node) in H. congruence.
Qed.
Lemma set_in i r l y : In y (vc_set i r l) -> y = r \/ In y l.
Proof. revert i. induction l as [|x l IH]; intros [|i] H; cbn in *; try tauto. - intuition. - destruct H as [->|H]; [auto|]. apply IH in H. tauto. Qed.

Lemma nodup_snoc {A} (l : list A) x : NoDup l -> ~ In x l -> NoDup (l ++ [x]).
Proof. intros H N. apply nodup_app_intro; [exact H|constructor; [intros []|constructor]|]. intros y J [->|[]]. contradiction. Qed.
Definition plain_ref (st0 : store) (r : vrec) : Prop := exists a, v_ref r = Some a /\ plain (st0 a) = true.
Record inv (st0 : store) (s : vc) : Prop := {
  i_params : NoDup (map v_node (params s));
  i_pending : NoDup (map v_node (pending s));
  i_apart : forall n, In n (map v_node (pending s)) -> vc_find n (params s) = None;
  i_plain : forall r, In r (params s ++ pending s) -> plain_ref st0 r;
  i_running : running s = match params s with [] => false | _ => true end }.
Definition cur (st0 : store) (s : vc) (n : nat) : option value := option_map (fun r => deref st0 (v_ref r)) (vc_find n (params s)).
Lemma inv0 st0 : inv st0 vc0.
Proof. constructor; cbn; try constructor; tauto. Qed.

Lemma follows_other n c d l tr : forallb (fun x => negb (about n x)) l = true -> follows n c d tr -> follows n c d (l ++ tr).
Proof. induction l as [|x l IH]; cbn; intros H F; [exact F|]. apply andb_prop in H as [A B]. apply negb_true_iff in A. rewrite A. auto. Qed.
Lemma follows_unwatch n tr : forall L c, NoDup (map v_node L) -> (In n (map v_node L) -> c <> None) ->
  follows n (if existsb (fun r => Nat.eqb (v_node r) n) L then None else c) None tr -> follows n c None (map (fun r => Unwatch (v_node r)) L ++ tr).
Proof.
  induction L as [|r L IH]; intros c N I F; cbn in *; [exact F|]. inversion N; subst. destruct (Nat.eqb_spec (v_node r) n) as [E|E]; cbn in F.
  - split; [reflexivity|]. split; [auto|]. apply follows_other; [|exact F]. apply forallb_forall. intros x J. apply in_map_iff in J as (q & <- & J). cbn. apply negb_true_iff. apply Nat.eqb_neq. intros Q. apply (in_map v_node) in J. congruence.
  - apply IH; auto.
Qed.
Lemma step_ok st0 s o s' a : inv st0 s -> frozen st0 o -> orderly s o -> vstep s o = Ok (s', a) ->
  inv st0 s' /\ forall n tr, follows n (cur st0 s' n) None tr -> follows n (cur st0 s n) None (a ++ tr).
Proof.
  intros [I1 I2 I3 I4 I5] F O E. destruct o as [h c n got|st n|n|h| |st got now| |n c now]; cbn [vstep frozen orderly] in *.
  - unfold add_read in E. destruct (cursor s); [discriminate E|].
    destruct (vc_find n (params s)) eqn:Fn; [injection E as <- <-; split; [constructor; cbn; auto|intros m tr H; exact H]|].
    destruct got as [[x|]|]; [|contradiction|]; injection E as <- <-; (split; [|intros m tr H; exact H]); constructor; cbn; auto.
    + rewrite map_app. cbn. apply nodup_snoc; [exact I2|]. now apply find_none.
    + intros m J. rewrite map_app, in_app_iff in J. destruct J as [J|[<-|[]]]; auto.
    + intros r J. rewrite !in_app_iff in J. cbn in J. destruct J as [J|[J|[<-|[]]]]; [apply I4; rewrite in_app_iff; auto|apply I4; rewrite in_app_iff; auto|]. exists x. auto.
  - unfold add_push in E. destruct (cursor s); [discriminate E|]. destruct (vc_find n (pending s)) as [r|] eqn:Fn; [|discriminate E]. destruct (alive s); [|discriminate E]. injection E as <- <-.
    apply find_some in Fn as [J EN]. assert (P : vc_find n (params s) = None) by (apply I3; rewrite <- EN; now apply in_map). assert (PR : plain_ref st0 r) by (apply I4; rewrite in_app_iff; auto). split.
    + constructor; cbn.
      * rewrite map_app. cbn. apply nodup_snoc; [exact I1|]. rewrite EN. now apply find_none.
      * now apply drop_nodup.
      * intros m K. rewrite find_app. rewrite I3 by (eapply drop_nodes; eauto). rewrite EN. destruct (Nat.eqb_spec n m) as [->|]; [|reflexivity]. exfalso.
        assert (Q : vc_find m (vc_drop m (pending s)) = None) by (rewrite find_drop by exact I2; now rewrite Nat.eqb_refl). apply find_none in Q. contradiction.
      * intros q K. rewrite !in_app_iff in K. cbn in K. destruct K as [[K|[<-|[]]]|K]; auto; apply I4; rewrite in_app_iff; [auto|right; eapply drop_in; eauto].
      * destruct (params s); reflexivity.
    + intros m tr H. unfold cur in *. cbn in *. rewrite find_app, EN in H. destruct (Nat.eqb_spec n m) as [->|D].
      * rewrite P in *. cbn in *. destruct PR as (x & EX & _). rewrite EX in *. cbn in *. rewrite F. auto.
      * destruct (vc_find m (params s)); exact H.
  - unfold remove_node in E. destruct (alive s); cbn in E; [|injection E as <- <-; split; [constructor; auto|intros m tr H; exact H]]. destruct (cursor s); [discriminate E|].
    destruct (vc_find n (params s)) as [r|] eqn:Fn; injection E as <- <-; [|split; [constructor; auto|intros m tr H; exact H]]. split.
    + constructor; cbn; auto.
      * now apply drop_nodup.
      * intros m J. rewrite find_drop by exact I1. rewrite I3 by exact J. now destruct (Nat.eqb m n).
      * intros q J. apply I4. rewrite in_app_iff in *. destruct J as [J|J]; [left; eapply drop_in; eauto|auto].
      * rewrite I5. destruct (params s) as [|y l]; [discriminate Fn|]. cbn. now destruct (Nat.eqb _ _), l.
    + intros m tr H. unfold cur in *. cbn in *. rewrite find_drop in H by exact I1. rewrite Nat.eqb_sym. destruct (Nat.eqb_spec m n) as [->|D]; [|exact H]. rewrite Fn. cbn. split; [reflexivity|]. split; [discriminate|exact H].
  - unfold close_handle in E. destruct (alive s); cbn in E; [|injection E as <- <-; split; [constructor; auto|intros m tr H; exact H]]. destruct (cursor s); [discriminate E|].
    set (mine := fun r => Nat.eqb (v_handle r) h) in *. change (fun r => negb (Nat.eqb (v_handle r) h)) with (fun r => negb (mine r)) in *. remember (List.filter (fun r => negb (mine r)) (params s)) as l eqn:EL.
    assert (Q : params s' = l /\ pending s' = pending s /\ running s' = match l with [] => false | _ => true end /\ a = map (fun r => Unwatch (v_node r)) (List.filter mine (params s))).
    { destruct l as [|y l]; injection E as <- <-; cbn; repeat split. rewrite I5. destruct (params s); [discriminate EL|reflexivity]. }
    destruct Q as (Q1 & Q2 & Q3 & ->). split.
    + constructor; rewrite ?Q1, ?Q2; [subst l; now apply filter_nodup|rewrite O; constructor|rewrite O; intros ? []| |exact Q3].
      intros q J. rewrite in_app_iff in J. apply I4. rewrite in_app_iff. destruct J as [J|J]; [left; subst l; apply filter_In in J; tauto|auto].
    + intros m tr H. apply follows_unwatch; [now apply filter_nodup| |].
      * intros J. apply filter_nodes in J. unfold cur. destruct (vc_find m (params s)) eqn:Fm; [discriminate|]. apply find_none in Fm. contradiction.
      * unfold cur in *. rewrite Q1 in H. subst l. rewrite find_filter in H by exact I1. destruct (existsb _ _) eqn:X.
        -- apply existsb_exists in X as (r & J & EN). apply filter_In in J as [J M]. apply Nat.eqb_eq in EN. apply In_nth_error in J as (i & J). apply nth_find in J; [|exact I1]. rewrite EN in J. rewrite J, M in H. exact H.
        -- destruct (vc_find m (params s)) as [r|] eqn:Fm; [|exact H]. destruct (mine r) eqn:M; [|exact H]. exfalso. apply find_some in Fm as [J EN]. assert (existsb (fun r => Nat.eqb (v_node r) m) (List.filter mine (params s)) = true) as Y; [|congruence].
           apply existsb_exists. exists r. split; [now apply filter_In|now apply Nat.eqb_eq].
  - unfold poll_start in E. destruct (cursor s); [discriminate E|]. destruct (running s) eqn:R; [|discriminate E]. injection E as <- <-. split; [constructor; cbn; auto|intros m tr H; exact H].
  - unfold poll_one in E. destruct (cursor s) as [i|]; [|discriminate E]. destruct (nth_error (params s) i) as [r|] eqn:Ni; [|discriminate E]. cbv zeta in E. destruct F as [FS FG].
    destruct got as [[x|]|]; [|contradiction|injection E as <- <-; split; [constructor; cbn; auto|intros m tr H; exact H]].
    pose proof (nth_find _ _ _ I1 Ni) as Fr. assert (PR : plain_ref st0 r) by (apply I4; rewrite in_app_iff; left; eapply nth_error_In; eauto). destruct PR as (y & EY & PY). rewrite EY in E. cbn [compare_refs deref] in E.
    assert (C : exists c, (if Nat.eqb x y then Ok 0 else value_compare (st x) (st y)) = (Ok c : outcome unit Z) /\ (c = 0 <-> same (st0 x) (st0 y))).
    { destruct (Nat.eqb_spec x y) as [->|D]; [exists 0; split; [reflexivity|]; split; [intros _; apply same_refl|reflexivity]|]. rewrite !FS. now apply compare_same. }
    destruct C as (c & EC & HC). rewrite EC in E. cbn [obind] in E. destruct (Z.eqb_spec c 0) as [Z0|Z0].
    + injection E as <- <-. split; [constructor; cbn; auto|]. intros m tr H. unfold cur in *. cbn in *. destruct (Nat.eqb_spec (v_node r) m) as [D|D]; [|exact H]. rewrite D in Fr. rewrite Fr in *. cbn in *. rewrite EY in *. cbn in *.
      split; [reflexivity|]. exists (st0 y). split; [reflexivity|]. left. rewrite FS. tauto.
    + set (w := if match who_of (v_node r) (who s) with None => true | Some _ => _ end then _ else _) in E. cbv zeta in E. clearbody w. remember (match who_of (v_node r) w with Some (c, _) => c | None => [] end) as by_ eqn:EB.
      assert (SN : match st x, st y with VNull, _ | _, VNull => [] | _, _ => [Sent (v_node r) (st x) (st y) by_] end = [Sent (v_node r) (st x) (st y) by_]).
      { rewrite !FS. destruct (st0 x), (st0 y); try reflexivity; discriminate. }
      rewrite SN in E. injection E as <- <-. set (r' := mkRec _ _ _ _). assert (EN : v_node r' = v_node r) by reflexivity. split.
      * constructor; cbn; auto.
        -- rewrite (set_nodes i r' _ r); auto.
        -- intros m J. rewrite (find_set i r' _ r) by auto. destruct (Nat.eqb_spec (v_node r) m) as [D|D]; [|auto]. exfalso. apply I3 in J. congruence.
        -- intros q J. rewrite in_app_iff in J. destruct J as [J|J]; [apply set_in in J as [->|J]|]; [exists x; auto|apply I4; rewrite in_app_iff; auto|apply I4; rewrite in_app_iff; auto].
        -- rewrite I5. destruct (params s), i; reflexivity.
      * intros m tr H. unfold cur in *. cbn in *. rewrite (find_set i r' _ r) in H by auto. destruct (Nat.eqb_spec (v_node r) m) as [D|D]; [|exact H]. rewrite D in Fr. rewrite Fr in *. cbn in *. rewrite EY in *. cbn in *.
        split; [reflexivity|]. exists (st0 y). split; [reflexivity|]. right. rewrite !FS. split; [tauto|]. auto.
  - unfold poll_end in E. destruct (cursor s); [|discriminate E]. destruct (_ <=? _)%nat; [|discriminate E]. injection E as <- <-. split; [constructor; cbn; auto|intros m tr H; exact H].
  - injection E as <- <-. split; [constructor; cbn; auto|intros m tr H; exact H].
Qed.
Lemma run_ok st0 : forall l s s' tr, inv st0 s -> Forall (frozen st0) l -> orderly_run s l -> vrun s l = Ok (s', tr) ->
  inv st0 s' /\ forall n, follows n (cur st0 s n) None tr.
Proof.
  induction l as [|o l IH]; intros s s' tr I F O E; cbn [vrun] in E; [injection E as <- <-; split; [exact I|intros n; reflexivity]|].
  destruct (vstep s o) as [[s1 a]|[]|] eqn:ES; cbn [obind] in E; try discriminate E. destruct (vrun s1 l) as [[s2 b]|[]|] eqn:ER; cbn [obind] in E; try discriminate E. injection E as <- <-.
  inversion F as [|? ? F1 F2]; subst. destruct O as [O1 O2]. destruct (step_ok _ _ _ _ _ I F1 O1 ES) as [I' H]. destruct (IH _ _ _ I' F2 (O2 _ _ ES) ER) as [I'' H']. split; [exact I''|]. intros n. apply H. apply H'.
Qed.

(** ** who made the change *)
Lemma last_snoc n l o : last_setter n (l ++ [o]) = match o with SetBy m c _ => if Nat.eqb m n then Some c else last_setter n l | _ => last_setter n l end.
Proof.
  induction l as [|x l IH]; [destruct o; reflexivity|]. destruct x; cbn [app last_setter]; try exact IH. rewrite IH. destruct o; try reflexivity. destruct (Nat.eqb n1 n); reflexivity.
Qed.
Record by_inv (n : nat) (c : list Z) (ls : option (list Z)) (s : vc) : Prop := {
  b_recs : forall r, In r (params s ++ pending s) -> v_node r = n -> v_comp r = c;
  b_who : match who_of n (who s) with Some (d, _) => d = match ls with Some e => e | None => c end | None => ls = None end }.
Lemma who_set n m c t l : who_of n (set_who m c t l) = if Nat.eqb m n then Some (c, t) else who_of n l.
Proof. reflexivity. Qed.
Lemma by_step n c l s o s' a : by_inv n c (last_setter n l) s -> provided_by n c o -> vstep s o = Ok (s', a) ->
  by_inv n c (last_setter n (l ++ [o])) s' /\ forall new old b, In (Sent n new old b) a -> b = match last_setter n l with Some d => d | None => c end.
Proof.
  intros [B1 B2] P E. rewrite last_snoc. destruct o as [h d m got|st m|m|h| |st got now| |m d now]; cbn [vstep provided_by] in *.
  - unfold add_read in E. destruct (cursor s); [discriminate E|]. destruct (vc_find m (params s)), got; injection E as <- <-; (split; [|intros ? ? ? []]); constructor; cbn; auto.
    intros r J EN. rewrite !in_app_iff in J. cbn in J. destruct J as [J|[J|[<-|[]]]]; [apply B1; [rewrite in_app_iff; auto|exact EN]|apply B1; [rewrite in_app_iff; auto|exact EN]|]. cbn in *. auto.
  - unfold add_push in E. destruct (cursor s); [discriminate E|]. destruct (vc_find m (pending s)) as [r|] eqn:F; [|discriminate E]. destruct (alive s); [|discriminate E]. injection E as <- <-. split; [|intros ? ? ? [H|[]]; discriminate H].
    apply find_some in F as [F _]. constructor; cbn; auto. intros q J EN. apply B1; [|exact EN]. rewrite !in_app_iff in *. cbn in J. destruct J as [[J|[<-|[]]]|J]; auto. right. eapply drop_in; eauto.
  - unfold remove_node in E. destruct (alive s); cbn in E; [|injection E as <- <-; split; [constructor; auto|intros ? ? ? []]]. destruct (cursor s); [discriminate E|].
    destruct (vc_find m (params s)); injection E as <- <-; [|split; [constructor; auto|intros ? ? ? []]]. split; [|intros ? ? ? [H|[]]; discriminate H]. constructor; cbn; auto. intros q J EN. apply B1; [|exact EN]. rewrite in_app_iff in *. destruct J as [J|J]; auto. left. eapply drop_in; eauto.
  - unfold close_handle in E. destruct (alive s); cbn in E; [|injection E as <- <-; split; [constructor; auto|intros ? ? ? []]]. destruct (cursor s); [discriminate E|].
    assert (W : forall new old b, ~ In (Sent n new old b) (map (fun r => Unwatch (v_node r)) (List.filter (fun r => Nat.eqb (v_handle r) h) (params s)))) by (intros ? ? ? J; apply in_map_iff in J as (? & H & _); discriminate H).
    remember (List.filter (fun r => negb (Nat.eqb (v_handle r) h)) (params s)) as k eqn:EK.
    assert (Q : params s' = k /\ pending s' = pending s /\ who s' = who s /\ a = map (fun r => Unwatch (v_node r)) (List.filter (fun r => Nat.eqb (v_handle r) h) (params s))) by (destruct k; injection E as <- <-; cbn; repeat split).
    destruct Q as (Q1 & Q2 & Q3 & ->). split; [|intros ? ? ? J; now apply W in J]. constructor; rewrite ?Q1, ?Q2, ?Q3; auto. intros q J EN. apply B1; [|exact EN]. rewrite in_app_iff in *. destruct J as [J|J]; auto. left. subst k. apply filter_In in J. tauto.
  - unfold poll_start in E. destruct (cursor s); [discriminate E|]. destruct (running s); [|discriminate E]. injection E as <- <-. split; [constructor; auto|intros ? ? ? []].
  - unfold poll_one in E. destruct (cursor s) as [i|]; [|discriminate E]. destruct (nth_error (params s) i) as [r|] eqn:Ni; [|discriminate E]. cbv zeta in E.
    destruct got as [x|]; [|injection E as <- <-; split; [constructor; auto|intros ? ? ? []]]. destruct (compare_refs _ _ _) as [k|[]|]; cbn [obind] in E; try discriminate E.
    destruct (k =? 0); [injection E as <- <-; split; [constructor; auto|intros ? ? ? [H|[]]; discriminate H]|].
    assert (Ir : In r (params s)) by (eapply nth_error_In; eauto).
    match type of E with context [Sent _ _ _ (match who_of _ ?w' with _ => _ end)] => remember w' as w eqn:EW end.
    assert (BW : match who_of n w with Some (d, _) => d = match last_setter n l with Some e => e | None => c end | None => last_setter n l = None /\ v_node r <> n end).
    { destruct (Nat.eq_dec (v_node r) n) as [EN|D].
      - rewrite EN in EW. assert (VC : v_comp r = c) by (apply B1; [rewrite in_app_iff; auto|exact EN]). rewrite VC in EW. destruct (who_of n (who s)) as [[d t]|] eqn:W.
        + destruct (_ && _) eqn:OW in EW; subst w; rewrite ?who_set, ?Nat.eqb_refl, ?W; [|exact B2]. apply andb_prop in OW as [_ OW]. apply bytes_eqb_eq in OW. congruence.
        + subst w. rewrite who_set, Nat.eqb_refl, B2. reflexivity.
      - assert (WW : who_of n w = who_of n (who s)). { subst w. destruct (match who_of (v_node r) (who s) with None => true | Some _ => _ end); [|reflexivity]. rewrite who_set. now rewrite (proj2 (Nat.eqb_neq _ _) D). }
        rewrite WW. destruct (who_of n (who s)) as [[d t]|]; auto. }
    remember (match who_of (v_node r) w with Some (c, _) => c | None => [] end) as by_ eqn:EB.
    remember (deref st x) as new eqn:EN1. remember (deref st (v_ref r)) as old eqn:EN2.
    assert (SN : forall q, In q (match new, old with VNull, _ | _, VNull => [] | _, _ => [Sent (v_node r) new old by_] end) -> q = Sent (v_node r) new old by_) by (intros q J; destruct new, old; cbn in J; intuition).
    injection E as <- <-. split.
    + constructor; cbn; [|destruct (who_of n w) as [[d t]|]; tauto]. intros q J EN. rewrite in_app_iff in J. destruct J as [J|J]; [apply set_in in J as [->|J]|]; [cbn in *|apply B1; [rewrite in_app_iff; auto|exact EN]|apply B1; [rewrite in_app_iff; auto|exact EN]].
      apply B1; [rewrite in_app_iff; auto|exact EN].
    + intros nw od b [J|J]; [discriminate J|]. apply SN in J. injection J as J1 J2 J3 J4. rewrite <- J1 in EB. destruct (who_of n w) as [[d t]|]; [congruence|]. destruct BW as [_ BW]. congruence.
  - unfold poll_end in E. destruct (cursor s); [|discriminate E]. destruct (_ <=? _)%nat; [|discriminate E]. injection E as <- <-. split; [constructor; auto|intros ? ? ? []].
  - injection E as <- <-. split; [|intros ? ? ? []]. constructor; cbn; auto. destruct (Nat.eqb_spec m n) as [->|D]; auto.
Qed.
Lemma by_run n c : forall k s l s' tr, by_inv n c (last_setter n l) s -> Forall (provided_by n c) k -> vrun s k = Ok (s', tr) -> by_inv n c (last_setter n (l ++ k)) s'.
Proof.
  induction k as [|o k IH]; intros s l s' tr B F E; cbn [vrun] in E; [injection E as <- <-; now rewrite app_nil_r|].
  destruct (vstep s o) as [[s1 a]|[]|] eqn:ES; cbn [obind] in E; try discriminate E. destruct (vrun s1 k) as [[s2 b]|[]|] eqn:ER; cbn [obind] in E; try discriminate E. injection E as <- <-.
  inversion F; subst. apply (by_step n c l) in ES as [B' _]; auto. replace (l ++ o :: k) with ((l ++ [o]) ++ k) by (now rewrite <- app_assoc). eapply IH; eauto.
Qed.
