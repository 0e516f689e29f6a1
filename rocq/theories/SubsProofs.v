(** Proofs about subscriptions. *)
From Coq Require Import Lia Permutation QArith.
From Verif Require Import Common CommonFacts Value CompareModel CompareSpec CompareProofs TokenModel SubsModel SubsSpec SubsTree Errors.
Local Open Scope list_scope.
Local Open Scope Z_scope.

(** ** keys *)
Lemma const_cmp v w : plain_const v = true -> plain_const w = true -> exists c, value_compare v w = Ok c /\ (c =? 0) = same_const v w.
Proof.
  intros Hv Hw.
  assert (forall u, plain_const u = true -> (exists s, u = VString (Some s)) \/ (exactly_representable u = true /\ exists q, real_of u = Some q)) as P.
  { intros u Hu. destruct u; try discriminate Hu; try (right; cbn [plain_const] in Hu; apply andb_true_iff in Hu as [A B]; split; [exact A|];
      match goal with |- exists q, ?r = Some q => destruct r; [eauto|discriminate B] end).
    destruct s; [left; eauto|discriminate Hu]. }
  destruct (P v Hv) as [[s ->]|(Xv & q & Rv)]; destruct (P w Hw) as [[s' ->]|(Xw & q' & Rw)].
  - cbn. eexists. split; [reflexivity|]. destruct (bytes_eqb s s') eqn:E.
    + apply bytes_eqb_eq in E. subst. rewrite c_strcmp_refl. reflexivity.
    + apply bytes_eqb_neq in E. apply Z.eqb_neq. intros K. apply E. now apply c_strcmp_eq.
  - destruct w; try discriminate Xw; cbn; eexists; (split; [reflexivity|reflexivity]).
  - destruct v; try discriminate Xv; cbn; eexists; (split; [reflexivity|reflexivity]).
  - rewrite (numbers_exact v w q q' Rv Rw Xv Xw). eexists. split; [reflexivity|].
    assert (same_const v w = Qeq_bool q q') as ->.
    { unfold same_const. rewrite Rv, Rw. destruct v; try discriminate Xv; destruct w; try discriminate Xw; reflexivity. }
    destruct (q ?= q')%Q eqn:E; cbn.
    + symmetry. apply Qeq_bool_iff. now apply Qeq_alt.
    + symmetry. apply not_true_is_false. intros K. apply Qeq_bool_iff, Qeq_alt in K. congruence.
    + symmetry. apply not_true_is_false. intros K. apply Qeq_bool_iff, Qeq_alt in K. congruence.
Qed.
Lemma filter_cmp : forall f g, plain_filter f = true -> plain_filter g = true -> exists c, filter_compare f g = Ok c /\ (c =? 0) = same_filter f g.
Proof.
  induction f as [|o v|o l IHl r IHr]; intros [|o' v'|o' l' r'] Hf Hg; cbn [filter_compare same_filter plain_filter] in *; try (eexists; split; reflexivity).
  - destruct (o =? o') eqn:E; cbn [andb]; [now apply const_cmp|]. destruct (o <? o'); eexists; split; reflexivity.
  - apply andb_true_iff in Hf as [H1 H2]. apply andb_true_iff in Hg as [G1 G2].
    destruct (o =? o') eqn:E; cbn [andb]; [|destruct (o <? o'); eexists; split; reflexivity].
    destruct (IHl l' H1 G1) as (c & -> & C). cbn. rewrite <- C. destruct (c =? 0) eqn:C0; cbn.
    + now apply IHr.
    + eexists. split; [reflexivity|exact C0].
Qed.
Lemma key_match_ok a b : plain_filter (k_filter a) = true -> plain_filter (k_filter b) = true -> key_match a b = Ok (same_key a b).
Proof.
  intros A B. unfold key_match, same_key. destruct (bytes_eqb (k_listener a) (k_listener b)); [|reflexivity]. cbn [negb andb].
  destruct (k_comp a =? k_comp b); [|reflexivity]. cbn [negb andb]. destruct (bytes_eqb (k_event a) (k_event b)); [|reflexivity]. cbn [negb andb].
  destruct (filter_cmp _ _ A B) as (c & -> & C). cbn. rewrite C. now destruct (same_filter (k_filter a) (k_filter b)).
Qed.
Lemma Qeq_bool_congr x y z : Qeq_bool x y = true -> Qeq_bool y z = Qeq_bool x z.
Proof.
  intros H. apply Qeq_bool_iff in H. destruct (Qeq_bool y z) eqn:A; symmetry.
  - apply Qeq_bool_iff in A. apply Qeq_bool_iff. now rewrite H.
  - apply not_true_is_false. intros B. apply Qeq_bool_iff in B. rewrite <- not_true_iff_false in A. apply A. apply Qeq_bool_iff. now rewrite <- H.
Qed.
Lemma Qeq_bool_comm' x y : Qeq_bool x y = Qeq_bool y x.
Proof. destruct (Qeq_bool x y) eqn:A; symmetry; [now apply Qeq_bool_sym|]. apply not_true_is_false. intros B. apply Qeq_bool_sym in B. congruence. Qed.
Lemma same_const_sym v w : same_const v w = same_const w v.
Proof.
  unfold same_const. destruct (text_of v), (text_of w); try reflexivity; [apply bytes_eqb_sym|].
  destruct (real_of v), (real_of w); try reflexivity. apply Qeq_bool_comm'.
Qed.
Lemma same_const_congr u v w : same_const u v = true -> same_const v w = same_const u w.
Proof.
  unfold same_const. destruct (text_of u), (text_of v); try discriminate; intros H.
  - apply bytes_eqb_eq in H. now subst.
  - destruct (text_of w); [reflexivity|]. destruct (real_of u), (real_of v); try discriminate H. destruct (real_of w); [|reflexivity]. now apply Qeq_bool_congr.
Qed.
Lemma same_const_refl v : plain_const v = true -> same_const v v = true.
Proof.
  intros H. unfold same_const. destruct v; try discriminate H; cbn [plain_const text_of] in *;
    try (apply andb_true_iff in H as [_ H]; destruct (real_of _); [apply Qeq_bool_refl|discriminate H]).
  destruct s; [apply bytes_eqb_refl|discriminate H].
Qed.
Lemma same_filter_sym : forall f g, same_filter f g = same_filter g f.
Proof.
  induction f as [|o v|o l IHl r IHr]; intros [|o' v'|o' l' r']; cbn; try reflexivity.
  - now rewrite Z.eqb_sym, same_const_sym.
  - now rewrite Z.eqb_sym, IHl, IHr.
Qed.
Lemma same_filter_congr : forall f g h, same_filter f g = true -> same_filter g h = same_filter f h.
Proof.
  induction f as [|o v|o l IHl r IHr]; intros [|o' v'|o' l' r'] h H; cbn in H; try discriminate H; [reflexivity| |].
  - apply andb_true_iff in H as [E H]. apply Z.eqb_eq in E. subst. destruct h; cbn; try reflexivity. now rewrite (same_const_congr _ _ _ H).
  - apply andb_true_iff in H as [H R]. apply andb_true_iff in H as [E L]. apply Z.eqb_eq in E. subst. destruct h; cbn; try reflexivity.
    now rewrite (IHl _ _ L), (IHr _ _ R).
Qed.
Lemma same_filter_refl : forall f, plain_filter f = true -> same_filter f f = true.
Proof.
  induction f as [|o v|o l IHl r IHr]; cbn; intros H; [reflexivity| |].
  - now rewrite Z.eqb_refl, same_const_refl.
  - apply andb_true_iff in H as [H1 H2]. now rewrite Z.eqb_refl, IHl, IHr.
Qed.
Lemma same_key_sym a b : same_key a b = same_key b a.
Proof.
  unfold same_key. rewrite (bytes_eqb_sym (k_listener a)), (Z.eqb_sym (k_comp a)), (bytes_eqb_sym (k_event a)), (same_filter_sym (k_filter a)),
    (Z.eqb_sym (k_interval a)), (Z.eqb_sym (k_duration a)). f_equal. now destruct (k_raw a), (k_raw b).
Qed.
Lemma same_key_congr a b c : same_key a b = true -> same_key b c = same_key a c.
Proof.
  unfold same_key. intros H. repeat (apply andb_true_iff in H; destruct H as [H ?]).
  apply bytes_eqb_eq in H. match goal with K : bytes_eqb _ _ = true |- _ => apply bytes_eqb_eq in K; rewrite K end.
  repeat match goal with K : (_ =? _) = true |- _ => apply Z.eqb_eq in K; rewrite K end.
  match goal with K : eqb _ _ = true |- _ => apply eqb_prop in K; rewrite K end.
  match goal with K : same_filter _ _ = true |- _ => rewrite (same_filter_congr _ _ _ K) end. now rewrite H.
Qed.
Lemma same_key_refl k : plain_filter (k_filter k) = true -> same_key k k = true.
Proof. intros H. unfold same_key. rewrite !bytes_eqb_refl, !Z.eqb_refl, (same_filter_refl _ H). now destruct (k_raw k). Qed.

Definition plain_subs (l : list sub) := forall x, In x l -> plain_filter (k_filter (s_key x)) = true.
Lemma get_sub_ok l k : plain_subs l -> plain_filter (k_filter k) = true -> get_sub l k = Ok (find (fun x => same_key (s_key x) k) l).
Proof.
  intros P H. induction l as [|x l IH]; cbn; [reflexivity|]. rewrite key_match_ok; [|apply P; now left|exact H]. cbn.
  destruct (same_key (s_key x) k); [reflexivity|]. apply IH. intros y I. apply P. now right.
Qed.

Lemma distinct_app a b : distinct (a ++ b) <-> distinct a /\ distinct b /\ forall x y, In x a -> In y b -> same_key x y = false.
Proof.
  induction a as [|k a IH]; cbn [app distinct].
  - split; [intros H; split; [exact I|split; [exact H|intros x y []]]|tauto].
  - rewrite IH. split.
    + intros (A & B & C & D). split; [split; [intros j I; apply A, in_or_app; now left|exact B]|]. split; [exact C|].
      intros x y [<-|I] J; [apply A, in_or_app; now right|now apply D].
    + intros ((A & B) & C & D). split; [intros j I; apply in_app_or in I as [I|I]; [now apply A|apply D; [now left|exact I]]|].
      split; [exact B|]. split; [exact C|]. intros x y I J. apply D; [now right|exact J].
Qed.
Lemma distinct_snoc l k : distinct l -> (forall j, In j l -> same_key j k = false) -> distinct (l ++ [k]).
Proof. intros D H. apply distinct_app. split; [exact D|]. split; [cbn; split; [intros j []|exact I]|]. intros x y A [<-|[]]. now apply H. Qed.
Lemma distinct_filter (f : sub -> bool) l : distinct (map s_key l) -> distinct (map s_key (List.filter f l)).
Proof.
  induction l as [|x l IH]; cbn; [auto|]. intros [A B]. destruct (f x); cbn; [|auto]. split; [|auto].
  intros j I. apply A. apply in_map_iff in I as (y & <- & I). apply filter_In in I as [I _]. now apply in_map.
Qed.

(** ** what one request changes *)
Definition core_eq (s s' : state) : Prop :=
  tops s' = tops s /\ next_el s' = next_el s /\ subs s' = subs s /\ links s' = links s /\ next_sub s' = next_sub s /\ next_id s' = next_id s /\ file s' = file s.
Lemma core_refl s : core_eq s s. Proof. repeat split. Qed.
Lemma core_trans a b c : core_eq a b -> core_eq b c -> core_eq a c.
Proof. intros (A1&A2&A3&A4&A5&A6&A7) (B1&B2&B3&B4&B5&B6&B7). repeat split; congruence. Qed.
Lemma watch_core s n s' : watch s n = Ok s' -> core_eq s s' /\ log s' = log s.
Proof.
  unfold watch. destruct (find_top n (tops s)) as [[u t]|]; [|discriminate]. destruct (negb (i_getter (el_info t))); [discriminate|].
  intros H. injection H as <-. repeat split.
Qed.
Lemma timer_core s n x : core_eq s (start_timer s n x) /\ log (start_timer s n x) = log s.
Proof. unfold start_timer. destruct (find_top n (tops s)) as [[u t]|]; [|repeat split]. destruct (_ && _); repeat split. Qed.
Lemma setup_core : forall insts s b x s', publish_setup s b x insts = Ok s' -> core_eq s s' /\ log s' = log s.
Proof.
  induction insts as [|n insts IH]; cbn; intros s b x s' H; [injection H as <-; repeat split|].
  destruct (negb (k_interval (s_key x) =? 0)).
  - injection H as <-. destruct b; [apply timer_core|repeat split].
  - destruct (auto_linked s n (Some (s_no x))); [now apply IH in H|]. destruct b.
    + destruct (watch s n) as [s1|[]|] eqn:W; cbn in H; try discriminate H. apply watch_core in W as [W1 W2]. apply IH in H as [H1 H2].
      split; [now apply (core_trans _ s1)|congruence].
    + apply IH in H as [H1 H2]. split; [now apply (core_trans _ (unwatch s n))|exact H2].
Qed.

(** the call of the provider's handler, and whether the request goes on *)
Definition called (ans : answers) (s : state) (added : bool) (i : einfo) (k : key) (s1 : state) (early : option Z) : Prop :=
  core_eq s s1 /\ (watched s1 = watched s /\ timers s1 = timers s) /\ early <> Some 0 /\
  if i_handler i then
    exists err, err = fst (ans (length (log s))) /\ log s1 = log s ++ [mkCall (if added then SUBSCRIBE else UNSUBSCRIBE) k err] /\
                (early = None -> err = 0) /\ (early <> None -> err <> 0 \/ k_raw k = true)
  else log s1 = log s /\ early = None.
Lemma ask_called ans s b i k s1 auto early : ask ans s b i k = (s1, auto, early) -> called ans s b i k s1 early.
Proof.
  unfold ask, called. intros EX. destruct (i_handler i).
  - destruct (ans (length (log s))) as [err o] eqn:A. injection EX as <- _ <-. split; [repeat split|]. split; [repeat split|].
    destruct (k_raw k && _) eqn:R; [split; [discriminate|exists err; repeat split; try discriminate; intros _; right; now apply andb_prop in R]|].
    destruct (err =? 0) eqn:E0; cbn [negb].
    + split; [discriminate|]. exists err. apply Z.eqb_eq in E0. repeat split; auto.
    + apply Z.eqb_neq in E0. split; [congruence|]. exists err. repeat split; try discriminate. auto.
  - injection EX as <- _ <-. split; [repeat split|]. split; [repeat split|]. split; [discriminate|auto].
Qed.
Definition added_sub (s : state) (e : nat) (k : key) (t : el) (up : path) (x : sub) (s' : state) : Prop :=
  get_sub (subs s) k = Ok None /\ (exists c, create (k_event k) (el_node t :: up) = Ok c /\ matching c (all_nodes s) = Ok (s_insts x) /\ s_chain x = Some c) /\
  s_no x = next_sub s /\ s_key x = k /\ s_el x = Some e /\ s_id x = next_id s /\
  tops s' = tops s /\ next_el s' = next_el s /\ subs s' = subs s ++ [x] /\ links s' = links s ++ map (link_to x) (s_insts x) /\
  next_sub s' = S (next_sub s) /\ next_id s' = (next_id s + 1) mod 4294967296 /\ file s' = subs s ++ [x].
Lemma handle_add ans s e k s' r : handle ans s true e k = Ok (s', r) ->
  exists up t s1 early, find_top e (tops s) = Some (up, t) /\ called ans s true (el_info t) k s1 early /\ log s' = log s1 /\
  ((s' = s1 /\ core_eq s s' /\ r <> E_SUCCESS /\
    (early <> None \/ k_interval k <> 0 /\ ends_dot (k_event k) = true \/ (exists x, get_sub (subs s) k = Ok (Some x)) \/ create (k_event k) (el_node t :: up) = Err tt)) \/
   (early = None /\ exists x, added_sub s e k t up x s' /\
     (r = E_SUCCESS /\ (k_raw k = true -> ntype (el_node t) = EVENT) \/ r = E_INVALID_INPUT /\ k_raw k = true /\ ntype (el_node t) <> EVENT))).
Proof.
  unfold handle. destruct (find_top e (tops s)) as [[up t]|] eqn:F; [|discriminate]. intros H. exists up, t.
  set (i := el_info t) in *. cbn [andb] in H.
  destruct (ask ans s true i k) as [[s1 auto] early] eqn:EX. pose proof (ask_called _ _ _ _ _ _ _ _ EX) as C.
  clear EX. exists s1, early. split; [reflexivity|]. split; [exact C|]. destruct C as (C & _ & E0 & L).
  destruct early as [err|].
  { injection H as <- <-. split; [reflexivity|]. left. split; [reflexivity|]. split; [exact C|]. unfold E_SUCCESS. split; [congruence|left; discriminate]. }
  destruct (negb (k_interval k =? 0) && ends_dot (k_event k)) eqn:B; cbn in H; rewrite B in H || idtac.
  { injection H as <- <-. split; [reflexivity|]. left. split; [reflexivity|]. split; [exact C|]. split; [discriminate|]. right. left. apply andb_prop in B as [B1 B2]. apply negb_true_iff, Z.eqb_neq in B1. auto. }
  assert (subs s1 = subs s) as CS by now destruct C as (_ & _ & C3 & _).
  destruct (get_sub (subs s1) k) as [f|[]|] eqn:G; cbn in H; try discriminate H.
  destruct f as [f|]. { injection H as <- <-. split; [reflexivity|]. left. split; [reflexivity|]. split; [exact C|]. split; [discriminate|]. right. right. left. exists f. now rewrite <- CS. }
  unfold add_sub in H. destruct (create (k_event k) (i_node i :: up)) as [c|[]|] eqn:CR; cbn in H; try discriminate H.
  2:{ injection H as <- <-. split; [reflexivity|]. left. split; [reflexivity|]. split; [exact C|]. split; [discriminate|]. right. right. right. exact CR. }
  destruct (matching c (all_nodes s1)) as [insts|[]|] eqn:M; cbn in H; try discriminate H.
  set (x := mkSub (next_sub s1) k auto (Some e) (Some c) insts (next_id s1)) in *.
  set (s2 := mkState (tops s1) (next_el s1) (subs s1 ++ [x]) (links s1 ++ map (link_to x) insts) (S (next_sub s1)) ((next_id s1 + 1) mod 4294967296) (watched s1) (timers s1) (log s1) (subs s1 ++ [x])) in *.
  assert (forall s3, core_eq s2 s3 -> added_sub s e k t up x s3) as AD.
  { intros s3 (D1 & D2 & D3 & D4 & D5 & D6 & D7). destruct C as (C1 & C2 & C3 & C4 & C5 & C6 & C7). unfold added_sub.
    unfold all_nodes in *. rewrite D1, D2, D3, D4, D5, D6, D7. subst s2 x. cbn. rewrite C1, C2, C3, C4, C5, C6 in *.
    split; [exact G|]. split; [exists c; split; [exact CR|split; [exact M|reflexivity]]|]. repeat split. }
  destruct (k_raw k && negb (ntype (i_node i) =? EVENT)) eqn:R.
  { injection H as <- <-. split; [reflexivity|]. right. split; [reflexivity|]. exists x. split; [apply AD, core_refl|]. right. apply andb_true_iff in R as [R1 R2].
    split; [reflexivity|]. split; [exact R1|]. unfold el_node. fold i. apply negb_true_iff, Z.eqb_neq in R2. exact R2. }
  match type of H with obind ?X _ = _ => destruct X as [s3|[]|] eqn:P; cbn in H; try discriminate H end. injection H as <- <-.
  assert (core_eq s2 s3 /\ log s3 = log s2) as [K1 K2]. { destruct ((ntype (i_node i) =? PROPERTY) && auto); [now apply setup_core in P|injection P as <-; split; [apply core_refl|reflexivity]]. }
  split; [exact K2|]. right. split; [reflexivity|]. exists x. split; [now apply AD|]. left. split; [reflexivity|]. intros R1. rewrite R1 in R. cbn in R.
  apply negb_false_iff, Z.eqb_eq in R. exact R.
Qed.
Definition removed_sub (s : state) (k : key) (x : sub) (s' : state) : Prop :=
  get_sub (subs s) k = Ok (Some x) /\ (exists lk, unlink_all s (s_insts x) (s_no x) (links s) = Ok lk /\ links s' = lk) /\
  tops s' = tops s /\ next_el s' = next_el s /\ subs s' = List.filter (fun y => negb (Nat.eqb (s_no y) (s_no x))) (subs s) /\
  next_sub s' = next_sub s /\ next_id s' = next_id s /\ file s' = subs s'.
Lemma unlink_all_tops s s' : tops s = tops s' -> forall insts x l, unlink_all s insts x l = unlink_all s' insts x l.
Proof. intros E. induction insts as [|n insts IH]; intros x l; cbn; [reflexivity|]. unfold alive. rewrite E. destruct (is_some _); [apply IH|reflexivity]. Qed.
Lemma handle_del ans s e k s' r : handle ans s false e k = Ok (s', r) ->
  exists up t s1 early, find_top e (tops s) = Some (up, t) /\ called ans s false (el_info t) k s1 early /\ log s' = log s1 /\
  ((s' = s1 /\ core_eq s s' /\ r <> E_SUCCESS /\ (early <> None \/ get_sub (subs s) k = Ok None \/ k_raw k = true /\ ntype (el_node t) <> EVENT)) \/
   (early = None /\ r = E_SUCCESS /\ exists x, removed_sub s k x s')).
Proof.
  unfold handle. destruct (find_top e (tops s)) as [[up t]|] eqn:F; [|discriminate]. intros H. exists up, t.
  set (i := el_info t) in *. cbn [andb] in H.
  destruct (ask ans s false i k) as [[s1 auto] early] eqn:EX. pose proof (ask_called _ _ _ _ _ _ _ _ EX) as C.
  clear EX. exists s1, early. split; [reflexivity|]. split; [exact C|]. destruct C as (C & _ & E0 & L).
  destruct early as [err|].
  { injection H as <- <-. split; [reflexivity|]. left. split; [reflexivity|]. split; [exact C|]. unfold E_SUCCESS. split; [congruence|left; discriminate]. }
  assert (subs s1 = subs s) as CS by now destruct C as (_ & _ & C3 & _).
  destruct (get_sub (subs s1) k) as [f|[]|] eqn:G; cbn in H; try discriminate H.
  destruct f as [x|]. 2:{ injection H as <- <-. split; [reflexivity|]. left. split; [reflexivity|]. split; [exact C|]. split; [discriminate|]. right. left. now rewrite <- CS. }
  destruct (k_raw k && negb (ntype (i_node i) =? EVENT)) eqn:R.
  { injection H as <- <-. split; [reflexivity|]. left. split; [reflexivity|]. split; [exact C|]. split; [discriminate|]. right. right. apply andb_true_iff in R as [R1 R2].
    split; [exact R1|]. apply negb_true_iff, Z.eqb_neq in R2. exact R2. }
  match type of H with obind ?X _ = _ => destruct X as [s3|[]|] eqn:P; cbn in H; try discriminate H end.
  assert (core_eq s1 s3 /\ log s3 = log s1) as [K1 K2]. { destruct ((ntype (i_node i) =? PROPERTY) && s_auto x); [now apply setup_core in P|injection P as <-; split; [apply core_refl|reflexivity]]. }
  pose proof (core_trans _ _ _ C K1) as (D1 & D2 & D3 & D4 & D5 & D6 & D7).
  unfold remove_sub in H. destruct (unlink_all s3 (s_insts x) (s_no x) (links s3)) as [lk|[]|] eqn:U; cbn in H; try discriminate H. injection H as <- <-.
  split; [exact K2|]. right. split; [reflexivity|]. split; [reflexivity|]. exists x. unfold removed_sub. cbn. rewrite CS in G.
  rewrite D1, D2, D3, D5, D6. split; [exact G|]. split; [|repeat split]. exists lk. split; [|reflexivity].
  rewrite <- U, D4. symmetry. apply unlink_all_tops. exact D1.
Qed.

(** ** links *)
Definition links_ok (lk : list link) (L : list sub) : Prop :=
  forall n, List.filter (fun y => Nat.eqb (l_el y) n) lk = map (fun x => link_to x n) (List.filter (fun x => targets x n) L).
Definition not_sub (x : nat) (y : link) : bool := negb (Nat.eqb (l_sub y) x).
Definition other (x : nat) (y : sub) : bool := negb (Nat.eqb (s_no y) x).

Lemma targets_in x n : targets x n = true <-> In n (s_insts x).
Proof. unfold targets. apply mem_in. Qed.
Lemma own_links x n : forall insts, NoDup insts -> List.filter (fun y => Nat.eqb (l_el y) n) (map (link_to x) insts) = if mem n insts then [link_to x n] else [].
Proof.
  induction insts as [|m insts IH]; intros N; [reflexivity|]. apply NoDup_cons_iff in N as [N0 N]. cbn [map List.filter].
  change (l_el (link_to x m)) with m. unfold mem in *. cbn [existsb]. destruct (Nat.eqb_spec m n) as [->|E].
  - rewrite Nat.eqb_refl. cbn [orb]. f_equal. rewrite IH by exact N. apply mem_nin in N0. unfold mem in N0. now rewrite N0.
  - destruct (Nat.eqb_spec n m); [congruence|]. cbn [orb]. now apply IH.
Qed.
Lemma links_add lk L x : links_ok lk L -> NoDup (s_insts x) -> links_ok (lk ++ map (link_to x) (s_insts x)) (L ++ [x]).
Proof.
  intros H N n. rewrite !filter_app, map_app, H, (own_links x n _ N). cbn [List.filter]. unfold targets, mem. now destruct (existsb (Nat.eqb n) (s_insts x)).
Qed.
Lemma in_links lk L y : links_ok lk L -> In y lk -> exists z, In z L /\ targets z (l_el y) = true /\ y = link_to z (l_el y).
Proof.
  intros H I. assert (In y (List.filter (fun q => Nat.eqb (l_el q) (l_el y)) lk)) as F by (apply filter_In; split; [exact I|apply Nat.eqb_refl]).
  rewrite H in F. apply in_map_iff in F as (z & E & F). apply filter_In in F as [F T]. exists z. auto.
Qed.
Lemma nodup_no L : NoDup (map s_no L) -> forall x y, In x L -> In y L -> s_no x = s_no y -> x = y.
Proof.
  induction L as [|z L IH]; cbn; intros N x y I J E; [destruct I|]. apply NoDup_cons_iff in N as [N0 N].
  destruct I as [<-|I], J as [<-|J]; auto.
  - exfalso. apply N0. rewrite E. now apply in_map.
  - exfalso. apply N0. rewrite <- E. now apply in_map.
Qed.
Lemma filter_filter {A} (f g : A -> bool) l : List.filter f (List.filter g l) = List.filter (fun x => g x && f x) l.
Proof. induction l as [|x l IH]; cbn; [reflexivity|]. destruct (g x); cbn; [|exact IH]. destruct (f x); now rewrite IH. Qed.
Lemma filter_map {A B} (f : B -> bool) (g : A -> B) l : List.filter f (map g l) = map g (List.filter (fun x => f (g x)) l).
Proof. induction l as [|x l IH]; cbn; [reflexivity|]. destruct (f (g x)); cbn; now rewrite IH. Qed.
Lemma filter_nodup_le (x : nat) L : NoDup (map s_no L) -> forall f, (length (List.filter (fun z => f z && Nat.eqb (s_no z) x) L) <= 1)%nat.
Proof.
  intros N f. induction L as [|z L IH]; cbn in *; [lia|]. apply NoDup_cons_iff in N as [N0 N]. destruct (f z && Nat.eqb (s_no z) x) eqn:E; [|auto].
  cbn. rewrite filter_nil; [cbn; lia|]. intros y I. apply andb_true_iff in E as [_ E]. apply Nat.eqb_eq in E. apply andb_false_iff. right. apply Nat.eqb_neq. intros K.
  apply N0. rewrite E, <- K. now apply in_map.
Qed.
Lemma link_once lk L n x : links_ok lk L -> NoDup (map s_no L) -> (length (List.filter (is_link n x) lk) <= 1)%nat.
Proof.
  intros H N. assert (List.filter (is_link n x) lk = List.filter (fun y => Nat.eqb (l_sub y) x) (List.filter (fun y => Nat.eqb (l_el y) n) lk)) as ->.
  { rewrite filter_filter. reflexivity. }
  rewrite H, filter_map, filter_filter, map_length. cbn [link_to l_sub]. now apply filter_nodup_le.
Qed.
Lemma unlink_filter n x lk : (length (List.filter (is_link n x) lk) <= 1)%nat -> unlink n x lk = List.filter (fun y => negb (is_link n x y)) lk.
Proof.
  induction lk as [|y lk IH]; cbn; [reflexivity|]. destruct (is_link n x y); cbn; intros H; [|f_equal; auto].
  symmetry. apply filter_all. intros z I. apply negb_true_iff. destruct (is_link n x z) eqn:E; [|reflexivity].
  assert (In z (List.filter (is_link n x) lk)) as K by now apply filter_In. destruct (List.filter (is_link n x) lk); [destruct K|cbn in H; lia].
Qed.
Lemma filter_length_le {A} (f g : A -> bool) l : (length (List.filter f (List.filter g l)) <= length (List.filter f l))%nat.
Proof. induction l as [|x l IH]; cbn; [lia|]. destruct (g x); cbn; destruct (f x); cbn; lia. Qed.
Lemma unlink_many s x : forall insts lk lk', (forall n, length (List.filter (is_link n x) lk) <= 1)%nat -> unlink_all s insts x lk = Ok lk' ->
  lk' = List.filter (fun y => negb (Nat.eqb (l_sub y) x && mem (l_el y) insts)) lk.
Proof.
  induction insts as [|n insts IH]; cbn; intros lk lk' H U.
  - injection U as <-. symmetry. apply filter_all. intros y _. now rewrite andb_false_r.
  - destruct (alive n s); [|discriminate]. apply IH in U.
    + rewrite U, unlink_filter, filter_filter by apply H. apply filter_ext. intros y. unfold is_link. unfold mem. cbn [existsb].
      destruct (Nat.eqb_spec (l_el y) n), (Nat.eqb_spec (l_sub y) x); cbn; try reflexivity.
    + intros m. rewrite unlink_filter by apply H. etransitivity; [apply filter_length_le|apply H].
Qed.
Lemma links_del lk L x : links_ok lk L -> links_ok (List.filter (not_sub x) lk) (List.filter (other x) L).
Proof.
  intros H n. rewrite !filter_filter.
  assert (List.filter (fun y => not_sub x y && Nat.eqb (l_el y) n) lk = List.filter (not_sub x) (List.filter (fun y => Nat.eqb (l_el y) n) lk)) as ->.
  { rewrite filter_filter. apply filter_ext. intros y. apply andb_comm. }
  rewrite H, filter_map, filter_filter. f_equal. apply filter_ext. intros y. apply andb_comm.
Qed.
(** all links of a subscription are removed *)
Lemma unlink_sub s lk L x insts lk' : links_ok lk L -> NoDup (map s_no L) -> In x L -> (forall n, In n (s_insts x) -> In n insts) ->
  unlink_all s insts (s_no x) lk = Ok lk' -> lk' = List.filter (not_sub (s_no x)) lk.
Proof.
  intros H N I S U. apply unlink_many in U; [|intros n; now apply (link_once lk L)]. rewrite U. apply filter_ext_in. intros y Y. unfold not_sub. f_equal.
  destruct (Nat.eqb_spec (l_sub y) (s_no x)) as [E|E]; [|reflexivity]. cbn. apply mem_in. apply S.
  destruct (in_links lk L y H Y) as (z & Z1 & Z2 & Z3). rewrite Z3 in E. cbn in E. assert (z = x) as -> by now apply (nodup_no L). now apply targets_in.
Qed.
Lemma other_all x l : (forall y, In y l -> s_no y <> x) -> List.filter (other x) l = l.
Proof. intros H. apply filter_all. intros y I. apply negb_true_iff, Nat.eqb_neq. auto. Qed.
Lemma other_split L x pre suf : NoDup (map s_no L) -> L = pre ++ x :: suf -> List.filter (other (s_no x)) L = pre ++ suf.
Proof.
  intros N ->. rewrite map_app in N. cbn in N. rewrite filter_app. cbn. unfold other at 2. rewrite Nat.eqb_refl. cbn. f_equal; apply other_all; intros y I E.
  - apply (nodup_app_disj _ _ (s_no x) N); [rewrite <- E; now apply in_map|now left].
  - apply nodup_app_r in N. apply NoDup_cons_iff in N as [N _]. apply N. rewrite <- E. now apply in_map.
Qed.

(** ** the invariant *)
Definition nodes_ok (N : list (nat * path)) (x : sub) : Prop :=
  NoDup (s_insts x) /\
  match s_chain x with
  | None => s_insts x = []
  | Some c => s_el x <> None /\ (exists reg, create (k_event (s_key x)) reg = Ok c) /\
              forall n, In n (s_insts x) <-> exists p, In (n, p) N /\ match_ c p = Ok true
  end.
Record InvL (N : list (nat * path)) (L : list sub) (lk : list link) (b : nat) : Prop := {
  i_no : NoDup (map s_no L); i_lt : forall x, In x L -> (s_no x < b)%nat; i_links : links_ok lk L; i_nodes : forall x, In x L -> nodes_ok N x }.
Definition InvK (l : list sub) : Prop := distinct (map s_key l) /\ plain_subs l.
Record W (s : state) : Prop := {
  w_nos : NoDup (flat_map nos (tops s)); w_lt : forall n, In n (flat_map nos (tops s)) -> (n < next_el s)%nat;
  w_l : InvL (all_nodes s) (subs s) (links s) (next_sub s); w_k : InvK (subs s) }.

Lemma nodup_filter {A B} (f : A -> B) (g : A -> bool) l : NoDup (map f l) -> NoDup (map f (List.filter g l)).
Proof.
  induction l as [|x l IH]; cbn; intros N; [constructor|]. apply NoDup_cons_iff in N as [N0 N]. destruct (g x); cbn; [|auto]. constructor; [|auto].
  intros I. apply N0. apply in_map_iff in I as (y & E & I). apply filter_In in I as [I _]. rewrite <- E. now apply in_map.
Qed.
Lemma InvL_del N L lk b x : InvL N L lk b -> InvL N (List.filter (other x) L) (List.filter (not_sub x) lk) b.
Proof.
  intros [A B C D]. split.
  - now apply nodup_filter.
  - intros y I. apply filter_In in I as [I _]. auto.
  - now apply links_del.
  - intros y I. apply filter_In in I as [I _]. auto.
Qed.
Lemma InvK_filter f l : InvK l -> InvK (List.filter f l).
Proof. intros [A B]. split; [now apply distinct_filter|]. intros x I. apply filter_In in I as [I _]. auto. Qed.
Lemma matching_in c : forall l insts, matching c l = Ok insts -> forall n, In n insts <-> exists p, In (n, p) l /\ match_ c p = Ok true.
Proof.
  induction l as [|[m p] l IH]; cbn; intros insts H n.
  - injection H as <-. split; [intros []|intros (q & [] & _)].
  - destruct (match_ c p) as [b|[]|] eqn:M; cbn in H; try discriminate H. destruct (matching c l) as [r|[]|]; cbn in H; try discriminate H. injection H as <-.
    specialize (IH r eq_refl n). destruct b; cbn [In]; rewrite IH; split.
    + intros [<-|(q & I & E)]; [exists p; auto|exists q; auto].
    + intros (q & [K|I] & E); [injection K as <- <-; auto|right; exists q; auto].
    + intros (q & I & E). exists q. auto.
    + intros (q & [K|I] & E); [injection K as <- <-; congruence|exists q; auto].
Qed.
Lemma matching_nodup c : forall l insts, NoDup (map fst l) -> matching c l = Ok insts -> NoDup insts.
Proof.
  induction l as [|[m p] l IH]; cbn; intros insts N H.
  - injection H as <-. constructor.
  - apply NoDup_cons_iff in N as [N0 N]. destruct (match_ c p) as [b|[]|]; cbn in H; try discriminate H. destruct (matching c l) as [r|[]|] eqn:R; cbn in H; try discriminate H. injection H as <-.
    specialize (IH r N eq_refl). destruct b; [|exact IH]. constructor; [|exact IH]. intros I. apply N0. apply (matching_in c l r R) in I as (q & I & _).
    apply in_map_iff. exists (m, q). auto.
Qed.
Lemma added_nodes s e k t up x s' : NoDup (map fst (all_nodes s)) -> added_sub s e k t up x s' -> nodes_ok (all_nodes s) x.
Proof.
  intros N (_ & (c & A & B & C) & _ & K & E & _). unfold nodes_ok. rewrite C, E, K. split; [now apply (matching_nodup c (all_nodes s))|]. split; [discriminate|].
  split; [eexists; exact A|]. now apply matching_in.
Qed.
Lemma InvL_add N L s e k t up x s' : InvL N L (links s) (next_sub s) -> N = all_nodes s -> NoDup (map fst N) -> added_sub s e k t up x s' -> InvL N (L ++ [x]) (links s') (next_sub s').
Proof.
  intros [A B C D] -> F AD. pose proof (added_nodes _ _ _ _ _ _ _ F AD) as NX. destruct AD as (_ & _ & X1 & _ & _ & _ & _ & _ & _ & X2 & X3 & _).
  rewrite X2, X3. split.
  - rewrite map_app. apply nodup_app_intro; [exact A|cbn; constructor; [intros []|constructor]|]. intros y I [<-|[]].
    apply in_map_iff in I as (z & E & I). apply B in I. lia.
  - intros y I. apply in_app_or in I as [I|[<-|[]]]; [apply B in I; lia|lia].
  - apply links_add; [exact C|]. apply NX.
  - intros y I. apply in_app_or in I as [I|[<-|[]]]; auto.
Qed.
Lemma find_some_key l k : plain_subs l -> find (fun x => same_key (s_key x) k) l = None -> forall j, In j (map s_key l) -> same_key j k = false.
Proof. intros _ H j I. apply in_map_iff in I as (x & <- & I). now apply (List.find_none _ _ H x). Qed.
Lemma InvK_add l k x : InvK l -> get_sub l k = Ok None -> plain_filter (k_filter k) = true -> s_key x = k -> InvK (l ++ [x]).
Proof.
  intros [A B] G P E. rewrite get_sub_ok in G by assumption. injection G as G. split.
  - rewrite map_app. cbn. apply distinct_snoc; [exact A|]. rewrite E. now apply find_some_key.
  - intros y I. apply in_app_or in I as [I|[<-|[]]]; [auto|]. now rewrite E.
Qed.
Lemma w_nodes s : W s -> NoDup (map fst (all_nodes s)).
Proof. intros H. apply nodup_visited_all. apply (w_nos s H). Qed.
Lemma core_W s s' : core_eq s s' -> W s -> W s'.
Proof.
  intros (A & B & C & D & E & F & G) [H1 H2 H3 H4]. split; unfold all_nodes in *; rewrite ?A, ?B, ?C, ?D, ?E; auto.
Qed.
Lemma handle_add_W ans s e k s' r : W s -> plain_filter (k_filter k) = true -> handle ans s true e k = Ok (s', r) -> W s'.
Proof.
  intros H P HA. apply handle_add in HA as (up & t & s1 & early & _ & _ & _ & [(_ & C & _)|(_ & x & AD & _)]); [now apply (core_W s)|].
  pose proof AD as (G & _ & _ & K & _ & _ & X1 & X2 & X3 & _). destruct H as [H1 H2 H3 H4]. split; unfold all_nodes in *; rewrite ?X1, ?X2, ?X3; auto.
  - eapply InvL_add; [exact H3|reflexivity|now apply nodup_visited_all|exact AD].
  - now apply (InvK_add (subs s) k).
Qed.
Lemma handle_del_W ans s e k s' r : W s -> plain_filter (k_filter k) = true -> handle ans s false e k = Ok (s', r) -> W s'.
Proof.
  intros H P HA. apply handle_del in HA as (up & t & s1 & early & _ & _ & _ & [(_ & C & _)|(_ & _ & x & RM)]); [now apply (core_W s)|].
  destruct RM as (G & (lk & U & L) & X1 & X2 & X3 & X4 & _). destruct H as [H1 H2 H3 H4].
  assert (In x (subs s)) as I. { rewrite get_sub_ok in G by (assumption || apply H4). injection G as G. now apply find_some in G. }
  assert (lk = List.filter (not_sub (s_no x)) (links s)) as ->.
  { eapply unlink_sub; [apply (i_links _ _ _ _ H3)|apply (i_no _ _ _ _ H3)|exact I| |exact U]. auto. }
  split; unfold all_nodes in *; rewrite ?X1, ?X2, ?X3, ?X4, ?L; auto.
  - now apply InvL_del.
  - now apply InvK_filter.
Qed.

(** ** subscribing again *)
Lemma item_split : forall l c x next, item c l = Some (x, next) -> exists pre suf, l = pre ++ x :: suf /\ s_no x = c /\ next = front suf.
Proof.
  induction l as [|y l IH]; cbn; intros c x next H; [discriminate|]. destruct (Nat.eqb_spec (s_no y) c) as [E|E].
  - injection H as <- <-. exists [], l. split; [reflexivity|]. split; [exact E|]. reflexivity.
  - destruct (IH _ _ _ H) as (pre & suf & -> & A & B). exists (y :: pre), suf. auto.
Qed.
Lemma item_at pre x suf : NoDup (map s_no (pre ++ x :: suf)) -> item (s_no x) (pre ++ x :: suf) = Some (x, front suf).
Proof.
  induction pre as [|y pre IH]; cbn; intros N.
  - rewrite Nat.eqb_refl. now destruct suf.
  - apply NoDup_cons_iff in N as [N0 N]. destruct (Nat.eqb_spec (s_no y) (s_no x)) as [E|E]; [|now apply IH].
    exfalso. apply N0. rewrite E, map_app. apply in_or_app. right. now left.
Qed.
Lemma item_in l c x next : item c l = Some (x, next) -> In x l.
Proof. intros H. apply item_split in H as (pre & suf & -> & _). apply in_elt. Qed.

Lemma again_W ans s x e s' : W s -> In x (subs s) -> again ans s x e = Ok s' -> W s'.
Proof.
  intros H I A. unfold again in A. destruct (handle ans (take_out s (s_no x)) true e (s_key x)) as [[s2 r]|[]|] eqn:HA; cbn in A; try discriminate A.
  unfold free_sub in A. destruct (unlink_all s2 (s_insts x) (s_no x) (links s2)) as [lk|[]|] eqn:U; cbn in A; try discriminate A. injection A as <-.
  pose proof (w_k s H) as [KD KP]. pose proof (KP x I) as P. pose proof (InvK_filter (other (s_no x)) _ (w_k s H)) as K1.
  pose proof (w_nodes s H) as ND. pose proof (w_l s H) as HL.
  apply handle_add in HA as (up & t & s1 & early & _ & _ & _ & HC).
  assert (exists nw, subs s2 = List.filter (other (s_no x)) (subs s) ++ nw /\ tops s2 = tops s /\ next_el s2 = next_el s /\
            InvL (all_nodes s) (subs s ++ nw) (links s2) (next_sub s2) /\ InvK (subs s2) /\ (forall y, In y nw -> s_no y <> s_no x)) as (nw & E1 & E2 & E3 & E4 & E5 & E6).
  { destruct HC as [(_ & (C1 & C2 & C3 & C4 & C5 & C6 & C7) & _)|(_ & y & AD & _)].
    - exists []. rewrite !app_nil_r. cbn in *. rewrite C3, C4, C5. split; [reflexivity|]. split; [exact C1|]. split; [exact C2|]. split; [exact HL|]. split; [exact K1|intros y []].
    - pose proof AD as (G & _ & Y1 & Y2 & _ & _ & X1 & X2 & X3 & _). exists [y]. split; [exact X3|]. split; [exact X1|]. split; [exact X2|].
      split; [|split].
      + apply (InvL_add _ _ (take_out s (s_no x)) e (s_key x) t up); [exact HL|reflexivity|exact ND|exact AD].
      + rewrite X3. cbn [subs take_out] in *. apply (InvK_add _ (s_key x)); try assumption.
      + intros z [<-|[]]. rewrite Y1. cbn. apply (i_lt _ _ _ _ HL) in I. lia. }
  assert (lk = List.filter (not_sub (s_no x)) (links s2)) as ->.
  { eapply unlink_sub; [apply (i_links _ _ _ _ E4)|apply (i_no _ _ _ _ E4)| | |exact U]; [apply in_or_app; now left|auto]. }
  apply (InvL_del _ _ _ _ (s_no x)) in E4. rewrite filter_app, (other_all _ nw E6), <- E1 in E4.
  destruct H as [H1 H2 _ _]. split; unfold all_nodes in *; cbn; rewrite ?E2, ?E3; auto.
Qed.
Lemma row_again_W ans look row : forall count cur s s', W s -> row_again count ans look row cur s = Ok s' -> W s'.
Proof.
  induction count as [|count IH]; intros [c|] s s' H R; cbn in R; try (injection R as <-; exact H).
  destruct (item c (subs s)) as [[x next]|] eqn:I; [|discriminate R]. apply item_in in I.
  destruct (is_prefix row (k_event (s_key x))); cbn in R; [|now apply IH in R].
  destruct (look (k_event (s_key x))) as [e|]; cbn in R; [|now apply IH in R].
  destruct (alive e s); cbn in R; [|discriminate R]. destruct (again ans s x e) as [s1|[]|] eqn:A; cbn in R; try discriminate R.
  apply IH in R; [exact R|]. eapply again_W; eassumption.
Qed.
Lemma cache_again_W ans name e : forall fuel cur s s', W s -> cache_again fuel ans name e cur s = Ok s' -> W s'.
Proof.
  induction fuel as [|fuel IH]; intros [c|] s s' H R; cbn in R; try (injection R as <-; exact H); try discriminate R.
  destruct (item c (subs s)) as [[x next]|] eqn:I; [|discriminate R]. apply item_in in I.
  destruct (negb _ && _ && _); [|now apply IH in R]. destruct (again ans s x e) as [s1|[]|] eqn:A; cbn in R; try discriminate R.
  apply IH in R; [exact R|]. eapply again_W; eassumption.
Qed.
Lemma disconnect_W ans found l : forall fuel cur s s', W s -> disconnect_loop fuel ans found l cur s = Ok s' -> W s'.
Proof.
  induction fuel as [|fuel IH]; intros [c|] s s' H R; cbn in R; try (injection R as <-; exact H); try discriminate R.
  destruct (item c (subs s)) as [[x next]|] eqn:I; [|discriminate R].
  destruct (bytes_eqb (k_listener (s_key x)) l && found (k_event (s_key x))); cbn in R; [|now apply IH in R].
  destruct (s_el x) as [e|]; cbn in R; [|now apply IH in R].
  match type of R with context [handle ?a ?b ?c ?d ?k] => destruct (handle a b c d k) as [[s1 r1]|[]|] eqn:A end; cbn in R; try discriminate R.
  apply IH in R; [exact R|]. eapply handle_del_W; [exact H| |exact A]. reflexivity.
Qed.
Lemma row_watch_core : forall l b s s', row_watch l b s = Ok s' -> core_eq s s' /\ log s' = log s.
Proof.
  induction l as [|[n p] l IH]; cbn; intros b s s' H; [injection H as <-; repeat split|].
  destruct (is_prop p && auto_linked s n None); [|now apply IH in H]. destruct b.
  - destruct (watch s n) as [s1|[]|] eqn:A; cbn in H; try discriminate H. apply watch_core in A as [A1 A2]. apply IH in H as [H1 H2].
    split; [now apply (core_trans _ s1)|congruence].
  - apply IH in H as [H1 H2]. split; [|exact H2]. apply (core_trans _ (unwatch s n)); [repeat split|exact H1].
Qed.

(** ** a new row *)
Definition same_but (x y : sub) : Prop := s_no y = s_no x /\ s_key y = s_key x /\ s_auto y = s_auto x /\ s_el y = s_el x /\ s_chain y = s_chain x /\ s_id y = s_id x.
Lemma link_new_ok s n p : forall l l' k, link_new s n p l = Ok (l', k) ->
  Forall2 (fun x y => same_but x y /\ exists b, s_insts y = s_insts x ++ (if b : bool then [n] else []) /\ match s_chain x, s_el x with Some c, Some e => match_ c p = Ok b | _, _ => b = false end) l l' /\
  k = map (fun x => link_to x n) (List.filter (fun y => match s_chain y, s_el y with Some c, Some e => match match_ c p with Ok true => true | _ => false end | _, _ => false end) l').
Proof.
  induction l as [|x l IH]; cbn; intros l' k H; [injection H as <- <-; split; [constructor|reflexivity]|].
  match type of H with obind ?X _ = _ => destruct X as [b|[]|] eqn:M; cbn in H; try discriminate H end.
  destruct (link_new s n p l) as [[l1 k1]|[]|]; cbn in H; try discriminate H. destruct (IH l1 k1 eq_refl) as [F E].
  assert (match s_chain x, s_el x with Some c, Some e => match_ c p = Ok b | _, _ => b = false end) as MB.
  { destruct (s_chain x); [|now injection M as <-]. destruct (s_el x); [|now injection M as <-]. destruct (alive n0 s); [exact M|discriminate M]. }
  destruct b; injection H as <- <-.
  - split.
    + constructor; [|exact F]. split; [repeat split|]. exists true. split; [reflexivity|exact MB].
    + cbn [List.filter s_chain s_el]. destruct (s_chain x) as [c|]; [|discriminate MB]. destruct (s_el x) as [e|]; [|discriminate MB]. rewrite MB. cbn [map]. now rewrite E.
  - split.
    + constructor; [|exact F]. split; [repeat split|]. exists false. rewrite app_nil_r. split; [reflexivity|exact MB].
    + cbn [List.filter]. destruct (s_chain x) as [c|]; [|exact E]. destruct (s_el x) as [e|]; [|exact E]. rewrite MB. exact E.
Qed.
Lemma forall2_map {A B C} (f : A -> C) (g : B -> C) (R : A -> B -> Prop) l l' : Forall2 R l l' -> (forall x y, R x y -> f x = g y) -> map f l = map g l'.
Proof. intros H E. induction H; cbn; [reflexivity|]. f_equal; auto. Qed.
Lemma forall2_in {A B} (R : A -> B -> Prop) l l' y : Forall2 R l l' -> In y l' -> exists x, In x l /\ R x y.
Proof.
  intros H. induction H as [|a b l l' HR F IH]; intros I; [destruct I|]. destruct I as [<-|I]; [exists a; split; [now left|exact HR]|].
  destruct (IH I) as (z & J & K). exists z. split; [now right|exact K].
Qed.
Lemma link_step N L lk b s n p l' k : InvL N L lk b -> (forall q, ~ In (n, q) N) -> link_new s n p L = Ok (l', k) -> InvL (N ++ [(n, p)]) l' (lk ++ k) b.
Proof.
  intros [A B C D] FR LN. apply link_new_ok in LN as [F EK].
  assert (forall x, In x L -> ~ In n (s_insts x)) as FI.
  { intros x I K. destruct (D x I) as [_ Q]. destruct (s_chain x); [|rewrite Q in K; destruct K]. destruct Q as (Qa & Qb & Qc). apply (proj1 (Qc n)) in K. destruct K as [q [K _]]. exact (FR q K). }
  assert (forall y, In y l' -> exists x, In x L /\ same_but x y /\ exists b, s_insts y = s_insts x ++ (if b : bool then [n] else []) /\ match s_chain x, s_el x with Some c, Some e => match_ c p = Ok b | _, _ => b = false end) as BK.
  { intros y I. apply (forall2_in _ _ _ _ F) in I as (x & I & K). exists x. auto. }
  split.
  - rewrite <- (forall2_map s_no s_no _ L l' F); [exact A|]. intros x y [(E & _) _]. auto.
  - intros y I. destruct (BK y I) as (x & J & (E & _) & _). rewrite E. auto.
  - intros m. rewrite filter_app.
    assert (List.filter (fun y => Nat.eqb (l_el y) m) k = if Nat.eqb n m then k else []) as ->.
    { rewrite EK. destruct (Nat.eqb_spec n m) as [->|E].
      - apply filter_all. intros y I. apply in_map_iff in I as (x & <- & _). cbn. apply Nat.eqb_refl.
      - apply filter_nil. intros y I. apply in_map_iff in I as (x & <- & _). cbn. now apply Nat.eqb_neq. }
    rewrite C. destruct (Nat.eqb_spec n m) as [<-|E].
    + rewrite (filter_nil _ L). 2:{ intros x I. apply not_true_is_false. rewrite targets_in. auto. }
      cbn [map app]. rewrite EK. f_equal. apply filter_ext_in. intros y I. destruct (BK y I) as (x & J & (_ & _ & _ & S1 & S2 & _) & b0 & EI & M).
      rewrite S1, S2. unfold targets. rewrite EI. change (existsb (Nat.eqb n) (s_insts x ++ (if b0 then [n] else []))) with (mem n (s_insts x ++ (if b0 then [n] else []))).
      assert (match s_chain x with Some c => match s_el x with Some _ => match match_ c p with Ok true => true | _ => false end | None => false end | None => false end = b0) as ->.
      { destruct (s_chain x); [|now subst]. destruct (s_el x); [|now subst]. rewrite M. now destruct b0. }
      symmetry. destruct b0; [apply mem_in, in_or_app; right; now left|]. rewrite app_nil_r. apply mem_nin. auto.
    + rewrite app_nil_r. assert (forall l l', Forall2 (fun x y => same_but x y /\ exists b, s_insts y = s_insts x ++ (if b : bool then [n] else []) /\ match s_chain x, s_el x with Some c, Some e => match_ c p = Ok b | _, _ => b = false end) l l' ->
        map (fun x => link_to x m) (List.filter (fun x => targets x m) l) = map (fun x => link_to x m) (List.filter (fun x => targets x m) l')) as G.
      { intros l l2 F2. induction F2 as [|x y l l2 R F2 IH]; [reflexivity|]. destruct R as [(S1 & S2 & S3 & _) (b0 & EI & _)]. cbn [List.filter].
        assert (targets y m = targets x m) as ->.
        { unfold targets. rewrite EI, existsb_app. destruct b0; cbn; [|now rewrite orb_false_r]. destruct (Nat.eqb_spec m n); [congruence|]. now rewrite !orb_false_r. }
        destruct (targets x m); cbn [map]; [|exact IH]. f_equal; [|exact IH]. unfold link_to. now rewrite S1, S2, S3. }
      now apply G.
  - intros y I. destruct (BK y I) as (x & J & (S0 & SK & SA & SE & SC & SI) & b0 & EI & M). destruct (D x J) as [ND Q]. unfold nodes_ok. rewrite SC, SE, SK, EI. split.
    + destruct b0; [|now rewrite app_nil_r]. apply nodup_app_intro; [exact ND|constructor; [intros []|constructor]|]. intros z Z [<-|[]]. now apply (FI x J).
    + destruct (s_chain x) as [c|]; [|rewrite Q, M; reflexivity]. destruct Q as (Q1 & Q2 & Q3). destruct (s_el x) as [e|]; [|contradiction]. split; [discriminate|]. split; [exact Q2|].
      intros m. rewrite in_app_iff, Q3. split.
      * intros [(q & K & T)|K]; [exists q; split; [apply in_or_app; now left|exact T]|]. destruct b0; [|destruct K]. destruct K as [<-|[]]. exists p. split; [apply in_or_app; right; now left|exact M].
      * intros (q & K & T). apply in_app_or in K as [K|[K|[]]]; [left; eauto|]. injection K as <- <-. right. rewrite T in M. injection M as <-. now left.
Qed.
Lemma link_all_ok : forall new N s s', InvL N (subs s) (links s) (next_sub s) -> InvK (subs s) -> NoDup (map fst (N ++ new)) -> link_all new s = Ok s' ->
  InvL (N ++ new) (subs s') (links s') (next_sub s') /\ InvK (subs s') /\ tops s' = tops s /\ next_el s' = next_el s /\ next_sub s' = next_sub s /\
  map s_key (subs s') = map s_key (subs s) /\ log s' = log s /\ map s_no (subs s') = map s_no (subs s) /\ map s_id (subs s') = map s_id (subs s).
Proof.
  induction new as [|[n p] new IH]; cbn; intros N s s' H K ND R.
  - injection R as <-. rewrite app_nil_r. split; [exact H|]. split; [exact K|]. auto 9.
  - destruct (link_new s n p (subs s)) as [[l k]|[]|] eqn:LN; cbn in R; try discriminate R.
    assert (forall q, ~ In (n, q) N) as FR.
    { intros q Q. rewrite map_app in ND. apply (nodup_app_disj _ _ n ND); [|now left]. apply in_map_iff. exists (n, q). auto. }
    pose proof (link_step _ _ _ _ _ _ _ _ _ H FR LN) as H1. pose proof (link_new_ok _ _ _ _ _ _ LN) as [F _].
    assert (map s_key l = map s_key (subs s)) as EK. { symmetry. eapply forall2_map; [exact F|]. intros x y [(_ & E & _) _]. auto. }
    assert (map s_no l = map s_no (subs s)) as EN. { symmetry. eapply forall2_map; [exact F|]. intros x y [(E & _) _]. auto. }
    assert (map s_id l = map s_id (subs s)) as EI. { symmetry. eapply forall2_map; [exact F|]. intros x y [(_ & _ & _ & _ & _ & E) _]. auto. }
    assert (InvK l) as K1.
    { destruct K as [K1 K2]. split; [now rewrite EK|]. intros y I. apply (forall2_in _ _ _ _ F) in I as (x & I & (_ & E & _) & _). rewrite E. auto. }
    apply (IH (N ++ [(n, p)])) in R; [|exact H1|exact K1|now rewrite <- app_assoc]. rewrite <- app_assoc in R. cbn in R.
    destruct R as (R1 & R2 & R3 & R4 & R5 & R6 & R7 & R8 & R9). split; [exact R1|]. split; [exact R2|]. repeat split; congruence.
Qed.
Lemma InvL_perm N N' L lk b : Permutation N N' -> InvL N L lk b -> InvL N' L lk b.
Proof.
  intros P [A B C D]. split; try assumption. intros x I. destruct (D x I) as [D1 D2]. split; [exact D1|]. destruct (s_chain x) as [c|]; [|exact D2]. destruct D2 as (D2 & D3 & D4).
  split; [exact D2|]. split; [exact D3|]. intros n. rewrite D4. split; intros (p & J & M); exists p; (split; [|exact M]); eapply Permutation_in; try eassumption. now apply Permutation_sym.
Qed.
Lemma add_row_W ans look s t r s' : W s -> fair s (AddRow look t r) -> add_row ans look s t r = Ok s' -> W s'.
Proof.
  intros H [SR (p & IP & TP)] A. unfold add_row in A. pose proof (w_nos s H) as N1. pose proof (w_lt s H) as N2.
  destruct (found_path_top _ _ _ IP N1) as (up & e & FT & EP). rewrite FT in A.
  destruct (number (next_el s) r) as [re m] eqn:NU. destruct (number_ok _ _ _ _ NU) as (R1 & R2 & R3).
  destruct (row_walks_agree _ _ _ _ (el_node e :: up) NU SR) as [WA1 WA2]. rewrite WA1, WA2 in A. rewrite <- EP in A.
  match type of A with obind (link_all _ ?st) _ = _ => set (s1 := st) in * end.
  assert (In t (flat_map nos (tops s))) as IT by (apply visited_all_nos in IP; exact IP).
  pose proof (add_row_nos t re (tops s) IT N1) as PN.
  assert (Permutation (all_nodes s1) (all_nodes s ++ visited p re)) as PV by (apply add_row_visited; assumption).
  assert (NoDup (flat_map nos (tops s1))) as N1'.
  { eapply Permutation_NoDup; [apply Permutation_sym, PN|]. apply nodup_app_intro; [exact N1|exact R2|]. intros x I J. apply N2 in I. apply R3 in J. lia. }
  destruct (link_all (visited p re) s1) as [s2|[]|] eqn:LA; cbn in A; try discriminate A.
  apply (link_all_ok _ (all_nodes s)) in LA; [|exact (w_l s H)|exact (w_k s H)|].
  2:{ eapply Permutation_NoDup; [apply Permutation_map, PV|]. now apply nodup_visited_all. }
  destruct LA as (L1 & L2 & L3 & L4 & L5 & _).
  assert (W s2) as W2.
  { split.
    - now rewrite L3.
    - rewrite L3, L4. intros x I. apply (Permutation_in _ PN) in I. cbn. apply in_app_or in I as [I|I]; [apply N2 in I|apply R3 in I]; lia.
    - unfold all_nodes. rewrite L3. eapply InvL_perm; [|exact L1]. apply Permutation_sym, PV.
    - exact L2. }
  destruct (row_watch (visited p re) true s2) as [s3|[]|] eqn:RW; cbn in A; try discriminate A. apply row_watch_core in RW as [RW _].
  apply row_again_W in A; [exact A|]. now apply (core_W s2).
Qed.

(** ** a deleted row *)
Lemma drop_one_in n m l : In m l -> m = n \/ In m (drop_one n l).
Proof.
  induction l as [|k l IH]; cbn; [intros []|]. intros [E|I]; destruct (Nat.eqb_spec k n) as [Q|Q]; cbn; subst; auto.
  destruct (IH I); auto.
Qed.
Definition ended (s s' : state) (l : list sub) : Prop :=
  InvL (all_nodes s) l (links s') (next_sub s) /\ InvK l /\ subs s' = l /\ tops s' = tops s /\ next_el s' = next_el s /\ next_sub s' = next_sub s /\ next_id s' = next_id s /\ log s' = log s.
Lemma find_key pre x y suf : InvK (pre ++ x :: suf) -> s_key y = s_key x -> find (fun z => same_key (s_key z) (s_key x)) (pre ++ y :: suf) = Some y.
Proof.
  intros [D P] E. induction pre as [|z pre IH]; cbn in *.
  - rewrite E, same_key_refl; [reflexivity|]. apply P. now left.
  - destruct D as [D1 D2]. rewrite D1; [|rewrite map_app; apply in_or_app; right; now left]. apply IH; [exact D2|]. intros q I. apply P. now right.
Qed.
Lemma end_one n pre x suf s s' : InvL (all_nodes s) (subs s) (links s) (next_sub s) -> InvK (subs s) -> subs s = pre ++ x :: suf ->
  (let s1 := if targets x n then drop_inst s n x else s in
   do f <- get_sub (subs s1) (s_key x) ; match f with Some y => remove_sub s1 y | None => Ok s1 end) = Ok s' ->
  ended s s' (pre ++ suf) /\ file s' = pre ++ suf.
Proof.
  intros HL HK ES R. cbv zeta in R. set (s1 := if targets x n then drop_inst s n x else s) in *.
  pose proof (i_no _ _ _ _ HL) as ND.
  assert (In x (subs s)) as IX by (rewrite ES; apply in_elt).
  assert (exists y, subs s1 = pre ++ y :: suf /\ s_no y = s_no x /\ s_key y = s_key x /\
            (forall lk', unlink_all s1 (s_insts y) (s_no y) (links s1) = Ok lk' -> lk' = List.filter (not_sub (s_no x)) (links s))) as (y & Y1 & Y2 & Y3 & Y4).
  { unfold s1. destruct (targets x n) eqn:T.
    - exists (mkSub (s_no x) (s_key x) (s_auto x) (s_el x) (s_chain x) (drop_one n (s_insts x)) (s_id x)). split; [|split; [reflexivity|split; [reflexivity|]]].
      + cbn. rewrite ES. rewrite map_app. cbn [map]. rewrite Nat.eqb_refl. rewrite ES, map_app in ND. cbn in ND.
        assert (forall l, (forall z, In z l -> s_no z <> s_no x) -> map (fun y => if Nat.eqb (s_no y) (s_no x) then mkSub (s_no y) (s_key y) (s_auto y) (s_el y) (s_chain y) (drop_one n (s_insts y)) (s_id y) else y) l = l) as G.
        { intros l G. rewrite <- (map_id l) at 2. apply map_ext_in. intros z Z. apply G in Z. destruct (Nat.eqb_spec (s_no z) (s_no x)); [contradiction|reflexivity]. }
        rewrite !G; [reflexivity| |].
        * intros z Z E. apply nodup_app_r in ND. apply NoDup_cons_iff in ND as [ND _]. apply ND. rewrite <- E. now apply in_map.
        * intros z Z E. apply (nodup_app_disj _ _ (s_no x) ND); [rewrite <- E; now apply in_map|now left].
      + cbn. intros lk' U. assert (forall m, (length (List.filter (is_link m (s_no x)) (links s)) <= 1)%nat) as O.
        { intros m. apply (link_once _ (subs s)); [apply HL|exact ND]. }
        rewrite unlink_filter in U by apply O. apply unlink_many in U.
        2:{ intros m. etransitivity; [apply filter_length_le|apply O]. }
        rewrite U, filter_filter. apply filter_ext_in. intros l I. unfold not_sub, is_link.
        destruct (Nat.eqb_spec (l_sub l) (s_no x)) as [E|E]; [|now rewrite andb_false_r].
        destruct (in_links _ _ _ (i_links _ _ _ _ HL) I) as (z & Z1 & Z2 & Z3). rewrite Z3 in E. cbn in E. assert (z = x) as -> by now apply (nodup_no (subs s)).
        apply targets_in in Z2. apply (drop_one_in n) in Z2 as [Z2|Z2].
        * rewrite Z2, Nat.eqb_refl. reflexivity.
        * apply mem_in in Z2. rewrite Z2. apply andb_false_r.
    - exists x. split; [exact ES|]. split; [reflexivity|]. split; [reflexivity|]. intros lk' U. eapply unlink_sub; [apply HL|exact ND|exact IX| |exact U]. auto. }
  assert (tops s1 = tops s /\ next_el s1 = next_el s /\ next_sub s1 = next_sub s /\ next_id s1 = next_id s /\ log s1 = log s) as (T1 & T2 & T3 & T4 & T5) by (unfold s1; destruct (targets x n); auto).
  assert (plain_subs (subs s1)) as PL.
  { rewrite Y1. intros z I. rewrite ES in HK. destruct HK as [_ P]. apply in_app_or in I as [I|[<-|I]].
    - apply P, in_or_app. now left.
    - rewrite Y3. apply P, in_elt.
    - apply P, in_or_app. right. now right. }
  rewrite get_sub_ok in R; [|exact PL|apply HK, IX]. rewrite ES in HK. rewrite Y1, (find_key pre x y suf HK Y3) in R. cbn in R. unfold remove_sub in R.
  destruct (unlink_all s1 (s_insts y) (s_no y) (links s1)) as [lk|[]|] eqn:U; cbn in R; try discriminate R. injection R as <-. specialize (Y4 lk eq_refl). subst lk.
  assert (List.filter (fun y0 => negb (Nat.eqb (s_no y0) (s_no y))) (subs s1) = pre ++ suf) as EF.
  { rewrite Y1. fold (other (s_no y)). apply (other_split (pre ++ y :: suf)); [|reflexivity]. rewrite ES in ND. rewrite map_app in *. cbn in *. now rewrite Y2. }
  split; [|exact EF]. unfold ended. cbn. rewrite EF. split; [|split].
  - assert (pre ++ suf = List.filter (other (s_no x)) (subs s)) as -> by (symmetry; now apply other_split). now apply InvL_del.
  - assert (pre ++ suf = List.filter (other (s_no x)) (pre ++ x :: suf)) as -> by (symmetry; apply other_split; [now rewrite <- ES|reflexivity]). now apply InvK_filter.
  - auto 9.
Qed.
Lemma deleted_loop_eq fuel n c val s : deleted_loop (S fuel) n (Some c) val s =
    match item c (subs s) with
    | None => UB
    | Some (x, next) =>
      do s' <- (if targets x n || val then
                 let s1 := if targets x n then drop_inst s n x else s in
                 do f <- get_sub (subs s1) (s_key x) ;
                 match f with Some y => remove_sub s1 y | None => Ok s1 end
               else Ok s) ;
      deleted_loop fuel n next (targets x n || val) s'
    end.
Proof.
  cbn [deleted_loop]. destruct (item c (subs s)) as [[x next]|]; [|reflexivity]. fold (targets x n). cbv zeta. destruct (targets x n); cbn [orb]; [reflexivity|].
  destruct val; reflexivity.
Qed.
Lemma deleted_true n : forall suf fuel pre s s', InvL (all_nodes s) (subs s) (links s) (next_sub s) -> InvK (subs s) -> subs s = pre ++ suf ->
  deleted_loop fuel n (front suf) true s = Ok s' -> ended s s' pre.
Proof.
  induction suf as [|x suf IH]; intros fuel pre s s' HL HK ES R; cbn [front] in R.
  - destruct fuel; cbn in R; injection R as <-; rewrite app_nil_r in ES; rewrite ES in *; (split; [exact HL|]; split; [exact HK|]; auto 9).
  - destruct fuel as [|fuel]; [discriminate R|]. rewrite deleted_loop_eq in R. rewrite ES in R at 1. rewrite item_at in R; [|rewrite <- ES; apply HL].
    rewrite orb_true_r in R. match type of R with obind ?X _ = _ => destruct X as [s1|[]|] eqn:E1; cbn in R; try discriminate R end.
    apply (end_one n pre x suf) in E1; try assumption. destruct E1 as [(A1 & A2 & A3 & A4 & A5 & A6 & A7 & A8) _].
    apply (IH fuel pre) in R; try assumption.
    + destruct R as (B1 & B2 & B3 & B4 & B5 & B6 & B7 & B8). unfold all_nodes in *. rewrite A4, A6 in B1. split; [exact B1|]. split; [exact B2|]. repeat split; congruence.
    + unfold all_nodes in *. now rewrite A3, A4, A6.
    + now rewrite A3.
Qed.
Lemma deleted_false n : forall suf fuel pre s s', InvL (all_nodes s) (subs s) (links s) (next_sub s) -> InvK (subs s) -> subs s = pre ++ suf ->
  deleted_loop fuel n (front suf) false s = Ok s' -> ended s s' (pre ++ take_while (fun x => negb (targets x n)) suf).
Proof.
  induction suf as [|x suf IH]; intros fuel pre s s' HL HK ES R; cbn [front] in R.
  - destruct fuel; cbn in R; injection R as <-; cbn; rewrite <- ES; (split; [exact HL|]; split; [exact HK|]; auto 9).
  - destruct fuel as [|fuel]; [discriminate R|]. rewrite deleted_loop_eq in R. rewrite ES in R at 1. rewrite item_at in R; [|rewrite <- ES; apply HL].
    rewrite orb_false_r in R. cbn [take_while]. destruct (targets x n) eqn:T; cbn [negb].
    + match type of R with obind ?X _ = _ => destruct X as [s1|[]|] eqn:E1; cbn in R; try discriminate R end.
      assert (ended s s1 (pre ++ suf) /\ file s1 = pre ++ suf) as [(A1 & A2 & A3 & A4 & A5 & A6 & A7 & A8) _].
      { apply (end_one n pre x suf); try assumption. now rewrite T. }
      rewrite app_nil_r. apply (deleted_true n suf fuel pre) in R; try assumption.
      * destruct R as (B1 & B2 & B3 & B4 & B5 & B6 & B7 & B8). unfold all_nodes in *. rewrite A4, A6 in B1. split; [exact B1|]. split; [exact B2|]. repeat split; congruence.
      * unfold all_nodes in *. now rewrite A3, A4, A6.
      * now rewrite A3.
    + cbn in R. apply (IH fuel (pre ++ [x])) in R; try assumption; [|rewrite <- app_assoc; exact ES]. now rewrite <- app_assoc in R.
Qed.
Lemma take_while_filter_all {A} (f g : A -> bool) l : take_while f (take_while g l) = take_while (fun x => g x && f x) l.
Proof. induction l as [|x l IH]; cbn; [reflexivity|]. destruct (g x); cbn; [|reflexivity]. destruct (f x); cbn; now rewrite ?IH. Qed.
Lemma take_while_ext {A} (f g : A -> bool) l : (forall x, f x = g x) -> take_while f l = take_while g l.
Proof. intros H. induction l as [|x l IH]; cbn; [reflexivity|]. rewrite H. now rewrite IH. Qed.
Lemma take_while_all {A} (f : A -> bool) l x : In x (take_while f l) -> In x l /\ f x = true.
Proof. induction l as [|y l IH]; cbn; [intros []|]. destruct (f y) eqn:E; [|intros []]. intros [<-|I]; [auto|]. destruct (IH I). auto. Qed.
Definition avoids (l : list nat) (x : sub) : bool := forallb (fun n => negb (targets x n)) l.
Lemma deleted_all_ok : forall l s s', InvL (all_nodes s) (subs s) (links s) (next_sub s) -> InvK (subs s) -> deleted_all l s = Ok s' ->
  ended s s' (take_while (avoids (map fst l)) (subs s)).
Proof.
  induction l as [|[n p] l IH]; cbn [deleted_all]; intros s s' HL HK R.
  - injection R as <-. rewrite (take_while_ext _ (fun _ => true)) by reflexivity.
    assert (take_while (fun _ => true) (subs s) = subs s) as -> by (clear; induction (subs s) as [|y l IH]; cbn; [reflexivity|now rewrite IH]). split; [exact HL|]. split; [exact HK|]. auto 9.
  - destruct (deleted_loop (length (subs s)) n (front (subs s)) false s) as [s1|[]|] eqn:E; cbn in R; try discriminate R.
    apply (deleted_false n (subs s) _ []) in E; try assumption; [|reflexivity]. cbn [app] in E. destruct E as (A1 & A2 & A3 & A4 & A5 & A6 & A7 & A8).
    apply IH in R.
    + rewrite A3, take_while_filter_all in R. destruct R as (B1 & B2 & B3 & B4 & B5 & B6 & B7 & B8). unfold all_nodes in *. rewrite A4, A6 in B1.
      split; [exact B1|]. split; [exact B2|]. split; [exact B3|]. repeat split; congruence.
    + unfold all_nodes in *. now rewrite A3, A4, A6.
    + now rewrite A3.
Qed.
Lemma row_visited u rt : untyped (el_info rt) = true -> forall x, In x (visited u rt) -> In x (flat_map (visited (el_node rt :: u)) (el_kids rt)).
Proof. destruct rt as [no i ks]. cbn [el_info el_kids]. unfold untyped. intros U x. rewrite visited_eq, U. cbn [app]. destruct (in_table u && is_template i); [intros []|auto]. Qed.
Lemma remove_row_ok s r s' up t : W s -> fair s (RemoveRow r) -> find_top r (tops s) = Some (up, t) -> remove_row s r = Ok s' ->
  W s' /\ subs s' = take_while (avoids (map fst (flat_map (visited (el_node t :: up)) (el_kids t)))) (subs s) /\
  log s' = log s /\ next_id s' = next_id s.
Proof.
  intros H F FT R. unfold remove_row in R. rewrite FT in R. specialize (F up t FT). set (l := flat_map (visited (el_node t :: up)) (el_kids t)) in *.
  destruct (row_watch l false s) as [s1|[]|] eqn:RW; cbn in R; try discriminate R. apply row_watch_core in RW as [RW RL].
  pose proof RW as (C1 & C2 & C3 & C4 & C5 & C6 & C7). apply (core_W s) in RW; [|exact H].
  destruct (deleted_all l s1) as [s2|[]|] eqn:DA; cbn in R; try discriminate R. injection R as <-.
  apply deleted_all_ok in DA; [|apply RW|apply RW]. destruct DA as (A1 & A2 & A3 & A4 & A5 & A6 & A7 & A8).
  rewrite C3 in *. set (kept := take_while (avoids (map fst l)) (subs s)) in *.
  pose proof (drop_top_ok r (tops s) up t (w_nos s H) FT) as (D1 & D2 & D3).
  assert (forall x n, In x kept -> In n (s_insts x) -> ~ In n (nos t)) as AV.
  { intros x n I J K. pose proof I as I2. apply take_while_all in I as [_ AVX].
    destruct (i_nodes _ _ _ _ A1 x I2) as [_ NX]. destruct (s_chain x) as [c|]; [|rewrite NX in J; destruct J]. destruct NX as (_ & _ & NX). pose proof J as J2. apply NX in J as (p & IP & _).
    unfold all_nodes in IP. rewrite C1 in IP. apply (D3 _ IP) in K. apply (row_visited _ _ F) in K. unfold avoids in AVX. rewrite forallb_forall in AVX.
    specialize (AVX n). rewrite (proj2 (targets_in x n) J2) in AVX. cbn in AVX. assert (false = true); [|discriminate]. apply AVX. apply in_map_iff. exists (n, p). auto. }
  assert (List.filter (fun y => negb (existsb (Nat.eqb (l_el y)) (nos t))) (links s2) = links s2) as EL.
  { apply filter_all. intros y I. apply negb_true_iff. change (mem (l_el y) (nos t) = false). apply mem_nin. destruct (in_links _ _ _ (i_links _ _ _ _ A1) I) as (z & Z1 & Z2 & _).
    apply targets_in in Z2. now apply (AV z). }
  split; [|split; [exact A3|split; [cbn; congruence|cbn; congruence]]].
  - split; cbn [tops next_el subs links next_sub].
    + fold (drop_all r (tops s2)). rewrite A4, C1, D1. rewrite <- (map_id (List.filter _ _)). apply (nodup_filter (fun n => n)). rewrite map_id. apply H.
    + fold (drop_all r (tops s2)). rewrite A4, A5, C1, C2, D1. intros n I. apply filter_In in I as [I _]. now apply H.
    + rewrite A3, EL, A6. destruct A1 as [B1 B2 B3 B4]. split; try assumption. intros x I. destruct (B4 x I) as [NX1 NX2]. split; [exact NX1|].
      destruct (s_chain x) as [c|]; [|exact NX2]. destruct NX2 as (N1 & N2 & N3). split; [exact N1|]. split; [exact N2|]. intros n. rewrite N3. unfold all_nodes. cbn [tops].
      fold (drop_all r (tops s2)). rewrite A4, C1, D2. split; intros (p & IP & M); exists p; (split; [|exact M]).
      * apply filter_In. split; [exact IP|]. apply negb_true_iff, mem_nin. apply (AV x n I). apply N3. exists p. split; [|exact M]. unfold all_nodes. now rewrite C1.
      * apply filter_In in IP as [IP _]. exact IP.
    + now rewrite A3.
Qed.

(** ** every reachable state *)
Lemma request_cases ans s b e k s' r : request ans s b e k = Ok (s', r) ->
  (s' = s /\ r <> E_SUCCESS /\ (e = None \/ exists n up t, e = Some n /\ find_top n (tops s) = Some (up, t) /\ ntype (el_node t) = TABLE /\ ends_dot (k_event k) = false)) \/
  exists n, e = Some n /\ handle ans s b n k = Ok (s', r).
Proof.
  unfold request. destruct e as [n|]; [|intros H; injection H as <- <-; left; split; [reflexivity|split; [discriminate|now left]]].
  destruct (find_top n (tops s)) as [[u t]|] eqn:F; [|discriminate]. destruct (_ && _) eqn:E; [|eauto].
  intros H; injection H as <- <-; left; split; [reflexivity|split; [discriminate|right]]. apply andb_prop in E as [E1 E2]. apply Z.eqb_eq in E1. apply negb_true_iff in E2.
  exists n, u, t. auto.
Qed.
Lemma step_W ans s o s' r : W s -> fair s o -> step ans s o = Ok (s', r) -> W s'.
Proof.
  intros H F R. destruct o as [e k|e k|look t row|n|name e|found l]; cbn [step] in R.
  - apply request_cases in R as [(-> & _)|(n & _ & R)]; [exact H|]. eapply handle_add_W; eassumption.
  - apply request_cases in R as [(-> & _)|(n & _ & R)]; [exact H|]. eapply handle_del_W; eassumption.
  - destruct (add_row ans look s t row) as [s1|[]|] eqn:A; cbn in R; try discriminate R. injection R as <- <-. eapply add_row_W; eassumption.
  - destruct (remove_row s n) as [s1|[]|] eqn:A; cbn in R; try discriminate R. injection R as <- <-.
    destruct (find_top n (tops s)) as [[u t]|] eqn:FT; [|unfold remove_row in A; rewrite FT in A; discriminate A]. now apply (remove_row_ok s n s1 u t H F FT).
  - destruct (registered ans s name e) as [s1|[]|] eqn:A; cbn in R; try discriminate R. injection R as <- <-. unfold registered in A.
    destruct (find_top e (tops s)); [|discriminate A]. eapply cache_again_W; eassumption.
  - destruct (disconnect ans found s l) as [s1|[]|] eqn:A; cbn in R; try discriminate R. injection R as <- <-. eapply disconnect_W; eassumption.
Qed.
Lemma cached_ok : forall c n, map s_key (cached n c) = map (fun x => fst (fst x)) c /\ NoDup (map s_no (cached n c)) /\
  forall x, In x (cached n c) -> (n <= s_no x < n + length c)%nat /\ s_chain x = None /\ s_insts x = [] /\ In (s_key x, s_auto x, s_id x) c.
Proof.
  induction c as [|[[k a] i] c IH]; intros n; cbn; [split; [reflexivity|split; [constructor|intros x []]]|].
  destruct (IH (S n)) as (A & B & C). split; [now rewrite A|]. split.
  - constructor; [|exact B]. intros I. apply in_map_iff in I as (x & E & I). apply C in I as [I _]. lia.
  - intros x [<-|I]; cbn; [repeat split; auto; lia|]. apply C in I as (I1 & I2 & I3 & I4). repeat split; auto; lia.
Qed.
Lemma init_W l c : good_cache c -> W (init l c).
Proof.
  intros [G1 G2]. unfold init. destruct (number_all 0 l) as [es n] eqn:E. apply number_all_ok in E as (A & B & C).
  destruct (cached_ok c 0) as (K1 & K2 & K3). split; cbn.
  - exact B.
  - intros m I. apply C in I. lia.
  - split.
    + exact K2.
    + intros x I. apply K3 in I as [I _]. lia.
    + intros m. cbn. rewrite filter_nil; [reflexivity|]. intros x I. apply K3 in I as (_ & _ & I & _). unfold targets. now rewrite I.
    + intros x I. apply K3 in I as (_ & I1 & I2 & _). unfold nodes_ok. rewrite I1, I2. split; [constructor|reflexivity].
  - split; [rewrite K1; exact G1|]. intros x I. apply K3 in I as (_ & _ & _ & I). now apply G2 in I.
Qed.
Lemma reach_W ans l c s : good_cache c -> reach ans (init l c) s -> W s.
Proof. intros G H. induction H; [now apply init_W|]. eapply step_W; eassumption. Qed.

(** ** chains are those of the elements subscribed to *)
Lemma find_cons n up c l : find_in n up (c :: l) = match find_el n up c with Some x => Some x | None => find_in n up l end.
Proof. reflexivity. Qed.
Lemma add_find_all m c n l : Forall (fun t => forall up u t', find_el n up (add_kid m c t) = Some (u, t') -> exists t0, find_el n up t = Some (u, t0) /\ el_info t0 = el_info t') l ->
  Forall (fun t => ~ In n (nos c) -> In n (nos (add_kid m c t)) -> In n (nos t)) l -> ~ In n (nos c) ->
  forall up u t', find_in n up (map (add_kid m c) l) = Some (u, t') -> exists t0, find_in n up l = Some (u, t0) /\ el_info t0 = el_info t'.
Proof.
  induction l as [|k l IH]; intros F G N up u t' H; [discriminate H|]. inversion F as [|? ? F0 F1]; subst. inversion G as [|? ? G0 G1]; subst.
  cbn [map] in H. rewrite find_cons in H |- *. destruct (find_el n up (add_kid m c k)) as [[u1 e1]|] eqn:E.
  - injection H as -> ->. destruct (F0 _ _ _ E) as (t0 & -> & E0). eauto.
  - destruct (find_el n up k) as [[u1 e1]|] eqn:E1; [|now apply (IH F1 G1 N)]. exfalso.
    apply found_in_nos in E1 as [E1 _]. apply find_none in E. apply E. clear -E1. revert E1. revert n.
    induction k as [no i ks IH] using el_ind'. intros n I. rewrite add_kid_eq. cbn [nos] in *. destruct I as [I|I]; [now left|right].
    destruct (Nat.eqb no m); [rewrite flat_map_app; apply in_or_app; now left|]. apply in_flat_map in I as (k & I & J). apply in_flat_map. exists (add_kid m c k).
    split; [now apply in_map|]. rewrite Forall_forall in IH. now apply IH.
Qed.
Lemma add_kid_nos_in m c n : ~ In n (nos c) -> forall t, In n (nos (add_kid m c t)) -> In n (nos t).
Proof.
  intros N. induction t as [no i ks IH] using el_ind'. rewrite add_kid_eq. cbn [nos]. intros [I|I]; [now left|right]. destruct (Nat.eqb no m).
  - rewrite flat_map_app in I. apply in_app_or in I as [I|I]; [exact I|]. cbn in I. rewrite app_nil_r in I. contradiction.
  - apply in_flat_map in I as (k & I & J). apply in_map_iff in I as (k0 & <- & I). apply in_flat_map. exists k0. split; [exact I|]. rewrite Forall_forall in IH. now apply IH.
Qed.
Lemma add_find m c n : ~ In n (nos c) -> forall t up u t', find_el n up (add_kid m c t) = Some (u, t') -> exists t0, find_el n up t = Some (u, t0) /\ el_info t0 = el_info t'.
Proof.
  intros N. induction t as [no i ks IH] using el_ind'. intros up u t' H. rewrite add_kid_eq in H. rewrite find_el_eq in H |- *.
  destruct (Nat.eqb_spec no n) as [E|E]; [injection H as <- <-; eexists; split; [reflexivity|reflexivity]|].
  destruct (Nat.eqb no m).
  - assert (forall l, find_in n (i_node i :: up) (l ++ [c]) = find_in n (i_node i :: up) l) as Q.
    { induction l as [|k l IHl]; cbn; [|now rewrite IHl]. destruct (find_el n (i_node i :: up) c) as [[u1 e1]|] eqn:F; [|reflexivity]. apply found_in_nos in F. tauto. }
    rewrite Q in H. eauto.
  - apply (add_find_all m c n ks); auto. apply Forall_forall. intros t _ N0. now apply add_kid_nos_in.
Qed.
Lemma add_find_top m c n l u t' : ~ In n (nos c) -> find_top n (map (add_kid m c) l) = Some (u, t') -> exists t0, find_top n l = Some (u, t0) /\ el_info t0 = el_info t'.
Proof.
  intros N. rewrite !find_top_in. apply add_find_all; [|apply Forall_forall; intros t _ N0; now apply add_kid_nos_in|exact N].
  apply Forall_forall. intros t _. now apply add_find.
Qed.
Lemma drop_nos r n : forall t, In n (nos (drop_el r t)) -> In n (nos t).
Proof.
  induction t as [no i ks IH] using el_ind'. rewrite drop_el_eq. cbn [nos]. intros [I|I]; [now left|right].
  apply in_flat_map in I as (k & I & J). apply in_flat_map in I as (k0 & I & K). destruct (Nat.eqb (el_no k0) r); [destruct K|]. destruct K as [<-|[]].
  apply in_flat_map. exists k0. split; [exact I|]. rewrite Forall_forall in IH. now apply IH.
Qed.
Lemma drop_find_all r n l : Forall (fun t => forall up u t', NoDup (nos t) -> find_el n up (drop_el r t) = Some (u, t') -> exists t0, find_el n up t = Some (u, t0) /\ el_info t0 = el_info t') l ->
  forall up u t', NoDup (flat_map nos l) -> find_in n up (drop_all r l) = Some (u, t') -> exists t0, find_in n up l = Some (u, t0) /\ el_info t0 = el_info t'.
Proof.
  induction 1 as [|k l F _ IH]; intros up u t' N H; [discriminate H|]. cbn [flat_map] in N. rewrite find_cons.
  assert (find_in n up (drop_all r l) = Some (u, t') -> In n (flat_map nos l)) as IN.
  { intros K. clear -K. apply find_in_split in K as (a & t & b & E & K & _). apply found_in_nos in K as [K _]. assert (In t (drop_all r l)) as I by (rewrite E; apply in_elt).
    apply in_flat_map in I as (k0 & I & J). destruct (Nat.eqb (el_no k0) r); [destruct J|]. destruct J as [<-|[]]. apply drop_nos in K. apply in_flat_map. eauto. }
  unfold drop_all in *. cbn [flat_map] in H.
  assert (find_in n up (flat_map (fun c => if Nat.eqb (el_no c) r then [] else [drop_el r c]) l) = Some (u, t') -> exists t0, match find_el n up k with Some x => Some x | None => find_in n up l end = Some (u, t0) /\ el_info t0 = el_info t') as AF.
  { intros K. specialize (IN K). destruct (find_el n up k) as [[u1 e1]|] eqn:E1; [|apply IH; [now apply nodup_app_r in N|exact K]].
    exfalso. apply found_in_nos in E1 as [E1 _]. exact (nodup_app_disj _ _ n N E1 IN). }
  destruct (Nat.eqb (el_no k) r); [now apply AF|]. cbn [app] in H. rewrite find_cons in H. destruct (find_el n up (drop_el r k)) as [[u1 e1]|] eqn:E.
  - injection H as -> ->. destruct (F _ _ _ (nodup_app_l _ _ N) E) as (t0 & -> & E0). eauto.
  - now apply AF.
Qed.
Lemma drop_find r n : forall t up u t', NoDup (nos t) -> find_el n up (drop_el r t) = Some (u, t') -> exists t0, find_el n up t = Some (u, t0) /\ el_info t0 = el_info t'.
Proof.
  induction t as [no i ks IH] using el_ind'. intros up u t' N H. rewrite drop_el_eq in H. rewrite find_el_eq in H |- *. cbn [nos] in N. apply NoDup_cons_iff in N as [_ N].
  destruct (Nat.eqb_spec no n) as [E|E]; [injection H as <- <-; eexists; split; reflexivity|]. now apply (drop_find_all r n ks IH).
Qed.
Lemma drop_find_top r n l u t' : NoDup (flat_map nos l) -> find_top n (drop_all r l) = Some (u, t') -> exists t0, find_top n l = Some (u, t0) /\ el_info t0 = el_info t'.
Proof. rewrite !find_top_in. intros N. apply drop_find_all; [|exact N]. apply Forall_forall. intros t _. apply drop_find. Qed.

Definition aimed (T : list el) (b : nat) (x : sub) : Prop :=
  match s_el x with
  | None => s_chain x = None
  | Some e => (e < b)%nat /\ exists c reg, s_chain x = Some c /\ create (k_event (s_key x)) reg = Ok c /\ forall up t, find_top e T = Some (up, t) -> reg = el_node t :: up
  end.
Definition R (s : state) : Prop := forall x, In x (subs s) -> aimed (tops s) (next_el s) x.
Lemma R_incl s s' : tops s' = tops s -> next_el s' = next_el s -> incl (subs s') (subs s) -> R s -> R s'.
Proof. intros E1 E2 I H x X. rewrite E1, E2. apply H. now apply I. Qed.
Lemma found_lt s e u t : W s -> find_top e (tops s) = Some (u, t) -> (e < next_el s)%nat.
Proof. intros H F. apply (w_lt s H). apply alive_in. unfold alive. now rewrite F. Qed.
Lemma added_R s0 s e k t up x s' : W s -> tops s0 = tops s -> next_el s0 = next_el s -> find_top e (tops s) = Some (up, t) -> R s0 -> added_sub s0 e k t up x s' -> R s'.
Proof.
  intros H E1 E2 F HR (_ & (c & C1 & _ & C2) & _ & K & SE & _ & X1 & X2 & X3 & _) y I. rewrite X1, X2, E1, E2. rewrite X3 in I.
  apply in_app_or in I as [I|[<-|[]]]; [rewrite <- E1, <- E2; now apply HR|]. unfold aimed. rewrite SE. split; [eapply found_lt; eassumption|].
  exists c, (el_node t :: up). split; [exact C2|]. split; [now rewrite K|]. intros u1 t1 F1. rewrite F in F1. now injection F1 as <- <-.
Qed.
Lemma handle_add_R ans s e k s' r : W s -> R s -> handle ans s true e k = Ok (s', r) -> R s'.
Proof.
  intros H HR HA. apply handle_add in HA as (up & t & s1 & early & F & _ & _ & [(_ & (C1 & C2 & C3 & _) & _)|(_ & x & AD & _)]).
  - apply (R_incl s); auto. rewrite C3. apply incl_refl.
  - eapply (added_R s s); try eassumption; reflexivity.
Qed.
Lemma handle_del_R ans s e k s' r : R s -> handle ans s false e k = Ok (s', r) -> R s'.
Proof.
  intros HR HA. apply handle_del in HA as (up & t & s1 & early & F & _ & _ & [(_ & (C1 & C2 & C3 & _) & _)|(_ & _ & x & RM)]).
  - apply (R_incl s); auto. rewrite C3. apply incl_refl.
  - destruct RM as (_ & _ & X1 & X2 & X3 & _). apply (R_incl s); auto. rewrite X3. apply incl_filter.
Qed.
Lemma again_R ans s x e s' : W s -> R s -> again ans s x e = Ok s' -> R s'.
Proof.
  intros H HR A. unfold again in A. destruct (handle ans (take_out s (s_no x)) true e (s_key x)) as [[s2 r]|[]|] eqn:HA; cbn in A; try discriminate A.
  unfold free_sub in A. destruct (unlink_all s2 (s_insts x) (s_no x) (links s2)) as [lk|[]|] eqn:U; cbn in A; try discriminate A. injection A as <-.
  assert (R (take_out s (s_no x))) as R0 by (apply (R_incl s); auto; cbn; apply incl_filter).
  assert (R s2) as R2.
  { apply handle_add in HA as (up & t & s1 & early & F & _ & _ & [(_ & (C1 & C2 & C3 & _) & _)|(_ & y & AD & _)]).
    - apply (R_incl (take_out s (s_no x))); auto. rewrite C3. apply incl_refl.
    - eapply (added_R (take_out s (s_no x)) s); try eassumption; reflexivity. }
  exact R2.
Qed.
Lemma row_again_R ans look row : forall count cur s s', W s -> R s -> row_again count ans look row cur s = Ok s' -> R s'.
Proof.
  induction count as [|count IH]; intros [c|] s s' H HR Q; cbn in Q; try (injection Q as <-; exact HR).
  destruct (item c (subs s)) as [[x next]|] eqn:I; [|discriminate Q]. apply item_in in I.
  destruct (is_prefix row (k_event (s_key x))); cbn in Q; [|now apply IH in Q].
  destruct (look (k_event (s_key x))) as [e|]; cbn in Q; [|now apply IH in Q].
  destruct (alive e s); cbn in Q; [|discriminate Q]. destruct (again ans s x e) as [s1|[]|] eqn:A; cbn in Q; try discriminate Q.
  apply IH in Q; [exact Q|eapply again_W; eassumption|eapply again_R; eassumption].
Qed.
Lemma cache_again_R ans name e : forall fuel cur s s', W s -> R s -> cache_again fuel ans name e cur s = Ok s' -> R s'.
Proof.
  induction fuel as [|fuel IH]; intros [c|] s s' H HR Q; cbn in Q; try (injection Q as <-; exact HR); try discriminate Q.
  destruct (item c (subs s)) as [[x next]|] eqn:I; [|discriminate Q]. apply item_in in I.
  destruct (negb _ && _ && _); [|now apply IH in Q]. destruct (again ans s x e) as [s1|[]|] eqn:A; cbn in Q; try discriminate Q.
  apply IH in Q; [exact Q|eapply again_W; eassumption|eapply again_R; eassumption].
Qed.
Lemma disconnect_R ans found l : forall fuel cur s s', R s -> disconnect_loop fuel ans found l cur s = Ok s' -> R s'.
Proof.
  induction fuel as [|fuel IH]; intros [c|] s s' H Q; cbn in Q; try (injection Q as <-; exact H); try discriminate Q.
  destruct (item c (subs s)) as [[x next]|] eqn:I; [|discriminate Q].
  destruct (bytes_eqb (k_listener (s_key x)) l && found (k_event (s_key x))); cbn in Q; [|now apply IH in Q].
  destruct (s_el x) as [e|]; cbn in Q; [|now apply IH in Q].
  match type of Q with context [handle ?a ?b ?c ?d ?k] => destruct (handle a b c d k) as [[s1 r1]|[]|] eqn:A end; cbn in Q; try discriminate Q.
  apply IH in Q; [exact Q|]. eapply handle_del_R; [exact H|exact A].
Qed.
Lemma aimed_same T b x y : same_but x y -> aimed T b x -> aimed T b y.
Proof. intros (_ & E1 & _ & E2 & E3 & _). unfold aimed. now rewrite E1, E2, E3. Qed.
Lemma link_all_R : forall new s s', R s -> link_all new s = Ok s' -> R s'.
Proof.
  induction new as [|[n p] new IH]; cbn; intros s s' H Q; [now injection Q as <-|].
  destruct (link_new s n p (subs s)) as [[l k]|[]|] eqn:L; cbn in Q; try discriminate Q. apply link_new_ok in L as [L _].
  apply IH in Q; [exact Q|]. intros y I. cbn in *. destruct (forall2_in _ _ _ y L I) as (x & Ix & (S & _)). eapply aimed_same; [exact S|]. now apply H.
Qed.
Lemma add_row_R ans look s t r s' : W s -> R s -> fair s (AddRow look t r) -> add_row ans look s t r = Ok s' -> R s'.
Proof.
  intros H HR F A. pose proof F as [SR _]. pose proof A as A0. unfold add_row in A. destruct (find_top t (tops s)) as [[up e]|] eqn:FT; [|discriminate A].
  destruct (number (next_el s) r) as [re m] eqn:NU. destruct (number_ok _ _ _ _ NU) as (R1 & R2 & R3).
  match type of A with obind (link_all ?nw ?st) _ = _ => set (s1 := st) in *; destruct (link_all nw s1) as [s2|[]|] eqn:LA; cbn in A; try discriminate A end.
  assert (R s1) as Q1.
  { intros x I. cbn in *. specialize (HR x I). unfold aimed in *. destruct (s_el x) as [n|]; [|exact HR]. destruct HR as (B & c & reg & C1 & C2 & C3). split; [lia|].
    exists c, reg. split; [exact C1|]. split; [exact C2|]. intros u t' FF. destruct (add_find_top t re n (tops s) u t') as (t0 & F0 & E0); [intros I0; apply R3 in I0; lia|exact FF|].
    unfold el_node. rewrite <- E0. now apply C3 in F0. }
  pose proof (link_all_R _ _ _ Q1 LA) as Q2.
  match type of A with obind ?X _ = _ => destruct X as [s3|[]|] eqn:RW; cbn in A; try discriminate A end.
  (* the state before the last loop satisfies W, as in add_row_W *)
  pose proof FT as FT'. destruct F as (_ & p & IP & PT). destruct (found_path_top _ _ _ IP (w_nos s H)) as (u0 & e0 & FE & EP). rewrite FT in FE. injection FE as <- <-.
  destruct (row_walks_agree _ _ _ _ (el_node e :: up) NU SR) as [WA1 WA2]. rewrite WA1 in LA. rewrite <- EP in LA.
  assert (In t (flat_map nos (tops s))) as IT by (apply visited_all_nos in IP; exact IP).
  pose proof (w_nos s H) as N1. pose proof (w_lt s H) as N2.
  pose proof (add_row_nos t re (tops s) IT N1) as PN.
  assert (Permutation (all_nodes s1) (all_nodes s ++ visited p re)) as PV by (apply add_row_visited; assumption).
  assert (NoDup (flat_map nos (tops s1))) as N1'.
  { eapply Permutation_NoDup; [apply Permutation_sym, PN|]. apply nodup_app_intro; [exact N1|exact R2|]. intros x I J. apply N2 in I. apply R3 in J. lia. }
  apply (link_all_ok _ (all_nodes s)) in LA; [|exact (w_l s H)|exact (w_k s H)|].
  2:{ eapply Permutation_NoDup; [apply Permutation_map, PV|]. now apply nodup_visited_all. }
  destruct LA as (L1 & L2 & L3 & L4 & L5 & _).
  assert (W s2) as W2.
  { split.
    - now rewrite L3.
    - rewrite L3, L4. intros x I. apply (Permutation_in _ PN) in I. cbn. apply in_app_or in I as [I|I]; [apply N2 in I|apply R3 in I]; lia.
    - unfold all_nodes. rewrite L3. eapply InvL_perm; [|exact L1]. apply Permutation_sym, PV.
    - exact L2. }
  apply row_watch_core in RW as [RW _]. pose proof RW as (C1 & C2 & C3 & _). apply row_again_R in A; [exact A|now apply (core_W s2)|].
  apply (R_incl s2); auto. rewrite C3. apply incl_refl.
Qed.
Lemma step_R ans s o s' r : W s -> R s -> fair s o -> step ans s o = Ok (s', r) -> R s'.
Proof.
  intros H HR F Q. destruct o as [e k|e k|look t row|n|name e|found l]; cbn [step] in Q.
  - apply request_cases in Q as [(-> & _)|(n & _ & Q)]; [exact HR|]. eapply handle_add_R; eassumption.
  - apply request_cases in Q as [(-> & _)|(n & _ & Q)]; [exact HR|]. eapply handle_del_R; eassumption.
  - destruct (add_row ans look s t row) as [s1|[]|] eqn:A; cbn in Q; try discriminate Q. injection Q as <- <-. eapply add_row_R; eassumption.
  - destruct (remove_row s n) as [s1|[]|] eqn:A; cbn in Q; try discriminate Q. injection Q as <- <-.
    destruct (find_top n (tops s)) as [[u t]|] eqn:FT; [|unfold remove_row in A; rewrite FT in A; discriminate A].
    pose proof (remove_row_ok s n s1 u t H F FT A) as (_ & E & _). unfold remove_row in A. rewrite FT in A.
    match type of A with obind ?X _ = _ => destruct X as [s2|[]|] eqn:RW; cbn in A; try discriminate A end. apply row_watch_core in RW as [RW _].
    pose proof RW as (C1 & C2 & C3 & _). apply (core_W s) in RW; [|exact H].
    match type of A with obind ?X _ = _ => destruct X as [s3|[]|] eqn:DA; cbn in A; try discriminate A end. injection A as <-.
    apply deleted_all_ok in DA; [|apply RW|apply RW]. destruct DA as (A1 & A2 & A3 & A4 & A5 & _). rewrite C1 in A4. rewrite C2 in A5.
    intros x I. rewrite E in I. apply take_while_all in I as [I _]. specialize (HR x I). unfold aimed in *. cbn [tops next_el]. rewrite A4, A5.
    destruct (s_el x) as [m|]; [|exact HR]. destruct HR as (B & c & reg & D1 & D2 & D3). split; [exact B|]. exists c, reg. split; [exact D1|]. split; [exact D2|].
    intros u1 t1 F1. apply drop_find_top in F1 as (t0 & F1 & E0); [|apply (w_nos s H)]. unfold el_node. rewrite <- E0. now apply D3 in F1.
  - destruct (registered ans s name e) as [s1|[]|] eqn:A; cbn in Q; try discriminate Q. injection Q as <- <-. unfold registered in A.
    destruct (find_top e (tops s)); [|discriminate A]. eapply cache_again_R; eassumption.
  - destruct (disconnect ans found s l) as [s1|[]|] eqn:A; cbn in Q; try discriminate Q. injection Q as <- <-. eapply disconnect_R; eassumption.
Qed.
Lemma reach_R ans l c s : good_cache c -> reach ans (init l c) s -> R s.
Proof.
  intros G H. induction H; [|eapply step_R; [|eassumption..]; eapply reach_W; eassumption].
  unfold init. destruct (number_all 0 l) as [es n]. intros x I. cbn in *. destruct (cached_ok c 0) as (_ & _ & K). pose proof (K x I) as (_ & K1 & _).
  unfold aimed. assert (s_el x = None) as ->; [|exact K1]. clear -I. revert I. generalize 0%nat. induction c as [|[[k a] i] c IH]; cbn; intros m I; [destruct I|].
  destruct I as [<-|I]; [reflexivity|]. now apply IH in I.
Qed.
