(** Proofs about a consumer's subscriptions. *)
From Verif Require Import Common CommonFacts Value Errors.
From Verif Require SubsModel SubsSpec SubsProofs.
From Verif Require Import RetryModel ConsumeModel ConsumeSpec.
Local Open Scope list_scope.
Local Open Scope Z_scope.

(** ** requests *)
Lemma same_req_sym a b : same_req a b = same_req b a.
Proof. unfold same_req. now rewrite (bytes_eqb_sym (q_event a)), SubsProofs.same_filter_sym, (Z.eqb_sym (q_interval a)), (Z.eqb_sym (q_duration a)). Qed.
Lemma same_req_refl a : plain a = true -> same_req a a = true.
Proof. intros H. unfold same_req. now rewrite bytes_eqb_refl, !Z.eqb_refl, (SubsProofs.same_filter_refl _ H). Qed.
Lemma same_req_congr a b c : same_req a b = true -> same_req b c = same_req a c.
Proof.
  unfold same_req. intros H. repeat (apply andb_true_iff in H; destruct H as [H ?]). apply bytes_eqb_eq in H. rewrite H.
  repeat match goal with K : (_ =? _) = true |- _ => apply Z.eqb_eq in K; rewrite K end.
  match goal with K : SubsSpec.same_filter _ _ = true |- _ => now rewrite (SubsProofs.same_filter_congr _ _ _ K) end.
Qed.

(** ** entries *)
Definition known (x : entry) : Prop := plain (e_req x) = true /\ (exists r, e_raw x = Some r) /\ exists i, e_id x = Some i.
Definition raw_of (x : entry) : bool := match e_raw x with Some r => r | None => false end.
Definition eqe (x y : entry) : bool := same_entry (e_req y) (raw_of y) x.
Fixpoint dist (l : list entry) : Prop := match l with [] => True | x :: l => (forall y, In y l -> eqe x y = false) /\ dist l end.
Definition WE (l : list entry) : Prop := (forall x, In x l -> known x) /\ dist l.
Definition W (s : state) : Prop := WE (entries s) /\ forall k, In k (waiting s) -> plain k = true.

Lemma dist_app a b : dist (a ++ b) <-> dist a /\ dist b /\ forall x y, In x a -> In y b -> eqe x y = false.
Proof.
  induction a as [|x a IH]; cbn; [split; [now intros|tauto]|]. rewrite IH. split.
  - intros (H & D & E & F). split; [split; [intros y Y; apply H, in_app_iff; auto|exact D]|]. split; [exact E|]. intros z y [<-|Z] Y; [apply H, in_app_iff; auto|auto].
  - intros ((H & D) & E & F). split; [intros y Y; apply in_app_iff in Y as [Y|Y]; auto|]. auto.
Qed.
Lemma same_entry_congr k raw x y : known x -> known y -> same_entry k raw x = true -> same_entry k raw y = true -> eqe x y = true.
Proof.
  intros (_ & (r & X) & _) (_ & (r' & Y) & _). unfold eqe, same_entry, raw_of. rewrite X, Y. intros A B. apply andb_true_iff in A as [A1 A2], B as [B1 B2].
  apply eqb_prop in A2, B2. subst. rewrite eqb_reflx, andb_true_r. rewrite same_req_sym in B1. now rewrite (same_req_sym (e_req x)), <- (same_req_congr _ _ _ A1) in *; rewrite same_req_sym.
Qed.
Lemma eqe_sym x y : known x -> known y -> eqe x y = eqe y x.
Proof.
  intros (_ & (r & X) & _) (_ & (r' & Y) & _). unfold eqe, same_entry, raw_of. rewrite X, Y, same_req_sym. f_equal. now destruct r, r'.
Qed.
Lemma WE_cut a x b : WE (a ++ x :: b) -> WE (a ++ b) /\ known x.
Proof.
  intros (K & D). split; [|apply K, in_elt]. split; [intros y Y; apply K; rewrite in_app_iff in *; cbn; tauto|].
  apply dist_app in D as (D1 & (D2 & D3) & D4). apply dist_app. split; [exact D1|]. split; [exact D3|]. intros z y Z Y. apply D4; [exact Z|now right].
Qed.
Lemma WE_swap a x x' b : WE (a ++ x :: b) -> e_req x' = e_req x -> e_raw x' = e_raw x -> e_id x' = e_id x -> WE (a ++ x' :: b).
Proof.
  intros (K & D) E1 E2 E3. assert (KX : known x') by (unfold known; rewrite E1, E2, E3; apply K, in_elt).
  assert (EE : forall y, eqe y x' = eqe y x /\ eqe x' y = eqe x y) by (intros y; unfold eqe, raw_of, same_entry; now rewrite E1, E2).
  split; [intros y Y; apply in_app_iff in Y as [Y|[<-|Y]]; [apply K, in_app_iff; auto|exact KX|apply K; rewrite in_app_iff; cbn; auto]|].
  apply dist_app in D as (D1 & (D2 & D3) & D4). apply dist_app. split; [exact D1|]. split; [split; [intros y Y; destruct (EE y) as [_ ->]; auto|exact D3]|].
  intros z y Z [<-|Y]; [destruct (EE z) as [-> _]; apply D4; [exact Z|now left]|apply D4; [exact Z|now right]].
Qed.
Lemma WE_snoc l x : WE l -> known x -> (forall y, In y l -> same_entry (e_req x) (raw_of x) y = false) -> WE (l ++ [x]).
Proof.
  intros (K & D) KX N. split; [intros y Y; apply in_app_iff in Y as [Y|[<-|[]]]; auto|]. apply dist_app. split; [exact D|]. split; [cbn; easy|]. intros z y Z [<-|[]]. now apply N.
Qed.

Lemma same_sub_ok x k raw : known x -> plain k = true -> same_sub x k raw = Ok (same_entry k raw x).
Proof.
  intros (P & (r & R) & _) H. unfold same_sub, same_entry, same_req. rewrite R. destruct (bytes_eqb (q_event (e_req x)) (q_event k)); [|reflexivity]. cbn [negb andb].
  destruct (SubsProofs.filter_cmp _ _ P H) as (c & -> & C). cbn [obind]. rewrite <- C. destruct (c =? 0); [|reflexivity]. cbn [negb andb].
  now destruct (q_interval (e_req x) =? q_interval k), (q_duration (e_req x) =? q_duration k).
Qed.
(** where the entry for a request is *)
Lemma find_sub_ok l k raw : WE l -> plain k = true ->
  (find_sub l k raw = Ok None /\ forall y, In y l -> same_entry k raw y = false) \/
  (exists a x b, find_sub l k raw = Ok (Some (a, x, b)) /\ l = a ++ x :: b /\ same_entry k raw x = true /\ forall y, In y (a ++ b) -> same_entry k raw y = false).
Proof.
  intros (K & D) P. induction l as [|x l IH]; [left; now split|]. cbn [find_sub]. rewrite same_sub_ok; [|apply K; now left|exact P]. cbn [obind].
  destruct (same_entry k raw x) eqn:E.
  - right. exists [], x, l. repeat split; auto. intros y Y. cbn in Y. apply not_true_is_false. intros F. destruct D as [D _].
    assert (eqe x y = true) by (apply (same_entry_congr k raw); auto; apply K; [now left|now right]). rewrite D in H; [discriminate|exact Y].
  - destruct D as [_ D]. destruct IH as [(-> & N)|(a & z & b & -> & -> & Z & N)]; [intros y Y; apply K; now right|exact D|..]; cbn [obind].
    + left. split; [reflexivity|]. intros y [<-|Y]; auto.
    + right. exists (x :: a), z, b. repeat split; auto. intros y [<-|Y]; auto.
Qed.
Lemma find_waiting_ok l k : (forall j, In j l -> plain j = true) -> plain k = true -> exists r, find_waiting l k = Ok r /\
  match r with Some (a, b) => exists j, l = a ++ j :: b | None => True end.
Proof.
  intros PL P. induction l as [|x l IH]; cbn; [now exists None|]. destruct (bytes_eqb (q_event x) (q_event k)).
  - destruct (SubsProofs.filter_cmp (q_filter x) (q_filter k)) as (c & -> & _); [apply PL; now left|exact P|]. cbn. destruct (c =? 0); [exists (Some ([], l)); split; [reflexivity|now exists x]|].
    destruct IH as (r & -> & R); [intros; apply PL; now right|]. cbn. eexists. split; [reflexivity|]. destruct r as [[a b]|]; auto. destruct R as (j & ->). now exists j.
  - cbn. destruct IH as (r & -> & R); [intros; apply PL; now right|]. cbn. eexists. split; [reflexivity|]. destruct r as [[a b]|]; auto. destruct R as (j & ->). now exists j.
Qed.

(** ** the view *)
Lemma acts_app a b : flat_map act_of (a ++ b) = flat_map act_of a ++ flat_map act_of b. Proof. apply flat_map_app. Qed.
Lemma minus_app v w k raw : minus (v ++ w) k raw = minus v k raw ++ minus w k raw. Proof. apply filter_app. Qed.
Lemma minus_none l k raw : (forall y, In y l -> known y) -> (forall y, In y l -> same_entry k raw y = false) -> minus (flat_map act_of l) k raw = flat_map act_of l.
Proof.
  induction l as [|x l IH]; intros K N; [reflexivity|]. cbn [flat_map]. rewrite minus_app, IH; [|intros; apply K; now right|intros; apply N; now right]. f_equal.
  specialize (N x (or_introl eq_refl)). destruct (K x (or_introl eq_refl)) as (_ & (r & R) & _). unfold act_of, same_entry in *. rewrite R in *. destruct (e_dirty x); [reflexivity|].
  unfold minus, is_act. cbn. now rewrite N.
Qed.
Lemma minus_one x k raw : known x -> same_entry k raw x = true -> minus (act_of x) k raw = [].
Proof.
  intros (_ & (r & R) & _) E. unfold act_of, same_entry in *. rewrite R in *. destruct (e_dirty x); [reflexivity|]. unfold minus, is_act. cbn. now rewrite E.
Qed.
Lemma minus_cut a x b k raw : WE (a ++ x :: b) -> same_entry k raw x = true -> (forall y, In y (a ++ b) -> same_entry k raw y = false) ->
  minus (flat_map act_of (a ++ x :: b)) k raw = flat_map act_of (a ++ b).
Proof.
  intros (K & _) E N. rewrite !acts_app. cbn [flat_map]. rewrite !minus_app, (minus_one x k raw (K x (in_elt _ _ _)) E).
  assert (KA : forall y, In y (a ++ b) -> known y) by (intros y Y; apply K; rewrite in_app_iff in *; cbn; tauto).
  rewrite (minus_none a), (minus_none b); [reflexivity|..]; intros y Y; (apply KA || apply N); apply in_app_iff; auto.
Qed.
Lemma act_dirty x : act_of (set_dirty x true) = []. Proof. reflexivity. Qed.
Lemma set_dirty_id x : set_dirty (set_dirty x false) true = set_dirty x true. Proof. reflexivity. Qed.
Lemma set_dirty_same x : e_dirty x = true -> set_dirty x true = x. Proof. destruct x; cbn. now intros ->. Qed.
Lemma same_set_dirty k raw x d : same_entry k raw (set_dirty x d) = same_entry k raw x. Proof. reflexivity. Qed.

(** ** removing and marking *)
Definition drop_k (k : req) (raw : bool) (l : list entry) : list entry := List.filter (fun x => negb (same_entry k raw x)) l.
Definition mark (k : req) (raw : bool) (d : bool) (l : list entry) : list entry := map (fun x => if same_entry k raw x then set_dirty x d else x) l.
Lemma drop_none k raw l : (forall y, In y l -> same_entry k raw y = false) -> drop_k k raw l = l.
Proof. induction l as [|x l IH]; cbn; intros N; [reflexivity|]. rewrite (N x) by now left. cbn. f_equal. apply IH. intros; apply N; now right. Qed.
Lemma mark_none k raw d l : (forall y, In y l -> same_entry k raw y = false) -> mark k raw d l = l.
Proof. induction l as [|x l IH]; cbn; intros N; [reflexivity|]. rewrite (N x) by now left. f_equal. apply IH. intros; apply N; now right. Qed.
Lemma drop_cut k raw a x b : same_entry k raw x = true -> (forall y, In y (a ++ b) -> same_entry k raw y = false) -> drop_k k raw (a ++ x :: b) = a ++ b.
Proof.
  intros E N. unfold drop_k. rewrite filter_app. cbn. rewrite E. cbn. fold (drop_k k raw a) (drop_k k raw b). rewrite !drop_none; auto; intros y Y; apply N, in_app_iff; auto.
Qed.
Lemma mark_cut k raw d a x b : same_entry k raw x = true -> (forall y, In y (a ++ b) -> same_entry k raw y = false) -> mark k raw d (a ++ x :: b) = a ++ set_dirty x d :: b.
Proof.
  intros E N. unfold mark. rewrite map_app. cbn. rewrite E. fold (mark k raw d a) (mark k raw d b). rewrite !mark_none; auto; intros y Y; apply N, in_app_iff; auto.
Qed.
Lemma acts_drop l k raw : WE l -> flat_map act_of (drop_k k raw l) = minus (flat_map act_of l) k raw.
Proof.
  intros (K & _). induction l as [|x l IH]; [reflexivity|]. cbn [drop_k List.filter flat_map]. rewrite minus_app, <- IH by (intros; apply K; now right).
  destruct (same_entry k raw x) eqn:E; cbn [negb].
  - rewrite minus_one; auto. apply K. now left.
  - cbn [flat_map]. f_equal. rewrite <- (app_nil_r (act_of x)). change (act_of x ++ []) with (flat_map act_of [x]). symmetry. apply minus_none; intros y [<-|[]]; auto. apply K. now left.
Qed.
Lemma acts_mark l k raw : WE l -> flat_map act_of (mark k raw true l) = minus (flat_map act_of l) k raw.
Proof.
  intros (K & _). induction l as [|x l IH]; [reflexivity|]. cbn [mark map flat_map]. rewrite minus_app, <- IH by (intros; apply K; now right). f_equal.
  destruct (same_entry k raw x) eqn:E.
  - rewrite minus_one; auto. apply K. now left.
  - rewrite <- (app_nil_r (act_of x)). change (act_of x ++ []) with (flat_map act_of [x]). symmetry. apply minus_none; intros y [<-|[]]; auto. apply K. now left.
Qed.
(** marking an entry that is dirty already *)
Lemma mark_twice k raw l : (forall y, In y l -> same_entry k raw y = true -> e_dirty y = true) -> mark k raw true l = l.
Proof.
  induction l as [|x l IH]; intros H; [reflexivity|]. cbn [mark map]. fold (mark k raw true l). rewrite IH by (intros; apply H; [now right|assumption]). f_equal.
  destruct (same_entry k raw x) eqn:E; [|reflexivity]. apply set_dirty_same. apply H; auto. now left.
Qed.
Lemma minus_dirty l k raw : WE l -> (forall y, In y l -> same_entry k raw y = true -> e_dirty y = true) -> minus (flat_map act_of l) k raw = flat_map act_of l.
Proof. intros WL H. rewrite <- acts_mark by exact WL. now rewrite mark_twice. Qed.
Lemma WE_drop l k raw : WE l -> WE (drop_k k raw l).
Proof.
  intros WL. induction l as [|x l IH]; [exact WL|]. destruct WL as (K & D1 & D2). cbn. assert (IHl : WE (drop_k k raw l)) by (apply IH; split; [intros; apply K; now right|exact D2]).
  destruct (same_entry k raw x); [exact IHl|]. destruct IHl as (K' & D'). split.
  - intros y [<-|Y]; [apply K; now left|auto].
  - split; [|exact D']. intros y Y. apply filter_In in Y as [Y _]. auto.
Qed.
Lemma drop_no l k raw y : In y (drop_k k raw l) -> same_entry k raw y = false /\ In y l.
Proof. intros H. apply filter_In in H as [A B]. split; [now destruct (same_entry k raw y)|exact A]. Qed.

(** ** the calls *)
Definition fresh_entry (k : req) (raw : bool) (h id : Z) : entry := mkEntry k h (Some raw) false (Some id).
Lemma fresh_known k raw h id : plain k = true -> known (fresh_entry k raw h id).
Proof. intros P. split; [exact P|]. split; eexists; reflexivity. Qed.
Lemma fresh_same k raw h id : plain k = true -> same_entry k raw (fresh_entry k raw h id) = true.
Proof. intros P. unfold same_entry. cbn. now rewrite same_req_refl, eqb_reflx. Qed.

Lemma replace_ok s k raw h id : WE (entries s) -> plain k = true ->
  replace s k raw (fresh_entry k raw h id) = Ok (mkState (drop_k k raw (entries s) ++ [fresh_entry k raw h id]) (waiting s) (log s)) /\ WE (drop_k k raw (entries s) ++ [fresh_entry k raw h id]).
Proof.
  intros WL P. split.
  - unfold replace. destruct (find_sub_ok _ _ raw WL P) as [(-> & N)|(a & x & b & -> & E & X & N)]; cbn [obind].
    + now rewrite drop_none.
    + rewrite E, drop_cut by assumption. reflexivity.
  - apply WE_snoc; [now apply WE_drop|now apply fresh_known|]. intros y Y. apply drop_no in Y as [Y _]. exact Y.
Qed.
(** not there, or withdrawn *)
Definition idle (l : list entry) (k : req) (raw : bool) : Prop := forall y, In y l -> same_entry k raw y = true -> e_dirty y = true.
Lemma begin_ok s k raw : W s -> plain k = true ->
  (begin_sub s k raw = Ok None /\ (~ idle (entries s) k raw \/ exists r, find_waiting (waiting s) k = Ok (Some r))) \/
  (begin_sub s k raw = Ok (Some (mkState (mark k raw false (entries s)) (waiting s) (log s))) /\ idle (entries s) k raw).
Proof.
  intros (WL & WW) P. unfold begin_sub. destruct (find_sub_ok _ _ raw WL P) as [(-> & N)|(a & x & b & -> & E & X & N)]; cbn [obind].
  - assert (ID : idle (entries s) k raw) by (intros y Y; rewrite N by exact Y; discriminate).
    destruct (find_waiting_ok _ k WW P) as (r & R & _). rewrite R. cbn [obind]. destruct r as [p|]; [left; split; eauto|]. right. rewrite mark_none by exact N. destruct s; auto.
  - destruct (e_dirty x) eqn:D.
    + right. rewrite E, mark_cut by assumption. split; [reflexivity|]. intros y Y. rewrite in_app_iff in Y. cbn in Y. destruct Y as [Y|[<-|Y]]; [|auto|]; rewrite N by (apply in_app_iff; auto); discriminate.
    + left. split; [reflexivity|]. left. intros ID. rewrite (ID x) in D; [discriminate|rewrite E; apply in_elt|exact X].
Qed.
Lemma mark_mark k raw l : mark k raw true (mark k raw false l) = mark k raw true l.
Proof.
  unfold mark. rewrite map_map. apply map_ext. intros x. destruct (same_entry k raw x) eqn:E; [|now rewrite E]. rewrite same_set_dirty, E. reflexivity.
Qed.
Lemma drop_mark k raw d l : drop_k k raw (mark k raw d l) = drop_k k raw l.
Proof.
  induction l as [|x l IH]; [reflexivity|]. cbn. destruct (same_entry k raw x) eqn:E; cbn.
  - rewrite same_set_dirty, E. cbn. exact IH.
  - rewrite E. cbn. f_equal. exact IH.
Qed.
Lemma WE_mark k raw d l : WE l -> WE (mark k raw d l).
Proof.
  intros (K & D). induction l as [|x l IH]; [now split|]. destruct D as [D1 D2]. destruct IH as (K' & D'); [intros; apply K; now right|exact D2|].
  assert (KX : known (if same_entry k raw x then set_dirty x d else x)) by (destruct (same_entry k raw x); apply (K x); now left).
  split; [intros y [<-|Y]; auto|]. split; [|exact D']. intros y Y. apply in_map_iff in Y as (z & <- & Z).
  specialize (D1 z Z). destruct (same_entry k raw x), (same_entry k raw z); exact D1.
Qed.
(** a synchronous subscribe *)
Lemma subscribe_ok s k raw h a id : W s -> plain k = true -> clear_ans a = true -> fresh s k raw a = true ->
  exists s' c, subscribe s k raw h a id = Ok (s', c) /\ W s' /\ waiting s' = waiting s /\
    ((c = E_SUCCESS /\ a = Accepted /\ idle (entries s) k raw /\ entries s' = drop_k k raw (entries s) ++ [fresh_entry k raw h id] /\ log s' = WSub k raw a :: log s)
     \/ (c <> E_SUCCESS /\ a <> Accepted /\ idle (entries s) k raw /\ entries s' = entries s /\ log s' = WSub k raw a :: log s)
     \/ (c = E_SUBSCRIPTION_ALREADY_EXIST /\ s' = s /\ (~ idle (entries s) k raw \/ exists r, find_waiting (waiting s) k = Ok (Some r)))).
Proof.
  intros WS P C F. pose proof WS as (WL & WW). unfold subscribe. destruct (begin_ok s k raw WS P) as [(-> & B)|(-> & ID)]; cbn [obind].
  - exists s, E_SUBSCRIPTION_ALREADY_EXIST. split; [reflexivity|]. split; [exact WS|]. split; [reflexivity|]. right; right. auto.
  - pose proof (WE_mark k raw false _ WL) as WM. cbn [entries waiting log].
    set (s1 := mkState (mark k raw false (entries s)) (waiting s) (WSub k raw a :: log s)). change (WE (entries s1)) in WM.
    assert (NM : fresh s k raw a = true -> match a with Refused _ | Lost => True | _ => False end -> entries s1 = entries s).
    { intros _ Q. apply mark_none. intros y Y. apply not_true_is_false. intros E. pose proof (ID y Y E) as DY.
      assert (WD : withdrawn s k raw = true) by (apply existsb_exists; exists y; rewrite E, DY; auto). unfold fresh in F. destruct a; try easy; rewrite WD in F; discriminate. }
    destruct a as [| |c|].
    + change (entries s1) with (mark k raw false (entries s)). destruct (find_sub_ok _ _ raw WM P) as [(FN & N)|(l & x & r & FN & E & X & N)]; cbn [s1 entries] in FN; rewrite FN; cbn [obind].
      * eexists _, _. split; [reflexivity|]. assert (EE : mark k raw false (entries s) = entries s).
        { apply mark_none. intros y Y. apply not_true_is_false. intros E. specialize (N (set_dirty y false)). rewrite same_set_dirty, E in N. discriminate N. apply in_map_iff. exists y. now rewrite E. }
        split; [split; cbn; auto|]. split; [reflexivity|]. right; left. repeat split; auto; discriminate.
      * eexists _, _. split; [reflexivity|]. assert (EE : l ++ set_dirty x true :: r = entries s).
        { rewrite <- (mark_cut k raw true l x r X N), <- E. cbn [s1 entries]. rewrite mark_mark. now apply mark_twice. }
        split; [split; cbn; [rewrite EE|]; auto|]. split; [reflexivity|]. right; left. repeat split; auto; discriminate.
    + destruct (replace_ok s1 k raw h id WM P) as (R & WR). fold (fresh_entry k raw h id). rewrite R. cbn [obind]. eexists _, _. split; [reflexivity|].
      split; [split; cbn; auto|]. split; [reflexivity|]. left. cbn [s1 entries log]. rewrite drop_mark. auto.
    + cbn in C. apply negb_true_iff in C. rewrite C. eexists _, _. split; [reflexivity|]. rewrite <- (NM F Logic.I) in WL. split; [split; auto|]. split; [reflexivity|]. right; left.
      split; [|repeat split; auto; discriminate]. destruct (Z.eqb_spec c E_SUCCESS); [discriminate|assumption].
    + eexists _, _. split; [reflexivity|]. rewrite <- (NM F Logic.I) in WL. split; [split; auto|]. split; [reflexivity|]. right; left. repeat split; auto; discriminate.
Qed.

Definition gone (k : req) (raw : bool) (u : answer) (l : list entry) : list entry := match u with NotFound => mark k raw true l | _ => drop_k k raw l end.
Lemma WE_gone k raw u l : WE l -> WE (gone k raw u l). Proof. intros H. destruct u; [now apply WE_mark|now apply WE_drop..]. Qed.
Lemma acts_gone k raw u l : WE l -> flat_map act_of (gone k raw u l) = minus (flat_map act_of l) k raw.
Proof. intros H. destruct u; [now apply acts_mark|now apply acts_drop..]. Qed.
Lemma gone_none k raw u l : (forall y, In y l -> same_entry k raw y = false) -> gone k raw u l = l.
Proof. intros N. destruct u; [now apply mark_none|now apply drop_none..]. Qed.
Lemma gone_app k raw u a b : gone k raw u (a ++ b) = gone k raw u a ++ gone k raw u b.
Proof. destruct u; [apply map_app|apply filter_app..]. Qed.
Lemma found_ok s l x r u k raw : entries s = l ++ x :: r -> known x -> same_entry k raw x = true -> (forall y, In y (l ++ r) -> same_entry k raw y = false) ->
  unsubscribe_found s l x r u = Ok (mkState (gone k raw u (entries s)) (waiting s) (WUnsub (e_req x) raw u :: log s), match u with NotFound => true | _ => false end).
Proof.
  intros E (_ & (q & Q) & _) X N. unfold unsubscribe_found. rewrite Q. assert (q = raw) as ->. { unfold same_entry in X. rewrite Q in X. apply andb_true_iff in X as [_ X]. now apply eqb_prop. }
  rewrite E. destruct u; cbn [gone]; rewrite ?mark_cut, ?drop_cut by assumption; reflexivity.
Qed.
Lemma unsub1_ok s k u : W s -> plain k = true -> exists s' c, unsubscribe1 s k u = Ok (s', c) /\ W s' /\ entries s' = gone k false u (entries s) /\
  ((forall y, In y (entries s) -> same_entry k false y = false) /\ log s' = log s /\ incl (waiting s') (waiting s) /\
     match find_waiting (waiting s) k with Ok (Some (a, b)) => waiting s' = a ++ b /\ c = E_SUCCESS | Ok None => waiting s' = waiting s /\ c = E_INVALID_OPERATION | _ => False end
   \/ (exists k', In k' (map e_req (entries s)) /\ same_req k' k = true /\ log s' = WUnsub k' false u :: log s) /\ waiting s' = waiting s /\ c = E_SUCCESS).
Proof.
  intros (WL & WW) P. unfold unsubscribe1. destruct (find_sub_ok _ _ false WL P) as [(-> & N)|(a & x & b & -> & E & X & N)]; cbn [obind].
  - destruct (find_waiting_ok _ k WW P) as (r & -> & R). cbn [obind]. destruct r as [[a b]|].
    + destruct R as (j & R). eexists _, _. split; [reflexivity|]. assert (IN : incl (a ++ b) (waiting s)) by (intros z Z; rewrite R; rewrite in_app_iff in *; cbn; tauto).
      split; [split; cbn; auto|]. split; [now rewrite gone_none|]. left. auto.
    + eexists _, _. split; [reflexivity|]. split; [now split|]. split; [now rewrite gone_none|]. left. split; [auto|]. split; [auto|]. split; [apply incl_refl|]. auto.
  - assert (KX : known x) by (apply WL; rewrite E; apply in_elt). destruct KX as (A & B & (i & C)) eqn:KE. rewrite C. rewrite (found_ok s a x b u k false E KX X N). cbn [obind].
    eexists _, _. split; [reflexivity|]. split; [split; cbn; [now apply WE_gone|exact WW]|]. split; [reflexivity|]. right. split; [|auto]. exists (e_req x). split; [apply in_map; rewrite E; apply in_elt|]. split; [|reflexivity].
    unfold same_entry in X. now apply andb_true_iff in X as [X _].
Qed.
Lemma unsub1_acts s k u s' c : W s -> plain k = true -> unsubscribe1 s k u = Ok (s', c) -> W s' /\ actives s' = minus (actives s) k false.
Proof.
  intros WS P E. destruct (unsub1_ok s k u WS P) as (s2 & c2 & E2 & W2 & N & _). rewrite E in E2. injection E2 as <- <-. split; [exact W2|]. unfold actives. rewrite N. apply acts_gone, WS.
Qed.
Lemma unsub_ex_ok ks : forall s us rc, W s -> forallb plain ks = true -> (length ks <= length us)%nat -> exists s' c, unsubscribe_ex s ks us rc = Ok (s', c) /\ W s' /\ actives s' = minus_all (actives s) ks.
Proof.
  induction ks as [|k ks IH]; intros s us rc WS P L; [exists s, rc; cbn; auto|]. cbn [forallb] in P. apply andb_true_iff in P as [P1 P2]. destruct us as [|u us]; [cbn in L; lia|].
  cbn [unsubscribe_ex]. destruct (unsub1_ok s k u WS P1) as (s1 & c1 & E & W1 & _). rewrite E. cbn [obind]. destruct (unsub1_acts _ _ _ _ _ WS P1 E) as (_ & A).
  destruct (IH s1 us c1 W1 P2) as (s2 & c2 & E2 & W2 & A2); [cbn in L; lia|]. exists s2, c2. split; [exact E2|]. split; [exact W2|]. rewrite A2, A. reflexivity.
Qed.
(** undoing what was just done, in order *)
Definition dirtied (x : entry) (u : answer) : list entry := match u with NotFound => [set_dirty x true] | _ => [] end.
Lemma dist_other a x b k raw : WE (a ++ x :: b) -> same_entry k raw x = true -> forall y, In y (a ++ b) -> same_entry k raw y = false.
Proof.
  intros (K & D) X y Y. apply not_true_is_false. intros E. assert (KY : known y) by (apply K; rewrite in_app_iff in *; cbn; tauto). assert (KX : known x) by (apply K, in_elt).
  assert (T : eqe x y = true) by (apply (same_entry_congr k raw); auto). apply dist_app in D as (_ & (D2 & _) & D3). apply in_app_iff in Y as [Y|Y].
  - rewrite eqe_sym, D3 in T; auto; [discriminate|now left].
  - rewrite D2 in T; auto. discriminate.
Qed.
Lemma undo_ok : forall xs us s B rc, (length xs <= length us)%nat -> W s -> forallb (fun x => plain (x_req x)) xs = true ->
  entries s = B ++ map (fun x => fresh_entry (x_req x) false (x_handler x) (x_id x)) xs ->
  exists s' c, unsubscribe_ex s (map x_req xs) us rc = Ok (s', c) /\ W s' /\
    entries s' = B ++ flat_map (fun p => dirtied (fresh_entry (x_req (fst p)) false (x_handler (fst p)) (x_id (fst p))) (snd p)) (combine xs us) /\
    waiting s' = waiting s /\ log s' = rev (map (fun p => WUnsub (x_req (fst p)) false (snd p)) (combine xs us)) ++ log s.
Proof.
  induction xs as [|x xs IH]; intros us s B rc L WS P E; [exists s, rc; cbn in *; auto|]. destruct us as [|u us]; [cbn in L; lia|]. cbn [forallb] in P. apply andb_true_iff in P as [P1 P2].
  cbn [map unsubscribe_ex]. set (n := fresh_entry (x_req x) false (x_handler x) (x_id x)) in *. set (N := map (fun x => fresh_entry (x_req x) false (x_handler x) (x_id x)) xs) in *.
  cbn [map] in E. fold n N in E. pose proof WS as (WL & WW). rewrite E in WL.
  assert (SN : same_entry (x_req x) false n = true) by (now apply fresh_same).
  pose proof (dist_other _ _ _ _ _ WL SN) as OTH.
  unfold unsubscribe1. rewrite E. destruct (find_sub_ok (B ++ n :: N) (x_req x) false WL P1) as [(_ & F)|(a & y & b & F & EE & X & NN)].
  { rewrite (F n) in SN; [discriminate|apply in_elt]. }
  rewrite F. cbn [obind].
  assert (y = n) as ->. { assert (Y : In y (B ++ n :: N)) by (rewrite EE; apply in_elt). rewrite in_app_iff in Y. cbn in Y. destruct Y as [Y|[<-|Y]]; auto; rewrite OTH in X by (apply in_app_iff; auto); discriminate. }
  cbn [n fresh_entry e_id]. fold (fresh_entry (x_req x) false (x_handler x) (x_id x)). fold n.
  rewrite (found_ok s a n b u (x_req x) false) by (rewrite ?E; auto; now apply fresh_known). cbn [obind].
  assert (G : gone (x_req x) false u (entries s) = (B ++ dirtied n u) ++ N).
  { rewrite E. destruct u; cbn [gone dirtied]; rewrite ?mark_cut, ?drop_cut by auto; rewrite <- ?app_assoc; cbn [app]; rewrite ?app_nil_r; reflexivity. }
  rewrite G. change (e_req n) with (x_req x).
  edestruct (IH us (mkState ((B ++ dirtied n u) ++ N) (waiting s) (WUnsub (x_req x) false u :: log s)) (B ++ dirtied n u) E_SUCCESS) as (s' & c & R & W' & EN & WA & LO); [cbn in L; lia| |exact P2|reflexivity|].
  { split; [cbn; rewrite <- G; apply WE_gone; now rewrite E|exact WW]. }
  exists s', c. split; [exact R|]. split; [exact W'|]. split; [rewrite EN; cbn; now rewrite <- app_assoc|]. split; [exact WA|]. rewrite LO. cbn [combine map rev log fst snd]. now rewrite <- app_assoc.
Qed.

Definition news (xs : list elt) : list entry := map (fun x => fresh_entry (x_req x) false (x_handler x) (x_id x)) xs.
Definition left_over (xs : list elt) (us : list answer) : list entry := flat_map (fun p => dirtied (fresh_entry (x_req (fst p)) false (x_handler (fst p)) (x_id (fst p))) (snd p)) (combine xs us).
Definition sent (xs : list elt) : list wire := rev (map (fun x => WSub (x_req x) false (x_ans x)) xs).
Definition undone (xs : list elt) (us : list answer) : list wire := rev (map (fun p => WUnsub (x_req (fst p)) false (snd p)) (combine xs us)).
Definition good_elt (s : state) (x : elt) : bool := plain (x_req x) && clear_ans (x_ans x) && fresh s (x_req x) false (x_ans x).
Lemma withdrawn_mono s s' k raw : (forall y, In y (entries s') -> e_dirty y = true -> In y (entries s)) -> withdrawn s' k raw = true -> withdrawn s k raw = true.
Proof.
  intros H. unfold withdrawn. rewrite !existsb_exists. intros (y & Y & E). exists y. split; [|exact E]. apply H; [exact Y|]. now apply andb_true_iff in E as [_ E].
Qed.
Lemma sub_ex_ok us : forall xs s D B, W s -> entries s = B ++ news D -> forallb (fun x => plain (x_req x)) D = true -> forallb (good_elt s) xs = true -> (length (D ++ xs) <= length us)%nat ->
  exists s' c, subscribe_ex false s (map x_req D) xs us = Ok (s', c) /\ W s' /\ waiting s' = waiting s /\ exists B', flat_map act_of B' = flat_map act_of B /\ incl B' B /\
    ((c = E_SUCCESS /\ (forall x, In x xs -> x_ans x = Accepted) /\ entries s' = B' ++ news (D ++ xs) /\ log s' = sent xs ++ log s)
     \/ (c <> E_SUCCESS /\ exists pre x post f, xs = pre ++ x :: post /\ entries s' = B' ++ left_over (D ++ pre) us /\
           log s' = undone (D ++ pre) us ++ f ++ sent pre ++ log s /\ (forall y, In y pre -> x_ans y = Accepted) /\ (f = [] /\ c = E_SUBSCRIPTION_ALREADY_EXIST \/ f = [WSub (x_req x) false (x_ans x)] /\ x_ans x <> Accepted))).
Proof.
  induction xs as [|x xs IH]; intros s D B WS E PD G L.
  - exists s, E_SUCCESS. cbn. split; [reflexivity|]. split; [exact WS|]. split; [reflexivity|]. exists B. split; [reflexivity|]. split; [apply incl_refl|]. left. rewrite app_nil_r. repeat split; auto. easy.
  - cbn [forallb] in G. apply andb_true_iff in G as [G GX]. unfold good_elt in G. apply andb_true_iff in G as [G F]. apply andb_true_iff in G as [P C].
    cbn [subscribe_ex]. destruct (subscribe_ok s (x_req x) false (x_handler x) (x_ans x) (x_id x) WS P C F) as (s1 & c & R & W1 & WA & CASES). rewrite R. cbn [obind].
    pose proof WS as (WL & _).
    destruct CASES as [(-> & AC & ID & EN & LO)|CASES].
    + rewrite Z.eqb_refl. rewrite E in ID.
      assert (NN : drop_k (x_req x) false (news D) = news D).
      { apply drop_none. intros y Y. apply not_true_is_false. intros T. assert (DY : e_dirty y = true) by (apply ID; [apply in_app_iff; auto|exact T]). apply in_map_iff in Y as (z & <- & _). discriminate DY. }
      assert (E1 : entries s1 = drop_k (x_req x) false B ++ news (D ++ [x])).
      { rewrite EN, E. unfold drop_k. rewrite filter_app. fold (drop_k (x_req x) false B) (drop_k (x_req x) false (news D)). rewrite NN. unfold news. rewrite map_app. cbn. now rewrite app_assoc. }
      assert (DB : flat_map act_of (drop_k (x_req x) false B) = flat_map act_of B).
      { rewrite E in WL. assert (WB : WE B). { destruct WL as (K & DI). apply dist_app in DI as (DI & _). split; [intros; apply K; apply in_app_iff; auto|exact DI]. }
        rewrite acts_drop by exact WB. apply minus_dirty; [exact WB|]. intros y Y. apply ID. apply in_app_iff; auto. }
      assert (IB : incl (drop_k (x_req x) false B) B) by (intros y Y; now apply drop_no in Y).
      change (map x_req D ++ [x_req x]) with (map x_req D ++ map x_req [x]). rewrite <- map_app.
      edestruct (IH s1 (D ++ [x]) (drop_k (x_req x) false B) W1 E1) as (s' & c & R2 & W2 & WA2 & B' & AB & INB & H).
      * rewrite forallb_app, PD. cbn. now rewrite P.
      * rewrite forallb_forall in GX. apply forallb_forall. intros y Y. apply GX in Y. unfold good_elt in *. apply andb_true_iff in Y as [Y1 Y2]. rewrite Y1. cbn [andb].
        unfold fresh in *. destruct (x_ans y); auto; apply negb_true_iff; apply negb_true_iff in Y2; apply not_true_is_false; intros T; rewrite (withdrawn_mono s s1) in Y2; auto; try discriminate;
        rewrite EN; intros z Z DZ; apply in_app_iff in Z as [Z|[<-|[]]]; [now apply drop_no in Z|discriminate DZ|now apply drop_no in Z|discriminate DZ].
      * rewrite <- app_assoc. exact L.
      * exists s', c. split; [exact R2|]. split; [exact W2|]. split; [congruence|]. exists B'. split; [congruence|]. split; [eapply incl_tran; eauto|]. destruct H as [(-> & AA & EE & LL)|(NC & pre & y & post & f & -> & EE & LL & AA & FF)].
        -- left. split; [reflexivity|]. split; [intros y [<-|Y]; auto|]. split; [rewrite EE, <- app_assoc; reflexivity|]. rewrite LL, LO. unfold sent. cbn [map rev]. rewrite <- app_assoc. reflexivity.
        -- right. split; [exact NC|]. exists (x :: pre), y, post, f. split; [reflexivity|]. rewrite <- app_assoc in EE, LL. cbn [app] in EE, LL. split; [exact EE|]. split; [|split; [intros z [<-|Z]; auto|exact FF]].
           rewrite LL, LO. unfold sent. cbn [map rev]. rewrite <- !app_assoc. reflexivity.
    + assert (H : c <> E_SUCCESS /\ entries s1 = entries s /\ exists f, log s1 = f ++ log s /\ (f = [] /\ c = E_SUBSCRIPTION_ALREADY_EXIST \/ f = [WSub (x_req x) false (x_ans x)] /\ x_ans x <> Accepted)).
      { destruct CASES as [(NC & NA & _ & EN & LO)|(-> & -> & _)]; [split; [exact NC|split; [exact EN|]]; exists [WSub (x_req x) false (x_ans x)]; auto|]. split; [discriminate|]. split; [reflexivity|]. exists []. auto. }
      destruct H as (NC & EN & f & LO & FF). destruct (Z.eqb_spec c E_SUCCESS); [contradiction|]. rewrite <- EN in E.
      rewrite app_length in L. destruct (undo_ok D us s1 B E_SUCCESS ltac:(lia) W1 PD E) as (s2 & c2 & R2 & W2 & E2 & WA2 & L2). rewrite R2. cbn [obind].
      exists s2, c. split; [reflexivity|]. split; [exact W2|]. split; [congruence|]. exists B. split; [reflexivity|]. split; [apply incl_refl|]. right. split; [exact NC|]. exists [], x, xs, f. rewrite app_nil_r. split; [reflexivity|]. split; [exact E2|].
      split; [rewrite L2, LO; reflexivity|]. split; [easy|exact FF].
Qed.
Lemma left_over_dirty xs us y : In y (left_over xs us) -> e_dirty y = true /\ In NotFound us.
Proof.
  unfold left_over. rewrite in_flat_map. intros ((x & u) & H & Y). cbn in Y. apply in_combine_r in H. destruct u; cbn in Y; try easy. destruct Y as [<-|[]]. auto.
Qed.
Lemma left_over_acts xs us : flat_map act_of (left_over xs us) = [].
Proof.
  destruct (flat_map act_of (left_over xs us)) as [|p l] eqn:E; [reflexivity|]. assert (H : In p (flat_map act_of (left_over xs us))) by (rewrite E; now left). apply in_flat_map in H as (y & Y & H).
  apply left_over_dirty in Y as [Y _]. unfold act_of in H. rewrite Y in H. destruct H.
Qed.

(** ** pending requests *)
Definition same_wait (j k : req) : bool := bytes_eqb (q_event j) (q_event k) && SubsSpec.same_filter (q_filter j) (q_filter k).
Lemma find_waiting_spec l k : (forall j, In j l -> plain j = true) -> plain k = true ->
  (find_waiting l k = Ok None /\ forall j, In j l -> same_wait j k = false) \/
  (exists a j b, find_waiting l k = Ok (Some (a, b)) /\ l = a ++ j :: b /\ same_wait j k = true /\ forall i, In i a -> same_wait i k = false).
Proof.
  intros PL P. induction l as [|x l IH]; [left; now split|]. cbn [find_waiting].
  assert (M : (if bytes_eqb (q_event x) (q_event k) then do c <- SubsModel.filter_compare (q_filter x) (q_filter k) ; Ok (c =? 0) else Ok false) = Ok (E := unit) (same_wait x k)).
  { unfold same_wait. destruct (bytes_eqb (q_event x) (q_event k)); [|reflexivity]. destruct (SubsProofs.filter_cmp (q_filter x) (q_filter k)) as (c & -> & C); [apply PL; now left|exact P|]. cbn. now rewrite C. }
  rewrite M. cbn [obind]. destruct (same_wait x k) eqn:E.
  - right. exists [], x, l. repeat split; auto. easy.
  - destruct IH as [(-> & N)|(a & j & b & -> & -> & J & N)]; [intros; apply PL; now right|..]; cbn [obind].
    + left. split; [reflexivity|]. intros j [<-|J]; auto.
    + right. exists (x :: a), j, b. repeat split; auto. intros i [<-|I]; auto.
Qed.
Lemma async_ok s k : W s -> plain k = true -> withdrawn s k false = false ->
  exists s' c, subscribe_async s k = Ok (s', c) /\ W s' /\ entries s' = entries s /\ log s' = log s /\
   ((c = E_SUCCESS /\ waiting s' = waiting s ++ [k] /\ (forall j, In j (waiting s) -> same_wait j k = false) /\ (forall y, In y (entries s) -> same_entry k false y = false))
    \/ (c = E_SUBSCRIPTION_ALREADY_EXIST /\ s' = s)).
Proof.
  intros WS P WD. pose proof WS as (WL & WW). unfold subscribe_async. unfold begin_sub. destruct (find_sub_ok _ _ false WL P) as [(-> & N)|(a & x & b & -> & E & X & N)]; cbn [obind].
  - destruct (find_waiting_spec _ k WW P) as [(-> & NW)|(a & j & b & -> & _)]; cbn [obind].
    + eexists _, _. split; [reflexivity|]. split; [split; [exact WL|cbn; intros j J; apply in_app_iff in J as [J|[<-|[]]]; auto]|]. split; [reflexivity|]. split; [reflexivity|]. left. auto.
    + eexists _, _. split; [reflexivity|]. auto 6.
  - destruct (e_dirty x) eqn:D; [|eexists _, _; split; [reflexivity|]; auto 6]. exfalso. assert (withdrawn s k false = true); [|congruence]. apply existsb_exists. exists x. rewrite X, D. split; [rewrite E; apply in_elt|reflexivity].
Qed.
(** withdrawing pending requests in the order in which they were made *)
Lemma undo_waiting : forall ks us s A rc, (length ks <= length us)%nat -> W s -> forallb plain ks = true -> (forall k y, In k ks -> In y (entries s) -> same_entry k false y = false) ->
  waiting s = A ++ ks -> (forall k j, In k ks -> In j A -> same_wait j k = false) ->
  exists s' c, unsubscribe_ex s ks us rc = Ok (s', c) /\ W s' /\ entries s' = entries s /\ waiting s' = A /\ log s' = log s.
Proof.
  induction ks as [|k ks IH]; intros us s A rc L WS P NE E NA; [exists s, rc; cbn; rewrite app_nil_r in E; auto|]. destruct us as [|u us]; [cbn in L; lia|].
  cbn [forallb] in P. apply andb_true_iff in P as [P1 P2]. cbn [unsubscribe_ex]. pose proof WS as (WL & WW). unfold unsubscribe1.
  destruct (find_sub_ok _ _ false WL P1) as [(-> & N)|(a & x & b & _ & E1 & X & _)]; cbn [obind].
  2:{ rewrite (NE k x) in X; [discriminate|now left|rewrite E1; apply in_elt]. }
  assert (PE : plain k = true -> same_wait k k = true). { intros H. unfold same_wait. now rewrite bytes_eqb_refl, (SubsProofs.same_filter_refl _ H). }
  destruct (find_waiting_spec _ k WW P1) as [(_ & NW)|(a & j & b & -> & E1 & J & NW)]; cbn [obind].
  { rewrite NW in PE; [discriminate (PE P1)|rewrite E; apply in_elt]. }
  (* the first match is the one after A *)
  assert (AB : a ++ b = A ++ ks).
  { rewrite E in E1. clear -E1 J NW NA PE P1. revert a E1 NW NA. induction A as [|z A IHA]; intros a E1 NW NA.
    - destruct a as [|y a]; cbn in *; [now injection E1 as -> ->|]. injection E1 as -> E1. rewrite (NW y) in PE; [discriminate (PE P1)|now left].
    - destruct a as [|y a]; cbn in *.
      + injection E1 as -> E1. rewrite (NA k j) in J; [discriminate|now left|now left].
      + injection E1 as -> E1. f_equal. apply IHA; auto. }
  rewrite AB.
  destruct (IH us (mkState (entries s) (A ++ ks) (log s)) A E_SUCCESS) as (s' & c & R & W' & EN & WA & LO).
  - cbn in L. lia.
  - split; [exact WL|]. cbn. intros i I. apply WW. rewrite E. rewrite in_app_iff in *. cbn. tauto.
  - exact P2.
  - intros i y I Y. apply NE; [now right|exact Y].
  - reflexivity.
  - intros i j2 I J2. apply NA; [now right|exact J2].
  - exists s', c. auto.
Qed.
Lemma sub_ex_async_ok us : forall ks s D A, W s -> waiting s = A ++ D -> forallb plain D = true -> forallb (fun k => plain k && negb (withdrawn s k false)) ks = true -> (length (D ++ ks) <= length us)%nat ->
  (forall k y, In k D -> In y (entries s) -> same_entry k false y = false) -> (forall k j, In k D -> In j A -> same_wait j k = false) ->
  exists s' c, subscribe_ex_async s D ks us = Ok (s', c) /\ W s' /\ entries s' = entries s /\ log s' = log s /\
    ((c = E_SUCCESS /\ waiting s' = A ++ D ++ ks) \/ (c = E_SUBSCRIPTION_ALREADY_EXIST /\ waiting s' = A)).
Proof.
  induction ks as [|k ks IH]; intros s D A WS E PD G L NE NA.
  - exists s, E_SUCCESS. cbn. rewrite app_nil_r. auto 7.
  - cbn [forallb] in G. apply andb_true_iff in G as [G GX]. apply andb_true_iff in G as [P ND]. apply negb_true_iff in ND. cbn [subscribe_ex_async].
    destruct (async_ok s k WS P ND) as (s1 & c & R & W1 & EN & LO & [(-> & WA & NW & NK)|(-> & ->)]); rewrite R; cbn [obind].
    + rewrite Z.eqb_refl. edestruct (IH s1 (D ++ [k]) A W1) as (s' & c & R2 & W2 & E2 & L2 & H).
      * rewrite WA, E, <- app_assoc. reflexivity.
      * rewrite forallb_app, PD. cbn. now rewrite P.
      * rewrite forallb_forall in GX. apply forallb_forall. intros y Y. apply GX in Y. unfold withdrawn in *. now rewrite EN.
      * rewrite <- app_assoc. exact L.
      * intros i y I Y. rewrite EN in Y. apply in_app_iff in I as [I|[<-|[]]]; auto.
      * intros i j I J. apply in_app_iff in I as [I|[<-|[]]]; auto. apply NW. rewrite E. apply in_app_iff; auto.
      * exists s', c. rewrite E2, L2. split; [exact R2|]. split; [exact W2|]. split; [exact EN|]. split; [exact LO|]. rewrite <- app_assoc in H. exact H.
    + change (E_SUBSCRIPTION_ALREADY_EXIST =? E_SUCCESS) with false. cbn iota. rewrite app_length in L.
      destruct (undo_waiting D us s A E_SUCCESS ltac:(lia) WS PD NE E NA) as (s2 & c2 & R2 & W2 & E2 & WA2 & L2). rewrite R2. cbn [obind].
      exists s2, E_SUBSCRIPTION_ALREADY_EXIST. auto 7.
Qed.

(** ** every call *)
Lemma fold_news xs : forall B D, WE (B ++ news (D ++ xs)) -> forallb (fun x => plain (x_req x)) xs = true ->
  fold_left (fun v x => minus v (x_req x) false ++ [(x_req x, false, x_handler x)]) xs (flat_map act_of (B ++ news D)) = flat_map act_of (B ++ news (D ++ xs)).
Proof.
  induction xs as [|x xs IH]; intros B D WL P; [now rewrite app_nil_r|]. cbn [fold_left forallb] in *. apply andb_true_iff in P as [P1 P2].
  assert (M : minus (flat_map act_of (B ++ news D)) (x_req x) false ++ [(x_req x, false, x_handler x)] = flat_map act_of (B ++ news (D ++ [x]))).
  { unfold news in WL. rewrite map_app in WL. cbn [map] in WL. fold (news D) (news xs) in WL. rewrite app_assoc in WL. rewrite minus_none.
    - unfold news. rewrite map_app. cbn [map]. fold (news D). rewrite app_assoc, (acts_app (B ++ news D)). reflexivity.
    - intros y Y. apply WL. apply in_app_iff; auto.
    - intros y Y. eapply dist_other; [exact WL|now apply fresh_same|]. apply in_app_iff; auto. }
  rewrite M. rewrite (IH B (D ++ [x])); [|rewrite <- app_assoc; exact WL|exact P2]. now rewrite <- app_assoc.
Qed.
Lemma plain_null e : plain (mkReq e FNull 0 0) = true. Proof. reflexivity. Qed.
(** the handler of a subscription *)
Lemma handler_none l k raw : (forall y, In y l -> known y) -> (forall y, In y l -> same_entry k raw y = true -> e_dirty y = true) -> List.find (is_act k raw) (flat_map act_of l) = None.
Proof.
  intros K N. destruct (List.find (is_act k raw) (flat_map act_of l)) as [p|] eqn:E; [|reflexivity]. exfalso. apply find_some in E as [I E]. apply in_flat_map in I as (y & Y & I).
  specialize (N y Y). destruct (K y Y) as (_ & (r & R) & _). unfold act_of, same_entry, is_act in *. rewrite R in *. destruct (e_dirty y); [easy|]. destruct I as [<-|[]]. cbn in E. rewrite E in N. discriminate (N eq_refl).
Qed.
Lemma find_app_none {A} f (a b : list A) : List.find f a = None -> List.find f (a ++ b) = List.find f b.
Proof. induction a as [|x a IH]; cbn; [reflexivity|]. destruct (f x); [discriminate|exact IH]. Qed.
Lemma handler_cut a x b k raw : WE (a ++ x :: b) -> same_entry k raw x = true -> (forall y, In y (a ++ b) -> same_entry k raw y = false) -> e_dirty x = false ->
  handler_of (flat_map act_of (a ++ x :: b)) k raw = Some (e_handler x).
Proof.
  intros (K & _) X N D. unfold handler_of. rewrite acts_app, find_app_none.
  - destruct (K x (in_elt _ _ _)) as (_ & (r & R) & _). unfold same_entry in X. cbn [flat_map]. unfold act_of at 1. rewrite D. rewrite R in *. cbn [app List.find]. unfold is_act. cbn [fst snd]. rewrite X. reflexivity.
  - apply handler_none; [intros y Y; apply K, in_app_iff; auto|]. intros y Y. rewrite N by (apply in_app_iff; auto). discriminate.
Qed.
(** an event message *)
Lemma deliver_ok s k c u : W s -> plain k = true -> exists s' l, deliver s k c u = Ok (s', l) /\ W s' /\ actives s' = (if c then minus (actives s) k false else actives s) /\
  (withdrawn s k false = false \/ u <> NotFound -> l = match handler_of (actives s) k false with Some h => [h] | None => [] end).
Proof.
  intros WS P. pose proof WS as (WL & WW). unfold deliver. destruct (find_sub_ok _ _ false WL P) as [(-> & N)|(a & x & b & -> & E & X & N)]; cbn [obind].
  - exists s, []. split; [reflexivity|]. split; [exact WS|]. unfold actives. rewrite minus_none by (auto; apply WL). split; [now destruct c|]. intros _.
    unfold handler_of. rewrite handler_none; [reflexivity|apply WL|]. intros y Y. rewrite N by exact Y. discriminate.
  - assert (KX : known x) by (apply WL; rewrite E; apply in_elt). pose proof WL as WL2. rewrite E in WL2. destruct (WE_cut _ _ _ WL2) as (WC & _).
    assert (MC : minus (actives s) k false = flat_map act_of (a ++ b)) by (unfold actives; rewrite E; now apply minus_cut).
    destruct (e_dirty x) eqn:D.
    + rewrite (found_ok s a x b u k false E KX X N). cbn [obind].
      assert (ID : idle (entries s) k false). { intros y Y. rewrite E, in_app_iff in Y. cbn in Y. destruct Y as [Y|[<-|Y]]; [|auto|]; rewrite N by (apply in_app_iff; auto); discriminate. }
      assert (MD : minus (actives s) k false = actives s) by (now apply minus_dirty).
      assert (HN : handler_of (actives s) k false = None) by (unfold handler_of, actives; rewrite handler_none; [reflexivity|apply WL|exact ID]).
      rewrite MD. replace (if c then actives s else actives s) with (actives s) by now destruct c. rewrite HN. destruct u; cbn [negb].
      * (* the provider is still missing *) eexists _, _. split; [reflexivity|]. split; [|split].
        -- destruct c; cbn; split; cbn; auto. apply WE_mark; exact WL.
        -- destruct c; cbn [entries actives]; [unfold actives; cbn [entries]; now rewrite <- MC, MD|]. unfold actives. cbn [entries gone]. rewrite mark_twice; [reflexivity|exact ID].
        -- intros [H|H]; [|now contradict H]. exfalso. assert (withdrawn s k false = true); [|congruence]. apply existsb_exists. exists x. rewrite X, D. split; [rewrite E; apply in_elt|reflexivity].
      * eexists _, _. split; [reflexivity|]. split; [split; cbn; [now apply WE_drop|exact WW]|]. split; [|reflexivity]. unfold actives. cbn [entries gone]. rewrite acts_drop by exact WL. exact MD.
      * eexists _, _. split; [reflexivity|]. split; [split; cbn; [now apply WE_drop|exact WW]|]. split; [|reflexivity]. unfold actives. cbn [entries gone]. rewrite acts_drop by exact WL. exact MD.
      * eexists _, _. split; [reflexivity|]. split; [split; cbn; [now apply WE_drop|exact WW]|]. split; [|reflexivity]. unfold actives. cbn [entries gone]. rewrite acts_drop by exact WL. exact MD.
    + cbn [obind negb]. eexists _, _. split; [reflexivity|]. split; [destruct c; [split; cbn; auto|exact WS]|]. split; [destruct c; [now rewrite MC|reflexivity]|]. intros _.
      unfold actives. rewrite E, handler_cut; auto.
Qed.
Lemma unsubscribe_ok s e u : W s -> exists s' c, unsubscribe s e u = Ok (s', c) /\ W s' /\ actives s' = minus (actives s) (mkReq e FNull 0 0) false.
Proof.
  intros WS. pose proof WS as (WL & WW). pose proof (plain_null e) as P. set (k := mkReq e FNull 0 0) in *. unfold unsubscribe. fold k.
  destruct (find_sub_ok _ _ false WL P) as [(-> & N)|(a & x & b & -> & E & X & N)]; cbn [obind].
  - eexists _, _. split; [reflexivity|]. split; [exact WS|]. unfold actives. rewrite minus_none; auto. apply WL.
  - assert (KX : known x) by (apply WL; rewrite E; apply in_elt). rewrite (found_ok s a x b u k false E KX X N). cbn [obind]. eexists _, _. split; [reflexivity|].
    split; [split; cbn; [now apply WE_gone|exact WW]|]. unfold actives. cbn [entries]. now apply acts_gone.
Qed.
Definition final (a : answer) : bool := match a with Lost => false | Refused c => negb (c =? E_SUCCESS) | _ => true end.
Lemma verdict_code a : final a = true -> exists c, verdict a = Ok c /\ (c = E_SUCCESS <-> a = Accepted).
Proof.
  intros H. destruct a as [| |c|]; [eexists; split; [reflexivity|]; now split..| |discriminate]. exists c. split; [reflexivity|]. cbn in H. split; [|discriminate]. intros ->. discriminate H.
Qed.
Lemma done_ok s n h a id : W s -> (exists k, nth_error (waiting s) n = Some k) -> final a = true -> exists s' k c, async_done s n h a id = Ok (s', (k, c)) /\ W s' /\ nth_error (waiting s) n = Some k /\
  waiting s' = firstn n (waiting s) ++ skipn (S n) (waiting s) /\
  actives s' = if c =? E_SUCCESS then minus (actives s) k false ++ [(k, false, h)] else actives s.
Proof.
  intros (WL & WW) (k & K) A. unfold async_done. rewrite K. destruct (verdict_code a A) as (c & V & C). rewrite V. cbn [obind].
  assert (PK : plain k = true) by (apply WW; eapply nth_error_In; eauto).
  assert (WP : forall j, In j (firstn n (waiting s) ++ skipn (S n) (waiting s)) -> plain j = true).
  { intros j J. apply WW. rewrite <- (firstn_skipn n (waiting s)). apply in_app_iff in J as [J|J]; apply in_app_iff; [now left|right].
    clear -J. revert n J. induction (waiting s) as [|w l IH]; intros [|n] J; cbn in *; auto. }
  assert (D : a = Accepted \/ a <> Accepted) by (destruct a; auto; right; discriminate).
  destruct D as [->|D].
  - set (s1 := mkState (entries s) (firstn n (waiting s) ++ skipn (S n) (waiting s)) (WSub k false Accepted :: log s)). fold (fresh_entry k false h id).
    destruct (replace_ok s1 k false h id WL PK) as (R & WR). rewrite R. cbn [obind]. eexists _, k, c. split; [reflexivity|]. split; [split; cbn; auto|]. split; [reflexivity|]. split; [reflexivity|].
    destruct C as [_ C]. rewrite C by reflexivity. rewrite Z.eqb_refl. unfold actives. cbn [entries s1]. rewrite acts_app, acts_drop by exact WL. reflexivity.
  - eexists _, k, c. split; [destruct a; try contradiction; reflexivity|]. split; [split; cbn; auto|]. split; [reflexivity|]. split; [reflexivity|].
    destruct (Z.eqb_spec c E_SUCCESS) as [Q|_]; [|reflexivity]. apply C in Q. contradiction.
Qed.
Lemma step_ok s o : W s -> fair s o = true -> exists s' r, step s o = Ok (s', r) /\ W s' /\ actives s' = replay (actives s) o r.
Proof.
  intros WS F. pose proof WS as (WL & WW). destruct o as [k raw h a id|raw xs us|k|ks us|n h a id|e u|ks us|k c u]; cbn [fair] in F; cbn [step]; unfold coded.
  - apply andb_true_iff in F as [F F3]. apply andb_true_iff in F as [F1 F2]. destruct (subscribe_ok s k raw h a id WS F1 F2 F3) as (s' & c & -> & W' & _ & H). cbn [obind]. eexists _, _. split; [reflexivity|]. split; [exact W'|]. cbn [replay].
    destruct H as [(-> & -> & ID & E & _)|[(NC & _ & _ & E & _)|(-> & -> & _)]].
    + rewrite Z.eqb_refl. unfold actives. rewrite E, acts_app, acts_drop by exact WL. reflexivity.
    + destruct (Z.eqb_spec c E_SUCCESS); [contradiction|]. unfold actives. now rewrite E.
    + reflexivity.
  - apply andb_true_iff in F as [F F3]. apply andb_true_iff in F as [F1 F2]. destruct raw; [discriminate|]. apply Nat.leb_le in F3.
    destruct (sub_ex_ok us xs s [] (entries s) WS) as (s' & c & R & W' & _ & B' & AB & IB & H).
    { unfold news. cbn. now rewrite app_nil_r. } { reflexivity. } { exact F2. } { exact F3. }
    cbn [map] in R. rewrite R. cbn [obind]. eexists _, _. split; [reflexivity|]. split; [exact W'|]. cbn [replay]. destruct H as [(-> & _ & E & _)|(NC & pre & x & post & f & _ & E & _)].
    + rewrite Z.eqb_refl. unfold actives. rewrite <- AB, E. cbn [app]. destruct W' as (W' & _). rewrite E in W'. pose proof (fold_news xs B' [] W') as FN. cbn [news map app] in FN. rewrite app_nil_r in FN. symmetry. apply FN.
      rewrite forallb_forall in *. intros x X. apply F2 in X. apply andb_true_iff in X as [X _]. now apply andb_true_iff in X as [X _].
    + destruct (Z.eqb_spec c E_SUCCESS); [contradiction|]. unfold actives. rewrite E, acts_app, left_over_acts, app_nil_r. exact AB.
  - apply andb_true_iff in F as [F1 F2]. apply negb_true_iff in F2. destruct (async_ok s k WS F1 F2) as (s' & c & -> & W' & E & _). cbn [obind]. eexists _, _. split; [reflexivity|]. split; [exact W'|]. unfold actives. now rewrite E.
  - apply andb_true_iff in F as [F1 F2]. apply Nat.leb_le in F2. destruct (sub_ex_async_ok us ks s [] (waiting s) WS) as (s' & c & -> & W' & E & _); auto; try easy. { now rewrite app_nil_r. }
    cbn [obind]. eexists _, _. split; [reflexivity|]. split; [exact W'|]. unfold actives. now rewrite E.
  - destruct (nth_error (waiting s) n) as [k|] eqn:K; [|discriminate]. destruct (done_ok s n h a id WS) as (s' & k' & c & -> & W' & _ & _ & A); [eauto|exact F|].
    cbn [obind fst snd]. eexists _, _. split; [reflexivity|]. split; [exact W'|]. exact A.
  - destruct (unsubscribe_ok s e u WS) as (s' & c & -> & W' & A). cbn [obind]. eexists _, _. split; [reflexivity|]. auto.
  - apply andb_true_iff in F as [F1 F2]. apply Nat.leb_le in F2. destruct (unsub_ex_ok ks s us E_SUCCESS WS F1 F2) as (s' & c & -> & W' & A). cbn [obind]. eexists _, _. split; [reflexivity|]. auto.
  - destruct (deliver_ok s k c u WS F) as (s' & l & -> & W' & A & _). cbn [obind]. eexists _, _. split; [reflexivity|]. auto.
Qed.
Lemma init_W : W init. Proof. split; [split; easy|easy]. Qed.
Lemma run_ok ops : forall s, W s -> fair_run s ops = true -> exists s' rs, run s ops = Ok (s', rs) /\ W s' /\ actives s' = replays (actives s) ops rs.
Proof.
  induction ops as [|o ops IH]; intros s WS F; [exists s, []; cbn; auto|]. cbn [fair_run] in F. apply andb_true_iff in F as [F1 F2].
  destruct (step_ok s o WS F1) as (s1 & r & E & W1 & A). rewrite E in F2. destruct (IH s1 W1 F2) as (s2 & rs & E2 & W2 & A2).
  exists s2, (r :: rs). cbn [run]. rewrite E. cbn [obind]. rewrite E2. cbn [obind replays]. rewrite <- A. auto.
Qed.
