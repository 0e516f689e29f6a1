(** Proofs about requests, disconnection and publishing. *)
From Coq Require Import String QArith.
From Verif Require Import Common CommonFacts Value CompareModel CompareSpec TokenModel SubsModel Errors SubsSpec SubsTree SubsProofs.
From Coq Require Import List Permutation Lia ZifyBool.
Import ListNotations.
Local Open Scope list_scope.
Local Open Scope Z_scope.

Lemma find_keys l k : plain_subs l -> is_some (find (fun x => same_key (s_key x) k) l) = holds (map s_key l) k.
Proof.
  intros P. induction l as [|x l IH]; cbn; [reflexivity|]. rewrite (same_key_sym k). destruct (same_key (s_key x) k); [reflexivity|].
  cbn. apply IH. intros y I. apply P. now right.
Qed.
Lemma distinct_without k : forall l, distinct l -> forall a b, l = a ++ k :: b -> same_key k k = true -> without l k = a ++ b.
Proof.
  intros l D a b -> RF. unfold without. rewrite filter_app. cbn. rewrite RF. cbn [negb]. apply distinct_app in D as (D1 & (D2 & D3) & D4).
  f_equal; apply filter_all; intros j I; apply negb_true_iff; [rewrite same_key_sym; apply D4; [exact I|now left]|now apply D2].
Qed.
Lemma without_congr l k j : same_key k j = true -> without l k = without l j.
Proof. intros E. apply filter_ext. intros x. f_equal. symmetry. now apply same_key_congr. Qed.
Lemma removed_keys s k x s' : W s -> plain_filter (k_filter k) = true -> removed_sub s k x s' -> keys s' = without (keys s) k /\ holds (keys s) k = true.
Proof.
  intros H P (G & _ & _ & _ & X & _). pose proof (w_k s H) as [D PL]. rewrite get_sub_ok in G by assumption. injection G as G.
  pose proof (find_some _ _ G) as [I E]. split.
  - apply in_split in I as (a & b & I). pose proof (other_split (subs s) x a b (i_no _ _ _ _ (w_l s H)) I) as OS. unfold other in OS. unfold keys. rewrite X, OS.
    rewrite (without_congr _ k (s_key x)) by now rewrite same_key_sym. symmetry. rewrite map_app. apply distinct_without; [exact D|now rewrite I, map_app|].
    apply same_key_refl. apply PL. rewrite I. apply in_elt.
  - unfold keys. rewrite <- find_keys by exact PL. now rewrite G.
Qed.
Lemma held_none s k : W s -> plain_filter (k_filter k) = true -> get_sub (subs s) k = Ok None <-> holds (keys s) k = false.
Proof.
  intros H P. pose proof (w_k s H) as [_ PL]. rewrite get_sub_ok by assumption. unfold keys. rewrite <- find_keys by exact PL.
  destruct (find _ (subs s)); cbn; split; congruence.
Qed.
Lemma held_some s k : W s -> plain_filter (k_filter k) = true -> (exists x, get_sub (subs s) k = Ok (Some x)) <-> holds (keys s) k = true.
Proof.
  intros H P. pose proof (w_k s H) as [_ PL]. rewrite get_sub_ok by assumption. unfold keys. rewrite <- find_keys by exact PL.
  destruct (find _ (subs s)); cbn; split; try congruence; eauto. intros (x & E). discriminate E.
Qed.

(** ** instances are the elements aimed at *)
Lemma path_of_in s n p : W s -> path_of s n = Some p <-> In (n, p) (all_nodes s).
Proof.
  intros H. pose proof (w_nodes s H) as N. unfold path_of. induction (all_nodes s) as [|[m q] l IH]; cbn; [split; [discriminate|intros []]|].
  cbn in N. apply NoDup_cons_iff in N as [N0 N]. destruct (Nat.eqb_spec m n) as [->|E]; cbn.
  - split; [intros K; injection K as ->; now left|]. intros [K|K]; [now injection K as ->|]. exfalso. apply N0. apply in_map_iff. now exists (n, p).
  - rewrite (IH N). split; [now right|]. intros [K|K]; [congruence|exact K].
Qed.
Lemma targets_aims s x n : W s -> R s -> sound_refs s -> In x (subs s) -> targets x n = aims s x n.
Proof.
  intros H HR SR I. specialize (HR x I). specialize (SR x). pose proof (i_nodes _ _ _ _ (w_l s H) x I) as (_ & NK). unfold aimed in HR. unfold aims, reg_of.
  destruct (s_el x) as [e|].
  2:{ rewrite HR in NK. unfold targets. rewrite NK. reflexivity. }
  destruct HR as (_ & c & reg & C1 & C2 & C3). rewrite C1 in NK. destruct NK as (_ & _ & Q). specialize (SR e I eq_refl). unfold alive in SR.
  destruct (find_top e (tops s)) as [[up t]|] eqn:F; [|discriminate SR]. rewrite <- (C3 up t eq_refl).
  destruct (targets x n) eqn:T.
  - apply targets_in in T. apply (proj1 (Q n)) in T. destruct T as (p & P1 & P2). apply (path_of_in s n p H) in P1. rewrite P1.
    unfold event_matches. rewrite C2. cbn. now rewrite P2.
  - destruct (path_of s n) as [p|] eqn:P; [|reflexivity]. apply (path_of_in s n p H) in P. unfold event_matches. rewrite C2. cbn.
    destruct (match_ c p) as [[]|[]|] eqn:M; try reflexivity. exfalso. assert (In n (s_insts x)) as K by (apply Q; eauto). apply targets_in in K. congruence.
Qed.
Lemma filter_targets s n : W s -> R s -> sound_refs s -> List.filter (fun x => targets x n) (subs s) = List.filter (fun x => aims s x n) (subs s).
Proof. intros H HR SR. apply filter_ext_in. intros x I. now apply targets_aims. Qed.

(** ** disconnection *)
Lemma setup_del : forall insts s x, exists s', publish_setup s false x insts = Ok s'.
Proof.
  induction insts as [|n insts IH]; cbn; intros s x; [eauto|]. destruct (negb (k_interval (s_key x) =? 0)); [eauto|].
  destruct (auto_linked s n (Some (s_no x))); apply IH.
Qed.
Lemma unlink_total s x : forall insts l, (forall n, In n insts -> alive n s = true) -> exists l', unlink_all s insts x l = Ok l'.
Proof. induction insts as [|n insts IH]; cbn; intros l A; [eauto|]. rewrite A by now left. apply IH. auto. Qed.
Lemma insts_alive s x : W s -> In x (subs s) -> forall n, In n (s_insts x) -> alive n s = true.
Proof.
  intros H I n K. pose proof (i_nodes _ _ _ _ (w_l s H) x I) as (_ & NK). destruct (s_chain x) as [c|]; [|rewrite NK in K; destruct K].
  destruct NK as (_ & _ & Q). apply (proj1 (Q n)) in K. destruct K as (p & P & _). apply alive_in. apply (visited_all_nos _ [] (n, p)) in P. exact P.
Qed.
Lemma handle_del_total ans s e k x : W s -> alive e s = true -> fst (ans (length (log s))) = 0 -> k_raw k = false ->
  get_sub (subs s) k = Ok (Some x) -> exists s', handle ans s false e k = Ok (s', E_SUCCESS).
Proof.
  intros H A AC KR G. unfold handle. unfold alive in A. destruct (find_top e (tops s)) as [[up t]|] eqn:F; [|discriminate A].
  destruct (ask ans s false (el_info t) k) as [[s1 auto] early] eqn:EX. pose proof (ask_called _ _ _ _ _ _ _ _ EX) as (C & _ & _ & L).
  assert (early = None) as ->.
  { destruct (i_handler (el_info t)); [|apply L]. destruct L as (err & -> & _ & _ & L). destruct early; [|reflexivity]. destruct L; [discriminate|contradiction|congruence]. }
  pose proof C as (C1 & C2 & C3 & C4 & _). cbn [andb]. rewrite C3, G, KR. cbn [obind andb].
  assert (exists s3, (if (ntype (i_node (el_info t)) =? PROPERTY) && s_auto x then publish_setup s1 false x (s_insts x) else Ok s1) = Ok s3 /\ core_eq s1 s3) as (s3 & -> & K).
  { destruct (_ && _); [|exists s1; split; [reflexivity|apply core_refl]]. destruct (setup_del (s_insts x) s1 x) as (s3 & E). exists s3. split; [exact E|]. now apply setup_core in E. }
  cbn [obind]. pose proof (core_trans _ _ _ C K) as CK. pose proof CK as (D1 & _). apply (core_W s) in CK; [|exact H].
  assert (In x (subs s3)) as I. { destruct K as (_ & _ & -> & _). rewrite C3. pose proof (w_k s H) as [_ PL].
    clear -G. induction (subs s) as [|y l IH]; cbn in G; [discriminate|]. destruct (key_match (s_key y) k) as [[]|[]|]; cbn in G; try discriminate G; [injection G as ->; now left|right; auto]. }
  unfold remove_sub. destruct (unlink_total s3 (s_no x) (s_insts x) (links s3)) as (l' & ->); [now apply insts_alive|]. cbn [obind]. eauto.
Qed.
Definition of_listener (l : list Z) (x : sub) : bool := bytes_eqb (k_listener (s_key x)) l.
Lemma same_listener a b : same_key a b = true -> k_listener a = k_listener b.
Proof. unfold same_key. rewrite !andb_true_iff. intros ((((((A & _) & _) & _) & _) & _) & _). now apply bytes_eqb_eq in A. Qed.
Lemma filter_others (f : sub -> bool) L x : In x L -> NoDup (map s_no L) -> f x = false -> List.filter f (List.filter (other (s_no x)) L) = List.filter f L.
Proof.
  intros I N F. rewrite filter_filter. apply filter_ext_in. intros y J. unfold other. destruct (Nat.eqb_spec (s_no y) (s_no x)) as [E|E]; [|reflexivity].
  apply (nodup_no L N) in E; [|exact J|exact I]. subst. now rewrite F.
Qed.
Lemma removed_others s k x s' l : W s -> plain_filter (k_filter k) = true -> k_listener k = l -> removed_sub s k x s' ->
  List.filter (fun y => negb (of_listener l y)) (subs s') = List.filter (fun y => negb (of_listener l y)) (subs s).
Proof.
  intros H P E (G & _ & _ & _ & X & _). rewrite X. pose proof (w_k s H) as [_ PL]. rewrite get_sub_ok in G by assumption. injection G as G. apply find_some in G as [I G].
  apply same_listener in G. apply filter_others; [exact I|apply (i_no _ _ _ _ (w_l s H))|]. unfold of_listener. rewrite G, E, bytes_eqb_refl. reflexivity.
Qed.
Lemma disconnect_others ans found l : forall fuel cur s s', W s -> disconnect_loop fuel ans found l cur s = Ok s' ->
  List.filter (fun y => negb (of_listener l y)) (subs s') = List.filter (fun y => negb (of_listener l y)) (subs s).
Proof.
  induction fuel as [|fuel IH]; intros [c|] s s' H Q; cbn in Q; try (injection Q as <-; reflexivity); try discriminate Q.
  destruct (item c (subs s)) as [[x next]|] eqn:I; [|discriminate Q].
  destruct (bytes_eqb (k_listener (s_key x)) l) eqn:EL; cbn in Q; [|now apply IH in Q]. destruct (found (k_event (s_key x))); cbn in Q; [|now apply IH in Q].
  destruct (s_el x) as [e|]; cbn in Q; [|now apply IH in Q].
  match type of Q with context [handle ?a ?b ?c ?d ?k] => destruct (handle a b c d k) as [[s1 r1]|[]|] eqn:A end; cbn in Q; try discriminate Q.
  assert (W s1) as W1 by (eapply handle_del_W; [exact H| |exact A]; reflexivity). apply IH in Q; [|exact W1]. rewrite Q.
  apply handle_del in A as (up & t & s2 & early & F & _ & _ & [(_ & (C1 & C2 & C3 & _) & _)|(_ & _ & y & RM)]); [now rewrite C3|].
  apply bytes_eqb_eq in EL. eapply removed_others; [exact H| | |exact RM]; [reflexivity|exact EL].
Qed.
Definition simple (k : key) : Prop := k_filter k = FNull /\ k_interval k = 0 /\ k_duration k = 0 /\ k_raw k = false.
Lemma disconnect_gone ans found l : (forall n, fst (ans n) = 0) -> forall suf pre s, W s -> subs s = pre ++ suf ->
  (forall x, In x suf -> of_listener l x = true -> simple (s_key x) /\ found (k_event (s_key x)) = true /\ exists e, s_el x = Some e /\ alive e s = true) ->
  exists s', disconnect_loop (length suf) ans found l (front suf) s = Ok s' /\ subs s' = pre ++ List.filter (fun y => negb (of_listener l y)) suf.
Proof.
  intros AC. induction suf as [|x suf IH]; intros pre s H E A; [exists s; split; [reflexivity|exact E]|].
  cbn [length front disconnect_loop]. pose proof (i_no _ _ _ _ (w_l s H)) as N. rewrite E in *. rewrite (item_at pre x suf N). cbn [List.filter].
  destruct (of_listener l x) eqn:OL.
  - destruct (A x (or_introl eq_refl) OL) as ((S1 & S2 & S3 & S4) & FD & e & SE & AL). unfold of_listener in OL. rewrite OL, FD, SE. cbn [andb negb].
    assert (mkKey (k_listener (s_key x)) (k_comp (s_key x)) (k_event (s_key x)) FNull 0 0 false = s_key x) as ->.
    { destruct (s_key x). cbn in *. now subst. }
    assert (get_sub (subs s) (s_key x) = Ok (Some x)) as G.
    { pose proof (w_k s H) as [D PL]. rewrite get_sub_ok; [|exact PL|apply PL; rewrite E; apply in_elt]. rewrite E in *. f_equal. apply find_key; [split; assumption|reflexivity]. }
    destruct (handle_del_total ans s e (s_key x) x H AL (AC _) S4 G) as (s1 & HD). rewrite HD. cbn [obind].
    assert (W s1) as W1. { eapply handle_del_W; [exact H| |exact HD]. now rewrite S1. }
    apply handle_del in HD as (up & t & s2 & early & F & _ & _ & [(_ & _ & BAD & _)|(_ & _ & y & RM)]); [congruence|].
    destruct RM as (G1 & _ & T1 & T2 & T3 & _). rewrite G in G1. injection G1 as <-. rewrite E in T3. pose proof (other_split (pre ++ x :: suf) x pre suf N eq_refl) as OS. unfold other in OS. rewrite OS in T3.
    apply IH; [exact W1|exact T3|]. intros z I O. destruct (A z (or_intror I) O) as (B1 & B2 & e' & B3 & B4). split; [exact B1|]. split; [exact B2|].
    exists e'. split; [exact B3|]. unfold alive in *. now rewrite T1.
  - unfold of_listener in OL. rewrite OL. cbn [andb obind negb]. change (x :: suf) with ([x] ++ suf) in E. rewrite app_assoc in E.
    destruct (IH (pre ++ [x]) s H E) as (s' & Q1 & Q2). { intros z I. apply A. now right. }
    exists s'. split; [exact Q1|]. rewrite Q2, <- app_assoc. reflexivity.
Qed.

(** ** publishing *)
Lemma sub_found s x : W s -> In x (subs s) -> sub_of s (s_no x) = Some x.
Proof.
  intros H I. unfold sub_of. pose proof (i_no _ _ _ _ (w_l s H)) as N. induction (subs s) as [|y l IH]; [destruct I|]. cbn in *. apply NoDup_cons_iff in N as [N0 N].
  destruct I as [->|I]; [now rewrite Nat.eqb_refl|]. destruct (Nat.eqb_spec (s_no y) (s_no x)) as [E|E]; [|now apply IH].
  exfalso. apply N0. rewrite E. now apply in_map.
Qed.
Definition err_after (sent : nat -> Z) (i : nat) (c : nat) (err : Z) : Z :=
  if err =? 0 then match find (fun j => negb (sent j =? 0)) (seq i c) with Some j => sent j | None => 0 end else err.
Lemma err_step sent i c err : err_after sent (S i) c (if err =? 0 then sent i else err) = err_after sent i (S c) err.
Proof. unfold err_after. cbn [seq find]. destruct (err =? 0) eqn:E; [|now rewrite E]. destruct (sent i =? 0) eqn:E1; cbn [negb]; reflexivity. Qed.
Lemma err_zero sent c : (err_after sent 0 c 0 =? 0) = forallb (fun i => sent i =? 0) (seq 0 c).
Proof.
  unfold err_after. cbn [Z.eqb]. induction (seq 0 c) as [|j l IH]; [reflexivity|]. cbn [find forallb]. destruct (sent j =? 0) eqn:E; cbn [negb andb]; [exact IH|exact E].
Qed.
Lemma plain_loop s sent n name data : forall L i err, W s -> (forall x, In x L -> In x (subs s)) ->
  let f := List.filter (fun x => negb (k_raw (s_key x))) L in
  publish_loop s sent (map (fun x => link_to x n) L) (mkEvent name false data) i err =
  Ok (map (fun x => mkMsg (s_key x) (s_id x) name data) f, err_after sent i (length f) err).
Proof.
  induction L as [|x L IH]; intros i err H A f.
  - subst f. cbn. unfold err_after. cbn. destruct (err =? 0) eqn:E; [apply Z.eqb_eq in E; now subst|reflexivity].
  - subst f. cbn [map publish_loop link_to l_sub]. rewrite (sub_found s x H) by (apply A; now left). cbn [ev_change]. cbn [obind andb]. cbn [List.filter].
    destruct (k_raw (s_key x)); cbn [negb].
    + apply IH; [exact H|]. intros y I. apply A. now right.
    + rewrite IH; [|exact H|intros y I; apply A; now right]. cbn [obind length map]. rewrite err_step. reflexivity.
Qed.
Lemma links_of s n : W s -> List.filter (fun y => Nat.eqb (l_el y) n) (links s) = map (fun x => link_to x n) (List.filter (fun x => targets x n) (subs s)).
Proof. intros H. apply (i_links _ _ _ _ (w_l s H)). Qed.
Lemma filter_existsb {A} (f : A -> bool) l : existsb f l = match List.filter f l with [] => false | _ => true end.
Proof. induction l as [|x l IH]; cbn; [reflexivity|]. destruct (f x); [reflexivity|exact IH]. Qed.
Lemma publish_plain s sent n ev : W s -> R s -> sound_refs s -> ev_change ev = false ->
  let to := List.filter (fun x => aims s x n && negb (k_raw (s_key x))) (subs s) in
  publish s sent (Some n) ev =
  if existsb (fun x => aims s x n) (subs s) then Ok (map (fun x => mkMsg (s_key x) (s_id x) (ev_name ev) (ev_data ev)) to, result_of sent (length to))
  else Ok ([], E_NOSUBSCRIBERS).
Proof.
  intros H HR SR EC to. unfold publish. rewrite links_of, filter_targets by assumption. rewrite filter_existsb.
  destruct (List.filter (fun x => aims s x n) (subs s)) as [|x L] eqn:FL; [reflexivity|]. cbn [map]. rewrite EC. cbn [andb].
  change (link_to x n :: map (fun x => link_to x n) L) with (map (fun x => link_to x n) (x :: L)). destruct ev as [name ch data]. cbn in EC. subst ch.
  rewrite plain_loop; [|exact H|intros y I; rewrite <- FL in I; now apply filter_In in I]. cbn [obind ev_name ev_data]. rewrite <- FL, filter_filter. fold to.
  unfold result_of. rewrite err_zero. reflexivity.
Qed.
Lemma raw_all s n data : forall L, W s -> (forall x, In x L -> In x (subs s)) ->
  raw_loop s (map (fun x => link_to x n) L) data = Ok (map (fun x => (s_key x, s_id x, data)) (List.filter (fun x => k_raw (s_key x)) L)).
Proof.
  induction L as [|x L IH]; intros H A; [reflexivity|]. cbn [map raw_loop link_to l_sub]. rewrite (sub_found s x H) by (apply A; now left).
  rewrite IH; [|exact H|intros y I; apply A; now right]. cbn [obind List.filter]. now destruct (k_raw (s_key x)).
Qed.
Lemma publish_raw_ok s sent n name data : W s -> R s -> sound_refs s ->
  let to := List.filter (fun x => aims s x n && k_raw (s_key x)) (subs s) in
  publish_raw s sent (Some n) name data =
  if existsb (fun x => aims s x n) (subs s) then Ok (map (fun x => (s_key x, s_id x, data)) to, Some (bs "rawdata." ++ name), sent (length to))
  else Ok ([], None, E_NOSUBSCRIBERS).
Proof.
  intros H HR SR to. unfold publish_raw. rewrite links_of, filter_targets by assumption. rewrite filter_existsb.
  destruct (List.filter (fun x => aims s x n) (subs s)) as [|x L] eqn:FL; [reflexivity|]. cbn [map].
  change (link_to x n :: map (fun x => link_to x n) L) with (map (fun x => link_to x n) (x :: L)).
  rewrite raw_all; [|exact H|intros y I; rewrite <- FL in I; now apply filter_In in I]. cbn [obind]. rewrite <- FL, filter_filter. fold to. now rewrite map_length.
Qed.

(** value changes *)
Lemma get_set n v l : get_prop n (set_prop n v l) = Some v.
Proof. induction l as [|[m w] l IH]; cbn; [now rewrite bytes_eqb_refl|]. destruct (bytes_eqb m n) eqn:E; cbn; rewrite E; auto. Qed.
Lemma get_set_other n m v l : m <> n -> get_prop m (set_prop n v l) = get_prop m l.
Proof.
  intros N. induction l as [|[k w] l IH]; cbn.
  - destruct (bytes_eqb n m) eqn:E; [apply bytes_eqb_eq in E; congruence|reflexivity].
  - destruct (bytes_eqb k n) eqn:E; cbn; [|now rewrite IH]. apply bytes_eqb_eq in E. subst. destruct (bytes_eqb n m) eqn:E; [apply bytes_eqb_eq in E; congruence|reflexivity].
Qed.
Definition msg_ok (h : Value.filter -> value -> bool) (name : list Z) (data : list (list Z * value)) (vn : value) (x : sub) (m : message) : Prop :=
  m_to m = s_key x /\ m_id m = s_id x /\ m_name m = name /\
  (k_filter (s_key x) <> FNull -> get_prop (bs "filter") (m_data m) = Some (VBool (h (k_filter (s_key x)) vn))) /\
  forall p, p <> bs "filter" -> get_prop p (m_data m) = get_prop p data.
Definition evaluates (h : Value.filter -> value -> bool) (v : value) (f : Value.filter) : Prop := f <> FNull -> filter_apply f v = Ok (h f v).
Lemma change_loop h s sent n name data vn vo : W s -> get_prop (bs "value") data = Some vn -> get_prop (bs "oldValue") data = Some vo ->
  forall L i err data1, (forall x, In x L -> In x (subs s)) -> (forall x, In x L -> evaluates h vn (k_filter (s_key x)) /\ evaluates h vo (k_filter (s_key x))) ->
  (forall p, p <> bs "filter" -> get_prop p data1 = get_prop p data) ->
  let f := List.filter (fun x => fires h vn vo (k_filter (s_key x)) && negb (k_raw (s_key x))) L in
  exists ms, publish_loop s sent (map (fun x => link_to x n) L) (mkEvent name true data1) i err = Ok (ms, err_after sent i (length f) err) /\
  Forall2 (msg_ok h name data vn) f ms.
Proof.
  intros H VN VO. induction L as [|x L IH]; intros i err data1 A EV D f.
  - subst f. exists []. split; [|constructor]. cbn. unfold err_after. cbn. destruct (err =? 0) eqn:E; [apply Z.eqb_eq in E; now subst|reflexivity].
  - subst f. cbn [map publish_loop link_to l_sub List.filter]. rewrite (sub_found s x H) by (apply A; now left). cbn [ev_change ev_data ev_name].
    assert (forall y, In y L -> In y (subs s)) as A' by (intros y I; apply A; now right).
    assert (forall y, In y L -> evaluates h vn (k_filter (s_key y)) /\ evaluates h vo (k_filter (s_key y))) as EV' by (intros y I; apply EV; now right).
    destruct (EV x (or_introl eq_refl)) as [E1 E2]. unfold evaluates in E1, E2.
    assert (forall p, In p [bs "value"; bs "oldValue"] -> p <> bs "filter") as NF. { intros p [<-|[<-|[]]]; discriminate. }
    assert (forall d, (forall p, p <> bs "filter" -> get_prop p d = get_prop p data) ->
              (k_filter (s_key x) <> FNull -> get_prop (bs "filter") d = Some (VBool (h (k_filter (s_key x)) vn))) ->
              fires h vn vo (k_filter (s_key x)) = true ->
              exists ms, (if true && negb (k_raw (s_key x))
                 then do (ms, err0) <- publish_loop s sent (map (fun x => link_to x n) L) (mkEvent name true d) (S i) (if err =? 0 then sent i else err) ;
                      Ok (mkMsg (s_key x) (s_id x) name d :: ms, err0)
                 else publish_loop s sent (map (fun x => link_to x n) L) (mkEvent name true d) i err) =
                 Ok (ms, err_after sent i (length (if fires h vn vo (k_filter (s_key x)) && negb (k_raw (s_key x)) then x :: List.filter (fun x => fires h vn vo (k_filter (s_key x)) && negb (k_raw (s_key x))) L else List.filter (fun x => fires h vn vo (k_filter (s_key x)) && negb (k_raw (s_key x))) L)) err) /\
                 Forall2 (msg_ok h name data vn) (if fires h vn vo (k_filter (s_key x)) && negb (k_raw (s_key x)) then x :: List.filter (fun x => fires h vn vo (k_filter (s_key x)) && negb (k_raw (s_key x))) L else List.filter (fun x => fires h vn vo (k_filter (s_key x)) && negb (k_raw (s_key x))) L) ms) as GO.
    { intros d D1 D2 F. rewrite F. cbn [andb]. destruct (k_raw (s_key x)); cbn [negb].
      - apply IH; assumption.
      - destruct (IH (S i) (if err =? 0 then sent i else err) d A' EV' D1) as (ms & -> & F2). cbn [obind]. eexists. split; [rewrite err_step; reflexivity|].
        constructor; [|exact F2]. repeat split; cbn; auto. }
    assert (k_filter (s_key x) = FNull \/ k_filter (s_key x) <> FNull) as [FN|FN] by (destruct (k_filter (s_key x)); [now left|right; discriminate..]).
    + rewrite FN. cbn [obind]. rewrite FN in GO. apply GO; [exact D|congruence|reflexivity].
    + assert ((match k_filter (s_key x) with FNull => Ok (mkEvent name true data1, true) | f =>
           match get_prop (bs "value") data1, get_prop (bs "oldValue") data1 with
           | Some vn, Some vo =>
             do a <- filter_apply f vn ; do b <- filter_apply f vo ;
             if eqb a b then Ok (mkEvent name true data1, false) else Ok (mkEvent name true (set_prop (bs "filter") (VBool a) data1), true)
           | _, _ => UB
           end end : outcome unit (event * bool)) = if eqb (h (k_filter (s_key x)) vn) (h (k_filter (s_key x)) vo) then Ok (mkEvent name true data1, false)
                     else Ok (mkEvent name true (set_prop (bs "filter") (VBool (h (k_filter (s_key x)) vn)) data1), true)) as EQ.
      { rewrite (D (bs "value")), (D (bs "oldValue")), VN, VO by (apply NF; cbn; auto). specialize (E1 FN). specialize (E2 FN).
        destruct (k_filter (s_key x)) as [|o v|o fl fr]; [congruence|idtac..]. all: cbv beta iota zeta.
 all: rewrite E1, E2; reflexivity. }
      match type of EQ with ?X = _ => match goal with |- context [obind ?Y _] => change Y with X end end. rewrite EQ. clear EQ.
      destruct (eqb (h (k_filter (s_key x)) vn) (h (k_filter (s_key x)) vo)) eqn:EB; cbn [obind ev_change ev_data ev_name andb].
      * assert (fires h vn vo (k_filter (s_key x)) = false) as -> by (unfold fires; destruct (k_filter (s_key x)); [congruence|rewrite EB; reflexivity..]). cbn [andb].
        apply IH; assumption.
      * apply GO; [|intros _; apply get_set|unfold fires; destruct (k_filter (s_key x)); [reflexivity|rewrite EB; reflexivity..]].
        intros p P. rewrite get_set_other by exact P. now apply D.
Qed.
Lemma publish_change h s sent n ev vn vo : W s -> R s -> sound_refs s -> ev_change ev = true ->
  get_prop (bs "value") (ev_data ev) = Some vn -> get_prop (bs "oldValue") (ev_data ev) = Some vo ->
  (forall x, In x (subs s) -> aims s x n = true -> evaluates h vn (k_filter (s_key x)) /\ evaluates h vo (k_filter (s_key x))) ->
  let to := List.filter (fun x => aims s x n && (fires h vn vo (k_filter (s_key x)) && negb (k_raw (s_key x)))) (subs s) in
  exists ms, publish s sent (Some n) ev =
    Ok (if existsb (fun x => aims s x n) (subs s) then (ms, result_of sent (length to)) else ([], E_NOSUBSCRIBERS)) /\
  Forall2 (msg_ok h (ev_name ev) (ev_data ev) vn) to ms.
Proof.
  intros H HR SR EC VN VO EV to. unfold publish. rewrite links_of, filter_targets by assumption. rewrite filter_existsb.
  destruct (List.filter (fun x => aims s x n) (subs s)) as [|x L] eqn:FL.
  { exists []. split; [reflexivity|]. subst to. rewrite <- filter_filter, FL. constructor. }
  cbn [map]. rewrite EC, VN, VO. cbn [andb is_some negb].
  change (link_to x n :: map (fun x => link_to x n) L) with (map (fun x => link_to x n) (x :: L)). destruct ev as [name ch data]. cbn in EC. subst ch.
  cbn [ev_name ev_data] in *. destruct (change_loop h s sent n name data vn vo H VN VO (x :: L) 0%nat 0 data) as (ms & E & F).
  - intros y I. rewrite <- FL in I. now apply filter_In in I.
  - intros y I. rewrite <- FL in I. apply filter_In in I as [I A]. now apply EV.
  - reflexivity.
  - rewrite E. cbn [obind]. rewrite <- FL, filter_filter in E, F |- *. fold to in F |- *. exists ms. split; [|exact F]. unfold result_of. now rewrite err_zero.
Qed.
Lemma told_forall2 h name data vn : forall L ms x, Forall2 (msg_ok h name data vn) L ms -> distinct (map s_key L) -> k_filter (s_key x) <> FNull -> plain_filter (k_filter (s_key x)) = true ->
  (forall y, In y L -> same_key (s_key x) (s_key y) = true -> y = x) ->
  flat_map (told_by (s_key x)) ms = if existsb (fun y => same_key (s_key x) (s_key y)) L then [h (k_filter (s_key x)) vn] else [].
Proof.
  induction 1 as [|y m L ms M _ IH]; intros D FN P U; [reflexivity|]. cbn [flat_map existsb]. destruct D as [D1 D2]. destruct M as (M1 & _ & _ & M2 & _).
  unfold told_by at 1. rewrite M1. destruct (same_key (s_key x) (s_key y)) eqn:E.
  - assert (y = x) as -> by (apply U; [now left|exact E]). cbn [orb]. rewrite (M2 FN). cbn [app]. f_equal.
    rewrite IH; try assumption; [|intros z I; apply U; now right]. destruct (existsb (fun y => same_key (s_key x) (s_key y)) L) eqn:EX; [|reflexivity].
    exfalso. apply existsb_exists in EX as (z & I & K). rewrite D1 in K; [discriminate K|]. now apply in_map.
  - cbn [app orb]. apply IH; try assumption. intros z I. apply U. now right.
Qed.
Lemma unique_key s x y : W s -> In x (subs s) -> In y (subs s) -> same_key (s_key x) (s_key y) = true -> x = y.
Proof.
  intros H I J E. pose proof (w_k s H) as [D _]. apply in_split in I as (a & b & I). rewrite I in *. rewrite map_app in D. apply distinct_app in D as (_ & (D2 & _) & D4).
  apply in_app_or in J as [J|[J|J]]; [|exact J|].
  - exfalso. rewrite same_key_sym in E. rewrite D4 in E; [discriminate E|now apply in_map|now left].
  - exfalso. rewrite D2 in E; [discriminate E|now apply in_map].
Qed.
Lemma change_told h s sent n name x : W s -> R s -> sound_refs s -> In x (subs s) -> aims s x n = true -> k_raw (s_key x) = false -> k_filter (s_key x) <> FNull ->
  forall vs vo, (forall v, In v (vo :: vs) -> forall y, In y (subs s) -> aims s y n = true -> evaluates h v (k_filter (s_key y))) ->
  exists ms, changes s sent n name vo vs = Ok ms /\
  flat_map (told_by (s_key x)) ms = turns (h (k_filter (s_key x)) vo) (map (h (k_filter (s_key x))) vs).
Proof.
  intros H HR SR I A KR FN. induction vs as [|vn vs IH]; intros vo EV; [exists []; split; reflexivity|]. cbn [changes].
  destruct (publish_change h s sent n (change name vo vn) vn vo H HR SR eq_refl) as (ms & E & F).
  - reflexivity.
  - unfold change. cbn [ev_data get_prop]. change (bytes_eqb (bs "value") (bs "oldValue")) with false. now rewrite bytes_eqb_refl.
  - intros y Iy Ay. split; apply EV; auto; cbn; auto.
  - rewrite E. assert (existsb (fun y => aims s y n) (subs s) = true) as -> by (apply existsb_exists; eauto). cbn [obind].
    destruct (IH vn) as (ms' & -> & T). { intros v Iv. apply EV. now right. }
    cbn [obind]. eexists. split; [reflexivity|]. rewrite flat_map_app, T. cbn [map turns]. pose proof (w_k s H) as [D P].
    rewrite (told_forall2 _ _ _ _ _ _ x F); [|now apply distinct_filter|exact FN|now apply P|].
    2:{ intros y Iy Ey. symmetry. apply filter_In in Iy as [Iy _]. now apply (unique_key s). }
    assert (existsb (fun y => same_key (s_key x) (s_key y)) (List.filter (fun x => aims s x n && (fires h vn vo (k_filter (s_key x)) && negb (k_raw (s_key x)))) (subs s)) =
            negb (eqb (h (k_filter (s_key x)) vn) (h (k_filter (s_key x)) vo))) as ->.
    { set (f := negb _). assert (fires h vn vo (k_filter (s_key x)) = f) as FF by (unfold fires; destruct (k_filter (s_key x)); [congruence|reflexivity..]).
      destruct f.
      - apply existsb_exists. exists x. split; [|apply same_key_refl; now apply P]. apply filter_In. split; [exact I|]. now rewrite A, FF, KR.
      - match goal with |- ?X = _ => destruct X eqn:EX; [|reflexivity] end. apply existsb_exists in EX as (y & Iy & Ey). apply filter_In in Iy as [Iy Fy].
        assert (x = y) as <- by now apply (unique_key s). rewrite A, FF in Fy. discriminate Fy. }
    destruct (h (k_filter (s_key x)) vn), (h (k_filter (s_key x)) vo); reflexivity.
Qed.
Lemma turns_alternate : forall l b, alternates b (turns b l).
Proof.
  induction l as [|c l IH]; intros b; cbn; [exact I|]. destruct (eqb b c) eqn:E; [apply IH|]. cbn. split; [|apply IH]. destruct b, c; try discriminate E; reflexivity.
Qed.
Lemma turns_last : forall l b, last (turns b l) b = last l b.
Proof.
  induction l as [|c l IH]; intros b; [reflexivity|]. assert (forall (m : list bool) d e, m <> [] -> last m d = last m e) as LN.
  { induction m as [|x m IHm]; intros d e NE; [congruence|]. destruct m; [reflexivity|]. cbn in *. apply IHm. discriminate. }
  assert (forall (m : list bool) d e, last (d :: m) e = last m d) as LC. { induction m as [|x m IHm]; intros d e; [reflexivity|]. cbn [last] in *. destruct m; [reflexivity|]. now rewrite <- (IHm d e). }
  rewrite LC. cbn [turns]. destruct (eqb b c) eqn:E; [apply eqb_prop in E; subst; apply IH|]. rewrite LC. apply IH.
Qed.

(** ** the handler's view *)
Lemma replay_app : forall a b ks, replay (a ++ b) ks = replay b (replay a ks).
Proof. induction a as [|c a IH]; intros b ks; [reflexivity|]. cbn. destruct (negb (c_err c =? 0)); [apply IH|]. destruct (c_action c); apply IH. Qed.
Lemma without_none l k : holds l k = false -> without l k = l.
Proof. intros H. apply filter_all. intros j I. apply negb_true_iff. destruct (same_key k j) eqn:E; [|reflexivity]. unfold holds in H. symmetry. rewrite <- H. apply existsb_exists. eauto. Qed.
