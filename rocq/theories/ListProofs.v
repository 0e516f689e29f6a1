From Verif Require Import Common CommonFacts ListModel ListSpec.

Arguments opt_eqb a b : simpl nomatch.

Definition fst_id (l : slist) (nxt : option nat) : option nat :=
  match l with [] => nxt | (i, _) :: _ => Some i end.
Fixpoint last_id (p : option nat) (l : slist) : option nat :=
  match l with [] => p | (i, _) :: l' => last_id (Some i) l' end.

(** A doubly linked segment of the heap. *)
Fixpoint seg (h : list lnode) (p : option nat) (l : slist) (nxt : option nat) : Prop :=
  match l with
  | [] => True
  | (i, d) :: l' => nth_error h i = Some (mkN d (fst_id l' nxt) p) /\ seg h (Some i) l' nxt
  end.
(** A singly linked free chain. *)
Fixpoint fseg (h : list lnode) (l : slist) : Prop :=
  match l with
  | [] => True
  | (i, d) :: l' => (exists p, nth_error h i = Some (mkN d (fst_id l' None) p)) /\ fseg h l'
  end.

Definition linv (r : rlist) (s : sstate) : Prop :=
  exists fr, map snd fr = snd s /\
    seg (l_heap r) None (fst s) None /\ fseg (l_heap r) fr /\
    NoDup (ids (fst s) ++ ids fr) /\
    l_front r = fst_id (fst s) None /\ l_back r = last_id None (fst s) /\
    l_free r = fst_id fr None /\ l_size r = length (fst s).

Lemma fst_id_app a b n : fst_id (a ++ b) n = fst_id a (fst_id b n).
Proof. destruct a as [|[i d] a]; reflexivity. Qed.
Lemma last_id_app a b p : last_id p (a ++ b) = last_id (last_id p a) b.
Proof. revert p; induction a as [|[i d] a IH]; intros p; cbn [app last_id]; auto. Qed.

Lemma seg_app h a b : forall p n,
  seg h p (a ++ b) n <-> seg h p a (fst_id b n) /\ seg h (last_id p a) b n.
Proof.
  induction a as [|[i d] a IH]; intros p n; cbn [app seg last_id]; [tauto|].
  rewrite IH, fst_id_app. tauto.
Qed.

Definition agree (h h' : list lnode) (l : list nat) : Prop :=
  forall i, In i l -> nth_error h' i = nth_error h i.

Lemma seg_frame h h' l : agree h h' (ids l) -> forall p n, seg h p l n -> seg h' p l n.
Proof.
  induction l as [|[i d] l IH]; intros A p n; cbn [seg]; auto. intros [H1 H2]. split.
  - rewrite A; auto. left; reflexivity.
  - apply IH; auto. intros j Hj. apply A. right; auto.
Qed.
Lemma fseg_frame h h' l : agree h h' (ids l) -> fseg h l -> fseg h' l.
Proof.
  induction l as [|[i d] l IH]; intros A; cbn [fseg]; auto. intros [[p H1] H2]. split.
  - exists p. rewrite A; auto. left; reflexivity.
  - apply IH; auto. intros j Hj. apply A. right; auto.
Qed.

Lemma ids_app a b : ids (a ++ b) = ids a ++ ids b.
Proof. apply map_app. Qed.

Lemma last_id_snoc p a i d : last_id p (a ++ [(i, d)]) = Some i.
Proof. rewrite last_id_app. reflexivity. Qed.

Lemma snoc_cases {A} (a : list A) : a = [] \/ exists a0 x, a = a0 ++ [x].
Proof. destruct a using rev_ind; eauto. Qed.

Lemma last_id_none a : last_id None a = first_id (rev a).
Proof.
  destruct (snoc_cases a) as [->|(a0 & [i d] & ->)]; [reflexivity|].
  rewrite last_id_snoc, rev_unit. reflexivity.
Qed.
Lemma fst_id_none l : fst_id l None = first_id l.
Proof. destruct l as [|[i d] l]; reflexivity. Qed.

(** Changing the link out of the last node / into the first node. *)
Lemma seg_relink_last h h' a i x n n' p :
  NoDup (ids (a ++ [(i, x)])) ->
  seg h p (a ++ [(i, x)]) n -> agree h h' (ids a) ->
  nth_error h' i = Some (mkN x n' (last_id p a)) -> seg h' p (a ++ [(i, x)]) n'.
Proof.
  intros N S A E. rewrite seg_app in *. destruct S as [S1 S2]. split.
  - eapply seg_frame; eauto.
  - cbn [seg]. auto.
Qed.
Lemma seg_relink_first h h' i x b n p p' :
  seg h p ((i, x) :: b) n -> agree h h' (ids b) ->
  nth_error h' i = Some (mkN x (fst_id b n) p') -> seg h' p' ((i, x) :: b) n.
Proof. cbn [seg]. intros [S1 S2] A E. split; auto. eapply seg_frame; eauto. Qed.

Lemma seg_in h l : forall p n i, seg h p l n -> In i (ids l) -> exists m, nth_error h i = Some m.
Proof.
  induction l as [|[j d] l IH]; cbn [seg ids map fst In]; intros p n i S H; [destruct H|].
  destruct S as [S1 S2]. destruct H as [<-|H]; eauto.
Qed.

(** Linking a new node [i] between [a] and [b]. *)
Lemma seg_insert h h' a b i d :
  seg h None (a ++ b) None -> NoDup (ids (a ++ b)) -> ~ In i (ids (a ++ b)) ->
  nth_error h' i = Some (mkN d (fst_id b None) (last_id None a)) ->
  (forall j n, In j (ids (a ++ b)) -> nth_error h j = Some n ->
     nth_error h' j = Some (mkN (n_data n)
        (if opt_eqb (Some j) (last_id None a) then Some i else n_next n)
        (if opt_eqb (Some j) (fst_id b None) then Some i else n_prev n))) ->
  seg h' None (a ++ (i, d) :: b) None.
Proof.
  intros S N Hi E U. rewrite seg_app in S. destruct S as [Sa Sb].
  rewrite seg_app. split.
  - (* a *)
    destruct (snoc_cases a) as [->|(a0 & [j x] & ->)]; [exact I|].
    rewrite last_id_snoc in *. rewrite <- app_assoc, ids_app in N. cbn [app ids map fst] in N.
    assert (Hj : ~ In j (ids a0) /\ ~ In j (ids b)).
    { apply NoDup_remove in N as [_ N]. rewrite in_app_iff in N. tauto. }
    apply (seg_relink_last h h' a0 j x (fst_id b None)).
    + rewrite ids_app. cbn. apply nodup_app_l with (b := ids b). rewrite <- app_assoc. exact N.
    + exact Sa.
    + intros k Hk. rewrite seg_app in Sa. destruct Sa as [Sa _].
      assert (exists n, nth_error h k = Some n) as [n En].
      { eapply seg_in; eauto. }
      rewrite (U k n); auto.
      * rewrite En. cbn [opt_eqb]. destruct (Nat.eqb_spec k j) as [->|_]; [tauto|].
        assert (opt_eqb (Some k) (fst_id b None) = false) as ->.
        { destruct b as [|[b0 db] b]; [reflexivity|]. cbn [fst_id opt_eqb]. apply Nat.eqb_neq. intros ->.
          apply (in_split) in Hk as (u & v & Hk). rewrite Hk in N.
          rewrite <- app_assoc in N. cbn [app] in N. apply NoDup_remove_2 in N. apply N.
          rewrite !in_app_iff. right. right. right. cbn. auto. }
        destruct n; reflexivity.
      * rewrite !ids_app, !in_app_iff. auto.
    + rewrite seg_app in Sa. destruct Sa as [_ [Sj _]]. erewrite (U j); [|rewrite !ids_app, !in_app_iff; cbn; auto|exact Sj].
      cbn [n_data n_prev n_next opt_eqb]. rewrite Nat.eqb_refl.
      assert (opt_eqb (Some j) (fst_id b None) = false) as ->.
      { destruct b as [|[b0 db] b]; [reflexivity|]. cbn [fst_id opt_eqb]. apply Nat.eqb_neq. intros ->.
        destruct Hj as [_ Hj]. apply Hj. left; reflexivity. }
      reflexivity.
  - cbn [seg]. split; [exact E|].
    destruct b as [|[j x] b]; [exact I|]. cbn [fst_id] in *.
    rewrite ids_app in N. cbn [ids map fst] in N.
    assert (Hj : ~ In j (ids a) /\ ~ In j (ids b)).
    { apply NoDup_remove in N as [_ N]. rewrite in_app_iff in N. tauto. }
    assert (La : forall k, In k (ids ((j, x) :: b)) -> opt_eqb (Some k) (last_id None a) = false).
    { intros k Hk. destruct (snoc_cases a) as [->|(a0 & [i0 d0] & ->)]; [reflexivity|].
      rewrite last_id_snoc. cbn [opt_eqb]. apply Nat.eqb_neq. intros ->.
      rewrite ids_app in N. cbn in N. rewrite <- app_assoc in N. cbn [app] in N.
      apply NoDup_remove_2 in N. apply N. rewrite in_app_iff. right. exact Hk. }
    apply (seg_relink_first h h' j x b None (last_id None a)).
    + exact Sb.
    + intros k Hk. cbn [seg] in Sb. destruct Sb as [_ Sb].
      assert (exists n, nth_error h k = Some n) as [n En].
      { eapply seg_in; eauto. }
      rewrite (U k n); auto.
      * rewrite En, La by (right; auto). cbn [opt_eqb]. destruct (Nat.eqb_spec k j) as [->|_]; [tauto|].
        destruct n; reflexivity.
      * rewrite ids_app, in_app_iff. right; right; auto.
    + destruct Sb as [Sj _]. erewrite (U j); [|rewrite ids_app, in_app_iff; right; left; auto|exact Sj].
      cbn [n_data n_prev n_next]. rewrite La by (left; auto). cbn [opt_eqb]. rewrite Nat.eqb_refl. reflexivity.
Qed.

Lemma seg_at h p a i d b n : seg h p (a ++ (i, d) :: b) n ->
  nth_error h i = Some (mkN d (fst_id b n) (last_id p a)).
Proof. rewrite seg_app. cbn [seg]. tauto. Qed.

Lemma fseg_in h l : forall i, fseg h l -> In i (ids l) -> exists m, nth_error h i = Some m.
Proof.
  induction l as [|[j d] l IH]; cbn [fseg ids map fst In]; intros i S H; [destruct H|].
  destruct S as [[q S1] S2]. destruct H as [<-|H]; eauto.
Qed.

Lemma store_ok h i f n : nth_error h i = Some n -> store h (Some i) f = Ok (upd h i (f n)).
Proof. intros E. unfold store. rewrite E. reflexivity. Qed.
Lemma deref_ok h i n : nth_error h i = Some n -> deref h (Some i) = Ok n.
Proof. intros E. unfold deref. rewrite E. reflexivity. Qed.

(** Taking a node off the free chain (or allocating one) and setting its data. *)
Lemma alloc_ok r l pool data : linv r (l, pool) ->
  exists r1 i h n fr,
    getFreeItem r = Ok (r1, Some i) /\ set_data (l_heap r1) (Some i) data = Ok h /\
    nth_error h i = Some n /\ n_data n = new_data data pool /\
    seg h None l None /\ fseg h fr /\ map snd fr = tl pool /\
    NoDup (i :: ids l ++ ids fr) /\
    l_front r1 = fst_id l None /\ l_back r1 = last_id None l /\
    l_free r1 = fst_id fr None /\ l_size r1 = length l.
Proof.
  intros (fr & Hp & S & F & N & Ef & Eb & Er & Es). cbn [fst snd] in *.
  assert (exists r1 i n fr', getFreeItem r = Ok (r1, Some i) /\
    nth_error (l_heap r1) i = Some n /\ n_data n = hd 0%Z pool /\
    seg (l_heap r1) None l None /\ fseg (l_heap r1) fr' /\ map snd fr' = tl pool /\
    NoDup (i :: ids l ++ ids fr') /\
    l_front r1 = fst_id l None /\ l_back r1 = last_id None l /\
    l_free r1 = fst_id fr' None /\ l_size r1 = length l)
    as (r1 & i & n & fr' & E1 & E2 & E3 & S' & F' & Hp' & N' & ? & ? & ? & ?).
  { unfold getFreeItem. rewrite Er. destruct fr as [|[i d] fr]; cbn [fst_id].
    - exists (mkL (l_heap r ++ [mkN 0 None None]) (l_front r) (l_back r) None (l_size r)), (length (l_heap r)), (mkN 0 None None), [].
      cbn [l_heap l_front l_back l_free l_size]. split; [reflexivity|].
      split. { rewrite nth_error_app2, Nat.sub_diag by lia. reflexivity. }
      cbn in Hp. subst pool. split; [reflexivity|].
      assert (Hin : forall j, In j (ids l) -> j < length (l_heap r)).
      { intros j Hj. destruct (seg_in _ _ _ _ _ S Hj) as [m Hm]. apply nth_error_Some. congruence. }
      split. { eapply seg_frame; eauto. intros j Hj. apply nth_error_app1. auto. }
      split; [exact I|]. split; [reflexivity|]. cbn [ids map app]. cbn [ids map] in N. rewrite app_nil_r in *. split.
      { constructor; auto. intros Hj. apply Hin in Hj. lia. }
      auto.
    - cbn [fseg] in F. destruct F as [[q Fi] F]. rewrite (deref_ok _ _ _ Fi). cbn [obind].
      exists (mkL (l_heap r) (l_front r) (l_back r) (fst_id fr None) (l_size r)), i, (mkN d (fst_id fr None) q), fr.
      cbn [l_heap l_front l_back l_free l_size n_next n_data]. cbn [map snd] in Hp. subst pool. cbn [hd tl].
      repeat (split; [auto; fail|]). split; [|auto].
      cbn [ids map fst] in N. apply NoDup_remove in N. constructor; tauto. }
  destruct data as [x|]; cbn [set_data new_data].
  - exists r1, i, (upd (l_heap r1) i (with_data x n)), (with_data x n), fr'.
    assert (A : forall j, j <> i -> nth_error (upd (l_heap r1) i (with_data x n)) j = nth_error (l_heap r1) j).
    { intros j Hj. apply upd_nth_neq. auto. }
    inversion N' as [|? ? Hni N'']; subst. rewrite in_app_iff in Hni.
    split; [exact E1|]. split; [exact (store_ok _ _ (with_data x) _ E2)|].
    split. { rewrite nth_upd, Nat.eqb_refl, E2. reflexivity. }
    split; [reflexivity|].
    split. { eapply seg_frame; eauto. intros j Hj. apply A. intros ->. tauto. }
    split. { eapply fseg_frame; eauto. intros j Hj. apply A. intros ->. tauto. }
    auto 10.
  - exists r1, i, (l_heap r1), n, fr'. repeat (split; [auto; fail|]). auto.
Qed.

(** Re-establishing the invariant after linking the node. *)
Lemma insert_inv h h' a b i n fr pool d front back free sz :
  seg h None (a ++ b) None -> fseg h fr -> NoDup (i :: ids (a ++ b) ++ ids fr) ->
  map snd fr = pool -> nth_error h i = Some n -> n_data n = d ->
  nth_error h' i = Some (mkN d (fst_id b None) (last_id None a)) ->
  (forall j, j <> i ->
     nth_error h' j = option_map (fun n => mkN (n_data n)
        (if opt_eqb (Some j) (last_id None a) then Some i else n_next n)
        (if opt_eqb (Some j) (fst_id b None) then Some i else n_prev n)) (nth_error h j)) ->
  front = fst_id (a ++ (i, d) :: b) None -> back = last_id None (a ++ (i, d) :: b) ->
  free = fst_id fr None -> sz = length (a ++ b) ->
  linv (mkL h' front back free (S sz)) (a ++ (i, d) :: b, pool) /\ NoDup (ids (a ++ (i, d) :: b)).
Proof.
  intros S F N Hp Ei Ed Ei' U -> -> -> ->.
  inversion N as [|? ? Hni N']; subst. rewrite in_app_iff in Hni.
  assert (Nn : NoDup (ids (a ++ (i, n_data n) :: b))).
  { rewrite ids_app. cbn [ids map fst]. apply NoDup_Add with (a := i) (l := ids a ++ ids b).
    - apply Add_app.
    - rewrite <- ids_app. split; [apply nodup_app_l in N'; auto|tauto]. }
  split; [|exact Nn].
  exists fr. cbn [fst snd l_heap l_front l_back l_free l_size].
  split; [reflexivity|].
  split. { eapply (seg_insert h); eauto.
    - apply nodup_app_l in N'. auto.
    - intros j m Hj Em. rewrite U, Em by (intros ->; tauto). reflexivity. }
  split. { eapply fseg_frame; [|exact F]. intros j Hj. rewrite U by (intros ->; tauto).
    assert (D : ~ In j (ids (a ++ b))) by (intros D; exact (nodup_app_disj _ _ _ N' D Hj)).
    rewrite ids_app, in_app_iff in D.
    assert (opt_eqb (Some j) (last_id None a) = false) as ->.
    { destruct (snoc_cases a) as [->|(a0 & [i0 d0] & ->)]; [reflexivity|]. rewrite last_id_snoc. cbn [opt_eqb].
      apply Nat.eqb_neq. intros ->. apply D. left. rewrite ids_app, in_app_iff. right; left; reflexivity. }
    assert (opt_eqb (Some j) (fst_id b None) = false) as ->.
    { destruct b as [|[b0 db] b]; [reflexivity|]. cbn [fst_id opt_eqb]. apply Nat.eqb_neq. intros ->.
      apply D. right; left; reflexivity. }
    destruct (nth_error h j) as [[? ? ?]|]; reflexivity. }
  split. { apply NoDup_Add with (a := i) (l := (ids a ++ ids b) ++ ids fr).
    - rewrite ids_app. cbn [ids map fst]. rewrite <- !app_assoc. cbn [app].
      apply Add_app.
    - rewrite <- ids_app. split; [auto|]. rewrite in_app_iff. tauto. }
  split; [reflexivity|]. split; [reflexivity|]. split; [reflexivity|].
  rewrite !app_length. simpl. lia.
Qed.

Ltac heaplk := rewrite ?nth_upd, ?Nat.eqb_refl.
Ltac wcbn := unfold with_next, with_prev, with_data; cbn [n_data n_next n_prev fst_id last_id option_map opt_eqb].

Lemma push_front_ok r l pool data : linv r (l, pool) ->
  exists r' i, rtList_PushFront r data = Ok (r', Some i) /\ ~ In i (ids l) /\
    linv r' ((i, new_data data pool) :: l, tl pool) /\ NoDup (ids ((i, new_data data pool) :: l)).
Proof.
  intros R. destruct (alloc_ok r l pool data R) as (r1 & i & h & n & fr & E1 & E2 & En & Ed & S & F & Hp & N & Ef & Eb & Er & Es).
  assert (Hni : ~ In i (ids l)). { inversion N; subst. rewrite in_app_iff in *. tauto. }
  unfold rtList_PushFront. rewrite E1. cbn [obind]. rewrite E2. cbn [obind].
  rewrite (store_ok _ _ _ _ En). cbn [obind]. erewrite store_ok by (heaplk; rewrite En; reflexivity). cbn [obind].
  rewrite Ef.
  destruct l as [|[j x] l]; cbn [fst_id is_some obind].
  - eexists _, i. split; [reflexivity|]. split; [auto|].
    apply (insert_inv h _ [] [] i n fr (tl pool) (new_data data pool)); auto.
    + heaplk. rewrite En. wcbn. rewrite Ed. reflexivity.
    + intros k Hk. heaplk. destruct (Nat.eqb_spec i k) as [->|_]; [congruence|]. wcbn.
      destruct (nth_error h k) as [[? ? ?]|]; reflexivity.
    + rewrite Eb. reflexivity.
  - assert (Hji : i <> j) by (intros ->; apply Hni; left; reflexivity).
    pose proof S as [Sj _].
    erewrite store_ok.
    2: { heaplk. destruct (Nat.eqb_spec i j); [congruence|]. exact Sj. }
    cbn [obind]. eexists _, i. split; [reflexivity|]. split; [auto|].
    apply (insert_inv h _ [] ((j, x) :: l) i n fr (tl pool) (new_data data pool)); auto.
    + heaplk. destruct (Nat.eqb_spec j i); [congruence|]. rewrite En. wcbn. rewrite Ed. reflexivity.
    + intros k Hk. heaplk. cbn [last_id fst_id opt_eqb]. destruct (Nat.eqb_spec j k) as [->|Hjk].
      * destruct (Nat.eqb_spec i k); [congruence|]. rewrite Sj. wcbn. rewrite Nat.eqb_refl. reflexivity.
      * destruct (Nat.eqb_spec i k); [congruence|]. destruct (Nat.eqb_spec k j); [congruence|].
        destruct (nth_error h k) as [[? ? ?]|]; reflexivity.
    + rewrite Eb. cbn [last_id app].
      assert (forall m y, last_id (Some y) m <> None) as Q.
      { clear. induction m as [|[u v] m IH]; cbn [last_id]; intros y; [discriminate|apply IH]. }
      destruct (last_id (Some j) l) eqn:E; [reflexivity|]. destruct (Q _ _ E).
Qed.

Lemma push_back_ok r l pool data : linv r (l, pool) ->
  exists r' i, rtList_PushBack r data = Ok (r', Some i) /\ ~ In i (ids l) /\
    linv r' (l ++ [(i, new_data data pool)], tl pool) /\ NoDup (ids (l ++ [(i, new_data data pool)])).
Proof.
  intros R. destruct (alloc_ok r l pool data R) as (r1 & i & h & n & fr & E1 & E2 & En & Ed & S & F & Hp & N & Ef & Eb & Er & Es).
  assert (Hni : ~ In i (ids l)). { inversion N; subst. rewrite in_app_iff in *. tauto. }
  unfold rtList_PushBack. rewrite E1. cbn [obind]. rewrite E2. cbn [obind].
  rewrite (store_ok _ _ _ _ En). cbn [obind]. erewrite store_ok by (heaplk; rewrite En; reflexivity). cbn [obind].
  rewrite Eb.
  destruct (snoc_cases l) as [->|(a0 & [j x] & ->)]; cbn [last_id is_some obind].
  - eexists _, i. split; [reflexivity|]. split; [auto|].
    apply (insert_inv h _ [] [] i n fr (tl pool) (new_data data pool)); auto.
    + heaplk. rewrite En. wcbn. rewrite Ed. reflexivity.
    + intros k Hk. heaplk. destruct (Nat.eqb_spec i k) as [->|_]; [congruence|]. wcbn.
      destruct (nth_error h k) as [[? ? ?]|]; reflexivity.
    + rewrite Ef. reflexivity.
  - assert (Hji : i <> j) by (intros ->; apply Hni; rewrite ids_app, in_app_iff; right; left; reflexivity).
    pose proof (seg_at _ _ _ _ _ _ _ S) as Sj. rewrite last_id_snoc. cbn [is_some].
    erewrite store_ok.
    2: { heaplk. destruct (Nat.eqb_spec i j); [congruence|]. exact Sj. }
    cbn [obind]. eexists _, i. split; [reflexivity|]. split; [auto|].
    apply (insert_inv h _ (a0 ++ [(j, x)]) [] i n fr (tl pool) (new_data data pool)); rewrite ?app_nil_r; auto.
    + heaplk. destruct (Nat.eqb_spec j i); [congruence|]. rewrite En. wcbn. rewrite Ed, last_id_snoc. reflexivity.
    + intros k Hk. heaplk. rewrite last_id_snoc. cbn [fst_id opt_eqb]. destruct (Nat.eqb_spec j k) as [->|Hjk].
      * destruct (Nat.eqb_spec i k); [congruence|]. rewrite Sj. wcbn. rewrite Nat.eqb_refl. reflexivity.
      * destruct (Nat.eqb_spec i k); [congruence|]. destruct (Nat.eqb_spec k j); [congruence|].
        destruct (nth_error h k) as [[? ? ?]|]; reflexivity.
    + rewrite Ef. rewrite !fst_id_app. destruct a0 as [|[u v] a0]; reflexivity.
    + rewrite last_id_app. reflexivity.
Qed.

Lemma last_id_in a i d b : NoDup (ids (a ++ (i, d) :: b)) -> opt_eqb (Some i) (last_id None a) = false.
Proof.
  intros N. destruct (snoc_cases a) as [->|(a0 & [j x] & ->)]; [reflexivity|]. rewrite last_id_snoc. cbn [opt_eqb].
  apply Nat.eqb_neq. intros ->. rewrite <- app_assoc, ids_app in N. cbn in N.
  apply NoDup_remove_2 in N. apply N. rewrite in_app_iff. right. left. reflexivity.
Qed.
Lemma fst_id_in a i d b : NoDup (ids (a ++ (i, d) :: b)) -> opt_eqb (Some i) (fst_id b None) = false.
Proof.
  intros N. destruct b as [|[j x] b]; [reflexivity|]. cbn [fst_id opt_eqb].
  apply Nat.eqb_neq. intros ->. rewrite ids_app in N. cbn in N.
  apply NoDup_remove_2 in N. apply N. rewrite in_app_iff. right. left. reflexivity.
Qed.

Lemma insert_before_ok r a j x b pool data : linv r (a ++ (j, x) :: b, pool) ->
  exists r' i, rtList_InsertBefore r data (Some j) = Ok (r', Some i) /\ ~ In i (ids (a ++ (j, x) :: b)) /\
    linv r' (a ++ (i, new_data data pool) :: (j, x) :: b, tl pool) /\ NoDup (ids (a ++ (i, new_data data pool) :: (j, x) :: b)).
Proof.
  intros R. destruct (alloc_ok r _ pool data R) as (r1 & i & h & n & fr & E1 & E2 & En & Ed & S & F & Hp & N & Ef & Eb & Er & Es).
  assert (Hni : ~ In i (ids (a ++ (j, x) :: b))). { inversion N; subst. rewrite in_app_iff in *. tauto. }
  assert (Nl : NoDup (ids (a ++ (j, x) :: b))). { inversion N; subst. eapply nodup_app_l; eauto. }
  unfold rtList_InsertBefore. cbn [is_some negb]. rewrite E1. cbn [obind]. rewrite E2. cbn [obind].
  rewrite (store_ok _ _ _ _ En). cbn [obind].
  assert (Hji : i <> j) by (intros ->; apply Hni; rewrite ids_app, in_app_iff; right; left; reflexivity).
  pose proof (seg_at _ _ _ _ _ _ _ S) as Sj.
  erewrite deref_ok by (heaplk; destruct (Nat.eqb_spec i j); [congruence|]; exact Sj). cbn [obind n_prev].
  erewrite store_ok by (heaplk; rewrite En; reflexivity). cbn [obind].
  erewrite store_ok by (heaplk; destruct (Nat.eqb_spec i j); [congruence|]; exact Sj). cbn [obind].
  rewrite Ef. destruct (snoc_cases a) as [->|(a0 & [q y] & ->)].
  - cbn [app fst_id opt_eqb]. rewrite Nat.eqb_refl. eexists _, i. split; [reflexivity|]. split; [auto|].
    apply (insert_inv h _ [] ((j, x) :: b) i n fr (tl pool) (new_data data pool)); auto.
    + heaplk. destruct (Nat.eqb_spec j i); [congruence|]. rewrite En. wcbn. rewrite Ed. reflexivity.
    + intros k Hk. heaplk. cbn [last_id fst_id opt_eqb]. destruct (Nat.eqb_spec j k) as [->|Hjk].
      * destruct (Nat.eqb_spec i k); [congruence|]. cbn [app last_id] in Sj. rewrite Sj. wcbn. rewrite Nat.eqb_refl. reflexivity.
      * destruct (Nat.eqb_spec i k); [congruence|]. destruct (Nat.eqb_spec k j); [congruence|].
        destruct (nth_error h k) as [[? ? ?]|]; reflexivity.
  - assert (Hq : q <> i) by (intros ->; apply Hni; rewrite !ids_app, !in_app_iff; left; right; left; reflexivity).
    assert (Hqj : q <> j).
    { intros ->. rewrite <- app_assoc, ids_app in Nl. cbn in Nl. apply NoDup_remove_2 in Nl. apply Nl. rewrite in_app_iff. right; left; reflexivity. }
    assert (Sq : nth_error h q = Some (mkN y (Some j) (last_id None a0))).
    { rewrite <- app_assoc in S. cbn [app] in S. apply (seg_at _ _ _ _ _ _ _ S). }
    assert (opt_eqb (Some j) (fst_id ((a0 ++ [(q, y)]) ++ (j, x) :: b) None) = false) as ->.
    { rewrite <- app_assoc, fst_id_app. cbn [app fst_id].
      destruct a0 as [|[q0 y0] a0]; cbn [fst_id opt_eqb]; apply Nat.eqb_neq; [congruence|]. intros ->.
      rewrite <- app_assoc in Nl. cbn in Nl. inversion Nl as [|? ? Hx _]; subst. apply Hx.
      rewrite map_app, in_app_iff. right. right. left. reflexivity. }
    erewrite deref_ok.
    2: { heaplk. destruct (Nat.eqb_spec j i); [congruence|]. rewrite En. reflexivity. }
    cbn [obind n_prev with_prev]. rewrite last_id_snoc.
    erewrite store_ok.
    2: { heaplk. destruct (Nat.eqb_spec j q); [congruence|]. destruct (Nat.eqb_spec i q); [congruence|]. exact Sq. }
    cbn [obind]. eexists _, i. split; [reflexivity|]. split; [auto|].
    apply (insert_inv h _ (a0 ++ [(q, y)]) ((j, x) :: b) i n fr (tl pool) (new_data data pool)); auto.
    + heaplk. destruct (Nat.eqb_spec q i); [congruence|]. destruct (Nat.eqb_spec j i); [congruence|].
      rewrite En. wcbn. rewrite Ed, last_id_snoc. reflexivity.
    + intros k Hk. heaplk. rewrite last_id_snoc. cbn [fst_id opt_eqb].
      destruct (Nat.eqb_spec q k) as [->|].
      * destruct (Nat.eqb_spec j k); [congruence|]. destruct (Nat.eqb_spec i k); [congruence|].
        rewrite Sq. wcbn. rewrite Nat.eqb_refl. destruct (Nat.eqb_spec k j); [congruence|]. reflexivity.
      * destruct (Nat.eqb_spec k q); [congruence|]. destruct (Nat.eqb_spec j k) as [->|].
        -- destruct (Nat.eqb_spec i k); [congruence|]. rewrite Sj. wcbn. rewrite Nat.eqb_refl, ?last_id_snoc. reflexivity.
        -- destruct (Nat.eqb_spec i k); [congruence|]. destruct (Nat.eqb_spec k j); [congruence|].
           destruct (nth_error h k) as [[? ? ?]|]; reflexivity.
    + rewrite !fst_id_app. destruct a0 as [|[u v] a0]; reflexivity.
    + rewrite Eb. rewrite !last_id_app. reflexivity.
Qed.

Lemma last_id_some m : forall y z, last_id (Some y) m = z -> exists w, z = Some w.
Proof. induction m as [|[u v] m IH]; cbn [last_id]; intros y z <-; eauto. Qed.

Lemma last_id_start m y y' : m <> [] -> last_id y m = last_id y' m.
Proof. destruct m as [|[u v] m]; [congruence|reflexivity]. Qed.

Lemma insert_after_ok r a j x b pool data : linv r (a ++ (j, x) :: b, pool) ->
  exists r' i, rtList_InsertAfter r data (Some j) = Ok (r', Some i) /\ ~ In i (ids (a ++ (j, x) :: b)) /\
    linv r' (a ++ (j, x) :: (i, new_data data pool) :: b, tl pool) /\ NoDup (ids (a ++ (j, x) :: (i, new_data data pool) :: b)).
Proof.
  intros R. destruct (alloc_ok r _ pool data R) as (r1 & i & h & n & fr & E1 & E2 & En & Ed & S & F & Hp & N & Ef & Eb & Er & Es).
  assert (Hni : ~ In i (ids (a ++ (j, x) :: b))). { inversion N; subst. rewrite in_app_iff in *. tauto. }
  assert (Nl : NoDup (ids (a ++ (j, x) :: b))). { inversion N; subst. eapply nodup_app_l; eauto. }
  unfold rtList_InsertAfter. cbn [is_some negb]. rewrite E1. cbn [obind]. rewrite E2. cbn [obind].
  assert (Hji : i <> j) by (intros ->; apply Hni; rewrite ids_app, in_app_iff; right; left; reflexivity).
  pose proof (seg_at _ _ _ _ _ _ _ S) as Sj.
  rewrite (deref_ok _ _ _ Sj). cbn [obind n_next].
  rewrite (store_ok _ _ _ _ En). cbn [obind].
  erewrite store_ok by (heaplk; rewrite En; reflexivity). cbn [obind].
  erewrite store_ok by (heaplk; destruct (Nat.eqb_spec i j); [congruence|]; exact Sj). cbn [obind].
  rewrite Eb.
  assert (EQ : forall z, a ++ (j, x) :: z = (a ++ [(j, x)]) ++ z) by (intros z; rewrite <- app_assoc; reflexivity).
  replace (a ++ (j, x) :: b) with ((a ++ [(j, x)]) ++ b) in * by (rewrite <- app_assoc; reflexivity).
  destruct b as [|[q y] b].
  - rewrite app_nil_r, last_id_snoc. cbn [opt_eqb]. rewrite Nat.eqb_refl. eexists _, i. split; [reflexivity|].
    rewrite app_nil_r in *. split; [auto|]. rewrite (EQ [(i, _)]).
    apply (insert_inv h _ (a ++ [(j, x)]) [] i n fr (tl pool) (new_data data pool)); rewrite ?app_nil_r; auto.
    + heaplk. destruct (Nat.eqb_spec j i); [congruence|]. rewrite En. wcbn. rewrite Ed, last_id_snoc. reflexivity.
    + intros k Hk. heaplk. rewrite last_id_snoc. cbn [fst_id opt_eqb]. destruct (Nat.eqb_spec j k) as [->|Hjk].
      * destruct (Nat.eqb_spec i k); [congruence|]. rewrite Sj. wcbn. rewrite Nat.eqb_refl. reflexivity.
      * destruct (Nat.eqb_spec i k); [congruence|]. destruct (Nat.eqb_spec k j); [congruence|].
        destruct (nth_error h k) as [[? ? ?]|]; reflexivity.
    + rewrite Ef, !fst_id_app. destruct a as [|[u v] a]; reflexivity.
    + rewrite last_id_app. reflexivity.
  - assert (Hq : q <> i) by (intros ->; apply Hni; rewrite !ids_app, !in_app_iff; right; left; reflexivity).
    assert (Hqj : j <> q).
    { intros ->. rewrite <- app_assoc, ids_app in Nl. cbn in Nl. apply NoDup_remove_2 in Nl. apply Nl. rewrite in_app_iff. right; left; reflexivity. }
    assert (Sq : nth_error h q = Some (mkN y (fst_id b None) (Some j))).
    { rewrite (seg_at _ _ _ _ _ _ _ S), last_id_snoc. reflexivity. }
    assert (opt_eqb (Some j) (last_id None ((a ++ [(j, x)]) ++ (q, y) :: b)) = false) as ->.
    { rewrite last_id_app. cbn [last_id]. destruct (snoc_cases b) as [->|(b0 & [q0 y0] & ->)].
      - cbn [last_id opt_eqb]. apply Nat.eqb_neq. congruence.
      - rewrite last_id_snoc. cbn [opt_eqb]. apply Nat.eqb_neq. intros <-.
        rewrite <- app_assoc, ids_app in Nl. cbn in Nl. apply NoDup_remove_2 in Nl. apply Nl.
        rewrite in_app_iff. right. right. rewrite map_app, in_app_iff. right. left. reflexivity. }
    erewrite deref_ok.
    2: { heaplk. destruct (Nat.eqb_spec j i); [congruence|]. rewrite En. reflexivity. }
    cbn [obind n_next with_prev with_next fst_id].
    erewrite store_ok.
    2: { heaplk. destruct (Nat.eqb_spec j q); [congruence|]. destruct (Nat.eqb_spec i q); [congruence|]. exact Sq. }
    cbn [obind]. eexists _, i. split; [reflexivity|]. split; [auto|]. rewrite (EQ ((i, _) :: _ :: _)).
    apply (insert_inv h _ (a ++ [(j, x)]) ((q, y) :: b) i n fr (tl pool) (new_data data pool)); auto.
    + heaplk. destruct (Nat.eqb_spec q i); [congruence|]. destruct (Nat.eqb_spec j i); [congruence|].
      rewrite En. wcbn. rewrite Ed, last_id_snoc. reflexivity.
    + intros k Hk. heaplk. rewrite last_id_snoc. cbn [fst_id opt_eqb].
      destruct (Nat.eqb_spec q k) as [->|].
      * destruct (Nat.eqb_spec j k); [congruence|]. destruct (Nat.eqb_spec i k); [congruence|].
        rewrite Sq. wcbn. rewrite Nat.eqb_refl. destruct (Nat.eqb_spec k j); [congruence|]. reflexivity.
      * destruct (Nat.eqb_spec k q); [congruence|]. destruct (Nat.eqb_spec j k) as [->|].
        -- destruct (Nat.eqb_spec i k); [congruence|]. rewrite Sj. wcbn. rewrite Nat.eqb_refl. reflexivity.
        -- destruct (Nat.eqb_spec i k); [congruence|]. destruct (Nat.eqb_spec k j); [congruence|].
           destruct (nth_error h k) as [[? ? ?]|]; reflexivity.
    + rewrite Ef, !fst_id_app. destruct a as [|[u v] a]; reflexivity.
    + rewrite !last_id_app. cbn [last_id]. reflexivity.
Qed.

(** Unlinking node [i]. *)
Lemma seg_remove h h' a b i d :
  seg h None (a ++ (i, d) :: b) None -> NoDup (ids (a ++ (i, d) :: b)) ->
  (forall j n, In j (ids (a ++ b)) -> nth_error h j = Some n ->
     nth_error h' j = Some (mkN (n_data n)
        (if opt_eqb (Some j) (last_id None a) then fst_id b None else n_next n)
        (if opt_eqb (Some j) (fst_id b None) then last_id None a else n_prev n))) ->
  seg h' None (a ++ b) None.
Proof.
  intros S N U. pose proof S as S0. rewrite seg_app in S. destruct S as [Sa Sb]. cbn [seg] in Sb. destruct Sb as [Si Sb].
  cbn [fst_id] in Sa. rewrite seg_app. rewrite ids_app in N. cbn [ids map fst] in N.
  pose proof (NoDup_remove_1 _ _ _ N) as Nab. pose proof (NoDup_remove_2 _ _ _ N) as Hi. fold (ids b) in *.
  split.
  - destruct (snoc_cases a) as [->|(a0 & [j x] & ->)]; [exact I|].
    rewrite last_id_snoc in *. rewrite ids_app in Nab. cbn [ids map fst] in Nab. rewrite <- app_assoc in Nab. cbn [app] in Nab.
    pose proof (NoDup_remove_2 _ _ _ Nab) as Hj. rewrite in_app_iff in Hj.
    apply (seg_relink_last h h' a0 j x (Some i)).
    + rewrite ids_app. cbn. apply nodup_app_l with (b := ids b). rewrite <- app_assoc. exact Nab.
    + exact Sa.
    + intros k Hk. rewrite seg_app in Sa. destruct Sa as [Sa _].
      destruct (seg_in _ _ _ _ _ Sa Hk) as [n En].
      rewrite (U k n); auto.
      * rewrite En. cbn [opt_eqb]. destruct (Nat.eqb_spec k j) as [->|_]; [tauto|].
        assert (opt_eqb (Some k) (fst_id b None) = false) as ->.
        { destruct b as [|[b0 db] b]; [reflexivity|]. cbn [fst_id opt_eqb]. apply Nat.eqb_neq. intros ->.
          apply (nodup_app_disj _ _ b0 Nab Hk). right. left. reflexivity. }
        destruct n; reflexivity.
      * rewrite !ids_app, !in_app_iff. auto.
    + rewrite seg_app in Sa. destruct Sa as [_ [Sj _]]. erewrite (U j); [|rewrite !ids_app, !in_app_iff; cbn; auto|exact Sj].
      cbn [n_data n_prev n_next opt_eqb]. rewrite Nat.eqb_refl.
      assert (opt_eqb (Some j) (fst_id b None) = false) as ->.
      { destruct b as [|[b0 db] b]; [reflexivity|]. cbn [fst_id opt_eqb]. apply Nat.eqb_neq. intros ->.
        apply Hj. right. left; reflexivity. }
      reflexivity.
  - destruct b as [|[j x] b]; [exact I|]. cbn [fst_id] in *.
    assert (La : forall k, In k (ids ((j, x) :: b)) -> opt_eqb (Some k) (last_id None a) = false).
    { intros k Hk. destruct (snoc_cases a) as [->|(a0 & [i0 d0] & ->)]; [reflexivity|].
      rewrite last_id_snoc. cbn [opt_eqb]. apply Nat.eqb_neq. intros ->.
      apply (nodup_app_disj _ _ i0 Nab); [rewrite ids_app, in_app_iff; right; left; reflexivity|exact Hk]. }
    assert (Hj : ~ In j (ids b)).
    { apply nodup_app_r in Nab. inversion Nab; auto. }
    apply (seg_relink_first h h' j x b None (Some i)).
    + exact Sb.
    + intros k Hk. pose proof Sb as [_ Sb'].
      destruct (seg_in _ _ _ _ _ Sb' Hk) as [n En].
      rewrite (U k n); auto.
      * rewrite En, La by (right; auto). cbn [opt_eqb]. destruct (Nat.eqb_spec k j) as [->|_]; [tauto|].
        destruct n; reflexivity.
      * rewrite ids_app, in_app_iff. right; right; auto.
    + destruct Sb as [Sj _]. erewrite (U j); [|rewrite ids_app, in_app_iff; right; left; auto|exact Sj].
      cbn [n_data n_prev n_next]. rewrite La by (left; auto). cbn [opt_eqb]. rewrite Nat.eqb_refl. reflexivity.
Qed.

(** Putting node [i] on the free chain. *)
Lemma setfree_ok h fr i n : nth_error h i = Some n -> fseg h fr -> ~ In i (ids fr) ->
  exists h', setFreeItem h (fst_id fr None) (Some i) = Ok (h', Some i) /\
    fseg h' ((i, n_data n) :: fr) /\ forall j, j <> i -> ~ In j (ids fr) -> nth_error h' j = nth_error h j.
Proof.
  intros E F Hi. unfold setFreeItem. destruct fr as [|[f x] fr]; cbn [fst_id].
  - rewrite (store_ok _ _ _ _ E). cbn [obind]. erewrite store_ok by (heaplk; rewrite E; reflexivity). cbn [obind].
    eexists; split; [reflexivity|]. split.
    + cbn [fseg fst_id]. split; [|exact I]. eexists. heaplk. rewrite E. wcbn. reflexivity.
    + intros j Hj _. heaplk. destruct (Nat.eqb_spec i j); [congruence|]. reflexivity.
  - cbn [fseg] in F. destruct F as [[q Ff] F]. cbn [ids map fst In] in Hi.
    assert (Hfi : f <> i) by tauto.
    rewrite (store_ok _ _ _ _ Ff). cbn [obind].
    erewrite store_ok by (heaplk; destruct (Nat.eqb_spec f i); [congruence|]; exact E). cbn [obind].
    erewrite store_ok by (heaplk; destruct (Nat.eqb_spec f i); [congruence|]; rewrite E; reflexivity). cbn [obind].
    eexists; split; [reflexivity|]. split.
    + assert (A : forall j, j <> i -> j <> f -> nth_error (upd (upd (upd h f (with_prev (Some i) (mkN x (fst_id fr None) q))) i (with_next (Some f) n)) i
              (with_prev None (with_next (Some f) n))) j = nth_error h j).
      { intros j H1 H2. heaplk. destruct (Nat.eqb_spec i j); [congruence|]. destruct (Nat.eqb_spec f j); [congruence|]. reflexivity. }
      cbn [fseg fst_id]. split; [|split].
      * eexists. heaplk. destruct (Nat.eqb_spec f i); [congruence|]. rewrite E. wcbn. reflexivity.
      * eexists. heaplk. destruct (Nat.eqb_spec i f); [congruence|]. rewrite Ff. wcbn. reflexivity.
      * destruct (in_dec Nat.eq_dec f (ids fr)) as [Hf|Hf].
        -- (* only the prev link of f changed *)
           clear A. assert (A : forall j, j <> i -> exists p, option_map (with_prev p) (nth_error (upd (upd (upd h f (with_prev (Some i) (mkN x (fst_id fr None) q))) i (with_next (Some f) n)) i
              (with_prev None (with_next (Some f) n))) j) = option_map (with_prev p) (nth_error h j)).
           { intros j H1. exists None. heaplk. destruct (Nat.eqb_spec i j); [congruence|]. destruct (Nat.eqb_spec f j) as [->|]; [|reflexivity].
             rewrite Ff. reflexivity. }
           assert (Hi' : ~ In i (ids fr)) by tauto. revert Hi' F A. generalize (upd (upd (upd h f (with_prev (Some i) (mkN x (fst_id fr None) q))) i (with_next (Some f) n)) i
              (with_prev None (with_next (Some f) n))). clear. intros h' Hi F A.
           induction fr as [|[k y] fr IH]; cbn [fseg ids map fst In] in *; auto.
           destruct F as [[q F1] F2]. split; [|apply IH; auto].
           destruct (A k) as [p Ap]; [intros ->; tauto|]. rewrite F1 in Ap. cbn in Ap.
           destruct (nth_error h' k) as [[u v w]|]; cbn in Ap; [|discriminate]. injection Ap as -> ->. eauto.
        -- eapply fseg_frame; [|exact F]. intros j Hj. apply A; intros ->; tauto.
    + intros j H1 H2. cbn [ids map fst In] in H2. heaplk. destruct (Nat.eqb_spec i j); [congruence|].
      destruct (Nat.eqb_spec f j) as [->|]; [tauto|]. reflexivity.
Qed.

Lemma remove_item_ok r a i d b pool dz : linv r (a ++ (i, d) :: b, pool) ->
  exists r', rtList_RemoveItem r (Some i) dz = Ok r' /\
    linv r' (a ++ b, left_behind dz d :: pool) /\ NoDup (ids (a ++ b)).
Proof.
  intros (fr & Hp & S & F & N & Ef & Eb & Er & Es). cbn [fst snd] in *.
  pose proof (nodup_app_l _ _ N) as Nl.
  pose proof (seg_at _ _ _ _ _ _ _ S) as Si.
  assert (Hab : NoDup (ids a ++ ids b) /\ ~ In i (ids a ++ ids b)).
  { rewrite ids_app in Nl. cbn in Nl. apply NoDup_remove in Nl. auto. }
  destruct Hab as [Nab Hiab]. rewrite <- ids_app in Nab, Hiab.
  assert (Hfr : forall j, In j (ids fr) -> j <> i /\ ~ In j (ids (a ++ b))).
  { intros j Hj. split.
    - intros ->. apply (nodup_app_disj _ _ i N); auto. rewrite ids_app, in_app_iff. right; left; reflexivity.
    - intros H. apply (nodup_app_disj _ _ j N); auto. rewrite ids_app, in_app_iff in *. cbn. tauto. }
  (* step 1: previous node *)
  unfold rtList_RemoveItem. cbn [is_some negb]. rewrite (deref_ok _ _ _ Si). cbn [obind n_prev n_next].
  set (h0 := l_heap r) in *.
  assert (exists h1, (if is_some (last_id None a) then store h0 (last_id None a) (with_next (fst_id b None)) else Ok h0) = Ok h1 /\
     forall j, nth_error h1 j = option_map (fun n => if opt_eqb (Some j) (last_id None a) then with_next (fst_id b None) n else n) (nth_error h0 j)) as (h1 & -> & U1).
  { destruct (snoc_cases a) as [->|(a0 & [q y] & ->)].
    - cbn [last_id is_some]. exists h0. split; [reflexivity|]. intros j. cbn [opt_eqb]. destruct (nth_error h0 j); reflexivity.
    - rewrite last_id_snoc. cbn [is_some]. pose proof S as S'. rewrite <- app_assoc in S'. cbn [app] in S'. apply seg_at in S'.
      rewrite (store_ok _ _ _ _ S'). eexists; split; [reflexivity|]. intros j. heaplk. cbn [opt_eqb].
      rewrite (Nat.eqb_sym j q). destruct (Nat.eqb_spec q j) as [->|]; [rewrite S'; reflexivity|destruct (nth_error h0 j); reflexivity]. }
  cbn [obind].
  pose proof (last_id_in a i d b Nl) as L1. pose proof (fst_id_in a i d b Nl) as L2.
  assert (E1 : nth_error h1 i = Some (mkN d (fst_id b None) (last_id None a))).
  { rewrite U1, Si. cbn [option_map]. rewrite L1. reflexivity. }
  rewrite (deref_ok _ _ _ E1). cbn [obind n_next n_prev].
  assert (exists h2, (if is_some (fst_id b None) then store h1 (fst_id b None) (with_prev (last_id None a)) else Ok h1) = Ok h2 /\
     forall j, nth_error h2 j = option_map (fun n => if opt_eqb (Some j) (fst_id b None) then with_prev (last_id None a) n else n) (nth_error h1 j)) as (h2 & -> & U2).
  { destruct b as [|[q y] b].
    - cbn [fst_id is_some]. exists h1. split; [reflexivity|]. intros j. cbn [opt_eqb]. destruct (nth_error h1 j); reflexivity.
    - cbn [fst_id is_some]. assert (exists m, nth_error h1 q = Some m) as [m Em].
      { rewrite U1. destruct (seg_in _ _ _ _ q S) as [m Em]; [rewrite ids_app, in_app_iff; right; right; left; reflexivity|].
        rewrite Em. cbn [option_map]. eauto. }
      rewrite (store_ok _ _ _ _ Em). eexists; split; [reflexivity|]. intros j. heaplk. cbn [opt_eqb].
      rewrite (Nat.eqb_sym j q). destruct (Nat.eqb_spec q j) as [->|]; [rewrite Em; reflexivity|destruct (nth_error h1 j); reflexivity]. }
  cbn [obind].
  assert (E2 : nth_error h2 i = Some (mkN d (fst_id b None) (last_id None a))).
  { rewrite U2, E1. cbn [option_map]. rewrite L2. reflexivity. }
  rewrite (deref_ok _ _ _ E2). cbn [obind n_next n_prev n_data].
  assert (S2 : seg h2 None (a ++ b) None).
  { eapply seg_remove; eauto. intros j n Hj En. rewrite U2, U1, En. cbn [option_map].
    destruct (opt_eqb (Some j) (last_id None a)), (opt_eqb (Some j) (fst_id b None)); destruct n; reflexivity. }
  assert (A2 : forall j, j <> i -> ~ In j (ids (a ++ b)) -> nth_error h2 j = nth_error h0 j).
  { intros j Hj Hn. rewrite ids_app, in_app_iff in Hn. rewrite U2, U1.
    assert (opt_eqb (Some j) (last_id None a) = false) as ->.
    { destruct (snoc_cases a) as [->|(a0 & [q y] & ->)]; [reflexivity|]. rewrite last_id_snoc. cbn [opt_eqb].
      apply Nat.eqb_neq. intros ->. apply Hn. left. rewrite ids_app, in_app_iff. right; left; reflexivity. }
    assert (opt_eqb (Some j) (fst_id b None) = false) as ->.
    { destruct b as [|[q y] b]; [reflexivity|]. cbn [fst_id opt_eqb]. apply Nat.eqb_neq. intros ->. apply Hn. right; left; reflexivity. }
    destruct (nth_error h0 j); reflexivity. }
  assert (exists h3 p3, (if dz && negb (d =? 0)%Z then store h2 (Some i) (with_data 0%Z) else Ok h2) = Ok h3 /\
     nth_error h3 i = Some (mkN (left_behind dz d) (fst_id b None) p3) /\ forall j, j <> i -> nth_error h3 j = nth_error h2 j) as (h3 & p3 & -> & E3 & U3).
  { destruct dz; cbn [andb left_behind].
    - destruct (Z.eqb_spec d 0) as [->|]; cbn [negb].
      + exists h2, (last_id None a). split; [reflexivity|]. split; auto.
      + rewrite (store_ok _ _ _ _ E2). eexists _, _. split; [reflexivity|]. split.
        * heaplk. rewrite E2. wcbn. reflexivity.
        * intros j Hj. apply upd_nth_neq. auto.
    - exists h2, (last_id None a). split; [reflexivity|]. split; auto. }
  cbn [obind]. rewrite Er.
  assert (F3 : fseg h3 fr).
  { eapply fseg_frame; [|exact F]. intros j Hj. destruct (Hfr j Hj). rewrite U3, A2; auto. }
  assert (Hifr : ~ In i (ids fr)) by (intros H; destruct (Hfr i H); congruence).
  destruct (setfree_ok h3 fr i _ E3 F3 Hifr) as (h4 & -> & F4 & U4). cbn [obind n_data] in *.
  eexists; split; [reflexivity|]. split; [|exact Nab].
  exists ((i, left_behind dz d) :: fr). cbn [fst snd l_heap l_front l_back l_free l_size map].
  split; [congruence|].
  split. { eapply seg_frame; [|exact S2]. intros j Hj. rewrite U4, U3; auto.
    - intros ->. tauto.
    - intros ->. tauto.
    - intros H. destruct (Hfr j H). tauto. }
  split; [exact F4|].
  split. { cbn [ids map fst]. apply NoDup_Add with (a := i) (l := ids (a ++ b) ++ ids fr); [apply Add_app|]. split.
    - apply nodup_app_intro; auto. { eapply nodup_app_r; eauto. } intros x H1 H2. destruct (Hfr x H2); tauto.
    - rewrite in_app_iff. tauto. }
  split. { rewrite Ef. destruct a as [|[q y] a]; cbn [app fst_id opt_eqb].
    - rewrite Nat.eqb_refl. reflexivity.
    - destruct (Nat.eqb_spec q i) as [->|]; [|reflexivity]. exfalso. apply Hiab. left; reflexivity. }
  split. { rewrite Eb. rewrite last_id_app. cbn [last_id]. destruct (snoc_cases b) as [->|(b0 & [q y] & ->)].
    - cbn [last_id opt_eqb]. rewrite Nat.eqb_refl, app_nil_r. reflexivity.
    - rewrite app_assoc, !last_id_snoc. cbn [opt_eqb]. destruct (Nat.eqb_spec q i) as [->|]; [|reflexivity].
      exfalso. apply Hiab. rewrite !ids_app, !in_app_iff. right. right. left; reflexivity. }
  split; [reflexivity|]. rewrite Es, !app_length. simpl. lia.
Qed.

(** The list never has more items than nodes were allocated. *)
Lemma live_bound h l : NoDup (ids l) -> (exists p n, seg h p l n) -> length l <= length h.
Proof.
  intros N (p & n & S). rewrite <- (seq_length (length h) 0). unfold slist in *. rewrite <- (map_length fst l).
  apply NoDup_incl_length; auto. intros i Hi. apply in_seq.
  destruct (seg_in _ _ _ _ _ S Hi) as [m Hm]. assert (i < length h) by (apply nth_error_Some; congruence). lia.
Qed.

Lemma walk_hit h f i d b : f d = true -> forall a p, seg h p (a ++ (i, d) :: b) None -> (forall y, In y a -> f (snd y) = false) ->
  forall fuel, length a < fuel -> walk h f (fst_id (a ++ (i, d) :: b) None) fuel = Ok (Some i).
Proof.
  intros Hd. induction a as [|[j x] a IH]; intros p S Ha fuel Hf; (destruct fuel as [|fuel]; [simpl in Hf; lia|]); cbn [app fst_id walk].
  - pose proof S as [Si _]. rewrite (deref_ok _ _ _ Si). cbn [obind n_data]. rewrite Hd. reflexivity.
  - pose proof S as [Si S']. rewrite (deref_ok _ _ _ Si). cbn [obind n_data n_next].
    pose proof (Ha (j, x) (or_introl eq_refl)) as Hx. cbn [snd] in Hx. rewrite Hx. eapply IH; eauto. { intros y Hy. apply Ha. right; auto. }
    simpl in Hf. lia.
Qed.
Lemma walk_miss h f : forall l p, seg h p l None -> (forall y, In y l -> f (snd y) = false) ->
  forall fuel, length l <= fuel -> walk h f (fst_id l None) fuel = Ok None.
Proof.
  induction l as [|[j x] l IH]; intros p S Ha fuel Hf.
  - destruct fuel; reflexivity.
  - destruct fuel as [|fuel]; [simpl in Hf; lia|]. cbn [fst_id walk].
    pose proof S as [Si S']. rewrite (deref_ok _ _ _ Si). cbn [obind n_data n_next].
    pose proof (Ha (j, x) (or_introl eq_refl)) as Hx. cbn [snd] in Hx. rewrite Hx. eapply IH; eauto. { intros y Hy. apply Ha. right; auto. }
    simpl in Hf. lia.
Qed.

Lemma split_dec (f : Z -> bool) (l : slist) :
  (exists a x b, splits_at (fun y => f (snd y)) l a x b) \/ (forall y, In y l -> f (snd y) = false).
Proof.
  induction l as [|y l IH]; [right; intros y []|]. destruct (f (snd y)) eqn:E.
  - left. exists [], y, l. repeat split; auto. intros z [].
  - destruct IH as [(a & x & b & -> & Hx & Ha)|IH].
    + left. exists (y :: a), x, b. repeat split; auto. intros z [<-|Hz]; auto.
    + right. intros z [<-|Hz]; auto.
Qed.

Lemma removeall_loop_ok dz : forall l h p fr fuel, seg h p l None -> fseg h fr -> NoDup (ids l ++ ids fr) ->
  length l <= fuel ->
  exists h' fr', removeAllLoop h (fst_id fr None) (fst_id l None) dz fuel = Ok (h', fst_id fr' None) /\
    fseg h' fr' /\ NoDup (ids fr') /\ map snd fr' = rev (map (fun x => left_behind dz (snd x)) l) ++ map snd fr.
Proof.
  induction l as [|[i d] l IH]; intros h p fr fuel S F N Hf.
  - exists h, fr. split; [destruct fuel; reflexivity|]. auto.
  - destruct fuel as [|fuel]; [simpl in Hf; lia|]. cbn [fst_id removeAllLoop].
    pose proof S as [Si S']. rewrite (deref_ok _ _ _ Si). cbn [obind n_next n_data].
    cbn [ids map fst app] in N. fold (ids l) (ids fr) in N. inversion N as [|? ? Hni N']; subst. rewrite in_app_iff in Hni.
    assert (exists h3 p3, (if dz && negb (d =? 0)%Z then store h (Some i) (with_data 0%Z) else Ok h) = Ok h3 /\
     nth_error h3 i = Some (mkN (left_behind dz d) (fst_id l None) p3) /\ forall j, j <> i -> nth_error h3 j = nth_error h j) as (h3 & p3 & -> & E3 & U3).
    { destruct dz; cbn [andb left_behind].
      - destruct (Z.eqb_spec d 0) as [->|]; cbn [negb].
        + exists h, p. split; [reflexivity|]. split; auto.
        + rewrite (store_ok _ _ _ _ Si). eexists _, _. split; [reflexivity|]. split.
          * heaplk. rewrite Si. wcbn. reflexivity.
          * intros j Hj. apply upd_nth_neq. auto.
      - exists h, p. split; [reflexivity|]. split; auto. }
    cbn [obind].
    assert (F3 : fseg h3 fr).
    { eapply fseg_frame; [|exact F]. intros j Hj. apply U3. intros ->. tauto. }
    destruct (setfree_ok h3 fr i _ E3 F3) as (h4 & -> & F4 & U4); [tauto|]. cbn [obind n_data] in *.
    change (Some i) with (fst_id ((i, left_behind dz d) :: fr) None).
    destruct (IH h4 (Some i) ((i, left_behind dz d) :: fr) fuel) as (h' & fr' & E & F' & N'' & M); auto.
    + eapply seg_frame; [|exact S']. intros j Hj. rewrite U4, U3; auto.
      * intros ->. tauto.
      * intros ->. tauto.
      * intros H. apply (nodup_app_disj _ _ j N'); auto.
    + cbn [ids map fst]. apply NoDup_Add with (a := i) (l := ids l ++ ids fr); [apply Add_app|].
      split; auto. rewrite in_app_iff. tauto.
    + simpl in Hf. lia.
    + exists h', fr'. split; [exact E|]. split; auto. split; auto. rewrite M. cbn [map snd rev]. rewrite <- app_assoc. reflexivity.
Qed.

Lemma in_ids_split i (l : slist) : In i (ids l) -> exists a d b, l = a ++ (i, d) :: b.
Proof.
  intros H. apply in_map_iff in H as ([j d] & <- & H). apply in_split in H as (a & b & ->). eauto.
Qed.

Lemma lstep_ok r s o : linv r s -> llegal (fst s) o ->
  exists r' res s', rl_step r o = Ok (r', res) /\ sl_step s o s' res /\ NoDup (ids (fst s')) /\ linv r' s'.
Proof.
  destruct s as [l pool]. cbn [fst]. intros R L.
  assert (Nl : NoDup (ids l)). { destruct R as (fr & _ & _ & _ & N & _). eapply nodup_app_l; eauto. }
  assert (LB : length l <= length (l_heap r)).
  { destruct R as (fr & _ & S & _). apply live_bound; eauto. }
  assert (SG : seg (l_heap r) None l None /\ l_front r = fst_id l None).
  { destruct R as (fr & _ & S & _ & _ & Ef & _). auto. }
  destruct SG as [SG EF].
  destruct o as [d|d|d i|d i|i dz|d dz|p dz|dz| |p| | |i|i|i|i d]; cbn [rl_step llegal] in *.
  - destruct (push_front_ok r l pool d R) as (r' & i & -> & Hi & R' & N'). cbn [of_item].
    eexists _, _, _. split; [reflexivity|]. split; [apply SPushFront; auto|]. auto.
  - destruct (push_back_ok r l pool d R) as (r' & i & -> & Hi & R' & N'). cbn [of_item].
    eexists _, _, _. split; [reflexivity|]. split; [apply SPushBack; auto|]. auto.
  - destruct (in_ids_split _ _ L) as (a & x & b & ->).
    destruct (insert_before_ok r a i x b pool d R) as (r' & k & -> & Hi & R' & N'). cbn [of_item].
    eexists _, _, _. split; [reflexivity|]. split; [apply (SInsertBefore a (i, x) b); auto|]. auto.
  - destruct (in_ids_split _ _ L) as (a & x & b & ->).
    destruct (insert_after_ok r a i x b pool d R) as (r' & k & -> & Hi & R' & N'). cbn [of_item].
    eexists _, _, _. split; [reflexivity|]. split; [apply (SInsertAfter a (i, x) b); auto|]. auto.
  - destruct (in_ids_split _ _ L) as (a & x & b & ->).
    destruct (remove_item_ok r a i x b pool dz R) as (r' & -> & R' & N'). cbn [of_unit].
    eexists _, _, _. split; [reflexivity|]. split; [apply (SRemove a (i, x) b)|]. auto.
  - unfold rtList_RemoveItemWithData. rewrite EF. destruct (split_dec (Z.eqb d) l) as [(a & [i x] & b & -> & Hx & Ha)|Hn].
    + rewrite (walk_hit _ (Z.eqb d) i x b Hx a None SG Ha) by (rewrite app_length in LB; simpl in LB; lia). cbn [obind].
      destruct (remove_item_ok r a i x b pool dz R) as (r' & -> & R' & N'). cbn [of_unit].
      eexists _, _, _. split; [reflexivity|]. split; [apply (SRemoveData _ a (i, x) b); split; auto|]. auto.
    + rewrite (walk_miss _ (Z.eqb d) l None SG Hn) by auto. cbn [obind of_unit].
      eexists _, _, _. split; [reflexivity|]. split; [apply SRemoveDataNone|auto].
      intros y Hy E. specialize (Hn y Hy). cbn in Hn. lia.
  - unfold rtList_RemoveItemByCompare. rewrite EF. destruct (split_dec p l) as [(a & [i x] & b & -> & Hx & Ha)|Hn].
    + rewrite (walk_hit _ p i x b Hx a None SG Ha) by (rewrite app_length in LB; simpl in LB; lia). cbn [obind].
      destruct (remove_item_ok r a i x b pool dz R) as (r' & -> & R' & N'). cbn [of_unit].
      eexists _, _, _. split; [reflexivity|]. split; [apply (SRemoveBy _ a (i, x) b); split; auto|]. auto.
    + rewrite (walk_miss _ p l None SG Hn) by auto. cbn [obind of_unit].
      eexists _, _, _. split; [reflexivity|]. split; [apply SRemoveByNone; auto|auto].
  - unfold rtList_RemoveAllItems. rewrite EF. destruct R as (fr & Hp & S & F & N & _ & Eb & Er & Es). cbn [fst snd] in *.
    rewrite Er. destruct (removeall_loop_ok dz l (l_heap r) None fr (length (l_heap r)) S F N LB) as (h' & fr' & -> & F' & N' & M).
    cbn [obind of_unit]. eexists _, _, _. split; [reflexivity|]. split; [apply SRemoveAll|].
    split; [constructor|]. exists fr'. cbn [fst snd l_heap l_front l_back l_free l_size]. rewrite Hp in M.
    split; [exact M|]. repeat (split; auto); try exact I.
  - eexists _, _, _. split; [reflexivity|]. destruct R as (fr & Hp & S & F & N & Ef & Eb & Er & Es). cbn [fst snd] in *.
    rewrite Es. split; [apply SSize|]. split; auto. exists fr. auto 10.
  - unfold rtList_Find. rewrite EF. destruct (split_dec p l) as [(a & [i x] & b & -> & Hx & Ha)|Hn].
    + rewrite (walk_hit _ p i x b Hx a None SG Ha) by (rewrite app_length in LB; simpl in LB; lia). cbn [obind].
      rewrite (deref_ok _ _ _ (seg_at _ _ _ _ _ _ _ SG)). cbn [obind n_data].
      eexists _, _, _. split; [reflexivity|]. split; [apply (SFind _ a (i, x) b); split; auto|]. auto.
    + rewrite (walk_miss _ p l None SG Hn) by auto. cbn [obind].
      eexists _, _, _. split; [reflexivity|]. split; [apply SFindNone; auto|auto].
  - eexists _, _, _. split; [reflexivity|]. rewrite EF, fst_id_none. split; [apply SFront|]. auto.
  - eexists _, _, _. split; [reflexivity|]. assert (l_back r = first_id (rev l)) as ->.
    { destruct R as (fr & _ & _ & _ & _ & _ & Eb & _). cbn [fst] in Eb. rewrite Eb. apply last_id_none. }
    split; [apply SBack|]. auto.
  - destruct (in_ids_split _ _ L) as (a & x & b & ->). rewrite (deref_ok _ _ _ (seg_at _ _ _ _ _ _ _ SG)). cbn [obind n_next].
    eexists _, _, _. split; [reflexivity|]. rewrite fst_id_none. split; [apply (SNext a (i, x) b)|]. auto.
  - destruct (in_ids_split _ _ L) as (a & x & b & ->). rewrite (deref_ok _ _ _ (seg_at _ _ _ _ _ _ _ SG)). cbn [obind n_prev].
    eexists _, _, _. split; [reflexivity|]. rewrite last_id_none. split; [apply (SPrev a (i, x) b)|]. auto.
  - destruct (in_ids_split _ _ L) as (a & x & b & ->). rewrite (deref_ok _ _ _ (seg_at _ _ _ _ _ _ _ SG)). cbn [obind n_data].
    eexists _, _, _. split; [reflexivity|]. split; [apply (SGetData a (i, x) b)|]. auto.
  - destruct (in_ids_split _ _ L) as (a & x & b & ->). pose proof (seg_at _ _ _ _ _ _ _ SG) as Si.
    rewrite (store_ok _ _ _ _ Si). cbn [obind].
    eexists _, _, _. split; [reflexivity|]. split; [apply (SSetData a (i, x) b)|].
    assert (EI : ids (a ++ (i, d) :: b) = ids (a ++ (i, x) :: b)) by (rewrite !ids_app; reflexivity).
    cbn [fst]. rewrite EI. split; auto.
    destruct R as (fr & Hp & S & F & N & Ef & Eb & Er & Es). cbn [fst snd] in *.
    exists fr. cbn [fst snd l_heap l_front l_back l_free l_size]. split; auto.
    assert (Hab : NoDup (ids a ++ ids b) /\ ~ In i (ids a ++ ids b)).
    { rewrite ids_app in Nl. cbn in Nl. apply NoDup_remove in Nl. auto. }
    rewrite in_app_iff in Hab.
    split. { rewrite seg_app in S |- *. destruct S as [Sa [_ Sb]]. cbn [seg fst_id] in *. split.
      - eapply seg_frame; [|exact Sa]. intros j Hj. apply upd_nth_neq. intros ->. tauto.
      - split; [heaplk; rewrite Si; reflexivity|]. eapply seg_frame; [|exact Sb]. intros j Hj. apply upd_nth_neq. intros ->. tauto. }
    split. { eapply fseg_frame; [|exact F]. intros j Hj. apply upd_nth_neq. intros ->.
      apply (nodup_app_disj _ _ j N); auto. }
    rewrite EI. split; auto.
    split. { rewrite Ef, !fst_id_app. reflexivity. }
    split. { rewrite Eb, !last_id_app. reflexivity. }
    split; auto. rewrite Es, !app_length. reflexivity.
Qed.

Lemma linv_create : linv rtList_Create ([], []).
Proof. exists []. cbn. repeat split; constructor. Qed.

Lemma conforms_ok ops : forall r s, linv r s -> conforms r s ops.
Proof.
  induction ops as [|o ops IH]; intros r s R; cbn [conforms]; auto. intros L.
  destruct (lstep_ok r s o R L) as (r' & res & s' & E & T & N & R').
  exists r', res, s'. auto.
Qed.
