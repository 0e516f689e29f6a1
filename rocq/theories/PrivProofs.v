From Verif Require Import Common CommonFacts VecList VecFacts CoreModel PrivModel PrivSpec.
From Coq Require Import Lia.
Local Open Scope Z_scope.

Definition okd (e : entry) : Prop := strlen (e_dml e) < 256.
Definition okp (e : entry) : Prop := strlen (e_prov e) < 256.
Lemma dml_is_eq : forall n e, okd e -> dml_is n e = bytes_eqb (e_dml e) n.
Proof. intros n o H. apply strneq_eq. exact H. Qed.
Lemma prov_is_eq : forall n e, okp e -> prov_is n e = bytes_eqb (e_prov e) n.
Proof. intros n o H. apply strneq_eq. exact H. Qed.

Definition proj (l : list entry) : table := map (fun e => (e_dml e, e_prov e)) l.
Record inv (s : state) : Prop := mkInv {
  i_d : Forall okd (entries s);
  i_p : Forall okp (entries s);
  i_nd : NoDup (map e_dml (entries s));
  i_cn : NoDup (created (notes s));
  i_dn : NoDup (destroyed (notes s));
  i_dc : forall c, In c (destroyed (notes s)) -> In c (created (notes s));
  i_lt : forall c, In c (created (notes s)) -> (c < next s)%nat;
  i_al : forall c, alive s c <-> In c (map e_conn (entries s));
  i_cp : forall a b, In a (entries s) -> In b (entries s) -> (e_conn a = e_conn b <-> e_prov a = e_prov b) }.

Lemma created_app : forall a b, created (a ++ b) = created a ++ created b.
Proof. intros. apply flat_map_app. Qed.
Lemma destroyed_app : forall a b, destroyed (a ++ b) = destroyed a ++ destroyed b.
Proof. intros. apply flat_map_app. Qed.

Lemma has_dml_proj : forall l d, has_dml (proj l) d = true <-> In d (map e_dml l).
Proof.
  intros. unfold has_dml, proj. rewrite existsb_exists. split.
  - intros ([a b] & I & E). apply in_map_iff in I as (e & X & I). apply bytes_eqb_eq in E. cbn in E. injection X as <- <-. subst. apply in_map. auto.
  - intros I. apply in_map_iff in I as (e & <- & I). exists (e_dml e, e_prov e). split; [|apply bytes_eqb_refl].
    apply in_map_iff. exists e. auto.
Qed.
Lemma find_conn_some : forall s d c, inv s -> find_conn s d = Some c <-> exists e, In e (entries s) /\ e_dml e = d /\ e_conn e = c.
Proof.
  intros s d c V. unfold find_conn. destruct (vfind (dml_is d) (entries s)) as [e|] eqn:E; cbn.
  - destruct (vfind_some e_dml dml_is okd dml_is_eq _ _ _ (i_d _ V) E) as [I K]. split.
    + intros X. injection X as <-. exists e. auto.
    + intros (e' & I' & K' & <-).
      pose proof (vfind_in e_dml dml_is okd dml_is_eq _ _ (i_d _ V) (i_nd _ V) I') as X. rewrite K' in X. congruence.
  - split; [discriminate|]. intros (e & I & <- & _).
    apply (vfind_none e_dml dml_is okd dml_is_eq) in E; [|apply V]. exfalso. apply E. apply in_map. auto.
Qed.
Lemma find_conn_none : forall s d, inv s -> find_conn s d = None <-> ~ In d (map e_dml (entries s)).
Proof.
  intros s d V. unfold find_conn. rewrite <- (vfind_none e_dml dml_is okd dml_is_eq) by apply V.
  destruct (vfind _ _); cbn; split; congruence.
Qed.
Lemma find_conn_has : forall s d, inv s -> is_some (find_conn s d) = has_dml (proj (entries s)) d.
Proof.
  intros s d V. destruct (find_conn s d) as [c|] eqn:E; cbn; symmetry.
  - apply has_dml_proj. apply find_conn_some in E as (e & I & <- & _); auto. apply in_map. auto.
  - apply find_conn_none in E; auto. rewrite <- has_dml_proj in E. destruct (has_dml _ _); tauto.
Qed.

(** removal by a predicate *)
Lemma vremove_filter_nodup : forall l d, Forall okd l -> NoDup (map e_dml l) ->
  vremove (dml_is d) l = filter (fun e => negb (bytes_eqb (e_dml e) d)) l.
Proof.
  induction l as [|e l IH]; intros d F N; cbn [vremove filter]; [reflexivity|].
  inversion F; inversion N; subst. rewrite dml_is_eq by auto.
  destruct (bytes_eqb (e_dml e) d) eqn:E; cbn [negb].
  - apply bytes_eqb_eq in E. subst d. symmetry.
    clear - H5. induction l as [|x l IH]; cbn [filter]; [reflexivity|]. cbn in H5.
    destruct (bytes_eqb (e_dml x) (e_dml e)) eqn:E; cbn [negb].
    + apply bytes_eqb_eq in E. tauto.
    + f_equal. apply IH. tauto.
  - f_equal. apply IH; auto.
Qed.
Lemma remove_all_filter : forall fuel p l, Forall okp l -> (length l <= fuel)%nat ->
  remove_all fuel p l = filter (fun e => negb (bytes_eqb (e_prov e) p)) l.
Proof.
  assert (A : forall p l, Forall okp l -> vfind (prov_is p) l = None -> filter (fun e => negb (bytes_eqb (e_prov e) p)) l = l).
  { intros p. induction l as [|e l IH]; intros F H; [reflexivity|]. inversion F; subst. cbn [vfind filter] in *.
    rewrite prov_is_eq in H by auto. destruct (bytes_eqb (e_prov e) p); [discriminate|]. cbn. f_equal. auto. }
  assert (B : forall p l e, Forall okp l -> vfind (prov_is p) l = Some e ->
     filter (fun e => negb (bytes_eqb (e_prov e) p)) (vremove (prov_is p) l) = filter (fun e => negb (bytes_eqb (e_prov e) p)) l /\
     S (length (vremove (prov_is p) l)) = length l).
  { intros p. induction l as [|y l IH]; intros e F H; [discriminate|]. inversion F; subst. cbn [vfind vremove filter] in *.
    rewrite prov_is_eq in H |- * by auto. destruct (bytes_eqb (e_prov y) p) eqn:E; cbn [negb]; [auto|].
    cbn [filter]. rewrite E. cbn [negb length]. destruct (IH e) as [X Y]; auto. split; [f_equal|]; auto. }
  induction fuel as [|fuel IH]; intros p l F L; cbn [remove_all].
  - destruct l; [reflexivity|cbn in L; lia].
  - destruct (vfind (prov_is p) l) as [e|] eqn:E; cbn [is_some].
    + destruct (B _ _ _ F E) as [X Y]. rewrite IH; auto; [apply vremove_ok; auto|lia].
    + symmetry. auto.
Qed.
Lemma vremove_first_filter : forall p l, Forall okp l ->
  filter (fun e => negb (bytes_eqb (e_prov e) p)) (vremove (prov_is p) l) = filter (fun e => negb (bytes_eqb (e_prov e) p)) l.
Proof.
  intros p. induction l as [|y l IH]; intros F; [reflexivity|]. inversion F; subst. cbn [vremove filter].
  rewrite prov_is_eq by auto. destruct (bytes_eqb (e_prov y) p) eqn:E; cbn [negb]; [auto|]. cbn [filter]. rewrite E. cbn. f_equal. auto.
Qed.
Lemma vremove_len : forall {A} (q : A -> bool) l, (length (vremove q l) <= length l)%nat.
Proof. induction l as [|y l IH]; cbn; [lia|]. destruct (q y); cbn; lia. Qed.
Lemma nodup_filter_map : forall {A B} (g : A -> B) q l, NoDup (map g l) -> NoDup (map g (filter q l)).
Proof.
  intros A B g q. induction l as [|y l IH]; cbn; intros N; auto. inversion N; subst.
  destruct (q y); cbn; auto. constructor; auto. intros H. apply H1.
  apply in_map_iff in H as (z & <- & I). apply filter_In in I. apply in_map. tauto.
Qed.
Lemma forall_filter : forall {A} (P : A -> Prop) q l, Forall P l -> Forall P (filter q l).
Proof. intros. apply Forall_forall. intros x I. apply filter_In in I. rewrite Forall_forall in H. apply H. tauto. Qed.

(** a filtered list of entries, with the connections that lost their last entry destroyed *)
Lemma inv_filter_keep : forall s q, inv s ->
  (forall c, In c (map e_conn (entries s)) -> In c (map e_conn (filter q (entries s)))) ->
  inv (mkState (filter q (entries s)) (next s) (notes s)).
Proof.
  intros s q V H. destruct V. constructor; cbn [entries next notes]; auto.
  - apply forall_filter; auto.
  - apply forall_filter; auto.
  - apply nodup_filter_map; auto.
  - intros c. unfold alive in *. cbn [entries next notes]. rewrite i_al0. split; auto.
    intros I. apply in_map_iff in I as (e & <- & I). apply filter_In in I. apply in_map. tauto.
  - intros a b I1 I2. apply filter_In in I1, I2. apply i_cp0; tauto.
Qed.
Lemma inv_filter_drop : forall s q e, inv s -> In e (entries s) ->
  (forall x, In x (entries s) -> (q x = false -> e_prov x = e_prov e)) ->
  (forall x, In x (entries s) -> q x = true -> e_prov x <> e_prov e) ->
  inv (mkState (filter q (entries s)) (next s) (notes s ++ [Destroyed (e_conn e)])).
Proof.
  intros s q e V IE H1 H2. destruct V.
  assert (AE : alive s (e_conn e)) by (apply i_al0; apply in_map; auto).
  assert (CR : created (notes s ++ [Destroyed (e_conn e)]) = created (notes s)) by (rewrite created_app; cbn; apply app_nil_r).
  assert (DS : destroyed (notes s ++ [Destroyed (e_conn e)]) = destroyed (notes s) ++ [e_conn e]) by (rewrite destroyed_app; reflexivity).
  constructor; cbn [entries next notes]; rewrite ?CR, ?DS; auto.
  - apply forall_filter; auto.
  - apply forall_filter; auto.
  - apply nodup_filter_map; auto.
  - apply nodup_app_intro; auto; [repeat constructor; cbn; tauto|]. intros x I [<-|[]]. apply AE. auto.
  - intros c I. apply in_app_or in I as [I|[<-|[]]]; auto. apply AE.
  - intros c. unfold alive in *. cbn [entries next notes]. rewrite CR, DS, in_app_iff. cbn. split.
    + intros [A B]. assert (I : In c (map e_conn (entries s))) by (apply i_al0; tauto).
      apply in_map_iff in I as (x & <- & I). apply in_map_iff. exists x. split; auto. apply filter_In. split; auto.
      destruct (q x) eqn:Q; auto. exfalso. apply B. right. left. symmetry. apply (i_cp0 x e); auto.
    + intros I. apply in_map_iff in I as (x & <- & I). apply filter_In in I as [I Q].
      assert (A : In (e_conn x) (map e_conn (entries s))) by (apply in_map; auto).
      apply i_al0 in A as [A B]. split; auto. intros [C|[C|[]]]; auto.
      symmetry in C. apply (i_cp0 x e) in C; auto. apply (H2 x); auto.
  - intros a b I1 I2. apply filter_In in I1, I2. apply i_cp0; tauto.
Qed.
Lemma inv_push : forall s d p e, inv s -> In e (entries s) -> e_prov e = p -> ~ In d (map e_dml (entries s)) ->
  strlen d < 256 -> strlen p < 256 ->
  inv (mkState (entries s ++ [mkEntry d p (e_conn e)]) (next s) (notes s)).
Proof.
  intros s d p e V IE EP ND LD LP. destruct V. constructor; cbn [entries next notes]; auto.
  - apply Forall_app; auto.
  - apply Forall_app; auto.
  - rewrite map_app. apply nodup_app_intro; auto; [repeat constructor; cbn; tauto|]. intros x I [<-|[]]. auto.
  - intros c. unfold alive in *. cbn [entries next notes]. rewrite i_al0, map_app, in_app_iff. cbn. split; auto.
    intros [I|[<-|[]]]; auto. apply in_map. auto.
  - intros a b I1 I2. apply in_app_or in I1, I2. destruct I1 as [I1|[<-|[]]], I2 as [I2|[<-|[]]]; cbn; auto.
    + rewrite <- EP. apply i_cp0; auto.
    + rewrite <- EP. apply i_cp0; auto.
    + tauto.
Qed.
Lemma inv_new : forall s d p, inv s -> ~ In p (map e_prov (entries s)) -> ~ In d (map e_dml (entries s)) ->
  strlen d < 256 -> strlen p < 256 ->
  inv (mkState (entries s ++ [mkEntry d p (next s)]) (S (next s)) (notes s ++ [Created (next s)])).
Proof.
  intros s d p V NP ND LD LP. destruct V.
  assert (CR : created (notes s ++ [Created (next s)]) = created (notes s) ++ [next s]) by (rewrite created_app; reflexivity).
  assert (DS : destroyed (notes s ++ [Created (next s)]) = destroyed (notes s)) by (rewrite destroyed_app; cbn; apply app_nil_r).
  constructor; cbn [entries next notes]; rewrite ?CR, ?DS; auto.
  - apply Forall_app; auto.
  - apply Forall_app; auto.
  - rewrite map_app. apply nodup_app_intro; auto; [repeat constructor; cbn; tauto|]. intros x I [<-|[]]. auto.
  - apply nodup_app_intro; auto; [repeat constructor; cbn; tauto|]. intros x I [<-|[]]. apply i_lt0 in I. lia.
  - intros c I. apply in_or_app. auto.
  - intros c I. apply in_app_or in I as [I|[<-|[]]]; [apply i_lt0 in I|]; lia.
  - intros c. unfold alive in *. cbn [entries next notes]. rewrite CR, DS, map_app, !in_app_iff. cbn. rewrite <- i_al0. split.
    + tauto.
    + intros [[A B]|[<-|[]]]; [tauto|]. split; auto. intros X. apply i_dc0, i_lt0 in X. lia.
  - assert (LT : forall x, In x (entries s) -> (e_conn x < next s)%nat).
    { intros x I. apply i_lt0. apply i_al0. apply in_map. auto. }
    assert (NE : forall x, In x (entries s) -> e_prov x <> p) by (intros x I X; apply NP; rewrite <- X; apply in_map; auto).
    intros a b I1 I2. apply in_app_or in I1, I2. destruct I1 as [I1|[<-|[]]], I2 as [I2|[<-|[]]]; cbn; auto.
    + apply LT in I1 as L. apply NE in I1. split; [intros; lia|congruence].
    + apply LT in I2 as L. apply NE in I2. split; [intros; lia|congruence].
    + tauto.
Qed.

Lemma proj_filter : forall q q' l, (forall e, In e l -> q e = q' (e_dml e, e_prov e)) -> proj (filter q l) = filter q' (proj l).
Proof.
  intros q q'. induction l as [|e l IH]; intros H; cbn; [reflexivity|].
  rewrite <- H by (cbn; auto). destruct (q e); cbn; [f_equal|]; apply IH; intros; apply H; cbn; auto.
Qed.
Lemma eqb_neq : forall a b, bytes_eqb a b = false -> a <> b.
Proof. intros a b H ->. rewrite bytes_eqb_refl in H. discriminate. Qed.

Lemma has_prov_proj : forall l p, existsb (fun e => bytes_eqb (snd e) p) (proj l) = true <-> In p (map e_prov l).
Proof.
  intros. unfold proj. rewrite existsb_exists. split.
  - intros ([a b] & I & E). apply in_map_iff in I as (e & X & I). apply bytes_eqb_eq in E. cbn in E. injection X as <- <-. subst. apply in_map. auto.
  - intros I. apply in_map_iff in I as (e & <- & I). exists (e_dml e, e_prov e). split; [|apply bytes_eqb_refl].
    apply in_map_iff. exists e. auto.
Qed.
Lemma step_ok : forall o s, inv s -> fits o = true ->
  exists s', step s o = Ok s' /\ inv s' /\ proj (entries s') = spec_step (proj (entries s)) o.
Proof.
  intros o s V FT. destruct o as [d a ok|d ok|p]; cbn [step spec_step].
  - unfold open_direct. destruct (find_conn s d) as [c|] eqn:FC; cbn.
    { exists s. split; [auto|split; [auto|]]. destruct a; [|auto].
      rewrite <- find_conn_has by auto. rewrite FC. reflexivity. }
    destruct a as [p|]; [|exists s; auto].
    rewrite <- find_conn_has by auto. rewrite FC. cbn [is_some].
    cbn in FT. apply find_conn_none in FC; auto.
    unfold open_private.
    assert (L : (256 <=? strlen d) || (256 <=? strlen p) = false) by lia.
    destruct (vfind (prov_is p) (entries s)) as [e|] eqn:E.
    + destruct (vfind_some e_prov prov_is okp prov_is_eq _ _ _ (i_p _ V) E) as [I K].
      rewrite L. cbn. eexists. split; [reflexivity|]. split.
      * apply inv_push; auto; lia.
      * cbn. assert (X : In p (map e_prov (entries s))) by (rewrite <- K; apply in_map; auto).
        apply has_prov_proj in X. rewrite X. cbn. unfold proj. rewrite map_app. reflexivity.
    + apply (vfind_none e_prov prov_is okp prov_is_eq) in E; [|apply V].
      assert (X : existsb (fun e => bytes_eqb (snd e) p) (proj (entries s)) = false).
      { destruct (existsb _ _) eqn:Q; [|reflexivity]. apply has_prov_proj in Q. tauto. }
      rewrite X. cbn [orb]. destruct ok.
      * rewrite L. cbn. eexists. split; [reflexivity|]. split.
        -- apply inv_new; auto; lia.
        -- cbn. unfold proj. rewrite map_app. reflexivity.
      * cbn. exists s. auto.
  - eexists. split; [reflexivity|]. unfold close_direct.
    assert (NO : vfind (dml_is d) (entries s) = None -> filter (fun e : name * name => negb (bytes_eqb (fst e) d)) (proj (entries s)) = proj (entries s)).
    { intros E. apply (vfind_none e_dml dml_is okd dml_is_eq) in E; [|apply V]. clear - E.
      induction (entries s) as [|x l IH]; [reflexivity|]. cbn in *. destruct (bytes_eqb (e_dml x) d) eqn:B; cbn.
      - apply bytes_eqb_eq in B. tauto.
      - f_equal. apply IH. tauto. }
    destruct (vfind (dml_is d) (entries s)) as [e|] eqn:E.
    2: { split; [auto|]. destruct ok; [symmetry; exact (NO eq_refl)|reflexivity]. }
    destruct ok; [|auto].
    destruct (vfind_some e_dml dml_is okd dml_is_eq _ _ _ (i_d _ V) E) as [I K].
    cbn [entries]. rewrite (vremove_filter_nodup (entries s)) by apply V.
    set (q := fun x => negb (bytes_eqb (e_dml x) d)).
    assert (PF : proj (filter q (entries s)) = filter (fun x : name * name => negb (bytes_eqb (fst x) d)) (proj (entries s))) by (apply proj_filter; auto).
    assert (UNIQ : forall x, In x (entries s) -> q x = false -> x = e).
    { intros x IX Q. unfold q in Q. apply negb_false_iff, bytes_eqb_eq in Q.
      pose proof (vfind_in e_dml dml_is okd dml_is_eq _ _ (i_d _ V) (i_nd _ V) IX) as X. rewrite Q in X. congruence. }
    destruct (vfind (prov_is (e_prov e)) (filter q (entries s))) as [e'|] eqn:E'; cbn [is_some].
    + split; [|exact PF].
      destruct (vfind_some e_prov prov_is okp prov_is_eq _ _ _ (forall_filter _ q _ (i_p _ V)) E') as [I' K'].
      apply inv_filter_keep; auto. intros c C. apply in_map_iff in C as (x & <- & C).
      destruct (q x) eqn:Q; [apply in_map; apply filter_In; auto|].
      apply UNIQ in Q; auto. subst x. apply in_map_iff. exists e'. split; auto.
      apply filter_In in I' as II. apply (i_cp _ V); tauto.
    + split; [|exact PF]. unfold destroy. cbn [entries next notes].
      apply (vfind_none e_prov prov_is okp prov_is_eq) in E'; [|apply forall_filter; apply V].
      apply inv_filter_drop; auto.
      * intros x IX Q. apply UNIQ in Q; auto. subst. reflexivity.
      * intros x IX Q X. apply E'. rewrite <- X. apply in_map. apply filter_In. auto.
  - eexists. split; [reflexivity|]. unfold terminate.
    assert (PF : proj (filter (fun e => negb (bytes_eqb (e_prov e) p)) (entries s)) = filter (fun x : name * name => negb (bytes_eqb (snd x) p)) (proj (entries s))) by (apply proj_filter; auto).
    destruct (vfind (prov_is p) (entries s)) as [e|] eqn:E.
    + destruct (vfind_some e_prov prov_is okp prov_is_eq _ _ _ (i_p _ V) E) as [I K].
      unfold destroy. cbn [entries next notes].
      rewrite remove_all_filter; [|apply vremove_ok; apply V|apply vremove_len].
      rewrite vremove_first_filter by apply V. split; [|exact PF].
      apply inv_filter_drop; auto.
      * intros x IX Q. apply negb_false_iff, bytes_eqb_eq in Q. congruence.
      * intros x IX Q X. apply negb_true_iff, eqb_neq in Q. congruence.
    + split; [auto|]. etransitivity; [|exact PF]. f_equal.
      apply (vfind_none e_prov prov_is okp prov_is_eq) in E; [|apply V]. clear - E.
      induction (entries s) as [|x l IH]; [reflexivity|]. cbn in *. destruct (bytes_eqb (e_prov x) p) eqn:B; cbn.
      * apply bytes_eqb_eq in B. tauto.
      * f_equal. apply IH. tauto.
Qed.
Lemma inv_init : inv init.
Proof. constructor; cbn; try constructor; try tauto; unfold alive; cbn; tauto. Qed.
Lemma run_ok : forall ops s t, inv s -> proj (entries s) = t -> forallb fits ops = true ->
  exists s', run s ops = Ok s' /\ inv s' /\ proj (entries s') = fold_left spec_step ops t.
Proof.
  induction ops as [|o ops IH]; intros s t V P F; cbn [run fold_left]; [exists s; auto|].
  cbn in F. apply andb_prop in F as [F1 F2].
  destruct (step_ok o s V F1) as (s1 & E & V1 & P1). rewrite E. cbn. apply IH; auto. congruence.
Qed.
Lemma inv_conns : forall s, inv s -> conns_ok s /\ agrees s (proj (entries s)).
Proof.
  intros s V. pose proof V as []. split; [repeat split; auto|split].
  - intros H. apply i_al0 in H. apply in_map_iff in H as (e & K & I).
    exists (e_dml e). apply find_conn_some; auto. exists e. auto.
  - destruct H as (d & D). apply find_conn_some in D as (e & I & _ & <-); auto. apply i_al0. apply in_map. auto.
  - destruct H as (d & D). apply find_conn_some in D as (e & I & _ & <-); auto. apply (i_al0 (e_conn e)). apply in_map. auto.
  - intros d. apply find_conn_has. auto.
  - intros d1 p1 d2 p2 c1 c2 I1 I2 F1 F2.
    apply in_map_iff in I1 as (a & A & IA). apply in_map_iff in I2 as (b & B & IB).
    injection A as A1 A2. injection B as B1 B2.
    assert (e_conn a = c1).
    { assert (X : find_conn s d1 = Some (e_conn a)) by (apply find_conn_some; auto; exists a; auto). congruence. }
    assert (e_conn b = c2).
    { assert (X : find_conn s d2 = Some (e_conn b)) by (apply find_conn_some; auto; exists b; auto). congruence. }
    subst. apply i_cp0; auto.
Qed.
Lemma history : forall ops, forallb fits ops = true ->
  exists s, run init ops = Ok s /\ conns_ok s /\ agrees s (spec_run ops).
Proof.
  intros ops F. destruct (run_ok ops init [] inv_init eq_refl F) as (s & E & V & P).
  exists s. split; auto. unfold spec_run. rewrite <- P. apply inv_conns. auto.
Qed.

(** Teardown. *)
Lemma inner_same : forall p l fuel, Forall okp l -> (forall e, In e l -> e_prov e = p) -> (length l <= fuel)%nat ->
  inner_loop fuel p l = Some [].
Proof.
  intros p l. induction l as [|e l IH]; intros fuel F H L; destruct fuel; auto; try (cbn in L; lia).
  inversion F; subst. cbn [inner_loop vremove]. rewrite prov_is_eq by auto. rewrite (H e), bytes_eqb_refl by (cbn; auto).
  cbn in L. apply IH; auto; try lia. intros; apply H; cbn; auto.
Qed.
Lemma inner_other : forall p fuel l, Forall okp l -> (exists e, In e l /\ e_prov e <> p) -> inner_loop fuel p l = None.
Proof.
  intros p. induction fuel as [|fuel IH]; intros l F (e & I & N); destruct l as [|x l]; try (destruct I; fail); auto.
  cbn [inner_loop]. apply IH; [apply vremove_ok; auto|]. exists e. split; auto.
  inversion F; subst. cbn [vremove]. rewrite prov_is_eq by auto. destruct (bytes_eqb (e_prov x) p) eqn:E.
  - apply bytes_eqb_eq in E. destruct I as [->|I]; auto. congruence.
  - destruct I as [->|I]; [left; auto|right].
    assert (X : forall l, Forall okp l -> In e l -> In e (vremove (prov_is p) l)).
    { clear - N. induction l as [|x l IH]; intros F I; [auto|]. inversion F; subst. cbn [vremove]. rewrite prov_is_eq by auto.
      destruct (bytes_eqb (e_prov x) p) eqn:E; [apply bytes_eqb_eq in E; destruct I as [->|I]; auto; congruence|].
      destruct I as [->|I]; [left|right]; auto. }
    auto.
Qed.
Lemma proj_in : forall l e, In e l -> In (e_dml e, e_prov e) (proj l).
Proof. intros l e I. apply in_map_iff. exists e. auto. Qed.
Lemma teardown_one : forall s, inv s -> one_provider (proj (entries s)) ->
  exists fuel s', destroy_all fuel s = Some s' /\ entries s' = [] /\
    (forall c, In c (created (notes s')) <-> In c (destroyed (notes s'))) /\ NoDup (destroyed (notes s')).
Proof.
  intros s V O. exists (S (length (entries s))). destruct (entries s) as [|e l] eqn:E.
  - exists s. cbn. rewrite E. split; auto. split; auto. destruct V. split; auto. intros c. split; auto.
    intros I. destruct (in_dec Nat.eq_dec c (destroyed (notes s))) as [?|N]; auto. exfalso.
    assert (A : alive s c) by (split; auto). apply i_al0 in A. rewrite E in A. destruct A.
  - cbn [destroy_all]. rewrite E.
    assert (P : forall x, In x l -> e_prov x = e_prov e).
    { intros x I. apply (O (e_dml x) _ (e_dml e) _); [apply (proj_in (e :: l) x)|apply (proj_in (e :: l) e)]; cbn; auto. }
    pose proof (i_p _ V) as FP. rewrite E in FP. inversion FP; subst.
    rewrite inner_same by (auto; cbn; lia). cbn [destroy_all entries].
    eexists. split; [reflexivity|]. split; [reflexivity|]. cbn [notes].
    pose proof (inv_filter_drop s (fun _ => false) e V) as D. rewrite E in D.
    assert (D' : inv (mkState (filter (fun _ => false) (e :: l)) (next s) (notes s ++ [Destroyed (e_conn e)]))).
    { apply D; cbn; auto; [|discriminate]. intros x [<-|I] _; auto. }
    replace (filter (fun _ => false) (e :: l)) with (@nil entry) in D' by (clear; induction (e :: l); auto).
    destruct D'. cbn [notes entries] in *. split; auto. intros c. split; auto.
    intros I. destruct (in_dec Nat.eq_dec c (destroyed (notes s ++ [Destroyed (e_conn e)]))) as [?|N]; auto. exfalso.
    assert (A : alive (mkState [] (next s) (notes s ++ [Destroyed (e_conn e)])) c) by (split; auto). apply i_al0 in A. destruct A.
Qed.
Lemma teardown_two : forall s, inv s -> ~ one_provider (proj (entries s)) -> forall fuel, destroy_all fuel s = None.
Proof.
  intros s V O fuel. destruct (entries s) as [|e l] eqn:E.
  { exfalso. apply O. intros d1 p1 d2 p2 []. }
  pose proof (i_p _ V) as FP. rewrite E in FP. inversion FP; subst.
  destruct fuel as [|fuel]; cbn [destroy_all]; rewrite E; [reflexivity|].
  rewrite inner_other; auto.
  destruct (forallb (fun x => bytes_eqb (e_prov x) (e_prov e)) l) eqn:A.
  - exfalso. apply O. rewrite forallb_forall in A.
    assert (P : forall d p, In (d, p) (proj (e :: l)) -> p = e_prov e).
    { intros d p I. apply in_map_iff in I as (x & X & [<-|I]); injection X as <- <-; auto. apply bytes_eqb_eq. auto. }
    intros d1 p1 d2 p2 I1 I2. apply P in I1, I2. congruence.
  - assert (X : existsb (fun x => negb (bytes_eqb (e_prov x) (e_prov e))) l = true).
    { clear - A. induction l as [|x l IH]; cbn in *; [discriminate|]. destruct (bytes_eqb _ _); cbn in *; auto. }
    apply existsb_exists in X as (x & I & N). exists x. split; auto. apply eqb_neq. apply negb_true_iff. auto.
Qed.
Lemma teardown_iff : forall ops s, forallb fits ops = true -> run init ops = Ok s ->
  (one_provider (spec_run ops) ->
    exists fuel s', destroy_all fuel s = Some s' /\ (forall d, find_conn s' d = None) /\
    (forall c, In c (created (notes s')) <-> In c (destroyed (notes s'))) /\ NoDup (destroyed (notes s'))) /\
  (~ one_provider (spec_run ops) -> forall fuel, destroy_all fuel s = None).
Proof.
  intros ops s F R. destruct (run_ok ops init [] inv_init eq_refl F) as (s' & E & V & P).
  assert (s' = s) by congruence. subst s'. unfold spec_run. rewrite <- P. split.
  - intros O. destruct (teardown_one s V O) as (fuel & s' & A & B & C). exists fuel, s'. split; auto. split; auto.
    intros d. unfold find_conn. rewrite B. reflexivity.
  - apply teardown_two. auto.
Qed.
Lemma reopen : forall ops s d p, forallb fits ops = true -> run init ops = Ok s ->
  strlen d < 256 -> strlen p < 256 ->
  exists c s2, open_direct (close_direct s d true) d (Some p) true = Ok (OpenOk c, s2).
Proof.
  intros ops s d p F R LD LP. destruct (run_ok ops init [] inv_init eq_refl F) as (s' & E & V & P).
  assert (s' = s) by congruence. subst s'.
  destruct (step_ok (Close d true) s V eq_refl) as (s1 & E1 & V1 & P1). cbn in E1. injection E1 as E1. rewrite E1.
  assert (FC : find_conn s1 d = None).
  { destruct (find_conn s1 d) eqn:X; [|reflexivity]. pose proof (find_conn_has s1 d V1) as Y. rewrite X, P1 in Y. cbn in Y.
    symmetry in Y. unfold has_dml in Y. apply existsb_exists in Y as (e & I & Q). apply filter_In in I as [_ I]. rewrite Q in I. discriminate. }
  unfold open_direct. rewrite FC. unfold open_private.
  assert (L : (256 <=? strlen d) || (256 <=? strlen p) = false) by lia.
  destruct (vfind _ _); rewrite L; cbn; eauto.
Qed.
