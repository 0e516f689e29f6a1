From Verif Require Import Common CommonFacts VecList VecFacts CoreModel HandleModel HandleSpec.
From Coq Require Import Lia.
Local Open Scope Z_scope.

Ltac spl := repeat match goal with |- _ /\ _ => split end.
Definition inv (s : state) : Prop :=
  NoDup (map h_addr (handles s)) /\ NoDup (map h_name (handles s)) /\ NoDup (map h_id (handles s)) /\
  (forall h, In h (handles s) -> 0 < h_id h <= last s) /\ 0 <= last s /\
  Z.of_nat (length (handles s)) <= 16.
Lemma inv_init : inv init.
Proof. unfold inv, init. cbn. split; [constructor|]. split; [constructor|]. split; [constructor|]. split; [tauto|lia]. Qed.
Lemma vremove_len : forall {A} (q : A -> bool) l, (length (vremove q l) <= length l)%nat.
Proof. induction l as [|y l IH]; cbn; [lia|]. destruct (q y); cbn; lia. Qed.
Lemma close_inv : forall s a, inv s -> inv (snd (close s a)) /\ last (snd (close s a)) = last s /\
  (forall h, In h (handles (snd (close s a))) -> In h (handles s)).
Proof.
  intros s a (A & B & C & D & E & F). unfold close. destruct (valid_handle s a); cbn [snd]; [|spl; auto; unfold inv; auto 10].
  assert (I : forall h, In h (vremove (fun h => h_addr h =? a) (handles s)) -> In h (handles s)) by (intros h; apply vremove_incl).
  spl; auto. unfold inv. spl; cbn [handles last]; try (apply vremove_nodup; auto); auto.
  pose proof (vremove_len (fun h => h_addr h =? a) (handles s)). lia.
Qed.
Lemma by_name_some : forall s n h, get_by_name s n = Some h -> In h (handles s) /\ h_name h = n.
Proof.
  intros s n h H. unfold get_by_name in H. induction (handles s) as [|x l IH]; cbn in H; [discriminate|].
  destruct (bytes_eqb (h_name x) n) eqn:E; [injection H as <-; apply bytes_eqb_eq in E; split; [left|]; auto|].
  destruct IH; auto. split; [right|]; auto.
Qed.
Lemma by_name_none : forall s n, get_by_name s n = None <-> ~ In n (map h_name (handles s)).
Proof.
  intros s n. unfold get_by_name. induction (handles s) as [|x l IH]; cbn; [tauto|].
  destruct (bytes_eqb (h_name x) n) eqn:E.
  - apply bytes_eqb_eq in E. split; [discriminate|tauto].
  - rewrite IH. assert (h_name x <> n) by (intros <-; rewrite bytes_eqb_refl in E; discriminate). tauto.
Qed.
Lemma close_removes : forall s h, inv s -> In h (handles s) -> close s (h_addr h) = (0, snd (close s (h_addr h))) /\
  ~ In h (handles (snd (close s (h_addr h)))) /\ ~ In (h_name h) (map h_name (handles (snd (close s (h_addr h))))) /\
  ~ In (h_addr h) (map h_addr (handles (snd (close s (h_addr h))))) /\
  (Z.of_nat (length (handles (snd (close s (h_addr h))))) < 16) /\
  (forall x, In x (handles s) -> x <> h -> In x (handles (snd (close s (h_addr h))))).
Proof.
  intros s h (A & B & C & D & E & F) I. unfold close.
  assert (V : valid_handle s (h_addr h) = true) by (apply existsb_exists; exists h; split; auto; apply Z.eqb_refl).
  rewrite V. cbn [snd handles]. split; [reflexivity|].
  assert (G : forall l, In h l -> NoDup (map h_addr l) -> NoDup (map h_name l) ->
    let l' := vremove (fun x => h_addr x =? h_addr h) l in
    ~ In h l' /\ ~ In (h_name h) (map h_name l') /\ ~ In (h_addr h) (map h_addr l') /\ S (length l') = length l /\
    (forall x, In x l -> x <> h -> In x l')).
  { clear. induction l as [|x l IH]; intros I N1 N2; [destruct I|]. inversion N1; inversion N2; subst. cbn [vremove].
    destruct (h_addr x =? h_addr h) eqn:Q.
    - apply Z.eqb_eq in Q. assert (x = h).
      { destruct I as [->|I]; auto. exfalso. apply H1. rewrite Q. apply in_map. auto. }
      subst x. cbn. spl; auto.
      + intros J. apply H1. apply in_map. auto.
      + intros y [<-|J] N; [tauto|auto].
    - destruct I as [->|I]; [lia|]. destruct (IH I H2 H6) as (P1 & P2 & P3 & P4 & P5). cbn. spl.
      + intros [->|J]; auto. lia.
      + intros [J|J]; auto. apply H5. rewrite J. apply in_map. auto.
      + intros [J|J]; auto. lia.
      + lia.
      + intros y [<-|J] N; auto. }
  destruct (G (handles s) I A B) as (P1 & P2 & P3 & P4 & P5). spl; auto. lia.
Qed.
Lemma open_inv : forall s n a b r code oh s', inv s -> fresh_step s (Open n a b r) = true ->
  open s n a b r = Ok (code, oh, s') ->
  inv s' /\ last s <= last s' /\
  match oh with
  | Some h => h_id h = last s + 1 /\ last s' = last s + 1 /\ get_by_name s' n = Some h /\ h_addr h = a /\
              (forall x, In x (handles s) -> h_name x <> n -> In x (handles s'))
  | None => last s' = last s
  end.
Proof.
  intros s n a b r code oh s' V FR H. unfold open in H.
  set (s1 := match get_by_name s n with Some h => _ | None => s end) in H.
  assert (S1 : inv s1 /\ last s1 = last s /\ ~ In n (map h_name (handles s1)) /\ (forall h, In h (handles s1) -> In h (handles s)) /\
            ~ In a (map h_addr (handles s1)) /\ (forall x, In x (handles s) -> h_name x <> n -> In x (handles s1))).
  { assert (AD : forall l, (forall h, In h l -> In h (handles s)) -> ~ In n (map h_name l) -> ~ In a (map h_addr l)).
    { intros l L NN I. apply in_map_iff in I as (h & X & I). cbn in FR. apply negb_true_iff in FR.
      assert (Y : existsb (fun h => (h_addr h =? a) && negb (bytes_eqb (h_name h) n)) (handles s) = true).
      { apply existsb_exists. exists h. split; [auto|]. apply andb_true_intro. split; [lia|].
        destruct (bytes_eqb (h_name h) n) eqn:Q; auto. apply bytes_eqb_eq in Q. exfalso. apply NN. rewrite <- Q. apply in_map. auto. }
      congruence. }
    destruct (get_by_name s n) as [h|] eqn:G; subst s1.
    - apply by_name_some in G as [I K]. destruct (close_inv s (h_addr h) V) as (V1 & L1 & I1).
      destruct (close_removes s h V I) as (C0 & C1 & C2 & C3 & C4 & C5). rewrite K in C2. spl; auto; try apply V1.
      intros x IX NX. apply C5; auto. congruence.
    - apply by_name_none in G. spl; auto; try apply V. }
  clearbody s1. destruct S1 as (V1 & L1 & N1 & I1 & A1 & K1).
  pose proof V1 as (X1 & X2 & X3 & X4 & X5 & X6).
  destruct (is_full s1) eqn:FU.
  { destruct (get_by_name s n); [discriminate|]. injection H as <- <- <-. spl; auto; try lia. }
  destruct (_ && _).
  { destruct (get_by_name s n); [discriminate|]. injection H as <- <- <-. spl; auto; try lia. }
  destruct r; cbn [negb] in H.
  2: { injection H as <- <- <-. unfold inv. cbn [handles last]. spl; auto; try lia. }
  destruct (last s1 =? _); [discriminate|]. injection H as <- <- <-.
  assert (ND : forall (B : Type) (g : handle -> B) l h, NoDup (map g l) -> ~ In (g h) (map g l) -> NoDup (map g (l ++ [h]))).
  { intros B g l h N M. rewrite map_app. apply nodup_app_intro; auto; [repeat constructor; cbn; tauto|]. intros x J [<-|[]]. auto. }
  unfold is_full, RBUS_MAX_HANDLES in FU. cbn [last h_id h_addr].
  assert (INV : inv (mkState (handles s1 ++ [mkHandle a n (last s1 + 1)]) (last s1 + 1) true)).
  { unfold inv; spl; cbn [handles last]; try (apply ND; auto); try lia.
    - intros J. cbn in J. apply in_map_iff in J as (h & Y & J). apply X4 in J. lia.
    - intros h H. apply in_app_or in H as [H|[<-|[]]]; [apply X4 in H|cbn]; lia.
    - rewrite app_length. cbn. lia. }
  split; [exact INV|]. spl; try lia.
  - unfold get_by_name. cbn [handles]. clear - N1. induction (handles s1) as [|x l IH]; cbn; [rewrite bytes_eqb_refl; reflexivity|].
    cbn in N1. destruct (bytes_eqb (h_name x) n) eqn:Q; [apply bytes_eqb_eq in Q; tauto|]. apply IH. tauto.
  - intros x IX NX. cbn [handles]. apply in_or_app. auto.
Qed.
Lemma run_inv : forall ops s s' hs, inv s -> allocs_fresh s ops -> run s ops = Ok (s', hs) ->
  inv s' /\ NoDup (map h_id hs) /\ (forall h, In h hs -> last s < h_id h <= last s') /\ last s <= last s'.
Proof.
  induction ops as [|o ops IH]; intros s s' hs V FR H; cbn [run] in H.
  - injection H as <- <-. split; [auto|]. split; [apply NoDup_nil|]. split; [intros h []|lia].
  - cbn [allocs_fresh] in FR. destruct FR as [F1 F2]. destruct o as [n a b r|a].
    + destruct (open s n a b r) as [[[code oh] s1]|?|] eqn:E; cbn in H; try discriminate.
      destruct (run s1 ops) as [[s2 hs2]|?|] eqn:R; cbn in H; try discriminate.
      injection H as <- <-. destruct (open_inv _ _ _ _ _ _ _ _ V F1 E) as (V1 & L1 & O).
      destruct (IH s1 _ _ V1 F2 R) as (V2 & N2 & B2 & L2).
      destruct oh as [h|]; [|spl; auto; try lia; intros h H; apply B2 in H; lia].
      destruct O as (I & L & _). spl; auto.
      * cbn. constructor; auto. intros J. apply in_map_iff in J as (x & X & J). apply B2 in J. lia.
      * intros x [<-|H]; [lia|]. apply B2 in H. lia.
      * lia.
    + destruct (close_inv s a V) as (V1 & L1 & _).
      destruct (IH _ _ _ V1 F2 H) as (V2 & N2 & B2 & L2). rewrite L1 in *. auto.
Qed.
Lemma by_id_loop_hit : forall id l cur h, NoDup (map h_id l) -> In h l -> h_id h = id -> by_id_loop id cur l = Some h.
Proof.
  intros id. induction l as [|x l IH]; intros cur h N I E; [destruct I|]. cbn. inversion N; subst.
  destruct (h_id x =? h_id h) eqn:Q.
  - destruct I as [->|I]; auto. exfalso. apply H1. apply Z.eqb_eq in Q. rewrite Q. apply in_map. auto.
  - destruct I as [->|I]; [lia|]. apply IH; auto.
Qed.
Lemma by_id_loop_miss : forall id l cur, ~ In id (map h_id l) -> by_id_loop id cur l = match rev l with [] => cur | h :: _ => Some h end.
Proof.
  intros id. induction l as [|x l IH]; intros cur N; [reflexivity|]. cbn in *.
  destruct (h_id x =? id) eqn:Q; [apply Z.eqb_eq in Q; tauto|]. rewrite IH by tauto.
  destruct (rev l) as [|y r] eqn:R; cbn; [|reflexivity]. reflexivity.
Qed.
Lemma ids_unique : forall ops s hs, allocs_fresh init ops -> run init ops = Ok (s, hs) ->
  NoDup (map h_id hs) /\ NoDup (map h_id (handles s)) /\ NoDup (map h_name (handles s)) /\
  (length (handles s) <= 16)%nat.
Proof.
  intros ops s hs F R. destruct (run_inv _ _ _ _ inv_init F R) as ((A & B & C & D & E & G) & N & _). spl; auto. lia.
Qed.
Lemma lookups : forall ops s hs, allocs_fresh init ops -> run init ops = Ok (s, hs) ->
  (forall h, live s h -> get_by_id s (h_id h) = Some h) /\
  (forall n h, get_by_name s n = Some h <-> live s h /\ h_name h = n) /\
  (forall id, (forall h, live s h -> h_id h <> id) ->
     get_by_id s id = match rev (handles s) with [] => None | h :: _ => Some h end).
Proof.
  intros ops s hs F R. destruct (run_inv _ _ _ _ inv_init F R) as ((A & B & C & D & E & G) & _). spl.
  - intros h L. apply by_id_loop_hit; auto.
  - intros n h. split; [apply by_name_some|]. intros [L K]. destruct (get_by_name s n) as [x|] eqn:X.
    + apply by_name_some in X as [I J]. f_equal. clear - B I J L K. unfold live in L.
      induction (handles s) as [|y l IH]; [destruct I|]. cbn in B. inversion B; subst.
      destruct I as [->|I], L as [->|L]; auto.
      * exfalso. apply H1. rewrite J. apply in_map. auto.
      * exfalso. apply H1. rewrite <- J. apply in_map. auto.
    + apply by_name_none in X. exfalso. apply X. rewrite <- K. apply in_map. auto.
  - intros id N. apply by_id_loop_miss. intros I. apply in_map_iff in I as (h & X & I). apply (N h); auto.
Qed.
Lemma run_safe : forall ops s, inv s -> allocs_fresh s ops -> forallb broker_up ops = true ->
  last s + opens ops <= 2147483647 -> exists r, run s ops = Ok r.
Proof.
  induction ops as [|o ops IH]; intros s V F B L; cbn [run]; [eauto|].
  cbn in F. destruct F as [F1 F2]. cbn in B. apply andb_prop in B as [B1 B2].
  assert (P : 0 <= opens ops) by (unfold opens; lia).
  destruct o as [n a b r|a].
  - cbn in B1. subst b.
    assert (C : opens (Open n a true r :: ops) = 1 + opens ops) by (unfold opens; cbn [filter length]; lia).
    rewrite C in L.
    destruct (open s n a true r) as [[[code oh] s1]|?|] eqn:E.
    + destruct (open_inv _ _ _ _ _ _ _ _ V F1 E) as (V1 & L1 & O). cbn.
      destruct (IH s1 V1 F2 B2) as (x & X).
      { destruct oh; [|lia]. lia. }
      rewrite X. cbn. eauto.
    + exfalso. unfold open in E. rewrite andb_false_r in E.
      destruct (is_full _); [destruct (get_by_name s n); discriminate E|].
      destruct r; cbn [negb] in E; [|discriminate E]. destruct (_ =? 2147483647); discriminate E.
    + exfalso. unfold open in E.
      set (s1 := match get_by_name s n with Some h => _ | None => s end) in E.
      assert (X : (get_by_name s n <> None -> is_full s1 = false) /\ last s1 = last s).
      { subst s1. destruct (get_by_name s n) as [h|] eqn:G; [|split; [congruence|reflexivity]].
        apply by_name_some in G as [I K]. destruct (close_removes s h V I) as (_ & _ & _ & _ & C4 & _).
        destruct (close_inv s (h_addr h) V) as (_ & L1 & _). split; auto. intros _. unfold is_full, RBUS_MAX_HANDLES. lia. }
      destruct X as [X1 X2]. clearbody s1. rewrite andb_false_r in E.
      destruct (is_full s1).
      * destruct (get_by_name s n); [|discriminate E]. assert (true = false) by (apply X1; discriminate). discriminate.
      * destruct r; cbn in E; [|discriminate E]. destruct (last s1 =? 2147483647) eqn:Q; [lia|discriminate E].
  - assert (C : opens (Close a :: ops) = opens ops) by reflexivity. rewrite C in L.
    destruct (close_inv s a V) as (V1 & L1 & _). apply IH; auto. lia.
Qed.
Lemma open_result : forall ops s hs n a b r code h s', allocs_fresh init ops -> run init ops = Ok (s, hs) ->
  fresh_step s (Open n a b r) = true -> open s n a b r = Ok (code, Some h, s') ->
  get_by_id s' (h_id h) = Some h /\ get_by_name s' n = Some h /\
  (forall x, live s x -> h_name x <> n -> live s' x /\ h_id x <> h_id h).
Proof.
  intros ops s hs n a b r code h s' F R FR O.
  destruct (run_inv _ _ _ _ inv_init F R) as (V & _ & _).
  destruct (open_inv _ _ _ _ _ _ _ _ V FR O) as (V' & _ & I1 & I2 & I3 & I4 & I5).
  apply by_name_some in I3 as X. split; [|split; auto].
  - apply by_id_loop_hit; [apply V'|apply X|reflexivity].
  - intros x L N. split; [apply I5; auto|]. destruct V as (_ & _ & _ & D & _). apply D in L. lia.
Qed.
Lemma open_safe : forall ops, allocs_fresh init ops -> forallb broker_up ops = true ->
  opens ops <= 2147483647 -> exists r, run init ops = Ok r.
Proof. intros ops F B L. apply run_safe; auto. apply inv_init. Qed.
