(** rbusObject_SetProperty and rbusObject_SetPropertyValue implement the specification. *)
From Verif Require Import Common CommonFacts RefModel RefSpec RefProofs RefProofs2.
Local Open Scope nat_scope.

Lemma pseg_keep h h' (P : nat -> Prop) p first l tl :
  pseg h first l tl -> (forall q, q <> p -> P q -> bd h' q = bd h q) ->
  (forall e, In e l -> e_addr e <> p /\ P (e_addr e) /\ e_val e <> p /\ P (e_val e)) ->
  pseg h' first l tl.
Proof.
  intros H F K. apply (pseg_frame h); [exact H|]. intros e I. destruct (K e I) as (? & ? & ? & ?). split; apply F; assumption.
Qed.

Lemma obj_first_reach h roots o onm first ch nx :
  In o roots -> bd h o = Some (CObj onm first ch nx) -> forall x, first = Some x -> reach h roots x.
Proof.
  intros Io B x ->. apply bd_get in B as (n & G & E). eapply reach_edge; [apply reach_root; exact Io|exact G|]. rewrite E. left; reflexivity.
Qed.

(** ** rbusProperty_Append(newProp, next): a fresh property gets the rest of the list *)
Lemma link_new_ok h roots o onm first ch nx a b nm v d new n :
  Inv h roots -> acyc h -> In o roots -> In new roots ->
  bd h o = Some (CObj onm first ch nx) ->
  pseg h first (a ++ b) None -> pseg h (Some n) b None -> ~ In new (addrs (a ++ b)) ->
  bd h new = Some (CProp (Some nm) (Some v) None) -> bd h v = Some (CVal d None) ->
  exists h', property_append h new (Some n) = Ok h' /\ Inv h' roots /\ acyc h' /\ later h h' /\ length h' = length h /\
    bd h' o = Some (CObj onm first ch nx) /\ pseg h' first (a ++ b) None /\
    pseg h' (Some new) (mkE new nm v d :: b) None.
Proof.
  intros I A Io In' Bo P Pb NI Bn Bv.
  set (c0 := CProp (Some nm) (Some v) None). set (h0 := setbody h new c0).
  assert (E0 : forall q, bd h0 q = bd h q).
  { intros q. unfold h0. rewrite bd_setbody. destruct (Nat.eqb_spec q new) as [->|]; [rewrite Bn; reflexivity|reflexivity]. }
  assert (P0 : pseg h0 first (a ++ b) None) by (apply (pseg_frame h); [exact P|]; intros; split; apply E0).
  assert (Rf : forall x, first = Some x -> reach h0 roots x) by (eapply obj_first_reach; [exact Io|rewrite E0; exact Bo]).
  destruct (reach_pseg _ _ _ _ _ P0 Rf) as (Rl & _).
  unfold property_append. cbn [property_last]. rewrite (load_bd _ _ _ Bn). cbn [obind].
  unfold property_set_next. rewrite (load_bd _ _ _ Bn). cbn [obind].
  assert (Nv : forall e, In e (a ++ b) -> e_val e <> new).
  { intros e Ie Ev. destruct (pseg_in _ _ _ _ _ P Ie) as (z & _ & K). rewrite Ev in K. congruence. }
  assert (Na : forall e, In e (a ++ b) -> e_addr e <> new).
  { intros e Ie Ea. apply NI. rewrite <- Ea. apply in_map. exact Ie. }
  destruct (swap_bd h roots new _ c0 (CProp (Some nm) (Some v) (Some n)) None (Some n) I A Bn)
    as (h' & E & I' & A' & Lt & L & Bp & Fr).
  - reflexivity.
  - intros q. unfold c0. cbn [outs olist]. rewrite !cnt_app, ?cnt_nil. lia.
  - intros q. unfold c0. cbn [outs olist]. rewrite !cnt_app, ?cnt_nil. lia.
  - apply reach_root. exact In'.
  - intros x Ex. injection Ex as <-. destruct b as [|e b]; cbn in Pb; [discriminate|]. destruct Pb as (Eb & _). injection Eb as ->.
    apply Rl. apply in_or_app. right. left. reflexivity.
  - intros x Ex F. injection Ex as <-. destruct (from_pseg _ _ _ _ _ Pb eq_refl F) as (e & Ie & [H|H]).
    + apply (Na e); [apply in_or_app; right; exact Ie|congruence].
    + apply (Nv e); [apply in_or_app; right; exact Ie|congruence].
  - fold h0 in Fr. exists h'. split; [exact E|]. split; [exact I'|]. split; [exact A'|]. split; [exact Lt|]. split; [exact L|].
    assert (Rn : reach h0 roots new) by (apply reach_root; exact In').
    assert (Rv : reach h0 roots v).
    { pose proof Bn as H. rewrite <- E0 in H. apply bd_get in H as (x & G & B). eapply reach_edge; [exact Rn|exact G|]. rewrite B. left; reflexivity. }
    assert (Keep : forall e, In e (a ++ b) -> e_addr e <> new /\ reach h0 roots (e_addr e) /\ e_val e <> new /\ reach h0 roots (e_val e)).
    { intros e Ie. destruct (Rl e Ie). repeat split; auto. }
    split; [rewrite Fr; [exact Bo|congruence|apply reach_root; exact Io]|].
    split; [eapply (pseg_keep h h' (reach h0 roots)); [exact P|exact Fr|exact Keep]|].
    cbn [pseg]. split; [reflexivity|]. exists (Some n). split; [split; cbn; [exact Bp|rewrite Fr; [exact Bv|congruence|exact Rv]]|].
    eapply (pseg_keep h h' (reach h0 roots)); [exact Pb|exact Fr|]. intros e Ie. apply Keep. apply in_or_app. right. exact Ie.
Qed.

(** ** rbusObject_SetProperties *)
Lemma set_properties_ok h roots o onm first ch nx new nl :
  Inv h roots -> acyc h -> In o roots -> In new roots ->
  bd h o = Some (CObj onm first ch nx) -> pseg h (Some new) nl None ->
  exists h', object_set_properties h o (Some new) = Ok h' /\ Inv h' roots /\ acyc h' /\ later h h' /\ length h' = length h /\
    bd h' o = Some (CObj onm (Some new) ch nx) /\ pseg h' (Some new) nl None.
Proof.
  intros I A Io In' Bo Pn.
  set (c0 := CObj onm None ch nx). set (h0 := setbody h o c0).
  assert (E0 : forall q, q <> o -> bd h0 q = bd h q).
  { intros q N. unfold h0. rewrite bd_setbody. destruct (Nat.eqb_spec q o); [congruence|reflexivity]. }
  assert (Nv : forall e, In e nl -> e_val e <> o).
  { intros e Ie Ev. destruct (pseg_in _ _ _ _ _ Pn Ie) as (z & _ & K). rewrite Ev in K. congruence. }
  assert (Na : forall e, In e nl -> e_addr e <> o).
  { intros e Ie Ev. destruct (pseg_in _ _ _ _ _ Pn Ie) as (z & K & _). rewrite Ev in K. congruence. }
  assert (P0 : pseg h0 (Some new) nl None) by (apply (pseg_frame h); [exact Pn|]; intros; split; apply E0; auto).
  destruct (reach_pseg h0 roots _ _ _ P0) as (Rl & _); [intros x Ex; injection Ex as <-; apply reach_root; exact In'|].
  unfold object_set_properties. rewrite (load_bd _ _ _ Bo). cbn [obind].
  destruct (swap_bd h roots o _ c0 (CObj onm (Some new) ch nx) first (Some new) I A Bo)
    as (h' & E & I' & A' & Lt & L & Bp & Fr).
  - reflexivity.
  - intros q. unfold c0. cbn [outs olist]. rewrite !cnt_app, ?cnt_nil. lia.
  - intros q. unfold c0. cbn [outs olist]. rewrite !cnt_app, ?cnt_nil. lia.
  - apply reach_root. exact Io.
  - intros x Ex. injection Ex as <-. apply reach_root. exact In'.
  - intros x Ex F. injection Ex as <-. destruct (from_pseg _ _ _ _ _ Pn eq_refl F) as (e & Ie & [H|H]); [eapply Na|eapply Nv]; eauto.
  - exists h'. split; [exact E|]. split; [exact I'|]. split; [exact A'|]. split; [exact Lt|]. split; [exact L|]. split; [exact Bp|].
    eapply (pseg_keep h h' (reach h0 roots)); [exact Pn|exact Fr|]. intros e Ie. destruct (Rl e Ie). repeat split; auto.
Qed.

(** ** rbusProperty_SetValue of a property in the list *)
Lemma set_value_ok h roots o onm first ch nx a e b v' d' :
  Inv h roots -> acyc h -> In o roots -> In v' roots ->
  bd h o = Some (CObj onm first ch nx) -> pseg h first (a ++ e :: b) None ->
  NoDup (addrs (a ++ e :: b)) -> bd h v' = Some (CVal d' None) ->
  exists h', property_set_value h (e_addr e) (Some v') = Ok h' /\ Inv h' roots /\ acyc h' /\ later h h' /\ length h' = length h /\
    bd h' o = Some (CObj onm first ch nx) /\ pseg h' first (a ++ mkE (e_addr e) (e_name e) v' d' :: b) None.
Proof.
  intros I A Io Iv Bo P ND Bv'.
  pose proof P as P'. apply pseg_app in P' as (m1 & P1 & P2). cbn in P2. destruct P2 as (-> & nxt & (K1 & K2) & P2).
  set (c0 := CProp (Some (e_name e)) None nxt). set (h0 := setbody h (e_addr e) c0).
  assert (D : forall x, In x (addrs a) \/ In x (addrs b) -> x <> e_addr e).
  { intros x Hx ->. unfold addrs in ND, Hx. rewrite map_app in ND. cbn in ND. apply NoDup_remove_2 in ND. apply ND. apply in_or_app. tauto. }
  assert (DV : forall x dd r, bd h x = Some (CVal dd r) -> x <> e_addr e) by (intros x dd r H ->; congruence).
  assert (DO : o <> e_addr e) by (intros ->; congruence).
  assert (F0 : forall x, x <> e_addr e -> bd h0 x = bd h x).
  { intros x N. unfold h0. rewrite bd_setbody. destruct (Nat.eqb_spec x (e_addr e)); [congruence|reflexivity]. }
  assert (KA : forall x, In x a -> e_addr x <> e_addr e /\ e_val x <> e_addr e).
  { intros x Hx. split; [apply D; left; apply in_map; exact Hx|]. destruct (pseg_in _ _ _ _ _ P1 Hx) as (z & _ & Kz). eapply DV; eauto. }
  assert (KB : forall x, In x b -> e_addr x <> e_addr e /\ e_val x <> e_addr e).
  { intros x Hx. split; [apply D; right; apply in_map; exact Hx|]. destruct (pseg_in _ _ _ _ _ P2 Hx) as (z & _ & Kz). eapply DV; eauto. }
  assert (P10 : pseg h0 first a (Some (e_addr e))) by (apply (pseg_frame h); [exact P1|]; intros x Hx; destruct (KA x Hx); split; apply F0; assumption).
  assert (P20 : pseg h0 nxt b None) by (apply (pseg_frame h); [exact P2|]; intros x Hx; destruct (KB x Hx); split; apply F0; assumption).
  assert (Rf : forall x, first = Some x -> reach h0 roots x) by (eapply obj_first_reach; [exact Io|rewrite F0 by exact DO; exact Bo]).
  destruct (reach_pseg _ _ _ _ _ P10 Rf) as (Ra & Re). specialize (Re _ eq_refl).
  assert (Be0 : bd h0 (e_addr e) = Some c0) by (unfold h0; rewrite bd_setbody, Nat.eqb_refl, K1; reflexivity).
  destruct (reach_pseg h0 roots _ _ _ P20) as (Rb & _).
  { intros x ->. apply bd_get in Be0 as (n & G & B). eapply reach_edge; [exact Re|exact G|]. rewrite B. left; reflexivity. }
  unfold property_set_value. rewrite (load_bd _ _ _ K1). cbn [obind].
  destruct (swap_bd h roots (e_addr e) _ c0 (CProp (Some (e_name e)) (Some v') nxt) (Some (e_val e)) (Some v') I A K1)
    as (h' & E & I' & A' & Lt & L & Bp & Fr).
  - reflexivity.
  - intros q. unfold c0. cbn [outs olist]. rewrite !cnt_app, ?cnt_nil. lia.
  - intros q. unfold c0. cbn [outs olist]. rewrite !cnt_app, ?cnt_nil. lia.
  - exact Re.
  - intros x Ex. injection Ex as <-. apply reach_root. exact Iv.
  - intros x Ex F. injection Ex as <-.
    assert (forall y, from h v' y -> y = v') as V.
    { intros y Fy. induction Fy as [|p' q' Fy IH (c & B & O)]; [reflexivity|]. subst p'. rewrite Bv' in B. injection B as <-. destruct O. }
    apply (DV _ _ _ Bv'). symmetry. apply V. exact F.
  - fold h0 in Fr. exists h'. split; [exact E|]. split; [exact I'|]. split; [exact A'|]. split; [exact Lt|]. split; [exact L|].
    split; [rewrite Fr; [exact Bo|exact DO|apply reach_root; exact Io]|].
    apply pseg_app. exists (Some (e_addr e)). split.
    + eapply (pseg_keep h h' (reach h0 roots)); [exact P1|exact Fr|]. intros x Hx. destruct (KA x Hx), (Ra x Hx). auto.
    + cbn [pseg]. split; [reflexivity|]. exists nxt. split; [split; cbn; [exact Bp|]|].
      * rewrite Fr; [exact Bv'|eapply DV; eauto|apply reach_root; exact Iv].
      * eapply (pseg_keep h h' (reach h0 roots)); [exact P2|exact Fr|]. intros x Hx. destruct (KB x Hx), (Rb x Hx). auto.
Qed.

(** ** Searching *)
Lemma find_property_ok h l nm : forall fuel first,
  pseg h first l None -> length l <= fuel ->
  (exists a e b, l = a ++ e :: b /\ e_name e = nm /\ (forall x, In x a -> e_name x <> nm) /\
     find_property fuel h first (Some nm) = Ok (Some (e_addr e))) \/
  ((forall x, In x l -> e_name x <> nm) /\ find_property fuel h first (Some nm) = Ok None).
Proof.
  induction l as [|e l IH]; intros fuel first P L; cbn in P.
  - subst. right. split; [intros x []|]. destruct fuel; reflexivity.
  - destruct P as (-> & nx & (K1 & K2) & P). destruct fuel as [|fuel]; [cbn in L; lia|]. cbn [find_property].
    rewrite (load_bd _ _ _ K1). cbn [obind names_equal]. destruct (bytes_eqb (e_name e) nm) eqn:E.
    + left. exists [], e, l. apply bytes_eqb_eq in E. cbn. repeat split; auto.
    + apply bytes_eqb_neq in E. cbn [length] in L. destruct (IH fuel nx P ltac:(lia)) as [(a & x & b & -> & En & Na & F)|(Na & F)].
      * left. exists (e :: a), x, b. repeat split; auto. intros y [<-|Hy]; auto.
      * right. split; [|exact F]. intros y [<-|Hy]; auto.
Qed.

Definition last_addr (l : list entry) (dflt : option nat) : option nat :=
  match rev l with [] => dflt | e :: _ => Some (e_addr e) end.
Lemma last_addr_cons e l dflt : last_addr (e :: l) dflt = last_addr l (Some (e_addr e)).
Proof.
  unfold last_addr. cbn. destruct (rev l) eqn:E; reflexivity.
Qed.

Lemma find_slot_ok h l new nm v nxn : forall fuel first last,
  pseg h first l None -> length l <= fuel -> bd h new = Some (CProp (Some nm) v nxn) ->
  (exists a e b, l = a ++ e :: b /\ e_name e = nm /\ (forall x, In x a -> e_name x <> nm) /\
     find_slot fuel h last first new = Ok (last_addr a last, Some (e_addr e))) \/
  ((forall x, In x l -> e_name x <> nm) /\ find_slot fuel h last first new = Ok (last_addr l last, None)).
Proof.
  induction l as [|e l IH]; intros fuel first last P L Bn; cbn in P.
  - subst. right. split; [intros x []|]. destruct fuel; reflexivity.
  - destruct P as (-> & nx & (K1 & K2) & P). destruct fuel as [|fuel]; [cbn in L; lia|]. cbn [find_slot].
    unfold property_name, property_next. rewrite (load_bd _ _ _ K1), (load_bd _ _ _ Bn). cbn [obind names_equal].
    destruct (bytes_eqb (e_name e) nm) eqn:E.
    + left. exists [], e, l. apply bytes_eqb_eq in E. cbn. repeat split; auto.
    + apply bytes_eqb_neq in E. cbn [length] in L.
      destruct (IH fuel nx (Some (e_addr e)) P ltac:(lia) Bn) as [(a & x & b & -> & En & Na & F)|(Na & F)].
      * left. exists (e :: a), x, b. rewrite last_addr_cons. repeat split; auto. intros y [<-|Hy]; auto.
      * right. rewrite last_addr_cons. split; [|exact F]. intros y [<-|Hy]; auto.
Qed.

(** ** The specification on split lists *)
Lemma spec_set_hit a e b nm d : e_name e = nm -> (forall x, In x a -> e_name x <> nm) ->
  spec_set (cont (a ++ e :: b)) nm d = cont a ++ (nm, d) :: cont b.
Proof.
  intros E N. induction a as [|x a IH]; cbn.
  - subst. rewrite bytes_eqb_refl. reflexivity.
  - rewrite (proj2 (bytes_eqb_neq _ _)) by (apply N; left; reflexivity). f_equal. apply IH. intros; apply N; right; assumption.
Qed.
Lemma spec_set_miss l nm d : (forall x, In x l -> e_name x <> nm) -> spec_set (cont l) nm d = cont l ++ [(nm, d)].
Proof.
  intros N. induction l as [|x a IH]; cbn; [reflexivity|].
  rewrite (proj2 (bytes_eqb_neq _ _)) by (apply N; left; reflexivity). f_equal. apply IH. intros; apply N; right; assumption.
Qed.
Lemma spec_get_hit a e b nm : e_name e = nm -> (forall x, In x a -> e_name x <> nm) ->
  spec_get (cont (a ++ e :: b)) nm = Some (e_data e).
Proof.
  intros E N. induction a as [|x a IH]; cbn.
  - subst. rewrite bytes_eqb_refl. reflexivity.
  - rewrite (proj2 (bytes_eqb_neq _ _)) by (apply N; left; reflexivity). apply IH. intros; apply N; right; assumption.
Qed.
Lemma spec_get_miss l nm : (forall x, In x l -> e_name x <> nm) -> spec_get (cont l) nm = None.
Proof.
  intros N. induction l as [|x a IH]; cbn; [reflexivity|].
  rewrite (proj2 (bytes_eqb_neq _ _)) by (apply N; left; reflexivity). apply IH. intros; apply N; right; assumption.
Qed.
Lemma cont_app a b : cont (a ++ b) = cont a ++ cont b. Proof. apply map_app. Qed.

Lemma nodup_replace (a b : list nat) x y : NoDup (a ++ x :: b) -> ~ In y (a ++ x :: b) -> NoDup (a ++ y :: b).
Proof.
  intros H N. apply NoDup_remove in H as (H1 & H2). apply (NoDup_Add (a := y) (l := a ++ b)); [apply Add_app|].
  split; [exact H1|]. intros Hy. apply N. apply in_app_or in Hy as [|]; apply in_or_app; [left|right; right]; assumption.
Qed.
Lemma nodup_snoc {A} (a : list A) y : NoDup a -> ~ In y a -> NoDup (a ++ [y]).
Proof. intros H N. apply (NoDup_Add (a := y) (l := a)); [rewrite <- (app_nil_r a) at 1; apply Add_app|]. auto. Qed.

(** ** rbusObject_SetProperty with a fresh property *)
Lemma set_property_ok h roots o l new nm v d :
  Inv h roots -> acyc h -> In o roots -> In new roots -> rep h o l ->
  bd h new = Some (CProp (Some nm) (Some v) None) -> bd h v = Some (CVal d None) -> ~ In new (addrs l) ->
  exists h' l', object_set_property h o new = Ok h' /\ Inv h' roots /\ acyc h' /\ later h h' /\ length h' = length h /\
    rep h' o l' /\ cont l' = spec_set (cont l) nm d.
Proof.
  intros I A Io In' ((onm & first & ch & nx & Bo & P) & ND & NN) Bn Bv NI.
  set (ne := mkE new nm v d).
  assert (Pne : pseg h (Some new) [ne] None) by (cbn; split; [reflexivity|]; exists None; split; [split; assumption|reflexivity]).
  unfold object_set_property, object_properties. rewrite (load_bd _ _ _ Bo). cbn [obind].
  destruct l as [|e0 l0] eqn:El.
  - cbn in P. subst first.
    destruct (set_properties_ok h roots o onm None ch nx new [ne] I A Io In' Bo Pne) as (h' & E & I' & A' & Lt & L & B' & P').
    exists h', [ne]. split; [exact E|]. repeat (split; [assumption|]). split; [|reflexivity].
    split; [exists onm, (Some new), ch, nx; split; assumption|]. split; constructor; auto; constructor.
  - rewrite <- El in *. destruct first as [f0|]; [|exfalso; rewrite El in P; cbn in P; destruct P; discriminate].
    cbn [obind]. set (first := Some f0) in *.
    pose proof (pseg_length _ _ _ _ P ND) as Len.
    destruct (find_slot_ok h l new nm (Some v) None (S (length h)) first None P ltac:(lia) Bn) as [(a & e & b & E' & En & Na & F)|(Na & F)].
    + rewrite F. cbn [obind]. rewrite E' in P, ND, NI, NN.
      pose proof P as Ps. apply pseg_app in Ps as (m1 & P1 & P2). cbn in P2. destruct P2 as (-> & nxt & (K1 & K2) & P2).
      unfold property_next. rewrite (load_bd _ _ _ K1). cbn [obind].
      (* link the rest of the list to the new property *)
      assert (Step : exists h1, (match nxt with Some n => property_append h new (Some n) | None => Ok h end) = Ok h1 /\
                Inv h1 roots /\ acyc h1 /\ later h h1 /\ length h1 = length h /\
                bd h1 o = Some (CObj onm first ch nx) /\ pseg h1 first (a ++ e :: b) None /\ pseg h1 (Some new) (ne :: b) None).
      { destruct nxt as [n|].
        - destruct (link_new_ok h roots o onm first ch nx (a ++ [e]) b nm v d new n I A Io In' Bo) as (h1 & ? & ? & ? & ? & ? & ? & Pa & ?); auto.
          + rewrite <- app_assoc. exact P.
          + rewrite <- app_assoc. exact NI.
          + rewrite <- app_assoc in Pa. exists h1. auto 10.
        - exists h. split; [reflexivity|]. split; [assumption|]. split; [assumption|]. split; [apply later_refl|]. split; [reflexivity|].
          split; [assumption|]. split; [assumption|]. destruct b as [|e' b]; [exact Pne|]. cbn in P2. destruct P2; discriminate. }
      destruct Step as (h1 & -> & I1 & A1 & Lt1 & L1 & Bo1 & P1' & Pn1). cbn [obind].
      assert (NDn : NoDup (addrs (a ++ ne :: b))).
      { unfold addrs in *. rewrite map_app in *. cbn [map] in *. eapply nodup_replace; eauto. }
      assert (NNn : NoDup (map e_name (a ++ ne :: b))).
      { rewrite map_app in *. cbn [map] in *. cbn [e_name ne]. rewrite <- En. exact NN. }
      assert (Cn : cont (a ++ ne :: b) = spec_set (cont l) nm d).
      { rewrite E', (spec_set_hit a e b nm d En Na). rewrite cont_app. reflexivity. }
      destruct (rev a) as [|el ra] eqn:Er.
      * assert (a = []) as -> by (rewrite <- (rev_involutive a), Er; reflexivity). unfold last_addr. cbn [rev].
        destruct (set_properties_ok h1 roots o onm first ch nx new (ne :: b) I1 A1 Io In' Bo1 Pn1) as (h' & E & I' & A' & Lt & L & B' & P'').
        exists h', (ne :: b). split; [exact E|]. split; [exact I'|]. split; [exact A'|].
        split; [eapply later_trans; [|exact Lt1|exact Lt]; lia|]. split; [lia|]. split; [|exact Cn].
        split; [exists onm, (Some new), ch, nx; split; assumption|]. split; assumption.
      * unfold last_addr. rewrite Er.
        assert (a = rev ra ++ [el]) as Ea by (rewrite <- (rev_involutive a), Er; reflexivity).
        assert (P3 : exists mid, pseg h1 first (rev ra ++ [el]) mid).
        { rewrite Ea in P1'. rewrite <- app_assoc in P1'. change ([el] ++ e :: b) with ([el] ++ (e :: b)) in P1'. rewrite app_assoc in P1'.
          apply pseg_app in P1' as (mid & Px & _). eauto. }
        destruct P3 as (mid & P3).
        destruct (set_next_ok h1 roots o onm first ch nx (rev ra) el mid new (ne :: b) I1 A1 Io Bo1 P3 In' Pn1)
          as (h' & E & I' & A' & Lt & L & B' & P'').
        { rewrite Ea in NDn. rewrite <- app_assoc in NDn. exact NDn. }
        exists h', (a ++ ne :: b). split; [exact E|]. split; [exact I'|]. split; [exact A'|].
        split; [eapply later_trans; [|exact Lt1|exact Lt]; lia|]. split; [lia|]. split; [|exact Cn].
        split; [exists onm, first, ch, nx; split; [assumption|]|split; assumption].
        rewrite Ea, <- app_assoc. exact P''.
    + rewrite F. cbn [obind]. unfold last_addr. destruct (rev l) as [|el ra] eqn:Er.
      { exfalso. assert (l = []) by (rewrite <- (rev_involutive l), Er; reflexivity). subst; discriminate. }
      assert (l = rev ra ++ [el]) as Ea by (rewrite <- (rev_involutive l), Er; reflexivity).
      assert (NDn : NoDup (addrs (l ++ [ne]))) by (unfold addrs in *; rewrite map_app; apply nodup_snoc; assumption).
      assert (NNn : NoDup (map e_name (l ++ [ne]))).
      { rewrite map_app. apply nodup_snoc; [assumption|]. intros H. apply in_map_iff in H as (x & Ex & Hx). apply (Na x Hx). exact Ex. }
      pose proof P as P3. rewrite Ea in P3.
      destruct (set_next_ok h roots o onm first ch nx (rev ra) el None new [ne] I A Io Bo P3 In' Pne)
          as (h' & E & I' & A' & Lt & L & B' & P'').
      { rewrite Ea, <- app_assoc in NDn. exact NDn. }
      exists h', (l ++ [ne]). split; [exact E|]. repeat (split; [assumption|]). split.
      * split; [exists onm, first, ch, nx; split; [assumption|]|split; assumption]. rewrite Ea, <- app_assoc. exact P''.
      * rewrite cont_app, spec_set_miss by assumption. reflexivity.
Qed.
