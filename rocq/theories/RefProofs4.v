(** Client histories of one object. *)
From Verif Require Import Common CommonFacts RefModel RefSpec RefProofs RefProofs2 RefProofs3.
Local Open Scope nat_scope.

Lemma inv_cnt h a b : (forall q, cnt q a = cnt q b) -> Inv h a -> Inv h b.
Proof. intros E I p. specialize (I p). rewrite E in I. exact I. Qed.

Lemma rep_frame h h' o l :
  rep h o l -> bd h' o = bd h o ->
  (forall e, In e l -> bd h' (e_addr e) = bd h (e_addr e) /\ bd h' (e_val e) = bd h (e_val e)) -> rep h' o l.
Proof.
  intros ((onm & first & ch & nx & B & P) & N1 & N2) Eo F. split; [|split; assumption].
  exists onm, first, ch, nx. split; [congruence|]. eapply pseg_frame; eauto.
Qed.
Lemma rep_reach h roots o l : rep h o l -> In o roots ->
  forall e, In e l -> reach h roots (e_addr e) /\ reach h roots (e_val e).
Proof.
  intros ((onm & first & ch & nx & B & P) & _) Io. apply (reach_pseg h roots first l None P). eapply obj_first_reach; eauto.
Qed.
Lemma rep_lt h o l e : rep h o l -> In e l -> e_addr e < length h /\ e_val e < length h.
Proof.
  intros ((onm & first & ch & nx & B & P) & _) I. destruct (pseg_in _ _ _ _ _ P I) as (z & K1 & K2). split; eapply bd_lt; eauto.
Qed.

(** release of one held reference *)
Lemma release_step h p roots o l :
  Inv h (p :: roots) -> acyc h -> In o roots -> rep h o l ->
  exists h', release h p = Ok h' /\ Inv h' roots /\ acyc h' /\ later h h' /\ length h' = length h /\ rep h' o l /\
    (forall q, In q roots -> bd h' q = bd h q).
Proof.
  intros I A Io R. destruct (release_ok h p roots I) as (h' & E & I' & Sb & L).
  exists h'. split; [exact E|]. split; [exact I'|]. split; [eapply acyc_sub; eauto|]. split; [apply sub_later; exact Sb|]. split; [exact L|].
  assert (K : forall q, reach h roots q -> bd h' q = bd h q).
  { intros q Rq. destruct (reach_sub _ _ _ _ I' Sb Rq) as (n & n' & G & G' & B & _). unfold bd. rewrite G, G'. cbn. congruence. }
  split; [|intros q Hq; apply K, reach_root, Hq].
  eapply rep_frame; [exact R|apply K, reach_root, Io|]. intros e Ie. destruct (rep_reach _ _ _ _ R Io e Ie). split; apply K; assumption.
Qed.

Lemma retain_step h p roots o l c :
  Inv h roots -> acyc h -> rep h o l -> bd h p = Some c ->
  exists h', retain h p = Ok h' /\ Inv h' (p :: roots) /\ acyc h' /\ later h h' /\ length h' = length h /\ rep h' o l /\
    (forall q, bd h' q = bd h q).
Proof.
  intros I A R B. apply bd_get in B as (n & G & B). destruct (retain_ok h p n roots I G) as (E & I').
  set (h' := upd h p (Some (mkNode (rc n + 1) (body n)))) in *.
  assert (K : forall q, bd h' q = bd h q).
  { intros q. unfold bd, h'. rewrite get_upd by (eapply get_lt; eauto). destruct (Nat.eqb_spec q p) as [->|]; [rewrite G|]; reflexivity. }
  exists h'. split; [exact E|]. split; [exact I'|].
  assert (Sb : sub_heap h' h).
  { intros q m Gq. assert (H : bd h' q = Some (body m)) by (apply bd_get; eauto). rewrite K in H. apply bd_get in H as (x & Gx & Bx). eauto. }
  split; [eapply acyc_sub; eauto|]. split; [apply sub_later; exact Sb|]. split; [apply upd_length|]. split; [|exact K].
  eapply rep_frame; [exact R|apply K|]. intros; split; apply K.
Qed.

Lemma alloc_step h roots c o l :
  Inv h roots -> acyc h -> rep h o l -> In o roots -> outs c = [] ->
  let h' := h ++ [Some (mkNode 1 c)] in
  Inv h' (length h :: roots) /\ acyc h' /\ later h h' /\ rep h' o l /\ bd h' (length h) = Some c /\
  (forall q, q < length h -> bd h' q = bd h q).
Proof.
  intros I A R Io O h'.
  assert (K : forall q, q < length h -> bd h' q = bd h q).
  { intros q Lq. unfold bd, h'. rewrite get_app. destruct (Nat.eqb_spec q (length h)); [lia|reflexivity]. }
  split; [apply (alloc_ok h c roots I); intros q H; rewrite O in H; exact H|].
  split; [apply acyc_alloc; assumption|].
  split; [intros q c' Lq B; exists c'; rewrite K in B by exact Lq; split; [exact B|apply sim_refl]|].
  split; [|split; [unfold bd, h'; rewrite get_app, Nat.eqb_refl; reflexivity|exact K]].
  eapply rep_frame; [exact R| |].
  - apply K. destruct (inv_live_root _ _ _ I Io) as (n & G). eapply get_lt; eauto.
  - intros e Ie. destruct (rep_lt _ _ _ _ R Ie). split; apply K; assumption.
Qed.

(** rbusProperty_Init *)
Lemma property_init_step h roots o l nm v d :
  Inv h roots -> acyc h -> rep h o l -> In o roots -> In v roots -> bd h v = Some (CVal d None) ->
  exists h', property_init h (Some nm) (Some v) = Ok (h', length h) /\
    Inv h' (length h :: roots) /\ acyc h' /\ later h h' /\ length h' = S (length h) /\ rep h' o l /\
    bd h' (length h) = Some (CProp (Some nm) (Some v) None) /\ bd h' v = Some (CVal d None).
Proof.
  intros I A R Io Iv Bv. unfold property_init. cbn [alloc].
  set (p := length h). set (c := CProp (Some nm) None None). set (h1 := h ++ [Some (mkNode 1 c)]).
  destruct (alloc_step h roots c o l I A R Io eq_refl) as (I1 & A1 & Lt1 & R1 & B1 & K1). fold p h1 in I1, A1, Lt1, R1, B1, K1.
  assert (Vlt : v < length h) by (eapply bd_lt; eauto).
  assert (Bv1 : bd h1 v = Some (CVal d None)) by (rewrite K1 by exact Vlt; exact Bv).
  assert (L1 : length h1 = S (length h)) by (unfold h1; rewrite app_length; cbn; lia).
  unfold property_set_value. rewrite (load_bd _ _ _ B1). unfold c. cbn [obind]. fold c.
  assert (E0 : forall q, bd (setbody h1 p c) q = bd h1 q).
  { intros q. rewrite bd_setbody. destruct (Nat.eqb_spec q p) as [->|]; [rewrite B1|]; reflexivity. }
  destruct (swap_bd h1 (p :: roots) p c c (CProp (Some nm) (Some v) None) None (Some v) I1 A1 B1)
    as (h' & E & I' & A' & Lt & L & Bp & Fr).
  - reflexivity.
  - intros q. unfold c. cbn [outs olist]. rewrite ?cnt_app, ?cnt_nil. lia.
  - intros q. unfold c. cbn [outs olist]. rewrite !cnt_app, ?cnt_nil. lia.
  - apply reach_root. left; reflexivity.
  - intros x Ex. injection Ex as <-. apply reach_root. right; exact Iv.
  - intros x Ex F. injection Ex as <-.
    assert (V : forall y, from h1 v y -> y = v).
    { intros y Fy. induction Fy as [|p' q' Fy IH (cc & B & O)]; [reflexivity|]. subst p'. rewrite Bv1 in B. injection B as <-. destruct O. }
    apply V in F. unfold p in F. lia.
  - rewrite E. cbn [obind]. exists h'. split; [reflexivity|]. split; [exact I'|]. split; [exact A'|].
    split; [eapply later_trans; [|exact Lt1|exact Lt]; lia|]. split; [lia|].
    assert (R0 : rep (setbody h1 p c) o l) by (eapply rep_frame; [exact R1|apply E0|]; intros; split; apply E0).
    assert (Olt : o < length h).
    { destruct (inv_live_root _ _ _ I Io) as (n & G). eapply get_lt; eauto. }
    split; [|split; [exact Bp|]].
    + eapply rep_frame; [exact R1| |].
      * apply Fr; [unfold p; lia|]. apply reach_root. right; exact Io.
      * intros e Ie. destruct (rep_reach _ (p :: roots) _ _ R0 ltac:(right; exact Io) e Ie).
        destruct (rep_lt _ _ _ _ R Ie). split; (apply Fr; [unfold p; lia|assumption]).
    + rewrite Fr; [exact Bv1|unfold p; lia|apply reach_root; right; exact Iv].
Qed.

(** ** Reading *)
Lemma get_property_ok h o l nm : rep h o l ->
  (exists a e b, l = a ++ e :: b /\ e_name e = nm /\ (forall x, In x a -> e_name x <> nm) /\
     object_get_property h o (Some nm) = Ok (Some (e_addr e))) \/
  ((forall x, In x l -> e_name x <> nm) /\ object_get_property h o (Some nm) = Ok None).
Proof.
  intros ((onm & first & ch & nx & B & P) & N1 & N2). unfold object_get_property, object_properties.
  rewrite (load_bd _ _ _ B). cbn [obind]. apply find_property_ok; [exact P|]. pose proof (pseg_length _ _ _ _ P N1). lia.
Qed.
Lemma rep_entry h o l a e b : rep h o l -> l = a ++ e :: b -> exists nx, entry_ok h e nx.
Proof. intros ((onm & first & ch & nx & B & P) & _) ->. eapply pseg_in; [exact P|]. apply in_or_app. right; left; reflexivity. Qed.

Lemma get_value_ok h o l nm : rep h o l ->
  (exists v d, spec_get (cont l) nm = Some d /\ object_get_value h o (Some nm) = Ok (Some v) /\ bd h v = Some (CVal d None)) \/
  (spec_get (cont l) nm = None /\ object_get_value h o (Some nm) = Ok None).
Proof.
  intros R. unfold object_get_value. destruct (get_property_ok h o l nm R) as [(a & e & b & El & En & Na & F)|(Na & F)]; rewrite F; cbn [obind].
  - left. destruct (rep_entry _ _ _ _ _ _ R El) as (nx & K1 & K2). exists (e_val e), (e_data e).
    split; [rewrite El; apply spec_get_hit; assumption|]. unfold property_value. rewrite (load_bd _ _ _ K1). cbn. auto.
  - right. split; [apply spec_get_miss; exact Na|reflexivity].
Qed.

Lemma walk_ok h l : forall fuel first, pseg h first l None -> length l <= fuel -> walk fuel h first = Ok (cont l).
Proof.
  induction l as [|e l IH]; intros fuel first P L; cbn in P.
  - subst. destruct fuel; reflexivity.
  - destruct P as (-> & nx & (K1 & K2) & P). destruct fuel as [|fuel]; cbn in L; [lia|]. cbn [walk].
    unfold property_name, property_value, property_next, read_value. rewrite (load_bd _ _ _ K1). cbn [obind].
    rewrite (load_bd _ _ _ K2). cbn [obind]. rewrite (IH fuel nx P) by lia. reflexivity.
Qed.
Lemma api_contents_ok h o l : rep h o l -> api_contents h o = Ok (cont l).
Proof.
  intros ((onm & first & ch & nx & B & P) & N1 & N2). unfold api_contents, object_properties.
  rewrite (load_bd _ _ _ B). cbn [obind]. apply walk_ok; [exact P|]. pose proof (pseg_length _ _ _ _ P N1). lia.
Qed.
Lemma api_get_ok h o l nm : rep h o l -> api_get h o nm = Ok (spec_get (cont l) nm).
Proof.
  intros R. unfold api_get. destruct (get_value_ok h o l nm R) as [(v & d & S0 & -> & B)|(S0 & ->)]; rewrite S0; cbn [obind]; [|reflexivity].
  unfold read_value. rewrite (load_bd _ _ _ B). reflexivity.
Qed.

(** rbusProperty_Append to the list of the object *)
Lemma property_last_ok h l e : forall fuel first,
  pseg h first (l ++ [e]) None -> S (length l) <= fuel ->
  forall p, first = Some p -> property_last fuel h p = Ok (e_addr e).
Proof.
  induction l as [|x l IH]; intros fuel first P L p Ep; (destruct fuel as [|fuel]; [lia|]); cbn [app pseg] in P; destruct P as (E & nx & (K1 & K2) & P);
    rewrite E in Ep; injection Ep as <-; cbn [property_last]; rewrite (load_bd _ _ _ K1); cbn [obind].
  - cbn in P. subst. reflexivity.
  - cbn in L. destruct nx as [y|]; [|destruct l; cbn in P; destruct P; discriminate]. apply (IH fuel (Some y) P ltac:(lia) y eq_refl).
Qed.

(** ** rbusObject_SetPropertyValue *)
Lemma set_obj_value_ok h roots o l nm v d :
  Inv h roots -> acyc h -> In o roots -> In v roots -> rep h o l -> bd h v = Some (CVal d None) ->
  exists h' l', object_set_value h o (Some nm) (Some v) = Ok h' /\ Inv h' roots /\ acyc h' /\ later h h' /\ length h <= length h' /\
    rep h' o l' /\ cont l' = spec_set (cont l) nm d.
Proof.
  intros I A Io Iv R Bv. unfold object_set_value.
  destruct (get_property_ok h o l nm R) as [(a & e & b & El & En & Na & F)|(Na & F)]; rewrite F; cbn [obind].
  - destruct R as ((onm & first & ch & nx & Bo & P) & N1 & N2). rewrite El in P, N1, N2.
    destruct (set_value_ok h roots o onm first ch nx a e b v d I A Io Iv Bo P N1 Bv) as (h' & E & I' & A' & Lt & L & B' & P').
    exists h', (a ++ mkE (e_addr e) (e_name e) v d :: b). split; [exact E|]. split; [exact I'|]. split; [exact A'|]. split; [exact Lt|]. split; [lia|].
    split; [|rewrite El, (spec_set_hit a e b nm d En Na), cont_app; cbn; rewrite En; reflexivity].
    split; [exists onm, first, ch, nx; split; assumption|]. unfold addrs in *. rewrite !map_app in *. split; assumption.
  - destruct (property_init_step h roots o l nm v d I A R Io Iv Bv) as (h1 & E1 & I1 & A1 & Lt1 & L1 & R1 & Bp & Bv1).
    rewrite E1. cbn [obind]. set (p := length h) in *.
    assert (Np : ~ In p (addrs l)).
    { intros H. apply in_map_iff in H as (e & Ee & Ie). destruct (rep_lt _ _ _ _ R Ie). unfold p in *; lia. }
    set (ne := mkE p nm v d).
    assert (Pne : pseg h1 (Some p) [ne] None) by (cbn; split; [reflexivity|]; exists None; split; [split; assumption|reflexivity]).
    assert (Step : exists h2, (do ps <- object_properties h1 o; match ps with None => object_set_properties h1 o (Some p) | Some first => property_append h1 first (Some p) end) = Ok h2 /\
       Inv h2 (p :: roots) /\ acyc h2 /\ later h1 h2 /\ length h2 = length h1 /\ rep h2 o (l ++ [ne])).
    { destruct R1 as ((onm & first & ch & nx & Bo & P) & N1 & N2).
      assert (N1' : NoDup (addrs (l ++ [ne]))) by (unfold addrs in *; rewrite map_app; apply nodup_snoc; assumption).
      assert (N2' : NoDup (map e_name (l ++ [ne]))).
      { rewrite map_app. apply nodup_snoc; [assumption|]. intros H. apply in_map_iff in H as (x & Ex & Hx). apply (Na x Hx). exact Ex. }
      unfold object_properties. rewrite (load_bd _ _ _ Bo). cbn [obind].
      destruct (rev l) as [|el ra] eqn:Er.
      - assert (l = []) as -> by (rewrite <- (rev_involutive l), Er; reflexivity). cbn in P. subst first.
        destruct (set_properties_ok h1 (p :: roots) o onm None ch nx p [ne] I1 A1) as (h2 & E & I2 & A2 & Lt & L & B' & P'); auto;
          [right; exact Io|left; reflexivity|].
        exists h2. split; [exact E|]. repeat (split; [assumption|]). split; [exists onm, (Some p), ch, nx; split; assumption|]. split; assumption.
      - assert (Ea : l = rev ra ++ [el]) by (rewrite <- (rev_involutive l), Er; reflexivity).
        destruct first as [f|]; [|exfalso; rewrite Ea in P; destruct (rev ra); cbn in P; destruct P; discriminate].
        unfold property_append. rewrite (property_last_ok h1 (rev ra) el (S (length h1)) (Some f)); [|rewrite <- Ea; exact P| |reflexivity].
        2:{ pose proof (pseg_length _ _ _ _ P N1) as Len. rewrite Ea, app_length in Len. cbn in Len. lia. }
        cbn [obind].
        destruct (set_next_ok h1 (p :: roots) o onm (Some f) ch nx (rev ra) el None p [ne] I1 A1) as (h2 & E & I2 & A2 & Lt & L & B' & P'); auto;
          [right; exact Io|rewrite <- Ea; exact P|left; reflexivity| |].
        { rewrite Ea, <- app_assoc in N1'. exact N1'. }
        exists h2. split; [exact E|]. repeat (split; [assumption|]). split; [|split; assumption].
        exists onm, (Some f), ch, nx. split; [assumption|]. rewrite Ea, <- app_assoc. exact P'. }
    destruct Step as (h2 & E2 & I2 & A2 & Lt2 & L2 & R2).
    assert (E2' : (do ps <- object_properties h1 o; do h3 <- (match ps with None => object_set_properties h1 o (Some p) | Some first => property_append h1 first (Some p) end); release h3 p) = release h2 p).
    { destruct (object_properties h1 o) as [ps| |]; cbn [obind] in *; try discriminate. rewrite E2. reflexivity. }
    rewrite E2'.
    destruct (release_step h2 p roots o _ I2 A2 Io R2) as (h' & E3 & I3 & A3 & Lt3 & L3 & R3 & _).
    exists h', (l ++ [ne]). split; [exact E3|]. split; [exact I3|]. split; [exact A3|].
    split; [eapply later_trans; [|exact Lt1|eapply later_trans; [|exact Lt2|exact Lt3]]; lia|]. split; [lia|]. split; [exact R3|].
    rewrite cont_app, spec_set_miss by assumption. reflexivity.
Qed.

(** ** Histories *)
Definition memo_ok (h : heap) (p : nat) (m : memo) : Prop :=
  match m with
  | MProp => exists nm v nx, bd h p = Some (CProp nm v nx)
  | MVal d => bd h p = Some (CVal d None)
  end.
Record st_ok (s : client) (sp : spec) : Prop := {
  so_inv : Inv (cl_heap s) (cl_obj s :: cl_held s);
  so_acyc : acyc (cl_heap s);
  so_rep : exists l, rep (cl_heap s) (cl_obj s) l /\ cont l = sp_contents sp;
  so_held : Forall2 (memo_ok (cl_heap s)) (cl_held s) (sp_held sp) }.

Lemma memo_later h h' roots p m : later h h' -> Inv h' roots -> In p roots -> memo_ok h p m -> memo_ok h' p m.
Proof.
  intros L I H M. destruct (inv_live_root _ _ _ I H) as (n & G).
  assert (B : bd h' p = Some (body n)) by (apply bd_get; eauto).
  assert (Lp : p < length h) by (destruct m; [destruct M as (? & ? & ? & M)|cbn in M]; eapply bd_lt; eauto).
  destruct (L p _ Lp B) as (c & Bc & S0). destruct m as [|d]; cbn in *.
  - destruct M as (nm & v & nx & M). rewrite M in Bc. injection Bc as <-. destruct (body n) eqn:Bn; cbn in S0; try contradiction. eauto.
  - rewrite M in Bc. injection Bc as <-. destruct (body n) eqn:Bn; cbn in S0; try contradiction. destruct S0 as (-> & <-). exact B.
Qed.
Lemma held_later h h' roots held ms : later h h' -> Inv h' roots -> (forall x, In x held -> In x roots) ->
  Forall2 (memo_ok h) held ms -> Forall2 (memo_ok h') held ms.
Proof.
  intros L I S0 F. induction F as [|p m held ms M F IH]; constructor.
  - eapply memo_later; eauto. apply S0. left; reflexivity.
  - apply IH. intros x H. apply S0. right; exact H.
Qed.
Lemma drop_at_forall2 {A B} (P : A -> B -> Prop) l m i : Forall2 P l m -> Forall2 P (drop_at l i) (drop_at m i).
Proof.
  intros F. revert i. induction F as [|x y l m H F IH]; intros i.
  - unfold drop_at. rewrite !firstn_nil. cbn. destruct i; cbn; constructor.
  - destruct i as [|i]; unfold drop_at in *; cbn; [exact F|]. constructor; [exact H|apply IH].
Qed.
Lemma drop_at_none {A B} (P : A -> B -> Prop) l m i : Forall2 P l m -> nth_error l i = None -> drop_at m i = m.
Proof.
  intros F N. apply nth_error_None in N. assert (length m = length l) as E by (clear N; induction F; cbn; congruence).
  unfold drop_at. rewrite firstn_all2, skipn_all2, app_nil_r by lia. reflexivity.
Qed.
Lemma cnt_drop q l i p : nth_error l i = Some p -> cnt q l = cnt q (p :: drop_at l i).
Proof.
  intros H. apply nth_error_split in H as (a & b & -> & <-). unfold drop_at.
  rewrite firstn_app, Nat.sub_diag, firstn_all, skipn_app, skipn_all2 by lia.
  replace (S (length a) - length a) with 1 by lia. cbn [firstn skipn app]. rewrite ?app_nil_r, !cnt_app, !cnt_cons, !cnt_app. lia.
Qed.

Lemma step_ok s sp o : st_ok s sp -> exists s', client_step s o = Ok s' /\ cl_obj s' = cl_obj s /\ st_ok s' (spec_step sp o).
Proof.
  intros [I A (l & R & C) H]. destruct s as [h ob held], sp as [sc sh]; cbn [cl_heap cl_obj cl_held sp_contents sp_held] in *.
  destruct o as [nm d|nm d|nm|nm|i]; cbn [client_step spec_step cl_heap cl_obj cl_held sp_contents sp_held].
  - unfold value_init; cbn [alloc].
    destruct (alloc_step h _ (CVal d None) ob l I A R (or_introl eq_refl) eq_refl) as (I1 & A1 & Lt1 & R1 & B1 & K1).
    set (h1 := h ++ [Some (mkNode 1 (CVal d None))]) in *. set (v := length h) in *.
    destruct (property_init_step h1 (v :: ob :: held) ob l nm v d I1 A1 R1) as (h2 & E2 & I2 & A2 & Lt2 & L2 & R2 & B2 & Bv2); try solve [cbn; auto].
    rewrite E2. cbn [obind]. set (p := length h1) in *.
    assert (I2' : Inv h2 (v :: p :: ob :: held)) by (eapply inv_cnt; [|exact I2]; intros q; rewrite !cnt_cons; lia).
    destruct (release_step h2 v (p :: ob :: held) ob l I2' A2) as (h3 & E3 & I3 & A3 & Lt3 & L3 & R3 & K3); [cbn; auto|exact R2|].
    rewrite E3. cbn [obind].
    assert (L1 : length h1 = S (length h)) by (unfold h1; rewrite app_length; cbn; lia).
    assert (B3 : bd h3 p = Some (CProp (Some nm) (Some v) None)) by (rewrite K3 by (left; reflexivity); exact B2).
    assert (Bv3 : bd h3 v = Some (CVal d None)).
    { apply bd_get in B3 as (n & G & B). destruct (inv_live_out h3 _ p n v I3 G) as (m & Gm); [rewrite B; left; reflexivity|].
      assert (X : bd h3 v = Some (body m)) by (apply bd_get; eauto).
      destruct (Lt3 v (body m)) as (c & Bc & S0); [unfold v; lia|exact X|]. rewrite Bv2 in Bc. injection Bc as <-.
      destruct (body m); cbn in S0; try contradiction. destruct S0 as (<- & <-). exact X. }
    destruct (set_property_ok h3 (p :: ob :: held) ob l p nm v d I3 A3) as (h4 & l4 & E4 & I4 & A4 & Lt4 & L4 & R4 & C4); try solve [cbn; auto].
    { intros Hp. apply in_map_iff in Hp as (e & Ee & Ie). destruct (rep_lt _ _ _ _ R Ie). lia. }
    rewrite E4. cbn [obind].
    destruct (release_step h4 p (ob :: held) ob l4 I4 A4 (or_introl eq_refl) R4) as (h5 & E5 & I5 & A5 & Lt5 & L5 & R5 & K5).
    rewrite E5. cbn [obind]. eexists. split; [reflexivity|]. split; [reflexivity|]. constructor; cbn [cl_heap cl_obj cl_held sp_contents sp_held]; auto.
    + exists l4. split; [exact R5|]. congruence.
    + eapply held_later; [|exact I5| |exact H]; [|intros x; right; assumption].
      assert (T1 : later h h2) by (eapply later_trans; [|exact Lt1|exact Lt2]; lia).
      assert (T2 : later h h3) by (eapply later_trans; [|exact T1|exact Lt3]; lia).
      assert (T3 : later h h4) by (eapply later_trans; [|exact T2|exact Lt4]; lia).
      eapply later_trans; [|exact T3|exact Lt5]; lia.
  - unfold value_init; cbn [alloc].
    destruct (alloc_step h _ (CVal d None) ob l I A R (or_introl eq_refl) eq_refl) as (I1 & A1 & Lt1 & R1 & B1 & K1).
    set (h1 := h ++ [Some (mkNode 1 (CVal d None))]) in *. set (v := length h) in *.
    assert (L1 : length h1 = S (length h)) by (unfold h1; rewrite app_length; cbn; lia).
    destruct (set_obj_value_ok h1 (v :: ob :: held) ob l nm v d I1 A1) as (h2 & l2 & E2 & I2 & A2 & Lt2 & L2 & R2 & C2); try solve [cbn; auto].
    rewrite E2. cbn [obind].
    destruct (release_step h2 v (ob :: held) ob l2 I2 A2 (or_introl eq_refl) R2) as (h3 & E3 & I3 & A3 & Lt3 & L3 & R3 & K3).
    rewrite E3. cbn [obind]. eexists. split; [reflexivity|]. split; [reflexivity|]. constructor; cbn [cl_heap cl_obj cl_held sp_contents sp_held]; auto.
    + exists l2. split; [exact R3|]. congruence.
    + eapply held_later; [|exact I3| |exact H]; [|intros x; right; assumption].
      assert (T1 : later h h2) by (eapply later_trans; [|exact Lt1|exact Lt2]; lia).
      eapply later_trans; [|exact T1|exact Lt3]; lia.
  - destruct (get_property_ok h ob l nm R) as [(a & e & b & El & En & Na & F)|(Na & F)]; rewrite F; cbn [obind].
    + destruct (rep_entry _ _ _ _ _ _ R El) as (nx & B1 & B2).
      destruct (retain_step h (e_addr e) _ ob l _ I A R B1) as (h1 & E1 & I1 & A1 & Lt1 & L1 & R1 & K1).
      rewrite E1. cbn [obind]. rewrite <- C, El, (spec_get_hit a e b nm En Na), <- El.
      eexists. split; [reflexivity|]. split; [reflexivity|]. constructor; cbn [cl_heap cl_obj cl_held sp_contents sp_held]; auto.
      * eapply inv_cnt; [|exact I1]. intros q. rewrite !cnt_cons, cnt_app, cnt_cons, cnt_nil. lia.
      * exists l. auto.
      * apply Forall2_app; [|constructor; [cbn; rewrite K1; eauto|constructor]].
        eapply held_later; [exact Lt1|exact I1| |exact H]. intros x Hx. right; right; exact Hx.
    + rewrite <- C, (spec_get_miss l nm Na). eexists. split; [reflexivity|]. split; [reflexivity|].
      constructor; cbn; auto. exists l; auto.
  - destruct (get_value_ok h ob l nm R) as [(v & d & Sg & F & B)|(Sg & F)]; rewrite F; cbn [obind]; rewrite <- C, Sg.
    + destruct (retain_step h v _ ob l _ I A R B) as (h1 & E1 & I1 & A1 & Lt1 & L1 & R1 & K1).
      rewrite E1. cbn [obind]. eexists. split; [reflexivity|]. split; [reflexivity|]. constructor; cbn [cl_heap cl_obj cl_held sp_contents sp_held]; auto.
      * eapply inv_cnt; [|exact I1]. intros q. rewrite !cnt_cons, cnt_app, cnt_cons, cnt_nil. lia.
      * exists l. auto.
      * apply Forall2_app; [|constructor; [cbn; rewrite K1; exact B|constructor]].
        eapply held_later; [exact Lt1|exact I1| |exact H]. intros x Hx. right; right; exact Hx.
    + eexists. split; [reflexivity|]. split; [reflexivity|]. constructor; cbn; auto. exists l; auto.
  - destruct (nth_error held i) as [p|] eqn:En.
    + assert (I' : Inv h (p :: ob :: drop_at held i)).
      { eapply inv_cnt; [|exact I]. intros q. rewrite !cnt_cons. rewrite (cnt_drop q held i p En), cnt_cons. lia. }
      destruct (release_step h p _ ob l I' A ltac:(left; reflexivity) R) as (h1 & E1 & I1 & A1 & Lt1 & L1 & R1 & K1).
      rewrite E1. cbn [obind]. eexists. split; [reflexivity|]. split; [reflexivity|]. constructor; cbn [cl_heap cl_obj cl_held sp_contents sp_held]; auto.
      * exists l; auto.
      * eapply held_later; [exact Lt1|exact I1| |apply drop_at_forall2; exact H]. intros x Hx. right; exact Hx.
    + eexists. split; [reflexivity|]. split; [reflexivity|]. rewrite (drop_at_none _ _ _ _ H En). constructor; cbn; auto. exists l; auto.
Qed.

Lemma new_ok name : st_ok (new_client name) (mkSpec [] []).
Proof.
  unfold new_client, object_init; cbn [alloc fst snd app]. constructor; cbn [cl_heap cl_obj cl_held sp_contents sp_held].
  - intros [|p]; cbn; [split; lia|]. unfold get. cbn. destruct p; reflexivity.
  - apply (acyc_alloc [] (CObj name None None None) eq_refl). intros p. constructor. intros q (c & B & _).
    unfold bd, get in B. destruct p; discriminate.
  - exists []. split; [|reflexivity]. split; [|split; constructor]. exists name, None, None, None. split; reflexivity.
  - constructor.
Qed.

Lemma run_ok ops : forall s sp, st_ok s sp ->
  exists s', client_run s ops = Ok s' /\ cl_obj s' = cl_obj s /\ st_ok s' (fold_left spec_step ops sp).
Proof.
  induction ops as [|o ops IH]; intros s sp H; cbn [client_run fold_left]; [eauto|].
  destruct (step_ok s sp o H) as (s1 & E & Eo & H1). rewrite E. cbn [obind].
  destruct (IH _ _ H1) as (s2 & E2 & Eo2 & H2). exists s2. rewrite Eo2, Eo. auto.
Qed.

(** ** Nothing leaks *)
Lemma no_roots_empty h : Inv h [] -> acyc h -> forall p, get h p = None.
Proof.
  intros I A p. destruct (get h p) as [n|] eqn:G; [exfalso|reflexivity].
  (* every live cell has a live predecessor: build an ever longer path *)
  assert (Up : forall q m, get h q = Some m -> exists r k, get h r = Some k /\ edge h q r).
  { intros q m Gq. specialize (I q). rewrite Gq, cnt_nil in I. destruct (indeg_pos h q ltac:(lia)) as (r & k & Gr & Ir).
    exists r, k. split; [exact Gr|]. exists (body k). split; [apply bd_get; eauto|exact Ir]. }
  assert (Ch : forall k, exists l, length l = k /\ (forall x, In x l -> x < length h) /\
           NoDup l /\ exists top m, get h top = Some m /\ forall x, In x l -> from h top x /\ x <> top).
  { induction k as [|k (l & Ll & Lt & ND & top & m & Gt & F)].
    - exists []. repeat split; try constructor; try (intros x []). exists p, n. split; [exact G|intros x []].
    - destruct (Up top m Gt) as (r & mr & Gr & Er).
      exists (top :: l). split; [cbn; lia|]. split; [intros x [<-|H]; [eapply get_lt; eauto|auto]|].
      split; [constructor; [intros H; apply (F top H); reflexivity|exact ND]|].
      assert (NC : forall y, from h top y -> y <> r).
      { intros y Fy ->. (* r reaches itself through top *)
        assert (Cy : forall z, Acc (edge h) z -> from h z r -> from h r z -> False).
        { intros z Az. induction Az as [z _ IHz]. intros F1 F2.
          inversion F1 as [Ez|q1 q2 F1' E1 Eq].
          - subst z. apply (IHz top Er); [exact Fy|]. eapply from_step; [constructor|exact Er].
          - assert (exists w, edge h w z /\ from h w r) as (w & Ew & Fw).
            { clear - F1' E1. revert E1. generalize r. induction F1' as [|a b Fa IHa Eab]; intros r0 E1.
              - exists r0. split; [exact E1|constructor].
              - destruct (IHa b Eab) as (w & Ew & Fw). exists w. split; [exact Ew|]. eapply from_step; eauto. }
            apply (IHz w Ew Fw). eapply from_step; eauto. }
        apply (Cy r (A r)); constructor. }
      exists r, mr. split; [exact Gr|]. intros x [<-|H].
      + split; [eapply from_step; [constructor|exact Er]|]. apply NC. constructor.
      + destruct (F x H) as (Fx & _). split; [|apply NC; exact Fx]. eapply from_trans; [|exact Fx]. eapply from_step; [constructor|exact Er]. }
  destruct (Ch (S (length h))) as (l & Ll & Lt & ND & _).
  assert (length l <= length (seq 0 (length h))) as X.
  { apply NoDup_incl_length; [exact ND|]. intros x H. apply in_seq. specialize (Lt x H). lia. }
  rewrite seq_length in X. lia.
Qed.

Lemma release_each_ok : forall l h, Inv h l -> acyc h ->
  exists h', release_each h l = Ok h' /\ Inv h' [] /\ acyc h'.
Proof.
  induction l as [|p l IH]; intros h I A; cbn [release_each]; [eauto|].
  destruct (release_ok h p l I) as (h1 & E & I1 & Sb & _). rewrite E. cbn [obind].
  apply IH; [exact I1|]. eapply acyc_sub; eauto.
Qed.
