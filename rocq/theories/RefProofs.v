(** Reference counting keeps every reachable cell alive, and the object operations
    implement the specification. *)
From Verif Require Import Common CommonFacts RefModel RefSpec.
Local Open Scope nat_scope.

(** * Counting references *)
Definition cnt (q : nat) (l : list nat) : nat := count_occ Nat.eq_dec l q.
Definition edges (o : option node) (q : nat) : nat :=
  match o with Some n => cnt q (outs (body n)) | None => 0 end.
Fixpoint indeg (h : heap) (q : nat) : nat :=
  match h with [] => 0 | o :: h => edges o q + indeg h q end.

Definition Inv (h : heap) (roots : list nat) : Prop :=
  forall p,
  match get h p with
  | Some n => rc n = Z.of_nat (cnt p roots + indeg h p) /\ 0 < cnt p roots + indeg h p
  | None => cnt p roots + indeg h p = 0
  end.

Lemma cnt_app q a b : cnt q (a ++ b) = cnt q a + cnt q b.
Proof. unfold cnt. induction a as [|x a IH]; cbn; [reflexivity|]. destruct (Nat.eq_dec x q); lia. Qed.
Lemma cnt_cons q x l : cnt q (x :: l) = (if Nat.eq_dec x q then 1 else 0) + cnt q l.
Proof. unfold cnt. cbn. destruct (Nat.eq_dec x q); lia. Qed.
Lemma cnt_nil q : cnt q [] = 0. Proof. reflexivity. Qed.
Lemma cnt_in q l : In q l <-> 0 < cnt q l.
Proof. unfold cnt. rewrite (count_occ_In Nat.eq_dec). lia. Qed.

Lemma get_upd h p x q : p < length h -> get (upd h p x) q = if Nat.eqb q p then x else get h q.
Proof.
  intros Hp. unfold get. destruct (Nat.eqb_spec q p) as [->|N].
  - rewrite upd_nth_eq by exact Hp. destruct x; reflexivity.
  - rewrite upd_nth_neq by auto. reflexivity.
Qed.
Lemma get_lt h p n : get h p = Some n -> p < length h.
Proof. unfold get. destruct (nth_error h p) eqn:E; [|discriminate]. intros _. apply nth_error_Some. congruence. Qed.
Lemma get_app h x q : get (h ++ [x]) q = if Nat.eqb q (length h) then x else get h q.
Proof.
  unfold get. destruct (Nat.eqb_spec q (length h)) as [->|N].
  - rewrite nth_error_app2, Nat.sub_diag by lia. cbn. destruct x; reflexivity.
  - destruct (Nat.ltb_spec q (length h)).
    + rewrite nth_error_app1 by assumption. reflexivity.
    + rewrite (proj2 (nth_error_None h q)) by lia.
      rewrite nth_error_app2 by lia. destruct (q - length h) as [|k] eqn:E; [lia|]. cbn. destruct k; reflexivity.
Qed.
Lemma get_none_len h : get h (length h) = None.
Proof. unfold get. rewrite (proj2 (nth_error_None h (length h))) by lia. reflexivity. Qed.

Lemma indeg_upd h p x q : p < length h -> indeg (upd h p x) q + edges (get h p) q = indeg h q + edges x q.
Proof.
  revert p. induction h as [|o h IH]; intros p Hp; [cbn in Hp; lia|].
  destruct p as [|p]; cbn [upd indeg].
  - unfold get; cbn [nth_error]. replace (match o with Some n => Some n | None => None end) with o by (destruct o; reflexivity). lia.
  - cbn in Hp. specialize (IH p ltac:(lia)). unfold get in *; cbn [nth_error]. lia.
Qed.
Lemma indeg_app h x q : indeg (h ++ [x]) q = indeg h q + edges x q.
Proof. induction h; cbn; lia. Qed.
Lemma indeg_ge h p n q : get h p = Some n -> In q (outs (body n)) -> 0 < indeg h q.
Proof.
  intros G I. pose proof (indeg_upd h p None q (get_lt _ _ _ G)) as E. rewrite G in E.
  cbn [edges] in E. apply cnt_in in I. lia.
Qed.
Lemma indeg_pos h q : 0 < indeg h q -> exists p n, get h p = Some n /\ In q (outs (body n)).
Proof.
  induction h as [|o h IH]; cbn; [lia|]. intros H.
  destruct (Nat.eq_dec (edges o q) 0) as [E|E].
  - destruct (IH ltac:(lia)) as (p & n & G & I). exists (S p), n. split; [exact G|exact I].
  - destruct o as [n|]; cbn in E; [|lia]. exists 0, n. split; [reflexivity|]. apply cnt_in. lia.
Qed.

(** stored references bound the work of a release *)
Lemma stored_upd h p x : p < length h ->
  stored (upd h p x) + (match get h p with Some n => length (outs (body n)) | None => 0 end)
  = stored h + (match x with Some n => length (outs (body n)) | None => 0 end).
Proof.
  revert p. induction h as [|o h IH]; intros p Hp; [cbn in Hp; lia|].
  destruct p as [|p].
  - unfold get; cbn. destruct o, x; cbn; lia.
  - cbn in Hp. specialize (IH p ltac:(lia)). unfold get in *; cbn [nth_error upd].
    change (stored (o :: upd h p x)) with ((match o with Some n => length (outs (body n)) | None => 0 end) + stored (upd h p x)
      + 0) || idtac.
    unfold stored in *; cbn. destruct o; lia.
Qed.

(** * Release *)
Definition sub_heap (h' h : heap) : Prop :=
  forall p n', get h' p = Some n' -> exists n, get h p = Some n /\ body n' = body n.

Lemma sub_refl h : sub_heap h h. Proof. intros p n G. eauto. Qed.
Lemma sub_trans a b c : sub_heap a b -> sub_heap b c -> sub_heap a c.
Proof. intros H1 H2 p n G. destruct (H1 _ _ G) as (m & G' & E). destruct (H2 _ _ G') as (k & G'' & E'). exists k. split; congruence. Qed.

Lemma inv_live_root h roots p : Inv h roots -> In p roots -> exists n, get h p = Some n.
Proof. intros I H. specialize (I p). apply cnt_in in H. destruct (get h p) eqn:E; [eauto|]. cbn in I. lia. Qed.
Lemma inv_live_out h roots p n q : Inv h roots -> get h p = Some n -> In q (outs (body n)) -> exists m, get h q = Some m.
Proof.
  intros I G H. pose proof (indeg_ge _ _ _ _ G H) as P. specialize (I q).
  destruct (get h q) eqn:E; [eauto|]. cbn in I. lia.
Qed.

Lemma release_all_ok fuel : forall h work roots,
  Inv h (work ++ roots) -> length work + stored h <= fuel ->
  exists h', release_all fuel h work = Ok h' /\ Inv h' roots /\ sub_heap h' h /\ length h' = length h.
Proof.
  induction fuel as [|fuel IH]; intros h work roots I F; (destruct work as [|p rest]; [exists h; repeat split; auto using sub_refl|]);
    cbn [length] in F; [lia|].
  destruct (inv_live_root h _ p I ltac:(left; reflexivity)) as (n & G).
  pose proof (get_lt _ _ _ G) as L. cbn [release_all]. rewrite G.
  pose proof (I p) as Ip. rewrite G in Ip. cbn [app] in Ip. rewrite cnt_cons in Ip.
  destruct (Nat.eq_dec p p); [|congruence]. destruct Ip as (Rc & _).
  destruct (Z.eqb_spec (rc n - 1) 0) as [E|E].
  - destruct (IH (upd h p None) (outs (body n) ++ rest) roots) as (h' & R & I' & Sb & Ln).
    + intros q. rewrite (get_upd h p None q L). specialize (I q). cbn [app] in I. rewrite cnt_cons in I.
      pose proof (indeg_upd h p None q L) as U. rewrite G in U. cbn [edges] in U.
      rewrite <- app_assoc, cnt_app. destruct (Nat.eqb_spec q p) as [->|N].
      * rewrite G in I. destruct (Nat.eq_dec p p); [|congruence]. lia.
      * destruct (Nat.eq_dec p q); [congruence|]. destruct (get h q); lia.
    + pose proof (stored_upd h p None L) as U. rewrite G in U. rewrite app_length. lia.
    + exists h'. split; [exact R|]. split; [exact I'|]. rewrite upd_length in Ln. split; [|exact Ln].
      eapply sub_trans; [exact Sb|]. intros q m Gq. rewrite (get_upd h p None q L) in Gq.
      destruct (Nat.eqb_spec q p); [discriminate|]. eauto.
  - set (n' := mkNode (rc n - 1) (body n)).
    destruct (IH (upd h p (Some n')) rest roots) as (h' & R & I' & Sb & Ln).
    + intros q. rewrite (get_upd h p (Some n') q L). specialize (I q). cbn [app] in I. rewrite cnt_cons in I.
      pose proof (indeg_upd h p (Some n') q L) as U. rewrite G in U. cbn [edges body n'] in U.
      destruct (Nat.eqb_spec q p) as [->|N].
      * rewrite G in I. destruct (Nat.eq_dec p p); [|congruence]. cbn [rc n']. lia.
      * destruct (Nat.eq_dec p q); [congruence|]. destruct (get h q); lia.
    + pose proof (stored_upd h p (Some n') L) as U. rewrite G in U. cbn [body n'] in U. lia.
    + exists h'. split; [exact R|]. split; [exact I'|]. rewrite upd_length in Ln. split; [|exact Ln].
      eapply sub_trans; [exact Sb|]. intros q m Gq. rewrite (get_upd h p (Some n') q L) in Gq.
      destruct (Nat.eqb_spec q p) as [->|]; [|eauto]. injection Gq as <-. eauto.
Qed.

(** Changing the body of a cell that the release does not free changes nothing else. *)
Definition setbody (h : heap) (p : nat) (c : cell) : heap :=
  match get h p with Some n => upd h p (Some (mkNode (rc n) c)) | None => h end.

Lemma get_setbody h p c q :
  get (setbody h p c) q = if Nat.eqb q p then option_map (fun n => mkNode (rc n) c) (get h p) else get h q.
Proof.
  unfold setbody. destruct (get h p) as [n|] eqn:G.
  - rewrite get_upd by (eapply get_lt; eauto). reflexivity.
  - destruct (Nat.eqb_spec q p); [subst; exact G|reflexivity].
Qed.

Lemma heap_ext (a b : heap) : length a = length b -> (forall q, get a q = get b q) -> a = b.
Proof.
  revert b. induction a as [|x a IH]; intros [|y b] L H; try discriminate; [reflexivity|].
  f_equal.
  - specialize (H 0). unfold get in H; cbn in H. destruct x, y; congruence.
  - apply IH; [cbn in L; lia|]. intros q. exact (H (S q)).
Qed.
Lemma setbody_length h p c : length (setbody h p c) = length h.
Proof. unfold setbody. destruct (get h p); [apply upd_length|reflexivity]. Qed.

Lemma release_sub fuel : forall h work h', release_all fuel h work = Ok h' -> sub_heap h' h.
Proof.
  induction fuel as [|fuel IH]; intros h [|p rest] h' R; cbn [release_all] in R; try discriminate;
    try (injection R as <-; apply sub_refl).
  destruct (get h p) as [n|] eqn:G; [|discriminate]. pose proof (get_lt _ _ _ G) as L.
  destruct (rc n - 1 =? 0)%Z; apply IH in R; (eapply sub_trans; [exact R|]);
    intros q m Gq; rewrite get_upd in Gq by exact L; destruct (Nat.eqb_spec q p) as [->|]; eauto; try discriminate.
  injection Gq as <-. eauto.
Qed.

Lemma release_frame fuel p c : forall h work h' m,
  release_all fuel h work = Ok h' -> get h' p = Some m ->
  release_all fuel (setbody h p c) work = Ok (setbody h' p c).
Proof.
  induction fuel as [|fuel IH]; intros h [|q rest] h' m R L; cbn [release_all] in *; try discriminate;
    try (injection R as <-; reflexivity).
  destruct (get h q) as [n|] eqn:G; [|discriminate]. pose proof (get_lt _ _ _ G) as Lq.
  rewrite get_setbody. destruct (Nat.eqb_spec q p) as [->|N].
  - rewrite G. cbn [option_map rc body].
    destruct (rc n - 1 =? 0)%Z.
    + exfalso. apply release_sub in R. destruct (R _ _ L) as (k & Gk & _).
      rewrite get_upd in Gk by exact Lq. rewrite Nat.eqb_refl in Gk. discriminate.
    + rewrite <- (IH _ _ _ _ R L). f_equal. apply heap_ext.
      * rewrite upd_length, !setbody_length, upd_length. reflexivity.
      * intros x. rewrite get_upd by (rewrite setbody_length; exact Lq). rewrite !get_setbody.
        destruct (Nat.eqb_spec x p) as [->|Nx]; rewrite ?get_upd by exact Lq;
          [rewrite Nat.eqb_refl; cbn; reflexivity|].
        destruct (Nat.eqb_spec x p); [congruence|reflexivity].
  - rewrite G. destruct (rc n - 1 =? 0)%Z;
      (rewrite <- (IH _ _ _ _ R L); f_equal; apply heap_ext;
       [rewrite upd_length, !setbody_length, upd_length; reflexivity|]; intros y;
       rewrite get_upd by (rewrite setbody_length; exact Lq); rewrite !get_setbody, !get_upd by exact Lq;
       destruct (Nat.eqb_spec y q); destruct (Nat.eqb_spec y p); destruct (Nat.eqb_spec p q); congruence).
Qed.

(** * Reachability *)
Inductive reach (h : heap) (roots : list nat) : nat -> Prop :=
| reach_root p : In p roots -> reach h roots p
| reach_edge p n q : reach h roots p -> get h p = Some n -> In q (outs (body n)) -> reach h roots q.

Lemma reach_live h roots p : Inv h roots -> reach h roots p -> exists n, get h p = Some n.
Proof. intros I R. induction R as [p H|p n q R IH G H]; [eapply inv_live_root|eapply inv_live_out]; eauto. Qed.

Lemma reach_sub h h' roots p : Inv h' roots -> sub_heap h' h -> reach h roots p ->
  exists n n', get h p = Some n /\ get h' p = Some n' /\ body n' = body n /\ reach h' roots p.
Proof.
  intros I Sb R. induction R as [p H|p n q R IH G H].
  - destruct (inv_live_root _ _ _ I H) as (n' & G'). destruct (Sb _ _ G') as (n & G & E).
    exists n, n'. repeat split; auto. apply reach_root; exact H.
  - destruct IH as (n0 & n' & G0 & G' & E & R'). rewrite G in G0. injection G0 as <-.
    rewrite <- E in H. destruct (inv_live_out _ _ _ _ _ I G' H) as (m' & Gm).
    destruct (Sb _ _ Gm) as (m & Gm0 & E'). exists m, m'. repeat split; auto. eapply reach_edge; eauto.
Qed.
Lemma reach_weaken h a b p : (forall x, In x a -> In x b) -> reach h a p -> reach h b p.
Proof. intros H R. induction R; [apply reach_root; auto|eapply reach_edge; eauto]. Qed.

(** * The release of a held reference *)
Lemma release_ok h p roots :
  Inv h (p :: roots) ->
  exists h', release h p = Ok h' /\ Inv h' roots /\ sub_heap h' h /\ length h' = length h.
Proof. intros I. unfold release. eapply release_all_ok; [exact I|]. cbn. lia. Qed.

(** * Retaining *)
Lemma retain_ok h p n roots :
  Inv h roots -> get h p = Some n ->
  retain h p = Ok (upd h p (Some (mkNode (rc n + 1) (body n)))) /\
  Inv (upd h p (Some (mkNode (rc n + 1) (body n)))) (p :: roots).
Proof.
  intros I G. pose proof (get_lt _ _ _ G) as L. unfold retain. rewrite G. split; [reflexivity|].
  intros q. rewrite get_upd by exact L. pose proof (indeg_upd h p (Some (mkNode (rc n + 1) (body n))) q L) as U.
  rewrite G in U. cbn [edges body] in U. rewrite cnt_cons. specialize (I q). destruct (Nat.eqb_spec q p) as [->|N].
  - rewrite G in I. destruct (Nat.eq_dec p p); [|congruence]. cbn [rc]. lia.
  - destruct (Nat.eq_dec p q); [congruence|]. destruct (get h q); lia.
Qed.

(** * Allocation *)
Lemma alloc_ok h c roots :
  Inv h roots -> (forall q, In q (outs c) -> False) -> Inv (fst (alloc h c)) (length h :: roots).
Proof.
  intros I O q. cbn [alloc fst]. rewrite get_app, indeg_app, cnt_cons. cbn [edges body].
  assert (Z0 : cnt q (outs c) = 0) by (destruct (outs c) as [|x l]; [reflexivity|exfalso; apply (O x); left; reflexivity]).
  rewrite Z0. specialize (I q). destruct (Nat.eqb_spec q (length h)) as [->|N].
  - rewrite get_none_len in I. destruct (Nat.eq_dec (length h) (length h)); [|congruence]. cbn [rc]. lia.
  - destruct (Nat.eq_dec (length h) q); [congruence|]. destruct (get h q); lia.
Qed.

(** * Replacing an owned reference: release the old one, store, retain the new one *)
Lemma swap_ok h roots p n c0 c' old nw :
  Inv h roots -> get h p = Some n ->
  (forall q, cnt q (outs (body n)) = cnt q (olist old) + cnt q (outs c0)) ->
  (forall q, cnt q (outs c') = cnt q (olist nw) + cnt q (outs c0)) ->
  let h0 := setbody h p c0 in
  reach h0 roots p -> (forall x, nw = Some x -> reach h0 roots x) ->
  exists h', (do h1 <- release_opt h old; do h2 <- store h1 p c'; retain_opt h2 nw) = Ok h' /\
    Inv h' roots /\ length h' = length h /\
    (exists m, get h' p = Some m /\ body m = c') /\
    (forall q, q <> p -> reach h0 roots q -> exists a b, get h q = Some a /\ get h' q = Some b /\ body b = body a) /\
    (forall q b, q <> p -> get h' q = Some b -> exists a, get h q = Some a /\ body b = body a).
Proof.
  intros I G C0 C' h0 Rp Rn.
  pose proof (get_lt _ _ _ G) as L.
  (* the state without the old reference *)
  assert (I0 : Inv h0 (olist old ++ roots)).
  { intros q. unfold h0. rewrite get_setbody. rewrite G. cbn [option_map].
    assert (U : indeg (setbody h p c0) q + cnt q (outs (body n)) = indeg h q + cnt q (outs c0)).
    { unfold setbody. rewrite G. pose proof (indeg_upd h p (Some (mkNode (rc n) c0)) q L) as U.
      rewrite G in U. cbn [edges body] in U. exact U. }
    rewrite cnt_app. specialize (C0 q). specialize (I q).
    destruct (Nat.eqb_spec q p) as [->|N]; [rewrite G in I; cbn [rc]; lia|]. destruct (get h q); lia. }
  assert (St : stored h0 <= stored h).
  { unfold h0, setbody. rewrite G. pose proof (stored_upd h p (Some (mkNode (rc n) c0)) L) as U. rewrite G in U. cbn [body] in U.
    assert (length (outs c0) <= length (outs (body n))).
    { assert (P : forall q, cnt q (outs c0) <= cnt q (outs (body n))) by (intros q; rewrite C0; lia).
      revert P. clear. revert c0. intros c0. generalize (outs c0), (outs (body n)). intros a. induction a as [|x a IH]; intros b P; [cbn; lia|].
      assert (In x b) as H by (apply cnt_in; specialize (P x); rewrite cnt_cons in P; destruct (Nat.eq_dec x x); [lia|congruence]).
      apply in_split in H as (b1 & b2 & ->). specialize (IH (b1 ++ b2)). rewrite app_length in *. cbn [length].
      assert (length a <= length b1 + length b2); [|lia]. apply IH. intros q. specialize (P q). rewrite cnt_cons, cnt_app, cnt_cons in P. rewrite cnt_app. lia. }
    lia. }
  assert (Rel : exists h0', (match old with Some x => release_all (S (stored h)) h0 [x] | None => Ok h0 end) = Ok h0' /\
                Inv h0' roots /\ sub_heap h0' h0 /\ length h0' = length h0).
  { destruct old as [x|]; [|exists h0; cbn in I0; repeat split; auto using sub_refl].
    apply (release_all_ok (S (stored h)) h0 [x] roots I0). cbn. lia. }
  destruct Rel as (h0' & R0 & I0' & Sb & Ln).
  destruct (reach_sub _ _ _ _ I0' Sb Rp) as (pn & pn' & Gp0 & Gp' & Eb & _).
  assert (Bp : body pn' = c0).
  { rewrite Eb. unfold h0 in Gp0. rewrite get_setbody, Nat.eqb_refl, G in Gp0. injection Gp0 as <-. reflexivity. }
  set (h1 := setbody h0' p (body n)).
  assert (R1 : release_opt h old = Ok h1).
  { assert (Hh : h = setbody h0 p (body n)).
    { apply heap_ext; [unfold h0; rewrite !setbody_length; reflexivity|]. intros q. unfold h0. rewrite !get_setbody.
      rewrite Nat.eqb_refl, G. cbn. destruct (Nat.eqb_spec q p) as [->|]; [rewrite G; destruct n; reflexivity|reflexivity]. }
    destruct old as [x|]; cbn [release_opt].
    - unfold release. unfold h1. replace (release_all (S (stored h)) h [x]) with (release_all (S (stored h)) (setbody h0 p (body n)) [x]) by (rewrite <- Hh; reflexivity).
      eapply release_frame; eauto.
    - injection R0 as <-. unfold h1. rewrite <- Hh. reflexivity. }
  rewrite R1. cbn [obind].
  assert (G1 : get h1 p = Some (mkNode (rc pn') (body n))) by (unfold h1; rewrite get_setbody, Nat.eqb_refl, Gp'; reflexivity).
  unfold store. rewrite G1. cbn [obind rc].
  set (h2 := upd h1 p (Some (mkNode (rc pn') c'))).
  assert (L1 : p < length h1) by (eapply get_lt; eauto).
  assert (G2 : forall q, get h2 q = if Nat.eqb q p then Some (mkNode (rc pn') c') else get h0' q).
  { intros q. unfold h2. rewrite get_upd by exact L1. unfold h1. rewrite get_setbody. destruct (Nat.eqb q p); reflexivity. }
  assert (Ln2 : length h2 = length h0') by (unfold h2, h1; rewrite upd_length, setbody_length; reflexivity).
  assert (E2 : forall q, indeg h2 q = indeg h0' q + cnt q (olist nw)).
  { intros q. assert (h2 = upd h0' p (Some (mkNode (rc pn') c'))) as ->.
    { apply heap_ext; [rewrite upd_length; exact Ln2|]. intros x. rewrite G2, get_upd by (eapply get_lt; eauto). reflexivity. }
    pose proof (indeg_upd h0' p (Some (mkNode (rc pn') c')) q (get_lt _ _ _ Gp')) as U.
    rewrite Gp' in U. cbn [edges body] in U. rewrite Bp in U. specialize (C' q). lia. }
  (* the final heap *)
  assert (Fin : exists h', retain_opt h2 nw = Ok h' /\ Inv h' roots /\ length h' = length h2 /\
                 forall q, exists k, get h' q = option_map (fun n => mkNode (rc n + k) (body n)) (get h2 q)).
  { destruct nw as [x|]; cbn [retain_opt].
    - destruct (reach_sub _ _ _ _ I0' Sb (Rn x eq_refl)) as (_ & xn & _ & Gx & _ & _).
      assert (exists xm, get h2 x = Some xm /\ rc xm = rc xn) as (xm & Gx2 & Rx).
      { rewrite G2. destruct (Nat.eqb_spec x p) as [->|]; [|eauto]. rewrite Gp' in Gx. injection Gx as <-. eauto. }
      assert (Lx : x < length h2) by (eapply get_lt; eauto).
      unfold retain. rewrite Gx2. eexists. split; [reflexivity|]. split; [|split; [apply upd_length|]].
      + intros q. rewrite get_upd by exact Lx.
        pose proof (indeg_upd h2 x (Some (mkNode (rc xm + 1) (body xm))) q Lx) as U. rewrite Gx2 in U. cbn [edges body] in U.
        specialize (E2 q). cbn [olist] in E2. rewrite cnt_cons, cnt_nil in E2. pose proof (I0' q) as Iq.
        destruct (Nat.eqb_spec q x) as [->|N].
        * rewrite Gx in Iq. cbn [rc]. destruct (Nat.eq_dec x x); [|congruence]. lia.
        * destruct (Nat.eq_dec x q); [congruence|]. rewrite G2. destruct (Nat.eqb_spec q p) as [->|N'].
          -- rewrite Gp' in Iq. cbn [rc]. lia.
          -- destruct (get h0' q); lia.
      + intros q. rewrite get_upd by exact Lx. destruct (Nat.eqb_spec q x) as [->|].
        * exists 1%Z. rewrite Gx2. reflexivity.
        * exists 0%Z. destruct (get h2 q) as [[r b]|]; cbn; [|reflexivity]. do 2 f_equal. lia.
    - exists h2. split; [reflexivity|]. split; [|split; [reflexivity|]].
      + intros q. specialize (E2 q). cbn [olist] in E2. rewrite cnt_nil in E2. pose proof (I0' q) as Iq. rewrite G2.
        destruct (Nat.eqb_spec q p) as [->|]; [rewrite Gp' in Iq; cbn [rc]; lia|]. destruct (get h0' q); lia.
      + intros q. exists 0%Z. destruct (get h2 q) as [[r b]|]; cbn; [|reflexivity]. do 2 f_equal. lia. }
  destruct Fin as (h' & Rf & If & Lf & Bf). exists h'. split; [exact Rf|]. split; [exact If|].
  split; [rewrite Lf, Ln2, Ln; unfold h0; apply setbody_length|]. split; [|split].
  - destruct (Bf p) as (k & Gk). rewrite G2, Nat.eqb_refl in Gk. cbn in Gk. rewrite Gk. eexists. split; reflexivity.
  - intros q N Rq. destruct (reach_sub _ _ _ _ I0' Sb Rq) as (a & b & Ga & Gb & E & _).
    unfold h0 in Ga. rewrite get_setbody in Ga. destruct (Nat.eqb_spec q p); [congruence|].
    destruct (Bf q) as (k & Gk). rewrite G2 in Gk. destruct (Nat.eqb_spec q p); [congruence|]. rewrite Gb in Gk. cbn in Gk.
    exists a. rewrite Gk. eexists. split; [exact Ga|]. split; [reflexivity|]. cbn. exact E.
  - intros q b N Gb. destruct (Bf q) as (k & Gk). rewrite G2 in Gk. destruct (Nat.eqb_spec q p); [congruence|].
    rewrite Gb in Gk. destruct (get h0' q) as [m|] eqn:Gm; [|discriminate]. cbn in Gk. injection Gk as ->.
    destruct (Sb _ _ Gm) as (a & Ga & E). unfold h0 in Ga. rewrite get_setbody in Ga.
    destruct (Nat.eqb_spec q p); [congruence|]. exists a. split; [exact Ga|]. cbn. exact E.
Qed.
