(** The property list of an object, on top of the reference counting facts. *)
From Verif Require Import Common CommonFacts RefModel RefSpec RefProofs.
Local Open Scope nat_scope.

Definition bd (h : heap) (p : nat) : option cell := option_map body (get h p).

Lemma bd_get h p c : bd h p = Some c <-> exists n, get h p = Some n /\ body n = c.
Proof.
  unfold bd. destruct (get h p) as [n|]; cbn; split.
  - intros E. injection E as <-. eauto.
  - intros (m & E & <-). injection E as <-. reflexivity.
  - discriminate.
  - intros (m & E & _). discriminate.
Qed.
Lemma bd_lt h p c : bd h p = Some c -> p < length h.
Proof. intros H. apply bd_get in H as (n & G & _). eapply get_lt; eauto. Qed.
Lemma load_bd h p c : bd h p = Some c -> load h p = Ok c.
Proof. intros H. apply bd_get in H as (n & G & E). unfold load. rewrite G, E. reflexivity. Qed.
Lemma load_bd_inv h p c : load h p = Ok c -> bd h p = Some c.
Proof. unfold load, bd. destruct (get h p); intros E; [injection E as <-; reflexivity|discriminate]. Qed.

(** a cell survives with the same contents, up to the links between cells *)
Definition sim (c c' : cell) : Prop :=
  match c, c' with
  | CVal d r, CVal d' r' => d = d' /\ r = r'
  | CProp nm _ _, CProp nm' _ _ => nm = nm'
  | CObj nm _ _ _, CObj nm' _ _ _ => nm = nm'
  | _, _ => False
  end.
Definition later (h h' : heap) : Prop := forall q c', q < length h -> bd h' q = Some c' -> exists c, bd h q = Some c /\ sim c c'.
Lemma sim_refl c : sim c c. Proof. destruct c; cbn; auto. Qed.
Lemma sim_trans a b c : sim a b -> sim b c -> sim a c.
Proof. destruct a, b, c; cbn; try tauto; intros; intuition congruence. Qed.
Lemma later_refl h : later h h. Proof. intros q c _ H. eauto using sim_refl. Qed.
Lemma later_trans a b c : length a <= length b -> later a b -> later b c -> later a c.
Proof.
  intros L H1 H2 q x Lq Hx. destruct (H2 q x ltac:(lia) Hx) as (y & Hy & S1). destruct (H1 q y Lq Hy) as (z & Hz & S2).
  exists z. split; [exact Hz|]. eapply sim_trans; eauto.
Qed.
Lemma sub_bd h h' p c : sub_heap h' h -> bd h' p = Some c -> bd h p = Some c.
Proof. intros S0 H. apply bd_get in H as (n & G & E). destruct (S0 _ _ G) as (m & Gm & Em). apply bd_get. exists m. split; congruence. Qed.
Lemma sub_later h h' : sub_heap h' h -> later h h'.
Proof. intros S0 q c _ H. exists c. split; [eapply sub_bd; eauto|apply sim_refl]. Qed.

(** * Acyclicity *)
Definition edge (h : heap) (q p : nat) : Prop := exists c, bd h p = Some c /\ In q (outs c).
Definition acyc (h : heap) : Prop := forall p, Acc (edge h) p.

Lemma acyc_sub h h' : sub_heap h' h -> acyc h -> acyc h'.
Proof.
  intros S0 A p. induction (A p) as [p _ IH]. constructor. intros q (c & B & I). apply IH. exists c. split; [eapply sub_bd; eauto|exact I].
Qed.
Lemma acyc_alloc h c : outs c = [] -> acyc h -> acyc (h ++ [Some (mkNode 1 c)]).
Proof.
  intros O A p.
  assert (K : forall q p, edge (h ++ [Some (mkNode 1 c)]) q p -> edge h q p).
  { intros q x (c0 & B & I). unfold bd in B. rewrite get_app in B. destruct (Nat.eqb_spec x (length h)).
    - cbn in B. injection B as <-. rewrite O in I. destruct I.
    - exists c0. split; [exact B|exact I]. }
  induction (A p) as [p _ IH]. constructor. intros q E. apply IH. apply K. exact E.
Qed.

(** [q] can be reached from [x] *)
Inductive from (h : heap) (x : nat) : nat -> Prop :=
| from_refl : from h x x
| from_step p q : from h x p -> edge h q p -> from h x q.

Lemma from_trans h x y z : from h x y -> from h y z -> from h x z.
Proof. intros A B. induction B as [|p q B IH E]; [exact A|]. eapply from_step; eauto. Qed.

(** [p]'s out-references become [outs c'], where only [x] is new and [x] does not lead to [p] *)
Lemma acyc_link h h' p x :
  acyc h -> (forall q y, y <> p -> edge h' q y -> edge h q y) ->
  (forall q, edge h' q p -> edge h q p \/ x = Some q) ->
  (forall y, x = Some y -> ~ from h y p) -> acyc h'.
Proof.
  intros A E1 E2 NF.
  assert (LA : forall y, ~ from h y p -> Acc (edge h') y).
  { intros y. induction (A y) as [y _ IH]. intros N. constructor. intros q Eq.
    assert (y <> p) by (intros ->; apply N; constructor).
    apply IH; [apply E1; assumption|]. intros F. apply N. eapply from_trans; [|exact F].
    eapply from_step; [constructor|]. apply E1; assumption. }
  intros y. induction (A y) as [y _ IH]. constructor. intros q Eq.
  destruct (Nat.eq_dec y p) as [->|N].
  - destruct (E2 q Eq) as [H|H]; [apply IH; exact H|]. apply LA. apply NF. exact H.
  - apply IH. apply E1; assumption.
Qed.

(** * Segments of property lists *)
Record entry := mkE { e_addr : nat; e_name : list Z; e_val : nat; e_data : Z }.

Definition entry_ok (h : heap) (e : entry) (nx : option nat) : Prop :=
  bd h (e_addr e) = Some (CProp (Some (e_name e)) (Some (e_val e)) nx) /\ bd h (e_val e) = Some (CVal (e_data e) None).

Fixpoint pseg (h : heap) (first : option nat) (l : list entry) (tl : option nat) : Prop :=
  match l with
  | [] => first = tl
  | e :: l => first = Some (e_addr e) /\ exists nx, entry_ok h e nx /\ pseg h nx l tl
  end.

Definition addrs (l : list entry) := map e_addr l.
Definition cont (l : list entry) : contents := map (fun e => (e_name e, e_data e)) l.

Lemma pseg_app h first a b tl :
  pseg h first (a ++ b) tl <-> exists mid, pseg h first a mid /\ pseg h mid b tl.
Proof.
  revert first. induction a as [|e a IH]; intros first; cbn [app pseg].
  - split; [eauto|]. intros (mid & -> & H). exact H.
  - split.
    + intros (E & nx & K & H). apply IH in H as (mid & H1 & H2). eauto 10.
    + intros (mid & (E & nx & K & H1) & H2). split; [exact E|]. exists nx. split; [exact K|]. apply IH. eauto.
Qed.

Lemma pseg_frame h h' first l tl :
  pseg h first l tl ->
  (forall e, In e l -> bd h' (e_addr e) = bd h (e_addr e) /\ bd h' (e_val e) = bd h (e_val e)) ->
  pseg h' first l tl.
Proof.
  revert first. induction l as [|e l IH]; intros first H F; cbn [pseg] in *; [exact H|].
  destruct H as (E & nx & (K1 & K2) & H). split; [exact E|]. exists nx.
  destruct (F e (or_introl eq_refl)) as (F1 & F2). split; [split; congruence|]. apply IH; [exact H|]. intros. apply F. right; assumption.
Qed.

Lemma pseg_in h first l tl e : pseg h first l tl -> In e l -> exists nx, entry_ok h e nx.
Proof.
  revert first. induction l as [|x l IH]; intros first H I; [destruct I|]. cbn in H. destruct H as (_ & nx & K & H).
  destruct I as [->|I]; [eauto|eapply IH; eauto].
Qed.
Lemma pseg_length h first l tl : pseg h first l tl -> NoDup (addrs l) -> length l <= length h.
Proof.
  intros H N. replace (length l) with (length (addrs l)) by apply map_length.
  rewrite <- (seq_length (length h) 0). apply NoDup_incl_length; [exact N|].
  intros p I. apply in_map_iff in I as (e & <- & I). destruct (pseg_in _ _ _ _ _ H I) as (nx & K & _).
  apply in_seq. apply bd_lt in K. lia.
Qed.

(** everything reachable from the start of a complete list is one of its cells *)
Lemma from_pseg h first l y q :
  pseg h first l None -> first = Some y -> from h y q ->
  exists e, In e l /\ (q = e_addr e \/ q = e_val e).
Proof.
  intros H E F. induction F as [|p q F IH Ed].
  - destruct l as [|e l]; cbn in H; [congruence|]. destruct H as (E' & _). exists e. split; [left; reflexivity|]. left. congruence.
  - destruct IH as (e & I & Hp). destruct Ed as (c & B & O).
    apply in_split in I as (a & b & ->). apply pseg_app in H as (mid & H1 & H2). cbn in H2. destruct H2 as (Em & nx & (K1 & K2) & H2).
    destruct Hp as [-> | ->].
    + rewrite K1 in B. injection B as <-. cbn in O. destruct O as [<-|O].
      * exists e. split; [apply in_or_app; right; left; reflexivity|]. right. reflexivity.
      * destruct nx as [x|]; cbn in O; [|destruct O]. destruct O as [<-|[]]. destruct b as [|e' b]; cbn in H2; [discriminate|].
        destruct H2 as (E2 & _). injection E2 as ->. exists e'. split; [apply in_or_app; right; right; left; reflexivity|]. left; reflexivity.
    + rewrite K2 in B. injection B as <-. destruct O.
Qed.

(** cells of a list that starts at a reachable cell are reachable *)
Lemma reach_pseg h roots first l tl :
  pseg h first l tl -> (forall x, first = Some x -> reach h roots x) ->
  (forall e, In e l -> reach h roots (e_addr e) /\ reach h roots (e_val e)) /\
  (forall x, tl = Some x -> reach h roots x).
Proof.
  revert first. induction l as [|e l IH]; intros first H R; cbn in H.
  - subst. split; [intros e []|exact R].
  - destruct H as (E & nx & (K1 & K2) & H). specialize (R _ E).
    pose proof (proj1 (bd_get _ _ _) K1) as (n & G & B).
    assert (Rv : reach h roots (e_val e)) by (eapply reach_edge; [exact R|exact G|rewrite B; left; reflexivity]).
    destruct (IH nx H) as (R1 & R2).
    { intros x ->. eapply reach_edge; [exact R|exact G|rewrite B; right; left; reflexivity]. }
    split; [|exact R2]. intros e' [<-|I]; [split; assumption|apply R1; exact I].
Qed.

Definition rep (h : heap) (o : nat) (l : list entry) : Prop :=
  (exists nm first ch nx, bd h o = Some (CObj nm first ch nx) /\ pseg h first l None) /\
  NoDup (addrs l) /\ NoDup (map e_name l).

Lemma bd_setbody h p c q : bd (setbody h p c) q = if Nat.eqb q p then option_map (fun _ => c) (bd h p) else bd h q.
Proof. unfold bd. rewrite get_setbody. destruct (Nat.eqb q p); [destruct (get h p); reflexivity|reflexivity]. Qed.

(** swap_ok with [bd] *)
Lemma swap_bd h roots p c c0 c' old nw :
  Inv h roots -> acyc h -> bd h p = Some c -> sim c c' ->
  (forall q, cnt q (outs c) = cnt q (olist old) + cnt q (outs c0)) ->
  (forall q, cnt q (outs c') = cnt q (olist nw) + cnt q (outs c0)) ->
  reach (setbody h p c0) roots p -> (forall x, nw = Some x -> reach (setbody h p c0) roots x) ->
  (forall x, nw = Some x -> ~ from h x p) ->
  exists h', (do h1 <- release_opt h old; do h2 <- store h1 p c'; retain_opt h2 nw) = Ok h' /\
    Inv h' roots /\ acyc h' /\ later h h' /\ length h' = length h /\
    bd h' p = Some c' /\
    (forall q, q <> p -> reach (setbody h p c0) roots q -> bd h' q = bd h q).
Proof.
  intros I A B Sm C0 C' Rp Rn NF. apply bd_get in B as (n & G & <-).
  destruct (swap_ok h roots p n c0 c' old nw I G C0 C' Rp Rn) as (h' & E & I' & L & (m & Gm & Bm) & Fr & Bk).
  exists h'. split; [exact E|]. split; [exact I'|].
  assert (P1 : bd h' p = Some c') by (apply bd_get; eauto).
  assert (P2 : forall q c1, q <> p -> bd h' q = Some c1 -> bd h q = Some c1).
  { intros q c1 N H. apply bd_get in H as (b & Gb & <-). destruct (Bk q b N Gb) as (a & Ga & Eb). apply bd_get. exists a. split; congruence. }
  split; [|split; [|split; [exact L|split; [exact P1|]]]].
  - apply (acyc_link h h' p nw A); [| |exact NF].
    + intros q y N (c1 & H & O). exists c1. split; [apply P2; assumption|exact O].
    + intros q (c1 & H & O). rewrite P1 in H. injection H as <-.
      apply cnt_in in O. rewrite C' in O. destruct (Nat.eq_dec (cnt q (olist nw)) 0) as [Z0|Z0].
      * left. exists (body n). split; [apply bd_get; eauto|]. apply cnt_in. rewrite C0. lia.
      * right. assert (In q (olist nw)) as H by (apply cnt_in; lia). destruct nw; cbn in H; [|destruct H]. destruct H as [->|[]]. reflexivity.
  - intros q c1 _ H. destruct (Nat.eq_dec q p) as [->|N].
    + exists (body n). split; [apply bd_get; eauto|]. rewrite P1 in H. injection H as <-. exact Sm.
    + exists c1. split; [apply P2; assumption|apply sim_refl].
  - intros q N R. destruct (Fr q N R) as (a & b & Ga & Gb & Eb). unfold bd. rewrite Ga, Gb. cbn. congruence.
Qed.

(** * rbusProperty_SetNext at the end of a prefix *)
Lemma set_next_ok h roots o onm first ch nx pre e mid new nl :
  Inv h roots -> acyc h -> In o roots -> bd h o = Some (CObj onm first ch nx) ->
  pseg h first (pre ++ [e]) mid ->
  In new roots -> pseg h (Some new) nl None -> NoDup (addrs (pre ++ e :: nl)) ->
  exists h', property_set_next h (e_addr e) (Some new) = Ok h' /\
    Inv h' roots /\ acyc h' /\ later h h' /\ length h' = length h /\
    bd h' o = Some (CObj onm first ch nx) /\ pseg h' first (pre ++ e :: nl) None.
Proof.
  intros I A Io Bo P In' Pn ND.
  apply pseg_app in P as (m1 & P1 & P2). cbn in P2. destruct P2 as (-> & old & (K1 & K2) & ->).
  set (c0 := CProp (Some (e_name e)) (Some (e_val e)) None).
  set (h0 := setbody h (e_addr e) c0).
  assert (D : forall x, In x (addrs pre) \/ In x (addrs nl) -> x <> e_addr e).
  { intros x Hx ->. unfold addrs in ND, Hx. rewrite map_app in ND. cbn in ND. apply NoDup_remove_2 in ND. apply ND. apply in_or_app. tauto. }
  assert (DV : forall x d r, bd h x = Some (CVal d r) -> x <> e_addr e) by (intros x d r H ->; congruence).
  assert (DO : o <> e_addr e) by (intros ->; congruence).
  assert (F0 : forall x, x <> e_addr e -> bd h0 x = bd h x).
  { intros x N. unfold h0. rewrite bd_setbody. destruct (Nat.eqb_spec x (e_addr e)); [congruence|reflexivity]. }
  assert (P0 : pseg h0 first pre (Some (e_addr e))).
  { apply (pseg_frame h); [exact P1|]. intros x Hx. split; apply F0; [apply D; left; apply in_map; exact Hx|].
    destruct (pseg_in _ _ _ _ _ P1 Hx) as (z & _ & Kz). eapply DV; eauto. }
  assert (Pn0 : pseg h0 (Some new) nl None).
  { apply (pseg_frame h); [exact Pn|]. intros x Hx. split; apply F0; [apply D; right; apply in_map; exact Hx|].
    destruct (pseg_in _ _ _ _ _ Pn Hx) as (z & _ & Kz). eapply DV; eauto. }
  assert (Bo0 : bd h0 o = Some (CObj onm first ch nx)) by (rewrite F0 by exact DO; exact Bo).
  assert (Rf : forall x, first = Some x -> reach h0 roots x).
  { intros x ->. apply bd_get in Bo0 as (n & G & B). eapply reach_edge; [apply reach_root; exact Io|exact G|]. rewrite B. left. reflexivity. }
  destruct (reach_pseg h0 roots first pre _ P0 Rf) as (Rpre & Re). specialize (Re _ eq_refl).
  assert (Rnew : forall x, Some new = Some x -> reach h0 roots x) by (intros x E; injection E as <-; apply reach_root; exact In').
  destruct (reach_pseg h0 roots (Some new) nl None Pn0 Rnew) as (Rnl & _).
  unfold property_set_next. rewrite (load_bd _ _ _ K1). cbn [obind].
  destruct (swap_bd h roots (e_addr e) _ c0 (CProp (Some (e_name e)) (Some (e_val e)) (Some new)) mid (Some new) I A K1)
    as (h' & E & I' & A' & Lt & L & Bp & Fr).
  - reflexivity.
  - intros q. unfold c0. cbn [outs]. rewrite !cnt_app. cbn [olist]. rewrite ?cnt_nil. lia.
  - intros q. unfold c0. cbn [outs]. rewrite !cnt_app. cbn [olist]. rewrite ?cnt_nil. lia.
  - exact Re.
  - exact Rnew.
  - intros x Ex F. injection Ex as <-. destruct (from_pseg _ _ _ _ _ Pn eq_refl F) as (e' & Ie & [H|H]).
    + apply (D (e_addr e')); [right; apply in_map; exact Ie|congruence].
    + destruct (pseg_in _ _ _ _ _ Pn Ie) as (z & _ & Kz). eapply DV; [exact Kz|congruence].
  - fold h0 in Fr. exists h'. split; [exact E|]. split; [exact I'|]. split; [exact A'|]. split; [exact Lt|]. split; [exact L|].
    assert (Rv : reach h0 roots (e_val e)).
    { assert (bd h0 (e_addr e) = Some c0) as H by (unfold h0; rewrite bd_setbody, Nat.eqb_refl, K1; reflexivity).
      apply bd_get in H as (n & G & B). eapply reach_edge; [exact Re|exact G|]. rewrite B. left. reflexivity. }
    split; [rewrite Fr; [exact Bo|exact DO|apply reach_root; exact Io]|].
    apply pseg_app. exists (Some (e_addr e)). split; [|cbn [pseg]; split; [reflexivity|]; exists (Some new); split; [split|]].
    + apply (pseg_frame h); [exact P1|]. intros x Hx. destruct (Rpre x Hx). split; (rewrite Fr; [reflexivity| |assumption]).
      * apply D. left. apply in_map. exact Hx.
      * destruct (pseg_in _ _ _ _ _ P1 Hx) as (z & _ & Kz). eapply DV; eauto.
    + exact Bp.
    + rewrite Fr; [exact K2| |exact Rv]. eapply DV; eauto.
    + apply (pseg_frame h); [exact Pn|]. intros x Hx. destruct (Rnl x Hx). split; (rewrite Fr; [reflexivity| |assumption]).
      * apply D. right. apply in_map. exact Hx.
      * destruct (pseg_in _ _ _ _ _ Pn Hx) as (z & _ & Kz). eapply DV; eauto.
Qed.
