(** Facts about the memory of the list of rows. *)
From Verif Require Import Common RowmemModel RowmemSpec.
From Verif Require InfoProofs.
Local Open Scope nat_scope.

Definition owned (r : list rnode) : list nat := flat_map (fun n => r_name n :: match r_alias n with None => [] | Some c => [c] end) r.
Definition reads (h : list rcell) (n : rnode) (x : Z * list Z * list Z) : Prop :=
  nth_error h (r_name n) = Some (RStr (snd (fst x))) /\ r_inst n = fst (fst x) /\
  match r_alias n with None => snd x = [] | Some c => nth_error h c = Some (RStr (snd x)) end.
Fixpoint rnexts (b i n : nat) : list rnext := match n with 0 => [] | S n => (match n with 0 => RNull | _ => RAt b (S i) end) :: rnexts b (S i) n end.

Lemma reads_keep h h' r l : (forall a s, In a (owned r) -> nth_error h a = Some (RStr s) -> nth_error h' a = Some (RStr s)) -> Forall2 (reads h) r l -> Forall2 (reads h') r l.
Proof.
  intros K F. induction F as [|n x r l (A & B & C) F IH]; constructor.
  - split; [apply K; [left; reflexivity|exact A]|]. split; [exact B|]. destruct (r_alias n) as [c|] eqn:E; [|exact C]. apply K; [|exact C].
    cbn. rewrite E. cbn. auto.
  - apply IH. intros a s H. apply K. cbn [owned flat_map]. apply in_app_iff. right. exact H.
Qed.
Lemma reads_text h r l : Forall2 (reads h) r l -> forall a, In a (owned r) -> exists s, nth_error h a = Some (RStr s).
Proof.
  induction 1 as [|n x r l (A & B & C) F IH]; intros a H; [destruct H|]. cbn [owned flat_map] in H. apply in_app_iff in H. destruct H as [H|H]; [|apply IH, H].
  destruct H as [<-|H]; [eauto|]. destruct (r_alias n) as [c|]; [|destruct H]. destruct H as [<-|[]]. eauto.
Qed.

Lemma make_ok b l : forall h i, exists ext r, make h b i l = (h ++ ext, r) /\ Forall2 (reads (h ++ ext)) r l /\ map r_next r = rnexts b i (length l) /\
  owned r = seq (length h) (length ext).
Proof.
  induction l as [|[[n s] al] l IH]; intros h i.
  - exists [], []. rewrite app_nil_r. repeat split. constructor.
  - cbn [make ralloc]. destruct al as [|z al]; cbn [ralloc].
    + destruct (IH (h ++ [RStr s]) (S i)) as (ext & r & E & F & M & O). rewrite E. exists (RStr s :: ext). eexists. rewrite <- app_assoc in *. cbn [app] in *.
      split; [reflexivity|]. split.
      { constructor; [|exact F]. split; cbn; [rewrite nth_error_app2, Nat.sub_diag by lia; reflexivity|auto]. }
      split; [cbn [map r_next length rnexts]; rewrite M; destruct l; reflexivity|].
      cbn [owned flat_map r_name r_alias app length seq]. unfold owned in O. rewrite O, app_length. cbn [length]. rewrite Nat.add_1_r. reflexivity.
    + destruct (IH ((h ++ [RStr s]) ++ [RStr (z :: al)]) (S i)) as (ext & r & E & F & M & O). rewrite E. exists (RStr s :: RStr (z :: al) :: ext). eexists. rewrite <- !app_assoc in *. cbn [app] in *.
      split; [reflexivity|]. split.
      { constructor; [|exact F]. split; cbn; [rewrite nth_error_app2, Nat.sub_diag by lia; reflexivity|]. split; [reflexivity|].
        rewrite app_length. cbn [length]. rewrite nth_error_app2 by lia. replace (length h + 1 - length h) with 1 by lia. reflexivity. }
      split; [cbn [map r_next length rnexts]; rewrite M; destruct l; reflexivity|].
      cbn [owned flat_map r_name r_alias app length seq]. unfold owned in O. rewrite O, !app_length. cbn [length]. rewrite Nat.add_1_r. replace (length h + 2) with (S (S (length h))) by lia. reflexivity.
Qed.

(** the whole of memory after a reply with rows *)
Lemma get_ok h l : l <> [] -> exists ext r, get_rows h l = (h ++ RNodes r :: ext, Some (length h)) /\ Forall2 (reads (h ++ RNodes r :: ext)) r l /\
  map r_next r = rnexts (length h) 0 (length l) /\ owned r = seq (S (length h)) (length ext).
Proof.
  intros NE. destruct (make_ok (length h) l (h ++ [RNodes []]) 0) as (ext & r & E & F & M & O). rewrite <- app_assoc in *. cbn [app] in *. rewrite app_length in O. cbn [length] in O. rewrite Nat.add_1_r in O.
  exists ext, r. unfold get_rows. destruct l as [|x l]; [congruence|]. cbn [ralloc]. rewrite E. rewrite InfoProofs.upd_at. split; [reflexivity|]. split; [|split; assumption].
  apply (reads_keep (h ++ RNodes [] :: ext)); [|exact F]. intros a s Ha. rewrite O in Ha. apply in_seq in Ha.
  rewrite !nth_error_app2 by lia. replace (a - length h) with (S (a - S (length h))) by lia. cbn [nth_error]. auto.
Qed.

Lemma rwalk_ok h b : forall rest pre l fuel, nth_error h b = Some (RNodes (pre ++ rest)) -> map r_next rest = rnexts b (length pre) (length rest) ->
  Forall2 (reads h) rest l -> length rest <= fuel -> rwalk fuel h (match rest with [] => RNull | _ => RAt b (length pre) end) = Ok l.
Proof.
  induction rest as [|n rest IH]; intros pre l fuel N M F L.
  - inversion F; subst. destruct fuel; reflexivity.
  - destruct fuel as [|fuel]; [cbn in L; lia|]. cbn [length] in L. inversion F as [|? [[i s] al] ? l' (A & B & C) F']; subst. cbn [fst snd] in *. cbn [rwalk]. rewrite N.
    rewrite nth_error_app2, Nat.sub_diag by lia. cbn [nth_error]. unfold rstr at 1. rewrite A. cbn [obind].
    cbn [map length rnexts] in M. injection M as M1 M2. rewrite M1, B.
    specialize (IH (pre ++ [n]) l' fuel). rewrite <- app_assoc, app_length in IH. cbn [length app] in IH. rewrite Nat.add_1_r in IH. specialize (IH N M2 F' ltac:(lia)).
    assert (E : rwalk fuel h (match length rest with 0 => RNull | S _ => RAt b (S (length pre)) end) = Ok l') by (destruct rest; exact IH).
    destruct (r_alias n) as [c|]; [unfold rstr; rewrite C|subst al]; cbn [obind]; rewrite E; reflexivity.
Qed.

Lemma rfree_ok b : forall rest pre l fuel h, nth_error h b = Some (RNodes (pre ++ rest)) -> map r_next rest = rnexts b (length pre) (length rest) ->
  Forall2 (reads h) rest l -> NoDup (owned rest) -> length rest <= fuel ->
  exists h', rfree_each fuel h (match rest with [] => RNull | _ => RAt b (length pre) end) = Ok h' /\ length h' = length h /\
  forall i, (In i (owned rest) -> nth_error h' i = Some RFreed) /\ (~ In i (owned rest) -> nth_error h' i = nth_error h i).
Proof.
  induction rest as [|n rest IH]; intros pre l fuel h N M F ND L.
  - exists h. split; [destruct fuel; reflexivity|]. split; [reflexivity|]. intros i. split; [intros []|reflexivity].
  - destruct fuel as [|fuel]; [cbn in L; lia|]. cbn [length] in L. inversion F as [|? [[k s] al] ? l' (A & B & C) F']; subst. cbn [fst snd] in *. cbn [rfree_each]. rewrite N.
    rewrite nth_error_app2, Nat.sub_diag by lia. cbn [nth_error]. cbn [map length rnexts] in M. injection M as M1 M2.
    specialize (IH (pre ++ [n]) l' fuel). rewrite <- app_assoc, app_length in IH. cbn [length app] in IH. rewrite Nat.add_1_r in IH.
    assert (La : r_name n < length h) by (apply nth_error_Some; congruence). unfold rfree at 1. rewrite A. cbn [obind].
    set (own := r_name n :: match r_alias n with None => [] | Some c => [c] end).
    change (owned (n :: rest)) with (own ++ owned rest) in *.
    assert (Step : exists h1, match r_alias n with None => Ok (upd h (r_name n) RFreed) | Some c => rfree (upd h (r_name n) RFreed) c end = Ok h1 /\ length h1 = length h /\
      forall i, (In i own -> nth_error h1 i = Some RFreed) /\ (~ In i own -> nth_error h1 i = nth_error h i)).
    { subst own. apply Nat.ltb_lt in La. destruct (r_alias n) as [c|].
      - inversion ND as [|? ? Na _]; subst. assert (NC : r_name n <> c) by (intros E; apply Na; left; congruence).
        assert (Lc : c < length h) by (apply nth_error_Some; congruence). apply Nat.ltb_lt in Lc.
        unfold rfree. rewrite InfoProofs.nth_upd. destruct (Nat.eqb_spec (r_name n) c); [contradiction|]. rewrite C. eexists. split; [reflexivity|]. split; [rewrite !InfoProofs.upd_length; reflexivity|].
        intros i. rewrite !InfoProofs.nth_upd, InfoProofs.upd_length, La, Lc. destruct (Nat.eqb_spec c i); [split; [reflexivity|intros X; exfalso; apply X; right; left; assumption]|].
        destruct (Nat.eqb_spec (r_name n) i); [split; [reflexivity|intros X; exfalso; apply X; left; assumption]|]. split; [intros [X|[X|[]]]; congruence|reflexivity].
      - eexists. split; [reflexivity|]. split; [apply InfoProofs.upd_length|]. intros i. rewrite InfoProofs.nth_upd, La.
        destruct (Nat.eqb_spec (r_name n) i); [split; [reflexivity|intros X; exfalso; apply X; left; assumption]|]. split; [intros [X|[]]; congruence|reflexivity]. }
    destruct Step as (h1 & E1 & L1 & Q1). cbn [obind] in E1. rewrite E1. cbn [obind]. rewrite M1.
    assert (ND2 : NoDup (owned rest) /\ forall i, In i (owned rest) -> ~ In i own).
    { clear - ND. induction own as [|y own IHo]; [split; [exact ND|auto]|]. inversion ND as [|? ? X Y]; subst. destruct (IHo Y) as [P Q]. split; [exact P|].
      intros i Hi [<-|Z]; [apply X, in_app_iff; right; exact Hi|apply (Q i Hi Z)]. }
    destruct ND2 as [ND2 DJ].
    assert (NBo : ~ In b own).
    { intros X. destruct (reads_text h (n :: rest) _ F b) as [q Eq]; [change (In b (own ++ owned rest)); apply in_app_iff; left; exact X|congruence]. }
    destruct (IH h1) as (h' & E & L' & Q); try assumption; try lia.
    + rewrite (proj2 (Q1 b) NBo). exact N.
    + apply (reads_keep h); [|exact F']. intros a q Ha Eq. rewrite (proj2 (Q1 a) (DJ a Ha)). exact Eq.
    + exists h'. split; [destruct rest; exact E|]. split; [congruence|]. intros i. rewrite in_app_iff. destruct (Q i) as [Qa Qb]. destruct (Q1 i) as [Ra Rb].
      destruct (in_dec Nat.eq_dec i (owned rest)) as [I|I]; [split; [auto|intros X; exfalso; auto]|]. rewrite (Qb I). split; [intros [X|X]; [auto|contradiction]|intros X; apply Rb; auto].
Qed.
