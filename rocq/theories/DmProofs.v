From Coq Require Import String.
From Verif Require Import Common TextModel DmModel DmSpec.
Local Open Scope string_scope.
Local Open Scope list_scope.
Local Open Scope Z_scope.

Lemma bytes_eqb_iff a : forall b, bytes_eqb a b = true <-> a = b.
Proof.
  induction a as [|x a IH]; intros [|y b]; cbn [bytes_eqb]; split; try congruence; try (intros; discriminate).
  - intros E. apply andb_prop in E. destruct E as [E1 E2]. apply Z.eqb_eq in E1. apply IH in E2. congruence.
  - intros E. injection E as -> ->. rewrite Z.eqb_refl. cbn. apply IH. reflexivity.
Qed.
Lemma has_iff c s : has c s = true <-> In c s.
Proof. unfold has. rewrite existsb_exists. split; [intros [x [I E]]; apply Z.eqb_eq in E; congruence|intros I; exists c; split; [exact I|apply Z.eqb_refl]]. Qed.
Lemma has_not c s : has c s = false <-> without c s.
Proof. unfold without. rewrite <- has_iff. destruct (has c s); split; congruence. Qed.
Lemma without_cons c x s : without c (x :: s) <-> x <> c /\ without c s.
Proof. unfold without. cbn [In]. firstorder congruence. Qed.
Lemma without_app c a b : without c (a ++ b) <-> without c a /\ without c b.
Proof. unfold without. rewrite in_app_iff. tauto. Qed.

(** *** cutting *)
Lemma cut_app c a b : without c a -> cut c (a ++ c :: b) = (a, Some b).
Proof.
  induction a as [|x a IH]; intros W; cbn [app cut].
  - rewrite Z.eqb_refl. reflexivity.
  - apply without_cons in W. destruct W as [N W]. apply Z.eqb_neq in N. rewrite N, (IH W). reflexivity.
Qed.
Lemma cut_none c a : without c a -> cut c a = (a, None).
Proof.
  induction a as [|x a IH]; intros W; cbn [cut]; [reflexivity|].
  apply without_cons in W. destruct W as [N W]. apply Z.eqb_neq in N. rewrite N, (IH W). reflexivity.
Qed.
Lemma rcut_none c a : without c a -> rcut c a = None.
Proof.
  induction a as [|x a IH]; intros W; cbn [rcut]; [reflexivity|].
  apply without_cons in W. destruct W as [N W]. apply Z.eqb_neq in N. rewrite (IH W), N. reflexivity.
Qed.
Lemma rcut_app c a b : without c b -> rcut c (a ++ c :: b) = Some (a, b).
Proof.
  intros W. induction a as [|x a IH]; cbn [app rcut].
  - rewrite (rcut_none _ _ W), Z.eqb_refl. reflexivity.
  - rewrite IH. reflexivity.
Qed.
Lemma rcut_some c s : forall a b, rcut c s = Some (a, b) -> s = a ++ c :: b /\ without c b.
Proof.
  induction s as [|x s IH]; cbn [rcut]; intros a b E; [discriminate|].
  destruct (rcut c s) as [[a' b']|] eqn:R.
  - injection E as <- <-. destruct (IH _ _ eq_refl) as [-> W]. split; [reflexivity|exact W].
  - destruct (Z.eqb_spec x c) as [->|]; [|discriminate]. injection E as <- <-. split; [reflexivity|].
    intros I. clear IH. induction s as [|y s IH]; [exact I|]. cbn [rcut] in R.
    destruct (rcut c s) as [[]|] eqn:R2; [discriminate|]. destruct (Z.eqb_spec y c) as [->|N]; [discriminate|].
    destruct I as [->|I]; [congruence|]. exact (IH eq_refl I).
Qed.
Lemma last_app_one {A} (a : list A) x d : last (a ++ [x]) d = x.
Proof. apply last_last. Qed.
Lemma last_cons_ne {A} (x : A) l d : l <> [] -> last (x :: l) d = last l d.
Proof. destruct l; [congruence|reflexivity]. Qed.
Lemma last_app_ne {A} (a b : list A) d : b <> [] -> last (a ++ b) d = last b d.
Proof.
  intros N. induction a as [|x a IH]; [reflexivity|]. rewrite <- IH. cbn [app]. apply last_cons_ne.
  destruct a; [exact N|discriminate].
Qed.
Lemma last_without c a d : a <> [] -> without c a -> last a d <> c.
Proof.
  intros N W. destruct (exists_last N) as [b [x ->]]. rewrite last_app_one. apply without_app in W. destruct W as [_ W].
  apply without_cons in W. tauto.
Qed.

(** *** splitting *)
Lemma split_ne c s : split c s <> [].
Proof. destruct s as [|x s]; cbn [split]; [discriminate|]. destruct (split c s); [discriminate|]. destruct (x =? c); discriminate. Qed.
Lemma split_app c a b : without c a -> split c (a ++ c :: b) = a :: split c b.
Proof.
  induction a as [|x a IH]; intros W; cbn [app split].
  - rewrite Z.eqb_refl. destruct (split c b) eqn:E; [destruct (split_ne _ _ E)|reflexivity].
  - apply without_cons in W. destruct W as [N W]. apply Z.eqb_neq in N. rewrite (IH W), N. reflexivity.
Qed.
Lemma split_one c a : without c a -> split c a = [a].
Proof.
  induction a as [|x a IH]; intros W; cbn [split]; [reflexivity|].
  apply without_cons in W. destruct W as [N W]. apply Z.eqb_neq in N. rewrite (IH W), N. reflexivity.
Qed.
Lemma split_join c l : l <> [] -> Forall (without c) l -> split c (join c l) = l.
Proof.
  induction l as [|w l IH]; [congruence|]. intros _ F. inversion F as [|? ? W F']; subst. cbn [join].
  destruct l as [|w' l]; [apply split_one, W|]. rewrite (split_app _ _ _ W), IH; [reflexivity|discriminate|exact F'].
Qed.
Lemma join_cons c x l : l <> [] -> join c (x :: l) = x ++ c :: join c l.
Proof. destruct l; [congruence|reflexivity]. Qed.
Lemma join_split c s : join c (split c s) = s.
Proof.
  induction s as [|x s IH]; [reflexivity|]. cbn [split]. destruct (split c s) as [|w ws] eqn:E; [destruct (split_ne _ _ E)|].
  destruct (Z.eqb_spec x c) as [->|N].
  - rewrite join_cons by discriminate. cbn [app]. rewrite IH. reflexivity.
  - destruct ws as [|w' ws]; [cbn [join] in *; congruence|]. rewrite join_cons in * by discriminate. cbn [app]. rewrite IH. reflexivity.
Qed.
Lemma split_without c s : Forall (without c) (split c s).
Proof.
  induction s as [|x s IH]; cbn [split]; [constructor; [intros []|constructor]|].
  destruct (split c s) as [|w ws]; [constructor; [intros []|constructor]|]. inversion IH; subst.
  destruct (Z.eqb_spec x c) as [->|N]; constructor; auto. - intros []. - apply without_cons. auto.
Qed.
Lemma join_snoc c l x : l <> [] -> join c (l ++ [x]) = join c l ++ c :: x.
Proof.
  induction l as [|w l IH]; [congruence|]. intros _. destruct l as [|w' l]; [reflexivity|].
  cbn [app]. rewrite join_cons by discriminate. rewrite (join_cons c w (w' :: l)) by discriminate.
  change (w' :: l ++ [x]) with ((w' :: l) ++ [x]). rewrite IH by discriminate. rewrite <- app_assoc. reflexivity.
Qed.

(** *** resolving *)
Lemma find_declared db o i : distinct db -> (find_info db o = Some i <-> declared db o i).
Proof.
  unfold distinct, find_info, declared. induction db as [|j db IH]; intros D; cbn [find map]; [split; [discriminate|intros [[] _]]|].
  inversion D as [|? ? N D']; subst. destruct (bytes_eqb (i_object j) o) eqn:B.
  - apply bytes_eqb_iff in B. split.
    + intros E. injection E as <-. split; [left; reflexivity|exact B].
    + intros [[->|I] E]; [reflexivity|]. destruct N. rewrite B, <- E. apply in_map, I.
  - rewrite (IH D'). split; intros [I E]; split; auto. + right. exact I.
    + destruct I as [->|I]; [|exact I]. apply bytes_eqb_iff in E. congruence.
Qed.
Lemma find_unknown db o : distinct db -> (find_info db o = None <-> ~ known db o).
Proof.
  intros D. split.
  - intros E [i H]. apply (find_declared db o i D) in H. congruence.
  - intros N. destruct (find_info db o) as [i|] eqn:E; [|reflexivity]. destruct N. exists i. apply find_declared; assumption.
Qed.
Lemma declared_unique db o i j : distinct db -> declared db o i -> declared db o j -> i = j.
Proof. intros D A B. apply (find_declared _ _ _ D) in A. apply (find_declared _ _ _ D) in B. congruence. Qed.

Lemma legs_cons db d s l : legs db d (s :: l) <->
  ((snd s <> None -> exists j, declared db (object_of (d ++ [s])) j /\ i_list j = true) /\
   (l <> [] -> forall j, declared db (object_of (d ++ [s])) j -> i_list j = true -> snd s <> None) /\
   (d <> [] -> known db (object_of d) -> known db (object_of (d ++ [s])))) /\ legs db (d ++ [s]) l.
Proof.
  split.
  - intros L. split.
    + destruct (L [] s l eq_refl) as (A & B & C). cbn [app] in *. rewrite app_nil_r in C. auto.
    + intros a t b E. specialize (L (s :: a) t b ltac:(cbn [app]; rewrite E; reflexivity)). cbn [app] in L. rewrite <- !app_assoc. exact L.
  - intros [(A & B & C) L] a t b E. destruct a as [|u a]; cbn [app] in E; injection E as -> ->.
    + cbn [app]. rewrite !app_nil_r. auto.
    + specialize (L a t b eq_refl). rewrite <- !app_assoc in L. exact L.
Qed.
Lemma object_snoc d s : d <> [] -> object_of (d ++ [s]) = object_of d ++ 46 :: fst s.
Proof. intros N. unfold object_of. rewrite map_app. cbn [map]. apply join_snoc. destruct d; [congruence|discriminate]. Qed.
Lemma object_ne d t k l : d = (t, k) :: l -> t <> [] -> object_of d <> [].
Proof.
  intros -> N. unfold object_of. cbn [map fst]. destruct l as [|s l]; cbn [map]; [exact N|]. rewrite join_cons by discriminate.
  destruct t; [congruence|discriminate].
Qed.
(** the name that is looked up next *)
Lemma full_next d t k : match d with (t, _) :: _ => t <> [] | [] => True end ->
  match object_of d with [] => t | _ => object_of d ++ [46] ++ t end = object_of (d ++ [(t, k)]).
Proof.
  intros H. destruct d as [|[t0 k0] d]; [reflexivity|]. rewrite object_snoc by discriminate. cbn [fst].
  pose proof (object_ne _ t0 k0 d eq_refl H) as N. destruct (object_of ((t0, k0) :: d)); [congruence|reflexivity].
Qed.
Definition ends (item : bool) (l : list step) : bool := last (map (fun s => is_some (snd s)) l) item.
Lemma ends_cons item s l : ends item (s :: l) = ends (is_some (snd s)) l.
Proof. unfold ends. cbn [map]. destruct l as [|u l]; [reflexivity|]. cbn [map]. rewrite last_cons_ne by discriminate. generalize (map (fun s => is_some (snd s)) l). intros m.
  clear. generalize (is_some (snd u)). intros x. revert x. induction m as [|y m IH]; intros x; [reflexivity|]. rewrite !(last_cons_ne x) by discriminate. apply IH. Qed.
(** what the loop remembers after [d] *)
Definition at_object (db : database) (d : list step) (prov : option info) : Prop :=
  match prov with Some j => d <> [] /\ declared db (object_of d) j | None => d = [] \/ ~ known db (object_of d) end.
Definition begun (d l : list step) : Prop := match d ++ l with (t, _) :: _ => t <> [] | [] => True end.
Lemma begun_left d l : begun d l -> match d with (t, _) :: _ => t <> [] | [] => True end.
Proof. unfold begun. destruct d as [|[t k] d]; [trivial|exact (fun H => H)]. Qed.
Lemma snoc_ne {A} (d : list A) x : d ++ [x] <> [].
Proof. destruct d; discriminate. Qed.

Lemma resolve_forward db i : distinct db -> forall l d prov item, begun d l -> at_object db d prov -> legs db d l ->
  declared db (object_of (d ++ l)) i -> d ++ l <> [] -> resolve_parts db (object_of d) false prov item (parts l) = Some (i, ends item l).
Proof.
  intros D. induction l as [|[t k] l IH]; intros d prov item Bg AO L DI NE.
  - cbn [parts flat_map resolve_parts]. rewrite app_nil_r in *. destruct prov as [j|]; cbn [at_object] in AO.
    + destruct AO as [_ A]. rewrite (declared_unique _ _ _ _ D A DI). reflexivity.
    + destruct AO as [->|N]; [congruence|]. destruct N. exists i. exact DI.
  - apply legs_cons in L. cbn [snd] in L. destruct L as [(L1 & L2 & L3) L]. rewrite ends_cons. cbn [snd].
    assert (Bg' : begun (d ++ [(t, k)]) l) by (unfold begun in *; rewrite <- app_assoc; exact Bg).
    assert (DI' : declared db (object_of ((d ++ [(t, k)]) ++ l)) i) by (rewrite <- app_assoc; exact DI).
    assert (NE' : (d ++ [(t, k)]) ++ l <> []) by (rewrite <- app_assoc; destruct d; discriminate).
    assert (P : parts ((t, k) :: l) = t :: match k with Some k => [k] | None => [] end ++ parts l) by reflexivity.
    rewrite P. cbn [resolve_parts]. rewrite (full_next d t k) by (eapply begun_left; exact Bg).
    destruct (find_info db (object_of (d ++ [(t, k)]))) as [j|] eqn:F.
    + apply (find_declared _ _ _ D) in F. assert (AO' : at_object db (d ++ [(t, k)]) (Some j)) by (split; [apply snoc_ne|exact F]).
      destruct k as [k|].
      * destruct (L1 ltac:(discriminate)) as [j' [A B]]. rewrite <- (declared_unique _ _ _ _ D F A) in B. rewrite B. cbn [app resolve_parts is_some].
        apply IH; assumption.
      * cbn [app is_some]. destruct l as [|s l].
        -- cbn [parts flat_map resolve_parts]. rewrite app_nil_r in DI'. rewrite (declared_unique _ _ _ _ D F DI'). reflexivity.
        -- destruct (i_list j) eqn:LJ; [destruct (L2 ltac:(discriminate) j F LJ eq_refl)|]. apply IH; assumption.
    + apply (find_unknown _ _ D) in F. destruct k as [k|]; [destruct (L1 ltac:(discriminate)) as [j [A _]]; destruct F; exists j; exact A|].
      destruct prov as [j|]; cbn [at_object] in AO.
      { destruct AO as [A B]. destruct F. apply L3; [exact A|exists j; exact B]. }
      cbn [app is_some]. apply IH; try assumption. right. exact F.
Qed.

Lemma resolve_backward db i it : distinct db -> forall n ps d prov item, (length ps <= n)%nat -> Forall (without 46) ps ->
  match d with (t, _) :: _ => t <> [] | [] => hd [] ps <> [] end -> at_object db d prov ->
  resolve_parts db (object_of d) false prov item ps = Some (i, it) ->
  exists l, ps = parts l /\ legs db d l /\ declared db (object_of (d ++ l)) i /\ it = ends item l.
Proof.
  intros D. induction n as [|n IH]; intros ps d prov item LE W H AO R; destruct ps as [|t ps].
  - cbn [resolve_parts] in R. destruct prov as [j|]; [|discriminate]. injection R as <- <-. exists []. rewrite app_nil_r. repeat split; try (apply AO).
    all: try (destruct a; discriminate).
  - cbn [length] in LE. lia.
  - cbn [resolve_parts] in R. destruct prov as [j|]; [|discriminate]. injection R as <- <-. exists []. rewrite app_nil_r. repeat split; try (apply AO).
    all: try (destruct a; discriminate).
  - cbn [length] in LE. inversion W as [|? ? Wt Wp]; subst. cbn [resolve_parts] in R.
    assert (H0 : match d with (t, _) :: _ => t <> [] | [] => True end) by (destruct d as [|[]]; [exact Logic.I|exact H]).
    assert (Hk : forall k, match d ++ [(t, k)] with (t, _) :: _ => t <> [] | [] => hd [] ps <> [] end).
    { intros k. destruct d as [|[t0 k0] d]; cbn [app]; [exact H|exact H]. }
    rewrite (full_next d t None H0) in R.
    assert (OE : forall k, object_of (d ++ [(t, k)]) = object_of (d ++ [(t, None)])) by (intros k; unfold object_of; rewrite !map_app; reflexivity).
    destruct (find_info db (object_of (d ++ [(t, None)]))) as [j|] eqn:F.
    + apply (find_declared _ _ _ D) in F. destruct (i_list j) eqn:LJ.
      * destruct ps as [|k ps].
        -- cbn [resolve_parts] in R. injection R as <- <-. exists [(t, None)]. split; [reflexivity|]. split; [|split; [exact F|reflexivity]].
           apply legs_cons. split; [split; [intros X; destruct (X eq_refl)|split; [congruence|intros _ _; exists j; exact F]]|].
           intros a s b E. destruct a; discriminate.
        -- cbn [resolve_parts] in R. inversion Wp as [|? ? Wk Wp']; subst.
           rewrite <- (OE (Some k)) in *. destruct (IH ps (d ++ [(t, Some k)]) (Some j) true) as (l & E & L & DI & ET); try assumption.
           { cbn [length] in LE. lia. }
           { destruct d as [|[]]; exact H. }
           { split; [apply snoc_ne|exact F]. }
           exists ((t, Some k) :: l). split; [cbn [parts flat_map fst snd app]; rewrite E; reflexivity|]. split; [|split].
           ++ apply legs_cons. split; [|exact L]. split; [intros _; exists j; split; [exact F|exact LJ]|]. split; [intros _ ? _ _; discriminate|intros _ _; exists j; exact F].
           ++ rewrite <- app_assoc in DI. exact DI.
           ++ rewrite ends_cons. exact ET.
      * destruct (IH ps (d ++ [(t, None)]) (Some j) false) as (l & E & L & DI & ET); try assumption.
        { lia. } { apply Hk. } { split; [apply snoc_ne|exact F]. }
        exists ((t, None) :: l). split; [cbn [parts flat_map fst snd app]; rewrite E; reflexivity|]. split; [|split].
        -- apply legs_cons. split; [|exact L]. split; [intros X; destruct (X eq_refl)|]. split; [|intros _ _; exists j; exact F].
           intros _ j' F' LJ'. rewrite (declared_unique _ _ _ _ D F' F) in LJ'. congruence.
        -- rewrite <- app_assoc in DI. exact DI.
        -- rewrite ends_cons. exact ET.
    + apply (find_unknown _ _ D) in F. destruct prov as [j|]; [discriminate|]. cbn [at_object] in AO.
      destruct (IH ps (d ++ [(t, None)]) None false) as (l & E & L & DI & ET); try assumption.
      { lia. } { apply Hk. } { right. exact F. }
      exists ((t, None) :: l). split; [cbn [parts flat_map fst snd app]; rewrite E; reflexivity|]. split; [|split].
      -- apply legs_cons. split; [|exact L]. split; [intros X; destruct (X eq_refl)|]. split.
         ++ intros _ j' F' _. destruct F. exists j'. exact F'.
         ++ intros N K. destruct AO as [->|N']; [congruence|]. destruct (N' K).
      -- rewrite <- app_assoc in DI. exact DI.
      -- rewrite ends_cons. exact ET.
Qed.

Lemma parts_ne l : proper l -> parts l <> [].
Proof. intros [_ H]. destruct l as [|[t k] l]; [destruct H|discriminate]. Qed.
Lemma instance_start l : proper l -> instance_of l <> [] /\ hd 0 (instance_of l) <> 46.
Proof.
  intros [W H]. destruct l as [|[t k] l]; [destruct H|]. unfold instance_of. change (parts ((t, k) :: l)) with (t :: match k with Some k => [k] | None => [] end ++ parts l) in *.
  inversion W as [|? ? Wt _]; subst. destruct t as [|x t]; [congruence|]. apply without_cons in Wt. destruct Wt as [N _].
  set (m := match k with Some k => [k] | None => [] end ++ parts l). destruct m as [|w m]; [split; [discriminate|exact N]|].
  rewrite join_cons by discriminate. split; [discriminate|exact N].
Qed.
Lemma resolve_iff db p i item : distinct db -> hd 0 p <> 46 ->
  (resolve db p = Some (i, item) <-> exists l, leads db l i /\ p = instance_of l /\ item = is_item l).
Proof.
  intros D S. split.
  - intros R. unfold resolve in R. destruct p as [|x p]; [discriminate|].
    destruct (resolve_backward db i item D (length (split 46 (x :: p))) (split 46 (x :: p)) [] None false) as (l & E & L & DI & ET).
    + reflexivity.
    + apply split_without.
    + intros Q. cbn [hd] in S. cbn [split] in Q. destruct (split 46 p) eqn:SP; [destruct (split_ne _ _ SP)|]. destruct (Z.eqb_spec x 46); cbn [hd] in Q; [congruence|discriminate].
    + left. reflexivity.
    + exact R.
    + exists l. split; [|split; [unfold instance_of; rewrite <- E, join_split; reflexivity|exact ET]].
      split; [|split; [exact L|exact DI]]. split; [rewrite <- E; apply split_without|].
      destruct l as [|[t k] l]; [destruct (split_ne 46 (x :: p)); exact E|].
      change (parts ((t, k) :: l)) with (t :: match k with Some k => [k] | None => [] end ++ parts l) in E. cbn [hd] in S.
      cbn [split] in E. destruct (split 46 p) as [|w ws] eqn:SP; [destruct (split_ne _ _ SP)|]. destruct (Z.eqb_spec x 46); [congruence|]. injection E as <- _. discriminate.
  - intros (l & (Pr & L & DI) & -> & ->). destruct (instance_start l Pr) as [N _]. unfold resolve. destruct (instance_of l) as [|x p] eqn:E; [congruence|].
    rewrite <- E. unfold instance_of. rewrite split_join; [|apply parts_ne, Pr|apply Pr].
    change (@nil Z) with (object_of []) at 1. apply resolve_forward; try assumption.
    + unfold begun. cbn [app]. destruct Pr as [_ H]. destruct l as [|[t k] l]; [exact Logic.I|exact H].
    + left. reflexivity.
    + destruct Pr as [_ H]. destruct l; [destruct H|discriminate].
Qed.
Lemma leads_resolve db l i : distinct db -> leads db l i -> resolve db (instance_of l) = Some (i, is_item l).
Proof. intros D H. apply resolve_iff; [exact D|apply instance_start; exact (proj1 H)|]. exists l. auto. Qed.

(** *** queries *)
Lemma wildcard_under o n : n <> [] -> without 46 n -> is_wildcard (under o n) = false.
Proof.
  intros N W. unfold is_wildcard, under. rewrite app_assoc. rewrite last_app_ne by exact N. apply Z.eqb_neq. apply last_without; assumption.
Qed.
Lemma trim_under o n : without 46 n -> trim_property (under o n) = o.
Proof. intros W. unfold trim_property, under. cbn [app]. rewrite rcut_app by exact W. reflexivity. Qed.
Lemma trim_name_under o n : without 46 n -> trim_property_name (under o n) = n.
Proof. intros W. unfold trim_property_name, under. cbn [app]. rewrite rcut_app by exact W. reflexivity. Qed.
Lemma wildcard_dot o : is_wildcard (o ++ [46]) = true.
Proof. unfold is_wildcard. rewrite last_app_one. reflexivity. Qed.
Lemma trim_dot o : trim_wildcard (o ++ [46]) = o.
Proof. unfold trim_wildcard. rewrite last_app_one. cbn. apply removelast_last. Qed.
Lemma under_ne o n : under o n <> [].
Proof. unfold under. destruct o; discriminate. Qed.
Lemma resolve_property_under db o n : n <> [] -> without 46 n -> resolve_property db (under o n) = resolve db o.
Proof.
  intros N W. unfold resolve_property. rewrite (wildcard_under _ _ N W), (trim_under _ _ W). pose proof (under_ne o n) as U. destruct (under o n); [congruence|reflexivity].
Qed.
Lemma resolve_property_dot db o : resolve_property db (o ++ [46]) = resolve db o.
Proof. unfold resolve_property. rewrite wildcard_dot, trim_dot. destruct (o ++ [46]) eqn:E; [destruct (snoc_ne _ _ E)|reflexivity]. Qed.
Lemma create_get db l i n : distinct db -> leads db l i -> n <> [] -> without 46 n ->
  create_query db OGet (under (instance_of l) n) = Ok (Some (mkQuery OGet (under (instance_of l) n) [] (instance_of l) (Some i))).
Proof.
  intros D H N W. unfold create_query. rewrite (resolve_property_under _ _ _ N W), (leads_resolve _ _ _ D H), (wildcard_under _ _ N W), (trim_under _ _ W). reflexivity.
Qed.
Lemma create_all db l i : distinct db -> leads db l i ->
  create_query db OGet (instance_of l ++ [46]) = Ok (Some (mkQuery OGet (instance_of l ++ [46]) [] (instance_of l) (Some i))).
Proof. intros D H. unfold create_query. rewrite resolve_property_dot, (leads_resolve _ _ _ D H), wildcard_dot, trim_dot. reflexivity. Qed.

Lemma trim_set_brace n b : without 61 n -> trim_set_property (assign n ([123] ++ b ++ [125])) = n.
Proof.
  intros W. unfold trim_set_property, assign. cbn [app]. rewrite (cut_app _ _ _ W). rewrite Z.eqb_refl. cbn [andb].
  replace (last (n ++ 61 :: 123 :: b ++ [125]) 0) with 125; [reflexivity|].
  change (n ++ 61 :: 123 :: b ++ [125]) with (n ++ [61; 123] ++ b ++ [125]). rewrite !app_assoc. rewrite last_app_one. reflexivity.
Qed.
Lemma trim_set_plain n v : without 61 n -> hd 0 v <> 123 -> trim_set_property (assign n v) = trim_property (assign n v).
Proof.
  intros W H. unfold trim_set_property, assign. cbn [app]. rewrite (cut_app _ _ _ W). destruct v as [|x v]; [reflexivity|]. cbn [hd] in H. apply Z.eqb_neq in H. rewrite H. reflexivity.
Qed.
(** one round: to the object, or the value is shortened *)
Lemma trim_round o n v : without 46 n -> without 61 (under o n) -> hd 0 v <> 123 ->
  trim_set_property (assign (under o n) v) = o /\ without 46 v \/
  exists v' b, v = v' ++ 46 :: b /\ trim_set_property (assign (under o n) v) = assign (under o n) v' /\ hd 0 v' <> 123.
Proof.
  intros W U H. rewrite (trim_set_plain _ _ U H). destruct (rcut 46 v) as [[v' b]|] eqn:R.
  - right. apply rcut_some in R. destruct R as [-> Wb]. exists v', b. split; [reflexivity|]. split.
    + unfold trim_property, assign. replace (under o n ++ [61] ++ v' ++ 46 :: b) with ((under o n ++ [61] ++ v') ++ 46 :: b) by (rewrite <- !app_assoc; reflexivity).
      rewrite rcut_app by exact Wb. reflexivity.
    + destruct v' as [|x v']; [cbn; lia|exact H].
  - left. assert (Wv : without 46 v).
    { intros I. clear - R I. induction v as [|y v IH]; [exact I|]. cbn [rcut] in R. destruct (rcut 46 v) as [[]|] eqn:R2; [discriminate|]. destruct (Z.eqb_spec y 46); [discriminate|]. destruct I; [congruence|]. auto. }
    split; [|exact Wv]. unfold trim_property, assign, under. rewrite <- !app_assoc. cbn [app]. rewrite rcut_app; [reflexivity|].
    apply without_app. split; [exact W|]. apply without_cons. split; [lia|exact Wv].
Qed.
Lemma settle_assign o n : o <> [] -> without 61 o -> without 46 n -> without 61 (under o n) -> forall fuel v, (length v < fuel)%nat -> hd 0 v <> 123 ->
  settle fuel (assign (under o n) v) = Ok (Some o).
Proof.
  intros O1 O2 W U. induction fuel as [|fuel IH]; intros v LE H; [lia|]. cbn [settle].
  replace (has 61 (assign (under o n) v)) with true by (symmetry; apply has_iff; unfold assign; apply in_or_app; right; left; reflexivity).
  destruct (trim_round o n v W U H) as [[-> Wv]|(v' & b & -> & -> & H')].
  - destruct o as [|x o]; [congruence|]. destruct fuel; cbn [settle]; rewrite (proj2 (has_not 61 (x :: o)) O2); reflexivity.
  - destruct (assign (under o n) v') as [|x t] eqn:E; [unfold assign in E; destruct (under o n); discriminate|]. rewrite <- E. apply IH; [|exact H'].
    rewrite app_length in LE. cbn [length] in LE. lia.
Qed.
Lemma target_assign o n v : o <> [] -> without 46 n -> without 61 (under o n) -> hd 0 v <> 123 -> set_target (assign (under o n) v) = Ok (Some o).
Proof.
  intros O1 W U H. assert (O2 : without 61 o) by (unfold under in U; apply without_app in U; apply U).
  unfold set_target. destruct (trim_round o n v W U H) as [[-> Wv]|(v' & b & -> & -> & H')].
  - destruct o as [|x o]; [congruence|]. cbn [settle]. rewrite (proj2 (has_not 61 (x :: o)) O2). reflexivity.
  - destruct (assign (under o n) v') as [|x t] eqn:E; [unfold assign in E; destruct (under o n); discriminate|]. rewrite <- E. apply settle_assign; try assumption.
    unfold assign. rewrite !app_length. lia.
Qed.
Lemma target_braces o b : o <> [] -> without 61 o -> set_target (assign o ([123] ++ b ++ [125])) = Ok (Some o).
Proof.
  intros N W. unfold set_target. rewrite (trim_set_brace _ _ W). destruct o as [|x o]; [congruence|]. cbn [settle]. rewrite (proj2 (has_not 61 (x :: o)) W). reflexivity.
Qed.
Lemma cut_assign n v : without 61 n -> cut 61 (assign n v) = (n, Some v).
Proof. intros W. unfold assign. cbn [app]. apply cut_app, W. Qed.
Lemma create_set db l i n v : distinct db -> leads db l i -> without 46 n -> without 61 (under (instance_of l) n) -> hd 0 v <> 123 ->
  create_query db OSet (assign (under (instance_of l) n) v) = Ok (Some (mkQuery OSet (under (instance_of l) n) v (instance_of l) (Some i))).
Proof.
  intros D H W U V. unfold create_query. rewrite target_assign; try assumption; [|apply instance_start; exact (proj1 H)].
  unfold obind. rewrite (leads_resolve _ _ _ D H), (cut_assign _ _ U). reflexivity.
Qed.
Lemma create_braces db l i b : distinct db -> leads db l i -> without 61 (instance_of l) ->
  create_query db OSet (assign (instance_of l) ([123] ++ b ++ [125])) = Ok (Some (mkQuery OSet (instance_of l) ([123] ++ b ++ [125]) (instance_of l) (Some i))).
Proof.
  intros D H W. unfold create_query. rewrite target_braces; try assumption; [|apply instance_start; exact (proj1 H)].
  unfold obind. rewrite (leads_resolve _ _ _ D H), (cut_assign _ _ W). reflexivity.
Qed.

(** *** providers *)
Lemma do_get_spec P : forall l log, fst (do_get P log l) = log ++ map (asked P) l /\ length (snd (do_get P log l)) = length l /\
  forall k p, nth_error l k = Some p -> nth_error (snd (do_get P log l)) k = Some (snd (get_one P (log ++ map (asked P) (firstn k l)) p)).
Proof.
  induction l as [|p l IH]; intros log; cbn [do_get map].
  - rewrite app_nil_r. split; [reflexivity|]. split; [reflexivity|]. intros [|k] p E; discriminate.
  - assert (A : fst (get_one P log p) = asked P p) by (unfold get_one, asked; destruct (getter P (p_name p)); reflexivity).
    destruct (get_one P log p) as [e r] eqn:G. cbn [fst] in A. subst e. destruct (IH (log ++ [asked P p])) as (I1 & I2 & I3).
    destruct (do_get P (log ++ [asked P p]) l) as [log' rs]. cbn [fst snd] in *. split; [rewrite I1, <- app_assoc; reflexivity|].
    split; [cbn [length]; rewrite I2; reflexivity|]. intros [|k] q E; cbn [nth_error firstn map] in *.
    + injection E as <-. rewrite app_nil_r, G. reflexivity.
    + rewrite (I3 _ _ E). rewrite <- app_assoc. reflexivity.
Qed.
Lemma set_all_spec P : forall l log, fst (set_all P log l) = log ++ flat_map (told P) l /\ length (snd (set_all P log l)) = length l /\
  forall k p v, nth_error l k = Some (p, v) -> nth_error (snd (set_all P log l)) k = Some (snd (set_one P (log ++ flat_map (told P) (firstn k l)) p v)).
Proof.
  induction l as [|[p v] l IH]; intros log; cbn [set_all flat_map].
  - rewrite app_nil_r. split; [reflexivity|]. split; [reflexivity|]. intros [|k] p v E; discriminate.
  - assert (A : fst (set_one P log p v) = log ++ told P (p, v)).
    { unfold set_one, told. cbn [fst snd]. destruct (p_writable p); cbn [negb]; [destruct (setter P (p_name p)); reflexivity|rewrite app_nil_r; reflexivity]. }
    destruct (set_one P log p v) as [lg r] eqn:G. cbn [fst] in A. subst lg. destruct (IH (log ++ told P (p, v))) as (I1 & I2 & I3).
    destruct (set_all P (log ++ told P (p, v)) l) as [log' rs]. cbn [fst snd] in *. split; [rewrite I1, <- app_assoc; reflexivity|].
    split; [cbn [length]; rewrite I2; reflexivity|]. intros [|k] q u E; cbn [nth_error firstn flat_map] in *.
    + injection E as <- <-. rewrite app_nil_r, G. reflexivity.
    + rewrite (I3 _ _ _ E). rewrite <- app_assoc. reflexivity.
Qed.
Lemma do_set_spec P l : fst (do_set P l) = transaction l (flat_map (told P) l) /\ length (snd (do_set P l)) = length l /\
  forall k p v, nth_error l k = Some (p, v) -> p_writable p = true -> setter P (p_name p) = true -> nth_error (snd (do_set P l)) k = Some (mkParam p v 0).
Proof.
  assert (S1 : forall log p v, p_writable p = true -> setter P (p_name p) = true -> snd (set_one P log p v) = mkParam p v 0)
    by (intros log p v A B; unfold set_one; rewrite A, B; reflexivity).
  unfold do_set, transaction. destruct l as [|x [|y l]].
  - split; [reflexivity|]. split; [reflexivity|]. intros [|k] p v E; discriminate.
  - destruct (set_all_spec P [x] []) as (A & B & C). split; [exact A|]. split; [exact B|]. intros k p v E W G. rewrite (C _ _ _ E), S1 by assumption. reflexivity.
  - destruct (set_all_spec P (x :: y :: l) [EBegin]) as (A & B & C). destruct (set_all P [EBegin] (x :: y :: l)) as [log rs]. cbn [fst snd] in *.
    split; [rewrite A, <- app_assoc; reflexivity|]. split; [exact B|]. intros k p v E W G. rewrite (C _ _ _ E), S1 by assumption. reflexivity.
Qed.

(** *** the two ends *)
Lemma offers_find i n w : offers i n w -> find (fun p => bytes_eqb (p_name p) n) (properties i) = Some (declare (i_object i) (n, w)).
Proof.
  intros (I & ND & _). unfold properties. induction (i_props i) as [|[m u] l IH]; [destruct I|]. cbn [map find declare p_name fst snd].
  inversion ND as [|? ? N ND']; subst. destruct (bytes_eqb m n) eqn:B.
  - apply bytes_eqb_iff in B. subst m. destruct I as [E|I]; [injection E as ->; reflexivity|]. destruct N. apply in_map_iff. exists (n, w). auto.
  - destruct I as [E|I]; [injection E as -> ->; assert (X : bytes_eqb n n = true) by (apply bytes_eqb_iff; reflexivity); congruence|]. exact (IH I ND').
Qed.
Lemma offers_info i n w o : offers i n w -> property_info i (under o n) = Some (declare (i_object i) (n, w)).
Proof. intros O. unfold property_info. rewrite trim_name_under by apply O. apply offers_find, O. Qed.
Lemma plain_c s : plain s -> c_text s = s.
Proof. intros W. unfold c_text. rewrite (cut_none _ _ W). reflexivity. Qed.
Lemma show_offered i n w v c : offers i n w -> plain (i_object i) -> plain n ->
  show i (mkParam (declare (i_object i) (n, w)) v c) = (under (i_object i) n, c_text (to_text v), c).
Proof.
  intros O P1 P2. unfold show. cbn [r_prop r_value r_code p_full declare fst]. change (i_object i ++ [46] ++ n) with (under (i_object i) n).
  rewrite (plain_c (under (i_object i) n)); [|unfold plain, under; apply without_app; split; [exact P1|apply without_cons; split; [lia|exact P2]]].
  rewrite (offers_info _ _ _ _ O). reflexivity.
Qed.
Lemma params_get db l i n w : distinct db -> leads db l i -> offers i n w -> get_params db (under (instance_of l) n) = [declare (i_object i) (n, w)].
Proof.
  intros D H O. unfold get_params. destruct O as (O1 & O2 & O3 & O4). rewrite (wildcard_under _ _ O4 O3), (trim_under _ _ O3), (leads_resolve _ _ _ D H).
  rewrite (offers_info i n w); [reflexivity|repeat split; assumption].
Qed.
Lemma params_all db l i : distinct db -> leads db l i -> get_params db (instance_of l ++ [46]) = properties i.
Proof. intros D H. unfold get_params. rewrite wildcard_dot, trim_dot, (leads_resolve _ _ _ D H). reflexivity. Qed.
Lemma multiset_plain v : hd 0 v <> 123 -> parse_multiset v = None.
Proof. intros H. destruct v as [|x [|y v]]; try reflexivity. cbn [hd] in H. apply Z.eqb_neq in H. unfold parse_multiset. rewrite H. reflexivity. Qed.
Lemma params_set db l i n w v : distinct db -> leads db l i -> offers i n w -> v <> [] -> hd 0 v <> 123 ->
  set_params db (under (instance_of l) n) v = [(declare (i_object i) (n, w), VText v)].
Proof.
  intros D H O N V. unfold set_params. destruct v as [|x v]; [congruence|]. rewrite (multiset_plain _ V). pose proof O as (_ & _ & O3 & O4).
  rewrite (resolve_property_under _ _ _ O4 O3), (leads_resolve _ _ _ D H). unfold set_param. cbn [fst snd]. rewrite (trim_name_under _ _ O3), (offers_find _ _ _ O). reflexivity.
Qed.
Lemma pairs_assign l : listable l -> pairs (map (fun x => assign (fst x) (snd x)) l) = l.
Proof.
  induction l as [|[a b] l IH]; intros L; [reflexivity|]. inversion L as [|? ? (A & B & C & Dd) L']; subst. cbn [map pairs fst snd] in *.
  unfold assign at 1. cbn [app]. rewrite (split_app _ _ _ B), (split_one _ _ Dd), (IH L'). reflexivity.
Qed.
Lemma parse_braces l : l <> [] -> listable l -> parse_multiset (braces l) = Some l.
Proof.
  intros N L. unfold braces. set (b := join 44 (map (fun x => assign (fst x) (snd x)) l)).
  assert (E : exists y t, b ++ [125] = y :: t) by (destruct b; [exists 125, []|eexists; eexists]; reflexivity).
  destruct E as (y & t & E). unfold parse_multiset. cbn [app]. rewrite E. replace (last (123 :: y :: t) 0) with 125.
  - rewrite Z.eqb_refl. cbn [andb]. rewrite Z.eqb_refl. rewrite <- E, removelast_last. unfold b. rewrite split_join.
    + rewrite (pairs_assign _ L). reflexivity.
    + destruct l; [congruence|discriminate].
    + apply Forall_forall. intros x I. apply in_map_iff in I. destruct I as [[c d] [<- I]]. apply (proj1 (Forall_forall _ _) L) in I. cbn [fst snd] in *. destruct I as (A & B & C & Dd).
      unfold assign. apply without_app. split; [exact A|]. apply without_cons. split; [lia|exact C].
  - rewrite <- E. change (123 :: b ++ [125]) with ((123 :: b) ++ [125]). rewrite last_app_one. reflexivity.
Qed.
