(** C108: what a get of an object, of a list, and of everything below asks for and reports. *)
From Coq Require Import String Relations Operators_Properties.
From Verif Require Import Common Bytes TextModel DmModel DmSpec DmProofs TourModel TourSpec TourProofs TourRun TourEnds.
Local Open Scope string_scope.
Local Open Scope list_scope.
Local Open Scope Z_scope.

(** everything below, each instance once: the object's own properties, those of each item of each list and those of the objects below them *)
Theorem C108_recursive_partial : forall db W ids l i, distinct db -> rooted db -> leads db l i -> lists_tell db W ids l ->
  exists log, get_all db 1 W true (all_of l) = Ok (log, true) /\ NoDup (shows log) /\
    (forall s, In s (shows log) <-> exists m, gotten db ids l m /\ s = all_of m) /\ ~ In Failed log /\ honest W [] log.
Proof.
  intros db W ids l i D R Le LT. pose proof (good_of db W ids l LT) as G.
  set (f := deepest db). assert (F : (fold_right Nat.max 0 (map (fun i => length (i_object i)) db) < f + length (i_object i))%nat) by (unfold f, deepest; lia).
  destruct (run_tree db W ids D R f l i [] Le F LT) as (new & E & S & NF & H). exists new. split; [exact E|]. rewrite S. split; [|split; [|split; [exact NF|exact H]]].
  - pose proof (tree_nodup db ids D R f l i Le F G) as N. pose proof (tree_in db ids D R f l i Le F G) as T. revert N T. generalize (tree db ids f l i) as L. intros L N T.
    assert (X : forall m, In m L -> exists j, leads db m j) by (intros m Hm; apply T in Hm; destruct Hm as [Re _]; apply (reaches_leads db ids D l i m Le G Re)).
    clear T S E. induction N as [|m L Nm N IH]; [constructor|]. cbn [map]. constructor.
    + rewrite in_map_iff. intros (m' & Em & Hm'). apply Nm. unfold all_of in Em. apply app_inj_tail in Em. destruct Em as [Em _].
      destruct (X m (or_introl eq_refl)) as (j & Lj). destruct (X m' (or_intror Hm')) as (j' & Lj'). rewrite (leads_inj db m m' j j' Lj Lj' (eq_sym Em)). exact Hm'.
    + apply IH. intros m' Hm'. apply X. right. exact Hm'.
  - intros s. rewrite in_map_iff. split.
    + intros (m & <- & Hm). exists m. split; [|reflexivity]. apply (tree_in db ids D R f l i Le F G). exact Hm.
    + intros (m & Hm & ->). exists m. split; [reflexivity|]. apply (tree_in db ids D R f l i Le F G). exact Hm.
Qed.
Print Assumptions C108_recursive_partial.

(** the items of a list, in the order in which they are listed *)
Theorem C108_list_partial : forall db W pre t i j x, distinct db -> leads db (pre ++ [(t, None)]) i -> i_list i = true -> leads db pre j -> listed x -> tells W pre t x ->
  exists log, get_all db 1 W false (all_of (pre ++ [(t, None)])) =
    Ok ([Asked (under (instance_of pre) (t ++ bs "NumberOfEntries")); Asked (under (instance_of pre) (t ++ bs "IdsOfEntries"))] ++ log, true) /\
    shows log = map (fun k => all_of (pre ++ [(t, Some k)])) x /\ ~ In Failed log /\
    honest W [Asked (under (instance_of pre) (t ++ bs "NumberOfEntries")); Asked (under (instance_of pre) (t ++ bs "IdsOfEntries"))] log.
Proof.
  intros db W pre t i j x D Le Li Lj Ls Tl. pose proof (proper_ne pre (proj1 Lj)) as Np. unfold get_all, deepest.
  rewrite (list_start db W (fun _ => x) D _ false [] pre t i Le Li Np (ex_intro _ j Lj) Ls Tl). cbn [app].
  assert (Cat : forall y, instance_of (pre ++ [(t, None)]) ++ y = under (instance_of pre) (t ++ y)).
  { intros y. rewrite (instance_snoc pre t Np (proj1 Lj)). unfold under. rewrite <- app_assoc. reflexivity. }
  rewrite !Cat. pose proof Ls as (_ & _ & _ & F46 & _). rewrite Forall_forall in F46.
  edestruct (fine_item db W false (run_get (S (fold_right Nat.max 0%nat (map (fun i => length (i_object i)) db))) db 1 W false) (instance_of (pre ++ [(t, None)])) (fun _ => []) x) as (new & E & S & NF & H).
  - intros k Hk. rewrite all_item. exists (i, is_item (pre ++ [(t, Some k)])). apply (resolve_all db D). apply (item_leads db pre t i k Le Li (F46 k Hk)).
  - intros k i' it log _ _ X. discriminate.
  - reflexivity.
  - exists new. split; [exact E|]. split; [|split; [exact NF|exact H]]. rewrite S. clear. induction x as [|k x IH]; [reflexivity|]. cbn [flat_map map]. rewrite IH, <- all_item. reflexivity.
Qed.
Print Assumptions C108_list_partial.

(** the properties of one object or item *)
Theorem C108_object : forall db k W l i, distinct db -> leads db l i -> holds db l i -> get_all db k W false (all_of l) = Ok ([Shown (all_of l) (W [] (all_of l))], true).
Proof.
  intros db k W l i D Le [_ H]. unfold get_all, deepest. cbn [run_get]. unfold one_shown. rewrite (resolve_all db D l i Le).
  assert (E : negb (is_item l) && i_list i = false) by (destruct H as [->| ->]; [apply andb_false_r|reflexivity]). rewrite E.
  unfold all_of. rewrite wildcard_dot. destruct (instance_of l ++ [46]) eqn:X; [destruct (instance_of l); discriminate|reflexivity].
Qed.
Print Assumptions C108_object.
(** a name that leads nowhere: nothing is asked *)
Theorem C108_unknown : forall db k W rec o, resolve db o = None -> get_all db k W rec (o ++ [46]) = Ok ([], false).
Proof.
  intros db k W rec o H. unfold get_all, deepest. cbn [run_get]. rewrite wildcard_dot, resolve_property_dot, H. destruct (o ++ [46]) eqn:X; [destruct o; discriminate|reflexivity].
Qed.
Print Assumptions C108_unknown.

(** a get ends, whatever is answered: the calls are not nested deeper than the longest name *)
Theorem C108_ends : forall db k W rec s, (forall i, In i db -> i_object i <> []) -> get_all db k W rec s <> Err tt.
Proof. intros db k W rec s NE. apply get_ends. exact NE. Qed.
Print Assumptions C108_ends.

Lemma item_plain db k W get lname : forall xs log ok, exists new b, each_item db k W false get lname xs log ok = Ok (log ++ new, b) /\ honest W log new /\ (b = true -> ok = true /\ ~ In Failed new).
Proof.
  induction xs as [|x xs IH]; intros log ok; cbn [each_item].
  - exists [], ok. rewrite app_nil_r. repeat split; auto using honest_nil.
  - cbv zeta. unfold one_shown. destruct (resolve_property db (lname ++ [46] ++ x ++ [46])); cbn [obind fst snd].
    + destruct (IH (log ++ [Shown (lname ++ [46] ++ x ++ [46]) (W log (lname ++ [46] ++ x ++ [46]))]) ok) as (new & b & -> & H & X). eexists (_ :: new), b. rewrite <- app_assoc. split; [reflexivity|]. split.
      * apply (honest_app W log [_] new); [apply honest_shown|exact H].
      * intros B. destruct (X B) as [A C]. split; [exact A|]. intros [Y|Y]; [discriminate|contradiction].
    + destruct (IH (log ++ [Failed]) false) as (new & b & -> & H & X). eexists (_ :: new), b. rewrite <- app_assoc. split; [reflexivity|]. split.
      * apply (honest_app W log [_] new); [|exact H]. intros a s rs b' E. destruct a as [|? [|? ?]]; discriminate.
      * intros B. destruct (X B) as [A _]. discriminate.
Qed.
(** a get of one level: it always returns, what it shows is what was answered, and if it says so nothing has failed *)
Theorem C108_plain : forall db k W s, s <> [] -> exists log b, get_all db k W false s = Ok (log, b) /\ honest W [] log /\ (b = true -> ~ In Failed log).
Proof.
  intros db k W s N. unfold get_all, deepest. generalize (S (fold_right Nat.max 0%nat (map (fun i => length (i_object i)) db))) as f. intros f.
  cbn [run_get]. destruct s as [|c s]; [congruence|]. clear N. generalize (c :: s). clear c s. intros s.
  assert (Whole : exists log b, (let (log, ok) := one_shown db W [] s in Ok (log, ok)) = Ok (E := unit) (log, b) /\ honest W [] log /\ (b = true -> ~ In Failed log)).
  { unfold one_shown. destruct (resolve_property db s); cbn [app].
    - eexists _, true. split; [reflexivity|]. split; [apply honest_shown|]. intros _ [X|[]]. discriminate.
    - exists [Failed], false. split; [reflexivity|]. split; [|discriminate]. intros a t rs b E. destruct a as [|? [|? ?]]; discriminate. }
  destruct (is_wildcard s); [|exact Whole]. destruct (resolve_property db s) as [[i it]|].
  2:{ exists [], false. split; [reflexivity|]. split; [apply honest_nil|discriminate]. }
  destruct (negb it && i_list i); [|exact Whole]. unfold one_value.
  assert (HF : forall log, honest W [] log -> honest W [] (log ++ [Failed])).
  { intros log H. apply (honest_app W [] log [Failed] H). intros a t rs b E. destruct a as [|? [|? ?]]; discriminate. }
  assert (HA : forall log s, honest W [] log -> honest W [] (log ++ [Asked s])) by (intros log q H; apply (honest_app W [] log _ H), honest_asked).
  destruct (resolve_property db (trim_wildcard s ++ bs "NumberOfEntries")).
  2:{ eexists _, false. split; [reflexivity|]. split; [apply HF, honest_nil|discriminate]. }
  destruct (resolve_property db (trim_wildcard s ++ bs "IdsOfEntries")).
  2:{ eexists _, false. split; [reflexivity|]. split; [apply HF, HA, honest_nil|discriminate]. }
  cbv zeta. match goal with |- context [if ?c then _ else _] => destruct c end.
  2:{ eexists _, false. split; [reflexivity|]. split; [apply HF, HA, HA, honest_nil|discriminate]. }
  match goal with |- context [each_item ?a ?b ?c false ?g ?n ?l ?lg true] => destruct (item_plain a b c g n l lg true) as (new & b' & -> & H & X) end.
  eexists _, b'. split; [reflexivity|]. split.
  - apply honest_app; [apply HA, HA, honest_nil|exact H].
  - intros B. destruct (X B) as [_ C]. rewrite !in_app_iff. cbn [In]. intuition discriminate.
Qed.
Print Assumptions C108_plain.

(** a query of this client is one of DmModel's *)
Theorem C108_query : forall db ps f s, exists ev, match run_one db ps f OGet s with
  | Ok (e, Some rs, true) => e = ev /\ one_shown db (fun _ _ => rs) [] s = ([Shown s rs], true)
  | Ok (e, None, false) => e = ev /\ one_shown db (fun _ _ => []) [] s = ([Failed], false)
  | _ => False
  end.
Proof.
  intros db ps f s. unfold run_one, create_query, one_shown. destruct (resolve_property db s) as [[i it]|]; cbn [obind].
  - unfold exec. cbn [q_info q_instance q_op q_name q_value]. destruct (ps _) as [P|]; [destruct f|]; try (destruct (serve _ _ _)); eexists; split; reflexivity.
  - eexists; split; reflexivity.
Qed.
Print Assumptions C108_query.

(** ** a case *)
Definition DW : name := bs "D.W".
Definition DWR : name := bs "D.W.R".
Definition DWRS : name := bs "D.W.R.S".
Definition house : database := [mkInfo DW false [(bs "RNumberOfEntries", false); (bs "RIdsOfEntries", false)]; mkInfo DWR true [(bs "Up", true)]; mkInfo DWRS false [(bs "Sent", false)]].
Definition speaks (n v : string) : answers := fun _ s =>
  if bytes_eqb s (bs "D.W.RNumberOfEntries") then [(s, bs n, 0)] else if bytes_eqb s (bs "D.W.RIdsOfEntries") then [(s, bs v, 0)] else [(bs "x", bs "1", 0)].
Definition two : list step -> list name := fun _ => [bs "1"; bs "7"].
Definition dw : list step := [(bs "D", None); (bs "W", None)].
Lemma house_distinct : distinct house.
Proof. unfold distinct, house. cbn [map i_object]. repeat (constructor; [cbn [In]; intuition discriminate|]). constructor. Qed.
Lemma house_rooted : rooted house.
Proof. intros i. unfold house. cbn [In]. intros [<-|[<-|[<-|[]]]]; cbn; auto 10. Qed.
Lemma house_leads : leads house dw (mkInfo DW false [(bs "RNumberOfEntries", false); (bs "RIdsOfEntries", false)]).
Proof.
  split; [|split].
  - split; [|discriminate]. cbn. repeat (constructor; [unfold without; cbn; intuition discriminate|]). constructor.
  - intros a s b E. destruct a as [|u [|v a]]; cbn [app] in E.
    + injection E as <- <-. split; [cbn; congruence|]. split; [|intros X; cbn in X; congruence]. intros _ j [Hj Ej]. cbn in Hj. destruct Hj as [<-|[<-|[<-|[]]]]; discriminate.
    + injection E as <- <- <-. split; [cbn; congruence|]. split; [congruence|]. intros _ _. eexists. split; [left; reflexivity|reflexivity].
    + destruct a; discriminate.
  - split; [left; reflexivity|reflexivity].
Qed.
Definition spots : list (list step) := [dw; dw ++ [(bs "R", None)]; dw ++ [(bs "R", Some (bs "1"))]; dw ++ [(bs "R", Some (bs "7"))];
  dw ++ [(bs "R", Some (bs "1")); (bs "S", None)]; dw ++ [(bs "R", Some (bs "7")); (bs "S", None)]].
Ltac last_of E := match type of E with ?a ++ [?x] = _ =>
  match goal with |- _ => idtac end; symmetry in E; match type of E with ?w = _ =>
    let p := eval cbv [dw app removelast spots] in (removelast w) in let y := eval cbv [dw app last spots] in (last w ([], None)) in change w with (p ++ [y]) in E; apply app_inj_tail in E; destruct E as [<- E] end end.
Lemma house_reaches m : reaches house two dw m -> In m spots.
Proof.
  intros H. apply clos_rt_rtn1 in H. induction H as [|y z O H IH]; [left; reflexivity|]. clear H.
  inversion O as [pre t i k Di Li Hk E1 E2|l' i t Hi Wt K E1 E2]; subst.
  - unfold spots in IH. cbn [In] in IH. destruct IH as [E|[E|[E|[E|[E|[E|[]]]]]]]; symmetry in E; last_of E; try discriminate.
    + injection E as <-. exfalso. destruct Di as [Hj Ej]. cbn in Hj. destruct Hj as [<-|[<-|[<-|[]]]]; discriminate.
    + injection E as <-. cbn in Hk. destruct Hk as [<-|[<-|[]]]; cbn; auto 10.
    + injection E as <-. exfalso. destruct Di as [Hj Ej]. cbn in Hj. destruct Hj as [<-|[<-|[<-|[]]]]; discriminate.
    + injection E as <-. exfalso. destruct Di as [Hj Ej]. cbn in Hj. destruct Hj as [<-|[<-|[<-|[]]]]; discriminate.
  - destruct K as (j & Hj & Ej). unfold spots in IH. cbn [In] in IH.
    assert (Q : forall x, without 46 (bs "R" ++ 46 :: x) -> False) by (intros x X; apply X; cbn; auto).
    destruct IH as [E|[E|[E|[E|[E|[E|[]]]]]]]; subst y; cbn in Hj; destruct Hj as [<-|[<-|[<-|[]]]]; cbn in Ej; try discriminate;
      try (injection Ej as <-); try (cbn; auto 10; fail); try (exfalso; apply Wt; cbn; auto; fail).
    exfalso. destruct Hi as [[Hi Ei] [X|X]]; [|discriminate]. cbn in Hi. destruct Hi as [<-|[<-|[<-|[]]]]; try discriminate.
Qed.
Lemma house_tells : lists_tell house (speaks "2" "1,7") two dw.
Proof.
  intros pre t i Re [Hi Ei] Li. apply house_reaches in Re. unfold spots in Re. cbn [In] in Re. cbn in Hi. destruct Hi as [<-|[<-|[<-|[]]]]; try discriminate. cbn [i_object] in Ei.
  destruct Re as [E|[E|[E|[E|[E|[E|[]]]]]]]; symmetry in E; last_of E; try discriminate; injection E as <-; try discriminate.
  split; [discriminate|]. split; [exists (mkInfo DW false [(bs "RNumberOfEntries", false); (bs "RIdsOfEntries", false)]); exact house_leads|]. split.
  - unfold listed, two. split; [discriminate|]. split; [repeat (constructor; [unfold without; cbn; intuition discriminate|]); constructor|].
    split; [repeat (constructor; [unfold without; cbn; intuition discriminate|]); constructor|]. split; [repeat (constructor; [unfold without; cbn; intuition discriminate|]); constructor|]. cbn. lia.
  - split; intros log; exists [], DW, 0, []; (split; [vm_compute; reflexivity|intros r []]).
Qed.
Example C108_witness : exists log, get_all house 1 (speaks "2" "1,7") true (bs "D.W.") = Ok (log, true) /\
  shows log = [bs "D.W."; bs "D.W.R.1."; bs "D.W.R.1.S."; bs "D.W.R.7."; bs "D.W.R.7.S."] /\
  (exists log', get_all house 1 (speaks "2" "1,7") true (all_of dw) = Ok (log', true) /\ NoDup (shows log')).
Proof.
  eexists. split; [vm_compute; reflexivity|]. split; [vm_compute; reflexivity|].
  destruct (C108_recursive_partial house (speaks "2" "1,7") two dw _ house_distinct house_rooted house_leads house_tells) as (log & E & N & _). exists log. auto.
Qed.
Example C108_list_witness : exists log, get_all house 1 (speaks "2" "1,7") false (bs "D.W.R.") = Ok (log, true) /\ shows log = [bs "D.W.R.1."; bs "D.W.R.7."].
Proof. eexists. split; vm_compute; reflexivity. Qed.

(** ** what does not hold *)
(** A list that has no items cannot be got: the empty text is split into one empty id, which is not the number of entries, and the get fails. *)
Theorem C108_empty_refuted : ~ (forall db W pre t i j, distinct db -> rooted db -> leads db (pre ++ [(t, None)]) i -> i_list i = true -> leads db pre j -> tells W pre t [] ->
  exists log, get_all db 1 W false (all_of (pre ++ [(t, None)])) = Ok (log, true)).
Proof.
  intros H. assert (L : leads house (dw ++ [(bs "R", None)]) (mkInfo DWR true [(bs "Up", true)])).
  { apply (child_leads house house_distinct house_rooted dw _ (mkInfo DWR true [(bs "Up", true)]) house_leads).
    - split; [exact (proj2 (proj2 house_leads))|left; reflexivity].
    - vm_compute. auto. }
  destruct (H house (speaks "0" "") dw (bs "R") _ _ house_distinct house_rooted L eq_refl house_leads) as (log & E).
  - split; intros q; exists [], DW, 0, []; (split; [vm_compute; reflexivity|intros ? []]).
  - vm_compute in E. discriminate.
Qed.
Print Assumptions C108_empty_refuted.
(** If the answer with the ids is lost the list is taken to have an item "0", which nobody has named. *)
Theorem C108_invented_refuted : ~ (forall db W o t log b x, get_all db 1 W false (under o t ++ [46]) = Ok (log, b) -> In (under o t ++ [46] ++ x ++ [46]) (shows log) ->
  exists q n v c, In (n, v, c) (W q (under o t ++ bs "IdsOfEntries")) /\ In x (split 44 v)).
Proof.
  intros H. destruct (H house (fun _ s => if bytes_eqb s (bs "D.W.RNumberOfEntries") then [(s, bs "1", 0)] else []) DW (bs "R") _ _ (bs "0") eq_refl) as (q & n & v & c & X & _).
  - vm_compute. auto.
  - vm_compute in X. contradiction.
Qed.
Print Assumptions C108_invented_refuted.
(** A get of everything below says that it has succeeded if the last of the objects was got, although another has failed. *)
Theorem C108_masked_refuted : ~ (forall db W s log, distinct db -> rooted db -> get_all db 1 W true s = Ok (log, true) -> ~ In Failed log).
Proof.
  intros H. set (db := [mkInfo DW false []; mkInfo DWR true []; mkInfo (bs "D.W.T") false []]).
  apply (H db (speaks "0" "") (bs "D.W.") [Shown (bs "D.W.") [(bs "x", bs "1", 0)]; Asked (bs "D.W.RNumberOfEntries"); Asked (bs "D.W.RIdsOfEntries"); Failed; Shown (bs "D.W.T.") [(bs "x", bs "1", 0)]]).
  - unfold distinct, db. cbn [map i_object]. repeat (constructor; [cbn [In]; intuition discriminate|]). constructor.
  - intros i. unfold db. cbn [In]. intros [<-|[<-|[<-|[]]]]; cbn; auto 10.
  - vm_compute. reflexivity.
  - cbn. auto.
Qed.
Print Assumptions C108_masked_refuted.
(** A get of everything below a property of an object that is not known, and one of a list with a dot in an id, use a null pointer. *)
Theorem C108_null_refuted : ~ (forall db W s, distinct db -> rooted db -> s <> [] -> get_all db 1 W true s <> UB) /\
  ~ (forall db W l i, distinct db -> rooted db -> leads db l i -> get_all db 1 W true (all_of l) <> UB).
Proof.
  split; intros H.
  - apply (H house (speaks "0" "") (bs "A.B") house_distinct house_rooted); [discriminate|]. vm_compute. reflexivity.
  - apply (H house (speaks "1" "1.2") dw _ house_distinct house_rooted house_leads). vm_compute. reflexivity.
Qed.
Print Assumptions C108_null_refuted.
(** A get of the empty name reads before the text. *)
Theorem C108_blank_refuted : ~ (forall db W s, distinct db -> get_all db 1 W false s <> UB).
Proof. intros H. apply (H house (speaks "0" "") [] house_distinct). reflexivity. Qed.
Print Assumptions C108_blank_refuted.
(** An object whose name has no dot is a child of its own: a get of everything below asks for it in itself, and fails. *)
Theorem C108_root_refuted : ~ (forall db W ids l i, distinct db -> leads db l i -> lists_tell db W ids l -> exists log, get_all db 1 W true (all_of l) = Ok (log, true)).
Proof.
  intros H. set (top := mkInfo (bs "D") false []). destruct (H [top] (speaks "0" "") two [(bs "D", None)] top) as (log & E).
  - unfold distinct. cbn. constructor; [intros []|constructor].
  - split; [|split].
    + split; [|discriminate]. cbn. repeat (constructor; [unfold without; cbn; intuition discriminate|]). constructor.
    + intros a s b E. destruct a as [|u a]; [|destruct a; discriminate]. injection E as <- <-. split; [cbn; congruence|]. split; [congruence|]. intros X. cbn in X. congruence.
    + split; [left; reflexivity|reflexivity].
  - intros pre t i _ [Hi _] Li. cbn in Hi. destruct Hi as [<-|[]]. discriminate.
  - vm_compute in E. discriminate.
Qed.
Print Assumptions C108_root_refuted.
(** In a process that has made two databases every object is asked for twice, what is below it four times, and so on. *)
Theorem C108_twice_refuted : ~ (forall db k W ids l i log b, distinct db -> rooted db -> leads db l i -> lists_tell db W ids l -> get_all db k W true (all_of l) = Ok (log, b) -> NoDup (shows log)).
Proof.
  intros H. set (pair := [mkInfo DW false [(bs "RNumberOfEntries", false); (bs "RIdsOfEntries", false)]; mkInfo DWR false []]).
  set (say := fun (_ : list note) (_ : name) => @nil shown).
  specialize (H pair 2%nat say two dw (mkInfo DW false [(bs "RNumberOfEntries", false); (bs "RIdsOfEntries", false)])
    [Shown (bs "D.W.") []; Shown (bs "D.W.R.") []; Shown (bs "D.W.R.") []] true).
  assert (N : NoDup [bs "D.W."; bs "D.W.R."; bs "D.W.R."]).
  { apply H.
    - unfold distinct, pair. cbn [map i_object]. repeat (constructor; [cbn [In]; intuition discriminate|]). constructor.
    - intros i. unfold pair. cbn [In]. intros [<-|[<-|[]]]; cbn; auto 10.
    - split; [|split].
      + exact (proj1 house_leads).
      + intros a s b E. destruct a as [|u [|v a]]; cbn [app] in E.
        * injection E as <- <-. split; [cbn; congruence|]. split; [|intros X; cbn in X; congruence]. intros _ j [Hj Ej]. cbn in Hj. destruct Hj as [<-|[<-|[]]]; discriminate.
        * injection E as <- <- <-. split; [cbn; congruence|]. split; [congruence|]. intros _ _. eexists. split; [left; reflexivity|reflexivity].
        * destruct a; discriminate.
      + split; [left; reflexivity|reflexivity].
    - intros pre t i _ [Hi _] Li. cbn in Hi. destruct Hi as [<-|[<-|[]]]; discriminate.
    - vm_compute. reflexivity. }
  inversion N as [|x l A B]. inversion B as [|x2 l2 A2 B2]. apply A2. left. reflexivity.
Qed.
Print Assumptions C108_twice_refuted.
