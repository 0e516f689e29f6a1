(** C106: the names of the data model library lead to the object they name.
    C107: what its gets and sets do to a provider and what is reported. *)
From Coq Require Import String.
From Verif Require Import Common TextModel DmModel DmSpec DmProofs.
From Verif Require TextSpec TextProofs.
Local Open Scope string_scope.
Local Open Scope list_scope.
Local Open Scope Z_scope.

(** C106.  A name leads to an object exactly if it is made of the parts of the object's name, with
    the number of an item after each list that is gone through (and perhaps after the last), and
    everything below the first known object is known. *)
Theorem C106_resolved : forall db p i item, distinct db -> hd 0 p <> 46 ->
  (resolve db p = Some (i, item) <-> exists l, leads db l i /\ p = instance_of l /\ item = is_item l).
Proof. exact resolve_iff. Qed.
Print Assumptions C106_resolved.

(** C106.  A get of one property, or of all, of an instance is sent to the provider of that
    instance. *)
Theorem C106_get : forall db l i n, distinct db -> leads db l i -> n <> [] -> without 46 n ->
  create_query db OGet (under (instance_of l) n) = Ok (Some (mkQuery OGet (under (instance_of l) n) [] (instance_of l) (Some i))) /\
  create_query db OGet (instance_of l ++ [46]) = Ok (Some (mkQuery OGet (instance_of l ++ [46]) [] (instance_of l) (Some i))).
Proof. intros db l i n D H N W. split; [apply create_get; assumption|apply create_all; assumption]. Qed.
Print Assumptions C106_get.

(** C106.  A set of one property is sent to the provider of its instance with the whole value,
    whatever dots and equals signs are in it, unless it begins with a brace; a set of several is,
    whatever is between the braces. *)
Theorem C106_set_partial : forall db l i n v b, distinct db -> leads db l i -> without 46 n -> without 61 (under (instance_of l) n) -> hd 0 v <> 123 ->
  create_query db OSet (assign (under (instance_of l) n) v) = Ok (Some (mkQuery OSet (under (instance_of l) n) v (instance_of l) (Some i))) /\
  create_query db OSet (assign (instance_of l) ([123] ++ b ++ [125])) = Ok (Some (mkQuery OSet (instance_of l) ([123] ++ b ++ [125]) (instance_of l) (Some i))).
Proof.
  intros db l i n v b D H W U V. split; [apply create_set; assumption|]. apply create_braces; try assumption.
  unfold under in U. apply without_app in U. apply U.
Qed.
Print Assumptions C106_set_partial.

(** C106.  A get whose name leads nowhere touches no provider and fails. *)
Theorem C106_unknown : forall db ps f o n, distinct db -> hd 0 o <> 46 -> n <> [] -> without 46 n -> (forall l i, leads db l i -> o <> instance_of l) ->
  run_one db ps f OGet (under o n) = Ok ([], None, false) /\ run_one db ps f OGet (o ++ [46]) = Ok ([], None, false).
Proof.
  intros db ps f o n D S N W U.
  assert (R : resolve db o = None).
  { destruct (resolve db o) as [[i item]|] eqn:R; [|reflexivity]. apply resolve_iff in R; [|exact D|exact S]. destruct R as (l & H & E & _). destruct (U l i H E). }
  unfold run_one, create_query. rewrite (resolve_property_under _ _ _ N W), resolve_property_dot, R. split; reflexivity.
Qed.
Print Assumptions C106_unknown.

Definition dev_a : info := mkInfo (bs "Dev.A") false [(bs "P", true); (bs "R", false)].
Definition dev_t : info := mkInfo (bs "Dev.A.T") true [(bs "Q", true)].
Definition dev_u : info := mkInfo (bs "Dev.A.T.U") false [(bs "V", true); (bs "W", true)].
Definition dev : database := [dev_a; dev_t; dev_u].
Lemma dev_distinct : distinct dev.
Proof. unfold distinct. cbn. repeat constructor; cbn; intuition discriminate. Qed.
Definition dev_steps : list step := [(bs "Dev", None); (bs "A", None); (bs "T", Some (bs "7")); (bs "U", None)].
Lemma dev_leads : leads dev dev_steps dev_u.
Proof.
  pose proof (resolve_iff dev (bs "Dev.A.T.7.U") dev_u false dev_distinct ltac:(cbn; lia)) as RI.
  assert (R : resolve dev (bs "Dev.A.T.7.U") = Some (dev_u, false)) by (vm_compute; reflexivity).
  apply RI in R. clear RI. destruct R as (l & H & E & _).
  assert (L : l = dev_steps); [|rewrite <- L; exact H].
  destruct H as ((W & _) & L & DI). assert (PS : parts l = split 46 (bs "Dev.A.T.7.U")).
  { rewrite E. unfold instance_of. rewrite split_join; [reflexivity| |exact W]. intros Z. unfold instance_of in E. rewrite Z in E. discriminate. }
  change (split 46 (bs "Dev.A.T.7.U")) with [bs "Dev"; bs "A"; bs "T"; bs "7"; bs "U"] in PS.
  assert (LE : (length l <= 5)%nat).
  { assert (K : (length l <= length (parts l))%nat) by (clear; induction l as [|[t k] l IH]; [reflexivity|]; change (parts ((t, k) :: l)) with (t :: match k with Some k => [k] | None => [] end ++ parts l); cbn [length]; rewrite app_length; lia). rewrite PS in K. exact K. }
  destruct DI as [_ O]. destruct l as [|[t1 k1] [|[t2 k2] [|[t3 k3] [|[t4 k4] [|[t5 k5] [|s l]]]]]]; try (cbn [length] in LE; lia); cbn in O, PS;
    repeat match goal with k : option (list Z) |- _ => destruct k end; cbn in PS; try discriminate PS; injection PS; intros; subst; try discriminate O; reflexivity.
Qed.
(** names through a list, with dots and equals signs in the value *)
Example C106_witness : distinct dev /\ leads dev dev_steps dev_u /\ instance_of dev_steps = bs "Dev.A.T.7.U" /\ is_item dev_steps = false /\
  create_query dev OSet (bs "Dev.A.T.7.U.V=1.2=3.4") = Ok (Some (mkQuery OSet (bs "Dev.A.T.7.U.V") (bs "1.2=3.4") (bs "Dev.A.T.7.U") (Some dev_u))) /\
  resolve dev (bs "Dev.A.T.7") = Some (dev_t, true) /\ resolve dev (bs "Dev.A.T.U") = Some (dev_t, true) /\ resolve dev (bs "Dev.A.B") = None.
Proof. split; [exact dev_distinct|]. split; [exact dev_leads|]. repeat split; vm_compute; reflexivity. Qed.

(** A set of a name without a dot never returns: each round of the loop that looks for the object
    leaves the text as it was. *)
Theorem C106_forever_refuted : forall db n v, without 46 n -> without 61 n -> without 46 v -> hd 0 v <> 123 ->
  create_query db OSet (assign n v) = Err Forever /\ trim_set_property (assign n v) = assign n v /\ has 61 (assign n v) = true.
Proof.
  intros db n v A B C V.
  assert (T : trim_set_property (assign n v) = assign n v).
  { rewrite (trim_set_plain _ _ B V). unfold trim_property, assign. rewrite rcut_none; [reflexivity|]. apply without_app. split; [exact A|]. apply without_cons. split; [lia|exact C]. }
  assert (H : has 61 (assign n v) = true) by (apply has_iff; unfold assign; apply in_or_app; right; left; reflexivity).
  split; [|split; [exact T|exact H]]. unfold create_query, set_target. rewrite T.
  destruct (assign n v) as [|x t] eqn:E; [unfold assign in E; destruct n; discriminate|]. rewrite <- E in *. clear E.
  assert (S : forall fuel, settle fuel (assign n v) = Err Forever).
  { induction fuel as [|fuel IH]; cbn [settle]; rewrite H; [reflexivity|]. rewrite T. destruct (assign n v); [discriminate H|exact IH]. }
  rewrite S. reflexivity.
Qed.
Print Assumptions C106_forever_refuted.
(** A value in braces cannot be given to a property: its name is taken for that of an object, even
    if only a part of the value up to a dot is in braces. *)
Theorem C106_braces_refuted : create_query dev OSet (bs "Dev.A.P={x}") = Ok None /\ create_query dev OSet (bs "Dev.A.P={x}.y") = Ok None /\
  (exists q, create_query dev OSet (bs "Dev.A.P=x.y") = Ok (Some q)) /\
  set_target (bs "Dev.A.P={x}.y") = Ok (Some (bs "Dev.A.P")).
Proof. repeat split; try (vm_compute; reflexivity). eexists. vm_compute. reflexivity. Qed.
Print Assumptions C106_braces_refuted.

(** C107.  A get of a property with a getter calls that getter, once, and nothing else, and reports
    the property's name and the text of the value. *)
Theorem C107_get_partial : forall db ps l i n w P g, distinct db -> leads db l i -> offers i n w -> plain (i_object i) -> plain n ->
  ps (instance_of l) = Some P -> getter P n = Some g ->
  run_one db ps Answered OGet (under (instance_of l) n) = Ok ([EGet n], Some [(under (i_object i) n, c_text (to_text (g [])), 0)], true).
Proof.
  intros db ps l i n w P g D H O P1 P2 R G. unfold run_one. pose proof O as (_ & _ & O3 & O4). rewrite (create_get _ _ _ _ D H O4 O3). cbn [obind].
  unfold exec. cbn [q_info q_instance]. rewrite R. unfold serve. cbn [q_op q_name]. rewrite (params_get _ _ _ _ _ D H O). cbn [do_get]. unfold get_one. cbn [p_name declare fst]. rewrite G.
  cbn [app map]. change (mkProp n (i_object i ++ [46] ++ n) (snd (n, w))) with (declare (i_object i) (n, w)). rewrite (show_offered _ _ _ _ _ O P1 P2). reflexivity.
Qed.
Print Assumptions C107_get_partial.

(** C107.  A get of all properties asks for each of them once, in the order of the data model, and
    reports each under its name, with the value its getter gave at that moment. *)
Theorem C107_all_partial : forall db ps l i P, distinct db -> leads db l i -> plain (i_object i) -> ps (instance_of l) = Some P ->
  (forall n w, In (n, w) (i_props i) -> offers i n w /\ plain n) ->
  exists rs, run_one db ps Answered OGet (instance_of l ++ [46]) = Ok (map (asked P) (properties i), Some rs, true) /\ length rs = length (i_props i) /\
    forall k n w g, nth_error (i_props i) k = Some (n, w) -> getter P n = Some g ->
      nth_error rs k = Some (under (i_object i) n, c_text (to_text (g (map (asked P) (firstn k (properties i))))), 0).
Proof.
  intros db ps l i P D H P1 R A. unfold run_one. rewrite (create_all _ _ _ D H). cbn [obind]. unfold exec. cbn [q_info q_instance]. rewrite R.
  unfold serve. cbn [q_op q_name]. rewrite (params_all _ _ _ D H). destruct (do_get_spec P (properties i) []) as (S1 & S2 & S3).
  destruct (do_get P [] (properties i)) as [log rs]. cbn [fst snd app] in *. subst log. eexists. split; [reflexivity|]. split.
  - rewrite map_length, S2. unfold properties. apply map_length.
  - intros k n w g N G. assert (E : nth_error (properties i) k = Some (declare (i_object i) (n, w))) by (unfold properties; apply (map_nth_error _ _ _ N)).
    rewrite (map_nth_error (show i) k rs (S3 _ _ E)). unfold get_one. cbn [p_name declare fst]. rewrite G. cbn [snd].
    change (mkProp n (i_object i ++ [46] ++ n) w) with (declare (i_object i) (n, w)). destruct (A n w (nth_error_In _ _ N)) as [O P2]. rewrite (show_offered _ _ _ _ _ O P1 P2). reflexivity.
Qed.
Print Assumptions C107_all_partial.

(** C107.  A set of one property calls its setter, once, with the value as it was written, if it can
    be written, and otherwise nothing, and says which. *)
Theorem C107_set_partial : forall db ps l i n w v P, distinct db -> leads db l i -> offers i n w -> plain (i_object i) -> plain n ->
  without 61 (under (instance_of l) n) -> v <> [] -> hd 0 v <> 123 -> plain v -> ps (instance_of l) = Some P -> setter P n = true ->
  run_one db ps Answered OSet (assign (under (instance_of l) n) v) =
    Ok (if w then ([ESet n (VText v)], Some [(under (i_object i) n, v, 0)], true) else ([], Some [(under (i_object i) n, [], RT_ERROR)], true)).
Proof.
  intros db ps l i n w v P D H O P1 P2 U N V PV R G. unfold run_one. pose proof O as (_ & _ & O3 & O4). rewrite (create_set _ _ _ _ _ D H O3 U V). cbn [obind].
  unfold exec. cbn [q_info q_instance]. rewrite R. unfold serve. cbn [q_op q_name q_value]. rewrite (params_set _ _ _ _ _ _ D H O N V).
  unfold do_set. cbn [set_all]. unfold set_one. destruct w; cbn [p_writable p_name declare fst snd negb]; rewrite ?G; cbn [app map];
    try match goal with |- context [mkProp n ?x ?b] => change (mkProp n x b) with (declare (i_object i) (n, b)) end;
    rewrite (show_offered _ _ _ _ _ O P1 P2); [rewrite (plain_c (to_text (VText v)) PV)|]; reflexivity.
Qed.
Print Assumptions C107_set_partial.

(** C107.  A set of several properties sets each that can be written, in the order written, within
    one transaction if there are at least two; those of them with a setter are reported with the
    value. *)
Theorem C107_several_partial : forall db ps l i P nv, distinct db -> leads db l i -> plain (i_object i) -> without 61 (instance_of l) ->
  ps (instance_of l) = Some P -> nv <> [] -> listable nv -> (forall n v, In (n, v) nv -> exists w, offers i n w /\ plain n /\ plain v) ->
  exists rs, run_one db ps Answered OSet (assign (instance_of l) (braces nv)) =
    Ok (transaction nv (flat_map (told P) (map (set_param i (instance_of l)) nv)), Some rs, true) /\ length rs = length nv /\
    forall k n v, nth_error nv k = Some (n, v) -> offers i n true -> setter P n = true -> nth_error rs k = Some (under (i_object i) n, v, 0).
Proof.
  intros db ps l i P nv D H P1 U R N L A. unfold run_one, braces. rewrite (create_braces _ _ _ _ D H U). cbn [obind]. unfold exec. cbn [q_info q_instance]. rewrite R.
  unfold serve. cbn [q_op q_name q_value]. set (b := [123] ++ join 44 (map (fun x => assign (fst x) (snd x)) nv) ++ [125]).
  assert (SP : set_params db (instance_of l) b = map (set_param i (instance_of l)) nv).
  { unfold set_params. change b with (braces nv). rewrite (parse_braces _ N L), (leads_resolve _ _ _ D H). reflexivity. }
  rewrite SP. destruct (do_set_spec P (map (set_param i (instance_of l)) nv)) as (S1 & S2 & S3).
  destruct (do_set P (map (set_param i (instance_of l)) nv)) as [log rs]. cbn [fst snd] in *. subst log. eexists. split; [|split].
  - f_equal. f_equal. f_equal. destruct nv as [|x [|y nv]]; reflexivity.
  - rewrite map_length, S2, map_length. reflexivity.
  - intros k n v E O G. assert (E' : nth_error (map (set_param i (instance_of l)) nv) k = Some (declare (i_object i) (n, true), VText v)).
    { rewrite (map_nth_error _ _ _ E). unfold set_param. cbn [fst snd]. rewrite (offers_find _ _ _ O). reflexivity. }
    rewrite (map_nth_error (show i) k rs (S3 k _ _ E' eq_refl G)). destruct (A n v (nth_error_In _ _ E)) as (w & _ & P2 & PV).
    rewrite (show_offered _ _ _ _ _ O P1 P2). cbn [to_text]. rewrite (plain_c _ PV). reflexivity.
Qed.
Print Assumptions C107_several_partial.

(** C107.  Whatever is written, a setter with a name is called only for a property that the data
    model has and that can be written. *)
Theorem C107_guarded : forall db ps f s log rs b n v, run_one db ps f OSet s = Ok (log, rs, b) -> n <> [] ->
  In (ESet n v) log \/ (exists p, p_name p = n /\ In (EOwnSet p v) log) -> exists i, In i db /\ In (n, true) (i_props i).
Proof.
  intros db ps f s log rs b n v E N I. unfold run_one in E. destruct (create_query db OSet s) as [[q|]| |] eqn:C; cbn [obind] in E; try discriminate.
  2: { injection E as <- _ _. destruct I as [[]|[p [_ []]]]. }
  assert (Q : q_op q = OSet).
  { unfold create_query in C. destruct (set_target s) as [[t|]| |]; cbn [obind] in C; try discriminate. destruct (resolve db t) as [[i it]|]; try discriminate.
    destruct (cut 61 s) as [a [u|]]; injection C as <-; reflexivity. }
  assert (T : forall i target x p u, In i db -> set_param i target x = (p, u) -> p_name p = n -> p_writable p = true -> exists i, In i db /\ In (n, true) (i_props i)).
  { intros i target x p u Ii Sx Pn Pw. unfold set_param in Sx. injection Sx as Sp _. destruct (find _ (properties i)) as [p0|] eqn:F; subst p; [|cbn in Pn; congruence].
    apply find_some in F. destruct F as [F _]. unfold properties in F. apply in_map_iff in F. destruct F as [[m w] [<- F]]. cbn [declare p_name p_writable fst snd] in *. subst. exists i. auto. }
  assert (RS : forall l full il pv it i0 k, (forall j, pv = Some j -> In j db) -> resolve_parts db full il pv it l = Some (i0, k) -> In i0 db).
  { induction l as [|t l IH]; intros full il pv it i0 k HP RR; cbn [resolve_parts] in RR.
    - destruct pv as [j|]; [|discriminate]. injection RR as <- _. apply HP. reflexivity.
    - destruct il; [apply (IH _ _ _ _ _ _ HP RR)|]. destruct (find_info db _) as [j|] eqn:F.
      + eapply IH; [|exact RR]. intros j' E'. injection E' as <-. unfold find_info in F. apply find_some in F. apply F.
      + destruct pv as [j|]; [discriminate|]. eapply IH; [|exact RR]. discriminate. }
  assert (RD : forall o i0 k, resolve db o = Some (i0, k) -> In i0 db).
  { intros o i0 k RR. unfold resolve in RR. destruct o; [discriminate|]. eapply RS; [|exact RR]. discriminate. }
  assert (SP : forall t u p x, In (p, x) (set_params db t u) -> p_name p = n -> p_writable p = true -> exists i, In i db /\ In (n, true) (i_props i)).
  { intros t u p x Ip Pn Pw. unfold set_params in Ip. destruct u as [|y u]; [destruct Ip|]. destruct (parse_multiset (y :: u)) as [nv|].
    - destruct (resolve db t) as [[i k]|] eqn:RR; [|destruct Ip]. apply in_map_iff in Ip. destruct Ip as [z [Sz _]]. apply (T _ _ _ _ _ (RD _ _ _ RR) Sz Pn Pw).
    - unfold resolve_property in Ip. destruct t as [|c t]; [destruct Ip|]. destruct (resolve db _) as [[i k]|] eqn:RR in Ip; [|destruct Ip].
      destruct Ip as [Ip|[]]. apply (T _ _ _ _ _ (RD _ _ _ RR) Ip Pn Pw). }
  assert (LG : forall P, In (ESet n v) (fst (serve db P q)) \/ (exists p, p_name p = n /\ In (EOwnSet p v) (fst (serve db P q))) -> exists i, In i db /\ In (n, true) (i_props i)).
  { intros P J. unfold serve in J. rewrite Q in J. destruct (do_set_spec P (set_params db (q_name q) (q_value q))) as (S1 & _). rewrite S1 in J.
    assert (K : In (ESet n v) (flat_map (told P) (set_params db (q_name q) (q_value q))) \/ exists p, p_name p = n /\ In (EOwnSet p v) (flat_map (told P) (set_params db (q_name q) (q_value q)))).
    { assert (TR : forall A (m : list A) e es, e <> EBegin -> e <> EEnd -> In e (transaction m es) -> In e es).
      { intros A m e es N1 N2 H. unfold transaction in H. destruct m as [|? [|? ?]]; auto. cbn [app In] in H. destruct H as [H|H]; [congruence|]. apply in_app_or in H. destruct H as [H|[H|[]]]; [exact H|congruence]. }
      destruct J as [J|[p [Pn J]]]; [left|right; exists p; split; [exact Pn|]]; eapply TR; try exact J; discriminate. }
    destruct K as [K|[p [Pn K]]]; apply in_flat_map in K; destruct K as [[p' x] [Ip K]]; unfold told in K; cbn [fst snd] in K; (destruct (p_writable p') eqn:PW; [|destruct K]); destruct K as [K|[]];
      destruct (setter P (p_name p')) in K; try discriminate K; injection K as K1 K2; subst.
    - apply (SP _ _ _ _ Ip eq_refl PW).
    - apply (SP _ _ _ _ Ip eq_refl PW). }
  unfold exec in E. destruct (q_info q) as [i|]; [|injection E as <- _ _; destruct I as [[]|[p [_ []]]]].
  destruct (ps (q_instance q)) as [P|]; [destruct f|]; cbn [obind] in E.
  - specialize (LG P). destruct (serve db P q) as [lg r]. injection E as <- _ _. exact (LG I).
  - injection E as <- _ _. destruct I as [[]|[p [_ []]]].
  - injection E as <- _ _. exact (LG P I).
  - injection E as <- _ _. destruct I as [[]|[p [_ []]]].
Qed.
Print Assumptions C107_guarded.

(** a provider with getters and setters for every name *)
Definition full_provider : provider := mkProvider (fun n => Some (fun log => VNumber (Z.of_nat (length log)))) (fun _ => true) (fun _ _ => (0, [])) (fun _ _ _ => (0, [])).
Definition at_dev (n : name) : option provider := if bytes_eqb n (bs "Dev.A") then Some full_provider else None.
Example C107_witness :
  run_one dev at_dev Answered OGet (bs "Dev.A.") = Ok ([EGet (bs "P"); EGet (bs "R")], Some [(bs "Dev.A.P", bs "0", 0); (bs "Dev.A.R", bs "1", 0)], true) /\
  run_one dev at_dev Answered OSet (bs "Dev.A.P=a=b.c") = Ok ([ESet (bs "P") (VText (bs "a=b.c"))], Some [(bs "Dev.A.P", bs "a=b.c", 0)], true) /\
  run_one dev at_dev Answered OSet (bs "Dev.A={R=1,P=2}") = Ok ([EBegin; ESet (bs "P") (VText (bs "2")); EEnd], Some [(bs "Dev.A.R", [], 1); (bs "Dev.A.P", bs "2", 0)], true) /\
  offers dev_a (bs "P") true /\ braces [(bs "R", bs "1"); (bs "P", bs "2")] = bs "{R=1,P=2}" /\ listable [(bs "R", bs "1"); (bs "P", bs "2")].
Proof.
  split; [vm_compute; reflexivity|]. split; [vm_compute; reflexivity|]. split; [vm_compute; reflexivity|]. split; [|split; [reflexivity|]].
  - unfold offers. cbn. split; [left; reflexivity|]. split; [repeat constructor; cbn; intuition discriminate|]. split; [unfold without; cbn; intuition discriminate|discriminate].
  - unfold listable, without. repeat constructor; cbn; intuition discriminate.
Qed.

(** A request that is not delivered or not answered in time is reported as a success without
    values: the failure of the request is not looked at. *)
Theorem C107_unanswered_refuted : forall db ps l i n, distinct db -> leads db l i -> n <> [] -> without 46 n ->
  (exists log, run_one db ps Lost OGet (under (instance_of l) n) = Ok (log, Some [], true)) /\
  (exists log, run_one db ps Late OGet (under (instance_of l) n) = Ok (log, Some [], true)) /\
  run_one db (fun _ => None) Answered OGet (under (instance_of l) n) = Ok ([], Some [], true).
Proof.
  intros db ps l i n D H N W. unfold run_one. rewrite (create_get _ _ _ _ D H N W). cbn [obind]. unfold exec. cbn [q_info q_instance].
  split; [|split]; [destruct (ps (instance_of l)); eexists; reflexivity|destruct (ps (instance_of l)); eexists; reflexivity|reflexivity].
Qed.
Print Assumptions C107_unanswered_refuted.
(** A property is set to the empty text: no setter is called and success is reported. *)
Theorem C107_empty_refuted : run_one dev at_dev Answered OSet (bs "Dev.A.P=") = Ok ([], Some [], true).
Proof. vm_compute. reflexivity. Qed.
Print Assumptions C107_empty_refuted.
(** Of several settings, one whose value has an equals sign or a comma is left out without a word. *)
Theorem C107_left_out_refuted : run_one dev at_dev Answered OSet (bs "Dev.A={P=a=b,P=c}") = Ok ([ESet (bs "P") (VText (bs "c"))], Some [(bs "Dev.A.P", bs "c", 0)], true).
Proof. vm_compute. reflexivity. Qed.
Print Assumptions C107_left_out_refuted.
(** A provider that answers a property itself with an error is reported as having answered well. *)
Theorem C107_error_refuted : exists P, snd (hd (VText [], 0) (snd (own_get P [] (declare (bs "Dev.A") (bs "P", true))))) = RT_ERROR /\
  exists log, run_one dev (fun _ => Some P) Answered OGet (bs "Dev.A.P") = Ok (log, Some [(bs "Dev.A.P", bs "?", 0)], true).
Proof. exists (mkProvider (fun _ => None) (fun _ => false) (fun _ _ => (0, [(VText (bs "?"), RT_ERROR)])) (fun _ _ _ => (0, []))). split; [reflexivity|]. eexists. vm_compute. reflexivity. Qed.
Print Assumptions C107_error_refuted.
(** A number of 8 bits is reported as the character with that code; 0 is reported as nothing. *)
Theorem C107_int8_refuted : to_text (VInt8 65) = bs "A" /\ to_text (VNumber 65) = bs "65" /\ c_text (to_text (VUInt8 0)) = [].
Proof. repeat split; vm_compute; reflexivity. Qed.
Print Assumptions C107_int8_refuted.
(** What is reported for the items of a list has the name of the list's property: the number of the
    item is not in it. *)
Theorem C107_item_refuted : let ps n := if bytes_eqb n (bs "Dev.A.T.1") || bytes_eqb n (bs "Dev.A.T.2") then Some full_provider else None in
  run_one dev ps Answered OGet (bs "Dev.A.T.1.Q") = Ok ([EGet (bs "Q")], Some [(bs "Dev.A.T.Q", bs "0", 0)], true) /\
  run_one dev ps Answered OGet (bs "Dev.A.T.2.Q") = Ok ([EGet (bs "Q")], Some [(bs "Dev.A.T.Q", bs "0", 0)], true).
Proof. split; vm_compute; reflexivity. Qed.
Print Assumptions C107_item_refuted.

(** C106.  A value that begins with a brace but does not end with one is a value like others, if it has no dot. *)
Theorem C106_open_brace_partial : forall db l i n v, distinct db -> leads db l i -> without 46 n -> without 61 (under (instance_of l) n) -> without 46 v -> last v 0 <> 125 ->
  create_query db OSet (assign (under (instance_of l) n) v) = Ok (Some (mkQuery OSet (under (instance_of l) n) v (instance_of l) (Some i))).
Proof.
  intros db l i n v D H Wn U Wv Lv. pose proof (instance_start l (proj1 H)) as [Ne _].
  assert (T : trim_set_property (assign (under (instance_of l) n) v) = instance_of l).
  { assert (TP : trim_property (assign (under (instance_of l) n) v) = instance_of l).
    { unfold trim_property, assign, under. replace ((instance_of l ++ [46] ++ n) ++ [61] ++ v) with (instance_of l ++ 46 :: n ++ 61 :: v) by (rewrite <- !app_assoc; reflexivity).
      rewrite rcut_app; [reflexivity|]. apply without_app. split; [exact Wn|]. apply without_cons. split; [lia|exact Wv]. }
    unfold trim_set_property. rewrite (cut_assign _ _ U). destruct v as [|b v]; [exact TP|].
    unfold assign at 1. rewrite last_app_ne by discriminate. change ([61] ++ b :: v) with (61 :: b :: v). rewrite last_cons_ne by discriminate.
    destruct (Z.eqb_spec (last (b :: v) 0) 125) as [E|E]; [contradiction|]. rewrite andb_false_r. exact TP. }
  assert (W : has 61 (instance_of l) = false) by (apply has_not; apply without_app in U; apply U).
  unfold create_query, set_target. rewrite T. destruct (instance_of l) as [|c s] eqn:E; [congruence|]. rewrite <- E in *.
  assert (S : forall f, settle f (instance_of l) = Ok (Some (instance_of l))) by (intros [|f]; cbn [settle]; rewrite W; reflexivity).
  rewrite S. cbn [obind]. rewrite (leads_resolve db l i D H), (cut_assign _ _ U). reflexivity.
Qed.
Print Assumptions C106_open_brace_partial.

(** C107.  A property without a getter is asked of the provider itself, once; what it answers is
    reported, and a property that it does not have, or gives no value for, is reported as not found. *)
Theorem C107_own_get_partial : forall db ps l i n w P st vs, distinct db -> leads db l i -> offers i n w -> plain (i_object i) -> plain n ->
  ps (instance_of l) = Some P -> getter P n = None -> own_get P [] (declare (i_object i) (n, w)) = (st, vs) ->
  (forall v c r, st <> RT_PROP_NOT_FOUND -> vs = (v, c) :: r ->
    run_one db ps Answered OGet (under (instance_of l) n) = Ok ([EOwnGet (declare (i_object i) (n, w))], Some [(under (i_object i) n, c_text (to_text v), 0)], true)) /\
  (st = RT_PROP_NOT_FOUND \/ vs = [] ->
    run_one db ps Answered OGet (under (instance_of l) n) = Ok ([EOwnGet (declare (i_object i) (n, w))], Some [(under (i_object i) n, [], RT_PROP_NOT_FOUND)], true)).
Proof.
  intros db ps l i n w P st vs D H O P1 P2 R G OG.
  assert (E : run_one db ps Answered OGet (under (instance_of l) n) = Ok ([EOwnGet (declare (i_object i) (n, w))], Some [show i (own_result (declare (i_object i) (n, w)) (st, vs))], true)).
  { unfold run_one. pose proof O as (_ & _ & O3 & O4). rewrite (create_get _ _ _ _ D H O4 O3). cbn [obind]. unfold exec. cbn [q_info q_instance]. rewrite R. unfold serve. cbn [q_op q_name].
    rewrite (params_get _ _ _ _ _ D H O). cbn [do_get]. unfold get_one. change (p_name (declare (i_object i) (n, w))) with n. rewrite G, OG. reflexivity. }
  rewrite E. unfold own_result. split.
  - intros v c r N ->. destruct (Z.eqb_spec st RT_PROP_NOT_FOUND) as [X|_]; [contradiction|]. rewrite (show_offered _ _ _ _ _ O P1 P2). reflexivity.
  - intros X. assert (Y : (match vs with (v, _) :: _ => if st =? RT_PROP_NOT_FOUND then mkParam (declare (i_object i) (n, w)) (VText []) RT_PROP_NOT_FOUND else mkParam (declare (i_object i) (n, w)) v 0
      | [] => mkParam (declare (i_object i) (n, w)) (VText []) RT_PROP_NOT_FOUND end) = mkParam (declare (i_object i) (n, w)) (VText []) RT_PROP_NOT_FOUND).
    { destruct X as [-> | ->]; [destruct vs as [|[? ?] ?]; reflexivity|reflexivity]. }
    rewrite Y, (show_offered _ _ _ _ _ O P1 P2). reflexivity.
Qed.
Print Assumptions C107_own_get_partial.
(** The same for a set of a property without a setter that can be written. *)
Theorem C107_own_set_partial : forall db ps l i n v P st vs, distinct db -> leads db l i -> offers i n true -> plain (i_object i) -> plain n ->
  without 61 (under (instance_of l) n) -> v <> [] -> hd 0 v <> 123 -> ps (instance_of l) = Some P -> setter P n = false ->
  own_set P [] (declare (i_object i) (n, true)) (VText v) = (st, vs) ->
  (forall u c r, st <> RT_PROP_NOT_FOUND -> vs = (u, c) :: r ->
    run_one db ps Answered OSet (assign (under (instance_of l) n) v) = Ok ([EOwnSet (declare (i_object i) (n, true)) (VText v)], Some [(under (i_object i) n, c_text (to_text u), 0)], true)) /\
  (st = RT_PROP_NOT_FOUND \/ vs = [] ->
    run_one db ps Answered OSet (assign (under (instance_of l) n) v) = Ok ([EOwnSet (declare (i_object i) (n, true)) (VText v)], Some [(under (i_object i) n, [], RT_PROP_NOT_FOUND)], true)).
Proof.
  intros db ps l i n v P st vs D H O P1 P2 U N V R G OS. set (p := declare (i_object i) (n, true)) in *.
  assert (E : run_one db ps Answered OSet (assign (under (instance_of l) n) v) = Ok ([EOwnSet p (VText v)], Some [show i (own_result p (st, vs))], true)).
  { unfold run_one. pose proof O as (_ & _ & O3 & O4). rewrite (create_set _ _ _ _ _ D H O3 U V). cbn [obind]. unfold exec. cbn [q_info q_instance]. rewrite R. unfold serve. cbn [q_op q_name q_value].
    rewrite (params_set _ _ _ _ _ _ D H O N V). fold p. unfold do_set. cbn [set_all]. unfold set_one. change (p_writable p) with true. change (p_name p) with n. rewrite G, OS. reflexivity. }
  rewrite E. unfold own_result. split.
  - intros u c r X ->. destruct (Z.eqb_spec st RT_PROP_NOT_FOUND) as [Y|_]; [contradiction|]. unfold p. rewrite (show_offered _ _ _ _ _ O P1 P2). reflexivity.
  - intros X. assert (Y : (match vs with (u, _) :: _ => if st =? RT_PROP_NOT_FOUND then mkParam p (VText []) RT_PROP_NOT_FOUND else mkParam p u 0
      | [] => mkParam p (VText []) RT_PROP_NOT_FOUND end) = mkParam p (VText []) RT_PROP_NOT_FOUND).
    { destruct X as [-> | ->]; [destruct vs as [|[? ?] ?]; reflexivity|reflexivity]. }
    rewrite Y. unfold p. rewrite (show_offered _ _ _ _ _ O P1 P2). reflexivity.
Qed.
Print Assumptions C107_own_set_partial.
(** A get of a property that the object does not have calls no getter of a property. *)
Theorem C107_absent : forall db ps f l i n log rs b x, distinct db -> leads db l i -> n <> [] -> without 46 n -> ~ In n (map fst (i_props i)) ->
  run_one db ps f OGet (under (instance_of l) n) = Ok (log, rs, b) -> In (EGet x) log -> x = [].
Proof.
  intros db ps f l i n log rs b x D H N W A E I. unfold run_one in E. rewrite (create_get _ _ _ _ D H N W) in E. cbn [obind] in E. unfold exec in E. cbn [q_info q_instance] in E.
  assert (K : forall P, In (EGet x) (fst (serve db P (mkQuery OGet (under (instance_of l) n) [] (instance_of l) (Some i)))) -> x = []).
  { intros P J. unfold serve in J. cbn [q_op q_name] in J. destruct (do_get_spec P (get_params db (under (instance_of l) n)) []) as (S1 & _). rewrite S1 in J. cbn [app] in J.
    apply in_map_iff in J. destruct J as (p & Ep & Ip). unfold get_params in Ip. rewrite (wildcard_under _ _ N W), (trim_under _ _ W), (leads_resolve db l i D H) in Ip.
    assert (Q : property_info i (under (instance_of l) n) = None).
    { unfold property_info. rewrite (trim_name_under _ _ W). destruct (find _ (properties i)) as [q|] eqn:F; [|reflexivity]. exfalso. apply find_some in F. destruct F as [F1 F2].
      apply bytes_eqb_iff in F2. unfold properties in F1. apply in_map_iff in F1. destruct F1 as ([n' w'] & <- & F1). cbn [declare p_name fst] in F2. subst n'. apply A. apply in_map_iff. exists (n, w'). auto. }
    rewrite Q in Ip. destruct Ip as [<-|[]]. unfold asked in Ep. cbn [p_name] in Ep. destruct (getter P []); [injection Ep as <-; reflexivity|discriminate]. }
  destruct (ps (instance_of l)) as [P|]; [destruct f|].
  - specialize (K P). destruct (serve db P _) as [lg r]. injection E as <- _ _. exact (K I).
  - injection E as <- _ _. contradiction.
  - injection E as <- _ _. exact (K P I).
  - injection E as <- _ _. contradiction.
Qed.
Print Assumptions C107_absent.
(** Values are reported in a form that tells them apart: texts as they are, truth values in words, numbers in decimal. *)
Theorem C107_text_partial : (forall s, plain s -> c_text (to_text (VText s)) = s) /\ c_text (to_text (VBool true)) = bs "true" /\ c_text (to_text (VBool false)) = bs "false" /\
  (forall n, Z.abs n < 10 ^ 20 -> TextSpec.denotes (to_text (VNumber n)) n).
Proof.
  split; [exact plain_c|]. split; [reflexivity|]. split; [reflexivity|]. intros n B. apply TextProofs.print_denotes. exact B.
Qed.
Print Assumptions C107_text_partial.
Example C107_own_witness : exists P, getter P (bs "P") = None /\ setter P (bs "P") = false /\
  run_one dev (fun _ => Some P) Answered OGet (bs "Dev.A.P") = Ok ([EOwnGet (declare (bs "Dev.A") (bs "P", true))], Some [(bs "Dev.A.P", bs "true", 0)], true) /\
  run_one dev (fun _ => Some P) Answered OSet (bs "Dev.A.P={x") = Ok ([EOwnSet (declare (bs "Dev.A") (bs "P", true)) (VText (bs "{x"))], Some [(bs "Dev.A.P", [], RT_PROP_NOT_FOUND)], true) /\
  run_one dev (fun _ => Some P) Answered OGet (bs "Dev.A.X") = Ok ([EOwnGet (mkProp [] (bs "Dev.A.X") false)], Some [(bs "Dev.A.X", bs "true", 0)], true).
Proof.
  exists (mkProvider (fun _ => None) (fun _ => false) (fun _ _ => (0, [(VBool true, 0)])) (fun _ _ _ => (4, [(VText (bs "x"), 0)]))). repeat split; vm_compute; reflexivity.
Qed.
