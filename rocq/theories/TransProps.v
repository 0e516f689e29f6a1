(** Theorems about set and get requests over several parameters (C45, C46, C47, C67, C68). *)
From Coq Require Import String.
From Verif Require Import Common CommonFacts Errors TransModel TransSpec TransProofs TransBatches.
Local Open Scope string_scope.
Local Open Scope list_scope.
Local Open Scope Z_scope.

(** ** concrete components: P, Q and R own the names that start with their letter; a name that ends
    with a or b can be read and written, with r only read, with w only written; others do not exist *)
Definition own (n : list Z) : option (list Z) :=
  match n with c :: _ => if (c =? 80) || (c =? 81) || (c =? 82) then Some [c] else None | [] => None end.
Definition el (c n : list Z) : option kind :=
  match last n 0 with 97 | 98 => Some (mkKind true true) | 114 => Some (mkKind true false) | 119 => Some (mkKind false true) | _ => None end.
Definition all_ok (k : nat) : Z := E_SUCCESS.
Definition refuse (i k : nat) : Z := if Nat.eqb k i then E_INVALID_OPERATION else E_SUCCESS.
Definition lose (i k : nat) : fate := if Nat.eqb k i then Lost else Arrives.
Definition env0 (sc gc : nat -> Z) (ft : nat -> fate) : env := mkEnv (bs "me") own el sc gc ft (fun _ _ => (E_SUCCESS, [])).
Definition world0 : world := mkWorld (fun _ _ => Some 1) 0 0 0 [].
Definition always (k : nat) : fate := Arrives.
Lemma api_ok ft : api_codes (env0 all_ok all_ok ft). Proof. split; discriminate. Qed.
Lemma api_refuse i j ft : api_codes (env0 (refuse i) (refuse j) ft).
Proof. split; intros k; cbn; unfold refuse; destruct (Nat.eqb k _); discriminate. Qed.
Lemma api_refuse_ok i ft : api_codes (env0 (refuse i) all_ok ft).
Proof. split; intros k; cbn; unfold refuse; try destruct (Nat.eqb k _); discriminate. Qed.
Lemma api_ok_refuse i ft : api_codes (env0 all_ok (refuse i) ft).
Proof. split; intros k; cbn; unfold refuse; try destruct (Nat.eqb k _); discriminate. Qed.

(** ** C45 *)
(** An accepted request: every parameter exists and is writable, each handler was called once, in
    order, for the component that asked, with the commit flag on the last only; every parameter
    holds what was asked last for it, nothing else changed; the reply carries the values before. *)
Theorem C45_success : forall E w c who roll l commit w' o, serve E w c who roll l commit = (w', Done o) ->
  (forall x, In x l -> writable E c (fst x) = true) /\ since w w' = calls c who commit l /\
  (forall d n, store w' d n = if bytes_eqb d c then final l n (store w d n) else store w d n) /\
  (roll = true -> gets_work E -> NoDup (map fst l) -> (forall x, In x l -> readable E c (fst x) = true) -> o = olds (store w c) l).
Proof.
  intros E w c who roll l commit w' o S. unfold serve in S. destruct l as [|x l]; [discriminate|]. apply serve_done in S as (A & B & C & D & F & G & H & I).
  split; [exact A|]. split; [|split; [exact B|exact I]]. unfold since. now rewrite C, skipn_app, skipn_all, Nat.sub_diag.
Qed.
Print Assumptions C45_success.

(** A refused request leaves every value as it was, when the parameters are distinct, exist and are
    writable, the ones before the refused one can be read, and the handlers accept the old values. *)
Theorem C45_restored_partial : forall E w c who l commit w' r n, serve E w c who true l commit = (w', Failed r n) ->
  NoDup (map fst l) -> (forall x, In x l -> writable E c (fst x) = true) ->
  (forall pre v post, l = pre ++ (n, v) :: post -> forall x, In x pre -> readable E c (fst x) = true) ->
  gets_work E -> one_refusal E (sets w) ->
  r <> E_SUCCESS /\ forall d m, store w' d m = store w d m.
Proof.
  intros E w c who l commit w' r n S ND WR RD GW OR. unfold serve in S. destruct l as [|x l]; [injection S as <- <- _; split; [discriminate|reflexivity]|].
  apply serve_undone in S as [A (i & _ & B & ->)]; auto.
Qed.
Print Assumptions C45_restored_partial.

(** Whatever the handlers answer: a refused request touches only the parameters it names, in the
    component it was sent to, and names the parameter at which it failed. *)
Theorem C45_frame : forall E w c who roll l commit w' r n, serve E w c who roll l commit = (w', Failed r n) -> l <> [] ->
  r <> E_SUCCESS /\ In n (map fst l) /\ (forall d m, d <> c \/ ~ In m (map fst l) -> store w' d m = store w d m).
Proof.
  intros E w c who roll l commit w' r n S NE. unfold serve in S. destruct l as [|x l]; [contradiction|]. clear NE. remember (x :: l) as l0. clear x l Heql0.
  destruct (serve_failed _ _ _ _ _ _ _ _ _ _ _ S) as (pre & v & post & wp & o & EQ & SL & CA).
  pose proof (serve_done _ _ _ _ _ _ _ _ _ _ SL) as (_ & ST & _).
  assert (FR : forall d m, d <> c \/ ~ In m (map fst l0) -> store wp d m = store w d m).
  { intros d m H. rewrite ST. destruct (bytes_eqb d c) eqn:B; [|reflexivity]. apply bytes_eqb_eq in B. apply final_notin. destruct H as [H|H]; [contradiction|]. intros I. apply H. rewrite EQ, map_app. apply in_app_iff. now left. }
  split; [|split].
  - destruct CA as [(_ & -> & _)|[(_ & -> & _)|(_ & NR & _)]]; [discriminate|discriminate|exact NR].
  - rewrite EQ, map_app. apply in_app_iff. right. now left.
  - intros d m H. destruct CA as [(_ & _ & ->)|[(_ & _ & ->)|(_ & NR & last & wk & _ & CS & ->)]]; [now apply FR|now apply FR|].
    assert (SK : store wk = store wp).
    { destruct (look_same E wp c roll n) as (L1 & L2 & L3 & L4). unfold call_set in CS. injection CS as <- Q. cbn [store]. rewrite Q. apply Z.eqb_neq in NR. now rewrite NR, L1. }
    destruct roll; [|rewrite SK; now apply FR]. rewrite restore_frame; [rewrite SK; now apply FR|].
    destruct H as [H|H]; [now left|]. right. intros I. apply H. rewrite EQ, map_app. apply in_app_iff. left.
    clear - SL I. revert w wp o SL I. assert (G : forall old w wp o, serve_loop E w c who true false old pre = (wp, Done o) -> incl (map fst o) (map fst old ++ map fst pre)).
    { induction pre as [|[n0 v0] pre IH]; intros old w wp o SL; [cbn in SL; injection SL as _ <-; rewrite app_nil_r; apply incl_refl|].
      rewrite serve_step in SL. destruct (elem E c n0) as [k|] eqn:K; [|discriminate]. destruct (negb (k_set k)); [discriminate|]. cbv zeta in SL.
      destruct (call_set _ _ _ _ _ _ _) as [w2 r2]. destruct (r2 =? E_SUCCESS); [|discriminate]. apply IH in SL. intros y Y. apply SL in Y. rewrite map_app in Y. apply in_app_iff. apply in_app_iff in Y as [Y|Y]; [|right; now right].
      apply in_app_iff in Y as [Y|Y]; [now left|]. right. unfold look in Y. rewrite K in Y. destruct (true && k_get k); [cbn in Y; destruct Y as [<-|[]]; now left|destruct Y]. }
    intros w wp o SL I. apply G in SL. apply SL in I. exact I.
Qed.
Print Assumptions C45_frame.

(** what restoring does not cover *)
Theorem C45_missing_refuted : exists E w c who l w' n m, (forall k, set_code E k = E_SUCCESS) /\ gets_work E /\ NoDup (map fst l) /\
  serve E w c who true l true = (w', Failed E_ELEMENT_DOES_NOT_EXIST n) /\ store w' c m <> store w c m.
Proof.
  exists (env0 all_ok all_ok always), world0, (bs "P"), (bs "me"), [(bs "P.a", Some 2); (bs "P.x", Some 3)]. eexists _, _, (bs "P.a"). split; [reflexivity|]. split; [intros k; reflexivity|].
  split; [repeat constructor; cbn; intuition discriminate|]. split; [reflexivity|]. discriminate.
Qed.
Print Assumptions C45_missing_refuted.
(** A set of several parameters of which one cannot be written leaves those before it changed. *)
Theorem C45_unwritable_refuted : exists E w c who l w' n m, (forall k, set_code E k = E_SUCCESS) /\ gets_work E /\ NoDup (map fst l) /\
  serve E w c who true l true = (w', Failed E_NOT_WRITABLE n) /\ store w' c m <> store w c m.
Proof.
  exists (env0 all_ok all_ok always), world0, (bs "P"), (bs "me"), [(bs "P.a", Some 2); (bs "P.r", Some 3)]. eexists _, _, (bs "P.a"). split; [reflexivity|]. split; [intros k; reflexivity|].
  split; [repeat constructor; cbn; intuition discriminate|]. split; [reflexivity|]. discriminate.
Qed.
Print Assumptions C45_unwritable_refuted.
(** a parameter named twice gets its first new value back *)
Theorem C45_duplicate_refuted : exists E w c who l w' r n m, one_refusal E (sets w) /\ gets_work E /\ (forall x, In x l -> plain E c (fst x) = true) /\
  serve E w c who true l true = (w', Failed r n) /\ store w' c m <> store w c m.
Proof.
  exists (env0 (refuse 2) all_ok always), world0, (bs "P"), (bs "me"), [(bs "P.a", Some 2); (bs "P.a", Some 3); (bs "P.b", Some 4)]. eexists _, _, _, (bs "P.a").
  split. { intros i j A B. cbn. unfold refuse. destruct (Nat.eqb_spec i 2); [|congruence]. destruct (Nat.eqb_spec j 2); [lia|reflexivity]. }
  split; [intros k; reflexivity|]. split; [intros x [<-|[<-|[<-|[]]]]; reflexivity|]. split; [reflexivity|]. discriminate.
Qed.
Print Assumptions C45_duplicate_refuted.
(** the value of a parameter that can only be written is not remembered *)
Theorem C45_writeonly_refuted : exists E w c who l w' r n m, one_refusal E (sets w) /\ gets_work E /\ NoDup (map fst l) /\ (forall x, In x l -> writable E c (fst x) = true) /\
  serve E w c who true l true = (w', Failed r n) /\ store w' c m <> store w c m.
Proof.
  exists (env0 (refuse 1) all_ok always), world0, (bs "P"), (bs "me"), [(bs "P.w", Some 2); (bs "P.b", Some 4)]. eexists _, _, _, (bs "P.w").
  split. { intros i j A B. cbn. unfold refuse. destruct (Nat.eqb_spec i 1); [|congruence]. destruct (Nat.eqb_spec j 1); [lia|reflexivity]. }
  split; [intros k; reflexivity|]. split; [repeat constructor; cbn; intuition discriminate|]. split; [intros x [<-|[<-|[]]]; reflexivity|]. split; [reflexivity|]. discriminate.
Qed.
Print Assumptions C45_writeonly_refuted.
(** the result of reading the value is ignored: when reading fails, a property without value is put back *)
Theorem C45_unread_refuted : exists E w c who l w' r n m, one_refusal E (sets w) /\ NoDup (map fst l) /\ (forall x, In x l -> plain E c (fst x) = true) /\
  serve E w c who true l true = (w', Failed r n) /\ store w c m <> None /\ store w' c m = None.
Proof.
  exists (env0 (refuse 1) (refuse 0) always), world0, (bs "P"), (bs "me"), [(bs "P.a", Some 2); (bs "P.b", Some 4)]. eexists _, _, _, (bs "P.a").
  split. { intros i j A B. cbn. unfold refuse. destruct (Nat.eqb_spec i 1); [|congruence]. destruct (Nat.eqb_spec j 1); [lia|reflexivity]. }
  split; [repeat constructor; cbn; intuition discriminate|]. split; [intros x [<-|[<-|[]]]; reflexivity|]. split; [reflexivity|]. split; [discriminate|reflexivity].
Qed.
Print Assumptions C45_unread_refuted.
Example C45_witness : exists w' r n, serve (env0 (refuse 2) all_ok always) world0 (bs "P") (bs "me") true [(bs "P.a", Some 2); (bs "P.b", Some 3); (bs "P.1.a", Some 4)] true = (w', Failed r n) /\
  length (log w') = 5%nat /\ store w' (bs "P") (bs "P.a") = Some 1 /\ store w' (bs "P") (bs "P.b") = Some 1 /\
  exists w2, serve (env0 all_ok all_ok always) world0 (bs "P") (bs "me") true [(bs "P.a", Some 2); (bs "P.b", Some 3)] true = (w2, Done [(bs "P.a", Some 1); (bs "P.b", Some 1)]) /\ store w2 (bs "P") (bs "P.b") = Some 3.
Proof. eexists _, _, _. split; [reflexivity|]. split; [reflexivity|]. split; [reflexivity|]. split; [reflexivity|]. eexists. split; reflexivity. Qed.

(** ** C46 *)
Lemma final_part E l n c v : owner E n = Some c -> final (part E fst c l) n v = final l n v.
Proof. intros O. apply final_filter. intros x _. cbn [fst]. rewrite O. apply bytes_eqb_refl. Qed.
Lemma part_names E (l : list item) n c : owner E n <> Some c -> ~ In n (map fst (part E fst c l)).
Proof.
  intros O I. apply in_map_iff in I as (x & <- & X). apply filter_In in X as [_ X]. destruct (owner E (fst x)) as [d|]; [|discriminate]. apply bytes_eqb_eq in X. now subst d.
Qed.
Lemma owners_in E (l : list item) x c : In x l -> owner E (fst x) = Some c -> In c (owners E (map fst l)).
Proof.
  intros I O. unfold owners. apply firsts_in. split; [|reflexivity]. apply in_flat_map. exists (fst x). split; [now apply in_map|]. rewrite O. now left.
Qed.
(** what the accepted parts of a list leave *)
Definition set_for (E : env) (l : list item) (cs : list (list Z)) (st : list Z -> list Z -> option Z) (c n : list Z) : option Z :=
  if existsb (bytes_eqb c) cs && match owner E n with Some d => bytes_eqb d c | None => false end then final l n (st c n) else st c n.
Lemma accepted_set_for E roll commit l : forall cs o w w' o', accepted E roll commit (fun c => part E fst c l) o w cs w' o' -> NoDup cs ->
  forall c n, store w' c n = set_for E l cs (store w) c n.
Proof.
  intros cs o w w' o' A ND c n. rewrite (accepted_store _ _ _ _ _ _ _ _ _ A ND). unfold set_for. destruct (existsb (bytes_eqb c) cs); [|reflexivity]. cbn [andb].
  destruct (owner E n) as [d|] eqn:O.
  - destruct (bytes_eqb d c) eqn:B; [apply bytes_eqb_eq in B; subst d; now apply final_part|]. apply final_notin, part_names. rewrite O. intros Q. injection Q as ->. now rewrite bytes_eqb_refl in B.
  - apply final_notin, part_names. now rewrite O.
Qed.

(** If every request is answered and the call succeeds, every component has accepted its part:
    every parameter holds what was asked last for it, and nothing else changed. *)
Theorem C46_success_partial : forall E w num l commit named w' f, connected E -> api_codes E -> set_multi E w num l commit named = (w', E_SUCCESS, f) ->
  (forall x, In x (firstn num l) -> exists c, owner E (fst x) = Some c /\ writable E c (fst x) = true) /\
  (forall c n, store w' c n = if match owner E n with Some d => bytes_eqb d c | None => false end then final (firstn num l) n (store w c n) else store w c n).
Proof.
  intros E w num l commit named w' f CO AC R. unfold set_multi, multi_with in R. destruct num as [|num]; [discriminate|]. destruct l as [|[n0 v0] l]; [discriminate|].
  destruct l as [|y l].
  - unfold single in R. destruct (wild n0); [discriminate|]. destruct v0 as [z|]; [|discriminate]. destruct (owner E n0) as [c0|] eqn:O; [|discriminate].
    destruct (request E w c0 false [(n0, Some z)] commit) as [w1 a] eqn:RQ. destruct a as [e|[o|r nn]].
    + unfold request in RQ. rewrite CO in RQ. destruct (serve _ _ _ _ _ _ _) in RQ. discriminate.
    + injection R as <- _. cbn [firstn]. replace (firstn num []) with (@nil item) by now destruct num. apply request_done in RQ as (_ & A & B & _). split.
      * intros x X. exists c0. split; [destruct X as [<-|[]]; exact O|now apply A].
      * intros c n. rewrite B. cbn [final]. destruct (bytes_eqb n n0) eqn:Bn.
        -- apply bytes_eqb_eq in Bn. subst n. rewrite O, (bytes_eqb_sym c0 c). reflexivity.
        -- destruct (bytes_eqb c c0), (match owner E n with Some d => bytes_eqb d c | None => false end); reflexivity.
    + pose proof (request_failed _ _ _ _ _ _ _ _ _ AC RQ) as G. rewrite G in R. injection R as _ Q _. now apply code_of_bad in G.
  - set (L := firstn (S num) ((n0, v0) :: y :: l)) in *. destruct (existsb _ L); [discriminate|]. destruct (Nat.ltb_spec (length ((n0, v0) :: y :: l)) (S num)) as [LT|LT]; [discriminate|].
    destruct (owned E L) as [o|] eqn:OW; [|discriminate]. apply owned_ok in OW as [M P].
    apply (batches_split E _ commit true (fun c => part E fst c L) CO AC) in R; [|lia|]. 2:{ intros c C. rewrite <- M. symmetry. now apply owned_mine. }
    cbv zeta in R. rewrite <- (owned_owners E o P), M in R. destruct R as [(old' & AA & _)|(pre & c & post & w1 & w2 & old1 & rr & nn & _ & _ & _ & G & _ & Q & _)].
    2:{ symmetry in Q. now apply code_of_bad in G. }
    split.
    + intros x X. assert (I : exists c, owner E (fst x) = Some c).
      { rewrite <- M in X. apply in_map_iff in X as (z & <- & Z0). exists (fst z). now apply P. }
      destruct I as (c & O). exists c. split; [exact O|]. pose proof (owners_in E L x c X O) as OI.
      clear - AA OI X O. revert w AA. generalize (@nil item) as o0. induction (owners E (map fst L)) as [|d cs IH]; [destruct OI|]. intros o0 w AA.
      inversion AA as [|oo ww cc w1 o1 cs0 w2 o2 RQ AA']; subst. destruct OI as [->|OI]; [|eapply IH; eassumption].
      apply request_done in RQ as (_ & W & _). apply W. apply filter_In. split; [exact X|]. rewrite O. apply bytes_eqb_refl.
    + intros c n. rewrite (accepted_set_for _ _ _ _ _ _ _ _ _ AA) by apply firsts_nodup. unfold set_for. destruct (owner E n) as [d|] eqn:O; [|now rewrite andb_false_r].
      destruct (bytes_eqb d c) eqn:B; [|now rewrite andb_false_r]. apply bytes_eqb_eq in B. subst d. rewrite andb_true_r. destruct (existsb (bytes_eqb c) (owners E (map fst L))) eqn:X; [reflexivity|].
      symmetry. apply final_notin. intros I. apply in_map_iff in I as (x & <- & I). enough (existsb (bytes_eqb c) (owners E (map fst L)) = true) by congruence. apply existsb_exists. exists c. split; [|apply bytes_eqb_refl]. now apply (owners_in E L x).
Qed.
Print Assumptions C46_success_partial.

(** Each component is asked at most once, with exactly its parameters in the order given, components
    in the order in which the list first mentions them; all of them if the call succeeds. *)
Theorem C46_requests : forall E w l commit named w' r f, (2 <= length l)%nat -> set_multi E w (length l) l commit named = (w', r, f) ->
  exists k, rolled (since w w') = map (fun c => SetReq c (me E) true (part E fst c l) commit) (firstn k (owners E (map fst l))) /\
    (r = E_SUCCESS -> k = length (owners E (map fst l))).
Proof.
  intros E w l commit named w' r f L2 R.
  assert (SAME : forall f0, (w, E_INVALID_INPUT, f0) = (w', r, f) -> exists k, rolled (since w w') = map (fun c => SetReq c (me E) true (part E fst c l) commit) (firstn k (owners E (map fst l))) /\
    (r = E_SUCCESS -> k = length (owners E (map fst l)))).
  { intros f0 Q. injection Q as <- <- _. exists 0%nat. unfold since. rewrite skipn_all. split; [reflexivity|discriminate]. }
  unfold set_multi in R. destruct (existsb (fun x => wild (fst x) || negb (is_some (snd x))) l) eqn:X.
  - rewrite multi_bad in R by assumption. eauto.
  - rewrite multi_long in R by assumption. destruct (owned E l) as [o|] eqn:OW; [|eauto]. apply owned_ok in OW as [M P].
    apply (batches_log E _ commit true (fun c => part E fst c l) (undo_quiet E)) in R as (es & k & A & _ & C & D & _); [|lia|]. 2:{ intros c _. rewrite <- M. symmetry. now apply owned_mine. }
    rewrite <- (owned_owners E o P), M in C, D. exists k. split; [|exact D]. unfold since. now rewrite A, skipn_app, skipn_all, Nat.sub_diag.
Qed.
Print Assumptions C46_requests.

(** A call that fails while every request is answered, over distinct parameters that can be read and
    written and hold values, with handlers that refuse one call only: the components are asked in
    turn up to the one that refuses; only the components accepted before the last one keep what
    was set in them, everything else is as before. *)
Theorem C46_failure_partial : forall E w l commit named w' r f, connected E -> api_codes E -> gets_work E -> one_refusal E (sets w) ->
  NoDup (map fst l) -> (forall x c, In x l -> owner E (fst x) = Some c -> plain E c (fst x) = true /\ store w c (fst x) <> None) ->
  set_multi E w (length l) l commit named = (w', r, f) -> r <> E_SUCCESS ->
  exists kept, (forall c n, store w' c n = set_for E l kept (store w) c n) /\
   (kept <> [] -> exists d c post, owners E (map fst l) = kept ++ d :: c :: post).
Proof.
  intros E w l commit named w' r f CO AC GW OR ND PL R NR.
  assert (SAME : w' = w -> exists kept, (forall c n, store w' c n = set_for E l kept (store w) c n) /\ (kept <> [] -> exists d c post, owners E (map fst l) = kept ++ d :: c :: post)).
  { intros ->. exists []. split; [reflexivity|]. intros H. now contradict H. }
  destruct l as [|[n0 v0] [|y l]].
  - cbn in R. apply SAME. congruence.
  - cbn [length] in R. unfold set_multi, multi_with, single in R. destruct (wild n0); [apply SAME; congruence|]. destruct v0 as [z|]; [|apply SAME; congruence]. destruct (owner E n0) as [c0|] eqn:O; [|apply SAME; congruence].
    destruct (PL (n0, Some z) c0 (or_introl eq_refl) O) as [W _]. cbn [fst] in W. unfold plain in W.
    destruct (request E w c0 false [(n0, Some z)] commit) as [w1 a] eqn:RQ. unfold request in RQ. rewrite CO in RQ. unfold serve in RQ. rewrite serve_step in RQ. destruct (elem E c0 n0) as [k|] eqn:K; [|discriminate]. apply andb_true_iff in W as [_ W]. rewrite W in RQ. cbn [negb andb] in RQ. rewrite look_off in RQ. cbn [fst snd] in RQ.
    unfold call_set in RQ. cbn [ask sets store gets sent log serve_loop] in RQ. destruct (Z.eqb_spec (set_code E (sets w)) E_SUCCESS) as [Q|Q].
    + injection RQ as <- <-. injection R as _ <- _. now contradict NR.
    + injection RQ as <- <-. unfold good in R. apply Z.eqb_neq in Q. rewrite Q in R. destruct AC as [AC _]. specialize (AC (sets w)). apply Z.eqb_neq in AC. rewrite AC in R. cbn [orb] in R. injection R as <- _ _. exists []. split; [reflexivity|]. intros H. now contradict H.
  - remember ((n0, v0) :: y :: l) as L. assert (L2 : (2 <= length L)%nat) by (subst; cbn; lia).
    unfold set_multi in R. destruct (existsb (fun x => wild (fst x) || negb (is_some (snd x))) L) eqn:X.
    { rewrite multi_bad in R by assumption. apply SAME. congruence. }
    rewrite multi_long in R by assumption. destruct (owned E L) as [o|] eqn:OW; [|apply SAME; congruence]. clear SAME HeqL. apply owned_ok in OW as [M P].
    apply (batches_split E _ commit true (fun c => part E fst c L) CO AC) in R; [|lia|]. 2:{ intros c _. rewrite <- M. symmetry. now apply owned_mine. }
    cbv zeta in R. rewrite <- (owned_owners E o P), M in R.
    destruct R as [(old' & _ & Q & _)|(pre & c & post & w1 & w2 & old1 & rr & nn & EQ & AA & RQ & G & -> & _ & _)].
    { elim NR. rewrite Q. now destruct (owners E (map fst L)). }
    pose proof (firsts_nodup (flat_map (fun n => match owner E n with Some c => [c] | None => [] end) (map fst L)) []) as NO. fold (owners E (map fst L)) in NO. rewrite EQ in NO.
    assert (NDP : forall d, NoDup (map fst (part E fst d L))).
    { intros d. clear - ND. unfold part. induction L as [|x L IH]; [constructor|]. cbn [map] in ND. inversion ND as [|? ? NI ND']; subst. cbn [filter]. destruct (match owner E (fst x) with Some _ => _ | None => _ end); [|auto]. cbn [map]. constructor; [|auto]. intros I. apply NI. apply in_map_iff in I as (z & Q & Zi). rewrite <- Q. apply in_map. now apply filter_In in Zi as [Zi _]. }
    assert (INP : forall d x, In x (part E fst d L) -> In x L /\ owner E (fst x) = Some d).
    { intros d x I. apply filter_In in I as [I B]. split; [exact I|]. destruct (owner E (fst x)); [|discriminate]. apply bytes_eqb_eq in B. now subst. }
    assert (PLP : forall d x, In x (part E fst d L) -> readable E d (fst x) = true /\ writable E d (fst x) = true).
    { intros d x I. apply INP in I as [I O]. destruct (PL x d I O) as [W _]. unfold plain in W. unfold readable, writable. destruct (elem E d (fst x)); [|discriminate]. now apply andb_true_iff in W. }
    pose proof (accepted_set_for _ _ _ _ _ _ _ _ _ AA (nodup_app_l _ _ NO)) as S1.
    pose proof (accepted_sets _ _ _ _ _ _ _ _ _ AA) as SL.
    pose proof (accepted_old _ _ _ GW _ _ _ _ _ AA (nodup_app_l _ _ NO) (fun d _ => conj (NDP d) (fun x I => proj1 (PLP d x I)))) as OLD.
    assert (RF : (forall d m, store w2 d m = store w1 d m) /\ forall i, (sets w2 <= i)%nat -> set_code E i = E_SUCCESS).
    { unfold request in RQ. rewrite CO in RQ. unfold serve in RQ. remember (part E fst c L) as pl eqn:Epl. destruct pl as [|x pl].
      - (* a component is only asked when it owns something *)
        assert (I : In c (owners E (map fst L))) by (rewrite EQ; apply in_app_iff; right; now left). unfold owners in I. apply firsts_in in I as [I _]. apply in_flat_map in I as (n & N & I). destruct (owner E n) as [d|] eqn:O; [|destruct I]. destruct I as [->|[]].
        apply in_map_iff in N as (x & <- & N). enough (H : In x []) by destruct H. rewrite Epl. apply filter_In. split; [exact N|]. rewrite O. apply bytes_eqb_refl.
      - destruct (serve_loop E _ c (me E) true commit [] (x :: pl)) as [w3 a] eqn:SL2. injection RQ as -> ->. rewrite Epl in SL2. apply serve_undone in SL2 as [U1 (i & U2 & U3 & _)].
        + cbn [ask store sets] in U1, U2. split; [exact U1|]. intros j J. apply (OR i j); [lia|lia|exact U3].
        + apply NDP.
        + intros z Zi. now apply (PLP c).
        + intros p v q Q z Zi. apply (PLP c). rewrite Q. apply in_app_iff. now left.
        + exact GW.
        + cbn [ask sets]. intros i j I J. apply OR; [lia|exact J]. }
    destruct RF as [S2 LATER].
    destruct (rev pre) as [|d rp] eqn:RV.
    + assert (pre = []) by (rewrite <- (rev_involutive pre), RV; reflexivity). subst pre. subst old1. exists []. split; [|intros H; now contradict H]. intros c' n. rewrite undo_nil, S2, S1. reflexivity.
    + assert (EP : pre = rev rp ++ [d]) by (rewrite <- (rev_involutive pre), RV; reflexivity). set (kept := rev rp) in *. exists kept. split.
      2:{ intros _. exists d, c, post. rewrite EQ, EP, <- app_assoc. reflexivity. }
      assert (ID : In d (owners E (map fst L))) by (rewrite EQ, EP, <- app_assoc; apply in_app_iff; right; now left).
      assert (NK : existsb (bytes_eqb d) kept = false).
      { apply not_true_is_false. intros Q. apply existsb_exists in Q as (e & I & B). apply bytes_eqb_eq in B. subst e. rewrite EP, <- app_assoc in NO. apply (nodup_app_disj _ _ d NO I). now left. }
      rewrite OLD. intros c' n. rewrite undo_ok with (d := d); [|exact CO|exact AC| | |exact LATER].
      * rewrite S2, S1, EP. unfold set_for. rewrite existsb_app. cbn [existsb]. rewrite orb_false_r. destruct (bytes_eqb c' d) eqn:B.
        -- apply bytes_eqb_eq in B. subst c'. rewrite NK. cbn [orb andb]. destruct (owner E n) as [e|] eqn:O.
           ++ destruct (bytes_eqb e d) eqn:Be.
              ** apply bytes_eqb_eq in Be. subst e. rewrite <- (final_part E L n d) by exact O. apply final_back.
              ** rewrite final_olds. destruct (existsb (bytes_eqb n) (map fst (part E fst d L))) eqn:Y; reflexivity.
           ++ rewrite final_olds. destruct (existsb (bytes_eqb n) (map fst (part E fst d L))) eqn:Y; reflexivity.
        -- rewrite orb_false_r. reflexivity.
      * intros Q. unfold owners in ID. apply firsts_in in ID as [I _]. apply in_flat_map in I as (m & N & I). destruct (owner E m) as [e|] eqn:O; [|destruct I]. destruct I as [->|[]].
        apply in_map_iff in N as (x & <- & N). enough (H : In x []) by destruct H. rewrite <- Q. apply filter_In. split; [exact N|]. rewrite O. apply bytes_eqb_refl.
      * intros x I. destruct (PLP d x I) as [_ W]. apply INP in I as [I O]. split; [exact O|]. split; [exact W|]. destruct (PL x d I O) as [_ V]. split; [|exact V].
        apply not_true_is_false. intros Q. enough (existsb (fun x => wild (fst x) || negb (is_some (snd x))) L = true) by congruence. apply existsb_exists. exists x. now rewrite Q.
Qed.
Print Assumptions C46_failure_partial.

(** With at most two components, a call that fails leaves every value as it was. *)
Theorem C46_two_partial : forall E w l commit named w' r f, connected E -> api_codes E -> gets_work E -> one_refusal E (sets w) ->
  NoDup (map fst l) -> (forall x c, In x l -> owner E (fst x) = Some c -> plain E c (fst x) = true /\ store w c (fst x) <> None) ->
  set_multi E w (length l) l commit named = (w', r, f) -> r <> E_SUCCESS -> (length (owners E (map fst l)) <= 2)%nat -> forall c n, store w' c n = store w c n.
Proof.
  intros E w l commit named w' r f CO AC GW OR ND PL R NR LE c n. destruct (C46_failure_partial E w l commit named w' r f CO AC GW OR ND PL R NR) as (kept & S & K).
  destruct kept as [|k kept]; [exact (S c n)|]. destruct (K ltac:(discriminate)) as (d & e & post & Q). rewrite Q in LE. rewrite app_length in LE. cbn in LE. lia.
Qed.
Print Assumptions C46_two_partial.

(** only what the last component held is remembered: with a third component the first keeps its new value *)
Theorem C46_three_refuted : exists E w l w' r f c n, connected E /\ gets_work E /\ one_refusal E (sets w) /\ NoDup (map fst l) /\
  (forall x c, In x l -> owner E (fst x) = Some c -> plain E c (fst x) = true /\ store w c (fst x) <> None) /\
  set_multi E w (length l) l true true = (w', r, f) /\ r <> E_SUCCESS /\ store w' c n <> store w c n.
Proof.
  exists (env0 (refuse 2) all_ok always), world0, [(bs "P.a", Some 2); (bs "Q.a", Some 3); (bs "R.a", Some 4)]. eexists _, _, _, (bs "P"), (bs "P.a").
  split; [intros k; reflexivity|]. split; [intros k; reflexivity|].
  split. { intros i j A B. cbn. unfold refuse. destruct (Nat.eqb_spec i 2); [|congruence]. destruct (Nat.eqb_spec j 2); [lia|reflexivity]. }
  split; [repeat constructor; cbn; intuition discriminate|]. split; [intros x c [<-|[<-|[<-|[]]]] _; split; try reflexivity; discriminate|]. split; [vm_compute; reflexivity|]. split; discriminate.
Qed.
Print Assumptions C46_three_refuted.
(** a component that could not be reached is forgotten when a later one accepts its part *)
Theorem C46_lost_refuted : exists E w l w' f x c, api_codes E /\ set_multi E w (length l) l true true = (w', E_SUCCESS, f) /\ NoDup (map fst l) /\
  In x l /\ owner E (fst x) = Some c /\ store w' c (fst x) <> snd x.
Proof.
  exists (env0 all_ok all_ok (lose 0)), world0, [(bs "P.a", Some 2); (bs "Q.a", Some 3)]. eexists _, _, (bs "P.a", Some 2), (bs "P"). split; [apply api_ok|]. split; [vm_compute; reflexivity|].
  split; [repeat constructor; cbn; intuition discriminate|]. split; [now left|]. split; [reflexivity|]. discriminate.
Qed.
Print Assumptions C46_lost_refuted.
(** what was set is not taken back when a later component cannot be reached *)
Theorem C46_unreachable_refuted : exists E w l w' r f c n, api_codes E /\ gets_work E /\ (forall k, set_code E k = E_SUCCESS) /\ set_multi E w (length l) l true true = (w', r, f) /\ r <> E_SUCCESS /\ NoDup (map fst l) /\
  length (owners E (map fst l)) = 2%nat /\ store w' c n <> store w c n.
Proof.
  exists (env0 all_ok all_ok (lose 1)), world0, [(bs "P.a", Some 2); (bs "Q.a", Some 3)]. eexists _, _, _, (bs "P"), (bs "P.a"). split; [apply api_ok|]. split; [intros k; reflexivity|]. split; [reflexivity|]. split; [vm_compute; reflexivity|].
  split; [discriminate|]. split; [repeat constructor; cbn; intuition discriminate|]. split; [reflexivity|discriminate].
Qed.
Print Assumptions C46_unreachable_refuted.
(** the failing parameter is not named once a component has accepted its part *)
Theorem C46_named_refuted : exists E w l w' r, connected E /\ api_codes E /\ set_multi E w (length l) l true true = (w', r, None) /\ r = E_INVALID_OPERATION.
Proof.
  exists (env0 (refuse 1) all_ok always), world0, [(bs "P.a", Some 2); (bs "Q.a", Some 3)]. eexists _, _. split; [intros k; reflexivity|]. split; [apply api_refuse_ok|]. split; [vm_compute; reflexivity|reflexivity].
Qed.
Print Assumptions C46_named_refuted.
Example C46_witness : exists w' r f, set_multi (env0 (refuse 3) all_ok always) world0 4 [(bs "P.a", Some 2); (bs "Q.a", Some 3); (bs "P.b", Some 4); (bs "Q.b", Some 5)] true true = (w', r, f) /\
  r = E_INVALID_OPERATION /\ length (rolled (log w')) = 2%nat /\ length (log w') = 10%nat /\ store w' (bs "P") (bs "P.b") = Some 1 /\
  owners (env0 (refuse 3) all_ok always) [bs "P.a"; bs "Q.a"; bs "P.b"; bs "Q.b"] = [bs "P"; bs "Q"].
Proof. eexists _, _, _. split; [vm_compute; reflexivity|]. split; [reflexivity|]. split; [reflexivity|]. split; [reflexivity|]. split; reflexivity. Qed.

(** ** C47 *)
(** Each component is asked at most once, with exactly the parameters it owns in the order given;
    all components are asked if every request is answered or the call succeeds. *)
Theorem C47_requests : forall E w l w' r vs, get_many E w l = (w', r, vs) -> (forall n, In n l -> owner E n <> None) ->
  (forall c n, store w' c n = store w c n) /\
  exists k, map (fun e => match e with GetReq c _ ns => (c, ns) | _ => ([], []) end) (since w w') = map (fun c => (c, part E (fun n => n) c l)) (firstn k (owners E l)) /\
   length (get_reqs (since w w')) = length (since w w') /\ (connected E \/ r = E_SUCCESS -> k = length (owners E l)).
Proof.
  intros E w l w' r vs R O. unfold get_many in R. destruct (owned_n E l) as [o|] eqn:OW.
  - apply owned_n_ok in OW as [M P]. apply (get_batches_log E (fun c => part E (fun n => n) c l)) in R; [|lia|intros c _; rewrite <- M; symmetry; now apply owned_n_mine].
    rewrite <- (owned_n_owners E o P), M in R. destruct R as (S & k & KL & L & K). split; [now rewrite S|]. exists k. unfold since. rewrite L, skipn_app, skipn_all, Nat.sub_diag. cbn [app skipn]. split; [now rewrite map_map|]. split; [|exact K].
    generalize (firstn k (owners E l)) as cs. induction cs as [|c cs IH]; [reflexivity|]. cbn [map get_reqs filter length]. f_equal. exact IH.
  - exfalso. revert OW O. clear. induction l as [|n l IH]; [discriminate|]. cbn [owned_n]. destruct (owner E n) eqn:Q; intros H O; [|now apply (O n); [left|]]. destruct (owned_n E l); [discriminate|]. apply IH; [reflexivity|]. intros m M. apply O. now right.
Qed.
Print Assumptions C47_requests.

(** Without wildcards, when every request is answered: each component's part is in the result with
    its values, in order, or is left out as a whole, and the call reports what the last component
    answered.  A part is left out only if one of its parameters cannot be read. *)
Theorem C47_result_partial : forall E w l w' r vs, connected E -> api_codes E -> (forall n, In n l -> wild n = false) -> (forall n, In n l -> owner E n <> None) ->
  get_many E w l = (w', r, vs) ->
  exists oks, length oks = length (owners E l) /\
   vs = flat_map (fun p : list Z * bool => if snd p then map (fun n => (n, store w (fst p) n)) (part E (fun n => n) (fst p) l) else []) (combine (owners E l) oks) /\
   (r = E_SUCCESS <-> last oks true = true) /\
   (gets_work E -> forall c ok, In (c, ok) (combine (owners E l) oks) -> (ok = true <-> forall n, In n l -> owner E n = Some c -> readable E c n = true)).
Proof.
  intros E w l w' r vs CO AC NW O R. unfold get_many in R. destruct (owned_n E l) as [o|] eqn:OW.
  - apply owned_n_ok in OW as [M P]. apply (get_batches_plain E (fun c => part E (fun n => n) c l)) in R; [|exact CO|exact AC| |lia|intros c _; rewrite <- M; symmetry; now apply owned_n_mine].
    2:{ intros c n N. apply NW. now apply filter_In in N as [N _]. }
    rewrite <- (owned_n_owners E o P), M in R. destruct R as (_ & oks & A & B & C & D). exists oks. split; [exact A|]. split; [exact B|]. split; [exact C|].
    intros GW c ok I. specialize (D c ok I). destruct ok.
    + split; [|reflexivity]. intros _ n N ON. apply D. apply filter_In. split; [exact N|]. rewrite ON. apply bytes_eqb_refl.
    + split; [discriminate|]. intros H. destruct (D GW) as (n & N & F). apply filter_In in N as [N B']. destruct (owner E n) as [d|] eqn:Q; [|discriminate]. apply bytes_eqb_eq in B'. subst d. rewrite H in F by assumption. discriminate.
  - exfalso. revert OW O. clear. induction l as [|n l IH]; [discriminate|]. cbn [owned_n]. destruct (owner E n) eqn:Q; intros H O; [|now apply (O n); [left|]]. destruct (owned_n E l); [discriminate|]. apply IH; [reflexivity|]. intros m M. apply O. now right.
Qed.
Print Assumptions C47_result_partial.

(** When all parameters can be read, the call succeeds and every one of them is in the result. *)
Theorem C47_complete_partial : forall E w l w' r vs, connected E -> api_codes E -> gets_work E -> (forall n, In n l -> wild n = false) ->
  (forall n, In n l -> exists c, owner E n = Some c /\ readable E c n = true) -> get_many E w l = (w', r, vs) ->
  r = E_SUCCESS /\ vs = flat_map (fun c => map (fun n => (n, store w c n)) (part E (fun n => n) c l)) (owners E l) /\
  (forall n c, In n l -> owner E n = Some c -> In (n, store w c n) vs).
Proof.
  intros E w l w' r vs CO AC GW NW O R. destruct (C47_result_partial E w l w' r vs CO AC NW) as (oks & A & B & C & D); [|exact R|].
  { intros n N. destruct (O n N) as (c & Q & _). rewrite Q. discriminate. }
  assert (T : forall c ok, In (c, ok) (combine (owners E l) oks) -> ok = true).
  { intros c ok I. apply (D GW c ok I). intros n N Q. destruct (O n N) as (d & Q' & RD). rewrite Q in Q'. now injection Q' as <-. }
  assert (V : vs = flat_map (fun c => map (fun n => (n, store w c n)) (part E (fun n => n) c l)) (owners E l)).
  { rewrite B. clear - A T. revert oks A T. induction (owners E l) as [|c cs IH]; intros oks A T; [reflexivity|]. destruct oks as [|ok oks]; [discriminate|]. cbn [combine flat_map fst snd]. rewrite (T c ok) by now left. f_equal. apply IH; [now injection A|]. intros c' ok' I. apply (T c' ok'). now right. }
  split; [|split; [exact V|]].
  - apply C. clear - A T. assert (F : forall b, In b oks -> b = true).
    { revert A T. generalize (owners E l) as cs. induction oks as [|ok oks IH]; intros cs A T b I; [destruct I|]. destruct cs as [|c cs]; [discriminate|]. destruct I as [<-|I]; [apply (T c ok); now left|]. apply (IH cs); [now injection A| |exact I]. intros c' ok' I'. apply (T c' ok'). now right. }
    clear A T. induction oks as [|ok oks IH]; [reflexivity|]. rewrite last_cons. rewrite (F ok) by now left. apply IH. intros b I. apply F. now right.
  - intros n c N Q. rewrite V. apply in_flat_map. exists c. split.
    + unfold owners. apply firsts_in. split; [|reflexivity]. apply in_flat_map. exists n. split; [exact N|]. rewrite Q. now left.
    + apply in_map_iff. exists n. split; [reflexivity|]. apply filter_In. split; [exact N|]. rewrite Q. apply bytes_eqb_refl.
Qed.
Print Assumptions C47_complete_partial.

(** When one component owns all of them, success means that the result is the list asked for. *)
Theorem C47_one_partial : forall E w l w' vs c, connected E -> api_codes E -> (forall n, In n l -> wild n = false) -> (forall n, In n l -> owner E n = Some c) -> l <> [] ->
  get_many E w l = (w', E_SUCCESS, vs) -> vs = map (fun n => (n, store w c n)) l.
Proof.
  intros E w l w' vs c CO AC NW O NE R. destruct (C47_result_partial E w l w' E_SUCCESS vs CO AC NW) as (oks & A & B & C & _); [|exact R|].
  { intros n N. rewrite (O n N). discriminate. }
  assert (OW : owners E l = [c]).
  { unfold owners. apply firsts_same.
    - destruct l as [|n l]; [contradiction|]. cbn [flat_map]. rewrite (O n) by now left. discriminate.
    - intros d I. apply in_flat_map in I as (n & N & I). rewrite (O n N) in I. now destruct I as [<-|[]]. }
  rewrite OW in A, B. destruct oks as [|ok [|? ?]]; try discriminate. cbn in C. rewrite (proj1 C eq_refl) in B. cbn [combine flat_map fst snd] in B. rewrite app_nil_r in B. rewrite B. f_equal.
  unfold part. assert (G : forall n, In n l -> match owner E n with Some d => bytes_eqb d c | None => false end = true) by (intros n N; rewrite (O n N); apply bytes_eqb_refl). clear - G. induction l as [|n l IH]; [reflexivity|]. cbn [filter]. rewrite G by now left. f_equal. apply IH. intros m M. apply G. now right.
Qed.
Print Assumptions C47_one_partial.

(** a component that answers with an error is forgotten when a later one succeeds *)
Theorem C47_forgotten_refuted : exists E w l w' vs n, connected E /\ api_codes E /\ gets_work E /\ (forall n, In n l -> wild n = false) /\
  get_many E w l = (w', E_SUCCESS, vs) /\ In n l /\ ~ In n (map fst vs).
Proof.
  exists (env0 all_ok all_ok always), world0, [bs "P.a"; bs "P.w"; bs "Q.a"]. eexists _, _, (bs "P.a"). split; [intros k; reflexivity|]. split; [apply api_ok|]. split; [intros k; reflexivity|].
  split; [intros n [<-|[<-|[<-|[]]]]; reflexivity|]. split; [vm_compute; reflexivity|]. split; [now left|]. cbn. intuition discriminate.
Qed.
Print Assumptions C47_forgotten_refuted.
(** a wildcard among several names hides the other parameters of its component *)
Theorem C47_wildcard_refuted : exists E w l w' vs n, connected E /\ gets_work E /\ (forall c m, fst (walk E c m) = E_SUCCESS) /\ (forall n, In n l -> exists c, owner E n = Some c /\ (wild n = true \/ readable E c n = true)) /\
  get_many E w l = (w', E_SUCCESS, vs) /\ In n l /\ wild n = false /\ ~ In n (map fst vs).
Proof.
  exists (mkEnv (bs "me") own el all_ok all_ok always (fun _ _ => (E_SUCCESS, [(bs "P.1.a", Some 1)]))), world0, [bs "P.a"; bs "P.1."]. eexists _, _, (bs "P.a"). split; [intros k; reflexivity|]. split; [intros k; reflexivity|]. split; [reflexivity|].
  split; [intros n [<-|[<-|[]]]; exists (bs "P"); split; auto|]. split; [vm_compute; reflexivity|]. split; [now left|]. split; [reflexivity|]. cbn. intuition discriminate.
Qed.
Print Assumptions C47_wildcard_refuted.
Example C47_witness : exists w', get_many (env0 all_ok all_ok always) world0 [bs "P.a"; bs "Q.a"; bs "P.b"] = (w', E_SUCCESS, [(bs "P.a", Some 1); (bs "P.b", Some 1); (bs "Q.a", Some 1)]) /\
  log w' = [GetReq (bs "P") (bs "P") [bs "P.a"; bs "P.b"]; GetReq (bs "Q") (bs "Q") [bs "Q.a"]].
Proof. eexists. split; vm_compute; reflexivity. Qed.

(** ** C67 *)
(** Every provider asked to set something, also while restoring, is told the name of the caller. *)
Theorem C67_set : forall E w num l commit named w' r f, set_multi E w num l commit named = (w', r, f) -> forallb (told (me E)) (since w w') = true.
Proof.
  intros E w num l commit named w' r f R. apply multi_log in R as (es & A & B & _); [|apply undo_quiet]. unfold since. now rewrite A, skipn_app, skipn_all, Nat.sub_diag.
Qed.
Print Assumptions C67_set.
(** So is a provider asked for one parameter, or for a wildcard query. *)
Theorem C67_get_partial : forall E w n, (forall w' r vs, get_one E w n = (w', r, vs) -> forallb (told (me E)) (since w w') = true) /\
  (forall ret ds w' code ret' count, get_wild E w n ret ds = Ok (w', code, ret', count) -> forallb (told (me E)) (since w w') = true).
Proof.
  intros E w n. split.
  - intros w' r vs R. unfold get_one in R. destruct (owner E n) as [c|]; [|injection R as <- _ _; unfold since; now rewrite skipn_all].
    destruct (request_get E w c (me E) [n]) as [w1 a] eqn:RQ. apply request_get_log in RQ as (L & _). assert (w' = w1) by (destruct a as [[rr ws]|]; [destruct (parse rr ws)|]; congruence). subst w'.
    unfold since. rewrite L, skipn_app, skipn_all, Nat.sub_diag. cbn [app skipn forallb told]. now rewrite bytes_eqb_refl.
  - intros ret ds w' code ret' count R. unfold get_wild in R.
    assert (G : forall ds w first ret last count code w1 code1 ret1 count1, wild_loop E w n first ret last count code ds = Ok (w1, code1, ret1, count1) -> exists es, log w1 = log w ++ es /\ forallb (told (me E)) es = true).
    { clear. induction ds as [|d ds IH]; intros w first ret last count code w1 code1 ret1 count1 R; cbn [wild_loop] in R; [injection R as <- _ _ _; exists []; now rewrite app_nil_r|].
      destruct (request_get E w d (me E) [n]) as [w2 a] eqn:RQ. apply request_get_log in RQ as (L & _).
      assert (ONE : exists es, log w2 = log w ++ es /\ forallb (told (me E)) es = true) by (exists [GetReq d (me E) [n]]; split; [exact L|cbn [forallb told]; now rewrite bytes_eqb_refl]).
      assert (MORE : forall first ret last count code, wild_loop E w2 n first ret last count code ds = Ok (w1, code1, ret1, count1) -> exists es, log w1 = log w ++ es /\ forallb (told (me E)) es = true).
      { intros f0 r0 l0 c0 k0 R0. apply IH in R0 as (es & A & B). exists (GetReq d (me E) [n] :: es). rewrite A, L, <- app_assoc. split; [reflexivity|]. cbn [forallb told]. now rewrite bytes_eqb_refl. }
      destruct a as [[rr ws]|]; [|injection R as <- _ _ _; exact ONE]. destruct (parse rr ws) as [cd vs]. destruct (negb (cd =? E_SUCCESS)); [injection R as <- _ _ _; exact ONE|].
      destruct vs as [|v vs]; [eauto|]. destruct first; [eauto|]. destruct last as [[[|] l0]|]; [eauto|discriminate|eauto]. }
    destruct (wild_loop E w n true ret None 0 E_SUCCESS ds) as [[[[w1 code1] ret1] count1]| |] eqn:W; [|discriminate|discriminate]. cbn [obind] in R. injection R as <- _ _ _.
    apply G in W as (es & A & B). unfold since. now rewrite A, skipn_app, skipn_all, Nat.sub_diag.
Qed.
Print Assumptions C67_get_partial.
(** with several parameters each provider is told its own name instead *)
Theorem C67_several_refuted : forall E w l w' r vs e, get_many E w l = (w', r, vs) -> In e (since w w') -> exists c ns, e = GetReq c c ns.
Proof.
  intros E w l w' r vs e R I. unfold get_many in R. destruct (owned_n E l) as [o|] eqn:OW; [|injection R as <- _ _; unfold since in I; rewrite skipn_all in I; destruct I].
  apply (get_batches_log E (fun c => mine_n c o)) in R as (_ & k & _ & L & _); [|lia|reflexivity]. unfold since in I. rewrite L, skipn_app, skipn_all, Nat.sub_diag in I. cbn [app skipn] in I.
  apply in_map_iff in I as (c & <- & _). eauto.
Qed.
Print Assumptions C67_several_refuted.
Example C67_witness : exists w' r f, set_multi (env0 (refuse 3) all_ok always) world0 3 [(bs "P.a", Some 2); (bs "P.b", Some 3); (bs "Q.a", Some 4)] true true = (w', r, f) /\ (length (since world0 w') >= 4)%nat /\
  exists w2 r2 vs, get_many (env0 all_ok all_ok always) world0 [bs "P.a"; bs "Q.a"] = (w2, r2, vs) /\ forallb (told (bs "me")) (since world0 w2) = false.
Proof. eexists _, _, _. split; [vm_compute; reflexivity|]. split; [vm_compute; lia|]. eexists _, _, _. split; vm_compute; reflexivity. Qed.

(** ** C68 *)
(** When the first component has something for the query, the result is usable, holds what the
    components asked so far have, in order, and the count is its length; all of them are in it when
    every component answers. *)
Theorem C68_result_partial : forall E w n ret d ds, wild n = true -> fates E (sent w) = Arrives -> found E n d <> [] ->
  exists w' k, get_wild E w n ret (d :: ds) = Ok (w', E_SUCCESS, Some (true, flat_map (found E n) (firstn k (d :: ds))), Z.of_nat (length (flat_map (found E n) (firstn k (d :: ds))))) /\
   (1 <= k <= length (d :: ds))%nat /\ (connected E -> (forall c, In c (d :: ds) -> fst (walk E c n) = E_SUCCESS) -> k = length (d :: ds)).
Proof.
  intros E w n ret d ds W A F. unfold get_wild. cbn [wild_loop]. destruct (request_get E w d (me E) [n]) as [w1 a] eqn:RQ. apply request_get_wild in RQ; [|exact W]. destruct RQ as [[-> NA] | -> ]; [contradiction|].
  assert (G : fst (walk E d n) = E_SUCCESS). { unfold found in F. destruct (Z.eqb_spec (fst (walk E d n)) E_SUCCESS) as [Q|Q]; [exact Q|now contradict F]. }
  unfold parse. rewrite G. cbn [good E_SUCCESS Z.eqb orb negb]. destruct (found E n d) as [|v vs] eqn:FD; [contradiction|].
  destruct (wild_loop_good E n W ds w1 (v :: vs) (0 + Z.of_nat (length (v :: vs)))) as (w' & code & k & Q & KL & K). rewrite Q. cbn [obind is_some andb].
  exists w', (S k). cbn [firstn flat_map]. rewrite FD. split; [|split; [cbn [length]; lia|]].
  - rewrite app_length. replace (0 + Z.of_nat (length (v :: vs)) + Z.of_nat (length (flat_map (found E n) (firstn k ds)))) with (Z.of_nat (length (v :: vs) + length (flat_map (found E n) (firstn k ds)))) by lia.
    destruct (Z.eqb_spec code E_SUCCESS) as [Q2|Q2]; [rewrite Q2|]; reflexivity.
  - intros CO H. cbn [length]. f_equal. apply K; [exact CO|]. intros c C. apply H. now right.
Qed.
Print Assumptions C68_result_partial.
(** a component that fails after the first is not reported *)
Theorem C68_incomplete_refuted : exists E w n ds w' vs count c, connected E /\ get_wild E w n None ds = Ok (w', E_SUCCESS, Some (true, vs), count) /\ In c ds /\ fst (walk E c n) <> E_SUCCESS.
Proof.
  exists (mkEnv (bs "me") own el all_ok all_ok always (fun c n => if bytes_eqb c (bs "P") then (E_SUCCESS, [(bs "D.1.a", Some 1)]) else (E_BUS_ERROR, []))), world0, (bs "D."), [bs "P"; bs "Q"]. eexists _, _, _, (bs "Q").
  split; [intros k; reflexivity|]. split; [vm_compute; reflexivity|]. split; [right; now left|]. discriminate.
Qed.
Print Assumptions C68_incomplete_refuted.
(** when the first component has nothing the result has been released, and a third component's part is added to it *)
Theorem C68_released_refuted : exists E w n, connected E /\ (forall c, fst (walk E c n) = E_SUCCESS) /\
  (exists ds w' vs count, get_wild E w n None ds = Ok (w', E_SUCCESS, Some (false, vs), count)) /\ (exists ds, get_wild E w n None ds = UB).
Proof.
  exists (mkEnv (bs "me") own el all_ok all_ok always (fun c n => if bytes_eqb c (bs "P") then (E_SUCCESS, []) else (E_SUCCESS, [(bs "D.1.a", Some 1)]))), world0, (bs "D.").
  split; [intros k; reflexivity|]. split; [intros c; cbn [walk]; now destruct (bytes_eqb c (bs "P"))|]. split; [|exists [bs "P"; bs "Q"; bs "R"]; vm_compute; reflexivity].
  exists [bs "P"; bs "Q"]. eexists _, _, _. vm_compute. reflexivity.
Qed.
Print Assumptions C68_released_refuted.
(** when the first component fails, whether the call fails depends on what the caller's variable held *)
Theorem C68_stale_refuted : exists E w n ds stale w' w2 r, connected E /\ get_wild E w n None ds = Ok (w2, r, None, 0) /\ r <> E_SUCCESS /\ get_wild E w n (Some stale) ds = Ok (w', E_SUCCESS, Some stale, 0).
Proof.
  exists (mkEnv (bs "me") own el all_ok all_ok always (fun c n => (E_BUS_ERROR, []))), world0, (bs "D."), [bs "P"], (false, []). eexists _, _, _. split; [intros k; reflexivity|]. split; [vm_compute; reflexivity|]. split; [discriminate|vm_compute; reflexivity].
Qed.
Print Assumptions C68_stale_refuted.
Example C68_witness : exists w', get_wild (mkEnv (bs "me") own el all_ok all_ok always (fun c n => (E_SUCCESS, [(c ++ bs ".1.a", Some 1)]))) world0 (bs "D.") None [bs "P"; bs "Q"; bs "R"] =
  Ok (w', E_SUCCESS, Some (true, [(bs "P.1.a", Some 1); (bs "Q.1.a", Some 1); (bs "R.1.a", Some 1)]), 3) /\ wild (bs "D.") = true /\ wild (bs "D.*.a") = true.
Proof. eexists. split; [vm_compute; reflexivity|]. split; reflexivity. Qed.
