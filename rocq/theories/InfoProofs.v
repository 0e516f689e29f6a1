(** Facts about the memory of element information. *)
From Verif Require Import Common InfoModel InfoSpec.
Local Open Scope nat_scope.

Lemma upd_length {A} (l : list A) : forall i x, length (upd l i x) = length l.
Proof. induction l as [|y l IH]; intros [|i] x; cbn; auto. Qed.
Lemma upd_app {A} (l r : list A) : forall i x, i < length l -> upd (l ++ r) i x = upd l i x ++ r.
Proof. induction l as [|y l IH]; intros [|i] x H; cbn in *; try lia; [reflexivity|]. rewrite IH by lia. reflexivity. Qed.
Lemma upd_at {A} (l r : list A) y x : upd (l ++ y :: r) (length l) x = l ++ x :: r.
Proof. induction l as [|z l IH]; cbn; [reflexivity|]. rewrite IH. reflexivity. Qed.
Lemma upd_twice {A} (l : list A) : forall i x y, upd (upd l i x) i y = upd l i y.
Proof. induction l as [|z l IH]; intros [|i] x y; cbn; try reflexivity. rewrite IH. reflexivity. Qed.
Lemma nth_upd {A} (l : list A) : forall i j x, nth_error (upd l i x) j = if Nat.eqb i j then (if Nat.ltb i (length l) then Some x else None) else nth_error l j.
Proof.
  induction l as [|y l IH]; intros [|i] [|j] x; cbn [upd nth_error length Nat.eqb]; try reflexivity.
  - destruct (Nat.eqb i j); reflexivity.
  - rewrite IH. destruct (Nat.eqb i j); [|reflexivity]. change (Nat.ltb (S i) (S (length l))) with (Nat.ltb i (length l)). reflexivity.
Qed.
Lemma nth_ext_error {A} (l r : list A) : (forall i, nth_error l i = nth_error r i) -> l = r.
Proof.
  revert r; induction l as [|x l IH]; intros [|y r] H; [reflexivity|specialize (H 0); discriminate|specialize (H 0); discriminate|].
  pose proof (H 0) as H0. cbn in H0. injection H0 as ->. f_equal. apply IH. intros i. apply (H (S i)).
Qed.

Lemma F2_length {A B} (R : A -> B -> Prop) l r : Forall2 R l r -> length l = length r.
Proof. induction 1; cbn; congruence. Qed.

Definition pairs (ns : list node) : list (option nat * option nat) := map (fun n => (n_name n, n_comp n)) ns.
Definition SS (p : nat * nat) : option nat * option nat := (Some (fst p), Some (snd p)).
Definition addrs (ps : list (nat * nat)) : list nat := flat_map (fun p => [fst p; snd p]) ps.
Definition at_ (h : heap) (p : nat * nat) (it : list Z * list Z) : Prop := nth_error h (fst p) = Some (Str (fst it)) /\ nth_error h (snd p) = Some (Str (snd it)).
Fixpoint nexts (b i n : nat) : list nextp := match n with 0 => [] | S n => (match n with 0 => Null | _ => At b (S i) end) :: nexts b (S i) n end.
Fixpoint fresh (a n : nat) : list (nat * nat) := match n with 0 => [] | S n => (a, S a) :: fresh (S (S a)) n end.
Fixpoint filled (a : nat) (l : list node) : list node := match l with [] => [] | n :: l => mkNode (Some a) (Some (S a)) (n_next n) :: filled (S (S a)) l end.
Definition texts (comp : list Z) (names : list (list Z)) : heap := flat_map (fun s => [Str s; Str comp]) names.

Lemma link_nexts b l : forall i, map n_next (link b i l) = nexts b i (length l).
Proof. induction l as [|n l IH]; intros i; cbn [link map nexts length n_next]; [reflexivity|]. rewrite IH. destruct l; reflexivity. Qed.
Lemma link_pairs b l : forall i, pairs (link b i l) = pairs l.
Proof. induction l as [|n l IH]; intros i; cbn; [reflexivity|]. f_equal. apply IH. Qed.
Lemma link_length b l : forall i, length (link b i l) = length l.
Proof. induction l as [|n l IH]; intros i; cbn; [reflexivity|]. f_equal. apply IH. Qed.
Lemma filled_next l : forall a, map n_next (filled a l) = map n_next l.
Proof. induction l as [|n l IH]; intros a; cbn; [reflexivity|]. f_equal. apply IH. Qed.
Lemma filled_pairs l : forall a, pairs (filled a l) = map SS (fresh a (length l)).
Proof. induction l as [|n l IH]; intros a; cbn; [reflexivity|]. f_equal. apply IH. Qed.
Lemma addrs_fresh n : forall a, addrs (fresh a n) = seq a (2 * n).
Proof.
  induction n as [|n IH]; intros a; [reflexivity|]. replace (2 * S n) with (S (S (2 * n))) by lia. cbn [fresh addrs flat_map fst snd app seq].
  unfold addrs in IH. rewrite IH. reflexivity.
Qed.
Lemma texts_length c names : length (texts c names) = 2 * length names.
Proof. induction names as [|s names IH]; cbn; [reflexivity|]. unfold texts in IH. rewrite IH. lia. Qed.
Lemma fresh_at comp names : forall h, Forall2 (at_ (h ++ texts comp names)) (fresh (length h) (length names)) (map (fun s => (s, comp)) names).
Proof.
  induction names as [|s names IH]; intros h; cbn [fresh length map texts flat_map app]; [constructor|]. constructor.
  - split; cbn [fst snd]; [rewrite nth_error_app2, Nat.sub_diag by lia; reflexivity|].
    rewrite nth_error_app2 by lia. replace (S (length h) - length h) with 1 by lia. reflexivity.
  - specialize (IH (h ++ [Str s; Str comp])). rewrite app_length in IH. cbn [length] in IH. replace (length h + 2) with (S (S (length h))) in IH by lia.
    rewrite <- app_assoc in IH. exact IH.
Qed.

Lemma fill_first comp n : forall names h b i, fill h b i comp n names = fill h b i comp n (firstn n names).
Proof.
  induction n as [|n IH]; intros names h b i; [reflexivity|]. destruct names as [|s names]; [reflexivity|]. cbn [firstn fill alloc]. destruct (nodes_at _ b) as [l| |]; try reflexivity. cbn [obind].
  destruct (nth_error l i); [|reflexivity]. apply IH.
Qed.
Lemma fill_ok comp names : forall h b pre rest, nth_error h b = Some (Nodes (pre ++ rest)) -> length rest = length names ->
  fill h b (length pre) comp (length names) names = Ok (upd h b (Nodes (pre ++ filled (length h) rest)) ++ texts comp names).
Proof.
  induction names as [|s names IH]; intros h b pre rest N L.
  - destruct rest; [|discriminate]. cbn. rewrite app_nil_r. f_equal. apply nth_ext_error. intros i. rewrite nth_upd.
    destruct (Nat.eqb_spec b i) as [<-|]; [|reflexivity]. rewrite N. rewrite app_nil_r.
    assert (B : b < length h) by (apply nth_error_Some; congruence). apply Nat.ltb_lt in B. rewrite B. reflexivity.
  - destruct rest as [|n rest]; [discriminate|]. cbn [length] in L.
    assert (B : b < length h) by (apply nth_error_Some; congruence).
    cbn [fill length alloc]. unfold nodes_at. rewrite <- app_assoc, nth_error_app1 by exact B. rewrite N. cbn [obind app].
    rewrite nth_error_app2, Nat.sub_diag by lia. cbn [nth_error].
    rewrite upd_at.
    assert (E1 : length (h ++ [Str s]) = S (length h)) by (rewrite app_length; cbn; lia). rewrite ?E1.
    set (n1 := mkNode (Some (length h)) (Some (S (length h))) (n_next n)).
    specialize (IH (upd (h ++ [Str s; Str comp]) b (Nodes (pre ++ n1 :: rest))) b (pre ++ [n1]) rest).
    assert (E2 : length (pre ++ [n1]) = S (length pre)) by (rewrite app_length; cbn; lia). rewrite E2 in IH.
    rewrite IH; [|rewrite nth_upd, Nat.eqb_refl, <- app_assoc|lia].
    + rewrite upd_twice, upd_length, upd_app by exact B. rewrite app_length. cbn [length filled texts flat_map].
      rewrite <- !app_assoc. cbn [app]. replace (length h + 2) with (S (S (length h))) by lia. reflexivity.
    + replace (Nat.ltb b (length (h ++ [Str s; Str comp]))) with true; [reflexivity|].
      symmetry. apply Nat.ltb_lt. rewrite app_length. lia.
Qed.

(** What is held. *)
Definition holds (h0 h : heap) (e : option nat) (count : nat) (items : list (list Z * list Z)) : Prop :=
  length h0 <= length h /\ (forall i, i < length h0 -> nth_error h i = nth_error h0 i) /\ count = length items /\
  match e with
  | None => items = [] /\ forall i, length h0 <= i < length h -> nth_error h i = Some Freed
  | Some b => exists ns ps, nth_error h b = Some (Nodes ns) /\ ns <> [] /\ length h0 <= b /\ map n_next ns = nexts b 0 (length ns) /\ pairs ns = map SS ps /\
    Forall2 (at_ h) ps items /\ NoDup (addrs ps) /\ Forall (fun a => length h0 <= a) (addrs ps) /\
    forall i, length h0 <= i < length h -> i = b \/ In i (addrs ps) \/ nth_error h i = Some Freed
  end.

Lemma at_below h ps items : Forall2 (at_ h) ps items -> forall a, In a (addrs ps) -> exists s, nth_error h a = Some (Str s).
Proof.
  induction 1 as [|p it ps items [A B] F IH]; intros a H; [destruct H|]. cbn in H. destruct H as [<-|[<-|H]]; eauto.
Qed.
Lemma at_keep h h' ps items : (forall a s, In a (addrs ps) -> nth_error h a = Some (Str s) -> nth_error h' a = Some (Str s)) -> Forall2 (at_ h) ps items -> Forall2 (at_ h') ps items.
Proof.
  intros K F. induction F as [|p it ps items [A B] F IH]; constructor.
  - split; apply K; auto; cbn; auto.
  - apply IH. intros a s H. apply K. cbn. auto.
Qed.
Lemma addrs_app a b : addrs (a ++ b) = addrs a ++ addrs b.
Proof. apply flat_map_app. Qed.

(** adding a provider's names behind what [h] holds, in a new block *)
Lemma add_ok h0 h ns ps items comp names : length h0 <= length h -> names <> [] -> (forall i, i < length h0 -> nth_error h i = nth_error h0 i) ->
  pairs ns = map SS ps -> Forall2 (at_ h) ps items -> NoDup (addrs ps) -> Forall (fun a => length h0 <= a) (addrs ps) ->
  (forall i, length h0 <= i < length h -> In i (addrs ps) \/ nth_error h i = Some Freed) ->
  exists h', fill (h ++ [Nodes (link (length h) 0 (ns ++ repeat (mkNode None None Wild) (length names)))]) (length h) (length items) comp (length names) names = Ok h' /\
  holds h0 h' (Some (length h)) (length items + length names) (items ++ map (fun s => (s, comp)) names).
Proof.
  intros L0 NN K P F ND AB CV. set (b := length h). set (w := repeat (mkNode None None Wild) (length names)). set (l := link b 0 (ns ++ w)).
  assert (Ln : length ns = length items).
  { apply F2_length in F. rewrite <- F. apply (f_equal (@length _)) in P. unfold pairs in P. rewrite !map_length in P. exact P. }
  set (pre := firstn (length ns) l). set (rest := skipn (length ns) l).
  assert (Ll : length l = length ns + length names) by (unfold l, w; rewrite link_length, app_length, repeat_length; reflexivity).
  assert (Lp : length pre = length items) by (unfold pre; rewrite firstn_length; lia).
  assert (Lr : length rest = length names) by (unfold rest; rewrite skipn_length; lia).
  assert (El : l = pre ++ rest) by (unfold pre, rest; symmetry; apply firstn_skipn).
  rewrite El, <- Lp. rewrite (fill_ok comp names (h ++ [Nodes (pre ++ rest)]) b pre rest);
    [|unfold b; rewrite nth_error_app2, Nat.sub_diag by lia; reflexivity|exact Lr].
  eexists. split; [reflexivity|]. unfold b at 1. rewrite upd_at. fold b. rewrite app_length. cbn [length]. fold b.
  replace (b + 1) with (S b) by lia. set (ns' := pre ++ filled (S b) rest).
  assert (Hh : forall i, i < b -> nth_error ((h ++ [Nodes ns']) ++ texts comp names) i = nth_error h i).
  { intros i Hi. rewrite <- app_assoc. apply nth_error_app1. exact Hi. }
  assert (Pp : pairs pre = map SS ps).
  { rewrite <- P. unfold pairs, pre. rewrite <- firstn_map. change (map (fun n => (n_name n, n_comp n)) l) with (pairs l).
    unfold l. rewrite link_pairs. unfold pairs. rewrite map_app, firstn_app, map_length, Nat.sub_diag, firstn_O, app_nil_r. apply firstn_all2. rewrite map_length. lia. }
  assert (Old : forall a, In a (addrs ps) -> a < b).
  { intros a Ha. destruct (at_below _ _ _ F a Ha) as [s E]. apply nth_error_Some. unfold heap in *. congruence. }
  split; [rewrite !app_length; lia|]. split; [intros i Hi; rewrite Hh by (unfold b; lia); apply K, Hi|].
  split; [rewrite app_length, map_length; lia|].
  exists ns', (ps ++ fresh (S b) (length names)).
  split; [rewrite <- app_assoc; rewrite nth_error_app2 by (unfold b; lia); unfold b; rewrite Nat.sub_diag; reflexivity|].
  split; [unfold ns'; intros E; apply app_eq_nil in E; destruct E as [_ E]; destruct rest; [destruct names; [congruence|discriminate]|discriminate]|].
  split; [exact L0|].
  assert (Ln' : length ns' = length l).
  { rewrite El. unfold ns'. rewrite !app_length. f_equal. pose proof (f_equal (@length _) (filled_next rest (S b))) as E. rewrite !map_length in E. exact E. }
  split; [unfold ns' at 1; rewrite map_app, filled_next, <- map_app, <- El, Ln'; unfold l; rewrite link_nexts, link_length; reflexivity|].
  split; [unfold ns', pairs; rewrite map_app; fold (pairs pre); fold (pairs (filled (S b) rest)); rewrite Pp, filled_pairs, Lr, map_app; reflexivity|].
  split.
  { apply Forall2_app.
    - apply (at_keep h); [|exact F]. intros a s Ha E. rewrite Hh by (apply Old, Ha). exact E.
    - pose proof (fresh_at comp names (h ++ [Nodes ns'])) as FA. rewrite app_length in FA. cbn [length] in FA. fold b in FA. replace (b + 1) with (S b) in FA by lia. exact FA. }
  rewrite addrs_app, addrs_fresh.
  split.
  { clear - ND Old. induction (addrs ps) as [|a q IH]; cbn [app]; [apply seq_NoDup|]. inversion ND; subst. constructor.
    - rewrite in_app_iff. intros [X|X]; [contradiction|]. apply in_seq in X. specialize (Old a (or_introl eq_refl)). lia.
    - apply IH; [assumption|]. intros x Hx. apply Old. right. exact Hx. }
  split.
  { apply Forall_app. split; [exact AB|]. apply Forall_forall. intros a Ha. apply in_seq in Ha. unfold b in Ha. lia. }
  intros i [Hi1 Hi2]. rewrite !app_length in Hi2. rewrite texts_length in Hi2. cbn [length] in Hi2. fold b in Hi2.
  destruct (Nat.lt_trichotomy i b) as [C|[C|C]].
  - destruct (CV i) as [D|D]; [unfold b in C; lia|right; left; apply in_app_iff; left; exact D|right; right; rewrite Hh by exact C; exact D].
  - left. exact C.
  - right. left. apply in_app_iff. right. apply in_seq. lia.
Qed.

Lemma merge_ok h0 g x items : honest [x] -> holds h0 (g_heap g) (g_elem g) (g_count g) items ->
  exists g', merge g x = Ok g' /\ holds h0 (g_heap g') (g_elem g') (g_count g') (items ++ listing [x]).
Proof.
  intros HN H. unfold listing. cbn [map concat]. rewrite app_nil_r. unfold merge. destruct x as [comp [err|code count names]]; cbn [fst snd].
  { eexists. split; [reflexivity|]. rewrite app_nil_r. exact H. }
  destruct (Z.eqb_spec code 0) as [-> |N]; [|eexists; split; [reflexivity|]; rewrite app_nil_r; exact H].
  destruct (Z.ltb_spec 0 count) as [CP|CP]; [|replace (Z.to_nat count) with 0 by lia; eexists; split; [reflexivity|]; cbn [map firstn]; rewrite app_nil_r; exact H].
  specialize (HN _ _ _ _ (or_introl eq_refl) eq_refl eq_refl).
  set (nl := firstn (Z.to_nat count) names). assert (Ec : Z.to_nat count = length nl) by (unfold nl; rewrite firstn_length; lia).
  assert (NN : nl <> []) by (intros X; rewrite X in Ec; cbn in Ec; lia).
  assert (FF : forall h b i, fill h b i comp (Z.to_nat count) names = fill h b i comp (length nl) nl) by (intros; rewrite fill_first; fold nl; rewrite Ec; reflexivity).
  rewrite Ec. clearbody nl. rewrite Ec in FF.
  destruct H as (L0 & K & C & H). destruct g as [h e cnt cd]. cbn [g_heap g_elem g_count] in *. subst cnt. destruct e as [b|]; cbn [grow].
  - destruct H as (ns & ps & N & NE & B0 & LK & P & F & ND & AB & CV). unfold nodes_at at 1. rewrite N. cbn [obind]. unfold free. rewrite N. cbn [obind alloc].
    assert (Lb : b < length h) by (apply nth_error_Some; unfold heap in *; congruence).
    unfold nodes_at. rewrite nth_error_app2, Nat.sub_diag by lia. cbn [nth_error obind]. rewrite upd_at.
    assert (NB : ~ In b (addrs ps)) by (intros X; destruct (at_below _ _ _ F b X) as [q E]; unfold heap in *; congruence).
    destruct (add_ok h0 (upd h b Freed) ns ps items comp nl) as (h' & E & G); try assumption.
    + rewrite upd_length. exact L0.
    + intros i Hi. rewrite nth_upd. destruct (Nat.eqb_spec b i); [lia|apply K, Hi].
    + apply (at_keep h); [|exact F]. intros a q Ha E. rewrite nth_upd. destruct (Nat.eqb_spec b a); [congruence|exact E].
    + rewrite upd_length. intros i Hi. rewrite nth_upd. destruct (Nat.eqb_spec b i) as [<-|Ni].
      * right. apply Nat.ltb_lt in Lb. rewrite Lb. reflexivity.
      * destruct (CV i Hi) as [D|[D|D]]; [congruence|left; exact D|right; exact D].
    + rewrite FF, E. cbn [obind]. eexists. split; [reflexivity|]. exact G.
  - destruct H as [-> CV]. cbn [obind alloc]. unfold nodes_at. rewrite nth_error_app2, Nat.sub_diag by lia. cbn [nth_error obind]. rewrite upd_at.
    destruct (add_ok h0 h [] [] [] comp nl) as (h' & E & G); try assumption; try reflexivity; try solve [constructor].
    + intros i Hi. right. apply CV, Hi.
    + cbn [app length] in E. cbn [length]. rewrite FF, E. cbn [obind]. eexists. split; [reflexivity|]. exact G.
Qed.

Lemma merges_ok h0 l : forall g items, honest l -> holds h0 (g_heap g) (g_elem g) (g_count g) items ->
  exists g', merges g l = Ok g' /\ holds h0 (g_heap g') (g_elem g') (g_count g') (items ++ listing l).
Proof.
  induction l as [|x l IH]; intros g items HN H; cbn [merges].
  - exists g. split; [reflexivity|]. unfold listing. cbn. rewrite app_nil_r. exact H.
  - destruct (merge_ok h0 g x items ltac:(intros y c k q [<-|[]]; apply HN; left; reflexivity) H) as (g1 & E & H1). rewrite E. cbn [obind]. destruct (IH g1 _ ltac:(intros y c k q Hy; apply HN; right; exact Hy) H1) as (g2 & E2 & H2). exists g2. split; [exact E2|].
    rewrite <- app_assoc in H2. unfold listing in *. cbn [map concat] in *. rewrite app_nil_r in H2. exact H2.
Qed.

Lemma start_holds h0 : holds h0 h0 None 0 [].
Proof. repeat split; auto. intros i Hi. lia. Qed.

Lemma walk_ok h b : forall rest pre ps items fuel, nth_error h b = Some (Nodes (pre ++ rest)) -> map n_next rest = nexts b (length pre) (length rest) ->
  pairs rest = map SS ps -> Forall2 (at_ h) ps items -> length rest <= fuel ->
  walk fuel h (match rest with [] => Null | _ => At b (length pre) end) = Ok items.
Proof.
  induction rest as [|n rest IH]; intros pre ps items fuel N M P F L.
  - destruct ps; [|discriminate]. inversion F; subst. destruct fuel; reflexivity.
  - destruct fuel as [|fuel]; [cbn in L; lia|]. cbn [length] in L. destruct ps as [|p ps]; [discriminate|]. cbn in P. injection P as P1 P2 P3.
    inversion F as [|? it ? items' [A B] F']; subst. cbn [walk]. unfold nodes_at. rewrite N. cbn [obind]. rewrite nth_error_app2, Nat.sub_diag by lia. cbn [nth_error].
    rewrite P1, P2. cbn [str_at]. rewrite A, B. cbn [obind]. cbn [map length nexts] in M. injection M as M1 M2. rewrite M1.
    specialize (IH (pre ++ [n]) ps items' fuel). rewrite <- app_assoc, app_length in IH. cbn [length app] in IH. replace (length pre + 1) with (S (length pre)) in IH by lia.
    destruct rest as [|m rest]; cbn [length]; rewrite IH; try assumption; try lia; destruct it; reflexivity.
Qed.

Lemma free_ok b : forall rest pre ps items fuel h, nth_error h b = Some (Nodes (pre ++ rest)) -> map n_next rest = nexts b (length pre) (length rest) ->
  pairs rest = map SS ps -> Forall2 (at_ h) ps items -> NoDup (addrs ps) -> length rest <= fuel ->
  exists h', free_each fuel h (match rest with [] => Null | _ => At b (length pre) end) = Ok h' /\ length h' = length h /\
  forall i, (In i (addrs ps) -> nth_error h' i = Some Freed) /\ (~ In i (addrs ps) -> nth_error h' i = nth_error h i).
Proof.
  induction rest as [|n rest IH]; intros pre ps items fuel h N M P F ND L.
  - destruct ps; [|discriminate]. exists h. split; [destruct fuel; reflexivity|]. split; [reflexivity|]. intros i. split; [intros []|reflexivity].
  - destruct fuel as [|fuel]; [cbn in L; lia|]. cbn [length] in L. destruct ps as [|[a c] ps]; [discriminate|]. cbn in P. injection P as P1 P2 P3.
    inversion F as [|? it ? items' [A B] F']; subst. cbn [fst snd] in *. cbn [free_each]. unfold nodes_at. rewrite N. cbn [obind]. rewrite nth_error_app2, Nat.sub_diag by lia. cbn [nth_error].
    destruct n as [nm cm nx]. cbn [n_name n_comp] in P1, P2. subst nm cm.
    cbn [addrs flat_map fst snd app] in ND. fold (addrs ps) in ND. inversion ND as [|? ? Na ND1]; subst. inversion ND1 as [|? ? Nc ND2]; subst.
    assert (La : a < length h) by (apply nth_error_Some; congruence). assert (Lc : c < length h) by (apply nth_error_Some; congruence).
    assert (NAC : a <> c) by (intros ->; apply Na; left; reflexivity).
    unfold free at 1. rewrite A. cbn [obind]. unfold free. rewrite nth_upd. destruct (Nat.eqb_spec a c); [contradiction|]. rewrite B. cbn [obind].
    cbn [map length nexts n_next] in M. injection M as M1 M2. subst nx.
    set (h1 := upd (upd h a Freed) c Freed).
    assert (H1 : forall i, i <> a -> i <> c -> nth_error h1 i = nth_error h i).
    { intros i Xa Xc. unfold h1. rewrite nth_upd. destruct (Nat.eqb_spec c i); [congruence|]. rewrite nth_upd. destruct (Nat.eqb_spec a i); [congruence|reflexivity]. }
    specialize (IH (pre ++ [mkNode (Some a) (Some c) (match length rest with 0 => Null | _ => At b (S (length pre)) end)]) ps items' fuel h1).
    rewrite <- app_assoc, app_length in IH. cbn [length app] in IH. replace (length pre + 1) with (S (length pre)) in IH by lia.
    destruct IH as (h' & E & L' & Q); try assumption; try lia.
    + rewrite H1; [exact N|intros ->; congruence|intros ->; congruence].
    + apply (at_keep h); [|exact F']. intros x s Hx E. rewrite H1; [exact E|intros ->; apply Na; right; exact Hx|intros ->; contradiction].
    + exists h'. split; [destruct rest; exact E|]. split; [rewrite L'; unfold h1; rewrite !upd_length; reflexivity|].
      intros i. destruct (Q i) as [Q1 Q2]. destruct (in_dec Nat.eq_dec i (addrs ps)) as [I|I].
      * split; [auto|]. intros X. exfalso. apply X. right. right. exact I.
      * rewrite (Q2 I). split.
        { intros X. change (a = i \/ c = i \/ In i (addrs ps)) in X. unfold h1. rewrite nth_upd, upd_length. destruct (Nat.eqb_spec c i) as [<-|Nci].
          - apply Nat.ltb_lt in Lc. rewrite Lc. reflexivity.
          - destruct X as [X|[X|X]]; [|congruence|contradiction]. rewrite nth_upd. rewrite <- X, Nat.eqb_refl. apply Nat.ltb_lt in La. rewrite La. reflexivity. }
        { intros X. apply H1; intros ->; apply X; [left|right; left]; reflexivity. }
Qed.

Lemma free_all h0 h b count items fuel : holds h0 h (Some b) count items -> length items <= fuel -> exists h', free_info fuel h (Some b) = Ok h' /\ returned h0 h'.
Proof.
  intros (L0 & K & C & ns & ps & N & NE & B0 & LK & P & F & ND & AB & CV) L.
  assert (Ln : length ns = length items).
  { apply F2_length in F. rewrite <- F. apply (f_equal (@length _)) in P. unfold pairs in P. rewrite !map_length in P. exact P. }
  destruct (free_ok b ns [] ps items fuel h N LK P F ND ltac:(lia)) as (h1 & E & L1 & Q). destruct ns as [|n ns]; [congruence|]. cbn [length] in E.
  assert (NB : ~ In b (addrs ps)) by (intros X; destruct (at_below _ _ _ F b X) as [q Eq]; unfold heap in *; congruence).
  assert (Nb : nth_error h1 b = Some (Nodes (n :: ns))) by (rewrite (proj2 (Q b) NB); exact N).
  cbn [free_info]. cbn [length] in E. rewrite E. cbn [obind]. unfold free. rewrite Nb. eexists. split; [reflexivity|].
  assert (Lb : b < length h1) by (apply nth_error_Some; unfold heap in *; congruence).
  exists (length h - length h0). apply nth_ext_error. intros i. rewrite nth_upd. destruct (Nat.lt_ge_cases i (length h0)) as [C1|C1].
  - rewrite nth_error_app1 by exact C1. destruct (Nat.eqb_spec b i); [lia|]. rewrite (proj2 (Q i)); [apply K, C1|].
    intros X. rewrite Forall_forall in AB. apply AB in X. lia.
  - rewrite nth_error_app2 by exact C1. destruct (Nat.lt_ge_cases i (length h)) as [C2|C2].
    + replace (nth_error (repeat Freed (length h - length h0)) (i - length h0)) with (Some Freed) by (symmetry; apply nth_error_repeat; lia).
      destruct (Nat.eqb_spec b i) as [_|Ni]; [apply Nat.ltb_lt in Lb; rewrite Lb; reflexivity|].
      destruct (in_dec Nat.eq_dec i (addrs ps)) as [I|I]; [apply (proj1 (Q i)), I|]. rewrite (proj2 (Q i) I). destruct (CV i (conj C1 C2)) as [X|[X|X]]; [congruence|contradiction|exact X].
    + destruct (Nat.eqb_spec b i); [lia|]. replace (nth_error h1 i) with (@None cell) by (symmetry; apply nth_error_None; lia).
      symmetry. apply nth_error_None. rewrite repeat_length. lia.
Qed.

(** a reply with too few names *)
Lemma short_fill comp n : forall names h b i, length names < n -> fill h b i comp n names = UB.
Proof.
  induction n as [|n IH]; intros names h b i L; [lia|]. destruct names as [|s names]; [reflexivity|]. cbn [fill alloc]. cbn [length] in L.
  unfold nodes_at. destruct (nth_error _ b) as [[| l |]|]; cbn [obind]; try reflexivity. destruct (nth_error l i); [|reflexivity]. apply IH. lia.
Qed.
