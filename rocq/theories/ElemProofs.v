From Coq Require Import String.
From Verif Require Import Common CommonFacts VecList TextModel Errors ElemModel ElemSpec.
From Coq Require Import Lia.
Local Open Scope string_scope.
Local Open Scope list_scope.
Local Open Scope Z_scope.

Definition kid (n : name) (k : list (name * tree)) : option tree := option_map snd (vfind (named n) k).
Lemma find_kid_kid : forall n k j, option_map snd (find_kid n k j) = kid n k.
Proof.
  intros n k. induction k as [|(m, c) k IH]; intros j; cbn; [reflexivity|]. unfold kid. cbn [vfind named fst].
  destruct (bytes_eqb m n) eqn:E; [unfold named; cbn; rewrite E; reflexivity|]. unfold named at 1; cbn; rewrite E. apply IH.
Qed.
Lemma sub_cons : forall t n p, sub t (n :: p) = match kid n (kids t) with Some c => sub c p | None => None end.
Proof. intros. cbn [sub]. rewrite <- (find_kid_kid n (kids t) 0). destruct (find_kid n (kids t) 0) as [(j, c)|]; reflexivity. Qed.
Lemma get_cons : forall t n p, get t (n :: p) = match kid n (kids t) with Some c => get c p | None => None end.
Proof. intros. unfold get. rewrite sub_cons. destruct (kid n (kids t)); reflexivity. Qed.
Lemma get_nil : forall t, get t [] = Some (inf t).
Proof. reflexivity. Qed.
Lemma kid_cons : forall n m c k, kid n ((m, c) :: k) = if bytes_eqb m n then Some c else kid n k.
Proof. intros. unfold kid. cbn [vfind]. unfold named at 1. cbn [fst]. destruct (bytes_eqb m n); reflexivity. Qed.
Lemma kid_app : forall n k k', kid n (k ++ k') = match kid n k with Some c => Some c | None => kid n k' end.
Proof. induction k as [|(m, c) k IH]; intros k'; cbn [app]; [reflexivity|]. rewrite !kid_cons. destruct (bytes_eqb m n); auto. Qed.
Lemma vhas_kid : forall n k, vhas (named n) k = is_some (kid n k).
Proof. intros. unfold vhas, kid. destruct (vfind (named n) k); reflexivity. Qed.
Lemma kid_update : forall n m f k, kid m (vupdate (named n) (fun kc => (fst kc, f (snd kc))) k) =
  if bytes_eqb n m then option_map f (kid n k) else kid m k.
Proof.
  induction k as [|(x, c) k IH]; cbn [vupdate]; [destruct (bytes_eqb n m); reflexivity|].
  unfold named at 1. cbn [fst snd]. destruct (bytes_eqb x n) eqn:E.
  - rewrite !kid_cons. apply bytes_eqb_eq in E. subst x. rewrite bytes_eqb_refl. destruct (bytes_eqb n m); reflexivity.
  - rewrite !kid_cons, IH, E. destruct (bytes_eqb x m) eqn:E2; [|reflexivity].
    apply bytes_eqb_eq in E2. subst x. rewrite bytes_eqb_sym in E. rewrite E. reflexivity.
Qed.
Lemma kid_map : forall n f k, kid n (map (fun kc => (fst kc, f (fst kc) (snd kc))) k) = option_map (f n) (kid n k).
Proof.
  induction k as [|(x, c) k IH]; cbn [map fst snd]; [reflexivity|]. rewrite !kid_cons, IH.
  destruct (bytes_eqb x n) eqn:E; [|reflexivity]. apply bytes_eqb_eq in E. subst. reflexivity.
Qed.
Lemma path_eqb_eq : forall a b, path_eqb a b = true <-> a = b.
Proof.
  induction a as [|x a IH]; intros [|y b]; cbn; split; intros H; try congruence; auto.
  - apply andb_prop in H as [H1 H2]. apply bytes_eqb_eq in H1. apply IH in H2. congruence.
  - injection H as -> ->. rewrite bytes_eqb_refl. apply IH. reflexivity.
Qed.
Lemma path_eqb_refl : forall a, path_eqb a a = true.
Proof. intros. apply path_eqb_eq. reflexivity. Qed.
Lemma below_some : forall p q r, below p q = Some r <-> q = p ++ r.
Proof.
  induction p as [|x p IH]; intros q r; cbn; [split; congruence|]. destruct q as [|y q]; [split; discriminate|].
  destruct (bytes_eqb x y) eqn:E.
  - apply bytes_eqb_eq in E. subst. rewrite IH. split; congruence.
  - apply bytes_eqb_neq in E. split; [discriminate|]. intros H. injection H as H _. congruence.
Qed.

(** * Insertion *)
Lemma reg_cons : forall n p i m r, reg (n :: p) i m (n :: r) = reg p i (fun r => m (n :: r)) r.
Proof. intros. unfold reg. cbn [path_eqb below]. rewrite !bytes_eqb_refl. reflexivity. Qed.
Lemma reg_ext : forall p i m m' r, m r = m' r -> reg p i m r = reg p i m' r.
Proof. intros. unfold reg. rewrite H. reflexivity. Qed.
Lemma get_insert : forall p i t q, get (insert p i t) q = reg p i (get t) q.
Proof.
  induction p as [|n p IH]; intros i t q; cbn [insert].
  - unfold set_node, reg. destruct q as [|m q]; [reflexivity|]. cbn [path_eqb below]. rewrite !get_cons. cbn [kids].
    destruct (typ i =? TABLE); [|reflexivity].
    rewrite kid_cons. destruct (bytes_eqb TEMPLATE m) eqn:E.
    + rewrite bytes_eqb_sym in E. rewrite E. destruct q; [reflexivity|]. rewrite get_cons. reflexivity.
    + rewrite bytes_eqb_sym in E. rewrite E. reflexivity.
  - destruct q as [|m q]; [reflexivity|]. rewrite get_cons. cbn [kids].
    destruct (bytes_eqb n m) eqn:E.
    + apply bytes_eqb_eq in E. subst m. rewrite reg_cons, vhas_kid.
      destruct (kid n (kids t)) as [c|] eqn:K; cbn [is_some].
      * rewrite kid_update, bytes_eqb_refl, K. cbn [option_map]. rewrite IH. apply reg_ext. rewrite get_cons, K. reflexivity.
      * rewrite kid_app, K, kid_cons, bytes_eqb_refl. rewrite IH.
        unfold reg. rewrite get_cons, K. destruct q as [|x q]; [|rewrite get_cons; reflexivity].
        destruct p; reflexivity.
    + assert (R : reg (n :: p) i (get t) (m :: q) = get t (m :: q)).
      { unfold reg. cbn [path_eqb below]. rewrite E. rewrite bytes_eqb_sym in E. rewrite E. reflexivity. }
      rewrite R, get_cons. rewrite vhas_kid. destruct (kid n (kids t)) as [c|] eqn:K; cbn [is_some].
      * rewrite kid_update, E. reflexivity.
      * rewrite kid_app, kid_cons, E. destruct (kid m (kids t)); reflexivity.
Qed.

(** * Template paths *)
Fixpoint tp (t : tree) (q : list name) : Prop :=
  match q with
  | [] => True
  | n :: q => (is_table t = true -> n = TEMPLATE) /\ match kid n (kids t) with Some c => tp c q | None => True end
  end.
Lemma tp_cons : forall t n q, tp t (n :: q) <-> (is_table t = true -> n = TEMPLATE) /\ match kid n (kids t) with Some c => tp c q | None => True end.
Proof. reflexivity. Qed.
(** two trees look alike along template paths *)
Definition alike (t t' : tree) : Prop := forall q, tp t' q -> tp t q /\ get t' q = get t q.
Lemma alike_refl : forall t, alike t t.
Proof. intros t q H. auto. Qed.
Lemma alike_kids : forall i a a' k k',
  (forall n, (typ i =? TABLE = true -> n = TEMPLATE) -> match kid n k, kid n k' with Some c, Some c' => alike c c' | None, None => True | _, _ => False end) ->
  alike (Node i a k) (Node i a' k').
Proof.
  intros i a a' k k' H q T. destruct q as [|n q]; [cbn; auto|]. rewrite tp_cons in *. cbn [kids] in *. unfold is_table in *. cbn [inf] in *.
  destruct T as [T1 T2]. specialize (H n T1). rewrite !get_cons. cbn [kids].
  destruct (kid n k) as [c|], (kid n k') as [c'|]; try tauto. destruct (H q T2) as [A B]. tauto.
Qed.
Lemma replicate_alike : forall p t, alike t (replicate p t).
Proof.
  induction p as [|n p IH]; intros t; cbn [replicate]; [apply alike_refl|]. destruct t as [i a k]. cbn [inf alias kids].
  apply alike_kids. intros m Hm. unfold is_table. cbn [inf].
  destruct (typ i =? TABLE).
  - rewrite (Hm eq_refl) in *. set (chain := match vfind (named n) k with Some (_, c) => chain_of c p | None => [] end). clearbody chain.
    assert (E : map (fun kc : name * tree => if is_row kc then (fst kc, rep chain (snd kc)) else kc) k =
                map (fun kc : name * tree => (fst kc, (fun m c => if is_row (m, c) then rep chain c else c) (fst kc) (snd kc))) k).
    { apply map_ext. intros (x, c). cbn. destruct (is_row (x, c)); reflexivity. }
    rewrite E. clear E. pose proof (kid_map TEMPLATE (fun m c => if is_row (m, c) then rep chain c else c) k) as E. cbv beta in E. rewrite E.
    destruct (kid TEMPLATE k) as [c|]; cbn [option_map]; [|trivial].
    assert (RW : is_row (TEMPLATE, c) = false) by (unfold is_row; cbn [fst snd]; rewrite bytes_eqb_refl; apply andb_false_r).
    rewrite RW. apply alike_refl.
  - rewrite kid_update. destruct (bytes_eqb n m) eqn:E.
    + apply bytes_eqb_eq in E. subst. destruct (kid m k); cbn; [apply IH|trivial].
    + destruct (kid m k); [apply alike_refl|trivial].
Qed.
Lemma kid_upd : forall k j m c c' n, nth_error k j = Some (m, c) ->
  kid n (upd k j (m, c')) = kid n k \/ (kid n k = Some c /\ kid n (upd k j (m, c')) = Some c').
Proof.
  induction k as [|(x, y) k IH]; intros j m c c' n H; destruct j; cbn in H; try discriminate.
  - injection H as -> ->. cbn [upd]. rewrite !kid_cons. destruct (bytes_eqb m n); auto.
  - cbn [upd]. rewrite !kid_cons. destruct (bytes_eqb x n); auto.
Qed.
Lemma upd_alike : forall i a k j m c c', nth_error k j = Some (m, c) -> alike c c' -> alike (Node i a k) (Node i a (upd k j (m, c'))).
Proof.
  intros i a k j m c c' H A. apply alike_kids. intros n _. destruct (kid_upd k j m c c' n H) as [E|[E1 E2]].
  - rewrite E. destruct (kid n k); [apply alike_refl|trivial].
  - rewrite E1, E2. exact A.
Qed.
Fixpoint node_of (t : tree) (pos : list nat) : option tree :=
  match pos with [] => Some t | j :: pos => match nth_error (kids t) j with Some (_, c) => node_of c pos | None => None end end.
Lemma at_pos_ok : forall pos f t x, node_of t pos = Some x -> alike x (f x) -> alike t (at_pos pos f t).
Proof.
  induction pos as [|j pos IH]; intros f t x N A; cbn in *; [injection N as ->; exact A|].
  destruct t as [i a k]. cbn [kids inf alias] in *. destruct (nth_error k j) as [(m, c)|] eqn:E; [|discriminate].
  eapply upd_alike; eauto.
Qed.
Lemma find_inst_nth : forall rows n k first j j' c, find_inst rows first n k j = Some (j', c) -> exists m, nth_error k (j' - j) = Some (m, c) /\ (j <= j')%nat.
Proof.
  induction k as [|(m, x) k IH]; intros first j j' c H; cbn [find_inst] in H; [discriminate|].
  destruct (bytes_eqb m n || (negb first && rows && alias_is n x)).
  - injection H as <- <-. exists m. rewrite Nat.sub_diag. auto.
  - apply IH in H as (m' & H & L). exists m'. split; [|lia]. replace (j' - j)%nat with (S (j' - S j)) by lia. exact H.
Qed.
Lemma inst_loop_node : forall rest t wild first pos x, inst_loop t wild first rest = Some (pos, x) -> node_of t pos = Some x.
Proof.
  induction rest as [|tok rest IH]; intros t wild first pos x H; cbn [inst_loop] in H;
    destruct (find_inst (is_table t) true first (kids t) 0) as [(j, c)|] eqn:F; try discriminate;
    apply find_inst_nth in F as (m & F & _); rewrite Nat.sub_0_r in F.
  - injection H as <- <-. cbn [node_of]. rewrite F. reflexivity.
  - destruct (kids c) eqn:KC; [discriminate|]. clear KC.
    match goal with H : match ?e with _ => _ end = _ |- _ => destruct e as [(pos', x')|] eqn:R; [|discriminate] end.
    injection H as <- <-. cbn [node_of]. rewrite F. eapply IH; eauto.
Qed.
Lemma inst_node : forall t s pos x, retrieve_instance t s = Some (pos, x) -> node_of t pos = Some x.
Proof. unfold retrieve_instance. intros t s pos x H. destruct (tokens s); [discriminate|]. eapply inst_loop_node; eauto. Qed.

Lemma dec_digits_chars : forall f n acc x, 0 <= n -> In x (dec_digits f n acc) -> In x acc \/ 48 <= x <= 57.
Proof.
  induction f as [|f IH]; intros n acc x N H; cbn [dec_digits] in H; [auto|].
  assert (D : 48 <= 48 + n mod 10 <= 57) by (pose proof (Z.mod_pos_bound n 10 ltac:(lia)); lia).
  destruct (n / 10 =? 0).
  - destruct H as [<-|H]; auto.
  - apply IH in H; [|apply Z.div_pos; lia]. destruct H as [[<-|H]|H]; auto.
Qed.
Lemma print_dec_chars : forall n x, In x (print_dec n) -> x = 45 \/ 48 <= x <= 57.
Proof.
  intros n x H. unfold print_dec in H. destruct (n <? 0) eqn:Q.
  - destruct H as [<-|H]; [auto|]. apply dec_digits_chars in H; [|lia]. cbn in H. tauto.
  - apply dec_digits_chars in H; [|lia]. cbn in H. tauto.
Qed.
Lemma print_dec_nil : forall n, print_dec n <> [].
Proof.
  intros n. unfold print_dec. destruct (n <? 0); [discriminate|].
  assert (G : forall f m acc, acc <> [] \/ f <> O -> dec_digits f m acc <> []).
  { induction f as [|f IH]; intros m acc [H|H]; cbn [dec_digits]; try congruence; destruct (m / 10 =? 0); try discriminate; apply IH; left; discriminate. }
  apply G. right. discriminate.
Qed.
Lemma print_dec_not_template : forall n, bytes_eqb (print_dec n) TEMPLATE = false.
Proof.
  intros n. apply bytes_eqb_neq. intros E. pose proof (print_dec_chars n 123) as H. rewrite E in H.
  cbn in H. destruct (H (or_introl eq_refl)); lia.
Qed.
Lemma add_row_alike : forall t pos x n a t', node_of t pos = Some x -> is_table x = true -> add_row pos x n a t = Ok t' -> alike t t'.
Proof.
  unfold add_row. intros t pos x n a t' N T H. destruct (vfind (named TEMPLATE) (kids x)) as [(m, tmpl)|]; [|discriminate].
  injection H as <-. eapply at_pos_ok; [exact N|]. destruct x as [i b k]. cbn [inf alias kids]. unfold is_table in T. cbn [inf] in T.
  apply alike_kids. intros y Hy. rewrite (Hy T). rewrite kid_app, kid_cons, print_dec_not_template.
  destruct (kid TEMPLATE k); [apply alike_refl|reflexivity || trivial].
Qed.
Lemma kid_drop : forall k j m c n, nth_error k j = Some (m, c) -> bytes_eqb m n = false -> kid n (drop_nth k j) = kid n k.
Proof.
  induction k as [|(x, y) k IH]; intros j m c n H E; destruct j; cbn in H; try discriminate; cbn [drop_nth].
  - injection H as -> ->. rewrite kid_cons, E. reflexivity.
  - rewrite !kid_cons. erewrite IH by eauto. reflexivity.
Qed.
Lemma delete_alike : forall pos t n c, node_at t pos = Some (n, c, true) -> n <> TEMPLATE -> alike t (delete pos t).
Proof.
  induction pos as [|j pos IH]; intros t n c H N; cbn [node_at] in H; [discriminate|]. destruct t as [i a k]. cbn [kids] in H.
  destruct pos as [|j' pos].
  - destruct (nth_error k j) as [(m, y)|] eqn:E; [|discriminate]. injection H as -> -> H. unfold is_table in H; cbn [inf] in H.
    cbn [delete kids inf alias]. apply alike_kids. intros x Hx. rewrite (Hx H).
    assert (KD : kid TEMPLATE (drop_nth k j) = kid TEMPLATE k) by (eapply kid_drop; [exact E|apply bytes_eqb_neq; exact N]).
    match goal with |- context [kid TEMPLATE (drop_nth ?x ?y)] => change (kid TEMPLATE (drop_nth x y)) with (kid TEMPLATE (drop_nth k j)) end.
    rewrite KD. destruct (kid TEMPLATE k); [apply alike_refl|trivial].
  - destruct (nth_error k j) as [(m, y)|] eqn:E; [|discriminate].
    change (delete (j :: j' :: pos) (Node i a k)) with (match nth_error k j with Some (m, c) => Node i a (upd k j (m, delete (j' :: pos) c)) | None => Node i a k end).
    rewrite E. eapply upd_alike; [exact E|]. eapply IH; eauto.
Qed.
(** insertion and template paths *)
Lemma insert_tp : forall p i t q, tp (insert p i t) q -> (table_at (get t) p = true -> typ i = TABLE) ->
  (typ i =? TABLE = true -> forall r, below p q = Some r -> r = []) -> tp t q.
Proof.
  induction p as [|n p IH]; intros i t q T K B.
  - destruct q as [|m q]; [exact I|]. cbn [insert] in T. unfold set_node in T.
    destruct (typ i =? TABLE) eqn:Q; [specialize (B eq_refl (m :: q) eq_refl); discriminate|].
    rewrite tp_cons in *. cbn [kids] in T. destruct T as [_ T]. split; [|exact T].
    intros H. unfold table_at in K. rewrite get_nil in K. unfold is_table in H. specialize (K H). lia.
  - destruct q as [|m q]; [exact I|]. cbn [insert] in T. rewrite tp_cons in *. cbn [kids] in T. unfold is_table in *. cbn [inf] in T.
    destruct T as [T1 T]. split; [exact T1|]. rewrite vhas_kid in T. destruct (bytes_eqb n m) eqn:E.
    + apply bytes_eqb_eq in E. subst m. destruct (kid n (kids t)) as [c|] eqn:KC; [|exact I]. cbn [is_some] in T.
      rewrite kid_update, bytes_eqb_refl, KC in T. cbn [option_map] in T. eapply IH; eauto.
      * unfold table_at in *. rewrite get_cons, KC in K. exact K.
      * intros Q r Hr. apply (B Q r). cbn [below]. rewrite bytes_eqb_refl. exact Hr.
    + destruct (kid n (kids t)) as [c|] eqn:KC; cbn [is_some] in T.
      * rewrite kid_update, E in T. exact T.
      * rewrite kid_app, kid_cons, E in T. destruct (kid m (kids t)); auto.
Qed.
Definition agree (t : tree) (m : registry) : Prop := is_table t = false /\ forall q, tp t q -> get t q = m q.
Lemma insert_agree : forall p i t m, agree t m -> p <> [] ->
  (table_at (get t) p = true -> typ i = TABLE) -> agree (insert p i t) (reg p i m).
Proof.
  intros p i t m [R A] N K2. split; [destruct p; [congruence|exact R]|].
  intros q T. rewrite get_insert. unfold reg. destruct (path_eqb q p) eqn:E; [reflexivity|].
  assert (X : (typ i =? TABLE = true -> forall r, below p q = Some r -> r = []) -> get t q = m q).
  { intros B. apply A. eapply insert_tp; eauto. }
  destruct (below q p) as [r|] eqn:B1.
  - rewrite X; [reflexivity|]. intros Q r' B2. apply below_some in B1. apply below_some in B2. subst p.
    rewrite <- app_assoc in B2. rewrite <- (app_nil_r q) in B2 at 1. apply app_inv_head in B2.
    symmetry in B2. apply app_eq_nil in B2 as [_ ->]. reflexivity.
  - destruct (below p q) as [r|] eqn:B2.
    + destruct (typ i =? TABLE) eqn:Q; [reflexivity|]. apply X. discriminate.
    + apply X. discriminate.
Qed.
Lemma alike_agree : forall t t' m, alike t t' -> inf t' = inf t -> agree t m -> agree t' m.
Proof.
  intros t t' m H I [R A]. split; [unfold is_table in *; congruence|]. intros q T. destruct (H q T) as [T1 E]. rewrite E. apply A, T1.
Qed.
Lemma replicate_inf : forall p t, inf (replicate p t) = inf t.
Proof. intros [|n p] [i a k]; reflexivity. Qed.
(** a table on the path that is not a template path (an explicit row) may be re-registered;
    what matters is the tree *)
Lemma at_pos_inf : forall pos f t, (forall u, inf (f u) = inf u) -> inf (at_pos pos f t) = inf t.
Proof. intros [|j pos] f [i a k] H; cbn; [apply (H (Node i a k))|]. destruct (nth_error k j) as [(m, c)|]; reflexivity. Qed.
Lemma delete_inf : forall pos t, inf (delete pos t) = inf t.
Proof. intros [|j [|j' pos]] [i a k]; try reflexivity. cbn. destruct (nth_error k j) as [(m, c)|]; reflexivity. Qed.
Lemma add_row_inf : forall pos x n a t t', add_row pos x n a t = Ok t' -> inf t' = inf t.
Proof.
  unfold add_row. intros. destruct (vfind (named TEMPLATE) (kids x)) as [(m, c)|]; [|discriminate]. injection H as <-.
  apply at_pos_inf. intros [? ? ?]; reflexivity.
Qed.

(** * Histories *)
Lemma step_agree : forall t m o t' e, agree t m -> orderly_op t o -> step t o = Ok (t', e) -> agree t' (reg_op m o).
Proof.
  intros t m o t' e A O H. destruct o as [s i|tb n a|row|tb a ans|row ok]; cbn [step reg_op orderly_op] in *.
  - destruct s as [|c s]; [injection H as <- <-; exact A|]. injection H as <- <-. destruct O as [O1 O2].
    unfold insert_element. set (p := tokens (strip (typ i) (c :: s))) in *. clearbody p.
    eapply alike_agree; [apply replicate_alike|apply replicate_inf|]. apply insert_agree; auto.
  - destruct (Nat.leb 256 _); [injection H as <- <-; exact A|].
    destruct (retrieve_instance t (tb ++ _)); [injection H as <- <-; exact A|].
    destruct (retrieve_instance t tb) as [(pos, x)|] eqn:R; [|injection H as <- <-; exact A].
    destruct (add_row pos x n a t) as [t1|?|] eqn:AR; cbn in H; try discriminate. injection H as <- <-.
    eapply alike_agree; [eapply add_row_alike; [eapply inst_node; eauto| |exact AR]|eapply add_row_inf; eauto|exact A]. eapply O; reflexivity.
  - destruct (retrieve_instance t row) as [(pos, x)|] eqn:R; injection H as <- <-; [|exact A].
    destruct (O pos x eq_refl) as (n & c & N & NT). eapply alike_agree; [eapply delete_alike; eauto|apply delete_inf|exact A].
  - destruct (retrieve t tb); [|injection H as <- <-; exact A].
    destruct (retrieve_instance t tb) as [(pos, x)|] eqn:R; [|injection H as <- <-; exact A].
    destruct ans as [n|]; [|injection H as <- <-; exact A].
    destruct (add_row pos x n a t) as [t1|?|] eqn:AR; cbn in H; try discriminate. injection H as <- <-.
    eapply alike_agree; [eapply add_row_alike; [eapply inst_node; eauto| |exact AR]|eapply add_row_inf; eauto|exact A]. eapply O; reflexivity.
  - destruct (retrieve t row); [|injection H as <- <-; exact A].
    destruct (retrieve_instance t row) as [(pos, x)|] eqn:R; [|injection H as <- <-; exact A].
    destruct ok; injection H as <- <-; [|exact A].
    destruct (O pos x eq_refl) as (n & c & N & NT). eapply alike_agree; [eapply delete_alike; eauto|apply delete_inf|exact A].
Qed.
Lemma run_agree : forall l t m t', agree t m -> orderly t l -> run t l = Ok t' -> agree t' (fold_left reg_op l m).
Proof.
  induction l as [|o l IH]; intros t m t' A O H; cbn in *; [injection H as <-; exact A|].
  destruct O as [O1 O2]. destruct (step t o) as [(t1, e)|?|] eqn:E; cbn in H; try discriminate.
  eapply IH; [|exact O2|exact H]. eapply step_agree; eauto.
Qed.
Lemma agree_start : agree empty start.
Proof. split; [reflexivity|]. intros [|n q] _; [reflexivity|]. rewrite get_cons. reflexivity. Qed.

(** * Lookup *)
Lemma sub_app : forall p t q, sub t (p ++ q) = match sub t p with Some c => sub c q | None => None end.
Proof.
  induction p as [|n p IH]; intros t q; cbn [app]; [reflexivity|]. rewrite !sub_cons. destruct (kid n (kids t)); auto.
Qed.
Lemma tp_app : forall p t q, tp t (p ++ q) <-> tp t p /\ match sub t p with Some c => tp c q | None => True end.
Proof.
  induction p as [|n p IH]; intros t q; cbn [app]; [cbn; tauto|]. rewrite !tp_cons, sub_cons.
  destruct (kid n (kids t)); [rewrite IH|]; tauto.
Qed.
Lemma norm_tp_none : forall m rest t0 pre, agree t0 m -> pre <> [] -> tp t0 pre -> sub t0 pre = None ->
  tp t0 (norm m pre rest) /\ get t0 (norm m pre rest) = None.
Proof.
  intros m rest. induction rest as [|tok rest IH]; intros t0 pre A N T SN; cbn [norm].
  - split; auto. unfold get. rewrite SN. reflexivity.
  - apply IH; auto.
    + destruct pre; discriminate.
    + apply tp_app. rewrite SN. auto.
    + rewrite sub_app, SN. reflexivity.
Qed.
Lemma retrieve_loop_ok : forall m rest t0 pre t first, agree t0 m -> tp t0 pre -> sub t0 pre = Some t ->
  (is_table t = true -> first = TEMPLATE) ->
  option_map inf (retrieve_loop t first rest) = m (norm m (pre ++ [first]) rest).
Proof.
  intros m rest. induction rest as [|tok rest IH]; intros t0 pre t first A T ST F; cbn [retrieve_loop norm].
  - assert (T' : tp t0 (pre ++ [first])).
    { apply tp_app. rewrite ST. split; auto. rewrite tp_cons. split; auto. destruct (kid first (kids t)); cbn; auto. }
    destruct A as [_ A]. rewrite <- (A _ T'). unfold get. rewrite sub_app, ST, sub_cons.
    rewrite <- (find_kid_kid first (kids t) 0). destruct (find_kid first (kids t) 0) as [(j, c)|]; reflexivity.
  - assert (T' : tp t0 (pre ++ [first])).
    { apply tp_app. rewrite ST. split; auto. rewrite tp_cons. split; auto. destruct (kid first (kids t)); cbn; auto. }
    assert (SB : sub t0 (pre ++ [first]) = kid first (kids t)).
    { rewrite sub_app, ST, sub_cons. destruct (kid first (kids t)); reflexivity. }
    assert (NE : match pre ++ [first] with [] => tok | _ => if table_at m (pre ++ [first]) then TEMPLATE else tok end = if table_at m (pre ++ [first]) then TEMPLATE else tok)
      by (destruct pre; reflexivity).
    rewrite NE. clear NE.
    pose proof (find_kid_kid first (kids t) 0) as FK. destruct (find_kid first (kids t) 0) as [(j, c)|]; cbn in FK; rewrite <- FK in SB.
    + assert (TA : table_at m (pre ++ [first]) = is_table c).
      { destruct A as [_ A]. unfold table_at. rewrite <- (A _ T'). unfold get. rewrite SB. reflexivity. }
      rewrite TA. destruct (kids c) eqn:KC.
      * destruct (norm_tp_none m rest t0 ((pre ++ [first]) ++ [if is_table c then TEMPLATE else tok]) A) as [X1 X2].
        -- destruct (pre ++ [first]); discriminate.
        -- apply tp_app. rewrite SB. split; auto. rewrite tp_cons, KC. cbn. split; auto. intros ->. reflexivity.
        -- rewrite sub_app, SB, sub_cons, KC. reflexivity.
        -- destruct A as [_ A]. rewrite <- (A _ X1), X2. reflexivity.
      * apply IH with (t0 := t0); auto. intros ->. reflexivity.
    + destruct (norm_tp_none m rest t0 ((pre ++ [first]) ++ [if table_at m (pre ++ [first]) then TEMPLATE else tok]) A) as [X1 X2].
      * destruct (pre ++ [first]); discriminate.
      * apply tp_app. rewrite SB. split; auto.
      * rewrite sub_app, SB. reflexivity.
      * destruct A as [_ A]. rewrite <- (A _ X1), X2. reflexivity.
Qed.
Lemma retrieve_agree : forall t m s, agree t m -> option_map inf (retrieve t s) = lookup m s.
Proof.
  intros t m s A. unfold retrieve, lookup. destruct (tokens s) as [|tok rest]; [reflexivity|].
  cbn [norm app]. rewrite (retrieve_loop_ok m rest t [] t tok A); auto; [exact I|].
  destruct A as [A _]. congruence.
Qed.
Lemma registry_ok : forall l t s, orderly empty l -> run empty l = Ok t ->
  option_map inf (retrieve t s) = lookup (registered l) s.
Proof. intros. apply retrieve_agree. eapply run_agree; eauto. apply agree_start. Qed.

(** what was registered stays, unless it is registered again or a table is registered at or
    above it *)
Lemma reg_spared : forall p i m o, m p = Some i -> spares p o -> reg_op m o p = Some i.
Proof.
  intros p i m o H S. destruct o as [s j| | | |]; cbn [reg_op spares] in *; auto. destruct s as [|c s]; auto.
  set (q := tokens (strip (typ j) (c :: s))) in *. clearbody q. destruct S as [S1 S2]. unfold reg.
  destruct (path_eqb p q) eqn:E; [apply path_eqb_eq in E; congruence|].
  rewrite H. destruct (below p q); [reflexivity|]. destruct (below q p) eqn:B; [|reflexivity].
  destruct (typ j =? TABLE) eqn:T; [|reflexivity]. apply Z.eqb_eq in T. specialize (S2 T). congruence.
Qed.
Lemma kept : forall l2 l1 s i, s <> [] -> Forall (spares (tokens (strip (typ i) s))) l2 ->
  registered (l1 ++ Register s i :: l2) (tokens (strip (typ i) s)) = Some i.
Proof.
  intros l2 l1 s i N F. unfold registered. rewrite fold_left_app. cbn [fold_left].
  set (m := fold_left reg_op l1 start). clearbody m.
  assert (H : reg_op m (Register s i) (tokens (strip (typ i) s)) = Some i).
  { cbn [reg_op]. destruct s; [congruence|]. unfold reg. rewrite path_eqb_refl. reflexivity. }
  revert H. generalize (reg_op m (Register s i)) as m1. induction l2 as [|o l2 IH]; intros m1 H; cbn [fold_left]; [exact H|].
  inversion F; subst. apply IH; auto. apply reg_spared; auto.
Qed.
