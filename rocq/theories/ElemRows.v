(** Rows of tables (C23). *)
From Coq Require Import String.
From Verif Require Import Common CommonFacts VecList TextModel Errors ElemModel ElemSpec ElemProofs.
From Coq Require Import Lia.
Local Open Scope string_scope.
Local Open Scope list_scope.
Local Open Scope Z_scope.

(** ** names *)
Lemma strtok_app : forall n s cur, forallb (fun c => negb (c =? 46)) n = true -> strtok (n ++ s) cur = strtok s (cur ++ n).
Proof.
  induction n as [|c n IH]; intros s cur H; cbn [app]; [rewrite app_nil_r; reflexivity|].
  cbn in H. apply andb_prop in H as [H1 H2]. cbn [strtok]. destruct (c =? 46); [discriminate|].
  rewrite IH by exact H2. rewrite <- app_assoc. reflexivity.
Qed.
Lemma good_nonempty : forall n, good_name n = true -> n <> [] /\ forallb (fun c => negb (c =? 46)) n = true.
Proof. unfold good_name. intros n H. apply andb_prop in H as [H1 H2]. split; auto. destruct n; congruence. Qed.
Lemma tokens_dotted : forall T s, forallb good_name T = true -> tokens (dotted T ++ s) = T ++ tokens s.
Proof.
  unfold tokens. induction T as [|n T IH]; intros s H; [reflexivity|]. cbn [forallb] in H. apply andb_prop in H as [G H].
  apply good_nonempty in G as [G1 G2]. cbn [dotted]. rewrite <- !app_assoc, strtok_app by exact G2. cbn [app].
  cbn [bs map list_ascii_of_string app strtok]. cbn [Z.eqb Pos.eqb].
  change (Z.of_N (Ascii.N_of_ascii (Ascii.Ascii false true true true false true false false))) with 46. cbn [Z.eqb Pos.eqb].
  destruct n; [congruence|]. rewrite IH by exact H. reflexivity.
Qed.
Lemma tokens_name : forall n, good_name n = true -> tokens n = [n].
Proof.
  intros n G. apply good_nonempty in G as [G1 G2]. unfold tokens. rewrite <- (app_nil_r n) at 1. rewrite strtok_app by exact G2. cbn [strtok app]. destruct n; [congruence|reflexivity].
Qed.
Lemma tokens_nil : tokens [] = [].
Proof. reflexivity. Qed.
Lemma print_dec_good : forall n, good_name (print_dec n) = true.
Proof.
  intros n. unfold good_name. pose proof (print_dec_nil n). pose proof (print_dec_chars n).
  destruct (print_dec n) eqn:E; [congruence|]. cbn [andb]. apply forallb_forall. intros x Hx. specialize (H0 x Hx). lia.
Qed.
Lemma print_dec_plain : forall n, plain_tok (print_dec n) = true.
Proof.
  intros n. unfold plain_tok. pose proof (print_dec_chars n). pose proof (print_dec_nil n).
  destruct (print_dec n) as [|c r] eqn:E; [congruence|]. specialize (H c (or_introl eq_refl)).
  assert (bytes_eqb (c :: r) (bs "*") = false) as ->.
  { apply bytes_eqb_neq. intros Q. injection Q as -> _. cbn in H. lia. }
  cbn [negb andb]. destruct (Z.eq_dec c 91); [lia|]. destruct c as [|c|c]; auto. repeat (destruct c as [c|c|]; auto).
Qed.

(** ** descent with positions *)
Fixpoint ipos (t : tree) (p : list name) : list nat :=
  match p with [] => [] | n :: p => match find_kid n (kids t) 0 with Some (j, c) => j :: ipos c p | None => [] end end.
Lemma find_kid_shift : forall n k j, find_kid n k j = option_map (fun x => (fst x + j, snd x)%nat) (find_kid n k 0).
Proof.
  induction k as [|(m, c) k IH]; intros j; cbn [find_kid]; [reflexivity|].
  destruct (bytes_eqb m n); [reflexivity|]. rewrite (IH (S j)), (IH 1%nat).
  destruct (find_kid n k 0) as [(x, y)|]; cbn; [|reflexivity]. f_equal. f_equal. lia.
Qed.
Lemma find_kid_nth : forall n k j c, find_kid n k 0 = Some (j, c) -> nth_error k j = Some (n, c).
Proof.
  induction k as [|(m, x) k IH]; intros j c H; cbn [find_kid] in H; [discriminate|].
  destruct (bytes_eqb m n) eqn:E; [apply bytes_eqb_eq in E; injection H as <- <-; subst; reflexivity|].
  rewrite find_kid_shift in H. destruct (find_kid n k 0) as [(y, z)|] eqn:F; cbn in H; [|discriminate].
  injection H as <- <-. rewrite Nat.add_1_r. apply IH. reflexivity.
Qed.
Lemma alias_plain : forall tok c, plain_tok tok = true -> alias_is tok c = false.
Proof.
  unfold alias_is, plain_tok. intros tok c H. destruct (alias c) as [n|]; [|reflexivity]. apply andb_prop in H as [_ H].
  assert (bytes_eqb tok (bs "[" ++ n ++ bs "]") = false) as ->; [|apply andb_false_r].
  apply bytes_eqb_neq. intros ->. cbn in H. discriminate.
Qed.
Lemma find_inst_plain : forall rows tok k first j, plain_tok tok = true -> find_inst rows first tok k j = find_kid tok k j.
Proof.
  induction k as [|(m, c) k IH]; intros first j P; cbn [find_inst find_kid]; [reflexivity|].
  rewrite alias_plain by exact P. rewrite andb_false_r, orb_false_r. destruct (bytes_eqb m tok); [reflexivity|]. apply IH, P.
Qed.
Lemma getterless_kid : forall t n j c, getterless t -> find_kid n (kids t) 0 = Some (j, c) -> getterless c.
Proof. intros t n j c G F p u H. apply (G (n :: p)). cbn [sub]. rewrite F. exact H. Qed.
Lemma inst_plain : forall rest t first, getterless t -> forallb plain_tok (first :: rest) = true ->
  inst_loop t false first rest = match sub t (first :: rest) with Some x => Some (ipos t (first :: rest), x) | None => None end.
Proof.
  induction rest as [|tok rest IH]; intros t first G P; cbn [forallb] in P; apply andb_prop in P as [P1 P2];
    cbn [inst_loop]; rewrite find_inst_plain by exact P1; cbn [sub ipos];
    destruct (find_kid first (kids t) 0) as [(j, c)|] eqn:F; try reflexivity.
  assert (GC : getterless c) by (eapply getterless_kid; eauto).
  pose proof (GC [] c eq_refl) as GI.
  assert (ST : bytes_eqb tok (bs "*") = false).
  { cbn [forallb] in P2. apply andb_prop in P2 as [P2 _]. unfold plain_tok in P2. apply andb_prop in P2 as [P2 _]. destruct (bytes_eqb tok (bs "*")); [discriminate|reflexivity]. }
  rewrite ST. cbn [orb].
  destruct (kids c) eqn:KC.
  - cbn [sub]. reflexivity.
  - rewrite <- KC.
    assert (E : (if is_table c && ((if is_table c then false else false) || getter (inf c)) then TEMPLATE else tok) = tok) by (destruct (is_table c); [rewrite GI|]; reflexivity).
    assert (E2 : (if is_table c then false else false) = false) by (destruct (is_table c); reflexivity).
    rewrite E, E2. rewrite IH; auto. cbn [sub ipos]. destruct (find_kid tok (kids c) 0) as [(j', c')|]; [|reflexivity].
    destruct (sub c' rest); reflexivity.
Qed.
Lemma instance_plain : forall t s T, getterless t -> tokens s = T -> T <> [] -> forallb plain_tok T = true ->
  retrieve_instance t s = match sub t T with Some x => Some (ipos t T, x) | None => None end.
Proof. intros t s T G E N P. unfold retrieve_instance. rewrite E. destruct T as [|n T]; [congruence|]. apply inst_plain; auto. Qed.

(** ** adding *)
Lemma get_at_pos : forall T t x f, sub t T = Some x -> inf (f x) = inf x ->
  forall q, get (at_pos (ipos t T) f t) q = match below T q with Some r => get (f x) r | None => get t q end.
Proof.
  induction T as [|n T IH]; intros t x f S I q.
  - cbn in *. injection S as ->. reflexivity.
  - cbn [sub] in S. cbn [ipos]. destruct (find_kid n (kids t) 0) as [(j, c)|] eqn:F; [|discriminate].
    pose proof (find_kid_nth _ _ _ _ F) as NT. cbn [at_pos]. rewrite NT.
    destruct q as [|m q]; [reflexivity|]. cbn [below]. rewrite !get_cons. cbn [kids].
    assert (KE : forall c', kid m (upd (kids t) j (n, c')) = if bytes_eqb n m then Some c' else kid m (kids t)).
    { intros c'. clear -F. revert j F. induction (kids t) as [|(y, z) k IHk]; intros j F; cbn [find_kid] in F; [discriminate|].
      destruct (bytes_eqb y n) eqn:E.
      - injection F as <- <-. cbn [upd]. rewrite !kid_cons. apply bytes_eqb_eq in E. subst y. destruct (bytes_eqb n m); reflexivity.
      - rewrite find_kid_shift in F. destruct (find_kid n k 0) as [(a, b)|] eqn:F2; cbn in F; [|discriminate].
        injection F as <- <-. rewrite Nat.add_1_r. cbn [upd]. rewrite !kid_cons. rewrite (IHk a eq_refl).
        destruct (bytes_eqb y m) eqn:E2; [|reflexivity]. apply bytes_eqb_eq in E2. subst y. rewrite bytes_eqb_sym in E. rewrite E. reflexivity. }
    rewrite KE. destruct (bytes_eqb n m) eqn:E; [|reflexivity].
    rewrite (IH c x f S I). apply bytes_eqb_eq in E. subst m.
    assert (KC : kid n (kids t) = Some c) by (rewrite <- (find_kid_kid n (kids t) 0), F; reflexivity). rewrite KC. reflexivity.
Qed.
Lemma kid_dup : forall n k, kid n (map (fun kc => (fst kc, dup (snd kc))) k) = option_map dup (kid n k).
Proof. intros. exact (kid_map n (fun _ c => dup c) k). Qed.
Lemma get_dup : forall p t, get (dup t) p = get t p.
Proof.
  induction p as [|n p IH]; intros [i a k]; [reflexivity|]. rewrite !get_cons. cbn [dup kids]. rewrite kid_dup.
  destruct (kid n k); cbn; auto.
Qed.
Lemma get_set_alias : forall p a t, get (set_alias a t) p = get t p.
Proof. intros [|n p] a [i b k]; reflexivity. Qed.
Lemma get_app : forall p t q x, sub t p = Some x -> get t (p ++ q) = get x q.
Proof. intros. unfold get. rewrite sub_app, H. reflexivity. Qed.
Definition append_row (nm : name) (r : tree) (tb : tree) : tree := Node (inf tb) (alias tb) (kids tb ++ [(nm, r)]).
Lemma add_row_get : forall t T x n a t', sub t T = Some x -> kid (print_dec n) (kids x) = None ->
  add_row (ipos t T) x n a t = Ok t' ->
  forall q, get t' q = match below (T ++ [print_dec n]) q with Some r => get t (T ++ TEMPLATE :: r) | None => get t q end.
Proof.
  intros t T x n a t' S F H q. unfold add_row in H.
  destruct (vfind (named TEMPLATE) (kids x)) as [(m, tmpl)|] eqn:V; [|discriminate]. injection H as <-.
  change (fun tb : tree => Node (inf tb) (alias tb) (kids tb ++ [(print_dec n, set_alias a (dup tmpl))])) with (append_row (print_dec n) (set_alias a (dup tmpl))).
  rewrite (get_at_pos T t x _ S) by reflexivity.
  assert (KT : kid TEMPLATE (kids x) = Some tmpl) by (unfold kid; rewrite V; reflexivity).
  destruct (below T q) as [r|] eqn:B.
  - apply below_some in B. subst q. destruct r as [|m' r].
    + rewrite app_nil_r. destruct (below (T ++ [print_dec n]) T) as [r|] eqn:B2.
      * apply below_some in B2. rewrite <- app_assoc in B2. rewrite <- (app_nil_r T) in B2 at 1. apply app_inv_head in B2. discriminate.
      * unfold get. cbn [sub]. rewrite S. reflexivity.
    + rewrite get_cons. unfold append_row. cbn [kids]. rewrite kid_app, kid_cons.
      destruct (bytes_eqb (print_dec n) m') eqn:E.
      * apply bytes_eqb_eq in E. subst m'. rewrite F.
        assert (B2 : below (T ++ [print_dec n]) (T ++ print_dec n :: r) = Some r) by (apply below_some; rewrite <- app_assoc; reflexivity).
        match goal with |- context [below ?a ?b] => replace (below a b) with (Some r) by (symmetry; exact B2) end. rewrite get_set_alias, get_dup. rewrite (get_app T t _ x S), get_cons, KT. reflexivity.
      * destruct (below (T ++ [print_dec n]) (T ++ m' :: r)) as [r'|] eqn:B2.
        { apply below_some in B2. rewrite <- app_assoc in B2. apply app_inv_head in B2. injection B2 as E2 _. subst m'. rewrite bytes_eqb_refl in E. discriminate. }
        rewrite (get_app T t _ x S), get_cons. destruct (kid m' (kids x)); reflexivity.
  - destruct (below (T ++ [print_dec n]) q) as [r|] eqn:B2; [|reflexivity].
    apply below_some in B2. rewrite <- app_assoc in B2. apply below_some in B2. congruence.
Qed.
(** ** removing *)
Lemma upd_same : forall {A} (l : list A) j x, nth_error l j = Some x -> upd l j x = l.
Proof. induction l as [|y l IH]; intros [|j] x H; cbn in *; try discriminate; [congruence|]. f_equal. apply IH, H. Qed.
Lemma upd_upd : forall {A} (l : list A) j x y, upd (upd l j x) j y = upd l j y.
Proof. induction l as [|z l IH]; intros [|j] x y; cbn; auto. f_equal. apply IH. Qed.
Lemma drop_last : forall {A} (l : list A) x, drop_nth (l ++ [x]) (length l) = l.
Proof. induction l; intros; cbn; [reflexivity|]. f_equal. apply IHl. Qed.
Lemma delete_cons : forall j j' pos t, delete (j :: j' :: pos) t =
  match nth_error (kids t) j with Some (m, c) => Node (inf t) (alias t) (upd (kids t) j (m, delete (j' :: pos) c)) | None => t end.
Proof. reflexivity. Qed.
Lemma delete_snoc : forall pos j t, pos <> [] -> delete (pos ++ [j]) t = match pos with i :: pos => match nth_error (kids t) i with Some (m, c) => Node (inf t) (alias t) (upd (kids t) i (m, delete (pos ++ [j]) c)) | None => t end | [] => t end.
Proof. intros [|i pos] j t H; [congruence|]. cbn [app]. destruct pos; reflexivity. Qed.
Lemma node_eta : forall t, Node (inf t) (alias t) (kids t) = t.
Proof. intros [? ? ?]; reflexivity. Qed.
Lemma delete_added : forall pos t x nm r, node_of t pos = Some x -> delete (pos ++ [length (kids x)]) (at_pos pos (append_row nm r) t) = t.
Proof.
  induction pos as [|i pos IH]; intros t x nm r N.
  - cbn in N. injection N as ->. cbn [app at_pos delete append_row inf alias kids]. rewrite drop_last. apply node_eta.
  - cbn [node_of] in N. cbn [at_pos]. destruct (nth_error (kids t) i) as [(m, c)|] eqn:E; [|discriminate].
    rewrite delete_snoc by discriminate. cbn [kids inf alias].
    assert (L : nth_error (upd (kids t) i (m, at_pos pos (append_row nm r) c)) i = Some (m, at_pos pos (append_row nm r) c)).
    { apply upd_nth_eq. apply nth_error_Some. rewrite E. discriminate. }
    match goal with |- context [nth_error ?a i] => replace (nth_error a i) with (Some (m, at_pos pos (append_row nm r) c)) by (symmetry; exact L) end.
    erewrite IH by eauto. rewrite upd_upd. rewrite upd_same by exact E. apply node_eta.
Qed.
Lemma ipos_node : forall T t x, sub t T = Some x -> node_of t (ipos t T) = Some x.
Proof.
  induction T as [|n T IH]; intros t x S; cbn [sub ipos] in *; [exact S|].
  destruct (find_kid n (kids t) 0) as [(j, c)|] eqn:F; [|discriminate]. cbn [node_of]. apply find_kid_nth in F.
  match goal with |- context [nth_error ?a j] => replace (nth_error a j) with (Some (n, c)) by (symmetry; exact F) end. apply IH, S.
Qed.
Lemma find_kid_app : forall n k k' j, find_kid n (k ++ k') j = match find_kid n k j with Some y => Some y | None => find_kid n k' (j + length k) end.
Proof.
  induction k as [|(m, c) k IH]; intros k' j; cbn [app find_kid length]; [rewrite Nat.add_0_r; reflexivity|].
  destruct (bytes_eqb m n); [reflexivity|]. rewrite IH. destruct (find_kid n k (S j)); [reflexivity|]. f_equal. lia.
Qed.
Lemma find_kid_none : forall n k j, kid n k = None -> find_kid n k j = None.
Proof. intros n k j H. rewrite <- (find_kid_kid n k j) in H. destruct (find_kid n k j); [discriminate|reflexivity]. Qed.
Lemma ipos_added : forall T t x nm r, sub t T = Some x -> kid nm (kids x) = None ->
  ipos (at_pos (ipos t T) (append_row nm r) t) (T ++ [nm]) = ipos t T ++ [length (kids x)] /\
  sub (at_pos (ipos t T) (append_row nm r) t) (T ++ [nm]) = Some r.
Proof.
  induction T as [|n T IH]; intros t x nm r S K.
  - cbn in S. injection S as ->. cbn [ipos at_pos app append_row kids sub]. rewrite find_kid_app, find_kid_none by exact K.
    cbn [find_kid]. rewrite bytes_eqb_refl. auto.
  - cbn [sub] in S. cbn [ipos]. destruct (find_kid n (kids t) 0) as [(j, c)|] eqn:F; [|discriminate].
    pose proof (find_kid_nth _ _ _ _ F) as NT. cbn [at_pos]. rewrite NT. cbn [app ipos sub kids].
    assert (FU : forall c', find_kid n (upd (kids t) j (n, c')) 0 = Some (j, c')).
    { intros c'. clear -F. revert j F. induction (kids t) as [|(y, z) k IHk]; intros j F; cbn [find_kid] in F; [discriminate|].
      destruct (bytes_eqb y n) eqn:E.
      - injection F as <- <-. cbn [upd find_kid]. rewrite bytes_eqb_refl. reflexivity.
      - rewrite find_kid_shift in F. destruct (find_kid n k 0) as [(a, b)|] eqn:F2; cbn in F; [|discriminate].
        injection F as <- <-. rewrite Nat.add_1_r. cbn [upd find_kid]. rewrite E, find_kid_shift, (IHk a eq_refl). cbn. rewrite Nat.add_1_r. reflexivity. }
    rewrite FU. destruct (IH c x nm r S K) as [I1 I2]. rewrite I1, I2. auto.
Qed.
Lemma kid_drop_self : forall k j m c, nth_error k j = Some (m, c) -> NoDup (map fst k) -> kid m (drop_nth k j) = None.
Proof.
  induction k as [|(x, y) k IH]; intros j m c H N; destruct j; cbn in H; try discriminate; cbn [drop_nth]; inversion N as [|? ? NI ND]; subst.
  - injection H as -> ->. unfold kid. destruct (vfind (named m) k) as [(a, b)|] eqn:V; [|reflexivity]. exfalso. apply NI.
    clear -V. induction k as [|(u, v) k IHk]; cbn [vfind] in V; [discriminate|]. unfold named at 1 in V. cbn [fst] in V.
    destruct (bytes_eqb u m) eqn:E; [apply bytes_eqb_eq in E; subst; left; reflexivity|]. right. apply IHk, V.
  - rewrite kid_cons. destruct (bytes_eqb x m) eqn:E; [|eapply IH; eauto].
    apply bytes_eqb_eq in E. subst x. exfalso. apply NI. apply nth_error_In in H. apply (in_map fst) in H. exact H.
Qed.
Lemma delete_get : forall T t x nm row, sub t T = Some x -> NoDup (map fst (kids x)) -> sub t (T ++ [nm]) = Some row ->
  forall q, get (delete (ipos t (T ++ [nm])) t) q = match below (T ++ [nm]) q with Some _ => None | None => get t q end.
Proof.
  induction T as [|n T IH]; intros t x nm row S ND SR q.
  - cbn in S. injection S as ->. cbn [app ipos sub] in *. destruct (find_kid nm (kids x) 0) as [(j, c)|] eqn:F; [|discriminate].
    apply find_kid_nth in F. cbn [delete]. destruct q as [|m q]; [reflexivity|]. rewrite !get_cons. cbn [kids below].
    destruct (bytes_eqb nm m) eqn:E.
    + apply bytes_eqb_eq in E. subst m. pose proof (kid_drop_self _ _ _ _ F ND) as KD.
      match goal with |- context [kid nm ?a] => replace (kid nm a) with (@None tree) by (symmetry; exact KD) end. reflexivity.
    + pose proof (kid_drop _ _ _ _ m F E) as KD.
      match goal with |- context [kid m (drop_nth ?a ?b)] => replace (kid m (drop_nth a b)) with (kid m (kids x)) by (symmetry; exact KD) end. reflexivity.
  - cbn [sub app ipos] in *. destruct (find_kid n (kids t) 0) as [(j, c)|] eqn:F; [|discriminate].
    pose proof (find_kid_nth _ _ _ _ F) as NT.
    assert (PN : exists i rest, ipos c (T ++ [nm]) = i :: rest).
    { destruct T as [|y T]; cbn [app ipos sub] in *.
      - destruct (find_kid nm (kids c) 0) as [(i, z)|]; [eauto|discriminate].
      - destruct (find_kid y (kids c) 0) as [(i, z)|]; [eauto|discriminate]. }
    destruct PN as (i & rest & PN). rewrite PN, delete_cons.
    match goal with |- context [nth_error ?a j] => replace (nth_error a j) with (Some (n, c)) by (symmetry; exact NT) end.
    rewrite <- PN. destruct q as [|m q]; [reflexivity|]. rewrite !get_cons. cbn [kids below].
    assert (KE : forall c', kid m (upd (kids t) j (n, c')) = if bytes_eqb n m then Some c' else kid m (kids t)).
    { intros c'. clear -F. revert j F. induction (kids t) as [|(y, z) k IHk]; intros j F; cbn [find_kid] in F; [discriminate|].
      destruct (bytes_eqb y n) eqn:E.
      - injection F as <- <-. cbn [upd]. rewrite !kid_cons. apply bytes_eqb_eq in E. subst y. destruct (bytes_eqb n m); reflexivity.
      - rewrite find_kid_shift in F. destruct (find_kid n k 0) as [(a, b)|] eqn:F2; cbn in F; [|discriminate].
        injection F as <- <-. rewrite Nat.add_1_r. cbn [upd]. rewrite !kid_cons. rewrite (IHk a eq_refl).
        destruct (bytes_eqb y m) eqn:E2; [|reflexivity]. apply bytes_eqb_eq in E2. subst y. rewrite bytes_eqb_sym in E. rewrite E. reflexivity. }
    rewrite KE. destruct (bytes_eqb n m) eqn:E; [|reflexivity].
    rewrite (IH c x nm row S ND SR). apply bytes_eqb_eq in E. subst m.
    assert (KC : kid n (kids t) = Some c) by (rewrite <- (find_kid_kid n (kids t) 0), F; reflexivity). rewrite KC. reflexivity.
Qed.

(** ** the operations *)
Lemma getterless_get : forall t, (forall p i, get t p = Some i -> typ i =? TABLE = true -> getter i = false) <-> getterless t.
Proof.
  intros t. split.
  - intros H p u S. apply (H p). unfold get. rewrite S. reflexivity.
  - intros H p i G. unfold get in G. destruct (sub t p) eqn:S; [|discriminate]. injection G as <-. eauto.
Qed.
Lemma as_int_small : forall n, 0 <= n < 2^31 -> as_int n = n.
Proof. intros n H. unfold as_int. rewrite Z.mod_small; lia. Qed.
Lemma plain_snoc : forall T n, forallb plain_tok T = true -> plain_tok n = true -> forallb plain_tok (T ++ [n]) = true.
Proof. intros. rewrite forallb_app. cbn. rewrite H, H0. reflexivity. Qed.
Lemma row_tokens : forall T n, forallb good_name T = true -> good_name n = true -> tokens (dotted T ++ n) = T ++ [n].
Proof. intros. rewrite tokens_dotted, tokens_name by assumption. reflexivity. Qed.
Lemma table_tokens : forall T, forallb good_name T = true -> tokens (dotted T) = T.
Proof. intros. rewrite <- (app_nil_r (dotted T)), tokens_dotted, tokens_nil, app_nil_r by assumption. reflexivity. Qed.
Lemma snoc_nonempty : forall (T : list name) n, T ++ [n] <> [].
Proof. intros [|? ?] ?; discriminate. Qed.

Lemma sub_snoc : forall T t x n, sub t T = Some x -> sub t (T ++ [n]) = kid n (kids x).
Proof.
  intros. rewrite sub_app, H. cbn [sub]. rewrite <- (find_kid_kid n (kids x) 0). destruct (find_kid n (kids x) 0) as [(?, ?)|]; reflexivity.
Qed.

Lemma register_row_ok : forall t T n a,
  getterless t -> T <> [] -> forallb good_name T = true -> forallb plain_tok T = true -> 0 <= n < 2^31 ->
  (length (dotted T ++ print_dec n) < 256)%nat ->
  get t (T ++ [TEMPLATE]) <> None ->
  let row := dotted T ++ print_dec n in
  if match get t (T ++ [print_dec n]) with Some _ => true | None => false end
  then step t (RegisterRow (dotted T) n a) = Ok (t, E_INVALID_INPUT)
  else exists t', step t (RegisterRow (dotted T) n a) = Ok (t', E_SUCCESS) /\
    (forall q, get t' q = match below (T ++ [print_dec n]) q with Some r => get t (T ++ TEMPLATE :: r) | None => get t q end) /\
    step t' (RegisterRow (dotted T) n a) = Ok (t', E_INVALID_INPUT) /\
    step t' (UnregisterRow row) = Ok (t, E_SUCCESS).
Proof.
  intros t T n a G NE GN PL R LEN TM row.
  assert (RT : tokens row = T ++ [print_dec n]) by (apply row_tokens; auto using print_dec_good).
  assert (PR : forallb plain_tok (T ++ [print_dec n]) = true) by (apply plain_snoc; auto using print_dec_plain).
  assert (L : Nat.leb 256 (length (dotted T ++ print_dec n)) = false) by (apply Nat.leb_gt; exact LEN).
  assert (SX : exists x, sub t T = Some x).
  { unfold get in TM. rewrite sub_app in TM. destruct (sub t T); [eauto|]. cbn in TM. congruence. }
  destruct SX as [x SX].
  pose proof (sub_snoc T t x (print_dec n) SX) as SR. pose proof (sub_snoc T t x TEMPLATE SX) as ST.
  unfold get. rewrite SR. destruct (kid (print_dec n) (kids x)) as [row0|] eqn:K; cbn [option_map].
  - cbn [step]. rewrite as_int_small, L by exact R. fold row.
    rewrite (instance_plain t row _ G RT (snoc_nonempty _ _) PR), SR. reflexivity.
  - unfold get in TM. rewrite ST in TM. destruct (kid TEMPLATE (kids x)) as [tmpl|] eqn:KT; [|cbn in TM; congruence].
    assert (AR : add_row (ipos t T) x n a t = Ok (at_pos (ipos t T) (append_row (print_dec n) (set_alias a (dup tmpl))) t)).
    { unfold add_row. unfold kid in KT. destruct (vfind (named TEMPLATE) (kids x)) as [(m, c)|]; [|discriminate]. cbn in KT. injection KT as ->. reflexivity. }
    set (t' := at_pos (ipos t T) (append_row (print_dec n) (set_alias a (dup tmpl))) t) in *.
    pose proof (add_row_get t T x n a t' SX K AR) as GET.
    exists t'.
    assert (G' : getterless t').
    { apply getterless_get. intros p i H. rewrite GET in H. pose proof (proj2 (getterless_get t) G) as GG. destruct (below (T ++ [print_dec n]) p); eauto. }
    destruct (ipos_added T t x (print_dec n) (set_alias a (dup tmpl)) SX K) as [I1 I2]. fold t' in I1, I2.
    split; [|split; [|split]].
    + cbn [step]. rewrite as_int_small, L by exact R. fold row.
      rewrite (instance_plain t row _ G RT (snoc_nonempty _ _) PR), SR.
      rewrite (instance_plain t (dotted T) T G (table_tokens T GN) NE PL), SX, AR. reflexivity.
    + intros q. exact (GET q).
    + cbn [step]. rewrite as_int_small, L by exact R. fold row.
      rewrite (instance_plain t' row _ G' RT (snoc_nonempty _ _) PR), I2. reflexivity.
    + cbn [step]. rewrite (instance_plain t' row _ G' RT (snoc_nonempty _ _) PR), I2, I1.
      pose proof (ipos_node T t x SX) as IN. unfold t'. rewrite (delete_added _ _ _ _ _ IN). reflexivity.
Qed.

Lemma unregister_row_ok : forall t T n,
  names_unique t -> getterless t -> forallb good_name (T ++ [n]) = true -> forallb plain_tok (T ++ [n]) = true ->
  let row := dotted T ++ n in
  if match get t (T ++ [n]) with Some _ => true | None => false end
  then exists t', step t (UnregisterRow row) = Ok (t', E_SUCCESS) /\
    forall q, get t' q = match below (T ++ [n]) q with Some _ => None | None => get t q end
  else step t (UnregisterRow row) = Ok (t, E_INVALID_INPUT).
Proof.
  intros t T n NU G GN PL row. rewrite forallb_app in GN. apply andb_prop in GN as [GT GN]. cbn in GN. rewrite andb_true_r in GN.
  assert (RT : tokens row = T ++ [n]) by (apply row_tokens; auto).
  cbn [step]. rewrite (instance_plain t row _ G RT (snoc_nonempty _ _) PL). unfold get at 1.
  destruct (sub t (T ++ [n])) as [u|] eqn:S; cbn [option_map]; [|reflexivity].
  eexists. split; [reflexivity|].
  assert (SX : exists x, sub t T = Some x) by (rewrite sub_app in S; destruct (sub t T); [eauto|discriminate]).
  destruct SX as [x SX]. exact (delete_get T t x n u SX (NU T x SX) S).
Qed.

(** ** by alias *)
Definition bracket (a : name) : name := bs "[" ++ a ++ bs "]".
Lemma inst_same_token : forall T t x y y' r, getterless t -> forallb plain_tok T = true -> sub t T = Some x ->
  bytes_eqb y (bs "*") = false -> bytes_eqb y' (bs "*") = false ->
  find_inst (is_table x) true y (kids x) 0 = find_inst (is_table x) true y' (kids x) 0 ->
  forall first rest first' rest', T ++ y :: r = first :: rest -> T ++ y' :: r = first' :: rest' ->
  inst_loop t false first rest = inst_loop t false first' rest'.
Proof.
  induction T as [|n T IH]; intros t x y y' r G P S Y Y' F first rest first' rest' E E'.
  - cbn in S. injection S as ->. cbn in E, E'. injection E as <- <-. injection E' as <- <-. destruct r; cbn [inst_loop]; rewrite F; reflexivity.
  - cbn [app] in E, E'. injection E as <- <-. injection E' as <- <-. cbn [forallb] in P. apply andb_prop in P as [P1 P2].
    cbn [sub] in S. destruct (find_kid n (kids t) 0) as [(j, c)|] eqn:FK; [|discriminate].
    assert (GC : getterless c) by (eapply getterless_kid; eauto).
    pose proof (GC [] c eq_refl) as GI.
    assert (H : forall z, exists hd tl, T ++ z :: r = hd :: tl /\ (bytes_eqb z (bs "*") = false -> bytes_eqb hd (bs "*") = false)).
    { intros z. destruct T as [|m T]; cbn [app]; [eauto|]. exists m, (T ++ z :: r). split; [reflexivity|]. intros _.
      cbn [forallb] in P2. apply andb_prop in P2 as [P2 _]. unfold plain_tok in P2. apply andb_prop in P2 as [P2 _]. destruct (bytes_eqb m (bs "*")); [discriminate|reflexivity]. }
    destruct (H y) as (hd & tl & E1 & S1). destruct (H y') as (hd' & tl' & E2 & S2). rewrite E1, E2. specialize (S1 Y). specialize (S2 Y').
    cbn [inst_loop]. rewrite find_inst_plain, FK by exact P1. destruct (kids c) eqn:KC; [reflexivity|]. rewrite S1, S2. cbn [orb].
    assert (W : (if is_table c then false else false) = false) by (destruct (is_table c); reflexivity). rewrite W. cbn [orb].
    assert (W2 : is_table c && getter (inf c) = false) by (destruct (is_table c); [rewrite GI|]; reflexivity). rewrite W2.
    rewrite (IH c x y y' r GC P2 S Y Y' F hd tl hd' tl' E1 E2). reflexivity.
Qed.
Lemma find_inst_app : forall rows tok k k' first j, find_inst rows first tok (k ++ k') j =
  match find_inst rows first tok k j with Some y => Some y | None => find_inst rows (match k with [] => first | _ => false end) tok k' (j + length k) end.
Proof.
  induction k as [|(m, c) k IH]; intros k' first j; cbn [app find_inst length]; [rewrite Nat.add_0_r; reflexivity|].
  destruct (bytes_eqb m tok || (negb first && rows && alias_is tok c)); [reflexivity|]. rewrite IH.
  destruct (find_inst rows false tok k (S j)); [reflexivity|]. rewrite Nat.add_succ_r. cbn [Nat.add]. destruct k; reflexivity.
Qed.
Lemma sub_at_pos : forall T t x f, sub t T = Some x -> sub (at_pos (ipos t T) f t) T = Some (f x).
Proof.
  induction T as [|n T IH]; intros t x f S.
  - cbn in *. injection S as ->. reflexivity.
  - cbn [sub] in S. cbn [ipos]. destruct (find_kid n (kids t) 0) as [(j, c)|] eqn:F; [|discriminate].
    pose proof (find_kid_nth _ _ _ _ F) as NT. cbn [at_pos]. rewrite NT. cbn [sub kids].
    assert (FU : forall c', find_kid n (upd (kids t) j (n, c')) 0 = Some (j, c')).
    { intros c'. clear -F. revert j F. induction (kids t) as [|(y, z) k IHk]; intros j F; cbn [find_kid] in F; [discriminate|].
      destruct (bytes_eqb y n) eqn:E.
      - injection F as <- <-. cbn [upd find_kid]. rewrite bytes_eqb_refl. reflexivity.
      - rewrite find_kid_shift in F. destruct (find_kid n k 0) as [(a, b)|] eqn:F2; cbn in F; [|discriminate].
        injection F as <- <-. rewrite Nat.add_1_r. cbn [upd find_kid]. rewrite E, find_kid_shift, (IHk a eq_refl). cbn. rewrite Nat.add_1_r. reflexivity. }
    rewrite FU. apply IH, S.
Qed.
Lemma bracket_star : forall a, bytes_eqb (bracket a) (bs "*") = false.
Proof. intros a. apply bytes_eqb_neq. intros H. discriminate. Qed.
Lemma bracket_good : forall a, good_name a = true -> good_name (bracket a) = true.
Proof.
  intros a H. unfold good_name in H. apply andb_prop in H as [_ H]. unfold good_name, bracket. cbn [app bs map list_ascii_of_string].
  rewrite app_comm_cons, forallb_app. cbn [forallb andb]. rewrite H. reflexivity.
Qed.

(** the alias given at registration names the same row as the number *)
Lemma alias_row_ok : forall t T n a t' r,
  getterless t -> T <> [] -> forallb good_name T = true -> forallb plain_tok T = true -> 0 <= n < 2^31 ->
  table_at (get t) T = true -> good_name a = true ->
  (forall x, sub t T = Some x -> find_inst true true (bracket a) (kids x) 0 = None) ->
  step t (RegisterRow (dotted T) n (Some a)) = Ok (t', E_SUCCESS) ->
  forallb good_name r = true ->
  retrieve_instance t' (dotted (T ++ [bracket a]) ++ dotted r) = retrieve_instance t' (dotted (T ++ [print_dec n]) ++ dotted r).
Proof.
  intros t T n a t' r G NE GN PL R TB GA FR ST GR.
  assert (RT : tokens (dotted T ++ print_dec n) = T ++ [print_dec n]) by (apply row_tokens; auto using print_dec_good).
  assert (PR : forallb plain_tok (T ++ [print_dec n]) = true) by (apply plain_snoc; auto using print_dec_plain).
  cbn [step] in ST. rewrite as_int_small in ST by exact R.
  destruct (Nat.leb 256 (length (dotted T ++ print_dec n))); [injection ST as _ H; discriminate|].
  rewrite (instance_plain t _ _ G RT (snoc_nonempty _ _) PR), (instance_plain t (dotted T) T G (table_tokens T GN) NE PL) in ST.
  unfold table_at, get in TB. destruct (sub t T) as [x|] eqn:SX; [|discriminate]. cbn in TB.
  pose proof (sub_snoc T t x (print_dec n) SX) as SR. rewrite SR in ST.
  destruct (kid (print_dec n) (kids x)) as [|] eqn:K; [injection ST as _ H; discriminate|].
  specialize (FR x eq_refl). unfold add_row in ST.
  destruct (vfind (named TEMPLATE) (kids x)) as [(m, tmpl)|] eqn:V; [|discriminate]. injection ST as <-.
  change (fun tb : tree => Node (inf tb) (alias tb) (kids tb ++ [(print_dec n, set_alias (Some a) (dup tmpl))])) with (append_row (print_dec n) (set_alias (Some a) (dup tmpl))).
  set (f := append_row (print_dec n) (set_alias (Some a) (dup tmpl))).
  set (t' := at_pos (ipos t T) f t).
  assert (AR : add_row (ipos t T) x n (Some a) t = Ok t') by (unfold add_row; rewrite V; reflexivity).
  pose proof (add_row_get t T x n (Some a) t' SX K AR) as GET.
  assert (G' : getterless t').
  { apply getterless_get. intros p i H. rewrite GET in H. pose proof (proj2 (getterless_get t) G) as GG. destruct (below (T ++ [print_dec n]) p); eauto. }
  assert (SF : sub t' T = Some (f x)) by (apply sub_at_pos; exact SX).
  unfold retrieve_instance.
  assert (TA : forall z, good_name z = true -> tokens (dotted (T ++ [z]) ++ dotted r) = T ++ z :: r).
  { intros z GZ. rewrite tokens_dotted, table_tokens by (rewrite ?forallb_app; cbn; rewrite ?GN, ?GZ; auto). rewrite <- app_assoc. reflexivity. }
  rewrite (TA _ (bracket_good a GA)), (TA _ (print_dec_good n)).
  destruct (T ++ bracket a :: r) as [|hd tl] eqn:E1; [destruct T; discriminate|].
  destruct (T ++ print_dec n :: r) as [|hd' tl'] eqn:E2; [destruct T; discriminate|].
  assert (NS : bytes_eqb (print_dec n) (bs "*") = false).
  { pose proof (print_dec_plain n) as PP. unfold plain_tok in PP. apply andb_prop in PP as [PP _]. destruct (bytes_eqb (print_dec n) (bs "*")); [discriminate|reflexivity]. }
  refine (inst_same_token T t' (f x) (bracket a) (print_dec n) r G' PL SF (bracket_star a) NS _ _ _ _ _ E1 E2).
  - assert (IT : is_table (f x) = true) by exact TB. rewrite IT. unfold f, append_row. cbn [kids]. rewrite !find_inst_app, FR.
    rewrite (find_inst_plain true (print_dec n)), find_kid_none by (try exact K; apply print_dec_plain).
    cbn [find_inst]. rewrite bytes_eqb_refl. cbn [orb].
    destruct (kids x) as [|kc k] eqn:KX; [cbn in V; discriminate|]. cbn [negb andb orb].
    assert (AI : alias_is (bracket a) (set_alias (Some a) (dup tmpl)) = true).
    { unfold alias_is. destruct tmpl as [i0 a0 k0]. cbn [dup set_alias alias]. unfold bracket. rewrite bytes_eqb_refl, andb_true_r.
      apply good_nonempty in GA as [GA _]. destruct a; [congruence|]. apply Nat.ltb_lt. cbn. rewrite app_length. cbn. lia. }
    rewrite AI, orb_true_r. reflexivity.
Qed.

(** ** names stay unique *)
Inductive uniq : tree -> Prop :=
| U i a k : NoDup (map fst k) -> Forall (fun nc => uniq (snd nc)) k -> uniq (Node i a k).
Lemma uniq_inv : forall t, uniq t -> NoDup (map fst (kids t)) /\ Forall (fun nc => uniq (snd nc)) (kids t).
Proof. intros t H. inversion H; subst; auto. Qed.
Lemma uniq_mk : forall i a k, NoDup (map fst k) -> Forall (fun nc => uniq (snd nc)) k -> uniq (Node i a k).
Proof. constructor; auto. Qed.
Lemma uniq_names : forall t, uniq t -> names_unique t.
Proof.
  intros t H p. revert t H. induction p as [|n p IH]; intros t H u S.
  - cbn in S. injection S as ->. apply uniq_inv in H as [H _]. exact H.
  - cbn [sub] in S. destruct (find_kid n (kids t) 0) as [(j, c)|] eqn:F; [|discriminate]. apply find_kid_nth in F. apply nth_error_In in F.
    apply uniq_inv in H as [_ H]. rewrite Forall_forall in H. specialize (H _ F). eauto.
Qed.

Lemma map_keep : forall (f : tree -> tree) (k : list (name * tree)), map fst (map (fun kc => (fst kc, f (snd kc))) k) = map fst k.
Proof. induction k; cbn; congruence. Qed.
Lemma vupdate_keep : forall (p : name * tree -> bool) (f : tree -> tree) k, map fst (vupdate p (fun kc => (fst kc, f (snd kc))) k) = map fst k.
Proof. induction k as [|x k IH]; cbn [vupdate]; [reflexivity|]. destruct (p x); cbn [map fst]; congruence. Qed.
Lemma vupdate_forall : forall (p : name * tree -> bool) (f : tree -> tree) k,
  (forall x, In x k -> uniq (snd x) -> uniq (f (snd x))) -> Forall (fun nc => uniq (snd nc)) k -> Forall (fun nc => uniq (snd nc)) (vupdate p (fun kc => (fst kc, f (snd kc))) k).
Proof.
  induction k as [|x k IH]; intros H F; cbn [vupdate]; [constructor|]. inversion F; subst. destruct (p x).
  - constructor; auto. cbn. apply H; auto. left; reflexivity.
  - constructor; auto. apply IH; auto. intros. apply H; auto. right; auto.
Qed.
Lemma vhas_none : forall n (k : list (name * tree)), vhas (named n) k = false -> ~ In n (map fst k).
Proof.
  intros n k. unfold vhas. induction k as [|(m, c) k IH]; cbn [vfind]; [intros _ []|]. unfold named at 1. cbn [fst].
  destruct (bytes_eqb m n) eqn:E; [discriminate|]. intros H [Q|Q]; [cbn in Q; subst; rewrite bytes_eqb_refl in E; discriminate|exact (IH H Q)].
Qed.
Lemma nodup_snoc : forall {A} (l : list A) x, NoDup l -> ~ In x l -> NoDup (l ++ [x]).
Proof.
  induction l as [|y l IH]; intros x N I; cbn [app]; [constructor; [intros []|constructor]|]. inversion N; subst.
  constructor; [rewrite in_app_iff; intros [H|[H|[]]]; [auto|subst; apply I; left; reflexivity]|]. apply IH; auto. intros H. apply I. right; auto.
Qed.
Lemma vfind_In : forall {A} (p : A -> bool) k x, vfind p k = Some x -> In x k.
Proof. induction k as [|y k IH]; intros x H; cbn [vfind] in H; [discriminate|]. destruct (p y); [injection H as ->; left; reflexivity|right; auto]. Qed.
Lemma get_none : forall x n, get x [n] = None -> kid n (kids x) = None.
Proof. intros x n H. rewrite get_cons in H. destruct (kid n (kids x)); [cbn in H; discriminate|reflexivity]. Qed.
Lemma uniq_empty : uniq empty.
Proof. constructor; constructor. Qed.
Lemma set_node_uniq : forall i t, uniq t -> uniq (set_node i t).
Proof.
  intros i [i0 a k] H. apply uniq_inv in H as [H1 H2]. unfold set_node. cbn [inf alias kids] in *.
  destruct (typ i =? TABLE); apply uniq_mk; auto; cbn; repeat constructor; try (intros []).
Qed.
Lemma insert_uniq : forall p i t, uniq t -> uniq (insert p i t).
Proof.
  induction p as [|n p IH]; intros i t H; cbn [insert]; [apply set_node_uniq, H|].
  apply uniq_inv in H as [H1 H2]. destruct (vhas (named n) (kids t)) eqn:V; apply uniq_mk.
  - rewrite (vupdate_keep (named n) (insert p i)). exact H1.
  - apply (vupdate_forall (named n) (insert p i)); auto.
  - rewrite map_app. apply nodup_snoc; auto. apply vhas_none, V.
  - apply Forall_app. split; auto. constructor; [apply IH, uniq_empty|constructor].
Qed.
Lemma dup_uniq : forall t, uniq t -> uniq (dup t).
Proof.
  fix D 2. intros t [i a k N F]. cbn [dup]. apply uniq_mk; [rewrite (map_keep dup); exact N|].
  clear N. induction F as [|x k H F IH]; cbn [map]; constructor; auto. cbn. apply D, H.
Qed.
Lemma chain_uniq : forall p t, uniq t -> Forall (fun nc => uniq (snd nc)) (chain_of t p).
Proof.
  induction p as [|n p IH]; intros t H; cbn [chain_of]; [constructor|]. destruct (vfind (named n) (kids t)) as [(m, c)|] eqn:V; [|constructor].
  apply uniq_inv in H as [_ H]. rewrite Forall_forall in H. apply vfind_In in V. pose proof (H _ V). constructor; auto.
Qed.
Lemma rep_uniq : forall ch t, Forall (fun nc => uniq (snd nc)) ch -> uniq t -> uniq (rep ch t).
Proof.
  induction ch as [|(n, s) ch IH]; intros t F H; cbn [rep]; [exact H|]. inversion F as [|? ? F1 F2]; subst. cbn in F1.
  apply uniq_inv in H as [H1 H2]. destruct (is_table t); [|destruct (vhas (named n) (kids t)) eqn:V]; apply uniq_mk.
  - rewrite (map_keep (rep ch)). exact H1.
  - apply Forall_map. eapply Forall_impl; [|exact H2]. cbn. auto.
  - rewrite (vupdate_keep (named n) (rep ch)). exact H1.
  - apply (vupdate_forall (named n) (rep ch)); auto.
  - rewrite map_app. apply nodup_snoc; auto. apply vhas_none, V.
  - apply Forall_app. split; auto. constructor; [apply dup_uniq, F1|constructor].
Qed.
Lemma replicate_uniq : forall p t, uniq t -> uniq (replicate p t).
Proof.
  induction p as [|n p IH]; intros t H; cbn [replicate]; [exact H|]. pose proof H as H0. apply uniq_inv in H as [H1 H2].
  destruct (is_table t); apply uniq_mk.
  - match goal with |- NoDup ?l => replace l with (map fst (kids t)) end; [exact H1|].
    rewrite map_map. apply map_ext. intros kc. destruct (is_row kc); reflexivity.
  - apply Forall_map. eapply Forall_impl; [|exact H2]. cbv beta. intros kc U. destruct (is_row kc); [|exact U]. cbn. apply rep_uniq; auto.
    destruct (vfind (named n) (kids t)) as [(m, c)|] eqn:V; [|constructor]. apply chain_uniq. apply vfind_In in V. rewrite Forall_forall in H2. apply (H2 _ V).
  - rewrite (vupdate_keep (named n) (replicate p)). exact H1.
  - apply (vupdate_forall (named n) (replicate p)); auto.
Qed.
Lemma upd_map_fst : forall (k : list (name * tree)) j m c c', nth_error k j = Some (m, c) -> map fst (upd k j (m, c')) = map fst k.
Proof. induction k as [|x k IH]; intros [|j] m c c' H; cbn in *; try discriminate; [injection H as ->; reflexivity|]. f_equal. eauto. Qed.
Lemma upd_forall : forall {A} (P : A -> Prop) k j x, Forall P k -> P x -> Forall P (upd k j x).
Proof. induction k as [|y k IH]; intros [|j] x F H; cbn; auto; inversion F; subst; constructor; auto. Qed.
Lemma at_pos_uniq : forall pos f t x, node_of t pos = Some x -> uniq t -> (uniq x -> uniq (f x)) -> uniq (at_pos pos f t).
Proof.
  induction pos as [|j pos IH]; intros f t x N H F; cbn [node_of at_pos] in *; [injection N as ->; auto|].
  destruct (nth_error (kids t) j) as [(m, c)|] eqn:E; [|exact H]. apply uniq_inv in H as [H1 H2].
  assert (UC : uniq c). { rewrite Forall_forall in H2. apply nth_error_In in E. apply (H2 _ E). }
  apply uniq_mk.
  - rewrite (upd_map_fst (kids t) j m c _ E). exact H1.
  - apply upd_forall; auto. cbn. eapply IH; eauto.
Qed.
Lemma drop_forall : forall {A} (P : A -> Prop) k j, Forall P k -> Forall P (drop_nth k j).
Proof. induction k as [|y k IH]; intros [|j] F; cbn; auto; inversion F; subst; auto. Qed.
Lemma drop_incl : forall {A} (k : list A) j x, In x (drop_nth k j) -> In x k.
Proof. induction k as [|y k IH]; intros [|j] x H; cbn in *; auto. destruct H; auto. right. eauto. Qed.
Lemma drop_nodup : forall (k : list (name * tree)) j, NoDup (map fst k) -> NoDup (map fst (drop_nth k j)).
Proof.
  induction k as [|y k IH]; intros [|j] F; cbn in *; auto; inversion F as [|? ? NI N]; subst; auto. constructor; auto.
  intros H. apply NI. apply in_map_iff in H as (z & E & Z). apply drop_incl in Z. rewrite <- E. apply in_map, Z.
Qed.
Lemma delete_uniq : forall pos t, uniq t -> uniq (delete pos t).
Proof.
  induction pos as [|j pos IH]; intros t H; [exact H|]. pose proof H as H0. apply uniq_inv in H as [H1 H2]. destruct pos as [|j' pos].
  - cbn [delete]. apply uniq_mk; [apply drop_nodup, H1|apply drop_forall, H2].
  - rewrite delete_cons. destruct (nth_error (kids t) j) as [(m, c)|] eqn:E; [|exact H0].
    assert (UC : uniq c). { rewrite Forall_forall in H2. apply nth_error_In in E. apply (H2 _ E). }
    apply uniq_mk.
    + rewrite (upd_map_fst (kids t) j m c _ E). exact H1.
    + apply upd_forall; auto. cbn. apply IH; auto.
Qed.
Lemma set_alias_uniq : forall a t, uniq t -> uniq (set_alias a t).
Proof. intros a [i b k] H. inversion H; subst. constructor; auto. Qed.
Lemma kid_in : forall n (k : list (name * tree)), kid n k = None -> ~ In n (map fst k).
Proof. intros n k H. apply vhas_none. unfold vhas. unfold kid in H. destruct (vfind (named n) k); [discriminate|reflexivity]. Qed.
Lemma add_row_uniq : forall pos x n a t t', node_of t pos = Some x -> kid (print_dec n) (kids x) = None -> uniq t -> add_row pos x n a t = Ok t' -> uniq t'.
Proof.
  intros pos x n a t t' N K H E. unfold add_row in E. destruct (vfind (named TEMPLATE) (kids x)) as [(m, c)|] eqn:V; [|discriminate]. injection E as <-.
  eapply at_pos_uniq; eauto. intros UX. apply uniq_inv in UX as [U1 U2]. apply uniq_mk.
  - rewrite map_app. apply nodup_snoc; auto. apply kid_in, K.
  - apply Forall_app. split; auto. constructor; [|constructor]. cbn. apply set_alias_uniq, dup_uniq. apply vfind_In in V. rewrite Forall_forall in U2. apply (U2 _ V).
Qed.
Lemma inst_loop_node : forall rest t w first pos x, inst_loop t w first rest = Some (pos, x) -> node_of t pos = Some x.
Proof.
  assert (FN : forall rows tok k first j i c, find_inst rows first tok k j = Some (i, c) -> (j <= i)%nat /\ exists m, nth_error k (i - j) = Some (m, c)).
  { induction k as [|(m, y) k IH]; intros first j i c H; cbn [find_inst] in H; [discriminate|].
    destruct (bytes_eqb m tok || (negb first && rows && alias_is tok y)).
    - injection H as <- <-. split; [lia|]. rewrite Nat.sub_diag. cbn. eauto.
    - apply IH in H as [L (m' & H)]. split; [lia|]. replace (i - j)%nat with (S (i - S j)) by lia. cbn. eauto. }
  induction rest as [|tok rest IH]; intros t w first pos x H; cbn [inst_loop] in H;
    destruct (find_inst (is_table t) true first (kids t) 0) as [(j, c)|] eqn:F; try discriminate;
    apply FN in F as [_ (m & F)]; rewrite Nat.sub_0_r in F.
  - injection H as <- <-. cbn [node_of]. rewrite F. reflexivity.
  - destruct (kids c) eqn:KC; [discriminate|].
    match type of H with match ?e with _ => _ end = _ => destruct e as [(p', x')|] eqn:E; [|discriminate] end.
    injection H as <- <-. cbn [node_of]. rewrite F. eapply IH; eauto.
Qed.
Lemma instance_node : forall t s pos x, retrieve_instance t s = Some (pos, x) -> node_of t pos = Some x.
Proof. intros t s pos x H. unfold retrieve_instance in H. destruct (tokens s); [discriminate|]. eapply inst_loop_node; eauto. Qed.

Lemma step_unique : forall t o t' e, uniq t -> fresh_op t o -> step t o = Ok (t', e) -> uniq t'.
Proof.
  intros t o t' e H F S. destruct o as [s i|tb n a|row|tb a ans|row ok]; cbn [step fresh_op] in *.
  - destruct s; injection S as <- _; auto. unfold insert_element. apply replicate_uniq, insert_uniq, H.
  - destruct (Nat.leb 256 (length (tb ++ print_dec (as_int n)))); [injection S as <- _; auto|].
    destruct (retrieve_instance t (tb ++ print_dec (as_int n))); [injection S as <- _; auto|].
    destruct (retrieve_instance t tb) as [(pos, x)|] eqn:R; [|injection S as <- _; auto].
    destruct (add_row pos x n a t) as [t2| |] eqn:A; cbn in S; try discriminate. injection S as <- _.
    eapply add_row_uniq; eauto using instance_node, get_none.
  - destruct (retrieve_instance t row) as [(pos, x)|]; injection S as <- _; auto using delete_uniq.
  - destruct (retrieve t tb); [|injection S as <- _; auto].
    destruct (retrieve_instance t tb) as [(pos, x)|] eqn:R; [|injection S as <- _; auto].
    destruct ans as [n|]; [|injection S as <- _; auto].
    destruct (add_row pos x n a t) as [t2| |] eqn:A; cbn in S; try discriminate. injection S as <- _.
    eapply add_row_uniq; eauto using instance_node, get_none.
  - destruct (retrieve t row); [|injection S as <- _; auto].
    destruct (retrieve_instance t row) as [(pos, x)|]; [|injection S as <- _; auto].
    destruct ok; injection S as <- _; auto using delete_uniq.
Qed.
Lemma run_unique : forall l t t', uniq t -> fresh t l -> run t l = Ok t' -> uniq t'.
Proof.
  induction l as [|o l IH]; intros t t' U F R; cbn [run fresh] in *; [injection R as <-; exact U|].
  destruct F as [F1 F2]. destruct (step t o) as [(t2, e)| |] eqn:S; cbn in R; try discriminate. eapply IH; [|exact F2|exact R]. eapply step_unique; eauto.
Qed.
Lemma unique_ok : forall l t, fresh empty l -> run empty l = Ok t -> names_unique t.
Proof. intros. apply uniq_names. eapply run_unique; eauto using uniq_empty. Qed.
