(** Proofs about partial path and wildcard queries (C69, C70). *)
From Coq Require Import String Sorted.
From Verif Require Import Common CommonFacts VecList TextModel Errors ElemModel ElemSpec ElemProofs ElemRows WalkModel WalkSpec.
From Coq Require Import Lia.
Local Open Scope string_scope.
Local Open Scope list_scope.
Local Open Scope Z_scope.

(** ** induction over trees *)
Lemma tree_rect' : forall P : tree -> Prop,
  (forall i a k, (forall n c, In (n, c) k -> P c) -> P (Node i a k)) -> forall t, P t.
Proof.
  intros P H. fix IH 1. intros [i a k]. apply H.
  induction k as [|[m d] k IHk]; intros n c H0; [destruct H0|]. destruct H0 as [E|E]; [injection E as <- <-; apply IH|exact (IHk _ _ E)].
Qed.

(** ** the positions that answer *)
Definition skips (i : info) (n : name) (c : tree) : bool := (typ i =? TABLE) && bytes_eqb n TEMPLATE && negb (getter (inf c)).
Definition childless (c : tree) : bool := match kids c with [] => true | _ => false end.
Fixpoint sources (t : tree) {struct t} : list (list nat) :=
  match t with
  | Node i _ k =>
    if (typ i =? TABLE) && getter i then [[]] else
    (fix go (k : list (name * tree)) (j : nat) : list (list nat) :=
       match k with
       | [] => []
       | (n, c) :: k =>
         (if negb (is_table c) && getter (inf c) then [[j]]
          else if negb (childless c) && negb (skips i n c) then map (cons j) (sources c) else []) ++ go k (S j)
       end) k 0%nat
  end.
Definition part (i : info) (j : nat) (n : name) (c : tree) : list (list nat) :=
  if negb (is_table c) && getter (inf c) then [[j]]
  else if negb (childless c) && negb (skips i n c) then map (cons j) (sources c) else [].
Fixpoint parts (i : info) (k : list (name * tree)) (j : nat) : list (list nat) :=
  match k with [] => [] | (n, c) :: k => part i j n c ++ parts i k (S j) end.
Lemma sources_eq : forall i a k, sources (Node i a k) = if (typ i =? TABLE) && getter i then [[]] else parts i k 0.
Proof.
  intros i a k. cbn [sources]. destruct ((typ i =? TABLE) && getter i); [reflexivity|].
  generalize 0%nat. induction k as [|[n c] k IH]; intros j; [reflexivity|]. cbn [parts]. rewrite IH. reflexivity.
Qed.
Lemma parts_in : forall i k j p, In p (parts i k j) <-> exists m n c, nth_error k m = Some (n, c) /\ In p (part i (j + m) n c).
Proof.
  induction k as [|[n c] k IH]; intros j p; cbn [parts].
  - split; [intros []|]. intros ([|m] & n & c & E & _); discriminate.
  - rewrite in_app_iff, IH. split.
    + intros [H|(m & n' & c' & E & H)].
      * exists 0%nat, n, c. rewrite Nat.add_0_r. auto.
      * exists (S m), n', c'. rewrite Nat.add_succ_r. auto.
    + intros ([|m] & n' & c' & E & H).
      * injection E as <- <-. rewrite Nat.add_0_r in H. auto.
      * right. exists m, n', c'. rewrite Nat.add_succ_r in H. auto.
Qed.
Lemma part_in : forall i j n c p, In p (part i j n c) <->
  (p = [j] /\ is_table c = false /\ getter (inf c) = true) \/
  (exists q, p = j :: q /\ In q (sources c) /\ (is_table c = true \/ getter (inf c) = false) /\ kids c <> [] /\ skips i n c = false).
Proof.
  intros i j n c p. unfold part, childless. destruct (negb (is_table c) && getter (inf c)) eqn:G.
  - apply andb_prop in G as [G1 G2]. destruct (is_table c); [discriminate|]. cbn [In]. split.
    + intros [<-|[]]. auto.
    + intros [(-> & _)|(q & _ & _ & [A|A] & _)]; [auto| |]; congruence.
  - destruct (kids c) eqn:K; cbn [negb andb].
    + split; [intros []|]. intros [(_ & A & B)|(q & _ & _ & _ & N & _)]; [rewrite A, B in G; discriminate|congruence].
    + destruct (skips i n c) eqn:SK; cbn [negb andb].
      * split; [intros []|]. intros [(_ & A & B)|(q & _ & _ & _ & _ & N)]; [rewrite A, B in G; discriminate|congruence].
      * rewrite in_map_iff. split.
        -- intros (q & <- & H). right. exists q. repeat split; auto; try congruence. destruct (is_table c); auto.
        -- intros [(_ & A & B)|(q & -> & H & _)]; [rewrite A, B in G; discriminate|eauto].
Qed.

Lemma sources_answers : forall t pos, In pos (sources t) <-> answers t pos.
Proof.
  induction t as [i a k IH] using tree_rect'. intros pos. rewrite sources_eq.
  destruct ((typ i =? TABLE) && getter i) eqn:TG.
  - apply andb_prop in TG as [T G]. split.
    + intros [<-|[]]. exists (Node i a k). split; [reflexivity|]. split; [exact G|]. split; [intros _; exact T|]. split; [congruence|]. split.
      * intros a0 b y P NB. destruct a0, b; try discriminate. congruence.
      * intros a0 j b y n c P. destruct a0; discriminate.
    + intros (x & NX & GX & _ & _ & ST & _). destruct pos as [|j pos]; [left; reflexivity|].
      destruct (ST [] (j :: pos) (Node i a k)) as [_ E]; auto; [discriminate|]. unfold is_table in E. cbn [inf] in E. congruence.
  - assert (TN : getter i = true -> typ i =? TABLE = false) by (intros B; rewrite B, andb_true_r in TG; exact TG).
    rewrite parts_in. split.
    + intros (m & n & c & E & H). cbn [Nat.add] in H. assert (IC : In (n, c) k) by (eapply nth_error_In; eauto).
      apply part_in in H as [(-> & TC & GC)|(q & -> & H & TC & KC & SK)].
      * exists c. split; [cbn [node_of kids]; rewrite E; reflexivity|]. split; [exact GC|]. split; [discriminate|]. split; [congruence|]. split.
        -- intros a0 b y P NB NY GY. destruct a0 as [|y' a0]; [|destruct a0, b; try discriminate; congruence].
           split; [reflexivity|]. cbn in NY. injection NY as <-. apply TN, GY.
        -- intros a0 j b y n' c' P NB. destruct a0 as [|? [|? ?]]; cbn in P; try discriminate P. injection P as <- <-. congruence.
      * apply (IH n c IC) in H as (x & NX & GX & R1 & R2 & R3 & R4). exists x.
        split; [cbn [node_of kids]; rewrite E; exact NX|]. split; [exact GX|]. split; [discriminate|]. split; [|split].
        -- intros _ TX. destruct q as [|j q]; [|apply R2; auto; discriminate]. cbn in NX. injection NX as <-. exact KC.
        -- intros a0 b y P NB NY GY. destruct a0 as [|j0 a0].
           { split; [reflexivity|]. cbn in NY. injection NY as <-. apply TN, GY. }
           cbn [app] in P. injection P as <- ->. cbn [node_of kids] in NY. rewrite E in NY.
           destruct (R3 a0 b y eq_refl NB NY GY) as [-> TY]. cbn in NY. injection NY as <-. destruct TC; congruence.
        -- intros a0 j b y n' c' P NB NY TY NE ->. destruct a0 as [|j0 a0]; cbn [app] in P; injection P as <- ->.
           ++ cbn in NY. injection NY as <-. cbn [kids] in NE. rewrite E in NE. injection NE as -> <-. unfold is_table in TY. cbn [inf] in TY.
              unfold skips in SK. rewrite TY, bytes_eqb_refl in SK. cbn [andb] in SK. destruct (getter (inf c)) eqn:GC; [|discriminate].
              destruct (R3 [] b c eq_refl NB eq_refl GC) as [_ B]. destruct TC; congruence.
           ++ cbn [node_of kids] in NY. rewrite E in NY. exact (R4 a0 j b y TEMPLATE c' eq_refl NB NY TY NE eq_refl).
    + intros (x & NX & GX & R1 & R2 & R3 & R4). destruct pos as [|j pos].
      { cbn in NX. injection NX as <-. specialize (R1 eq_refl). unfold is_table in R1. cbn [inf] in *. rewrite R1, GX in TG. discriminate. }
      cbn [node_of kids] in NX. destruct (nth_error k j) as [(n, c)|] eqn:E; [|discriminate]. exists j, n, c. split; [exact E|]. cbn [Nat.add].
      assert (IC : In (n, c) k) by (eapply nth_error_In; eauto).
      apply part_in. destruct pos as [|j' pos].
      * cbn in NX. injection NX as <-. destruct (is_table c) eqn:TC; [|auto]. right. exists []. split; [reflexivity|].
        assert (KC : kids c <> []) by (apply R2; auto; discriminate).
        split.
        -- destruct c as [ci ca ck]. rewrite sources_eq. unfold is_table in TC. cbn [inf] in *. rewrite TC, GX. left. reflexivity.
        -- split; [auto|]. split; [exact KC|]. unfold skips. rewrite GX. rewrite !andb_false_r. reflexivity.
      * right. exists (j' :: pos). split; [reflexivity|].
        assert (GC : getter (inf c) = false).
        { destruct (getter (inf c)) eqn:GC; [|reflexivity]. destruct (R3 [j] (j' :: pos) c) as [B _]; auto; try discriminate. cbn [node_of kids]. rewrite E. reflexivity. }
        assert (KC : kids c <> []). { intros B. cbn [node_of] in NX. rewrite B in NX. destruct j'; discriminate. }
        split.
        -- apply (IH n c IC). exists x. split; [exact NX|]. split; [exact GX|]. split; [discriminate|]. split; [|split].
           ++ intros _ TX. apply R2; auto; discriminate.
           ++ intros a0 b y P NB NY GY. destruct (R3 (j :: a0) b y) as [B _]; auto; [rewrite P; reflexivity| |discriminate].
              cbn [node_of kids]. rewrite E. exact NY.
           ++ intros a0 j0 b y n' c' P NB NY TY NE NT. eapply (R4 (j :: a0) j0 b y n' c'); eauto; [rewrite P; reflexivity|].
              cbn [node_of kids]. rewrite E. exact NY.
        -- split; [auto|]. split; [exact KC|]. unfold skips. destruct (typ i =? TABLE) eqn:T; [|reflexivity]. cbn [andb].
           destruct (bytes_eqb n TEMPLATE) eqn:NT; [|reflexivity]. exfalso. apply bytes_eqb_eq in NT.
           apply (R4 [] j (j' :: pos) (Node i a k) n c); auto; discriminate.
Qed.

Lemma sorted_app : forall a b, StronglySorted before a -> StronglySorted before b -> (forall x y, In x a -> In y b -> before x y) -> StronglySorted before (a ++ b).
Proof.
  induction a as [|x a IH]; intros b A B H; [exact B|]. inversion A as [|? ? A1 A2]; subst. cbn. constructor.
  - apply IH; auto. intros; apply H; cbn; auto.
  - apply Forall_app. split; [exact A2|]. apply Forall_forall. intros y Y. apply H; cbn; auto.
Qed.
Lemma part_head : forall i j n c p, In p (part i j n c) -> exists q, p = j :: q.
Proof. intros i j n c p H. apply part_in in H as [(-> & _)|(q & -> & _)]; eauto. Qed.
Lemma sources_sorted : forall t, StronglySorted before (sources t).
Proof.
  induction t as [i a k IH] using tree_rect'. rewrite sources_eq. destruct ((typ i =? TABLE) && getter i).
  { repeat constructor. }
  generalize 0%nat. induction k as [|[n c] k IHk]; intros j; cbn [parts]; [constructor|]. apply sorted_app.
  - unfold part. destruct (negb (is_table c) && getter (inf c)); [repeat constructor|].
    destruct (negb (childless c) && negb (skips i n c)); [|constructor].
    specialize (IH n c (or_introl eq_refl)). induction (sources c) as [|p L IHL]; [constructor|]. inversion IH as [|? ? A1 A2]; subst. cbn. constructor; auto.
    apply Forall_map. eapply Forall_impl; [|exact A2]. intros. constructor 2. assumption.
  - apply IHk. intros n' c' H. apply (IH n' c'). right. exact H.
  - intros x y X Y. apply part_head in X as [q ->]. apply parts_in in Y as (m & n' & c' & _ & Y). apply part_head in Y as [q' ->]. constructor. lia.
Qed.

(** ** what the walk collects *)
Lemma full_snoc : forall P n, P <> [] -> full (P ++ [n]) = full P ++ bs "." ++ n.
Proof.
  induction P as [|x P IH]; intros n N; [congruence|]. destruct P as [|y P]; [reflexivity|].
  cbn [app]. change (full (x :: y :: (P ++ [n]))) with (x ++ bs "." ++ full ((y :: P) ++ [n])). rewrite IH by discriminate.
  change (full (x :: y :: P)) with (x ++ bs "." ++ full (y :: P)). rewrite <- !app_assoc. reflexivity.
Qed.
Fixpoint kids_walk {V} (h : handlers V) (q : option (list Z)) (fn : name) (i : info) (k : list (name * tree)) : outcome unit (list (name * V)) :=
  match k with
  | [] => Ok []
  | (n, c) :: k =>
    do here <-
      (if negb (is_table c) && getter (inf c) then do nm <- instance_name q (fn ++ bs "." ++ n) ; Ok (from_prop h (inf c) nm)
       else if negb (childless c) && negb (skips i n c) then collect h q (fn ++ bs "." ++ n) c else Ok []) ;
    do rest <- kids_walk h q fn i k ; Ok (here ++ rest)
  end.
Lemma collect_eq : forall V (h : handlers V) q fn i a k, collect h q fn (Node i a k) =
  if (typ i =? TABLE) && getter i then do nm <- instance_name q fn ; Ok (from_table h i nm) else kids_walk h q fn i k.
Proof.
  intros. cbn [collect]. destruct ((typ i =? TABLE) && getter i); [reflexivity|].
  induction k as [|[n c] k IH]; [reflexivity|]. cbn [kids_walk]. rewrite <- IH. reflexivity.
Qed.
Lemma flat_map_map : forall A B C (f : B -> list C) (g : A -> B) l, flat_map f (map g l) = flat_map (fun x => f (g x)) l.
Proof. induction l as [|x l IH]; cbn; [reflexivity|]. rewrite IH. reflexivity. Qed.
Lemma reply_prop : forall V (h : handlers V) x nm, is_table x = false -> reply h (Some x) nm = from_prop h (inf x) nm.
Proof. intros V h x nm T. unfold reply, from_prop. rewrite T. destruct (prop_get h (hid (inf x)) nm) as [rc v]. reflexivity. Qed.
(** [nm] names what is asked for *)
Lemma collect_ok : forall V (h : handlers V) q (nm : list name -> name) t P, P <> [] ->
  (forall pos, answers t pos -> instance_name q (full (P ++ path_of t pos)) = Ok (nm (path_of t pos))) ->
  collect h q (full P) t = Ok (flat_map (fun pos => reply h (node_of t pos) (nm (path_of t pos))) (sources t)).
Proof.
  intros V h q nm t. revert nm. induction t as [i a k IH] using tree_rect'. intros nm P NP H. rewrite collect_eq, sources_eq.
  destruct ((typ i =? TABLE) && getter i) eqn:TG.
  - assert (A : answers (Node i a k) []) by (apply sources_answers; rewrite sources_eq, TG; left; reflexivity).
    specialize (H _ A). cbn [path_of] in H. rewrite app_nil_r in H. rewrite H. cbn [obind flat_map reply node_of path_of].
    apply andb_prop in TG as [T _]. unfold is_table. cbn [inf]. rewrite T, app_nil_r. reflexivity.
  - assert (G : forall k1 k2, k = k1 ++ k2 -> kids_walk h q (full P) i k2 =
       Ok (flat_map (fun pos => reply h (node_of (Node i a k) pos) (nm (path_of (Node i a k) pos))) (parts i k2 (length k1)))).
    { intros k1 k2. revert k1. induction k2 as [|[n c] k2 IHk]; intros k1 E; [reflexivity|]. cbn [kids_walk parts].
      assert (NE : nth_error k (length k1) = Some (n, c)) by (rewrite E, nth_error_app2, Nat.sub_diag by lia; reflexivity).
      assert (IC : In (n, c) k) by (eapply nth_error_In; eauto).
      rewrite flat_map_app. specialize (IHk (k1 ++ [(n, c)])). rewrite app_length in IHk. cbn [length] in IHk. rewrite Nat.add_1_r in IHk.
      rewrite IHk by (rewrite <- app_assoc; exact E).
      assert (AN : forall p, In p (part i (length k1) n c) -> answers (Node i a k) p).
      { intros p IP. apply sources_answers. rewrite sources_eq, TG. apply parts_in. exists (length k1), n, c. auto. }
      rewrite <- full_snoc by exact NP. unfold part in *. destruct (negb (is_table c) && getter (inf c)) eqn:PG.
      - specialize (AN _ (or_introl eq_refl)). specialize (H _ AN). cbn [path_of kids] in H. rewrite NE in H. rewrite H. cbn [obind flat_map node_of path_of kids]. rewrite NE.
        apply andb_prop in PG as [PT _]. rewrite reply_prop by (destruct (is_table c); [discriminate|reflexivity]). rewrite app_nil_r. reflexivity.
      - destruct (negb (childless c) && negb (skips i n c)) eqn:SK; [|reflexivity].
        rewrite (IH n c IC (fun r => nm (n :: r)) (P ++ [n])); [|destruct P; discriminate|].
        + cbn [obind]. rewrite flat_map_map. cbn [node_of path_of kids]. rewrite NE. reflexivity.
        + intros pos A. apply sources_answers in A. specialize (AN _ (in_map _ _ _ A)). specialize (H _ AN). cbn [path_of kids] in H. rewrite NE in H.
          rewrite <- app_assoc. exact H. }
    exact (G [] k eq_refl).
Qed.

(** ** names of registrations as names of instances *)
Inductive fits : list name -> list name -> Prop :=
| fits_end : forall P, fits P []
| fits_cons : forall n m P Q, n = m \/ n = TEMPLATE -> fits P Q -> fits (n :: P) (m :: Q).
Definition body (fuel : nat) (reg q : list Z) : option (list Z) :=
  match same reg q with
  | None => None
  | Some (o1, reg, q) =>
    let '(o2, reg, q) := match reg with
                         | 123 :: _ => (fst (upto_dot q), snd (upto_dot reg), snd (upto_dot q))
                         | _ => ([], reg, q)
                         end in
    let '(o3, reg) := match q with [] => (reg, []) | _ => ([], reg) end in
    match conv fuel reg q with Some o => Some (o1 ++ o2 ++ o3 ++ o) | None => None end
  end.
Lemma conv_S : forall f x r y s, conv (S f) (x :: r) (y :: s) = body f (x :: r) (y :: s).
Proof. reflexivity. Qed.
Lemma body_same : forall f x r s, body f (x :: r) (x :: s) = option_map (cons x) (body f r s).
Proof.
  intros f x r s. unfold body. cbn [same]. rewrite Z.eqb_refl. destruct (same r s) as [[[o r'] s']|]; [|reflexivity].
  destruct (match r' with 123 :: _ => (fst (upto_dot s'), snd (upto_dot r'), snd (upto_dot s')) | _ => ([], r', s') end) as [[o2 r2] s2].
  destruct (match s2 with [] => (r2, []) | _ :: _ => ([], r2) end) as [o3 r3]. destruct (conv f r3 s2); reflexivity.
Qed.
Lemma body_app : forall f w r s, body f (w ++ r) (w ++ s) = option_map (app w) (body f r s).
Proof.
  induction w as [|x w IH]; intros r s; cbn [app]; [destruct (body f r s); reflexivity|].
  rewrite body_same, IH. destruct (body f r s); reflexivity.
Qed.
Lemma conv_nil : forall f q, conv f [] q = Some [].
Proof. intros [|f] [|x q]; reflexivity. Qed.
Lemma body_reg_end : forall f c s, body f [] (c :: s) = Some [].
Proof. intros. unfold body. cbn [same]. rewrite conv_nil. reflexivity. Qed.
Lemma brace_case : forall (c : Z) A (a b : A), c <> 123 -> match c with 123 => a | _ => b end = b.
Proof. intros c A a b N. destruct c as [|p|p]; auto. repeat (destruct p as [p|p|]; auto). congruence. Qed.
Lemma body_query_end : forall f c r, c <> 123 -> body f (c :: r) [] = Some (c :: r).
Proof.
  intros f c r N. unfold body. cbn [same].
  assert (E : match c :: r with 123 :: _ => (fst (upto_dot []), snd (upto_dot (c :: r)), snd (upto_dot [])) | _ => ([], c :: r, []) end = ([], c :: r, [])).
  { destruct c as [|p|p]; auto. repeat (destruct p as [p|p|]; auto). congruence. }
  rewrite E. rewrite conv_nil. cbn [app]. rewrite app_nil_r. reflexivity.
Qed.
Lemma upto_dot_app : forall w s, forallb (fun c => negb (c =? 46)) w = true -> match s with [] => True | c :: _ => c = 46 end -> upto_dot (w ++ s) = (w, s).
Proof.
  induction w as [|c w IH]; intros s H E.
  - destruct s as [|c s]; [reflexivity|]. subst c. reflexivity.
  - cbn [forallb] in H. apply andb_prop in H as [H1 H2]. cbn [app upto_dot]. destruct (c =? 46); [discriminate|]. rewrite IH by assumption. reflexivity.
Qed.
Lemma body_template : forall f r w s, good_name w = true -> hd 0 w <> 123 -> match r with [] => True | c :: _ => c = 46 end ->
  body f (TEMPLATE ++ r) (w ++ 46 :: s) = option_map (app w) (conv f r (46 :: s)).
Proof.
  intros f r w s G N D. apply good_nonempty in G as [G1 G2]. unfold body.
  assert (S : same (TEMPLATE ++ r) (w ++ 46 :: s) = Some ([], TEMPLATE ++ r, w ++ 46 :: s)).
  { destruct w as [|c w]; [congruence|]. cbn [hd] in N. change (TEMPLATE ++ r) with (123 :: bs "i}" ++ r). cbn [app same].
    destruct (Z.eqb_spec 123 c); [congruence|reflexivity]. }
  rewrite S. change (TEMPLATE ++ r) with (123 :: bs "i}" ++ r) at 1. cbv iota beta.
  rewrite (upto_dot_app w (46 :: s)) by (auto; reflexivity). rewrite (upto_dot_app TEMPLATE r) by (auto; reflexivity). cbn [fst snd]. cbv iota beta.
  destruct (conv f r (46 :: s)); reflexivity.
Qed.
Definition nonbrace (n : name) : Prop := hd 0 n <> 123.
Lemma full_cons : forall n P, full (n :: P) = n ++ match P with [] => [] | _ => 46 :: full P end.
Proof. intros n [|m P]; cbn [full]; [rewrite app_nil_r|]; reflexivity. Qed.
Lemma full_nonempty : forall P, P <> [] -> Forall (fun n => n <> []) P -> exists c r, full P = c :: r /\ hd 0 (hd [] P) = c.
Proof.
  intros [|n P] N G; [congruence|]. rewrite full_cons. inversion G; subst. destruct n as [|c n]; [congruence|]. cbn. eauto.
Qed.
Lemma body_fits : forall Q P f, fits P Q -> P <> [] -> Forall (fun n => n <> []) P -> forallb good_name Q = true ->
  Forall (fun m => nonbrace m \/ m = TEMPLATE) Q -> (length Q <= f)%nat -> nonbrace (hd [] (skipn (length Q) P)) ->
  body f (full P) (dotted Q) = Some (full (Q ++ skipn (length Q) P)).
Proof.
  induction Q as [|m Q IH]; intros P f F NP NE G NB L H.
  - cbn [dotted length skipn app] in *. destruct (full_nonempty P NP NE) as (c & r & -> & E). apply body_query_end. intros ->. apply H. exact E.
  - inversion F as [|n m' P' Q' NM F' E1 E2]; subst m' Q' P. cbn [length skipn] in *. cbn [forallb] in G. apply andb_prop in G as [G1 G2].
    inversion NB as [|? ? NB1 NB2]; subst. inversion NE as [|? ? NE1 NE2]; subst.
    cbn [dotted]. change (bs ".") with [46]. cbn [app]. rewrite !full_cons.
    assert (IHP : forall f', P' <> [] -> (length Q <= f')%nat -> body f' (46 :: full P') (46 :: dotted Q) = Some (46 :: full (Q ++ skipn (length Q) P'))).
    { intros f' N L'. rewrite body_same, IH by auto. reflexivity. }
    assert (QP : P' = [] -> Q = []) by (intros ->; inversion F'; reflexivity).
    assert (NN : P' <> [] -> Q ++ skipn (length Q) P' <> []).
    { intros N B. apply app_eq_nil in B as [-> B]. cbn in B. congruence. }
    assert (FT : m ++ match Q ++ skipn (length Q) P' with [] => [] | _ => 46 :: full (Q ++ skipn (length Q) P') end =
                 m ++ match P' with [] => [] | _ => 46 :: full (Q ++ skipn (length Q) P') end).
    { f_equal. destruct P' as [|y P']; [rewrite (QP eq_refl); reflexivity|]. specialize (NN ltac:(discriminate)). destruct (Q ++ skipn (length Q) (y :: P')); [congruence|reflexivity]. }
    rewrite FT.
    assert (SAME : body f (m ++ match P' with [] => [] | _ => 46 :: full P' end) (m ++ 46 :: dotted Q) = Some (m ++ match P' with [] => [] | _ => 46 :: full (Q ++ skipn (length Q) P') end)).
    { rewrite body_app. destruct P' as [|y P']; [rewrite body_reg_end; reflexivity|]. rewrite IHP by (try discriminate; lia). reflexivity. }
    destruct NM as [-> | ->]; [exact SAME|]. destruct NB1 as [NB1 | ->]; [|exact SAME].
    rewrite body_template; auto; [|destruct P'; auto].
    destruct P' as [|y P']; [rewrite conv_nil; reflexivity|]. destruct f as [|f]; [lia|]. rewrite conv_S, IHP by (try discriminate; lia). reflexivity.
Qed.
Lemma dotted_length : forall Q, (length Q <= length (dotted Q))%nat.
Proof. induction Q as [|m Q IH]; cbn [dotted length]; [lia|]. rewrite !app_length. cbn. lia. Qed.
Lemma convert_fits : forall P Q, fits P Q -> P <> [] -> Q <> [] -> Forall (fun n => n <> []) P -> forallb good_name Q = true ->
  Forall (fun m => nonbrace m \/ m = TEMPLATE) Q -> nonbrace (hd [] (skipn (length Q) P)) ->
  (length (full (Q ++ skipn (length Q) P)) < 256)%nat -> convert (full P) (dotted Q) = Ok (full (Q ++ skipn (length Q) P)).
Proof.
  intros P Q F NP NQ NE G NB H L. unfold convert.
  destruct (full_nonempty P NP NE) as (c & r & E & _).
  assert (D : exists y s, dotted Q = y :: s). { destruct Q as [|[|y m] Q]; [congruence| |]; cbn; eauto. }
  destruct D as (y & s & D). rewrite E, D, conv_S, <- E, <- D, body_fits; auto; [|pose proof (dotted_length Q); lia].
  apply Nat.leb_gt in L. rewrite L. reflexivity.
Qed.

(** ** the element asked for *)
Lemma find_kid_name : forall n k j m c, find_kid n k 0 = Some (j, c) -> nth_error k j = Some (m, c) -> m = n.
Proof. intros n k j m c F N. apply find_kid_nth in F. rewrite F in N. injection N as ->. reflexivity. Qed.
Lemma fits_template : forall P tok R, fits P (TEMPLATE :: R) -> fits P (tok :: R).
Proof. intros P tok R F. inversion F as [|n m P' Q' [-> | ->] F']; subst; constructor; auto. Qed.
Lemma inst_fits : forall rest t first pos x, inst_loop t false first rest = Some (pos, x) -> forallb plain_tok (first :: rest) = true ->
  fits (path_of t pos) (first :: rest) /\ length (path_of t pos) = S (length rest).
Proof.
  induction rest as [|tok rest IH]; intros t first pos x H P; cbn [forallb] in P; apply andb_prop in P as [P1 P2];
    cbn [inst_loop] in H; rewrite find_inst_plain in H by exact P1; destruct (find_kid first (kids t) 0) as [(j, c)|] eqn:F; try discriminate.
  - injection H as <- <-. apply find_kid_nth in F. cbn [path_of]. rewrite F. split; [|reflexivity]. repeat constructor.
  - destruct (kids c) eqn:KC; [discriminate|]. clear KC. cbn [forallb] in P2. apply andb_prop in P2 as [P2 P3].
    assert (ST : bytes_eqb tok (bs "*") = false).
    { unfold plain_tok in P2. apply andb_prop in P2 as [P2 _]. destruct (bytes_eqb tok (bs "*")); [discriminate|reflexivity]. }
    rewrite ST in H. cbn [orb] in H.
    assert (W : (if is_table c then false else false) = false) by (destruct (is_table c); reflexivity). rewrite W in H. cbn [orb] in H.
    apply find_kid_nth in F.
    match type of H with match ?e with _ => _ end = _ => destruct e as [(pos', x')|] eqn:R; [|discriminate] end.
    injection H as <- <-. cbn [path_of]. rewrite F. cbn [length].
    destruct (is_table c && getter (inf c)).
    + apply IH in R as [R1 R2]; [|cbn [forallb]; rewrite P3; reflexivity]. split; [|lia]. constructor; auto. apply fits_template, R1.
    + apply IH in R as [R1 R2]; [|cbn [forallb]; rewrite P2, P3; reflexivity]. split; [|lia]. constructor; auto.
Qed.
Lemma instance_fits : forall t s pos x Q, retrieve_instance t s = Some (pos, x) -> tokens s = Q -> forallb plain_tok Q = true ->
  fits (path_of t pos) Q /\ length (path_of t pos) = length Q.
Proof.
  unfold retrieve_instance. intros t s pos x Q H E P. rewrite E in H. destruct Q as [|n Q]; [discriminate|]. eapply inst_fits; eauto.
Qed.
Lemma fits_app : forall P Q r, fits P Q -> fits (P ++ r) Q.
Proof. induction 1; cbn [app]; constructor; auto. Qed.
Lemma has_template_app : forall w s, has_template s = true -> has_template (w ++ s) = true.
Proof. induction w as [|c w IH]; intros s H; cbn [app]; [exact H|]. cbn [has_template]. rewrite (IH s H). apply orb_true_r. Qed.
Lemma has_template_full : forall P, In TEMPLATE P -> has_template (full P) = true.
Proof.
  induction P as [|n P IH]; intros H; [destruct H|]. rewrite full_cons. destruct H as [-> |H].
  - reflexivity.
  - apply has_template_app. destruct P as [|y P]; [destruct H|]. change (46 :: full (y :: P)) with ([46] ++ full (y :: P)). apply has_template_app, IH, H.
Qed.
Lemma fits_same : forall P Q, fits P Q -> length P = length Q -> ~ In TEMPLATE P -> P = Q.
Proof.
  induction 1 as [P|n m P Q NM F IH]; intros L N; [destruct P; [reflexivity|discriminate]|].
  cbn in L. f_equal; [|apply IH; [lia|]; intros B; apply N; right; exact B].
  destruct NM as [-> | ->]; [reflexivity|]. exfalso. apply N. left. reflexivity.
Qed.

(** ** the query *)
Lemma at_star_none : forall s, ~ In 42 s -> at_star s = None.
Proof.
  induction s as [|c s IH]; intros H; [reflexivity|]. cbn [at_star]. destruct (Z.eqb_spec c 42) as [->|]; [exfalso; apply H; left; reflexivity|].
  rewrite IH; [reflexivity|]. intros B. apply H. right. exact B.
Qed.
Lemma star_off_none : forall s, ~ In 42 s -> star_off s = s.
Proof.
  intros s H. unfold star_off. destruct (rev s) as [|c r] eqn:E; [reflexivity|].
  assert (c <> 42). { intros ->. apply H. rewrite in_rev, E. left. reflexivity. }
  destruct c as [|p|p]; auto. repeat (destruct p as [p|p|]; auto). congruence.
Qed.
Lemma stars_none : forall s, ~ In 42 s -> stars s = 0%nat.
Proof.
  unfold stars. induction s as [|c s IH]; intros H; [reflexivity|]. cbn [filter]. destruct (Z.eqb_spec c 42) as [->|]; [exfalso; apply H; left; reflexivity|].
  apply IH. intros B. apply H. right. exact B.
Qed.
Definition direct {V} (t : tree) (h : handlers V) (s : list Z) : outcome unit (Z * list (name * V)) :=
  match retrieve_instance t s with
  | None => Ok (E_ELEMENT_DOES_NOT_EXIST, [])
  | Some (pos, el) =>
    if last s 0 =? 46 then
      do l <- collect h (if has_template (full (path_of t pos)) then Some s else None) (full (path_of t pos)) el ; Ok (E_SUCCESS, l)
    else if negb (is_table el) && getter (inf el) then
      let (rc, v) := prop_get h (hid (inf el)) s in Ok (rc, if rc =? E_SUCCESS then [(s, v)] else [])
    else Ok (E_SUCCESS, [])
  end.
Lemma wildcard_direct : forall V f t (h : handlers V) s, (length s < 256)%nat -> s <> [] -> ~ In 42 s -> wildcard (S f) t h s = direct t h s.
Proof.
  intros V f t h s L N ST. cbn [wildcard]. rewrite firstn_all2 by lia. rewrite star_off_none, at_star_none by exact ST.
  destruct s as [|c r]; [congruence|].
  assert (C : c <> 42) by (intros ->; apply ST; left; reflexivity).
  unfold direct. destruct c as [|p|p]; try reflexivity. repeat (destruct p as [p|p|]; try reflexivity). congruence.
Qed.
Lemma query_direct : forall V t (h : handlers V) s, (length s < 256)%nat -> s <> [] -> ~ In 42 s -> query t h s =
  do (rc, l) <- direct t h s ; Ok (rc, if rc =? E_SUCCESS then l else []).
Proof. intros V t h s L N ST. unfold query. rewrite stars_none by exact ST. rewrite wildcard_direct by assumption. reflexivity. Qed.

Lemma path_nonempty : forall t s pos x, retrieve_instance t s = Some (pos, x) -> path_of t pos <> [].
Proof.
  unfold retrieve_instance. intros t s pos x H. destruct (tokens s) as [|tok rest]; [discriminate|].
  destruct rest; cbn [inst_loop] in H; destruct (find_inst (is_table t) true tok (kids t) 0) as [(j, c)|] eqn:F; try discriminate;
    apply find_inst_nth in F as (m & F & _); rewrite Nat.sub_0_r in F.
  - injection H as <- <-. cbn [path_of]. rewrite F. discriminate.
  - destruct (kids c); [discriminate|]. match type of H with match ?e with _ => _ end = _ => destruct e as [(pos', x')|]; [|discriminate] end.
    injection H as <- <-. cbn [path_of]. rewrite F. discriminate.
Qed.
Lemma answered_sources : forall V (h : handlers V) u P, answered h u P (flat_map (fun pos => reply h (node_of u pos) (full (P ++ path_of u pos))) (sources u)).
Proof. intros. exists (sources u). split; [apply sources_sorted|]. split; [intros; apply sources_answers|reflexivity]. Qed.
(** asked for a place that is not in a row template *)
Lemma partial_instance : forall V t (h : handlers V) s pos u, (length s < 256)%nat -> ~ In 42 s -> last s 0 = 46 ->
  retrieve_instance t s = Some (pos, u) -> has_template (full (path_of t pos)) = false ->
  exists l, query t h s = Ok (E_SUCCESS, l) /\ answered h u (path_of t pos) l.
Proof.
  intros V t h s pos u L ST LA R HT. assert (N : s <> []) by (intros ->; discriminate).
  eexists. split; [|apply answered_sources]. rewrite query_direct by assumption. unfold direct. rewrite R, LA, HT. cbn [Z.eqb Pos.eqb].
  rewrite (collect_ok V h None (fun r => full (path_of t pos ++ r)) u (path_of t pos)); [reflexivity| |reflexivity].
  eapply path_nonempty; eauto.
Qed.
Lemma path_names : forall pos u x, tidy u -> node_of u pos = Some x -> Forall (fun n => n <> []) (path_of u pos).
Proof.
  induction pos as [|j pos IH]; intros u x T H; [constructor|]. cbn [node_of path_of] in *. destruct (nth_error (kids u) j) as [(n, c)|] eqn:E; [|discriminate].
  constructor.
  - apply (T [] u n c eq_refl). eapply nth_error_In; eauto.
  - apply (IH c x); [|exact H]. intros q y m d NQ. apply (T (j :: q)). cbn [node_of]. rewrite E. exact NQ.
Qed.
Lemma path_brace : forall pos u, tidy u -> answers u pos -> nonbrace (hd [] (path_of u pos)).
Proof.
  intros [|j pos] u T (x & NX & GX & _ & _ & R3 & R4); [cbn; discriminate|]. cbn [node_of path_of] in *. destruct (nth_error (kids u) j) as [(n, c)|] eqn:E; [|discriminate].
  cbn [hd]. destruct (T [] u n c eq_refl (nth_error_In _ _ E)) as [_ [A|(-> & TU & GC)]]; [exact A|]. exfalso.
  destruct pos as [|j' pos]; [cbn in NX; injection NX as <-; congruence|]. apply (R4 [] j (j' :: pos) u TEMPLATE c); auto; discriminate.
Qed.
Lemma last_dotted : forall Q, Q <> [] -> last (dotted Q) 0 = 46.
Proof.
  intros Q N. destruct (exists_last N) as (l & m & ->).
  assert (E : dotted (l ++ [m]) = (dotted l ++ m) ++ [46]).
  { clear. induction l as [|x l IH]; cbn [app dotted]; [rewrite app_nil_r; reflexivity|]. rewrite IH, <- !app_assoc. reflexivity. }
  rewrite E. apply last_last.
Qed.
Lemma stars_dotted : forall Q, Forall (fun m => ~ In 42 m) Q -> ~ In 42 (dotted Q).
Proof.
  induction 1 as [|m Q H F IH]; cbn [dotted]; [intros []|]. rewrite !in_app_iff. intros [B|[B|B]]; auto. cbn in B. destruct B as [B|[]]. discriminate.
Qed.
Lemma partial_plain : forall V t (h : handlers V) Q pos u, forallb good_name Q = true -> forallb plain_tok Q = true -> Forall (fun m => ~ In 42 m) Q ->
  Forall (fun m => nonbrace m \/ m = TEMPLATE) Q -> (length (dotted Q) < 256)%nat ->
  retrieve_instance t (dotted Q) = Some (pos, u) -> tidy u ->
  (forall p, answers u p -> (length (full (Q ++ path_of u p)) < 256)%nat) ->
  exists l, query t h (dotted Q) = Ok (E_SUCCESS, l) /\ answered h u Q l.
Proof.
  intros V t h Q pos u G PL ST NB L R T LEN.
  assert (NQ : Q <> []) by (intros ->; discriminate).
  assert (ST' : ~ In 42 (dotted Q)) by (apply stars_dotted, ST).
  destruct (instance_fits t (dotted Q) pos u Q R (table_tokens Q G) PL) as [F LP].
  pose proof (path_nonempty _ _ _ _ R) as NP. pose proof (last_dotted Q NQ) as LA.
  destruct (has_template (full (path_of t pos))) eqn:HT.
  - eexists. split; [|apply answered_sources]. rewrite query_direct; auto; [|intros B; rewrite B in LA; discriminate].
    unfold direct. rewrite R, LA, HT. cbn [Z.eqb Pos.eqb].
    rewrite (collect_ok V h (Some (dotted Q)) (fun r => full (Q ++ r)) u (path_of t pos)); [reflexivity|exact NP|].
    intros p A. cbn [instance_name].
    assert (SK : skipn (length Q) (path_of t pos ++ path_of u p) = path_of u p) by (rewrite <- LP, skipn_app, skipn_all, Nat.sub_diag; reflexivity).
    rewrite convert_fits; rewrite ?SK; auto.
    + apply fits_app, F.
    + destruct (path_of t pos); [congruence|discriminate].
    + apply Forall_app. split.
      * clear -F LP G. revert LP. induction F as [P|n m P Q NM F IH]; intros LP; [destruct P; [constructor|discriminate]|].
        cbn [forallb] in G. apply andb_prop in G as [G1 G2]. cbn in LP. constructor; [|apply IH; auto].
        destruct NM as [-> | ->]; [apply good_nonempty in G1 as [G1 _]; exact G1|discriminate].
      * destruct A as (x & NX & _). eapply path_names; eauto.
    + apply path_brace; auto.
  - destruct (partial_instance V t h (dotted Q) pos u L ST' LA R HT) as (l & E & A). exists l. split; [exact E|].
    rewrite (fits_same _ _ F LP) in A; [exact A|]. intros B. apply has_template_full in B. congruence.
Qed.

(** ** each answer on its own *)
Lemma find_kid_unique : forall k j n c, NoDup (map fst k) -> nth_error k j = Some (n, c) -> find_kid n k 0 = Some (j, c).
Proof.
  induction k as [|(m, d) k IH]; intros j n c ND E; [destruct j; discriminate|]. cbn [map fst] in ND. inversion ND as [|? ? N1 N2]; subst. cbn [find_kid].
  destruct j as [|j]; cbn in E.
  - injection E as -> ->. rewrite bytes_eqb_refl. reflexivity.
  - assert (bytes_eqb m n = false) as ->.
    { apply bytes_eqb_neq. intros ->. apply N1. change n with (fst (n, c)). apply in_map. eapply nth_error_In; eauto. }
    rewrite find_kid_shift, (IH j n c N2 E). cbn. rewrite Nat.add_1_r. reflexivity.
Qed.
Lemma node_sub : forall pos t x, names_unique t -> node_of t pos = Some x -> sub t (path_of t pos) = Some x.
Proof.
  induction pos as [|j pos IH]; intros t x U H; [exact H|]. cbn [node_of path_of] in *. destruct (nth_error (kids t) j) as [(n, c)|] eqn:E; [|discriminate].
  assert (FK : find_kid n (kids t) 0 = Some (j, c)) by (apply find_kid_unique; auto; apply (U [] t); reflexivity).
  cbn [sub]. rewrite FK. apply IH; [|exact H]. intros p u S. apply (U (n :: p)). cbn [sub]. rewrite FK. exact S.
Qed.
Lemma node_of_app : forall a t x b, node_of t a = Some x -> node_of t (a ++ b) = node_of x b /\ path_of t (a ++ b) = path_of t a ++ path_of x b.
Proof.
  induction a as [|j a IH]; intros t x b H; [cbn in H; injection H as ->; auto|]. cbn [node_of path_of app] in *.
  destruct (nth_error (kids t) j) as [(n, c)|]; [|discriminate]. destruct (IH c x b H) as [-> ->]. auto.
Qed.
Lemma askable_path : forall pos t x, askable t -> node_of t pos = Some x ->
  forallb good_name (path_of t pos) = true /\ forallb plain_tok (path_of t pos) = true /\ Forall (fun m => ~ In 42 m) (path_of t pos).
Proof.
  induction pos as [|j pos IH]; intros t x A H; [cbn; auto|]. cbn [node_of path_of] in *. destruct (nth_error (kids t) j) as [(n, c)|] eqn:E; [|discriminate].
  destruct (A [] t n c eq_refl (nth_error_In _ _ E)) as (A1 & A2 & A3).
  destruct (IH c x) as (B1 & B2 & B3); auto. { intros q y m d NQ. apply (A (j :: q)). cbn [node_of]. rewrite E. exact NQ. }
  cbn [forallb]. rewrite A1, A2, B1, B2. auto.
Qed.
Lemma full_dotted : forall P n, full (P ++ [n]) = dotted P ++ n.
Proof.
  induction P as [|x P IH]; intros n; [reflexivity|]. cbn [app]. rewrite full_cons, IH. cbn [dotted]. change (bs ".") with [46]. rewrite <- !app_assoc.
  destruct P; reflexivity.
Qed.
Lemma tokens_full : forall P, P <> [] -> forallb good_name P = true -> tokens (full P) = P /\ last (full P) 0 <> 46.
Proof.
  intros P N G. destruct (exists_last N) as (P' & n & ->). rewrite forallb_app in G. apply andb_prop in G as [G1 G2]. cbn in G2. rewrite andb_true_r in G2.
  rewrite full_dotted, row_tokens by assumption. split; [reflexivity|]. apply good_nonempty in G2 as [G2 G3].
  destruct (exists_last G2) as (w & c & ->). rewrite app_assoc, last_last. rewrite forallb_app in G3. apply andb_prop in G3 as [_ G3]. cbn in G3.
  destruct (Z.eqb_spec c 46); [discriminate|assumption].
Qed.
Lemma stars_full : forall P, Forall (fun m => ~ In 42 m) P -> ~ In 42 (full P).
Proof.
  induction 1 as [|m Q H F IH]; [intros []|]. rewrite full_cons, in_app_iff. intros [B|B]; auto. destruct Q as [|y Q]; [destruct B|].
  destruct B as [B|B]; [discriminate|auto].
Qed.
Lemma single_ok : forall V t (h : handlers V) s pos u l nm v, names_unique t -> getterless t -> askable t ->
  (length s < 256)%nat -> ~ In 42 s -> last s 0 = 46 -> retrieve_instance t s = Some (pos, u) -> has_template (full (path_of t pos)) = false ->
  query t h s = Ok (E_SUCCESS, l) -> In (nm, v) l -> (length nm < 256)%nat -> query t h nm = Ok (E_SUCCESS, [(nm, v)]).
Proof.
  intros V t h s pos u l nm v U GL AS L ST LA R HT Q I LN.
  destruct (partial_instance V t h s pos u L ST LA R HT) as (l' & E & SL & _ & AN & D). rewrite E in Q. assert (Q' : l' = l) by congruence. rewrite Q' in D. rewrite D in I. clear E Q Q' D.
  apply in_flat_map in I as (p & IP & I). apply AN in IP as (x & NX & GX & _). rewrite NX in I.
  pose proof (inst_node t s pos u R) as NU. destruct (node_of_app pos t u p NU) as [NA PA]. rewrite NX in NA.
  pose proof (node_sub _ _ _ U NA) as SX.
  destruct (is_table x) eqn:TX; [rewrite (GL _ _ SX TX) in GX; discriminate|].
  rewrite reply_prop in I by exact TX. unfold from_prop in I. destruct (prop_get h (hid (inf x)) (full (path_of t pos ++ path_of u p))) as [rc w] eqn:PG.
  destruct (rc =? E_SUCCESS) eqn:RC; [|destruct I]. destruct I as [I|[]]. injection I as <- <-.
  rewrite PA in SX. rewrite <- PA in *. destruct (askable_path _ _ _ AS NA) as (G & PL & SN).
  assert (NP : path_of t (pos ++ p) <> []). { rewrite PA. pose proof (path_nonempty _ _ _ _ R). destruct (path_of t pos); [congruence|discriminate]. }
  destruct (tokens_full _ NP G) as [TF LF].
  assert (NF : full (path_of t (pos ++ p)) <> []). { intros B. rewrite B in TF. cbn in TF. congruence. }
  rewrite query_direct; auto using stars_full. unfold direct.
  rewrite (instance_plain t _ _ GL TF NP PL), SX.
  destruct (Z.eqb_spec (last (full (path_of t (pos ++ p))) 0) 46); [congruence|]. rewrite TX, GX. cbn [negb andb]. rewrite PG, RC.
  cbn [obind]. rewrite RC. apply Z.eqb_eq in RC. rewrite RC. reflexivity.
Qed.

(** ** wildcards *)
Lemma at_star_first : forall pre post, ~ In 42 pre -> at_star (pre ++ 42 :: post) = Some (pre, post).
Proof.
  induction pre as [|c pre IH]; intros post H; [reflexivity|]. cbn [app at_star].
  destruct (Z.eqb_spec c 42) as [->|]; [exfalso; apply H; left; reflexivity|]. rewrite IH; [reflexivity|]. intros B. apply H. right. exact B.
Qed.
Fixpoint row_walk {V} (f : nat) (t : tree) (h : handlers V) (pre post : list Z) (k : list (name * tree)) : outcome unit (Z * list (name * V)) :=
  match k with
  | [] => Ok (E_SUCCESS, [])
  | (n, c) :: k =>
    if bytes_eqb n TEMPLATE then row_walk f t h pre post k else
    do (rc, l) <- wildcard f t h (firstn 255 (pre ++ n ++ post)) ;
    if rc =? E_SUCCESS then do (rc', l') <- row_walk f t h pre post k ; Ok (rc', l ++ l') else Ok (rc, l)
  end.
Lemma wildcard_star : forall V f t (h : handlers V) pre post, pre <> [] -> ~ In 42 pre -> (length (pre ++ 42%Z :: post) < 256)%nat ->
  star_off (pre ++ 42 :: post) = pre ++ 42 :: post ->
  wildcard (S f) t h (pre ++ 42 :: post) =
  match retrieve_instance t pre with
  | None => Ok (E_ELEMENT_DOES_NOT_EXIST, [])
  | Some (_, el) => if negb (is_table el) then Ok (E_ACCESS_NOT_ALLOWED, []) else row_walk f t h pre post (kids el)
  end.
Proof.
  intros V f t h pre post N ST L SO. cbn [wildcard]. rewrite firstn_all2 by lia. rewrite SO, at_star_first by exact ST.
  assert (X : forall el, (fix rows (k : list (name * tree)) : outcome unit (Z * list (name * V)) :=
             match k with
             | [] => Ok (E_SUCCESS, [])
             | (n, c) :: k =>
               if bytes_eqb n TEMPLATE then rows k else
               do (rc, l) <- wildcard f t h (firstn 255 (pre ++ n ++ post)) ;
               if rc =? E_SUCCESS then do (rc', l') <- rows k ; Ok (rc', l ++ l')
               else Ok (rc, l)
             end) el = row_walk f t h pre post el).
  { induction el as [|[n c] k IH]; [reflexivity|]. cbn [row_walk]. rewrite <- IH. reflexivity. }
  destruct pre as [|c pre]; [congruence|]. cbn [app].
  assert (C : c <> 42) by (intros ->; apply ST; left; reflexivity).
  assert (E : forall A (a b : A), match c :: pre ++ 42 :: post with [] | [42] => a | _ => b end = b).
  { intros A a b. destruct c as [|p|p]; auto. repeat (destruct p as [p|p|]; auto). congruence. }
  rewrite E. destruct (retrieve_instance t (c :: pre)) as [[p el]|]; [|reflexivity]. rewrite X. reflexivity.
Qed.
Lemma stars_app : forall a b, stars (a ++ b) = (stars a + stars b)%nat.
Proof. intros. unfold stars. rewrite filter_app, app_length. reflexivity. Qed.
Lemma query_star : forall V t (h : handlers V) pre post, pre <> [] -> ~ In 42 pre -> (length (pre ++ 42%Z :: post) < 256)%nat ->
  star_off (pre ++ 42 :: post) = pre ++ 42 :: post ->
  query t h (pre ++ 42 :: post) =
  do (rc, l) <- match retrieve_instance t pre with
     | None => Ok (E_ELEMENT_DOES_NOT_EXIST, [])
     | Some (_, el) => if negb (is_table el) then Ok (E_ACCESS_NOT_ALLOWED, []) else row_walk (S (stars post)) t h pre post (kids el)
     end ; Ok (rc, if rc =? E_SUCCESS then l else []).
Proof.
  intros V t h pre post N ST L SO. unfold query. rewrite wildcard_star by assumption.
  rewrite stars_app, (stars_none pre ST). reflexivity.
Qed.
Definition row_names (k : list (name * tree)) : list name := filter (fun n => negb (bytes_eqb n TEMPLATE)) (map fst k).
Lemma query_wildcard : forall V t (h : handlers V) pre n post, ~ In 42 pre -> ~ In 42 n -> (length (pre ++ n ++ post) < 256)%nat ->
  query t h (pre ++ n ++ post) = do (rc, l) <- wildcard (S (stars post)) t h (firstn 255 (pre ++ n ++ post)) ; Ok (rc, if rc =? E_SUCCESS then l else []).
Proof.
  intros V t h pre n post S1 S2 L. unfold query. rewrite !stars_app, (stars_none pre S1), (stars_none n S2), firstn_all2 by lia. reflexivity.
Qed.
Lemma row_walk_ok : forall V t (h : handlers V) pre post ans k, ~ In 42 pre ->
  (forall n, In n (row_names k) -> ~ In 42 n /\ (length (pre ++ n ++ post) < 256)%nat /\ query t h (pre ++ n ++ post) = Ok (E_SUCCESS, ans n)) ->
  row_walk (S (stars post)) t h pre post k = Ok (E_SUCCESS, flat_map ans (row_names k)).
Proof.
  intros V t h pre post ans k SP. unfold row_names. induction k as [|[n c] k IH]; intros H; [reflexivity|]. cbn [row_walk map fst filter] in *.
  destruct (bytes_eqb n TEMPLATE); cbn [negb] in *; [apply IH, H|].
  destruct (H n (or_introl eq_refl)) as (SN & LN & Q). rewrite query_wildcard in Q by assumption.
  destruct (wildcard (S (stars post)) t h (firstn 255 (pre ++ n ++ post))) as [[rc l]| |]; cbn [obind] in Q; try discriminate.
  injection Q as -> Q. cbn [obind]. rewrite Z.eqb_refl in *. subst l. rewrite IH by (intros m M; apply H; right; exact M). reflexivity.
Qed.
Lemma row_walk_fail : forall V t (h : handlers V) pre post ans rc a n b k, ~ In 42 pre -> row_names k = a ++ n :: b ->
  (forall m, In m (a ++ [n]) -> ~ In 42 m /\ (length (pre ++ m ++ post) < 256)%nat) ->
  (forall m, In m a -> query t h (pre ++ m ++ post) = Ok (E_SUCCESS, ans m)) ->
  query t h (pre ++ n ++ post) = Ok (rc, []) -> rc <> E_SUCCESS ->
  exists l, row_walk (S (stars post)) t h pre post k = Ok (rc, l).
Proof.
  intros V t h pre post ans rc a n b k SP. unfold row_names. revert a. induction k as [|[m c] k IH]; intros a E S A Q N; [destruct a; discriminate|].
  cbn [row_walk map fst filter] in *. destruct (bytes_eqb m TEMPLATE); cbn [negb] in *; [eapply IH; eauto|].
  destruct a as [|m' a]; cbn [app] in E; injection E as -> E.
  - destruct (S n (or_introl eq_refl)) as [SN LN]. rewrite query_wildcard in Q by assumption.
    destruct (wildcard (Datatypes.S (stars post)) t h (firstn 255 (pre ++ n ++ post))) as [[rc' l]| |]; cbn [obind] in Q; try discriminate.
    injection Q as -> Q. cbn [obind]. destruct (Z.eqb_spec rc E_SUCCESS); [congruence|]. eauto.
  - destruct (S m' (or_introl eq_refl)) as [SN LN]. specialize (A m' (or_introl eq_refl)) as Q1. rewrite query_wildcard in Q1 by assumption.
    destruct (wildcard (Datatypes.S (stars post)) t h (firstn 255 (pre ++ m' ++ post))) as [[rc' l]| |]; cbn [obind] in Q1; try discriminate.
    injection Q1 as -> Q1. cbn [obind]. rewrite Z.eqb_refl in *.
    destruct (IH a E) as [l2 ->]; auto. { intros x X. apply S. right. exact X. } { intros x X. apply A. right. exact X. }
    cbn [obind]. eauto.
Qed.

(** ** each name once *)
Lemma ipos_path : forall pos t x, names_unique t -> node_of t pos = Some x -> ipos t (path_of t pos) = pos.
Proof.
  induction pos as [|j pos IH]; intros t x U H; [reflexivity|]. cbn [node_of path_of] in *. destruct (nth_error (kids t) j) as [(n, c)|] eqn:E; [|discriminate].
  assert (FK : find_kid n (kids t) 0 = Some (j, c)) by (apply find_kid_unique; auto; apply (U [] t); reflexivity).
  cbn [ipos]. rewrite FK. f_equal. apply (IH c x); [|exact H]. intros p u S. apply (U (n :: p)). cbn [sub]. rewrite FK. exact S.
Qed.
Lemma before_irrefl : forall a, ~ before a a.
Proof. induction a as [|i a IH]; intros B; inversion B; subst; [lia|auto]. Qed.
Lemma sorted_nodup : forall L, StronglySorted before L -> NoDup L.
Proof.
  induction 1 as [|a L S IH F]; constructor; auto. intros I. rewrite Forall_forall in F. exact (before_irrefl a (F a I)).
Qed.
Lemma nodup_flat : forall V (g : list nat -> name) (f : list nat -> list (name * V)) L, NoDup L ->
  (forall p, In p L -> f p = [] \/ exists v, f p = [(g p, v)]) -> (forall p q, In p L -> In q L -> g p = g q -> p = q) -> NoDup (map fst (flat_map f L)).
Proof.
  intros V g f. induction L as [|p L IH]; intros ND F I; [constructor|]. inversion ND as [|? ? N1 N2]; subst. cbn [flat_map]. rewrite map_app.
  assert (R : NoDup (map fst (flat_map f L))) by (apply IH; auto; intros; [apply F; right; assumption|apply I; auto; right; assumption]).
  destruct (F p (or_introl eq_refl)) as [-> |[v ->]]; cbn [map app fst]; [exact R|]. constructor; [|exact R].
  intros B. apply in_map_iff in B as ([m w] & E & B). cbn in E. subst m. apply in_flat_map in B as (q & Q & B).
  destruct (F q (or_intror Q)) as [E|[w' E]]; rewrite E in B; [destruct B|]. destruct B as [B|[]]. injection B as B _.
  apply N1. rewrite (I p q); auto; [left; reflexivity|right; exact Q].
Qed.
Lemma answered_once : forall V (h : handlers V) t s pos u l, names_unique t -> getterless t -> askable t ->
  retrieve_instance t s = Some (pos, u) -> answered h u (path_of t pos) l -> NoDup (map fst l).
Proof.
  intros V h t s pos u l U GL AS R (L & SL & AN & ->). pose proof (inst_node t s pos u R) as NU. pose proof (path_nonempty _ _ _ _ R) as NP.
  apply (nodup_flat V (fun p => full (path_of t pos ++ path_of u p))); [apply sorted_nodup, SL| |].
  - intros p IP. apply AN in IP as (x & NX & GX & _). rewrite NX.
    destruct (node_of_app pos t u p NU) as [NA PA]. rewrite NX in NA. pose proof (node_sub _ _ _ U NA) as SX.
    destruct (is_table x) eqn:TX; [rewrite (GL _ _ SX TX) in GX; discriminate|].
    rewrite reply_prop by exact TX. unfold from_prop. destruct (prop_get h (hid (inf x)) (full (path_of t pos ++ path_of u p))) as [rc v]. destruct (rc =? E_SUCCESS); eauto.
  - intros p q P Q E. apply AN in P as (x & NX & _). apply AN in Q as (y & NY & _).
    destruct (node_of_app pos t u p NU) as [NA PA]. destruct (node_of_app pos t u q NU) as [NB PB]. rewrite NX in NA. rewrite NY in NB.
    rewrite <- PA, <- PB in E. destruct (askable_path _ _ _ AS NA) as (G1 & _). destruct (askable_path _ _ _ AS NB) as (G2 & _).
    assert (N1 : path_of t (pos ++ p) <> []) by (rewrite PA; destruct (path_of t pos); [congruence|discriminate]).
    assert (N2 : path_of t (pos ++ q) <> []) by (rewrite PB; destruct (path_of t pos); [congruence|discriminate]).
    destruct (tokens_full _ N1 G1) as [T1 _]. destruct (tokens_full _ N2 G2) as [T2 _]. rewrite E, T2 in T1.
    pose proof (ipos_path _ _ _ U NA) as I1. pose proof (ipos_path _ _ _ U NB) as I2. rewrite T1, I1 in I2. apply app_inv_head in I2. exact I2.
Qed.
