(** Proofs about the names of elements (C80). *)
From Coq Require Import String Sorted.
From Verif Require Import Common CommonFacts VecList TextModel Errors ElemModel ElemSpec ElemProofs ElemRows MsgModel MsgSpec WireModel WalkModel WalkProofs NamesModel NamesSpec NamesProofs.
From Verif Require MsgProofs TransModel.
From Coq Require Import Lia ZifyBool.
Local Open Scope string_scope.
Local Open Scope list_scope.
Local Open Scope Z_scope.

(** ** the positions that are listed *)
Definition goes (i : info) (n : name) (c : tree) : bool := negb (is_table c && getter (inf c)) && negb ((typ i =? TABLE) && bytes_eqb n TEMPLATE).
Fixpoint places (depth cur : Z) (t : tree) {struct t} : list (list nat) :=
  match t with
  | Node i _ k =>
    (if (0 <=? depth) || (Z.abs depth =? cur) then [[]] else []) ++
    (if cur <? Z.abs depth then
       (fix go (k : list (name * tree)) (j : nat) : list (list nat) :=
          match k with
          | [] => []
          | (n, c) :: k => (if goes i n c then map (cons j) (places depth (cur + 1) c) else []) ++ go k (S j)
          end) k 0%nat
     else [])
  end.
Fixpoint more (depth cur : Z) (i : info) (k : list (name * tree)) (j : nat) : list (list nat) :=
  match k with
  | [] => []
  | (n, c) :: k => (if goes i n c then map (cons j) (places depth (cur + 1) c) else []) ++ more depth cur i k (S j)
  end.
Lemma places_eq : forall depth cur i a k, places depth cur (Node i a k) =
  (if (0 <=? depth) || (Z.abs depth =? cur) then [[]] else []) ++ (if cur <? Z.abs depth then more depth cur i k 0 else []).
Proof.
  intros. cbn [places]. f_equal. destruct (cur <? Z.abs depth); [|reflexivity].
  generalize 0%nat. induction k as [|[n c] k IH]; intros j; [reflexivity|]. cbn [more]. rewrite IH. reflexivity.
Qed.
Lemma more_in : forall depth cur i k j p, In p (more depth cur i k j) <->
  exists m n c q, nth_error k m = Some (n, c) /\ goes i n c = true /\ p = (j + m)%nat :: q /\ In q (places depth (cur + 1) c).
Proof.
  induction k as [|[n c] k IH]; intros j p; cbn [more].
  - split; [intros []|]. intros ([|m] & n & c & q & E & _); discriminate.
  - rewrite in_app_iff, IH. split.
    + intros [H|(m & n' & c' & q & E & G & -> & H)].
      * destruct (goes i n c) eqn:G; [|destruct H]. apply in_map_iff in H as (q & <- & H). exists 0%nat, n, c, q. rewrite Nat.add_0_r. auto.
      * exists (S m), n', c', q. rewrite Nat.add_succ_r. auto.
    + intros ([|m] & n' & c' & q & E & G & -> & H).
      * injection E as <- <-. left. rewrite G, Nat.add_0_r. apply in_map, H.
      * right. exists m, n', c', q. rewrite Nat.add_succ_r. auto.
Qed.
Fixpoint way (t : tree) (pos : list nat) : Prop :=
  match pos with
  | [] => True
  | j :: pos => exists n c, nth_error (kids t) j = Some (n, c) /\ goes (inf t) n c = true /\ way c pos
  end.
Lemma way_listed : forall pos u, way u pos <-> exists x, node_of u pos = Some x /\
    (forall a b y, pos = a ++ b -> a <> [] -> node_of u a = Some y -> is_table y = true -> getter (inf y) = false) /\
    (forall a j b y n c, pos = a ++ j :: b -> node_of u a = Some y -> is_table y = true -> nth_error (kids y) j = Some (n, c) -> n <> TEMPLATE).
Proof.
  induction pos as [|j pos IH]; intros u.
  - split; [intros _|exact (fun _ => I)]. exists u. split; [reflexivity|]. split.
    + intros a b y E NA. symmetry in E. apply app_eq_nil in E as [-> _]. congruence.
    + intros [|? ?] ? ? ? ? ? E; discriminate.
  - cbn [way node_of]. split.
    + intros (n & c & E & G & W). apply IH in W as (x & N & W1 & W2). apply andb_prop in G as [G1 G2]. exists x. rewrite E. split; [exact N|]. split.
      * intros [|j' a] b y Q NA NY TY; [congruence|]. cbn [app] in Q. assert (j' = j) by congruence. subst j'. assert (Q' : pos = a ++ b) by congruence.
        cbn [node_of] in NY. rewrite E in NY. destruct a as [|j' a].
        -- cbn in NY. injection NY as <-. rewrite TY in G1. destruct (getter (inf c)); [discriminate|reflexivity].
        -- eapply (W1 (j' :: a) b y); eauto. discriminate.
      * intros [|j' a] j0 b y n' c' Q NY TY NE; cbn [app] in Q.
        -- cbn in NY. injection NY as <-. assert (j0 = j) by congruence. subst j0. rewrite E in NE. injection NE as <- <-. unfold is_table in TY. rewrite TY in G2.
           intros ->. rewrite bytes_eqb_refl in G2. discriminate.
        -- assert (j' = j) by congruence. subst j'. assert (Q' : pos = a ++ j0 :: b) by congruence. cbn [node_of] in NY. rewrite E in NY. eapply (W2 a j0 b y); eauto.
    + intros (x & N & W1 & W2). destruct (nth_error (kids u) j) as [[n c]|] eqn:E; [|discriminate]. exists n, c. split; [reflexivity|]. split.
      * unfold goes. apply andb_true_intro. split.
        -- destruct (is_table c) eqn:T; [|reflexivity]. rewrite (W1 [j] pos c); auto; [discriminate|]. cbn [node_of]. rewrite E. reflexivity.
        -- destruct (typ (inf u) =? TABLE) eqn:T; [|reflexivity]. destruct (bytes_eqb n TEMPLATE) eqn:B; [|reflexivity]. exfalso.
           apply (W2 [] j pos u n c); auto. apply bytes_eqb_eq, B.
      * apply IH. exists x. split; [exact N|]. split.
        -- intros a b y Q NA NY TY. apply (W1 (j :: a) b y); auto; [rewrite Q; reflexivity|discriminate|]. cbn [node_of]. rewrite E. exact NY.
        -- intros a j0 b y n' c' Q NY TY NE. apply (W2 (j :: a) j0 b y n' c'); auto; [rewrite Q; reflexivity|]. cbn [node_of]. rewrite E. exact NY.
Qed.
Lemma places_in : forall depth t cur pos, 0 <= cur <= Z.abs depth ->
  In pos (places depth cur t) <-> way t pos /\ (0 <= depth -> cur + Z.of_nat (length pos) <= depth) /\ (depth < 0 -> cur + Z.of_nat (length pos) = - depth).
Proof.
  intros depth. induction t as [i a k IH] using tree_rect'. intros cur pos B. rewrite places_eq, in_app_iff.
  assert (A : In pos (if (0 <=? depth) || (Z.abs depth =? cur) then [[]] else []) <-> pos = [] /\ (0 <= depth \/ cur = - depth)).
  { destruct ((0 <=? depth) || (Z.abs depth =? cur)) eqn:C; cbn [In]; split.
    - intros [<-|[]]. split; [reflexivity|lia].
    - intros [-> _]. auto.
    - intros [].
    - intros [-> H]. lia. }
  rewrite A. clear A. destruct (cur <? Z.abs depth) eqn:C.
  - rewrite more_in. destruct pos as [|j pos].
    + split; [|intros (_ & _ & H); left; split; [reflexivity|]; cbn in H; lia]. intros [[_ H]|(m & n & c & q & _ & _ & E & _)]; [|discriminate].
      split; [exact I|]. cbn [length]. lia.
    + cbn [way kids inf]. split.
      * intros [[E _]|(m & n & c & q & E & G & Q & H)]; [discriminate|]. cbn in Q. injection Q as -> ->. apply (IH n c (nth_error_In _ _ E)) in H; [|lia].
        destruct H as (W & H1 & H2). split; [exists n, c; auto|]. cbn [length]. lia.
      * intros ((n & c & E & G & W) & H1 & H2). right. exists j, n, c, pos. repeat (split; [first [exact E|exact G|reflexivity]|]).
        apply (IH n c (nth_error_In _ _ E)); [lia|]. split; [exact W|]. cbn [length] in *. lia.
  - split.
    + intros [[-> H]|[]]. split; [exact I|]. cbn [length]. lia.
    + intros (_ & H1 & H2). left. destruct pos as [|j pos]; [split; [reflexivity|lia]|]. cbn [length] in *. lia.
Qed.
Lemma places_listed : forall depth t pos, In pos (places depth 0 t) <-> listed_at t depth pos.
Proof.
  intros depth t pos. rewrite places_in by lia. rewrite way_listed. unfold listed_at. split.
  - intros ((x & N & A & B) & H1 & H2). exists x. split; [exact N|]. split; [lia|]. split; [lia|]. auto.
  - intros (x & N & H1 & H2 & A & B). split; [exists x; auto|]. lia.
Qed.
Lemma sorted_app' : forall a b, StronglySorted precedes a -> StronglySorted precedes b -> (forall x y, In x a -> In y b -> precedes x y) -> StronglySorted precedes (a ++ b).
Proof.
  induction a as [|x a IH]; intros b A B H; [exact B|]. inversion A as [|? ? A1 A2]; subst. cbn. constructor.
  - apply IH; auto. intros; apply H; cbn; auto.
  - apply Forall_app. split; [exact A2|]. apply Forall_forall. intros y Y. apply H; cbn; auto.
Qed.
Lemma places_sorted : forall depth t cur, StronglySorted precedes (places depth cur t).
Proof.
  intros depth. induction t as [i a k IH] using tree_rect'. intros cur. rewrite places_eq. apply sorted_app'.
  - destruct ((0 <=? depth) || (Z.abs depth =? cur)); repeat constructor.
  - destruct (cur <? Z.abs depth); [|constructor]. generalize 0%nat. induction k as [|[n c] k IHk]; intros j; cbn [more]; [constructor|]. apply sorted_app'.
    + destruct (goes i n c); [|constructor]. specialize (IH n c (or_introl eq_refl) (cur + 1)).
      induction (places depth (cur + 1) c) as [|p L IHL]; [constructor|]. inversion IH as [|? ? A1 A2]; subst. cbn. constructor; auto.
      apply Forall_map. eapply Forall_impl; [|exact A2]. intros. apply pre_below. assumption.
    + apply IHk. intros n' c' H. apply (IH n' c'). right. exact H.
    + intros x y X Y. destruct (goes i n c); [|destruct X]. apply in_map_iff in X as (q & <- & _). apply more_in in Y as (m & n' & c' & q' & _ & _ & -> & _). apply pre_here. lia.
  - intros x y X Y. destruct ((0 <=? depth) || (Z.abs depth =? cur)); [|destruct X]. destruct X as [<-|[]].
    destruct (cur <? Z.abs depth); [|destruct Y]. apply more_in in Y as (m & n' & c' & q' & _ & _ & -> & _). apply pre_up.
Qed.

(** ** their entries *)
Fixpoint more_names (other : Z -> Z) (depth : Z) (i : info) (fn : name) (cur : Z) (k : list (name * tree)) : list entry :=
  match k with
  | [] => []
  | (n, c) :: k => (if goes i n c then list_names other depth (typ i =? TABLE) (fn ++ bs "." ++ n) (cur + 1) c else []) ++ more_names other depth i fn cur k
  end.
Lemma list_eq : forall other depth it fn cur i a k, list_names other depth it fn cur (Node i a k) =
  (if (0 <=? depth) || (Z.abs depth =? cur) then [mkEntry (shown_name i fn) (typ i) (access other it i)] else []) ++
  (if cur <? Z.abs depth then more_names other depth i fn cur k else []).
Proof.
  intros. cbn [list_names]. f_equal. destruct (cur <? Z.abs depth); [|reflexivity]. induction k as [|[n c] k IH]; [reflexivity|]. cbn [more_names]. rewrite <- IH. reflexivity.
Qed.
Lemma access_bits : forall other it i b, 0 <= b -> Z.testbit (access other it i) b =
  (getter i && (b =? 0)) || Z.testbit (other (hid i)) b || ((typ i =? 0) && it && ((b =? 0) || (b =? 1))).
Proof.
  intros other it i b B. unfold access, ACCESS_GET, ACCESS_SET. rewrite !Z.lor_spec. f_equal; [f_equal|].
  - destruct (getter i); cbn [andb]; [|apply Z.testbit_0_l]. destruct (b =? 0) eqn:E; [assert (b = 0) as -> by lia; reflexivity|]. apply (Z.bits_above_log2 1); [lia|]. change (Z.log2 1) with 0. lia.
  - destruct ((typ i =? 0) && it); cbn [andb]; [|apply Z.testbit_0_l]. change (Z.lor 1 2) with 3. destruct (b =? 0) eqn:E; [assert (b = 0) as -> by lia; reflexivity|].
    destruct (b =? 1) eqn:E1; [assert (b = 1) as -> by lia; reflexivity|]. apply (Z.bits_above_log2 3); [lia|]. change (Z.log2 3) with 1. lia.
Qed.
Lemma Forall2_map_l : forall A B C (R : B -> C -> Prop) (f : A -> B) l l', Forall2 (fun x y => R (f x) y) l l' -> Forall2 R (map f l) l'.
Proof. intros A B C R f l l' H. induction H; constructor; auto. Qed.
Lemma Forall2_mono : forall A B (R R' : A -> B -> Prop) l l', (forall x y, R x y -> R' x y) -> Forall2 R l l' -> Forall2 R' l l'.
Proof. intros A B R R' l l' M H. induction H; constructor; auto. Qed.
Lemma list_entries : forall other depth t P cur it, P <> [] -> sendable other t P ->
  Forall2 (entry_at other t it P) (places depth cur t) (list_names other depth it (full P) cur t).
Proof.
  intros other depth. induction t as [i a k IH] using tree_rect'. intros P cur it NP S. rewrite places_eq, list_eq. apply Forall2_app.
  - destruct ((0 <=? depth) || (Z.abs depth =? cur)); constructor; [|constructor]. exists (Node i a k). cbn [node_of e_type e_name e_access path_of inf in_table_at].
    split; [reflexivity|]. split; [reflexivity|]. split; [|intros b B; apply access_bits, B].
    destruct (S [] _ eq_refl) as (_ & L & _). cbn [path_of] in L. rewrite app_nil_r in *. unfold shown_name. destruct ((typ i =? 0) || (typ i =? TABLE)); [|rewrite app_nil_r; reflexivity].
    apply firstn_all2. rewrite app_length. cbn. lia.
  - destruct (cur <? Z.abs depth); [|constructor].
    assert (G : forall k1 k2, k = k1 ++ k2 -> Forall2 (entry_at other (Node i a k) it P) (more depth cur i k2 (length k1)) (more_names other depth i (full P) cur k2)).
    { intros k1 k2. revert k1. induction k2 as [|[n c] k2 IHk]; intros k1 E; [constructor|]. cbn [more more_names].
      assert (NE : nth_error k (length k1) = Some (n, c)) by (rewrite E, nth_error_app2, Nat.sub_diag by lia; reflexivity).
      specialize (IHk (k1 ++ [(n, c)])). rewrite app_length in IHk. cbn [length] in IHk. rewrite Nat.add_1_r in IHk.
      apply Forall2_app; [|apply IHk; rewrite <- app_assoc; exact E]. destruct (goes i n c); [|constructor].
      rewrite <- full_snoc by exact NP. apply Forall2_map_l.
      assert (SC : sendable other c (P ++ [n])).
      { intros pos x N. destruct (S (length k1 :: pos) x) as (A1 & A2 & A3); [cbn [node_of kids]; rewrite NE; exact N|]. cbn [path_of kids] in A1, A2. rewrite NE in A1, A2.
        rewrite <- app_assoc. split; [exact A1|]. split; [exact A2|exact A3]. }
      specialize (IH n c (nth_error_In _ _ NE) (P ++ [n]) (cur + 1) (typ i =? TABLE) (snoc_nonempty _ _) SC).
      eapply Forall2_mono; [|exact IH]. intros pos e (x & N & T & M & B). exists x. cbn [node_of path_of kids]. rewrite NE. split; [exact N|]. split; [exact T|].
      split; [rewrite M, <- app_assoc; reflexivity|]. intros b H. rewrite B by exact H.
      assert (Q : in_table_at (Node i a k) it (length k1 :: pos) = in_table_at c (typ i =? TABLE) pos).
      { unfold in_table_at. destruct pos as [|j pos]; [reflexivity|]. change (removelast (length k1 :: j :: pos)) with (length k1 :: removelast (j :: pos)).
        cbn [node_of kids]. rewrite NE. reflexivity. }
      rewrite Q. reflexivity. }
    exact (G [] k eq_refl).
Qed.
Lemma list_described : forall other depth u it P, P <> [] -> sendable other u P -> described other u it P depth (list_names other depth it (full P) 0 u).
Proof.
  intros other depth u it P NP S. exists (places depth 0 u). split; [apply places_sorted|]. split; [intros; apply places_listed|]. apply list_entries; assumption.
Qed.

(** ** the messages *)
Definition entry_fits (e : entry) : Prop := text_ok (e_name e) /\ - 2 ^ 31 <= e_type e < 2 ^ 31 /\ - 2 ^ 31 <= e_access e < 2 ^ 31.
Definition entry_bytes (e : entry) : list Z := pack_str (e_name e ++ [0]) ++ pack_int (e_type e) ++ pack_int (e_access e).
Lemma put_entries_data : forall l m, m_data (put_entries m l) = m_data m ++ flat_map entry_bytes l.
Proof.
  unfold put_entries. induction l as [|r l IH]; intros m; cbn [fold_left flat_map]; [rewrite app_nil_r; reflexivity|].
  rewrite IH. unfold set_string, set_int32, append, entry_bytes. cbn [m_data]. rewrite <- !app_assoc. reflexivity.
Qed.
Lemma take_entries_ok : forall l pre r meta, Forall entry_fits l -> take_entries (length l) (MsgProofs.at_pos pre (flat_map entry_bytes l ++ r) meta) = Ok l.
Proof.
  induction l as [|e l IH]; intros pre r meta F; [reflexivity|]. inversion F as [|? ? (A & B & C) F2]; subst. cbn [length take_entries flat_map].
  unfold entry_bytes at 1. rewrite <- !app_assoc, take_string by exact A. cbn [need obind]. rewrite take_int by exact B. cbn [need obind]. rewrite take_int by exact C. cbn [need obind].
  rewrite IH by exact F2. destruct e. reflexivity.
Qed.
Lemma entries_answer_ok : forall l, Forall entry_fits l -> Z.of_nat (length l) < 2 ^ 31 ->
  entries_answer (msg_from_bytes (m_data (put_entries (set_int32 (set_int32 msg_init E_SUCCESS) (Z.of_nat (length l))) l))) = Ok (E_SUCCESS, l).
Proof.
  intros l F L. rewrite put_entries_data. unfold set_int32, append. cbn [m_data msg_init app m_read m_meta]. rewrite <- !app_assoc, from_start. unfold entries_answer.
  rewrite take_int by (cbv; split; congruence). cbn [obind]. change (E_SUCCESS <? TransModel.LEGACY_SUCCESS) with true. cbv iota zeta. change (E_SUCCESS =? E_SUCCESS) with true. cbv iota.
  rewrite take_int by lia. cbn [obind]. rewrite Nat2Z.id. rewrite <- (app_nil_r (flat_map entry_bytes l)). rewrite take_entries_ok by exact F. reflexivity.
Qed.
Lemma access_small : forall other it i, 0 <= other (hid i) < 2 ^ 31 -> 0 <= access other it i < 2 ^ 31.
Proof.
  intros other it i B. assert (N : forall a b, 0 <= a < 2 ^ 31 -> 0 <= b < 2 ^ 31 -> 0 <= Z.lor a b < 2 ^ 31).
  { intros a b A C. split; [apply Z.lor_nonneg; lia|]. destruct (Z.eq_dec a 0) as [->|A0]; [rewrite Z.lor_0_l; lia|]. destruct (Z.eq_dec b 0) as [->|B0]; [rewrite Z.lor_0_r; lia|].
    assert (P : 0 < Z.lor a b). { assert (0 <= Z.lor a b) by (apply Z.lor_nonneg; lia). assert (Z.lor a b <> 0); [|lia]. intros E. apply Z.lor_eq_0_iff in E. lia. }
    apply Z.log2_lt_pow2; [exact P|]. rewrite Z.log2_lor by lia. assert (Z.log2 a < 31) by (apply Z.log2_lt_pow2; lia). assert (Z.log2 b < 31) by (apply Z.log2_lt_pow2; lia). lia. }
  unfold access, ACCESS_GET, ACCESS_SET. apply N; [apply N; [destruct (getter i); lia|exact B]|]. destruct ((typ i =? 0) && it); [change (Z.lor 1 2) with 3|]; lia.
Qed.
Lemma entry_at_fits : forall other u it P pos e, sendable other u P -> entry_at other u it P pos e -> entry_fits e.
Proof.
  intros other u it P pos e S (x & N & T & M & B). destruct (S pos x N) as (C & L & TY & O). unfold entry_fits. split; [|split].
  - rewrite M. destruct ((typ (inf x) =? 0) || (typ (inf x) =? TABLE)).
    + split; [unfold is_cstr in *; rewrite forallb_app, C; reflexivity|]. rewrite app_length. cbn. lia.
    + rewrite app_nil_r. split; [exact C|lia].
  - rewrite T. lia.
  - assert (E : e_access e = access other (in_table_at u it pos) (inf x)) by (apply Z.bits_inj'; intros b H; rewrite B, access_bits by exact H; reflexivity).
    rewrite E. pose proof (access_small other (in_table_at u it pos) (inf x) O). lia.
Qed.
Lemma described_fits : forall other u it P depth l, sendable other u P -> described other u it P depth l -> Forall entry_fits l.
Proof.
  intros other u it P depth l S (L & _ & _ & F). induction F as [|pos e L l E F IH]; constructor; [eapply entry_at_fits; eauto|exact IH].
Qed.

(** ** the way down *)
Lemma inst_open : forall rest t first, open_path t (first :: rest) -> forallb plain_tok (first :: rest) = true ->
  inst_loop t false first rest = match sub t (first :: rest) with Some x => Some (ipos t (first :: rest), x) | None => None end.
Proof.
  induction rest as [|tok rest IH]; intros t first G P; cbn [forallb] in P; apply andb_prop in P as [P1 P2];
    cbn [inst_loop]; rewrite find_inst_plain by exact P1; cbn [sub ipos];
    destruct (find_kid first (kids t) 0) as [(j, c)|] eqn:F; try reflexivity.
  assert (GC : open_path c (tok :: rest)).
  { intros a b y E NA NB S T. apply (G (first :: a) b y); auto; [rewrite E; reflexivity|discriminate|]. cbn [sub]. rewrite F. exact S. }
  assert (GI : is_table c = true -> getter (inf c) = false).
  { apply (G [first] (tok :: rest) c); auto; try discriminate. cbn [sub]. rewrite F. reflexivity. }
  assert (ST : bytes_eqb tok (bs "*") = false).
  { cbn [forallb] in P2. apply andb_prop in P2 as [P2 _]. unfold plain_tok in P2. apply andb_prop in P2 as [P2 _]. destruct (bytes_eqb tok (bs "*")); [discriminate|reflexivity]. }
  rewrite ST. cbn [orb].
  destruct (kids c) eqn:KC.
  - cbn [sub]. reflexivity.
  - rewrite <- KC.
    assert (E : (if is_table c && ((if is_table c then false else false) || getter (inf c)) then TEMPLATE else tok) = tok) by (destruct (is_table c); [rewrite GI|]; reflexivity).
    assert (E2 : (if is_table c then false else false) = false) by (destruct (is_table c); reflexivity).
    rewrite E, E2. rewrite IH; auto. cbn [sub ipos]. destruct (find_kid tok (kids c) 0) as [(j', c')|]; [|reflexivity].
    destruct (sub c' rest); reflexivity.
Qed.
Lemma ipos_path_of : forall Q t u, sub t Q = Some u -> path_of t (ipos t Q) = Q.
Proof.
  induction Q as [|n Q IH]; intros t u S; [reflexivity|]. cbn [sub ipos] in *. destruct (find_kid n (kids t) 0) as [(j, c)|] eqn:F; [|discriminate].
  pose proof (find_kid_nth _ _ _ _ F) as NT. cbn [path_of]. rewrite NT. rewrite (IH _ _ S). reflexivity.
Qed.
Lemma parent_above : forall Q t u, sub t Q = Some u -> Q <> [] -> parent_table t (ipos t Q) = table_above t Q.
Proof.
  induction Q as [|n Q IH]; intros t u S N; [congruence|]. cbn [sub ipos] in *. destruct (find_kid n (kids t) 0) as [(j, c)|] eqn:F; [|discriminate].
  pose proof (find_kid_nth _ _ _ _ F) as NT. destruct Q as [|m Q]; [reflexivity|]. specialize (IH c u S ltac:(discriminate)).
  assert (E : table_above t (n :: m :: Q) = table_above c (m :: Q)).
  { unfold table_above. change (removelast (n :: m :: Q)) with (n :: removelast (m :: Q)). cbn [sub]. rewrite F. reflexivity. }
  rewrite E, <- IH. cbn [parent_table]. cbn [sub] in S. cbn [ipos]. destruct (find_kid m (kids c) 0) as [(j', c')|]; [|discriminate]. rewrite NT. reflexivity.
Qed.
Lemma entries_answer_code : forall n, 0 < n <= 30 -> entries_answer (msg_from_bytes (m_data (set_int32 msg_init n))) = Ok (n, []).
Proof.
  intros n B. unfold set_int32, append. cbn [m_data msg_init app m_read m_meta]. rewrite from_start. unfold entries_answer.
  rewrite <- (app_nil_r (pack_int n)), take_int by lia. cbn [obind]. unfold TransModel.LEGACY_SUCCESS, E_SUCCESS.
  replace (n <? 100) with true by lia. cbv iota zeta. replace (n =? 0) with false by lia. reflexivity.
Qed.
Lemma told_ok : forall Q depth d s, Q <> [] -> forallb plain_tok Q = true -> tokens s = Q -> text_ok s -> - 2 ^ 31 < depth < 2 ^ 31 -> ready Q depth d ->
  exists c l, told Q depth d c l /\
    match d with
    | Fails err => Ok (bus_error err, [])
    | Answers other t =>
      let req := set_int32 (set_int32 (set_string msg_init (Some s)) depth) 0 in
      do resp <- names_handler other t (msg_from_bytes (m_data req)) ; entries_answer (msg_from_bytes (m_data resp))
    end = Ok (c, l).
Proof.
  intros Q depth d s NQ P TK TS BD R. destruct d as [err|other t]; [eexists; eexists; split; [constructor|reflexivity]|].
  destruct R as [OP RD]. cbv zeta. unfold names_handler. rewrite parse_request by (auto; lia).
  assert (RI : retrieve_instance t s = match sub t Q with Some x => Some (ipos t Q, x) | None => None end).
  { unfold retrieve_instance. rewrite TK. destruct Q as [|n Q]; [congruence|]. apply inst_open; assumption. }
  rewrite RI. destruct (sub t Q) as [u|] eqn:S.
  - destruct (RD u eq_refl) as [SE CO]. cbn [Z.eqb negb]. destruct (is_table u && getter (inf u)) eqn:TG.
    + exists E_SUCCESS, []. split; [apply (told_own _ _ _ _ u); assumption|reflexivity].
    + replace (depth =? - 2 ^ 31) with false by lia. rewrite (ipos_path_of Q t u S), (parent_above Q t u S NQ). cbn [obind].
      pose proof (list_described other depth u (table_above t Q) Q NQ SE) as D. exists E_SUCCESS. eexists. split; [eapply told_some; eauto|].
      apply entries_answer_ok; [eapply described_fits; eauto|apply CO, D].
  - exists E_ELEMENT_DOES_NOT_EXIST, []. split; [apply told_none, S|]. cbn [obind]. apply entries_answer_code. unfold E_ELEMENT_DOES_NOT_EXIST. lia.
Qed.
Lemma ask_all_ok : forall Q depth s ds code, Q <> [] -> forallb plain_tok Q = true -> tokens s = Q -> text_ok s -> - 2 ^ 31 < depth < 2 ^ 31 ->
  Forall (fun d => ready Q depth (snd d)) ds -> exists code' es, told_all Q depth code ds code' es /\ ask_all s depth code ds = Ok (code', es).
Proof.
  intros Q depth s ds code NQ P TK TS BD F. revert code. induction F as [|(comp, d) ds R F IH]; intros code; [exists code, []; cbn; auto|].
  destruct (told_ok Q depth d s NQ P TK TS BD R) as (c & l & T & E). destruct (IH c) as (code' & es & A & B).
  exists code', (map (fun e => (comp, e)) l ++ es). split; [exists c, l, es; auto|]. cbn [ask_all]. destruct d; cbv zeta in E |- *; rewrite E; cbn [obind]; rewrite B; reflexivity.
Qed.
