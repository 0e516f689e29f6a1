From Coq Require Import String ZifyBool.
From Verif Require Import Common CommonFacts Base64Model Base64Spec Base64Proofs Base64Props JsonModel JsonSpec.
Local Open Scope string_scope.
Local Open Scope list_scope.
Local Open Scope Z_scope.

(** ** Names *)
Lemma lower_alike x y : lower x = lower y <-> alike_char x y.
Proof.
  unfold lower, alike_char. destruct ((65 <=? x) && (x <=? 90)) eqn:X, ((65 <=? y) && (y <=? 90)) eqn:Y; split; intros H.
  - left. lia.
  - destruct H as [H|(k & K & H)]; lia.
  - right. exists (x - 65). lia.
  - destruct H as [H|(k & K & H)]; lia.
  - right. exists (y - 65). lia.
  - destruct H as [H|(k & K & H)]; lia.
  - left. exact H.
  - destruct H as [H|(k & K & H)]; lia.
Qed.

Lemma lower_names n m : map lower n = map lower m <-> alike n m.
Proof.
  unfold alike. revert m. induction n as [|x n IH]; intros [|y m]; cbn; split; intros H; try discriminate; auto; try (now inversion H).
  - injection H as E F. constructor; [apply lower_alike; exact E|apply IH; exact F].
  - inversion H; subst. f_equal; [apply lower_alike; assumption|apply IH; assumption].
Qed.

Lemma name_is_like n j m : j_name j = Some m -> name_is n j = true <-> alike n m.
Proof. intros E. unfold name_is. rewrite E, bytes_eqb_eq. apply lower_names. Qed.

Definition likeb (n m : list Z) : bool := bytes_eqb (map lower n) (map lower m).
Lemma likeb_alike n m : likeb n m = true <-> alike n m.
Proof. unfold likeb. rewrite bytes_eqb_eq. apply lower_names. Qed.

Lemma likeb_swap n m m' : likeb n m = true -> likeb n m' = likeb m m'.
Proof. unfold likeb. intros H. apply bytes_eqb_eq in H. rewrite H. reflexivity. Qed.

Lemma renamed_name n j : j_name (renamed n j) = Some n.
Proof. destruct j; reflexivity. Qed.
Lemma name_is_renamed n m j : name_is n (renamed m j) = likeb n m.
Proof. unfold name_is. rewrite renamed_name. reflexivity. Qed.
Lemma name_is_with_kid n j x : name_is n (with_kid j x) = name_is n j.
Proof. destruct j; reflexivity. Qed.
Lemma kids_with_kid j x : j_kids (with_kid j x) = j_kids j ++ [x].
Proof. destruct j; reflexivity. Qed.
Lemma kids_with_kids j l : j_kids (with_kids j l) = l.
Proof. destruct j; reflexivity. Qed.

Lemma find_snoc {A} f (l : list A) x : find f (l ++ [x]) = match find f l with Some y => Some y | None => if f x then Some x else None end.
Proof. induction l as [|y l IH]; cbn; [reflexivity|]. destruct (f y); auto. Qed.

(** ** Looking up after a change *)
Lemma get_add_item m n k x : get_item (add_item m n x) k =
  match get_item m k with Some p => Some p | None => match x with Some x => if likeb k n then Some (renamed n x) else None | None => None end end.
Proof.
  unfold get_item, add_item. destruct x as [x|]; [|destruct (find _ _); reflexivity].
  rewrite kids_with_kid, find_snoc, name_is_renamed. reflexivity.
Qed.

Lemma find_on_first n k f l : (forall x, name_is k (f x) = name_is k x) -> (forall x, name_is n (f x) = name_is n x) ->
  find (name_is k) (on_first n f l) =
    match find (name_is k) l with
    | Some p => Some (if likeb n k then f p else p) | None => None end.
Proof.
  intros Fk Fn. induction l as [|x l IH]; cbn; [reflexivity|].
  destruct (name_is n x) eqn:Nx; cbn.
  - rewrite Fk. destruct (name_is k x) eqn:Kx.
    + assert (E : likeb n k = true).
      { unfold name_is in Nx, Kx. destruct (j_name x); [|discriminate]. apply bytes_eqb_eq in Nx, Kx. unfold likeb. apply bytes_eqb_eq. congruence. }
      rewrite E. reflexivity.
    + destruct (find (name_is k) l) as [p|] eqn:Fp; [|reflexivity].
      assert (E : likeb n k = false).
      { destruct (likeb n k) eqn:E; auto. unfold likeb in E. apply bytes_eqb_eq in E. unfold name_is in Nx, Kx. rewrite E in Nx. congruence. }
      rewrite E. reflexivity.
  - destruct (name_is k x) eqn:Kx; [|exact IH].
    assert (E : likeb n k = false).
    { destruct (likeb n k) eqn:E; auto. unfold likeb in E. apply bytes_eqb_eq in E. unfold name_is in Nx, Kx. rewrite E in Nx. congruence. }
    rewrite E. reflexivity.
Qed.

Lemma likeb_sym n k : likeb n k = likeb k n.
Proof.
  unfold likeb. destruct (bytes_eqb (map lower n) (map lower k)) eqn:E.
  - apply bytes_eqb_eq in E. rewrite E. symmetry. now apply bytes_eqb_eq.
  - symmetry. destruct (bytes_eqb (map lower k) (map lower n)) eqn:F; auto. apply bytes_eqb_eq in F. rewrite F in E.
    rewrite (proj2 (bytes_eqb_eq (map lower n) (map lower n)) eq_refl) in E. discriminate.
Qed.

Definition opt_kid (p : json) (x : option json) : json := match x with Some x => with_kid p x | None => p end.

Lemma get_add_to m n x k : get_item (add_to m n x) k =
  match get_item m k with
  | Some p => Some (if likeb k n then opt_kid p x else p)
  | None => if likeb k n then Some (opt_kid (renamed n create_array) x) else None
  end.
Proof.
  unfold add_to.
  set (m1 := match get_item m n with Some _ => m | None => add_item m n (Some create_array) end).
  assert (G : get_item m1 k = match get_item m k with Some p => Some p | None => if likeb k n then Some (renamed n create_array) else None end).
  { unfold m1. destruct (get_item m n) as [q|] eqn:Gn.
    - destruct (get_item m k) as [p|] eqn:Gk; [reflexivity|]. destruct (likeb k n) eqn:E; [|reflexivity]. exfalso.
      unfold get_item in Gn, Gk. assert (F : find (name_is k) (j_kids m) = Some q); [|congruence].
      rewrite <- Gn. clear - E. induction (j_kids m) as [|y l IH]; cbn; auto.
      assert (Q : name_is k y = name_is n y).
      { unfold name_is. destruct (j_name y); auto. apply bytes_eqb_eq in E. rewrite E. reflexivity. }
      rewrite Q, IH. reflexivity.
    - rewrite get_add_item. reflexivity. }
  destruct x as [x|]; cbn [opt_kid].
  - unfold get_item in G |- *. rewrite kids_with_kids.
    rewrite (find_on_first n k (fun a => with_kid a x)) by (intros; apply name_is_with_kid). rewrite G, (likeb_sym n k).
    destruct (find (name_is k) (j_kids m)) as [p|]; [reflexivity|]. destruct (likeb k n) eqn:E; reflexivity.
  - rewrite G. destruct (get_item m k) as [p|]; [destruct (likeb k n); reflexivity|]. reflexivity.
Qed.

(** ** One call *)
(** the field a call puts in when there is none *)
Definition fresh (c : call) : option (list Z * json) :=
  match c with
  | SetString n v => match create_string v with Some x => Some (n, x) | None => None end
  | SetInt32 n z => Some (n, create_number (Double z 0))
  | SetBool n b => Some (n, create_bool b)
  | SetDouble n d => Some (n, create_number d)
  | SetMessage n x => match x with Some x => Some (n, x) | None => None end
  | AddString n v => Some (n, opt_kid create_array (create_string v))
  | AddMessage n x => Some (n, opt_kid create_array x)
  | AddBinary n d => match encode d with Ok (t, _) => match create_string (Some t) with Some x => Some (n, x) | None => None end | _ => None end
  | SetTopic t => match create_string t with Some x => Some (topic_name, x) | None => None end
  end.
(** what it appends when there is one *)
Definition extra (c : call) : option (list Z * option json) :=
  match c with
  | AddString n v => Some (n, create_string v)
  | AddMessage n x => Some (n, x)
  | _ => None
  end.

Lemma renamed_opt n p x : renamed n (opt_kid p x) = opt_kid (renamed n p) x.
Proof. destruct x, p; reflexivity. Qed.

Lemma apply_get m c m' k : apply m c = Ok m' ->
  get_item m' k = match get_item m k with
    | Some p => Some (match extra c with Some (n, x) => if likeb k n then opt_kid p x else p | None => p end)
    | None => match fresh c with Some (n, x) => if likeb k n then Some (renamed n x) else None | None => None end
    end.
Proof.
  intros A. destruct c as [n v|n z|n b|n d|n x|n v|n x|n d|t]; cbn [apply extra fresh] in *.
  - injection A as <-. unfold set_string. rewrite get_add_item. destruct (get_item m k); auto. destruct v; reflexivity.
  - injection A as <-. unfold set_int32. rewrite get_add_item. reflexivity.
  - injection A as <-. unfold set_bool. rewrite get_add_item. reflexivity.
  - injection A as <-. unfold set_double. rewrite get_add_item. reflexivity.
  - injection A as <-. unfold set_message. rewrite get_add_item. destruct (get_item m k), x; reflexivity.
  - injection A as <-. unfold add_string. rewrite get_add_to, renamed_opt. destruct (get_item m k); [destruct (likeb k n)|]; reflexivity.
  - injection A as <-. unfold add_message. rewrite get_add_to, renamed_opt. destruct (get_item m k); [destruct (likeb k n)|]; reflexivity.
  - unfold add_binary in A. destruct (encode d) as [(t, s)|e|]; try discriminate; injection A as <-.
    + unfold set_string. rewrite get_add_item. destruct (get_item m k); reflexivity.
    + destruct (get_item m k); reflexivity.
  - unfold set_topic in A. destruct (get_item m topic_name); [discriminate|]. injection A as <-.
    rewrite get_add_item. destruct (get_item m k); auto. destruct t; reflexivity.
Qed.

Lemma fresh_puts c n x : fresh c = Some (n, x) -> puts c n.
Proof.
  destruct c as [m v|m z|m b|m d|m y|m v|m y|m d|t]; cbn; intros E.
  - destruct v; [|discriminate]. injection E as <- <-. constructor.
  - injection E as <- <-. constructor.
  - injection E as <- <-. constructor.
  - injection E as <- <-. constructor.
  - destruct y; [|discriminate]. injection E as <- <-. constructor.
  - injection E as <- <-. constructor.
  - injection E as <- <-. constructor.
  - unfold encode in E. destruct (BINARY_LIMIT <? Z.of_nat (length d)) eqn:B; [discriminate|].
    destruct (encode_groups d) as [t| |]; cbn [obind] in E; try discriminate. destruct (_ <=? _); [|discriminate].
    injection E as <- <-. constructor. unfold BINARY_LIMIT in B. lia.
  - destruct t; [|discriminate]. injection E as <- <-. constructor.
Qed.

Definition clean (c : call) : Prop := match c with AddBinary _ d => data d | _ => True end.

Lemma puts_fresh c n : clean c -> puts c n -> exists x, fresh c = Some (n, x).
Proof.
  intros D P. destruct P; cbn; eauto. cbn in D. destruct (C01_base64_encode d D H) as (t & s & -> & _). eauto.
Qed.

Lemma puts_name c n m : puts c n -> puts c m -> n = m.
Proof. intros P Q. destruct P; now inversion Q. Qed.

Lemma run_app l : forall r m, run m (l ++ r) = (do x <- run m l; run x r).
Proof. induction l as [|c l IH]; intros r m; cbn [app run]; [reflexivity|]. destruct (apply m c); cbn [obind]; auto. Qed.

(** Nothing puts a field of that name: there is none. *)
Lemma run_none k l : (forall c, In c l -> ~ puts_like c k) -> forall m m', get_item m k = None -> run m l = Ok m' -> get_item m' k = None.
Proof.
  induction l as [|c l IH]; intros N m m' G R; cbn [run] in R; [congruence|].
  destruct (apply m c) as [m1| |] eqn:A; try discriminate. cbn [obind] in R.
  apply (IH (fun c I => N c (or_intror I)) m1 m'); [|exact R].
  rewrite (apply_get m c m1 k A), G. destruct (fresh c) as [(n, x)|] eqn:F; [|reflexivity].
  destruct (likeb k n) eqn:L; [|reflexivity]. exfalso. apply (N c (or_introl eq_refl)).
  exists n. split; [exact (fresh_puts _ _ _ F)|apply likeb_alike; exact L].
Qed.

Definition extras (k : list Z) (l : list call) : list json :=
  flat_map (fun c => match extra c with Some (n, Some x) => if likeb k n then [x] else [] | _ => [] end) l.

Definition more (p : json) (l : list json) : json := with_kids p (j_kids p ++ l).
Lemma more_nil p : more p [] = p.
Proof. destruct p. unfold more. cbn. rewrite app_nil_r. reflexivity. Qed.
Lemma more_more p l r : more (more p l) r = more p (l ++ r).
Proof. destruct p. unfold more. cbn. rewrite app_assoc. reflexivity. Qed.

Lemma run_some k l : forall m m' p, get_item m k = Some p -> run m l = Ok m' -> get_item m' k = Some (more p (extras k l)).
Proof.
  induction l as [|c l IH]; intros m m' p G R; cbn [run] in R; [cbn; rewrite more_nil; congruence|].
  destruct (apply m c) as [m1| |] eqn:A; try discriminate. cbn [obind] in R.
  pose proof (apply_get m c m1 k A) as E. rewrite G in E. rewrite (IH m1 m' _ E R). cbn [extras flat_map]. fold (extras k l).
  destruct (extra c) as [(n, [x|])|]; [| |reflexivity]; destruct (likeb k n); cbn [opt_kid app]; try reflexivity.
  f_equal. change (x :: extras k l) with ([x] ++ extras k l). rewrite <- more_more. f_equal. destruct p; reflexivity.
Qed.

(** The first call that puts a field of that name. *)
Lemma run_first k h1 c h2 m n : clean c -> run create (h1 ++ c :: h2) = Ok m ->
  (forall d, In d h1 -> ~ puts_like d k) -> puts c n -> alike k n ->
  exists x, fresh c = Some (n, x) /\ get_item m k = Some (more (renamed n x) (extras k h2)).
Proof.
  intros D R N P L. rewrite run_app in R. destruct (run create h1) as [m1| |] eqn:R1; try discriminate. cbn [obind run] in R.
  destruct (apply m1 c) as [m2| |] eqn:A; try discriminate. cbn [obind] in R.
  assert (G1 : get_item m1 k = None) by (apply (run_none k h1 N create m1); [reflexivity|exact R1]).
  destruct (puts_fresh c n D P) as (x & F). exists x. split; [exact F|].
  pose proof (apply_get m1 c m2 k A) as G2. rewrite G1, F in G2. rewrite (proj2 (likeb_alike k n) L) in G2.
  exact (run_some k h2 m2 m _ G2 R).
Qed.

Lemma more_parts p l : j_kind (more p l) = j_kind p /\ j_str (more p l) = j_str p /\ j_int (more p l) = j_int p /\
  j_dbl (more p l) = j_dbl p /\ j_kids (more p l) = j_kids p ++ l.
Proof. destruct p. repeat split. Qed.
Lemma renamed_parts n p : j_kind (renamed n p) = j_kind p /\ j_str (renamed n p) = j_str p /\ j_int (renamed n p) = j_int p /\
  j_dbl (renamed n p) = j_dbl p /\ j_kids (renamed n p) = j_kids p.
Proof. destruct p. repeat split. Qed.

Lemma quot_cut p b : 0 < b -> Z.abs (Z.quot p b) * b <= Z.abs p < (Z.abs (Z.quot p b) + 1) * b /\ 0 <= Z.quot p b * p.
Proof.
  intros B.
  assert (E : Z.abs (Z.quot p b) = Z.abs p / b).
  { rewrite <- (Z.abs_eq b) at 2 by lia. rewrite <- Z.quot_abs by lia. apply Z.quot_div_nonneg; lia. }
  rewrite E. split.
  - pose proof (Z.div_mod (Z.abs p) b ltac:(lia)). pose proof (Z.mod_pos_bound (Z.abs p) b B). nia.
  - destruct (Z_le_gt_dec 0 p) as [P|P].
    + pose proof (Z.quot_pos p b P B). nia.
    + replace p with (- (- p)) at 1 by lia. rewrite Z.quot_opp_l by lia. pose proof (Z.quot_pos (- p) b ltac:(lia) B). nia.
Qed.

Lemma extras_none k l : (forall c, In c l -> appends c -> ~ puts_like c k) -> extras k l = [].
Proof.
  induction l as [|c l IH]; intros H; cbn [extras flat_map]; [reflexivity|]. fold (extras k l).
  rewrite IH by (intros; apply H; [right|]; assumption). rewrite app_nil_r.
  destruct c as [n v|n z|n b|n d|n x|n v|n x|n d|t]; cbn [extra]; auto; [destruct (create_string v) eqn:?|destruct x]; auto; destruct (likeb k n) eqn:L; auto;
    exfalso; apply (H _ (or_introl eq_refl) Logic.I); exists n; (split; [constructor|apply likeb_alike; exact L]).
Qed.

Definition item_json (i : item) : json := match i with Text v => J None KString (Some v) 0 (Double 0 0) [] | Part x => x end.
Lemma appended_extras k l r : appended k l r -> extras k l = map item_json r.
Proof.
  induction 1 as [|n v l r A _ IH|n x l r A _ IH|c l r H _ IH]; cbn [extras flat_map map]; try fold (extras k l); rewrite ?IH.
  - reflexivity.
  - cbn [extra create_string]. rewrite (proj2 (likeb_alike k n) A). reflexivity.
  - cbn [extra]. rewrite (proj2 (likeb_alike k n) A). reflexivity.
  - destruct c as [n v|n z|n b|n d|n x|n v|n x|n d|t]; cbn [extra]; auto; destruct (likeb k n) eqn:L.
    + destruct (H Logic.I) as [E|E]; [exists n; split; [constructor|apply likeb_alike; exact L]| |]; inversion E; reflexivity.
    + destruct (create_string v); reflexivity.
    + destruct (H Logic.I) as [E|E]; [exists n; split; [constructor|apply likeb_alike; exact L]| |]; inversion E; reflexivity.
    + destruct x; reflexivity.
Qed.
