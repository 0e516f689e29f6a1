From Coq Require Import String.
From Verif Require Import Common CommonFacts TextModel TokenModel TokenSpec.
From Coq Require Import Lia.
Local Open Scope string_scope.
Local Open Scope list_scope.
Local Open Scope Z_scope.
Notation len := (@length Z).

Lemma lacks_in : forall c s x, lacks c s = true -> In x s -> x <> c.
Proof. unfold lacks. intros c s x H I. rewrite forallb_forall in H. specialize (H x I). lia. Qed.
Lemma nth_app_mid : forall (pre t post : list Z) k, (k < length t)%nat -> nth (length pre + k) (pre ++ t ++ post) 0 = nth k t 0.
Proof. intros. rewrite app_nth2 by lia. rewrite app_nth1 by lia. f_equal. lia. Qed.
Lemma scan_back_mid : forall k pre t post, (k < length t)%nat -> lacks 46 t = true ->
  (pre = [] \/ exists q, pre = q ++ [46]) ->
  scan_back (pre ++ t ++ post) (length pre + k) = (length pre - 1)%nat.
Proof.
  induction k as [|k IH]; intros pre t post K L P.
  - rewrite Nat.add_0_r. destruct P as [->|[q ->]]; [reflexivity|]. rewrite app_length. cbn [length].
    replace (length q + 1)%nat with (S (length q)) by lia. cbn [scan_back].
    assert (N : nth (S (length q)) ((q ++ [46]) ++ t ++ post) 0 =? 46 = false).
    { replace (S (length q)) with (length (q ++ [46%Z]) + 0)%nat by (rewrite app_length; cbn; lia).
      rewrite nth_app_mid by lia. apply Z.eqb_neq. eapply lacks_in; eauto. apply nth_In. lia. }
    rewrite N. replace (S (length q) - 1)%nat with (length q) by lia.
    destruct (length q) eqn:Q; [reflexivity|]. cbn [scan_back]. rewrite <- Q.
    rewrite <- app_assoc. rewrite app_nth2 by lia. rewrite Nat.sub_diag. reflexivity.
  - replace (length pre + S k)%nat with (S (length pre + k)) by lia. cbn [scan_back].
    assert (N : nth (S (length pre + k)) (pre ++ t ++ post) 0 =? 46 = false).
    { replace (S (length pre + k)) with (length pre + S k)%nat by lia. rewrite nth_app_mid by lia.
      apply Z.eqb_neq. eapply lacks_in; eauto. apply nth_In. lia. }
    rewrite N. apply IH; auto. lia.
Qed.
Lemma upd_app : forall (a b : list Z) x y, upd (a ++ x :: b) (length a) y = a ++ y :: b.
Proof. induction a as [|c a IH]; intros; cbn; [reflexivity|]. rewrite IH. reflexivity. Qed.
Lemma skipn_app_len : forall (a b : list Z), skipn (length a) (a ++ b) = b.
Proof. induction a; cbn; auto. Qed.
Lemma nth_error_app_len : forall (a b : list Z) x, nth_error (a ++ x :: b) (length a) = Some x.
Proof. induction a; cbn; auto. Qed.
Lemma nth_app_len : forall (a b : list Z) x d, nth (length a) (a ++ x :: b) d = x.
Proof. induction a; cbn; auto. Qed.
Lemma find_close_ok : forall a pre post n, lacks 93 a = true -> (length a <= n)%nat ->
  find_close (pre ++ a ++ 93 :: post) (length pre) n = Ok (length pre + length a)%nat.
Proof.
  induction a as [|c a IH]; intros pre post n L N.
  - cbn [app]. destruct n; cbn [find_close]; rewrite nth_error_app_len; cbn; rewrite Nat.add_0_r; reflexivity.
  - destruct n as [|n]; [cbn in N; lia|]. cbn [find_close app]. rewrite nth_error_app_len.
    cbn in L. apply andb_prop in L as [L1 L2]. destruct (c =? 93) eqn:Q; [discriminate|].
    replace (pre ++ c :: a ++ 93 :: post) with ((pre ++ [c]) ++ a ++ 93 :: post) by (rewrite <- app_assoc; reflexivity).
    replace (S (length pre)) with (length (pre ++ [c])) by (rewrite app_length; cbn; lia).
    rewrite IH by (auto; cbn in N; lia). f_equal. rewrite app_length. cbn. lia.
Qed.

Lemma text_ok : forall p, wf p = true -> is_cstr (text p) = true /\ lacks 46 (text p) = true /\ text p <> [].
Proof.
  assert (PL : forall s, plain s = true -> is_cstr s = true /\ lacks 46 s = true /\ s <> []).
  { unfold plain. intros s H. apply andb_prop in H as [H H3]. apply andb_prop in H as [H1 H2]. repeat split; auto. destruct s; congruence. }
  intros p W. destruct p as [s|s|a|]; cbn [wf text] in *.
  - auto.
  - apply andb_prop in W as [W _]. apply andb_prop in W as [W _]. auto.
  - apply andb_prop in W as [W _]. apply PL in W as (W1 & W2 & W3). split; [|split].
    + unfold is_cstr in *. rewrite !forallb_app, W1. reflexivity.
    + unfold lacks in *. rewrite !forallb_app, W2. reflexivity.
    + destruct a; discriminate.
  - repeat split; discriminate.
Qed.
Lemma render_cons : forall p q l, render (p :: q :: l) = render (q :: l) ++ 46 :: text p.
Proof. reflexivity. Qed.
Lemma render_nonempty : forall p l, wf p = true -> (forall q, In q l -> wf q = true) -> (1 <= length (render (p :: l)))%nat.
Proof.
  intros p l W WL. destruct l as [|q l].
  - cbn [render]. destruct (text_ok p W) as (_ & _ & N). destruct (text p); cbn; [congruence|lia].
  - rewrite render_cons, app_length. cbn. lia.
Qed.

(** what a token must look like in the final copy *)
Definition kind_of (p : seg) : kind := match p with SName _ => NonRow | SNum _ => InstNum | SAlias _ => Alias | SAny => Wildcard end.
Definition body (p : seg) : list Z := match p with SAlias a => a | _ => text p end.
Inductive toks_ok (b : list Z) : list seg -> path -> list token -> Prop :=
| TNil : toks_ok b [] [] []
| TCons : forall p l n up o ts,
    c_str (skipn o b) = Some (body p) -> toks_ok b l up ts -> toks_ok b (p :: l) (n :: up) (mkToken o (kind_of p) (n :: up) :: ts).

Lemma skipn_skipn : forall (A : Type) x y (l : list A), skipn x (skipn y l) = skipn (x + y) l.
Proof.
  intros A x y. revert x. induction y as [|y IH]; intros x l; cbn [skipn]; [rewrite Nat.add_0_r; reflexivity|].
  destruct l as [|a l]; [rewrite !skipn_nil; reflexivity|]. rewrite Nat.add_succ_r. cbn [skipn]. apply IH.
Qed.
Lemma skipn_more : forall (a b : list Z) n m, (n <= m)%nat -> skipn n a = skipn n b -> skipn m a = skipn m b.
Proof.
  intros a b n m L H. replace m with ((m - n) + n)%nat by lia.
  rewrite <- !(skipn_skipn _ (m - n) n). rewrite H. reflexivity.
Qed.
Lemma atoi_star : forall s, digits s = true -> s <> [] -> bytes_eqb s (bs "*") = false /\ (nth 0 s 0 =? 91) = false.
Proof.
  intros [|c s] D N; [congruence|]. cbn in D. apply andb_prop in D as [D _].
  split; [|cbn; lia]. apply bytes_eqb_neq. intros E. injection E as -> _. discriminate D.
Qed.
(** one segment: after the separator is cut off *)
Definition row_step (b : list Z) (ln o : nat) (p : path) (up : path) : outcome unit (list Z * token) :=
  if in_table up then
    if nth o b 0 =? 91 then
      do q <- find_close b (S (S o)) (ln - S (S o)) ;
      Ok (upd b q 0, mkToken (S o) Alias p)
    else match c_str (skipn o b) with
         | None => UB
         | Some s => if bytes_eqb s (bs "*") then Ok (b, mkToken o Wildcard p)
                     else if 0 <? atoi s then Ok (b, mkToken o InstNum p) else Err tt
         end
  else Ok (b, mkToken o NonRow p).
Lemma row_step_ok : forall p pre post n up ln, wf p = true -> eqb (match p with SName _ => false | _ => true end) (in_table up) = true ->
  length (pre ++ text p ++ 0 :: post) = S ln ->
  exists t' o, row_step (pre ++ text p ++ 0 :: post) ln (length pre) (n :: up) up = Ok (pre ++ t' ++ 0 :: post, mkToken (length pre + o) (kind_of p) (n :: up)) /\
    length t' = length (text p) /\ c_str (skipn o (t' ++ 0 :: post)) = Some (body p).
Proof.
  intros p pre post n up ln W F LN. unfold row_step. destruct (text_ok p W) as (TC & TL & TN).
  destruct p as [s|s|a|]; cbn [text body kind_of] in *.
  - destruct (in_table up); [discriminate F|]. exists s, 0%nat. rewrite Nat.add_0_r. repeat split. cbn [skipn]. apply c_str_app; auto.
  - destruct (in_table up); [|discriminate F]. cbn in W. apply andb_prop in W as [W A]. apply andb_prop in W as [_ D].
    destruct (atoi_star s D TN) as [S1 S2].
    assert (NTH : nth (length pre) (pre ++ s ++ 0 :: post) 0 = nth 0 s 0).
    { rewrite <- (Nat.add_0_r (length pre)). apply nth_app_mid. destruct s; [congruence|cbn; lia]. }
    rewrite NTH, S2. rewrite skipn_app_len, c_str_app by auto. rewrite S1, A.
    exists s, 0%nat. rewrite Nat.add_0_r. repeat split. cbn [skipn]. apply c_str_app; auto.
  - destruct (in_table up); [|discriminate F]. cbn in W. apply andb_prop in W as [W LB]. unfold plain in W.
    destruct a as [|c a]; [rewrite andb_false_r in W; discriminate|].
    assert (NTH : nth (length pre) (pre ++ (bs "[" ++ (c :: a) ++ bs "]") ++ 0 :: post) 0 = 91) by (cbn [bs map list_ascii_of_string app]; apply nth_app_len).
    rewrite NTH. cbn [Z.eqb Pos.eqb].
    cbn in LB. apply andb_prop in LB as [_ LB].
    assert (SH : pre ++ (bs "[" ++ (c :: a) ++ bs "]") ++ 0 :: post = (pre ++ [91; c]) ++ a ++ 93 :: 0 :: post).
    { cbn. rewrite <- !app_assoc. reflexivity. }
    rewrite SH in *.
    replace (S (S (length pre))) with (length (pre ++ [91; c])) by (rewrite app_length; cbn; lia).
    rewrite find_close_ok; [|exact LB|rewrite !app_length in LN; rewrite app_length; cbn in *; lia].
    cbn [obind].
    exists (91 :: (c :: a) ++ [0]), 1%nat. split; [|split].
    + f_equal. f_equal.
      * replace (length (pre ++ [91%Z; c]) + length a)%nat with (length ((pre ++ [91; c]) ++ a)) by (rewrite app_length; lia).
        rewrite app_assoc. rewrite upd_app. rewrite <- !app_assoc. cbn. rewrite <- !app_assoc. reflexivity.
      * f_equal. lia.
    + cbn. rewrite !app_length. reflexivity.
    + cbn [skipn app]. rewrite <- app_assoc. cbn [app].
      apply (c_str_app (c :: a)). apply andb_prop in W as [W _]; apply andb_prop in W as [W _]; exact W.
  - destruct (in_table up); [|discriminate F].
    assert (NTH : nth (length pre) (pre ++ bs "*" ++ 0 :: post) 0 = 42) by (cbn [bs map list_ascii_of_string app]; apply nth_app_len).
    rewrite NTH. cbn [Z.eqb Pos.eqb]. rewrite skipn_app_len.
    exists (bs "*"), 0%nat. rewrite Nat.add_0_r. repeat split.
Qed.
Lemma tokenize_cons : forall b ln i n up, i <> 0%nat ->
  tokenize b ln i (n :: up) =
  (let '(b, i) := if nth i b 0 =? 46 then (upd b i 0, (i - 1)%nat) else (b, i) in
   let j := scan_back b i in
   let o := if nth j b 0 =? 46 then S j else j in
   do (b, t) <- row_step b ln o (n :: up) up ;
   do (b, i, left_, ts) <- tokenize b ln j up ;
   Ok (b, i, left_, t :: ts)).
Proof. intros b ln i n up N. cbn [tokenize]. apply Nat.eqb_neq in N. rewrite N. reflexivity. Qed.

(** the loop; at the start of a turn the copy holds the segments not yet cut off, then
    either the separator (ptr on it) or the end (ptr on the last character) *)
Lemma tokenize_ok : forall l reg b ln i post,
  (forall q, In q l -> wf q = true) -> fits l reg = true -> l <> [] -> length b = S ln ->
  (b = render l ++ 46 :: post /\ i = length (render l) \/ b = render l ++ 0 :: post /\ S i = length (render l) /\ i <> 0%nat) ->
  (exists b' ts left_, length l = length reg /\ tokenize b ln i reg = Ok (b', 0%nat, left_, ts) /\ left_ = [] /\ toks_ok b' l reg ts /\
     skipn (S (length (render l))) b' = skipn (S (length (render l))) b) \/
  (length l <> length reg /\ exists b' i' left_ ts, tokenize b ln i reg = Ok (b', i', left_, ts) /\ (i' <> 0%nat \/ left_ <> [])).
Proof.
  induction l as [|p l IH]; intros reg b ln i post W F NE LB ST; [congruence|].
  assert (Wp : wf p = true) by (apply W; cbn; auto).
  pose proof (render_nonempty p l Wp (fun q Hq => W q (or_intror Hq))) as RN.
  assert (I0 : i <> 0%nat) by (destruct ST as [(_ & ->)|(_ & _ & ?)]; lia).
  destruct reg as [|n up].
  { right. split; [discriminate|]. exists b, i, [], []. split; [reflexivity|]. left. exact I0. }
  rewrite tokenize_cons by exact I0.
  cbn [fits] in F. apply andb_prop in F as [F1 F2].
  destruct (text_ok p Wp) as (TC & TL & TN).
  (* what precedes the last segment *)
  set (pre := match l with [] => [] | _ => render l ++ [46] end).
  assert (RP : render (p :: l) = pre ++ text p).
  { unfold pre. destruct l; [reflexivity|]. rewrite render_cons, <- app_assoc. reflexivity. }
  assert (PQ : pre = [] \/ exists q, pre = q ++ [46]) by (unfold pre; destruct l; eauto).
  assert (TL1 : (1 <= length (text p))%nat) by (destruct (text p); cbn; [congruence|lia]).
  set (b1 := pre ++ text p ++ 0 :: post).
  set (i1 := (length pre + (length (text p) - 1))%nat).
  assert (NORM : (if nth i b 0 =? 46 then (upd b i 0, (i - 1)%nat) else (b, i)) = (b1, i1)).
  { destruct ST as [(-> & ->)|(-> & E & _)]; rewrite RP in *.
    - rewrite nth_app_len. cbn [Z.eqb Pos.eqb]. rewrite upd_app. unfold b1, i1. rewrite <- app_assoc. f_equal. rewrite app_length. lia.
    - assert (EI : i = i1) by (unfold i1; rewrite app_length in E; lia). rewrite EI.
      rewrite <- app_assoc. fold b1.
      assert (Q : nth i1 b1 0 =? 46 = false).
      { unfold b1, i1. rewrite nth_app_mid by lia. apply Z.eqb_neq. eapply lacks_in; eauto. apply nth_In. lia. }
      rewrite Q. reflexivity. }
  rewrite NORM. cbv zeta beta iota.
  assert (LB1 : length b1 = S ln).
  { unfold b1. destruct ST as [(-> & _)|(-> & _)]; rewrite RP in LB; rewrite <- LB, !app_length; cbn; lia. }
  assert (SB : scan_back b1 i1 = (length pre - 1)%nat) by (apply scan_back_mid; auto; lia).
  rewrite SB.
  assert (OFF : (if nth (length pre - 1) b1 0 =? 46 then S (length pre - 1) else (length pre - 1)%nat) = length pre).
  { unfold b1. destruct PQ as [PQ|[q PQ]]; rewrite PQ.
    - cbn [length Nat.sub app]. assert (Q : nth 0 (text p ++ 0 :: post) 0 =? 46 = false).
      { rewrite app_nth1 by lia. apply Z.eqb_neq. eapply lacks_in; eauto. apply nth_In. lia. }
      rewrite Q. reflexivity.
    - rewrite app_length. cbn [length]. replace (length q + 1 - 1)%nat with (length q) by lia.
      rewrite <- app_assoc. cbn [app]. rewrite nth_app_len. cbn. lia. }
  rewrite OFF. unfold b1.
  destruct (row_step_ok p pre post n up ln Wp F1 LB1) as (t' & o & RS & LT & CS). rewrite RS. cbn [obind].
  destruct l as [|q l].
  - (* the first segment of the name *)
    cbn in pre. subst pre. cbn [length Nat.sub app] in *.
    destruct up as [|u up]; cbn [tokenize Nat.eqb obind].
    + left. eexists _, _, _. split; [reflexivity|]. split; [reflexivity|]. split; [reflexivity|]. split.
      * apply TCons; [exact CS|apply TNil].
      * rewrite RP. cbn [app].
        replace (S (length (text p))) with (length (t' ++ [0])) at 1 by (rewrite app_length; cbn; lia).
        replace (t' ++ 0 :: post) with ((t' ++ [0]) ++ post) by (rewrite <- app_assoc; reflexivity).
        rewrite skipn_app_len. destruct ST as [(-> & _)|(-> & _)]; rewrite RP; cbn [app].
        -- replace (S (length (text p))) with (length (text p ++ [46])) by (rewrite app_length; cbn; lia).
           replace (text p ++ 46 :: post) with ((text p ++ [46]) ++ post) by (rewrite <- app_assoc; reflexivity). rewrite skipn_app_len. reflexivity.
        -- replace (S (length (text p))) with (length (text p ++ [0])) by (rewrite app_length; cbn; lia).
           replace (text p ++ 0 :: post) with ((text p ++ [0]) ++ post) by (rewrite <- app_assoc; reflexivity). rewrite skipn_app_len. reflexivity.
    + right. split; [discriminate|]. eexists _, _, _, _. split; [reflexivity|]. right. discriminate.
  - change pre with (render (q :: l) ++ [46]) in *.
    destruct (IH up ((render (q :: l) ++ [46]) ++ t' ++ 0 :: post) ln (length (render (q :: l) ++ [46%Z]) - 1)%nat (t' ++ 0 :: post))
      as [(b' & ts & left_ & LEN & TK & LF & OKS & SK)|(LEN & b' & i' & left_ & ts & TK & X)].
    + intros q0 Hq. apply W. right. exact Hq.
    + exact F2.
    + discriminate.
    + rewrite <- LB1. unfold b1. rewrite !app_length. cbn [length]. lia.
    + left. split; [rewrite <- app_assoc; reflexivity|]. rewrite app_length. cbn [length]. lia.
    + left. rewrite TK. cbn [obind]. eexists _, _, _. split; [cbn in *; lia|]. split; [reflexivity|]. split; [exact LF|]. split.
      * assert (E : skipn (length (render (q :: l) ++ [46])) b' = t' ++ 0 :: post).
        { rewrite app_length. cbn [length]. rewrite Nat.add_1_r, SK.
          replace (S (length (render (q :: l)))) with (length (render (q :: l) ++ [46])) by (rewrite app_length; cbn [length]; lia).
          apply skipn_app_len. }
        apply TCons; [|exact OKS].
        rewrite Nat.add_comm, <- skipn_skipn, E. exact CS.
      * rewrite RP. eapply skipn_more with (n := S (length (render (q :: l)))) in SK.
        2: instantiate (1 := S (length ((render (q :: l) ++ [46]) ++ text p))); rewrite !app_length; cbn [length]; lia.
        rewrite SK.
        assert (E1 : skipn (S (length ((render (q :: l) ++ [46]) ++ text p))) ((render (q :: l) ++ [46]) ++ t' ++ 0 :: post) = post).
        { replace (S (length ((render (q :: l) ++ [46]) ++ text p))) with (length (((render (q :: l) ++ [46]) ++ t') ++ [0])) by (rewrite !app_length; cbn [length]; lia).
          replace ((render (q :: l) ++ [46]) ++ t' ++ 0 :: post) with ((((render (q :: l) ++ [46]) ++ t') ++ [0]) ++ post) by (rewrite <- !app_assoc; reflexivity).
          apply skipn_app_len. }
        rewrite E1. symmetry. destruct ST as [(-> & _)|(-> & _)]; rewrite RP.
        -- match goal with |- skipn (S (length ?x)) (?x ++ ?c :: ?y) = _ => 
             replace (S (length x)) with (length (x ++ [c])) by (rewrite app_length; cbn [length]; lia);
             replace (x ++ c :: y) with ((x ++ [c]) ++ y) by (rewrite <- app_assoc; reflexivity) end. apply skipn_app_len.
        -- match goal with |- skipn (S (length ?x)) (?x ++ ?c :: ?y) = _ => 
             replace (S (length x)) with (length (x ++ [c])) by (rewrite app_length; cbn [length]; lia);
             replace (x ++ c :: y) with ((x ++ [c]) ++ y) by (rewrite <- app_assoc; reflexivity) end. apply skipn_app_len.
    + right. split; [cbn in *; lia|]. rewrite TK. cbn [obind]. eexists _, _, _, _. split; [reflexivity|exact X].
Qed.

Lemma match_ok : forall b l reg ts, toks_ok b l reg ts -> fits l reg = true -> forall inst cmp, aliased l inst = true ->
  match_from b ts inst cmp = Ok (matches l reg inst).
Proof.
  intros b l reg ts T. induction T as [|p l n up o ts C T IH]; intros F inst cmp A.
  - destruct inst; reflexivity.
  - cbn [fits] in F. apply andb_prop in F as [F1 F2]. destruct inst as [|m inst]; [reflexivity|].
    cbn [match_from tpath tkind off matches].
    destruct (ntype n =? ntype m) eqn:Q; cbn [negb andb]; [|reflexivity].
    assert (A' : aliased l inst = true) by (cbn [aliased] in A; destruct p; auto; apply andb_prop in A as [_ A]; exact A).
    destruct p as [s|s|a|]; cbn [kind_of body text seg_matches] in *.
    + destruct (in_table up); [discriminate F1|]. rewrite C, bytes_eqb_sym.
      destruct (bytes_eqb s (nname m)); cbn [andb]; [apply IH; auto|reflexivity].
    + destruct (in_table up); [|discriminate F1]. destruct (in_table inst); cbn [negb andb]; [|reflexivity].
      rewrite C, bytes_eqb_sym. destruct (bytes_eqb s (nname m)); cbn [andb]; [apply IH; auto|reflexivity].
    + destruct (in_table up); [|discriminate F1]. destruct (in_table inst); cbn [negb andb]; [|reflexivity].
      cbn [aliased] in A. destruct (nalias m) as [x|]; [|discriminate A]. rewrite C, bytes_eqb_sym.
      destruct (bytes_eqb a x); cbn [andb]; [apply IH; auto|reflexivity].
    + destruct (in_table up); [|discriminate F1]. destruct (in_table inst); cbn [negb andb]; [|reflexivity].
      apply IH; auto.
Qed.
Lemma matches_length : forall l reg inst, length l <> length reg -> matches l reg inst = false.
Proof.
  induction l as [|p l IH]; intros [|r reg] [|n inst] H; try reflexivity; [cbn in H; congruence|].
  cbn [matches]. rewrite IH by (cbn in H; lia). apply andb_false_r.
Qed.
Lemma event_matches_ok : forall l reg inst name,
  l <> [] -> (forall q, In q l -> wf q = true) -> fits l reg = true -> aliased l inst = true ->
  (name = render l /\ (2 <= length name)%nat \/ name = render l ++ bs ".") ->
  event_matches name reg inst = Ok (matches l reg inst).
Proof.
  intros l reg inst name NE W F A N.
  assert (R1 : (1 <= length (render l))%nat).
  { destruct l as [|p l]; [congruence|]. apply render_nonempty; [apply W; cbn; auto|]. intros; apply W; right; auto. }
  unfold event_matches, create.
  assert (LN : length name <> 0%nat) by (destruct N as [(-> & N)| ->]; rewrite ?app_length; lia).
  destruct (length name) as [|k] eqn:LK; [congruence|].
  assert (LB : length (name ++ [0]) = S (S k)) by (rewrite app_length, LK; cbn; lia).
  assert (ST : exists post, name ++ [0] = render l ++ 46 :: post /\ k = length (render l) \/ name ++ [0] = render l ++ 0 :: post /\ S k = length (render l) /\ k <> 0%nat).
  { destruct N as [(-> & N)| ->].
    - exists []. right. split; [reflexivity|]. split; [congruence|lia].
    - exists [0]. left. split; [rewrite <- app_assoc; reflexivity|]. rewrite app_length in LK. cbn in LK. lia. }
  destruct ST as [post ST].
  destruct (tokenize_ok l reg (name ++ [0]) (S k) k post W F NE LB ST)
    as [(b' & ts & left_ & LEN & TK & LF & OKS & _)|(LEN & b' & i' & left_ & ts & TK & X)].
  - rewrite TK. cbn [obind]. subst left_. unfold match_. cbn [buf toks]. apply match_ok with (1 := OKS); auto.
  - rewrite TK. cbn [obind]. rewrite matches_length by auto.
    destruct i'; [|reflexivity]. destruct left_; [|reflexivity]. destruct X; congruence.
Qed.
