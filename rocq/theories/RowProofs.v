(** Proofs about adding and removing rows from another component. *)
From Coq Require Import String.
From Verif Require Import Common CommonFacts VecList Bytes TextModel Errors ElemModel ElemSpec ElemProofs ElemRows MsgModel WireModel NamesModel NamesSpec NamesProofs ParamProofs RowModel RowSpec.
From Verif Require TransModel.
From Coq Require Import Lia ZifyBool.
Local Open Scope string_scope.
Local Open Scope list_scope.
Local Open Scope Z_scope.

(** ** the registered element *)
Lemma pair_snd : forall rest t first, option_map snd (pair_loop t first rest) = retrieve_loop t first rest.
Proof.
  induction rest as [|m rest IH]; intros t first; cbn [pair_loop retrieve_loop]; destruct (find_kid first (kids t) 0) as [(j, c)|]; try reflexivity.
  destruct (kids c); [reflexivity|]. apply IH.
Qed.
Lemma pair_retrieve : forall t s, option_map snd (retrieve_pair t s) = retrieve t s.
Proof. intros t s. unfold retrieve_pair, retrieve. destruct (tokens s); [reflexivity|]. apply pair_snd. Qed.
Lemma sub_one : forall t n, sub t [n] = option_map snd (find_kid n (kids t) 0).
Proof. intros t n. cbn [sub]. destruct (find_kid n (kids t) 0) as [(j, c)|]; reflexivity. Qed.
Lemma stands_loop : forall rest t first e, stands t (first :: rest) e <-> retrieve_loop t first rest = Some e.
Proof.
  induction rest as [|m rest IH]; intros t first e; cbn [retrieve_loop].
  - split.
    + intros H. inversion H as [? ? ? S|]; subst. rewrite sub_one in S. destruct (find_kid first (kids t) 0) as [(j, c)|]; [|discriminate]. exact S.
    + intros H. constructor. rewrite sub_one. destruct (find_kid first (kids t) 0) as [(j, c)|]; [exact H|discriminate].
  - split.
    + intros H. inversion H as [|? ? c ? ? ? S K H']; subst. rewrite sub_one in S. destruct (find_kid first (kids t) 0) as [(j, c')|]; [|discriminate].
      injection S as <-. apply IH in H'. cbn [snd] in *. destruct (kids c'); [congruence|exact H'].
    + intros H. destruct (find_kid first (kids t) 0) as [(j, c)|] eqn:F; [|discriminate]. destruct (kids c) as [|x k] eqn:K; [discriminate|].
      apply (St_in t first c m rest e); [rewrite sub_one, F; reflexivity|congruence|]. apply IH. exact H.
Qed.
Lemma stands_retrieve : forall t s e, tokens s <> [] -> stands t (tokens s) e <-> retrieve t s = Some e.
Proof. intros t s e NE. unfold retrieve. destruct (tokens s); [congruence|]. apply stands_loop. Qed.
Lemma pair_snoc : forall rest t first n, pair_loop t first (rest ++ [n]) =
  match retrieve_loop t first rest with
  | Some e => match kids e with [] => None | _ => match find_kid (if is_table e then TEMPLATE else n) (kids e) 0 with Some (_, c) => Some (e, c) | None => None end end
  | None => None
  end.
Proof.
  induction rest as [|m rest IH]; intros t first n; cbn [pair_loop retrieve_loop app]; destruct (find_kid first (kids t) 0) as [(j, c)|]; try reflexivity.
  destruct (kids c); [reflexivity|]. apply IH.
Qed.

(** ** the messages *)
Lemma alias_taken : forall pre a r meta, alias_ok a ->
  alias_of (MsgProofs.at_pos pre (pack_str (match a with Some a => a | None => [] end ++ [0]) ++ r) meta) = Ok (given a).
Proof.
  intros pre a r meta A. unfold alias_of. rewrite take_string.
  - destruct a as [[|c a]|]; reflexivity.
  - destruct a as [a|]; [exact A|]. split; [reflexivity|]. vm_compute. reflexivity.
Qed.
Lemma code_small : forall rc, 0 <= rc < 100 -> code rc = rc.
Proof.
  intros rc B. unfold code. destruct (Z.eq_dec rc 0) as [->|N]; [reflexivity|]. destruct (good_range rc ltac:(lia)) as [-> ->]. reflexivity.
Qed.
Lemma int_back : forall n, 0 <= n < 2 ^ 32 -> - 2 ^ 31 <= as_int n < 2 ^ 31 /\ to_unsigned 32 (as_int n) = n.
Proof.
  intros n B. unfold as_int, to_unsigned. assert (P := Z.mod_pos_bound (n + 2 ^ 31) (2 ^ 32) ltac:(lia)). split; [lia|].
  destruct (Z_lt_le_dec n (2 ^ 31)) as [L|L].
  - rewrite (Z.mod_small (n + 2 ^ 31)) by lia. replace (n + 2 ^ 31 - 2 ^ 31) with n by lia. apply Z.mod_small. lia.
  - replace ((n + 2 ^ 31) mod 2 ^ 32) with (n - 2 ^ 31) by (apply Z.mod_unique with 1; lia).
    symmetry. apply Z.mod_unique with (-1); lia.
Qed.
Lemma text_nonempty : forall s, last s 0 = 46 -> exists c s', s = c :: s'.
Proof. intros [|c s] H; [discriminate|eauto]. Qed.
Definition request (table : name) (a : option name) : msg :=
  set_string (set_string (set_int32 msg_init 0) (Some table)) (Some (match a with Some a => a | None => [] end)).
Lemma add_handled : forall P t table a, text_ok table -> alias_ok a ->
  add_handler P t (msg_from_bytes (m_data (request table a))) =
  do r <- add_one P t table (given a) ; let '(rc, num, t, cs) := r in Ok (set_int32 (set_int32 msg_init rc) (as_int num), t, cs).
Proof.
  intros P t table a TT TA. unfold add_handler, request, set_int32, set_string, append. cbn [m_data msg_init app m_read m_meta].
  rewrite from_start, <- !app_assoc. rewrite take_int by lia. cbn [need obind]. rewrite take_string by exact TT. cbn [need obind].
  rewrite <- (app_nil_r (pack_str (match a with Some a => a | None => [] end ++ [0]))). rewrite alias_taken by exact TA. reflexivity.
Qed.
Lemma add_answer_read : forall rc num, 0 <= rc < 100 -> 0 <= num < 2 ^ 32 ->
  (do (rc, m) <- int_or_zero (msg_from_bytes (m_data (set_int32 (set_int32 msg_init rc) (as_int num)))) ; do (num, _) <- int_or_zero m ; Ok (code rc, Some (to_unsigned 32 num))) = Ok (rc, Some num) :> outcome unit _.
Proof.
  intros rc num B N. destruct (int_back num N) as [I U]. unfold set_int32, append. cbn [m_data msg_init app m_read m_meta]. rewrite from_start.
  unfold int_or_zero. rewrite take_int by lia. cbn [obind]. rewrite <- (app_nil_r (pack_int (as_int num))), take_int by exact I. cbn [obind]. rewrite U, code_small by exact B. reflexivity.
Qed.
Lemma add_unfold : forall f P t table a, last table 0 = 46 ->
  rbusTable_addRow f P t table a =
  let (r, w) := ask f (add_handler P t) t (request table a) in
  (do r <- r ;
     match r with
     | inr err => Ok (bus_error err, None)
     | inl m => do (rc, m) <- int_or_zero m ; do (num, _) <- int_or_zero m ; Ok (code rc, Some (to_unsigned 32 num))
     end, w).
Proof. intros f P t table a L. destruct (text_nonempty table L) as (c & s & E). unfold rbusTable_addRow. rewrite L. cbn [Z.eqb Pos.eqb negb]. rewrite E. reflexivity. Qed.
Lemma add_answered : forall P t table a rc num t' cs, text_ok table -> last table 0 = 46 -> alias_ok a ->
  add_one P t table (given a) = Ok (rc, num, t', cs) -> 0 <= rc < 100 -> 0 <= num < 2 ^ 32 ->
  rbusTable_addRow Answered P t table a = (Ok (rc, Some num), (t', cs)).
Proof.
  intros P t table a rc num t' cs TT L TA O B N. rewrite add_unfold by exact L. unfold ask. rewrite add_handled by assumption. rewrite O. cbn [obind].
  rewrite add_answer_read by assumption. reflexivity.
Qed.
Lemma add_unanswered : forall P t table a rc num t' cs err, text_ok table -> last table 0 = 46 -> alias_ok a ->
  add_one P t table (given a) = Ok (rc, num, t', cs) ->
  rbusTable_addRow (NoAnswer err) P t table a = (Ok (bus_error err, None), (t', cs)).
Proof.
  intros P t table a rc num t' cs err TT L TA O. rewrite add_unfold by exact L. unfold ask. rewrite add_handled by assumption. rewrite O. reflexivity.
Qed.
Lemma add_lost : forall P t table a err, last table 0 = 46 -> rbusTable_addRow (Lost err) P t table a = (Ok (bus_error err, None), (t, [])).
Proof. intros P t table a err L. rewrite add_unfold by exact L. reflexivity. Qed.
Lemma remove_handled : forall P t row, text_ok row ->
  remove_handler P t (msg_from_bytes (m_data (set_string (set_int32 msg_init 0) (Some row)))) =
  let '(rc, t, cs) := remove_one P t row in Ok (set_int32 msg_init rc, t, cs).
Proof.
  intros P t row TT. unfold remove_handler, set_int32, set_string, append. cbn [m_data msg_init app m_read m_meta].
  rewrite from_start. rewrite take_int by lia. cbn [need obind]. rewrite <- (app_nil_r (pack_str (row ++ [0]))). rewrite take_string by exact TT. reflexivity.
Qed.
Lemma remove_answered : forall P t row rc t' cs, text_ok row -> remove_one P t row = (rc, t', cs) -> 0 <= rc < 100 ->
  rbusTable_removeRow Answered P t row = (Ok rc, (t', cs)).
Proof.
  intros P t row rc t' cs TT O B. unfold rbusTable_removeRow, ask. rewrite remove_handled by exact TT. rewrite O. cbn [obind].
  unfold set_int32, append. cbn [m_data msg_init app m_read m_meta]. rewrite from_start, <- (app_nil_r (pack_int rc)).
  unfold int_or_zero. rewrite take_int by lia. cbn [obind]. rewrite code_small by exact B. reflexivity.
Qed.
Lemma remove_unanswered : forall P t row rc t' cs err, text_ok row -> remove_one P t row = (rc, t', cs) ->
  rbusTable_removeRow (NoAnswer err) P t row = (Ok (bus_error err), (t', cs)).
Proof. intros P t row rc t' cs err TT O. unfold rbusTable_removeRow, ask. rewrite remove_handled by exact TT. rewrite O. reflexivity. Qed.
Lemma remove_lost : forall P t row err, rbusTable_removeRow (Lost err) P t row = (Ok (bus_error err), (t, [])).
Proof. reflexivity. Qed.

(** ** names *)
Lemma last_dotted : forall T, T <> [] -> last (dotted T) 0 = 46.
Proof.
  induction T as [|n T IH]; [congruence|]. intros _. cbn [dotted]. rewrite app_assoc. destruct T as [|m T].
  - cbn [dotted]. rewrite app_nil_r. change (bs ".") with [46]. apply last_last.
  - assert (E := IH ltac:(discriminate)). assert (D : dotted (m :: T) <> []) by (destruct (text_nonempty _ E) as (c & s & ->); discriminate).
    clear IH. revert E D. generalize (dotted (m :: T)). intros s E D. induction (n ++ bs ".") as [|c p IH]; [exact E|]. cbn [app last]. rewrite IH. destruct (p ++ s) eqn:X; [|reflexivity].
    apply app_eq_nil in X as [_ ->]. congruence.
Qed.
Lemma instance_table : forall t T, quiet t -> path_ok T -> retrieve_instance t (dotted T) = match sub t T with Some x => Some (ipos t T, x) | None => None end.
Proof. intros t T Q (N & G & P). apply instance_plain; auto using quiet_getterless. apply table_tokens, G. Qed.
Lemma instance_row : forall t T n, quiet t -> path_ok T -> retrieve_instance t (dotted T ++ print_dec n) = match sub t (T ++ [print_dec n]) with Some x => Some (ipos t (T ++ [print_dec n]), x) | None => None end.
Proof.
  intros t T n Q (N & G & P). apply instance_plain; auto using quiet_getterless, snoc_nonempty, plain_snoc, print_dec_plain. apply row_tokens; auto using print_dec_good.
Qed.
Lemma stands_table : forall t T e, path_ok T -> stands t T e <-> retrieve t (dotted T) = Some e.
Proof. intros t T e (N & G & P). pose proof (stands_retrieve t (dotted T) e) as H. rewrite (table_tokens T G) in H. apply H, N. Qed.
Lemma pair_row : forall t T n e, path_ok T -> stands t T e -> is_table e = true ->
  retrieve_pair t (dotted T ++ print_dec n) = match kid TEMPLATE (kids e) with Some c => Some (e, c) | None => None end.
Proof.
  intros t T n e (N & G & P) S TE. unfold retrieve_pair. rewrite row_tokens by auto using print_dec_good. destruct T as [|m T]; [congruence|]. cbn [app].
  rewrite pair_snoc. apply stands_loop in S. rewrite S, TE. rewrite <- (find_kid_kid TEMPLATE (kids e) 0). destruct (kids e) as [|k0 k]; [reflexivity|].
  destruct (find_kid TEMPLATE (k0 :: k) 0) as [(j, c)|]; reflexivity.
Qed.

(** ** sessions *)
Lemma path_eqb_refl : forall T, path_eqb T T = true.
Proof. induction T as [|n T IH]; [reflexivity|]. cbn. rewrite bytes_eqb_refl. exact IH. Qed.
Lemma bus_error_no : forall err, err <> 0 -> bus_error err <> 0.
Proof.
  intros err N. unfold bus_error. destruct (err =? 0) eqn:E; [lia|].
  repeat match goal with |- context [if ?b then _ else _] => destruct b; [discriminate|] end. discriminate.
Qed.
(** one call, in the terms of NamesSpec: nothing, or one step of the provider *)
Lemma consumer_one : forall T l t f P q, quiet t -> ask_ok T l t f P q ->
  exists r t1 cs, consumer f P t q = (Ok r, (t1, cs)) /\
    ((t1 = t /\ fst r <> E_SUCCESS) \/ exists c rc, call_ok T l c /\ step t (op_of c) = Ok (t1, rc) /\ listed T l c rc = told T l q r).
Proof.
  intros T l t f P q Q (F & A). destruct q as [T' a|T' n]; cbn [consumer].
  - destruct A as (PO & TT & TA & H). assert (L := last_dotted T' (proj1 PO)). destruct f as [|err|err]; [|contradiction|].
    + destruct (retrieve t (dotted T')) as [e|] eqn:R.
      2:{ eexists _, _, _. split; [apply (add_answered P t (dotted T') a E_ELEMENT_DOES_NOT_EXIST 0 t []); try assumption; [unfold add_one; rewrite R; reflexivity|unfold E_ELEMENT_DOES_NOT_EXIST; lia|lia]|]. left. split; [reflexivity|discriminate]. }
      destruct (sub t T') as [x|] eqn:S.
      2:{ eexists _, _, _. split; [apply (add_answered P t (dotted T') a E_ELEMENT_DOES_NOT_EXIST 0 t []); try assumption; [unfold add_one; rewrite R, instance_table, S by assumption; reflexivity|unfold E_ELEMENT_DOES_NOT_EXIST; lia|lia]|]. left. split; [reflexivity|discriminate]. }
      specialize (H e). destruct (on_add P (hid (inf e))) as [h|] eqn:O.
      2:{ eexists _, _, _. split; [apply (add_answered P t (dotted T') a E_INVALID_OPERATION 0 t []); try assumption; [unfold add_one; rewrite R, instance_table, S, O by assumption; reflexivity|unfold E_INVALID_OPERATION; lia|lia]|]. left. split; [reflexivity|discriminate]. }
      specialize (H h eq_refl eq_refl). destruct H as (TM & H). destruct (h (mkAdd (hid (inf e)) (dotted T') (given a))) as (rc, n) eqn:HC. destruct H as (RC & N & NI).
      destruct (rc =? E_SUCCESS) eqn:E.
      * assert (rc = 0) by (unfold E_SUCCESS in E; lia). subst rc.
        specialize (TM ltac:(congruence)). rewrite (sub_snoc T' t x TEMPLATE S) in TM. unfold kid in TM.
        destruct (add_row (ipos t T') x n (given a) t) as [t1|u|] eqn:AR.
        2,3: unfold add_row in AR; destruct (vfind (named TEMPLATE) (kids x)) as [(m, c)|]; cbn in *; congruence.
        eexists _, _, _. split; [apply (add_answered P t (dotted T') a 0 n t1 [Adds (mkAdd (hid (inf e)) (dotted T') (given a))]); try assumption; [|lia]|].
        { unfold add_one. rewrite R, instance_table, S, O, HC by assumption. cbn [E_SUCCESS Z.eqb]. rewrite AR. reflexivity. }
        right. exists (CRequestRow T' (given a) (Some n)), E_SUCCESS. split; [split; [exact PO|split; [exact N|intros E'; exact (NI eq_refl E')]]|]. split.
        { cbn [op_of step]. rewrite R, instance_table, S by assumption. rewrite AR. reflexivity. }
        reflexivity.
      * eexists _, _, _. split; [apply (add_answered P t (dotted T') a rc n t [Adds (mkAdd (hid (inf e)) (dotted T') (given a))]); try assumption; [|lia]|].
        { unfold add_one. rewrite R, instance_table, S, O, HC, E by assumption. reflexivity. }
        left. split; [reflexivity|]. cbn [fst]. unfold E_SUCCESS in *. lia.
    + eexists _, _, _. split; [apply add_lost; exact L|]. left. split; [reflexivity|]. cbn [fst]. apply bus_error_no, F.
  - destruct A as (PO & TT & N & BL & H). destruct f as [|err|err]; [|contradiction|].
    + pose proof (pair_retrieve t (dotted T' ++ print_dec n)) as PR.
      destruct (retrieve_pair t (dotted T' ++ print_dec n)) as [(tb, y)|] eqn:R; cbn [option_map snd] in PR.
      2:{ eexists _, _, _. split; [rewrite (remove_answered P t _ E_ELEMENT_DOES_NOT_EXIST t []); [reflexivity|exact TT|unfold remove_one; rewrite R; reflexivity|unfold E_ELEMENT_DOES_NOT_EXIST; lia]|]. left. split; [reflexivity|discriminate]. }
      destruct (sub t (T' ++ [print_dec n])) as [x|] eqn:S.
      2:{ eexists _, _, _. split; [rewrite (remove_answered P t _ E_ELEMENT_DOES_NOT_EXIST t []); [reflexivity|exact TT|unfold remove_one; rewrite R, instance_row, S by assumption; reflexivity|unfold E_ELEMENT_DOES_NOT_EXIST; lia]|]. left. split; [reflexivity|discriminate]. }
      specialize (H (hid (inf tb))). destruct (on_remove P (hid (inf tb))) as [h|] eqn:O.
      2:{ eexists _, _, _. split; [rewrite (remove_answered P t _ E_INVALID_OPERATION t []); [reflexivity|exact TT|unfold remove_one; rewrite R, instance_row, S, O by assumption; reflexivity|unfold E_INVALID_OPERATION; lia]|]. left. split; [reflexivity|discriminate]. }
      specialize (H h eq_refl). set (c := mkRemove (hid (inf tb)) (dotted T' ++ print_dec n)) in *. destruct (h c =? E_SUCCESS) eqn:E.
      * eexists _, _, _. split.
        { rewrite (remove_answered P t _ (h c) (delete (ipos t (T' ++ [print_dec n])) t) [Removes c]); [reflexivity|exact TT| |exact H].
          unfold remove_one. rewrite R, instance_row, S, O by assumption. fold c. cbv zeta. rewrite E. reflexivity. }
        right. exists (CRequestRemove T' n true), E_SUCCESS. split; [exact (conj PO (conj N BL))|]. split; [cbn [op_of step]; rewrite <- PR, instance_row, S by assumption; reflexivity|].
        unfold told, listed. cbn [fst]. rewrite E. reflexivity.
      * eexists _, _, _. split.
        { rewrite (remove_answered P t _ (h c) t [Removes c]); [reflexivity|exact TT| |exact H].
          unfold remove_one. rewrite R, instance_row, S, O by assumption. fold c. cbv zeta. rewrite E. reflexivity. }
        left. split; [reflexivity|]. cbn [fst]. lia.
    + eexists _, _, _. split; [rewrite remove_lost; reflexivity|]. left. split; [reflexivity|]. cbn [fst]. apply bus_error_no, F.
Qed.
Lemma asking_holds : forall T qs t l t' l', path_ok T -> quiet t -> holds t T l -> asking T t l qs t' l' -> holds t' T l' /\ quiet t'.
Proof.
  induction qs as [|((f, P), q) qs IH]; intros t l t' l' PO Q H A; cbn [asking] in A; [destruct A as (-> & ->); auto|].
  destruct A as (K & r & t1 & cs & C & A). destruct (consumer_one T l t f P q Q K) as (r' & t1' & cs' & C' & D). rewrite C in C'. injection C' as <- <- <-.
  destruct D as [(-> & N)|(c & rc & CO & S & E)].
  - assert (E : told T l q r = l) by (unfold told; replace (fst r =? E_SUCCESS) with false by lia; reflexivity). rewrite E in A. eapply IH; eauto.
  - destruct (step_holds T t l c t1 rc PO Q H CO S) as [H1 Q1]. rewrite E in H1. eapply IH; eauto.
Qed.
