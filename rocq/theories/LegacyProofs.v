(** Proofs about values in the legacy text format (C102). *)
From Coq Require Import String.
From Verif Require Import Common CommonFacts Bytes BytesFacts TextModel TextSpec TextProofs Errors ElemModel MsgModel MsgSpec WireModel WalkModel NamesModel NamesSpec NamesProofs Value WireSpec WireProofs ParamModel ParamSpec ParamProofs LegacyModel LegacySpec.
From Verif Require TransModel MsgProofs.
From Coq Require Import Lia ZifyBool.
Local Open Scope string_scope.
Local Open Scope list_scope.
Local Open Scope Z_scope.

(** ** texts *)
Lemma word_lower : forall w, Forall (fun c => 97 <= c <= 122) w -> forall s, word w s <-> map lower s = w.
Proof.
  induction w as [|a w IH]; intros F s.
  - split; intros H; [inversion H; reflexivity|]. destruct s; [constructor|discriminate].
  - inversion F as [|? ? F1 F2]; subst. split; intros H.
    + inversion H as [|? c ? s' L W]; subst. cbn [map]. apply (IH F2) in W. rewrite W. f_equal. unfold lower. inversion L; subst.
      * replace ((65 <=? c) && (c <=? 90)) with false by lia. reflexivity.
      * replace ((65 <=? a - 32) && (a - 32 <=? 90)) with true by lia. lia.
    + destruct s as [|c s]; [discriminate|]. cbn [map] in H. injection H as H1 H2. constructor; [|now apply (IH F2)].
      unfold lower in H1. destruct ((65 <=? c) && (c <=? 90)) eqn:E; [|subst; constructor].
      replace c with (a - 32) by lia. constructor. lia.
Qed.
Lemma true_word : forall s, strcaseeq s (bs "true") = true <-> word (bs "true") s.
Proof.
  intros s. unfold strcaseeq. rewrite bytes_eqb_eq. change (map lower (bs "true")) with (bs "true"). symmetry. apply word_lower.
  apply Forall_forall. intros x H. cbn in H. lia.
Qed.
Lemma false_word : forall s, strcaseeq s (bs "false") = true <-> word (bs "false") s.
Proof.
  intros s. unfold strcaseeq. rewrite bytes_eqb_eq. change (map lower (bs "false")) with (bs "false"). symmetry. apply word_lower.
  apply Forall_forall. intros x H. cbn in H. lia.
Qed.
Lemma word_length : forall w s, word w s -> length s = length w.
Proof. intros w s H. induction H; cbn; congruence. Qed.
Notation means' C := (means (single_of C) (double_of C) (time_of C)).
Lemma boolean_text : forall C s v, read_text C 3 s = Some v <-> means' C 3 s v.
Proof.
  intros C s v. change (read_text C 3 s) with
    (if strcaseeq s (bs "true") || bytes_eqb s (bs "1") then Some (VBool true)
     else if strcaseeq s (bs "false") || bytes_eqb s (bs "0") then Some (VBool false) else None).
  split; intros H.
  - destruct (strcaseeq s (bs "true") || bytes_eqb s (bs "1")) eqn:A.
    + injection H as <-. constructor. apply orb_true_iff in A as [A|A]; [left; now apply true_word|right; now apply bytes_eqb_eq].
    + destruct (strcaseeq s (bs "false") || bytes_eqb s (bs "0")) eqn:B; [|discriminate]. injection H as <-. constructor.
      apply orb_true_iff in B as [B|B]; [left; now apply false_word|right; now apply bytes_eqb_eq].
  - inversion H; subst; match goal with X : _ \/ _ |- _ => rename X into K end.
    + replace (strcaseeq s (bs "true") || bytes_eqb s (bs "1")) with true; [reflexivity|]. symmetry. apply orb_true_iff.
      destruct K as [K|K]; [left; now apply true_word|right; now apply bytes_eqb_eq].
    + replace (strcaseeq s (bs "true") || bytes_eqb s (bs "1")) with false.
      * replace (strcaseeq s (bs "false") || bytes_eqb s (bs "0")) with true; [reflexivity|]. symmetry. apply orb_true_iff.
        destruct K as [K|K]; [left; now apply false_word|right; now apply bytes_eqb_eq].
      * symmetry. apply orb_false_iff. destruct K as [K| ->]; [|split; reflexivity]. pose proof (word_length _ _ K) as L. cbn in L. split.
        -- apply not_true_is_false. intros X. apply true_word, word_length in X. cbn in X. lia.
        -- apply not_true_is_false. intros X. apply bytes_eqb_eq in X. subst s. discriminate L.
Qed.
Lemma read_text_exact : forall C code s v, plain code s -> (read_text C code s = Some v <-> means' C code s v).
Proof.
  intros C code s v [I|[[I N]|[-> N]]].
  - cbn [In] in I. destruct I as [<-|[<-|[<-|[<-|[<-|[<-|[<-|[<-|[]]]]]]]]].
    + change (read_text C 0 s) with (Some (VString (Some s))). split; intros H; [injection H as <-; constructor|inversion H; reflexivity].
    + change (read_text C 1 s) with (set_from_string RBUS_INT32 s). rewrite (signed_exact RBUS_INT32 VInt32 _ _ s v st32).
      split; [intros (n & D & B & ->); constructor; [exact D|lia]|intros H; inversion H; subst; eexists; split; [eassumption|split; [lia|reflexivity]]].
    + apply boolean_text.
    + change (read_text C 4 s) with (option_map VDateTime (time_of C s)). split; intros H.
      * destruct (time_of C s) eqn:E; [|discriminate]. injection H as <-. now constructor.
      * inversion H; subst; match goal with X : _ s = Some _ |- _ => rewrite X end. reflexivity.
    + change (read_text C 6 s) with (set_from_string RBUS_INT64 s). rewrite (signed_exact RBUS_INT64 VInt64 _ _ s v st64).
      split; [intros (n & D & B & ->); constructor; [exact D|lia]|intros H; inversion H; subst; eexists; split; [eassumption|split; [lia|reflexivity]]].
    + change (read_text C 8 s) with (option_map VSingle (single_of C s)). split; intros H.
      * destruct (single_of C s) eqn:E; [|discriminate]. injection H as <-. now constructor.
      * inversion H; subst; match goal with X : _ s = Some _ |- _ => rewrite X end. reflexivity.
    + change (read_text C 9 s) with (option_map VDouble (double_of C s)). split; intros H.
      * destruct (double_of C s) eqn:E; [|discriminate]. injection H as <-. now constructor.
      * inversion H; subst; match goal with X : _ s = Some _ |- _ => rewrite X end. reflexivity.
    + change (read_text C 11 s) with (@None value). split; intros H; [discriminate|inversion H].
  - destruct I as [->| ->].
    + change (read_text C 2 s) with (set_from_string RBUS_UINT32 s). rewrite (unsigned_exact RBUS_UINT32 VUInt32 _ s v ut32 N).
      split; [intros (n & D & B & ->); constructor; [exact D|lia]|intros H; inversion H; subst; eexists; split; [eassumption|split; [lia|reflexivity]]].
    + change (read_text C 7 s) with (set_from_string RBUS_UINT64 s). rewrite (unsigned_exact RBUS_UINT64 VUInt64 _ s v ut64 N).
      split; [intros (n & D & B & ->); constructor; [exact D|lia]|intros H; inversion H; subst; eexists; split; [eassumption|split; [lia|reflexivity]]].
  - destruct s as [|c [|? ?]]; try discriminate N. change (read_text C 10 [c]) with (Some (VByte c)). split; intros H; [injection H as <-; constructor|inversion H; reflexivity].
Qed.

(** ** messages *)
(** what the reader of an entry gets *)
Definition got (C : clib) (e : entry) : option value :=
  match e with Modern v => Some (seen_value v) | Text code s => read_text C code s end.
Definition got_value (C : clib) (e : entry) : value := match got C e with Some v => v | None => VNone end.
Definition efields (ne : list Z * entry) : list field := entry_fields value_fields (fst ne) (snd ne).
Notation ebytes ne := (MsgProofs.all_bytes (efields ne)).
Definition vfields (e : entry) : list field := match e with Modern v => value_fields v | Text code s => [FI32 code; FStr (Some s)] end.
Lemma ebytes_split : forall ne, ebytes ne = MsgProofs.field_bytes (FStr (Some (fst ne))) ++ MsgProofs.all_bytes (vfields (snd ne)).
Proof. intros [n e]. unfold efields, entry_fields. rewrite all_bytes_cons. reflexivity. Qed.
Lemma modern_code : forall v pre r k, sendable_value v = true -> exists code m,
  get_int32 (MsgProofs.at_pos pre (MsgProofs.all_bytes (value_fields v) ++ r) k) = Ok (code, m) /\ (0 <=? code) && (code <=? 11) = false.
Proof.
  intros v pre r k H. assert (exists fs, value_fields v = FI32 (vtype v) :: fs) as [fs ->] by (destruct v; eexists; reflexivity).
  rewrite all_bytes_cons, <- app_assoc, read_int32_at by apply vtype_field. eexists _, _. split; [reflexivity|]. apply legacy_false.
Qed.
Lemma entry_value_at : forall C e pre r k, entry_ok ([], e) ->
  take_value C (MsgProofs.at_pos pre (MsgProofs.all_bytes (vfields e) ++ r) k) =
  Ok (is_some (got C e), got_value C e, MsgProofs.at_pos (pre ++ MsgProofs.all_bytes (vfields e)) r k).
Proof.
  intros C e pre r k [_ O]. cbn [snd] in O. unfold take_value, got_value. destruct e as [v|code s]; cbn [vfields got].
  - destruct (modern_code v pre r k O) as (code & m & G & L). rewrite G. cbn [need obind]. change L_STRING with 0. change L_NONE with 11. rewrite L.
    rewrite value_at by exact O. reflexivity.
  - destruct O as [L N]. red in L. rewrite all_bytes_cons, <- app_assoc, read_int32_at by (cbn; lia). cbn [need obind]. change L_STRING with 0. change L_NONE with 11.
    replace ((0 <=? code) && (code <=? 11)) with true by lia.
    assert (F : field_ok (FStr (Some s)) = true) by now apply name_field.
    rewrite all_bytes_cons, <- app_assoc. rewrite MsgProofs.unpack_next_field by exact F. cbn [MsgProofs.field_item].
    rewrite read_string_at by exact F. cbn [obind the_name]. change (MsgProofs.all_bytes []) with (@nil Z). cbn [app]. rewrite app_nil_r, <- app_assoc.
    destruct (read_text C code s); reflexivity.
Qed.
Lemma entry_at : forall C ne pre r k, entry_ok ne ->
  take_property C (MsgProofs.at_pos pre (ebytes ne ++ r) k) =
  Ok (is_some (got C (snd ne)), (fst ne, got_value C (snd ne)), MsgProofs.at_pos (pre ++ ebytes ne) r k).
Proof.
  intros C [n e] pre r k [N O]. cbn [fst snd] in *. rewrite ebytes_split. cbn [fst snd]. unfold take_property. rewrite <- app_assoc, read_string_at by now apply name_field.
  cbn [need obind the_name]. rewrite entry_value_at by (split; [reflexivity|exact O]). cbn [obind fst snd]. rewrite <- app_assoc. reflexivity.
Qed.
Definition lbytes (l : list (list Z * entry)) : list Z := flat_map (fun ne => ebytes ne) l.
Definition results (C : clib) (l : list (list Z * entry)) : list (list Z * value) := map (fun ne => (fst ne, got_value C (snd ne))) l.
Lemma read_values_at : forall C l pre r k, Forall entry_ok l ->
  LegacyModel.read_values C (length l) (MsgProofs.at_pos pre (lbytes l ++ r) k) = Ok (results C l).
Proof.
  intros C. induction l as [|ne l IH]; intros pre r k F; [reflexivity|]. inversion F as [|? ? F1 F2]; subst. cbn [length LegacyModel.read_values lbytes flat_map results map].
  rewrite <- app_assoc, entry_at by exact F1. cbn [obind snd]. fold (lbytes l). rewrite IH by exact F2. reflexivity.
Qed.
Lemma read_props_at : forall C l b pre r k, Forall entry_ok l ->
  LegacyModel.read_props C (length l) b (MsgProofs.at_pos pre (lbytes l ++ r) k) =
  Ok (last (map (fun ne => is_some (got C (snd ne))) l) b, results C l, MsgProofs.at_pos (pre ++ lbytes l) r k).
Proof.
  intros C. induction l as [|ne l IH]; intros b pre r k F; [cbn [length LegacyModel.read_props lbytes flat_map app]; rewrite app_nil_r; reflexivity|].
  inversion F as [|? ? F1 F2]; subst. cbn [length LegacyModel.read_props lbytes flat_map results map].
  rewrite <- app_assoc, entry_at by exact F1. cbn [obind fst snd]. fold (lbytes l). rewrite IH by exact F2. cbn [obind fst snd].
  rewrite <- !app_assoc. f_equal. f_equal. f_equal. destruct l as [|x l]; [reflexivity|]. cbn [map].
  assert (forall A (y : A) ys d e, last (y :: ys) d = last (y :: ys) e) as LL.
  { intros A y ys. revert y. induction ys as [|z ys IHy]; intros y d e; [reflexivity|]. change (last (z :: ys) d = last (z :: ys) e). apply IHy. }
  change (last (is_some (got C (snd x)) :: map (fun ne0 => is_some (got C (snd ne0))) l) (is_some (got C (snd ne))) =
          last (is_some (got C (snd x)) :: map (fun ne0 => is_some (got C (snd ne0))) l) b). apply LL.
Qed.

(** ** answers and requests *)
Definition reply (rc : Z) (n : Z) (l : list (list Z * entry)) (r : list Z) : list Z := pack_int rc ++ pack_int n ++ lbytes l ++ r.
Lemma good_cases : forall rc, rc = 0 \/ rc = 100 -> TransModel.good rc = true /\ - 2 ^ 31 <= rc < 2 ^ 31.
Proof. intros rc [->| ->]; split; (reflexivity || lia). Qed.
Lemma get_text : forall C nm n e rc cnt r, rc = 0 \/ rc = 100 -> - 2 ^ 31 <= cnt < 2 ^ 31 -> entry_ok (n, e) ->
  LegacyModel.get_answer C nm (inl (msg_from_bytes (reply rc cnt [(n, e)] r))) =
  Ok (if bytes_eqb nm n then (E_SUCCESS, Some (got_value C e)) else (E_INVALID_RESPONSE_FROM_DESTINATION, None)).
Proof.
  intros C nm n e rc cnt r G B O. destruct (good_cases rc G) as [GG BB]. unfold reply, lbytes. cbn [flat_map]. rewrite app_nil_r, from_start. unfold LegacyModel.get_answer.
  rewrite take_int by exact BB. cbn [obind]. rewrite GG. unfold past_field.
  change (pack_int cnt) with (MsgProofs.field_bytes (FI32 cnt)). rewrite MsgProofs.unpack_next_field by (cbn; lia). cbn [obind].
  rewrite ebytes_split. cbn [fst snd]. rewrite <- (app_assoc (MsgProofs.field_bytes (FStr (Some n)))). destruct O as [N O]. rewrite read_string_at by now apply name_field. cbn [the_name].
  destruct (bytes_eqb nm n); [|reflexivity]. rewrite entry_value_at by (split; [reflexivity|exact O]). reflexivity.
Qed.
Lemma list_text : forall C l rc r, rc = 0 \/ rc = 100 -> Z.of_nat (length l) < 2 ^ 31 -> Forall entry_ok l ->
  LegacyModel.values_answer C (inl (msg_from_bytes (reply rc (Z.of_nat (length l)) l r))) = Ok (E_SUCCESS, results C l).
Proof.
  intros C l rc r G B F. destruct (good_cases rc G) as [GG BB]. unfold reply. rewrite from_start. unfold LegacyModel.values_answer. rewrite take_int by exact BB. cbn [obind]. rewrite GG.
  rewrite take_int by lia. cbn [obind]. rewrite Nat2Z.id, read_values_at by exact F. reflexivity.
Qed.
Definition set_bytes_of (session : Z) (who : list Z) (l : list (list Z * entry)) (commit : list Z) (r : list Z) : list Z :=
  pack_int session ++ pack_str (who ++ [0]) ++ pack_int 0 ++ pack_int (Z.of_nat (length l)) ++ lbytes l ++ pack_str (commit ++ [0]) ++ r.
Lemma set_text : forall C P t session who l commit r, - 2 ^ 31 <= session < 2 ^ 31 -> text_ok who -> text_ok commit -> 0 < Z.of_nat (length l) < 2 ^ 31 -> Forall entry_ok l ->
  LegacyModel.set_handler C P t (msg_from_bytes (set_bytes_of session who l commit r)) =
  if last (map (fun ne => is_some (got C (snd ne))) l) true then
    let '(rc, failed, cs) := set_loop P t (to_unsigned 32 session) who (is_true commit) (results C l) in Ok (set_response rc failed, cs)
  else Ok (set_response E_INVALID_INPUT None, []).
Proof.
  intros C P t session who l commit r BS TW TC B F. unfold set_bytes_of. rewrite from_start. unfold LegacyModel.set_handler. rewrite take_int by exact BS. cbn [need obind].
  rewrite take_string by exact TW. cbn [need obind]. rewrite take_int by lia. cbn [need obind]. rewrite take_int by lia. cbn [need obind]. change (0 =? 1) with false. cbn iota.
  replace (Z.of_nat (length l) >? 0) with true by lia. rewrite Nat2Z.id, read_props_at by exact F. cbn [obind fst snd].
  destruct (last _ true); [|reflexivity]. rewrite take_string by exact TC. cbn [need obind]. reflexivity.
Qed.

(** ** the model of values in binary is a part of this one *)
Lemma init_value_take : forall C m v m', value_from_message m = Ok (v, m') -> take_value C m = Ok (true, v, m').
Proof.
  intros C m v m' H. unfold take_value. pose proof H as K. unfold value_from_message in K. set (f := read_fuel m) in *. unfold read_fuel in f. subst f. cbn [init_value] in K.
  destruct (get_int32 m) as [[code m1]| |]; cbn [need obind] in *; try discriminate K. change L_STRING with 0. change L_NONE with 11.
  destruct ((0 <=? code) && (code <=? 11)); [discriminate K|]. rewrite H. reflexivity.
Qed.
Lemma get_string_data : forall m s m', get_string m = Ok (s, m') -> m_data m' = m_data m.
Proof.
  intros m s m' H. unfold get_string, unpack_next in H. destruct (msg_size m <=? m_read m); [discriminate|]. destruct (unpack _) as [[i r]|]; [|discriminate].
  destruct i; try discriminate. destruct (c_str _); [|discriminate]. injection H as _ <-. reflexivity.
Qed.
Lemma property_agrees : forall C m n v m', property_from_message m = Ok (PCons (Some n) v PNil, m') -> take_property C m = Ok (true, (n, v), m').
Proof.
  intros C m n v m' H. unfold property_from_message in H. unfold take_property. destruct (get_string m) as [[n1 m1]| |] eqn:G; cbn [need obind] in *; try discriminate H.
  destruct (init_value (read_fuel m) m1) as [[w m2]| |] eqn:E; cbn [obind] in H; try discriminate H. injection H as <- <- <-.
  assert (value_from_message m1 = Ok (w, m2)) as V by (unfold value_from_message, read_fuel; rewrite (get_string_data _ _ _ G); exact E).
  rewrite (init_value_take C m1 w m2 V). reflexivity.
Qed.
Lemma read_values_agree : forall C n m l, ParamModel.read_values n m = Ok l -> LegacyModel.read_values C n m = Ok l.
Proof.
  intros C. induction n as [|n IH]; intros m l H; [exact H|]. cbn [ParamModel.read_values LegacyModel.read_values] in *.
  destruct (property_from_message m) as [[p m1]| |] eqn:E; cbn [obind] in H; try discriminate H.
  destruct p as [|[nm|] v [|]]; try discriminate H. rewrite (property_agrees C _ _ _ _ E). cbn [obind].
  destruct (ParamModel.read_values n m1) as [l1| |] eqn:R; cbn [obind] in H; try discriminate H. injection H as <-. rewrite (IH _ _ R). reflexivity.
Qed.
Lemma read_props_agree : forall C n m l m', ParamModel.read_props n m = Ok (l, m') -> LegacyModel.read_props C n true m = Ok (true, l, m').
Proof.
  intros C. induction n as [|n IH]; intros m l m' H; [cbn [ParamModel.read_props] in H; injection H as <- <-; reflexivity|]. cbn [ParamModel.read_props LegacyModel.read_props] in *.
  destruct (property_from_message m) as [[p m1]| |] eqn:E; cbn [obind] in H; try discriminate H.
  destruct p as [|[nm|] v [|]]; try discriminate H. rewrite (property_agrees C _ _ _ _ E). cbn [obind fst snd].
  destruct (ParamModel.read_props n m1) as [[l1 m2]| |] eqn:R; cbn [obind] in H; try discriminate H. injection H as <- <-. rewrite (IH _ _ _ R). reflexivity.
Qed.
Lemma int_past : forall m n m', get_int32 m = Ok (n, m') -> past_field m = Ok m'.
Proof. intros m n m' H. unfold get_int32 in H. unfold past_field. destruct (unpack_next m) as [[i m1]|]; [|discriminate]. destruct i; try discriminate. now injection H as _ <-. Qed.
Lemma get_answer_agrees : forall C nm r x, ParamModel.get_answer nm r = Ok x -> LegacyModel.get_answer C nm r = Ok x.
Proof.
  intros C nm [m|err] x H; [|exact H]. unfold ParamModel.get_answer in H. unfold LegacyModel.get_answer.
  destruct (match get_int32 m with Ok x0 => Ok x0 | Err _ => Ok (-1, m) | UB => UB end) as [[rc m0]| |]; cbn [obind] in *; try discriminate H.
  destruct (TransModel.good rc); [|exact H]. destruct (get_int32 m0) as [[c m1]| |] eqn:G; cbn [need obind] in H; try discriminate H.
  rewrite (int_past _ _ _ G). cbn [obind]. destruct (get_string m1) as [[n2 m2]| |]; cbn [need obind] in H; try discriminate H.
  destruct (bytes_eqb nm n2); [|exact H]. destruct (value_from_message m2) as [[v m3]| |] eqn:V; cbn [obind] in H; try discriminate H. rewrite (init_value_take C _ _ _ V). exact H.
Qed.
Lemma values_answer_agrees : forall C r x, ParamModel.values_answer r = Ok x -> LegacyModel.values_answer C r = Ok x.
Proof.
  intros C [m|err] x H; [|exact H]. unfold ParamModel.values_answer in H. unfold LegacyModel.values_answer.
  destruct (match get_int32 m with Ok x0 => Ok x0 | Err _ => Ok (-1, m) | UB => UB end) as [[rc m0]| |]; cbn [obind] in *; try discriminate H.
  destruct (TransModel.good rc); [|exact H].
  destruct (match get_int32 m0 with Ok x0 => Ok x0 | Err _ => Ok (0, m0) | UB => UB end) as [[n m1]| |]; cbn [obind] in *; try discriminate H.
  destruct (ParamModel.read_values (Z.to_nat n) m1) as [l| |] eqn:R; cbn [obind] in H; try discriminate H. rewrite (read_values_agree C _ _ _ R). exact H.
Qed.
Lemma set_handler_agrees : forall C P t m x, ParamModel.set_handler P t m = Ok x -> LegacyModel.set_handler C P t m = Ok x.
Proof.
  intros C P t m x H. unfold ParamModel.set_handler in H. unfold LegacyModel.set_handler.
  destruct (get_int32 m) as [[s m1]| |]; cbn [need obind] in *; try discriminate H.
  destruct (get_string m1) as [[who m2]| |]; cbn [need obind] in *; try discriminate H.
  destruct (get_int32 m2) as [[roll m3]| |]; cbn [need obind] in *; try discriminate H.
  destruct (get_int32 m3) as [[n m4]| |]; cbn [need obind] in *; try discriminate H.
  destruct (roll =? 1); [exact H|]. destruct (n >? 0); [|exact H].
  destruct (ParamModel.read_props (Z.to_nat n) m4) as [[l m5]| |] eqn:R; cbn [obind] in H; try discriminate H. rewrite (read_props_agree C _ _ _ _ R). cbn [obind fst snd]. exact H.
Qed.

(** ** what entries carry *)
Definition carries (C : clib) (e : entry) (v : value) : Prop :=
  match e with Modern w => v = seen_value w | Text code s => plain code s /\ means' C code s v end.
Lemma carries_got : forall C e v, carries C e v -> got C e = Some v.
Proof. intros C [w|code s] v H; [cbn in *; congruence|]. destruct H as [P M]. cbn [got]. now apply read_text_exact. Qed.
Lemma carries_results : forall C l vs, Forall2 (fun ne nv => fst ne = fst nv /\ carries C (snd ne) (snd nv)) l vs ->
  results C l = vs /\ map (fun ne => is_some (got C (snd ne))) l = repeat true (length l).
Proof.
  intros C l vs H. induction H as [|[n e] [n' v] l vs [N K] _ [IH1 IH2]]; [split; reflexivity|]. cbn [fst snd] in *. subst n'. pose proof (carries_got _ _ _ K) as G.
  unfold results in *. cbn [map length repeat fst snd]. rewrite IH1, IH2, G. unfold got_value. rewrite G. split; reflexivity.
Qed.
Lemma last_repeat : forall n, last (repeat true n) true = true.
Proof. induction n as [|[|n] IH]; try reflexivity. exact IH. Qed.
Lemma means_nothing : forall C code s, plain code s -> (forall v, ~ means' C code s v) -> read_text C code s = None.
Proof. intros C code s P N. destruct (read_text C code s) as [v|] eqn:E; [|reflexivity]. exfalso. apply (N v). now apply read_text_exact. Qed.
