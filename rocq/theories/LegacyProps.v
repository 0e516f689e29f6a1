(** C102: values in the legacy text format. *)
From Coq Require Import String.
From Verif Require Import Common CommonFacts Bytes BytesFacts TextModel TextSpec TextProofs Errors ElemModel MsgModel MsgSpec WireModel WalkModel NamesModel NamesSpec NamesProofs Value WireSpec WireProofs Base64Spec ParamModel ParamSpec ParamProofs LegacyModel LegacySpec LegacyProofs.
From Verif Require TransModel MsgProofs.
From Coq Require Import Lia ZifyBool.
Local Open Scope string_scope.
Local Open Scope list_scope.
Local Open Scope Z_scope.

(** C102: a text is read as exactly the value it means.  Missing: numbers without a sign after
    white space, base 64, bytes that are not one character (refuted below). *)
Theorem C102_text_partial : forall C code s v, plain code s ->
  (read_text C code s = Some v <-> means (single_of C) (double_of C) (time_of C) code s v).
Proof. exact read_text_exact. Qed.
Print Assumptions C102_text_partial.

(** C102: reading a parameter of a legacy component gives the value its text means, whichever of
    the two success codes comes with it; an answer about another parameter is refused. *)
Theorem C102_get_partial : forall C nm n code s v rc cnt r, rc = 0 \/ rc = 100 -> - 2 ^ 31 <= cnt < 2 ^ 31 ->
  name_ok (Some n) = true -> name_ok (Some s) = true -> legacy_code code -> plain code s ->
  means (single_of C) (double_of C) (time_of C) code s v ->
  get_answer C nm (inl (msg_from_bytes (reply rc cnt [(n, Text code s)] r))) =
  Ok (if bytes_eqb nm n then (E_SUCCESS, Some v) else (E_INVALID_RESPONSE_FROM_DESTINATION, None)).
Proof.
  intros C nm n code s v rc cnt r G B N S L P M. rewrite get_text; [|exact G|exact B|split; [exact N|split; [exact L|exact S]]].
  unfold got_value. rewrite (carries_got C (Text code s) v (conj P M)). reflexivity.
Qed.
Print Assumptions C102_get_partial.

(** C102: a list of values, some in the legacy format and some not, is received in order, each with
    its name and what it means. *)
Theorem C102_list_partial : forall C l vs rc r, rc = 0 \/ rc = 100 -> Z.of_nat (length l) < 2 ^ 31 -> Forall entry_ok l ->
  Forall2 (fun ne nv => fst ne = fst nv /\ carries C (snd ne) (snd nv)) l vs ->
  values_answer C (inl (msg_from_bytes (reply rc (Z.of_nat (length l)) l r))) = Ok (E_SUCCESS, vs).
Proof. intros C l vs rc r G B F K. rewrite list_text by assumption. destruct (carries_results _ _ _ K) as [-> _]. reflexivity. Qed.
Print Assumptions C102_list_partial.

(** C102: a set request in the legacy format runs the set handlers as one with the values its texts
    mean does ... *)
Theorem C102_set_partial : forall C P t session who l vs commit r, - 2 ^ 31 <= session < 2 ^ 31 -> text_ok who -> text_ok commit ->
  0 < Z.of_nat (length l) < 2 ^ 31 -> Forall entry_ok l ->
  Forall2 (fun ne nv => fst ne = fst nv /\ carries C (snd ne) (snd nv)) l vs ->
  set_handler C P t (msg_from_bytes (set_bytes_of session who l commit r)) =
  let '(rc, failed, cs) := set_loop P t (to_unsigned 32 session) who (is_true commit) vs in Ok (set_response rc failed, cs).
Proof.
  intros C P t session who l vs commit r BS TW TC B F K. rewrite set_text by assumption. destruct (carries_results _ _ _ K) as [-> ->]. rewrite last_repeat. reflexivity.
Qed.
Print Assumptions C102_set_partial.
(** ... and runs none of them, and is answered with an error, when the last text means nothing. *)
Theorem C102_refused_partial : forall C P t session who l n code s commit r, - 2 ^ 31 <= session < 2 ^ 31 -> text_ok who -> text_ok commit ->
  Z.of_nat (length l) < 2 ^ 31 - 1 -> Forall entry_ok (l ++ [(n, Text code s)]) -> plain code s ->
  (forall v, ~ means (single_of C) (double_of C) (time_of C) code s v) ->
  set_handler C P t (msg_from_bytes (set_bytes_of session who (l ++ [(n, Text code s)]) commit r)) = Ok (set_response E_INVALID_INPUT None, []).
Proof.
  intros C P t session who l n code s commit r BS TW TC B F PL N. rewrite set_text; [|exact BS|exact TW|exact TC| |exact F].
  - rewrite map_app. cbn [map snd got]. rewrite last_last, (means_nothing C code s PL N). reflexivity.
  - rewrite app_length, Nat2Z.inj_add. cbn [length]. lia.
Qed.
Print Assumptions C102_refused_partial.

(** C102: on everything the model without legacy values covers the two agree, so what is proved
    about it (C82, C83, C84) holds here. *)
Theorem C102_agrees : forall C,
  (forall nm r x, ParamModel.get_answer nm r = Ok x -> get_answer C nm r = Ok x) /\
  (forall r x, ParamModel.values_answer r = Ok x -> values_answer C r = Ok x) /\
  (forall P t m x, ParamModel.set_handler P t m = Ok x -> set_handler C P t m = Ok x).
Proof. intros C. split; [exact (get_answer_agrees C)|]. split; [exact (values_answer_agrees C)|exact (set_handler_agrees C)]. Qed.
Print Assumptions C102_agrees.

Definition sample_clib : clib := mkClib (fun s => if bytes_eqb s (bs "1.5") then Some 1069547520 else None) (fun _ => None) (fun _ => None).
Definition sample_list : list (list Z * entry) :=
  [(bs "A.B", Text 1 (bs "-12")); (bs "A.C", Modern (VUInt16 7)); (bs "A.D", Text 3 (bs "TRUE")); (bs "A.E", Text 8 (bs "1.5")); (bs "A.F", Text 0 (bs "x y"))].
Definition sample_values : list (list Z * value) :=
  [(bs "A.B", VInt32 (-12)); (bs "A.C", VUInt16 7); (bs "A.D", VBool true); (bs "A.E", VSingle 1069547520); (bs "A.F", VString (Some (bs "x y")))].
Lemma sample_ok : Forall entry_ok sample_list.
Proof. repeat (apply Forall_cons; [split; [reflexivity|cbn; unfold legacy_code; try (split; [lia|reflexivity]); try reflexivity]|]). apply Forall_nil. Qed.
Lemma sample_carries : Forall2 (fun ne nv => fst ne = fst nv /\ carries sample_clib (snd ne) (snd nv)) sample_list sample_values.
Proof.
  assert (T : forall code s v, plain code s -> read_text sample_clib code s = Some v -> carries sample_clib (Text code s) v).
  { intros code s v P R. split; [exact P|]. now apply read_text_exact. }
  repeat apply Forall2_cons; try apply Forall2_nil; (split; [reflexivity|]); cbn [snd]; try (apply T; [left; cbn; tauto|reflexivity]). reflexivity.
Qed.
Example C102_witness : Forall entry_ok sample_list /\ Forall2 (fun ne nv => fst ne = fst nv /\ carries sample_clib (snd ne) (snd nv)) sample_list sample_values /\
  values_answer sample_clib (inl (msg_from_bytes (reply 100 5 sample_list [1; 2; 3]))) = Ok (E_SUCCESS, sample_values).
Proof. split; [exact sample_ok|]. split; [exact sample_carries|]. exact (C102_list_partial _ sample_list sample_values 100 [1; 2; 3] (or_intror eq_refl) ltac:(cbn; lia) sample_ok sample_carries). Qed.

(** A read whose answer carries a text that means nothing, or no text at all, is a success: the
    caller gets a value without type or contents. *)
Theorem C102_get_refuted : forall C nm code s rc cnt r, rc = 0 \/ rc = 100 -> - 2 ^ 31 <= cnt < 2 ^ 31 ->
  name_ok (Some nm) = true -> name_ok (Some s) = true -> legacy_code code -> plain code s ->
  (forall v, ~ means (single_of C) (double_of C) (time_of C) code s v) ->
  get_answer C nm (inl (msg_from_bytes (reply rc cnt [(nm, Text code s)] r))) = Ok (E_SUCCESS, Some VNone).
Proof.
  intros C nm code s rc cnt r G B N S L P M. rewrite get_text; [|exact G|exact B|split; [exact N|split; [exact L|exact S]]].
  rewrite bytes_eqb_refl. unfold got_value. cbn [got]. rewrite (means_nothing C code s P M). reflexivity.
Qed.
Print Assumptions C102_get_refuted.
Example C102_get_refuted_ex : plain 1 (bs "12x") /\ (forall C v, ~ means (single_of C) (double_of C) (time_of C) 1 (bs "12x") v).
Proof.
  assert (P : plain 1 (bs "12x")) by (left; cbn; tauto). split; [exact P|]. intros C v M. apply (read_text_exact C 1 (bs "12x") v P) in M. vm_compute in M. discriminate M.
Qed.


(** A set of several parameters with a text that means nothing, other than the last one, is not
    refused: the set handler is called with a value without type or contents, and the caller is
    told that everything was set. *)
Theorem C102_set_refuted : exists t, run empty [Register (bs "A.P") (mkInfo 1 3 true); Register (bs "A.Q") (mkInfo 1 4 true)] = Ok t /\
  forall C, let P := mkProgram (fun c => (E_SUCCESS, Some (g_name c), VNone)) (fun _ _ _ => None) (fun _ => Some (fun _ => E_SUCCESS)) in
  set_handler C P t (msg_from_bytes (set_bytes_of 0 (bs "me") [(bs "A.P", Text 1 (bs "12x")); (bs "A.Q", Text 1 (bs "12"))] (bs "TRUE") [])) =
  Ok (set_response E_SUCCESS None, [mkSet 3 (bs "A.P") VNone 0 (bs "me") false; mkSet 4 (bs "A.Q") (VInt32 12) 0 (bs "me") true]).
Proof.
  eexists. split; [vm_compute; reflexivity|]. intros C P. rewrite set_text.
  - vm_compute. reflexivity.
  - lia.
  - split; [reflexivity|cbn; lia].
  - split; [reflexivity|cbn; lia].
  - cbn. lia.
  - repeat (apply Forall_cons; [split; [reflexivity|split; [red; lia|reflexivity]]|]). apply Forall_nil.
Qed.
Print Assumptions C102_set_refuted.
(** Data sent as base 64 is not decoded: the reader gets the characters of the text. *)
Theorem C102_base64_refuted : forall C nm cnt r, - 2 ^ 31 <= cnt < 2 ^ 31 -> name_ok (Some nm) = true ->
  means (single_of C) (double_of C) (time_of C) 5 (bs "aGk=") (VBytes (Some (bs "hi"))) /\
  get_answer C nm (inl (msg_from_bytes (reply 100 cnt [(nm, Text 5 (bs "aGk="))] r))) = Ok (E_SUCCESS, Some (VBytes (Some (bs "aGk=")))).
Proof.
  intros C nm cnt r B N. split.
  - constructor. exists (bs "aGk"), [26; 6; 36], 2%nat, 1%nat. split; [reflexivity|]. split; [repeat (apply Forall2_cons; [split; [lia|reflexivity]|]); apply Forall2_nil|]. split; [reflexivity|]. split; [lia|]. split; [lia|reflexivity].
  - rewrite get_text; [|now right|exact B|split; [exact N|split; [red; lia|reflexivity]]]. rewrite bytes_eqb_refl. reflexivity.
Qed.
Print Assumptions C102_base64_refuted.
(** A byte is read from any text: the empty one gives zero and everything after the first character
    is ignored. *)
Theorem C102_byte_refuted : forall C, read_text C 10 [] = Some (VByte 0) /\ (forall c s, read_text C 10 (c :: s) = Some (VByte c)) /\
  forall c d s v, ~ means (single_of C) (double_of C) (time_of C) 10 (c :: d :: s) v.
Proof. intros C. split; [reflexivity|]. split; [reflexivity|]. intros c d s v H. inversion H. Qed.
Print Assumptions C102_byte_refuted.
(** A negative number after a space is read as a large number without a sign. *)
Theorem C102_unsigned_refuted : forall C, denotes (bs " -1") (-1) /\ read_text C 7 (bs " -1") = Some (VUInt64 (2 ^ 64 - 1)) /\
  read_text C 7 (bs "-1") = None.
Proof.
  intros C. split; [|split; reflexivity]. exists [32], [45], (bs "1"). split; [reflexivity|]. split; [repeat constructor|].
  split; [apply Forall_forall; intros x H; cbn in H; unfold dec_char; lia|]. split; [discriminate|]. right. split; reflexivity.
Qed.
Print Assumptions C102_unsigned_refuted.
