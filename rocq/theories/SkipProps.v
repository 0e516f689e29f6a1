(** C112: a message that is dropped takes its own bytes with it and no others. *)
From Verif Require Import Common SkipModel SkipSpec.
Local Open Scope Z_scope.

Lemma cut k need (s : list Z) : 0 < need -> s <> [] ->
  let n := Z.min (Z.min (Z.of_nat k + 1) (if need <? 512 then need else 512)) (Z.of_nat (length s)) in 1 <= n <= need /\ n <= Z.of_nat (length s).
Proof. intros H NE. cbv zeta. destruct s; [congruence|]. cbn [length]. destruct (Z.ltb_spec need 512); lia. Qed.

(** However recv splits what was sent, is interrupted or fails, no byte behind the message is taken,
    what is left is in order, and success says that all of the message was taken. *)
Theorem C112_exact : forall ev closed need s code r, 0 <= need -> (forall e, In (Fails e) ev -> e <> 0) -> skip ev closed need s = Some (code, r) ->
  exists pre, s = pre ++ r /\ Z.of_nat (length pre) <= need /\ (code = 0 <-> Z.of_nat (length pre) = need).
Proof.
  induction ev as [|x ev IH]; intros closed need s code r N NF E; cbn [skip] in E; destruct (Z.ltb_spec 0 need) as [P|P].
  - discriminate.
  - injection E as <- <-. exists []. cbn. split; [reflexivity|]. lia.
  - assert (NF' : forall e, In (Fails e) ev -> e <> 0) by (intros e H; apply NF; right; exact H). destruct x as [k| |e].
    + destruct s as [|y s].
      { destruct closed; [|discriminate]. injection E as <- <-. exists []. cbn. split; [reflexivity|]. unfold ENOTCONN. lia. }
      remember (y :: s) as t eqn:Et. assert (NE : t <> []) by (subst; discriminate). pose proof (cut k need t P NE) as C. cbv zeta in C, E.
      set (n := Z.min (Z.min (Z.of_nat k + 1) (if need <? 512 then need else 512)) (Z.of_nat (length t))) in *. clearbody n.
      apply IH in E; [|lia|exact NF']. destruct E as (pre & E & L & Q). exists (firstn (Z.to_nat n) t ++ pre).
      rewrite <- app_assoc, <- E, firstn_skipn. split; [reflexivity|]. rewrite app_length, firstn_length. rewrite Nat.min_l by lia. lia.
    + apply (IH closed need s code r N NF' E).
    + injection E as <- <-. exists []. cbn. split; [reflexivity|]. assert (e <> 0) by (apply NF; left; reflexivity). lia.
  - injection E as <- <-. exists []. cbn. split; [reflexivity|]. lia.
Qed.
Print Assumptions C112_exact.

(** If all of the message is sent and recv does not fail, the message is dropped whole after at most as
    many reads as it has bytes, and the next header is read from the first byte behind it. *)
Theorem C112_next : forall ev closed payload next, steady ev -> (length payload <= given ev)%nat ->
  after_drop ev closed (Z.of_nat (length payload)) (payload ++ next) = Some next.
Proof.
  intros ev closed payload next. unfold after_drop. revert payload. induction ev as [|x ev IH]; intros p S G; cbn [skip].
  - destruct p; [reflexivity|cbn in G; lia].
  - assert (S' : steady ev) by (intros e H; apply (S e); right; exact H). destruct (Z.ltb_spec 0 (Z.of_nat (length p))) as [P|P]; [|destruct p; [reflexivity|cbn [length] in P; lia]].
    destruct x as [k| |e]; [|apply (IH p S' G)|destruct (S e); left; reflexivity]. cbn [given] in G.
    assert (NE : p ++ next <> []) by (destruct p; [cbn in P; lia|discriminate]). pose proof (cut k (Z.of_nat (length p)) (p ++ next) P NE) as C. cbv zeta in C.
    set (n := Z.min (Z.min (Z.of_nat k + 1) (if Z.of_nat (length p) <? 512 then Z.of_nat (length p) else 512)) (Z.of_nat (length (p ++ next)))) in *.
    assert (Q : skipn (Z.to_nat n) (p ++ next) = skipn (Z.to_nat n) p ++ next) by (rewrite skipn_app; replace (Z.to_nat n - length p)%nat with 0%nat by lia; reflexivity).
    specialize (IH (skipn (Z.to_nat n) p) S'). rewrite skipn_length in IH. rewrite <- Q in IH. replace (Z.of_nat (length p) - n) with (Z.of_nat (length p - Z.to_nat n)) by lia.
    destruct (p ++ next) as [|y t] eqn:E; [congruence|]. fold n. apply IH. lia.
Qed.
Print Assumptions C112_next.

(** A sender that closes in the middle of the message is noticed, and nothing is left. *)
Theorem C112_closed : forall ev need s, steady ev -> Z.of_nat (length s) < need -> (length s < given ev)%nat -> skip ev true need s = Some (ENOTCONN, []).
Proof.
  induction ev as [|x ev IH]; intros need s S L G; [cbn in G; lia|]. cbn [skip]. destruct (Z.ltb_spec 0 need); [|lia].
  assert (S' : steady ev) by (intros e H'; apply (S e); right; exact H'). destruct x as [k| |e]; [|apply IH; assumption|destruct (S e); left; reflexivity]. cbn [given] in G.
  destruct s as [|y s]; [reflexivity|]. remember (y :: s) as t eqn:Et. assert (NE : t <> []) by (subst; discriminate). pose proof (cut k need t ltac:(lia) NE) as C. cbv zeta in C.
  set (n := Z.min (Z.min (Z.of_nat k + 1) (if need <? 512 then need else 512)) (Z.of_nat (length t))) in *. clearbody n. cbv zeta.
  apply IH; [exact S'|rewrite skipn_length; lia|rewrite skipn_length; lia].
Qed.
Print Assumptions C112_closed.

(** A sender that says more than it sends and stays connected holds the router for ever: whatever recv
    does, short of failing, dropping the message does not end, and no other connection is looked at. *)
Theorem C112_wait_refuted : forall ev need s, steady ev -> Z.of_nat (length s) < need -> after_drop ev false need s = None.
Proof.
  intros ev need s S L. unfold after_drop. replace (skip ev false need s) with (@None (Z * list Z)); [reflexivity|]. symmetry. revert need s S L.
  induction ev as [|x ev IH]; intros need s S L; cbn [skip]; destruct (Z.ltb_spec 0 need); try lia; [reflexivity|].
  assert (S' : steady ev) by (intros e H'; apply (S e); right; exact H'). destruct x as [k| |e]; [|apply IH; assumption|destruct (S e); left; reflexivity].
  destruct s as [|y s]; [reflexivity|]. remember (y :: s) as t eqn:Et. assert (NE : t <> []) by (subst; discriminate). pose proof (cut k need t ltac:(lia) NE) as C. cbv zeta in C |- *.
  set (n := Z.min (Z.min (Z.of_nat k + 1) (if need <? 512 then need else 512)) (Z.of_nat (length t))) in *. clearbody n.
  apply IH; [exact S'|rewrite skipn_length; lia].
Qed.
Print Assumptions C112_wait_refuted.

(** When recv fails, for want of memory for one, the code is not looked at, and what is left of the
    message, here all of it, is read as the next message. *)
Theorem C112_failed_refuted : forall e ev closed payload next, payload <> [] ->
  after_drop (Fails e :: ev) closed (Z.of_nat (length payload)) (payload ++ next) = Some (payload ++ next) /\ payload ++ next <> next.
Proof.
  intros e ev closed p next NE. split.
  - unfold after_drop. cbn [skip]. destruct (Z.ltb_spec 0 (Z.of_nat (length p))) as [P|P]; [reflexivity|]. destruct p; [congruence|cbn [length] in P; lia].
  - intros E. apply (f_equal (@length Z)) in E. rewrite app_length in E. destruct p; [congruence|cbn [length] in E; lia].
Qed.
Print Assumptions C112_failed_refuted.

(** A message of three bytes in two pieces with an interruption, another message behind it; one cut
    short by closing; one cut short without. *)
Example C112_witness :
  steady [Gives 1; Interrupts; Gives 5; Gives 0] /\
  after_drop [Gives 1; Interrupts; Gives 5; Gives 0] false 3 [1; 2; 3; 9; 9] = Some [9; 9] /\
  skip [Gives 1; Gives 5] true 3 [1; 2] = Some (ENOTCONN, []) /\ after_drop [Gives 1; Gives 5] false 3 [1; 2] = None.
Proof. split; [intros e [H|[H|[H|[H|[]]]]]; discriminate|repeat split; reflexivity]. Qed.
