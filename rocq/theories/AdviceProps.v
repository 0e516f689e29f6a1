(** Properties of the notices that clients have gone: C103. *)
From Coq Require Import String.
From Verif Require Import Common CommonFacts RouteModel RouteSpec RouteLook RouterModel RouterSpec RouterProofs RouterProps AdviceModel AdviceSpec AdviceProofs.
From Coq Require Import Lia.
Local Open Scope string_scope.
Local Open Scope list_scope.
Local Open Scope Z_scope.

(** Whatever programs connect, listen to, open and close directly, however they end and are started
    again: each time one goes, every other connected program that holds a direct handle has its
    disconnect handler called once with that one's inbox, in the order they went, and nothing else
    ever calls a handler. *)
Theorem C103_told_partial : forall b0 l, start = Ok b0 -> apart l -> all_orderly nobody l ->
  exists w, run (init b0) l = Ok w /\ forall p, told (progs w p) = heard (history l p).
Proof.
  intros b0 l E AP OR. set (A := among (used l)). assert (TA : tidyP A) by (intros a b Ha Hb; apply (a_tidy _ AP); assumption).
  assert (AA : A (split ADVISORY)) by (unfold A, among, used; apply in_app_iff; right; left; reflexivity).
  assert (HB : forall n, In n builtin -> A (split n)) by (intros n H; unfold A, among, used; apply in_app_iff; left; apply in_map, H).
  destruct (run_ok A l (init b0) [] at_start nobody TA AA (init_good A b0 TA AA HB E)) as (w & W & v & R & G).
  - intros o H. apply apart_allowed; assumption.
  - exact OR.
  - exists w. split; [exact R|]. intros p. destruct (g_prog _ _ _ _ _ G p) as (_ & _ & _ & _ & _ & _ & _ & T & _). exact T.
Qed.
Print Assumptions C103_told_partial.

Definition in1 : list Z := bs "rbus.one.INBOX.11".
Definition in2 : list Z := bs "rbus.two.INBOX.22".
Definition in3 : list Z := bs "rbus.three.INBOX.33".
Definition tale : list op :=
  [Connect 1 in1; Listen 1 (bs "Provider.one") 10000; Listen 1 (bs "Device.Tab.{i}.X") 10000; Connect 2 in2; OpenDirect 2 true; Connect 3 in3; OpenDirect 3 true; OpenDirect 3 true;
   Die 1; Connect 1 in1; CloseDirect 2; Close 1; Close 2; Connect 2 in2; OpenDirect 2 true; CloseDirect 3; Die 3; Unlisten 2 (bs "Provider.two")].
Lemma tale_apart : apart tale.
Proof.
  constructor.
  - assert (AL : forallb (fun a => forallb (fun b => negb (clash a b)) (used tale)) (used tale) = true) by (vm_compute; reflexivity).
    intros a b Ha Hb. rewrite forallb_forall in AL. specialize (AL a Ha). rewrite forallb_forall in AL. apply negb_true_iff, AL. exact Hb.
  - assert (AL : forallb (fun e => Nat.leb (dots e) 31 && negb (double_dot e) && negb (serves (split ADVISORY) (split e))) (named tale) = true) by (vm_compute; reflexivity).
    intros e H. rewrite forallb_forall in AL. specialize (AL e H). apply andb_prop in AL as [AL A3]. apply andb_prop in AL as [A1 A2]. apply Nat.leb_le in A1. apply negb_true_iff in A2, A3. split; [split|]; assumption.
  - intros p i H. unfold tale in H. cbn [In] in H. repeat destruct H as [H|H]; try discriminate H; try (injection H as <- <-; vm_compute; reflexivity). destruct H.
  - intros p e id H. unfold tale in H. cbn [In] in H. repeat destruct H as [H|H]; try discriminate H; try (injection H as <- <- <-; discriminate). destruct H.
  - intros p e H. unfold tale in H. cbn [In] in H. repeat destruct H as [H|H]; try discriminate H; try (injection H as <- <-). 2: destruct H.
    split; [apply Nat.leb_le; vm_compute; reflexivity|]. split; [|vm_compute; reflexivity].
    assert (AL : forallb (fun a => negb (loose a (split (bs "Provider.two")))) (used tale) = true) by (vm_compute; reflexivity).
    intros a Ha. rewrite forallb_forall in AL. apply negb_true_iff, AL. exact Ha.
Qed.
Lemma tale_orderly : all_orderly nobody tale.
Proof. vm_compute. repeat split. Qed.
Example C103_witness : heard (history tale 1) = [] /\ heard (history tale 2) = [in1; in3] /\ heard (history tale 3) = [in1; in1; in2] /\
  match start with Ok b => match run (init b) tale with Ok w => (told (progs w 1), told (progs w 2), told (progs w 3)) | _ => ([], [], []) end | _ => ([], [], []) end = ([], [in1; in3], [in1; in1; in2]).
Proof. vm_compute. repeat split. Qed.

(** Registering elements and having subscribers does not make a program listen for the end of its
    consumers (that call is compiled out): whatever happens, a program that has opened no direct
    connection itself is told of nobody, so a provider keeps the subscriptions of consumers that
    have crashed. *)
Theorem C103_provider_refuted : forall b0 l w p, start = Ok b0 -> run (init b0) l = Ok w -> (forall room, ~ In (OpenDirect p room) l) -> told (progs w p) = [].
Proof. intros b0 l w p E R N. apply (run_deaf l (init b0) w p R N). split; reflexivity. Qed.
Print Assumptions C103_provider_refuted.
Definition ends (l : list op) (p : Z) : outcome unit (list (list Z) * Z * bool) :=
  do b <- start ; do w <- run (init b) l ; Ok (told (progs w p), direct (progs w p), is_some (conn (progs w p))).
Example C103_provider_witness : ends [Connect 1 in1; Listen 1 (bs "Provider.one") 10000; Listen 1 (bs "Device.Level") 10000; Connect 2 in2; Die 2] 1 = Ok ([], 0, true).
Proof. vm_compute. reflexivity. Qed.
(** Closing the program's handle while a direct handle is open leaves the count of direct handles
    and the mark of the listener behind: after the next rbus_open, direct connections do not bring
    the listener back. *)
Theorem C103_reopen_refuted : ends [Connect 1 in1; OpenDirect 1 true; Close 1; Connect 1 in1; OpenDirect 1 true; Connect 2 in2; Die 2] 1 = Ok ([], 1, true).
Proof. vm_compute. reflexivity. Qed.
Print Assumptions C103_reopen_refuted.
(** If there is no room for the listener when the first direct connection is opened, the failure is
    not reported, and later ones do not try again although there is room. *)
Theorem C103_full_refuted : ends [Connect 1 in1; OpenDirect 1 false; OpenDirect 1 true; Connect 2 in2; Die 2] 1 = Ok ([], 2, true).
Proof. vm_compute. reflexivity. Qed.
Print Assumptions C103_full_refuted.
