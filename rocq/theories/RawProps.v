(** C100: raw data subscriptions beside direct connections. *)
From Coq Require Import String.
From Verif Require Import Common Bytes TextModel Errors RawModel RawSpec RawProofs.
From Coq Require Import List ZArith Bool Lia.
Import ListNotations.
Local Open Scope string_scope.
Local Open Scope list_scope.
Local Open Scope Z_scope.

(** With one provider, whatever is subscribed, withdrawn, connected directly, disconnected and published,
    and however the provider answers, every call returns what the list of subscriptions says, every
    published event runs the handler subscribed to it exactly once and nothing else, on whichever
    connection it comes, and no freed memory is used. *)
Theorem C100_raw_partial : forall (home : name -> nat) (p : nat) (l : list op),
  proper nothing l -> (forall e, home e = p) -> 3 + Z.of_nat (length l) < 2 ^ 32 -> exists s, run home init l = Ok (s, ideal_run nothing l).
Proof. exact raw_thm. Qed.
Print Assumptions C100_raw_partial.

Local Notation A := (bs "Device.A!").
Local Notation B := (bs "Device.B!").
Lemma plain_A : plain A.
Proof. unfold plain. split; [cbn; lia|]. split; [cbn; lia|vm_compute; discriminate]. Qed.
Lemma plain_B : plain B.
Proof. unfold plain. split; [cbn; lia|]. split; [cbn; lia|vm_compute; discriminate]. Qed.
Example C100_witness :
  let l := [Subscribe A 7 Accept; Subscribe B 8 Accept; Publish A Accept; OpenDirect A; Publish A Accept; Publish B Accept; OpenDirect B; Unsubscribe B NoProvider; Publish B Accept;
            Unsubscribe A (Refuse 5); CloseDirect A; Publish A Accept; Subscribe A 9 NoProvider; Subscribe B 6 Accept; Publish B Accept; Subscribe B 5 Accept] in
  proper nothing l /\ (forall e : name, (fun _ => 4%nat) e = 4%nat) /\ 3 + Z.of_nat (length l) < 2 ^ 32 /\
  ideal_run nothing l = [[Code 0]; [Code 0]; [Ran 7 A]; [Code 0]; [Ran 7 A]; [Ran 8 B]; [Code 0]; [Code 0]; []; [Code 0]; [Code 0]; []; [Code E_TIMEOUT]; [Code 0]; [Ran 6 B]; [Code E_SUBSCRIPTION_ALREADY_EXIST]].
Proof.
  intros l. split; [|split; [reflexivity|split; [vm_compute; reflexivity|vm_compute; reflexivity]]].
  unfold l. cbn [proper proper_step]. repeat match goal with |- _ /\ _ => split | |- plain A => apply plain_A | |- plain B => apply plain_B end; try exact Logic.I; try (vm_compute; lia); try (vm_compute; reflexivity); try (vm_compute; intros; discriminate); vm_compute; auto.
Qed.

Definition two (e : name) : nat := if bytes_eqb e B then 1%nat else 0%nat.
Definition outs (home : name -> nat) (l : list op) : option (list (list effect)) := match run home init l with Ok (_, r) => Some r | _ => None end.

(** With two providers: each numbers its subscriptions from 3 on, and the consumer tells the listeners of
    its broker connection apart by that number alone, so an event of one provider runs the handler
    subscribed to the other's. *)
Theorem C100_two_refuted : exists (home : name -> nat) (l : list op), proper nothing l /\ outs home l = Some [[Code 0]; [Code 0]; [Ran 7 A]; [Ran 7 B]] /\
  ideal_run nothing l = [[Code 0]; [Code 0]; [Ran 7 A]; [Ran 8 B]].
Proof.
  exists two, [Subscribe A 7 Accept; Subscribe B 8 Accept; Publish A Accept; Publish B Accept]. split; [|split; vm_compute; reflexivity].
  cbn [proper proper_step]. repeat match goal with |- _ /\ _ => split | |- plain A => apply plain_A | |- plain B => apply plain_B end; try exact Logic.I; vm_compute; lia.
Qed.
Print Assumptions C100_two_refuted.

(** ... and withdrawing the subscription at one provider silences the one at the other. *)
Theorem C100_silenced_refuted : exists (home : name -> nat) (l : list op), proper nothing l /\ outs home l = Some [[Code 0]; [Code 0]; [Ran 7 A]; [Code 0]; []] /\
  ideal_run nothing l = [[Code 0]; [Code 0]; [Ran 7 A]; [Code 0]; [Ran 7 A]].
Proof.
  exists two, [Subscribe A 7 Accept; Subscribe B 8 Accept; Publish A Accept; Unsubscribe B Accept; Publish A Accept]. split; [|split; vm_compute; reflexivity].
  cbn [proper proper_step]. repeat match goal with |- _ /\ _ => split | |- plain A => apply plain_A | |- plain B => apply plain_B end; try exact Logic.I; try (vm_compute; lia); vm_compute; intros; discriminate.
Qed.
Print Assumptions C100_silenced_refuted.

(** Closing a direct connection while the subscription goes on: the listener moves back to the broker with
    the handle of the direct connection, which is freed at once; the next event uses it. *)
Theorem C100_closed_refuted : exists (p : nat) (l : list op), run (fun _ => p) init l = UB /\ ideal_run nothing l = [[Code 0]; [Code 0]; [Code 0]; [Ran 7 A]].
Proof. exists 0%nat, [Subscribe A 7 Accept; OpenDirect A; CloseDirect A; Publish A Accept]. split; vm_compute; reflexivity. Qed.
Print Assumptions C100_closed_refuted.

(** A subscription withdrawn while the provider is away gets a listener again when its direct connection
    is opened, and its handler runs. *)
Theorem C100_withdrawn_refuted : exists (p : nat) (l : list op), outs (fun _ => p) l = Some [[Code 0]; [Code 0]; [Code 0]; [Ran 7 A]] /\ ideal_run nothing l = [[Code 0]; [Code 0]; [Code 0]; []].
Proof. exists 0%nat, [Subscribe A 7 Accept; Unsubscribe A NoProvider; OpenDirect A; Publish A NoProvider]. split; vm_compute; reflexivity. Qed.
Print Assumptions C100_withdrawn_refuted.

(** A subscription withdrawn while the provider is away and refused when it is renewed counts as existing
    from then on: it cannot be renewed, and no event arrives. *)
Theorem C100_renewed_refuted : exists (p : nat) (l : list op),
  outs (fun _ => p) l = Some [[Code 0]; [Code 0]; [Code 2]; [Code E_SUBSCRIPTION_ALREADY_EXIST]; []] /\ ideal_run nothing l = [[Code 0]; [Code 0]; [Code 2]; [Code 0]; [Ran 7 A]].
Proof. exists 0%nat, [Subscribe A 7 Accept; Unsubscribe A NoProvider; Subscribe A 7 (Refuse 2); Subscribe A 7 Accept; Publish A Accept]. split; vm_compute; reflexivity. Qed.
Print Assumptions C100_renewed_refuted.

(** A provider that says it has the subscription already makes the consumer look at a field of the new
    entry that was never set. *)
Theorem C100_exists_refuted : exists (p : nat) (l : list op), run (fun _ => p) init l = UB /\ ideal_run nothing l = [[]].
Proof. exists 0%nat, [Subscribe A 7 Exists_]. split; vm_compute; reflexivity. Qed.
Print Assumptions C100_exists_refuted.

(** Withdrawing a subscription that the provider refuses to drop, with whatever error, is reported as a
    success. *)
Theorem C100_reported_refuted : forall (p : nat) (c : Z), outs (fun _ => p) [Subscribe A 7 Accept; Unsubscribe A (Refuse c)] = Some [[Code E_SUCCESS]; [Code E_SUCCESS]].
Proof. intros p c. vm_compute. reflexivity. Qed.
Print Assumptions C100_reported_refuted.
