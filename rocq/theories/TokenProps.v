(** C21: matching of event names. *)
From Coq Require Import String.
From Verif Require Import Common TextModel TokenModel TokenSpec TokenProofs.
Local Open Scope string_scope.
Local Open Scope list_scope.
Local Open Scope Z_scope.

(** For every name made of well-formed segments, with or without a final dot, every
    registration and every element: the answer is the one of the naming rule.  What is
    missing: rows without an alias that are compared with one, one-letter names and
    malformed names, see below. *)
Theorem C21_match_partial : forall l reg inst name,
  l <> [] -> (forall q, In q l -> wf q = true) -> fits l reg = true -> aliased l inst = true ->
  (name = render l /\ (2 <= length name)%nat \/ name = render l ++ bs ".") ->
  event_matches name reg inst = Ok (matches l reg inst).
Proof. exact event_matches_ok. Qed.
Print Assumptions C21_match_partial.

Definition obj (s : string) := mkNode (bs s) None 0.
Definition prop (s : string) := mkNode (bs s) None 1.
Definition tbl (s : string) := mkNode (bs s) None TABLE.
Definition row (s : string) (a : option string) := mkNode (bs s) (option_map bs a) 0.
Definition reg := [prop "Sig"; row "{i}" None; tbl "Dev"; obj "Wifi"].

(** A row without an alias matches every alias. *)
Theorem C21_no_alias_refuted :
  event_matches (bs "Wifi.Dev.[ap1].Sig") reg [prop "Sig"; row "7" None; tbl "Dev"; obj "Wifi"] = Ok true /\
  matches [SName (bs "Sig"); SAlias (bs "ap1"); SName (bs "Dev"); SName (bs "Wifi")] reg [prop "Sig"; row "7" None; tbl "Dev"; obj "Wifi"] = false.
Proof. split; reflexivity. Qed.
Print Assumptions C21_no_alias_refuted.

(** With the alias in the last segment the answer depends on an uninitialised variable. *)
Theorem C21_uninitialised_refuted :
  event_matches (bs "Wifi.Dev.[ap1]") [row "{i}" None; tbl "Dev"; obj "Wifi"] [row "7" None; tbl "Dev"; obj "Wifi"] = UB.
Proof. reflexivity. Qed.
Print Assumptions C21_uninitialised_refuted.

(** The element with a one-letter name does not match its own name. *)
Theorem C21_one_letter_refuted : event_matches (bs "A") [prop "A"] [prop "A"] = Ok false /\
  matches [SName (bs "A")] [prop "A"] [prop "A"] = true.
Proof. split; reflexivity. Qed.
Print Assumptions C21_one_letter_refuted.

(** A missing bracket is looked for beyond the segment: a malformed name is accepted, and a
    name that ends in an open bracket is read past its end. *)
Theorem C21_malformed_refuted :
  event_matches (bs "Wifi.Dev.[ap1.Sig]") reg [prop "Sig"; row "7" (Some "ap1"); tbl "Dev"; obj "Wifi"] = Ok true /\
  create (bs "Wifi.Dev.[") [row "{i}" None; tbl "Dev"; obj "Wifi"] = UB.
Proof. split; reflexivity. Qed.
Print Assumptions C21_malformed_refuted.

(** A name that starts with a dot is accepted, and releasing its chain frees a pointer that
    was never allocated. *)
Theorem C21_leading_dot_refuted : exists c, create (bs ".Wifi.Dev") [tbl "Dev"; obj "Wifi"] = Ok c /\ destroy c = UB.
Proof. eexists. split; reflexivity. Qed.
Print Assumptions C21_leading_dot_refuted.

Definition name1 := [SName (bs "Sig"); SAlias (bs "ap1"); SName (bs "Dev"); SName (bs "Wifi")].
Definition name2 := [SName (bs "Sig"); SNum (bs "7"); SName (bs "Dev"); SName (bs "Wifi")].
Definition name3 := [SName (bs "Sig"); SAny; SName (bs "Dev"); SName (bs "Wifi")].
Definition inst := [prop "Sig"; row "7" (Some "ap1"); tbl "Dev"; obj "Wifi"].
Example C21_witness :
  forallb wf name1 = true /\ forallb wf name2 = true /\ forallb wf name3 = true /\
  fits name1 reg = true /\ fits name2 reg = true /\ fits name3 reg = true /\
  aliased name1 inst = true /\ render name1 = bs "Wifi.Dev.[ap1].Sig" /\
  matches name1 reg inst = true /\ matches name2 reg inst = true /\ matches name3 reg inst = true /\
  matches name2 reg [prop "Sig"; row "8" (Some "ap1"); tbl "Dev"; obj "Wifi"] = false /\
  matches name1 reg [prop "Sig"; row "7" (Some "ap2"); tbl "Dev"; obj "Wifi"] = false.
Proof. repeat split. Qed.
