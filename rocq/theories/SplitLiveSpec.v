(** Vocabulary: what the split servers do in the long run. *)
From Verif Require Import Base Json JsonText Message Comm Tree Kernel KernelSpec Server Split SplitSpec.

(** What was observed before moment [n]. *)
Fixpoint seen (lab : nat -> option slabel) (n : nat) : list slabel :=
  match n with
  | 0 => []
  | S n => (seen lab n ++ match lab n with Some l => [l] | None => [] end)%list
  end.
(** A thread asked the server to stop. *)
Definition asked_stop (ls : list slabel) : Prop := exists c, In (YEvent c EStop) ls.
(** Thread [c] is about to receive a message from the stdin socket. *)
Definition at_stdin {U} (c : channel) (s : ysys U) : Prop :=
  match c with
  | SHELL => match y_sh s with SRun (Going (Do KStdin _)) _ | SIntern (Going (Do KStdin _)) => True | _ => False end
  | CONTROL => match y_ct s with CRun (Going (Do KStdin _)) => True | _ => False end
  end.
(** ... and does not stay there for ever. *)
Definition gets_input {U} (c : channel) (sigma : nat -> ysys U) : Prop := forall n, exists m, n <= m /\ ~ at_stdin c (sigma m).
(** The control thread never takes messages from the shell socket. *)
Definition keeps_off (lab : nat -> option slabel) : Prop := forall n w, lab n <> Some (YTook CONTROL w).
(** The control thread has told the publisher, or the heartbeat thread, to stop. *)
Definition told_publisher {U} (s : ysys U) : Prop :=
  match y_ct s with CWaitPub | CStopHb | CWaitHb | CNotify | COut | CEnd => True | _ => False end.
Definition told_heartbeat {U} (s : ysys U) : Prop :=
  match y_ct s with CWaitHb | CNotify | COut | CEnd => True | _ => False end.
