(** Vocabulary: the start of the split servers. *)
From Verif Require Import Base Json Message Comm Tree Kernel Server Split Startup.

(** The steps of the threads. *)
Definition thread_steps (ls : list zlabel) : list slabel := flat_map (fun l => match l with ZStep l => [l] | _ => [] end) ls.
(** What is published, in order, with the start message. *)
Definition announced (ls : list zlabel) : list frames :=
  flat_map (fun l => match l with ZStart w => [w] | ZStep (YEvent _ (EPublish _ _ w)) => [w] | _ => [] end) ls.
(** All events are events of the thread that was created. *)
Definition only_other (v : variant) (ls : list zlabel) : Prop :=
  forall c e, In (ZStep (YEvent c e)) ls -> chan_tid c = other v.
(** The same process up to the state of the publisher thread. *)
Definition same_but_publisher {U} (s t : ysys U) : Prop :=
  y_sh s = y_sh t /\ y_ct s = y_ct t /\ y_stopped s = y_stopped t /\ y_end s = y_end t /\
  m_k (y_mem s) = m_k (y_mem t) /\ m_ctlq (y_mem s) = m_ctlq (y_mem t) /\ m_shellq (y_mem s) = m_shellq (y_mem t) /\
  m_stdin (y_mem s) = m_stdin (y_mem t) /\ m_stop (y_mem s) = m_stop (y_mem t) /\ m_hb (y_mem s) = m_hb (y_mem t) /\ m_call (y_mem s) = m_call (y_mem t) /\
  List.length (f_out (m_pub (y_mem s))) = List.length (f_out (m_pub (y_mem t))) /\ f_ctl (m_pub (y_mem s)) = f_ctl (m_pub (y_mem t)).
