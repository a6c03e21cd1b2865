(** Vocabulary: what becomes of the publications of the default server's start. C97. *)
From Verif Require Import Base Json Message Comm Tree Kernel Server Join.

(** The publications, with the start message. *)
Definition given (ls : list jlabel) : list frames :=
  flat_map (fun l => match l with JStart w => [w] | JMain (Emitted (EPublish _ _ w)) => [w] | _ => [] end) ls.
(** Those after the subscription. *)
Fixpoint since_join (ls : list jlabel) : list frames :=
  match ls with [] => [] | JJoin :: r => given r | _ :: r => since_join r end.
(** What is seen of the threads other than the publisher. *)
Definition visible (l : label) : bool := match l with Tau => false | _ => true end.
Definition seen (ls : list jlabel) : list label :=
  flat_map (fun l => match l with JMain l | JEnv l => if visible l then [l] else [] | _ => [] end) ls.
(** The same process up to the publisher thread. *)
Definition same_but_pub {U} (s t : dsys U) : Prop :=
  d_pc s = d_pc t /\ m_k (d_mem s) = m_k (d_mem t) /\ m_ctlq (d_mem s) = m_ctlq (d_mem t) /\ m_shellq (d_mem s) = m_shellq (d_mem t) /\
  m_stdin (d_mem s) = m_stdin (d_mem t) /\ m_stop (d_mem s) = m_stop (d_mem t) /\ m_hb (d_mem s) = m_hb (d_mem t) /\
  f_ctl (m_pub (d_mem s)) = f_ctl (m_pub (d_mem t)).
