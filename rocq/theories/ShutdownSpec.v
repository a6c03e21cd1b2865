(** Shutdown requests (C110). *)
From Verif Require Import Base Json Message WireSpec Comm Tree Kernel KernelSpec HistoryProofs.

(** The message tells a kernel to shut down: its content is an object, and "restart", if given, is a boolean. *)
Definition says_stop (q : xmessage) : Prop :=
  typed (m_header (m_base q)) "shutdown_request" /\ exists f again, m_content (m_base q) = JObj f /\ bool_field f "restart" false again.
(** One of the messages, accepted by the kernel, tells it to. *)
Definition told_to_stop {U} (E : env U) (ws : list (channel * frames)) : Prop :=
  exists c w q, In (c, w) ws /\ accepted E w q /\ says_stop q.
