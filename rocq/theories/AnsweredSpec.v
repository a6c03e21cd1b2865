(** Vocabulary: requests that are answered whatever came before them. *)
From Verif Require Import Base BaseFacts Json JsonText Utf8 Utf8Proofs Auth Message WireSpec History HistoryProofs Comm Tree Kernel KernelSpec KernelLemmas KernelExecProps KernelReplies Server ServerSpec SequentialSpec.

(** The history holds valid UTF-8. *)
Definition entry_utf8 (e : entry) : Prop := utf8_text (h_session e) /\ utf8_text (h_line e) /\ utf8_text (h_input e) /\ utf8_text (h_output e).
(** The headers stored are valid UTF-8, as is the history, and the counter can be incremented. *)
Definition sound {U} (s : kstate U) : Prop :=
  parents_utf8 s /\ Forall entry_utf8 (k_history s) /\ (k_count s < int_max)%Z.
(** [w] is a request that is well formed whatever came before it. *)
Definition answerable {U} (E : env U) (w : frames) : Prop :=
  exists m ty, accepted E w m /\ typed (m_header (m_base m)) ty /\
    forall s, sound s -> exists P, well_formed E s (m_header (m_base m)) ty (m_content (m_base m)) P.
(** The messages of an episode that came on the shell socket. *)
Definition from_shell (e : episode) : list frames := let '(c, w, l) := e in match c with SHELL => w :: l | CONTROL => l end.
(** The replies sent on the shell socket. *)
Definition shell_sends (evs : list event) : list event := filter (fun e => match e with ESend SHELL _ _ => true | _ => false end) evs.
