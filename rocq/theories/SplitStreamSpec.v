(** Vocabulary: the events of a thread of the split servers, message by message. *)
From Verif Require Import Base BaseFacts Json JsonText Utf8 Auth Message WireSpec History Comm Tree Kernel KernelSpec KernelLemmas Server Split SplitSpec SequentialSpec.

Section Segments.
  Context {U : Type} (E : env U).
  (** [aborted ws evs]: [evs] are the error replies to the messages [ws], in order, one for each
      accepted one, each addressed to its own sender. *)
  Inductive aborted : list frames -> list event -> Prop :=
  | ad_nil : aborted [] []
  | ad_skip w ws evs : rejected E w -> aborted ws evs -> aborted (w :: ws) evs
  | ad_reply w ws evs m ty rty r f id :
      accepted E w m -> typed (m_header (m_base m)) ty -> abort_type ty rty ->
      header_with (m_header (m_base r)) id rty (e_user_name E) (e_session_id E) ->
      m_ids r = m_ids m -> m_parent_header (m_base r) = m_header (m_base m) ->
      m_metadata (m_base r) = JObj [] -> m_content (m_base r) = JObj [("status", JStr "error")] -> m_buffers (m_base r) = [] ->
      serialize (e_crypto E) (e_auth E) (e_eh E) r = Ok f ->
      aborted ws evs -> aborted (w :: ws) (ESend SHELL r f :: evs).
  (** [segment c w l evs ok]: what thread [c] has done since its listener was called with [w]: it took
      the messages [l] from the shell socket, and [evs] are its events; [ok]: the call has ended. The
      events are the busy status, events that are neither a status nor a reply, the reply, the error
      replies to the messages taken (only by an execute request; the last one taken may be without
      answer), the idle status. *)
  Inductive segment (c : channel) (w : frames) : list frames -> list event -> bool -> Prop :=
  | sg_start : segment c w [] [] false
  | sg_rejected : rejected E w -> segment c w [] [] true
  | sg_work m busy mid : accepted E w m ->
      status_event E "busy" c (m_header (m_base m)) busy -> well_sent E busy -> Forall (inner E c m) mid ->
      segment c w [] (busy :: mid) false
  | sg_reply m ty busy mid rep ab ws l : accepted E w m -> typed (m_header (m_base m)) ty ->
      status_event E "busy" c (m_header (m_base m)) busy -> well_sent E busy -> Forall (inner E c m) mid ->
      well_sent E rep -> routed E c (m_ids m) (m_header (m_base m)) ty rep ->
      aborted ws ab -> (l = ws \/ exists x, l = (ws ++ [x])%list) -> (l <> [] -> ty = "execute_request") ->
      segment c w l (busy :: mid ++ rep :: ab) false
  | sg_done m ty l evs idle : segment c w l evs false -> evs <> [] ->
      accepted E w m -> typed (m_header (m_base m)) ty ->
      status_event E "idle" c (m_header (m_base m)) idle -> well_sent E idle ->
      segment c w l (evs ++ [idle]) true.
  (** The events of the shell thread during an internal request. *)
  Definition aside (e : event) : Prop := well_sent E e /\ ~ is_status e /\ ~ is_send e /\
    match e with
    | EPublish _ p _ => exists id ty, header_with (m_header (m_pbase p)) id ty (e_user_name E) (e_session_id E)
    | _ => True
    end.
End Segments.
(** The messages thread [c] took: those given to its listener, and those it aborted. *)
Definition received_by (c : channel) (ls : list slabel) : list (channel * frames) :=
  flat_map (fun l => match l with
                     | YHand c' w => if chan_eqb c c' then [(c, w)] else []
                     | YTook c' w => if chan_eqb c c' then [(SHELL, w)] else []
                     | _ => []
                     end) ls.
(** The events of both threads, in order. *)
Definition occurred (ls : list slabel) : list event :=
  flat_map (fun l => match l with YEvent _ e => [e] | _ => [] end) ls.
