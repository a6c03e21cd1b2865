(** What the loggers see of the messages that leave and enter the kernel: C98. *)
From Verif Require Import Base Json JsonText Utf8 Auth Message WireSpec History Comm Logger HostSpec Tree Kernel KernelSpec LogSpec.

(** The text of a channel in the log; [None]: stdin. *)
Definition channel_name (c : option channel) : string := match c with None => "stdin" | Some SHELL => "shell" | Some CONTROL => "control" end.
Definition shown_id (ids : list string) : string := match ids with id :: _ => if is_utf8_valid id then id else "invalid UTF8" | [] => "" end.
(** [es]: one entry of each logger of the chain, in order, for the message with base [b]. *)
Definition entries (lg : logger) (info : string) (b : xbase) (es : list entry) : Prop :=
  Forall2 (fun at_ e => exists t, type_of (m_header b) t /\ logged info t (m_header b) (m_parent_header b) (m_metadata b) (m_content b) at_ e) (chain lg) es.

Section Vetted.
  Context {U : Type} (E : env U).
  (** The logger was given the message that leaves, and did not object. *)
  Definition consented (e : event) : Prop :=
    match e with
    | EPublish _ m _ => e_logger E (LIopub m) = Ok tt
    | ESend c m _ => e_logger E (LSent m (Some c)) = Ok tt
    | EStdin m _ => e_logger E (LSent m None) = Ok tt
    | _ => True
    end.
  Definition vetted (o : kop U) : Prop := match o with KEmit e => consented e | _ => True end.
End Vetted.

(** What a chain of loggers writes about a message that leaves: one entry each, with the channel and the first identity or the topic. *)
Definition written (lg : logger) (e : event) : Prop :=
  match e with
  | EPublish _ m _ => entries lg ("XEUS: sent message on iopub - " +++ m_topic m) (m_pbase m) (fst (chain_call lg (LIopub m)))
  | ESend c m _ => entries lg ("XEUS: sent message on " +++ channel_name (Some c) +++ " - " +++ shown_id (m_ids m)) (m_base m) (fst (chain_call lg (LSent m (Some c))))
  | EStdin m _ => entries lg ("XEUS: sent message on stdin - " +++ shown_id (m_ids m)) (m_base m) (fst (chain_call lg (LSent m None)))
  | _ => True
  end.
(** The same for a message that came in on a channel. *)
Definition written_in (lg : logger) (c : option channel) (m : xmessage) : Prop :=
  entries lg ("XEUS: received message on " +++ channel_name c +++ " - " +++ shown_id (m_ids m)) (m_base m) (fst (chain_call lg (LReceived m c))).
