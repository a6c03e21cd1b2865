(** Vocabulary: the iopub socket as a subscriber sees it. *)
From Verif Require Import Base BaseFacts Json JsonText Utf8 Auth Message WireSpec History Comm Tree Kernel KernelSpec Server ServerSpec SequentialSpec.

Section Heard.
  Context {U : Type} (E : env U).
  (** The frames [f] of a publication begin with the header [h]. *)
  Definition heads (f : frames) (h : json) : Prop :=
    exists topic sg th rest, f = topic :: DELIMITER :: sg :: th :: rest /\ parse th = Ok h.
  (** What a subscriber reads from the frames [f]: a signature that it finds valid, the header [h], the
      parent header [ph] and the text [tc] of the content. *)
  Definition hears (f : frames) (h ph : json) (tc : string) : Prop :=
    exists topic sg th tp tm bufs, f = topic :: DELIMITER :: sg :: th :: tp :: tm :: tc :: bufs /\
      verify (e_crypto E) (e_auth E) sg th tp tm tc = Ok true /\ parse th = Ok h /\ parse tp = Ok ph.
  (** A status with this parent header. *)
  Definition status_heard (state : string) (ph : json) (f : frames) : Prop :=
    exists h id tc, hears f h ph tc /\ header_with h id "status" (e_user_name E) (e_session_id E) /\
      parse tc = Ok (JObj [("execution_state", JStr state)]).
  Definition no_status (f : frames) : Prop := forall h, heads f h -> jfield "msg_type" h <> Some (JStr "status").
  (** A publication with this parent header. *)
  Definition belongs (ph : json) (f : frames) : Prop :=
    exists h id ty tc, hears f h ph tc /\ header_with h id ty (e_user_name E) (e_session_id E).
  (** The notice of a shutdown or of an interrupt: it has the header of a control message. *)
  Definition notice (f : frames) : Prop :=
    exists h ty, heads f h /\ jfield "msg_type" h = Some (JStr ty) /\ (ty = "shutdown" \/ ty = "interrupt").
  (** What is published for a message of channel [c] with the header [ph]: busy, then publications that
      are not statuses, for a shell message with its header as parent header; in the end ([true]) idle. *)
  Inductive said (c : channel) (ph : json) : list frames -> bool -> Prop :=
  | said_part busy mid : status_heard "busy" ph busy -> Forall no_status mid ->
      (c = SHELL -> Forall (fun f => belongs ph f \/ notice f) mid) -> said c ph (busy :: mid) false
  | said_done b idle : said c ph b false -> status_heard "idle" ph idle -> said c ph (b ++ [idle]) true.
  (** The messages among [ws] that are accepted. *)
  Inductive understood : list (channel * frames) -> list (channel * xmessage) -> Prop :=
  | un_nil : understood [] []
  | un_skip c w ws ms : rejected E w -> understood ws ms -> understood ((c, w) :: ws) ms
  | un_take c w m ws ms : accepted E w m -> understood ws ms -> understood ((c, w) :: ws) ((c, m) :: ms).
End Heard.
(** The part [b] occurs in [l]. *)
Definition contains {A} (b l : list A) : Prop := exists x y, l = (x ++ b ++ y)%list.
