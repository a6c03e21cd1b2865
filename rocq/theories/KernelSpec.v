(** Vocabulary of the kernel properties. *)
From Verif Require Import Base BaseFacts Json JsonText Utf8 Utf8Proofs Auth Message WireSpec History HistoryProofs Comm Tree Kernel.

(** String field of a JSON object. *)
Definition sfield (k : string) (j : json) : option string :=
  match jfield k j with Some (JStr s) => Some s | _ => None end.

(** The message type of a published, resp. sent, message. *)
Definition pub_type (m : xpub) : option string := sfield "msg_type" (m_header (m_pbase m)).
Definition msg_type (m : xmessage) : option string := sfield "msg_type" (m_header (m_base m)).

(** A complete outgoing header: the six fields and nothing else. *)
Definition header_with (h : json) (id type user session : string) : Prop :=
  exists date m, h = JObj m /\ List.map fst m = ["date"; "msg_id"; "msg_type"; "session"; "username"; "version"] /\
    jfield "msg_id" h = Some (JStr id) /\ jfield "msg_type" h = Some (JStr type) /\
    jfield "username" h = Some (JStr user) /\ jfield "session" h = Some (JStr session) /\
    jfield "version" h = Some (JStr "5.3") /\ jfield "date" h = Some (JStr date).

(** The fields of an execute request. An integer field may be any JSON value the library converts
    to an int. *)
Record xparams := { x_code : string; x_silent : bool; x_store : bool; x_count : Z; x_ue : json; x_stdin : bool; x_stop : bool }.
Definition num_field (m : list (string * json)) (k : string) (d v : Z) : Prop :=
  (mfind k m = None /\ v = d) \/ exists j, mfind k m = Some j /\ get_int j = Ok v.
Definition any_field (m : list (string * json)) (k : string) (d v : json) : Prop :=
  (mfind k m = None /\ v = d) \/ mfind k m = Some v.
(** [exec_params content p]: the content of an execute request is well formed and denotes [p]. *)
Definition exec_params (content : json) (p : xparams) : Prop :=
  exists m, content = JObj m /\
    str_field m "code" "" (x_code p) /\ bool_field m "silent" false (x_silent p) /\
    bool_field m "store_history" true (x_store p) /\ num_field m "execution_count" 1 (x_count p) /\
    any_field m "user_expressions" (JObj []) (x_ue p) /\ bool_field m "allow_stdin" true (x_stdin p) /\
    bool_field m "stop_on_error" false (x_stop p).
(** What is stored in the history. *)
Definition stores (p : xparams) : bool := x_store p && negb (x_silent p).

(** The type of the reply to an aborted request: the last underscore and the seven characters that
    follow it are replaced. *)
Definition no_underscore (s : string) : Prop := forall a b, s <> a +++ "_" +++ b.
Definition abort_type (ty rty : string) : Prop :=
  exists x y z, ty = x +++ "_" +++ y +++ z /\ no_underscore (y +++ z) /\
    (slen y = 7 \/ (slen y < 7 /\ z = "")) /\ rty = x +++ "_reply" +++ z.

(** The reply type of a handled request type. *)
Definition reply_name (ty rty : string) : Prop := exists x, ty = x +++ "_request" /\ rty = x +++ "_reply".

(** The header of an emitted message. *)
Definition emitted (e : event) : option json :=
  match e with
  | EPublish _ m _ => Some (m_header (m_pbase m))
  | ESend _ m _ | EStdin m _ => Some (m_header (m_base m))
  | _ => None
  end.

Section Spec.
  Context {U : Type} (E : env U).

  (** The frames of an event are the serialization of its message under the kernel's key. *)
  Definition well_sent (e : event) : Prop :=
    match e with
    | EPublish _ m w => pub_serialize (e_crypto E) (e_auth E) (e_eh E) m = Ok w
    | ESend _ m w | EStdin m w => serialize (e_crypto E) (e_auth E) (e_eh E) m = Ok w
    | _ => True
    end.

  (** [numbered lo evs hi]: the messages among [evs] have complete headers whose ids are generated
      identifiers with strictly increasing numbers in [lo, hi). *)
  Inductive numbered : nat -> list event -> nat -> Prop :=
  | num_nil lo hi : lo <= hi -> numbered lo [] hi
  | num_msg lo n e h ty evs hi :
      lo <= n -> emitted e = Some h ->
      header_with h (e_guid E n) ty (e_user_name E) (e_session_id E) ->
      numbered (S n) evs hi -> numbered lo (e :: evs) hi
  | num_other lo e evs hi : emitted e = None -> numbered lo evs hi -> numbered lo (e :: evs) hi.

  (** The strings the kernel puts in headers are valid UTF-8. *)
  Definition env_utf8 : Prop :=
    utf8_text (e_user_name E) /\ utf8_text (e_session_id E) /\
    (forall n, utf8_text (e_guid E n)) /\ (forall n, utf8_text (e_now E n)).
  (** The logger does nothing (the default, xlogger_nolog). *)
  Definition quiet : Prop := forall l, e_logger E l = Ok tt.

  (** Accepted by the authentication and parsed. *)
  Definition accepted (w : frames) (m : xmessage) : Prop := deserialize (e_crypto E) (e_auth E) w = Ok m.
  Definition rejected (w : frames) : Prop := exists what, deserialize (e_crypto E) (e_auth E) w = Exn (Std what).

  (** Deserialization of the frames has undefined behaviour (too few frames; see C03). *)
  Definition fatal (w : frames) : Prop := is_ub (deserialize (e_crypto E) (e_auth E) w) = true.

  (** Header of a request: an object whose msg_type is absent (then "") or a string. *)
  Definition typed (h : json) (ty : string) : Prop :=
    exists m, h = JObj m /\
      match mfind "msg_type" m with None => ty = "" | Some j => j = JStr ty end.

  (** Aborting requests: [aborts lo ws evs hi] - [evs] are the error replies to the requests [ws], in
      order, one for each accepted one, addressed to its own sender; identifiers in [lo, hi). *)
  Inductive aborts : nat -> list frames -> list event -> nat -> Prop :=
  | ab_nil lo hi : lo <= hi -> aborts lo [] [] hi
  | ab_skip lo w ws evs hi : rejected w -> aborts lo ws evs hi -> aborts lo (w :: ws) evs hi
  | ab_reply lo n w ws evs hi m ty rty r f :
      accepted w m -> typed (m_header (m_base m)) ty -> abort_type ty rty -> lo <= n ->
      header_with (m_header (m_base r)) (e_guid E n) rty (e_user_name E) (e_session_id E) ->
      m_ids r = m_ids m -> m_parent_header (m_base r) = m_header (m_base m) ->
      m_metadata (m_base r) = JObj [] -> m_content (m_base r) = JObj [("status", JStr "error")] -> m_buffers (m_base r) = [] ->
      serialize (e_crypto E) (e_auth E) (e_eh E) r = Ok f ->
      aborts (S n) ws evs hi -> aborts lo (w :: ws) (ESend SHELL r f :: evs) hi.
  (** A message that can be aborted: rejected, or of type x_y with y of at most 7 characters and
      without underscore (all request types of the protocol have this form). *)
  Definition abortable (w : frames) : Prop :=
    rejected w \/ exists m x y, accepted w m /\ typed (m_header (m_base m)) (x +++ "_" +++ y) /\ no_underscore y /\ slen y <= 7.

  (** A status message. *)
  Definition status_event (state : string) (c : channel) (parent : json) (e : event) : Prop :=
    exists m w id, e = EPublish c m w /\
      header_with (m_header (m_pbase m)) id "status" (e_user_name E) (e_session_id E) /\
      m_topic m = "kernel_core." +++ e_kernel_id E +++ ".status" /\
      m_parent_header (m_pbase m) = parent /\ m_metadata (m_pbase m) = JObj [] /\
      m_content (m_pbase m) = JObj [("execution_state", JStr state)] /\ m_buffers (m_pbase m) = [].

  (** A reply routed to the requester. *)
  Definition routed (c : channel) (ids : list string) (h : json) (ty : string) (e : event) : Prop :=
    exists r w id rty, e = ESend c r w /\ reply_name ty rty /\ m_ids r = ids /\ m_parent_header (m_base r) = h /\
      header_with (m_header (m_base r)) id rty (e_user_name E) (e_session_id E) /\ m_buffers (m_base r) = [].
End Spec.

(** The receives found [ws] and then nothing. *)
Definition drained (q : list (option frames)) (ws : list frames) (q' : list (option frames)) : Prop :=
  q = (List.map Some ws ++ None :: q')%list \/ (q = List.map Some ws /\ q' = []).
(** The pending shell messages [ws] were taken from the queue. *)
Definition taken (q : list (option frames)) (ws : list frames) (q' : list (option frames)) : Prop :=
  (q' = q /\ ws = []) \/ drained q ws q' \/ exists w, q = (List.map Some ws ++ Some w :: q')%list.


(** The message type an operation of user code publishes. *)
Definition op_type {U} (o : uop0 U) : option string :=
  match o with
  | AStream _ _ => Some "stream"
  | ADisplay _ _ _ => Some "display_data"
  | AUpdateDisplay _ _ _ => Some "update_display_data"
  | AExecInput _ _ => Some "execute_input"
  | AExecResult _ _ _ => Some "execute_result"
  | AExecError _ _ _ => Some "error"
  | AClear _ => Some "clear_output"
  | AOpen _ _ _ _ => Some "comm_open"
  | AClose _ _ _ _ => Some "comm_close"
  | ASendComm _ _ _ _ => Some "comm_msg"
  | ATargetPublish _ ty _ _ _ => Some ty
  | _ => None
  end.
(** User code that publishes only messages of the types [raw]. *)
Definition op_allowed0 {U} (raw : string -> Prop) (o : uop0 U) : Prop :=
  match op_type o with Some ty => raw ty | None => True end.
Definition op_allowed {U} (raw : string -> Prop) (o : uop1 U) : Prop :=
  match o with AOp o => op_allowed0 raw o | _ => True end.
(** The same for the debugger. *)
Definition up2 {U} (P1 : uop1 U -> Prop) (o : uop2 U) : Prop := match o with AOp1 o => P1 o | ASendToShell _ => True end.
(** All user code of the environment uses only operations satisfying [P1] (input handlers: [P0];
    the debugger may also call the interpreter). *)
Record user_always {U} (E : env U) (P0 : uop0 U -> Prop) (P1 : uop1 U -> Prop) : Prop := {
  ua_configure : always P1 (e_configure E);
  ua_interp : forall r, always P1 (e_interp E r);
  ua_debugger : match e_debugger E with Some d => forall h t, always (up2 P1) (d h t) | None => True end;
  ua_callback : forall n a m, always P1 (e_callback E n a m);
  ua_handler : forall n m, always P1 (e_handler E n m);
  ua_input : forall n v, always P0 (e_input E n v)
}.
Definition user_publishes {U} (E : env U) (raw : string -> Prop) : Prop := user_always E (op_allowed0 raw) (op_allowed raw).

(** ** Events of a handler before its reply *)
Definition kernel_types : list string := ["execute_input"; "shutdown"; "interrupt"].
(** What is published with the header of the last control message. *)
Definition control_types : list string := ["shutdown"; "interrupt"].
(** Events before the reply: no reply; publications have the parent header of their channel. *)
Definition pre_event {U} (E : env U) (raw : string -> Prop) (ids : list string) (ph : channel -> json) (e : event) : Prop :=
  well_sent E e /\
  match e with
  | EPublish c m _ =>
      m_parent_header (m_pbase m) = ph c /\
      exists ty, pub_type m = Some ty /\ (In ty kernel_types \/ raw ty) /\ (c = SHELL \/ In ty control_types)
  | EStdin m _ => m_ids m = ids /\ m_parent_header (m_base m) = ph SHELL /\ msg_type m = Some "input_request"
  | ESend _ _ _ => False
  | _ => True
  end.
