(** The kernel with a logger (C88): the loggers of [Logger.v] as the [p_logger] of the kernel, the same kernel without one, and what
    the messages have to look like. *)
From Verif Require Import Base BaseFacts Json JsonText Utf8 Auth Message WireSpec History Comm Logger Tree Kernel KernelSpec Server Split.

(** [xkernel_core] logs on a channel of the server or on stdin (src/xkernel_core.cpp:126, 160, 176, 215, 432). *)
Definition log_chan (c : option channel) : Logger.channel :=
  match c with None => CStdin | Some SHELL => CShell | Some CONTROL => CControl end.
(** A call of a chain of loggers, src/xlogger.cpp:18-31: what is written, and how it ends. *)
Definition chain_call (lg : logger) (l : logcall) : list entry * res unit :=
  match l with
  | LReceived m c => log_received lg m (log_chan c)
  | LSent m c => log_sent lg m (log_chan c)
  | LIopub m => log_iopub lg m
  end.
Definition chain_logger (lg : logger) (l : logcall) : res unit := snd (chain_call lg l).

(** The same kernel with another logger; without one. *)
Definition with_logger {U} (L : logcall -> res unit) (E : env U) : env U :=
  {| e_crypto := e_crypto E; e_auth := e_auth E; e_eh := e_eh E; e_kernel_id := e_kernel_id E; e_user_name := e_user_name E;
     e_session_id := e_session_id E; e_guid := e_guid E; e_now := e_now E; e_stdin := e_stdin E; e_logger := L;
     e_regex := e_regex E; e_indet := e_indet E; e_long_id := e_long_id E; e_configure := e_configure E; e_interp := e_interp E;
     e_split := e_split E; e_debugger := e_debugger E; e_callback := e_callback E; e_handler := e_handler E; e_input := e_input E |}.
Definition unlogged {U} (E : env U) : env U := with_logger (fun _ => Ok tt) E.

(** What is logged. *)
Definition logged_base (l : logcall) : xbase :=
  match l with LReceived m _ | LSent m _ => m_base m | LIopub m => m_pbase m end.
Definition good_header (h : json) : Prop := exists ty, typed h ty.
(** A message that a logger takes: it has an identity (its topic is UTF-8 if all the rest is) and a type. *)
Definition loggable (l : logcall) : Prop :=
  good_header (m_header (logged_base l)) /\
  match l with
  | LReceived m _ | LSent m _ => m_ids m <> []
  | LIopub m => Forall utf8_json (base_parts (m_pbase m)) -> utf8_text (m_topic m)
  end.
(** A logger that fails only on what cannot be dumped, and then as the dump does. *)
Definition faithful (L : logcall -> res unit) : Prop :=
  forall l, loggable l -> L l = Ok tt \/ (L l = Exn type_error_316 /\ ~ Forall utf8_json (base_parts (logged_base l))).

(** Frames of a ROUTER socket: the first one names the peer. *)
Definition addressed (w : frames) : Prop := match w with id :: _ => id <> DELIMITER | [] => True end.

Section Log.
  Context {U : Type} (E : env U).
  (** A message whose header, if it is accepted, has a type. *)
  Definition titled (w : frames) : Prop := forall m, accepted E w m -> good_header (m_header (m_base m)).
  Definition regular (w : frames) : Prop := addressed w /\ titled w.
  (** The configuration: error handler strict (the default, include/xeus/xkernel.hpp:56, 65), a UTF-8 kernel id, and the messages on stdin
      regular. *)
  Record log_env : Prop := {
    le_strict : e_eh E = EStrict;
    le_id : utf8_text (e_kernel_id E);
    le_stdin : forall n, regular (e_stdin E n);
    le_logger : faithful (e_logger E)
  }.
  (** User code that asks for no input. *)
  Definition no_input (o : uop1 U) : Prop := match o with AOp _ => True | _ => False end.
  Definition asks_nothing : Prop := user_always E (fun _ => True) no_input.
End Log.

(** The messages waiting on the shell socket are addressed. *)
Definition pending_ok (q : list (option frames)) : Prop := Forall (fun x => match x with Some w => addressed w | None => True end) q.
(** In a run of the default server: what arrives is as [ok] says; a message was sent or published for a shell message before the first
    message of the control socket is handled. *)
Definition darrivals_ok (ok : frames -> Prop) (ls : list label) : Prop := forall c w, In (Arrive c w) ls -> ok w.
Definition dfirst_shell (ls : list label) : Prop := forall l1 w l2, ls = (l1 ++ Hand CONTROL w :: l2)%list -> exists e, In (Emitted e) l1.
(** The same in a run of a split server. *)
Definition arrivals_ok (ok : frames -> Prop) (ls : list slabel) : Prop := forall c w, In (YArrive c w) ls -> ok w.
Definition first_shell (ls : list slabel) : Prop := forall l1 w l2, ls = (l1 ++ YHand CONTROL w :: l2)%list -> exists e, In (YEvent SHELL e) l1.
