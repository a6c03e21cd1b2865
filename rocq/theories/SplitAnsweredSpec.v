(** Vocabulary: requests that are answered while another thread is at work. *)
From Verif Require Import Base Json JsonText Utf8 Auth Message WireSpec History HistoryProofs Comm Tree Kernel KernelSpec AnsweredSpec Server Split SplitSpec SequentialSpec.

Section Spec.
  Context {U : Type} (E : env U).
  (** What a thread can read from the shared state, whatever the other thread does: stored headers and
      the history are valid UTF-8; the answer of the interpreter in the shell thread is the text of a
      value the interpreter can return. *)
  Definition found (o : kop U) : kans o -> Prop :=
    match o return kans o -> Prop with
    | KPhdr _ => fun h => utf8_json h
    | KHistory => fun h => Forall entry_utf8 h
    | KCall _ => fun w => exists j a t, can_return (e_interp E (RInternal j)) a /\ dump (e_eh E) a = Ok t /\ w = [t]
    | _ => fun _ => True
    end.
  (** [p] neither throws nor has undefined behaviour, and returns a value satisfying [P], whatever it
      reads. *)
  Fixpoint settles {A} (P : A -> Prop) (p : kprog U A) : Prop :=
    match p with
    | Ret a => P a
    | Throw _ | Stuck _ => False
    | Do o k => forall x, found o x -> settles P (k x)
    end.
  (** [well_asked h ty ct]: a request of type [ty] with header [h] and content [ct] is well formed, and
      the interpreter (or the debugger) handles it whatever the other thread does. *)
  Inductive well_asked (h : json) : string -> json -> Prop :=
  | wa_execute ct p : exec_params ct p ->
      (forall n, settles (fun j => utf8_json j /\ exists m st, j = JObj m /\ mfind "status" m = Some (JStr st))
         (embed E (e_interp E (RExecute n (x_code p) (x_silent p) (stores p) (x_ue p) (x_stdin p))))) ->
      well_asked h "execute_request" ct
  | wa_complete m code pos : str_field m "code" "" code -> num_field m "cursor_pos" (-1) pos ->
      settles utf8_json (embed E (e_interp E (RComplete code pos))) -> well_asked h "complete_request" (JObj m)
  | wa_inspect m code pos lvl : str_field m "code" "" code -> num_field m "cursor_pos" (-1) pos -> num_field m "detail_level" 0 lvl ->
      settles utf8_json (embed E (e_interp E (RInspect code pos lvl))) -> well_asked h "inspect_request" (JObj m)
  | wa_is_complete m code : str_field m "code" "" code ->
      settles utf8_json (embed E (e_interp E (RIsComplete code))) -> well_asked h "is_complete_request" (JObj m)
  | wa_kernel_info ct : settles (fun j => utf8_json j /\ exists m, j = JObj m) (embed E (e_interp E RKernelInfo)) ->
      well_asked h "kernel_info_request" ct
  | wa_shutdown m restart : bool_field m "restart" false restart ->
      settles (fun _ => True) (embed E (e_interp E RShutdown)) -> well_asked h "shutdown_request" (JObj m)
  | wa_interrupt ct : well_asked h "interrupt_request" ct
  | wa_debug ct d : e_debugger E = Some d -> settles utf8_json (embed2 E (d h ct)) -> well_asked h "debug_request" ct
  | wa_history ct : (forall hist, Forall entry_utf8 hist -> exists j, process_request (e_regex E) ct hist = Ok j /\ utf8_json j) ->
      well_asked h "history_request" ct.
  Definition answerable_amid (w : frames) : Prop :=
    exists m ty, accepted E w m /\ typed (m_header (m_base m)) ty /\ well_asked (m_header (m_base m)) ty (m_content (m_base m)).
  (** The messages that are authentic and parsed. *)
  Definition is_accepted (w : frames) : bool := is_ok (deserialize (e_crypto E) (e_auth E) w).
  (** A request to the shell thread that is a JSON text the interpreter handles whatever the other thread
      does. *)
  Definition well_inquired (w : frames) : Prop :=
    exists t rest j, w = t :: rest /\ parse t = Ok j /\ settles utf8_json (embed E (e_interp E (RInternal j))).
End Spec.
(** Thread [c] is not calling a listener. *)
Definition rests {U} (c : channel) (s : ysys U) : Prop :=
  match c with
  | SHELL => match y_sh s with SRun _ _ | SIntern _ => False | _ => True end
  | CONTROL => match y_ct s with CRun _ => False | _ => True end
  end.
(** Thread [c] is in the call of its listener with a message, at [p]. *)
Definition handles {U} (c : channel) (s : ysys U) (p : kprog U unit) : Prop :=
  match c with
  | SHELL => exists b, y_sh s = SRun (Going p) b
  | CONTROL => y_ct s = CRun (Going p)
  end.
(** The number of calls of a listener with a message. *)
Definition handed (ls : list slabel) : Z := Z.of_nat (List.length (filter (fun l => match l with YHand _ _ => true | _ => false end) ls)).
