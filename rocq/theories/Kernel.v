(** The kernel core (src/xkernel_core.cpp), the interpreter base class (src/xinterpreter.cpp),
    blocking input (src/xinput.cpp) and the comm manager's request handlers (src/xcomm.cpp) as
    programs over a shared state. User code (interpreter, callbacks, handlers, debugger) is an
    arbitrary tree over the operations xeus offers to it. *)
From Verif Require Import Base Json JsonText Hex Auth Message History Comm Tree.

(** [channel], include/xeus/xserver.hpp. *)
Inductive channel := SHELL | CONTROL.
Definition chan_eqb (a b : channel) : bool :=
  match a, b with SHELL, SHELL | CONTROL, CONTROL => true | _, _ => false end.

(** Calls of the virtual functions of the interpreter, include/xeus/xinterpreter.hpp:106-137. *)
Inductive request :=
| RExecute (count : Z) (code : string) (silent store_history : bool) (user_expressions : json) (allow_stdin : bool)
| RComplete (code : string) (cursor_pos : Z)
| RInspect (code : string) (cursor_pos detail_level : Z)
| RIsComplete (code : string)
| RKernelInfo
| RShutdown
| RInternal (message : json).

(** Observable events, in order. The messages in [EPublish], [ESend] and [EStdin] come with the
    frames handed to the server. The last five are markers: user code is entered. *)
Inductive event :=
| EPublish (c : channel) (m : xpub) (w : frames)      (* xserver::publish *)
| ESend (c : channel) (m : xmessage) (w : frames)     (* xserver::send_shell / send_control *)
| EStdin (m : xmessage) (w : frames)                  (* xserver::send_stdin *)
| EStop                                               (* xserver::stop *)
| EInterp (r : request)
| EDebug (header content : json)
| ECallback (cb a : nat) (m : xmessage)               (* target callback, with the comm's address *)
| EHandler (h : nat) (m : xmessage)                   (* on_message / on_close handler *)
| EInput (h : nat) (v : string).                      (* input handler *)

(** Calls of the logger, include/xeus/xlogger.hpp. *)
Inductive logcall :=
| LReceived (m : xmessage) (c : option channel)       (* [None]: stdin *)
| LSent (m : xmessage) (c : option channel)
| LIopub (m : xpub).

(** The registered input handler: the lambda of [blocking_input_request] (src/xinput.cpp:23) or a
    handler of the user. *)
Inductive ihandler := HStore | HUser (n : nat).

Set Implicit Arguments.
Set Contextual Implicit.
Section Kernel.
  (** State of the user's code, of any type. *)
  Variable U : Type.

  (** ** Operations offered to user code *)
  Inductive uop0 :=
  | AGet | APut (u : U)                                            (* the user's own variables *)
  | AGuid | ANow
  | AStream (name text : string)
  | ADisplay (data metadata transient : json)
  | AUpdateDisplay (data metadata transient : json)
  | AExecInput (code : string) (count : Z)
  | AExecResult (count : Z) (data metadata : json)
  | AExecError (ename evalue : string) (traceback : list string)
  | AClear (wait : bool)
  | AParentHeader
  | ASetInput (h : option nat)
  | AHistory (content : json)
  | AHistTail (n : Z) (raw output : bool)
  | AHistRange (session start stop : Z) (raw output : bool)
  | AHistSearch (pattern : string) (raw output : bool) (n : Z) (unique : bool)
  | ATarget (name : string)
  | ARegTarget (name : string) (cb : option nat)
  | AUnregTarget (name : string)
  | ATargetPublish (p : nat) (msg_type : string) (metadata content : json) (buffers : list string)
  | AComms
  | ANew (p : nat) | ANewId (p : nat) (id : string) | AMove (a : nat) | ACopy (a : nat)
  | AMoveAssign (dst src : nat) | ACopyAssign (dst src : nat) | ADestroy (a : nat)
  | AOnMessage (a : nat) (h : option nat) | AOnClose (a : nat) (h : option nat)
  | ACommId (a : nat)
  | AOpen (a : nat) (metadata data : json) (buffers : list string)
  | AClose (a : nat) (metadata data : json) (buffers : list string)
  | ASendComm (a : nat) (metadata data : json) (buffers : list string).

  Definition uval0 (o : uop0) : Type :=
    match o with
    | AGet => U
    | AGuid | ANow | ACommId _ => string
    | AParentHeader | AHistory _ | AHistTail _ _ _ | AHistRange _ _ _ _ _ | AHistSearch _ _ _ _ _ => json
    | ATarget _ | ANew _ | ANewId _ _ | AMove _ | ACopy _ => nat
    | AComms => list (string * nat)
    | _ => unit
    end.
  (** Every call may throw; user code sees the exception and may catch it. *)
  Definition uans0 (o : uop0) : Type := (uval0 o + exn)%type.

  (** Code other than input handlers may also ask for input. *)
  Inductive uop1 :=
  | AOp (o : uop0)
  | AInputRequest (prompt : string) (pwd : bool)
  | ABlockingInput (prompt : string) (pwd : bool).
  Definition uval1 (o : uop1) : Type :=
    match o with AOp o => uval0 o | AInputRequest _ _ => unit | ABlockingInput _ _ => string end.
  Definition uans1 (o : uop1) : Type := (uval1 o + exn)%type.
  (** The debugger may also call the interpreter in the shell thread
      ([xcontrol_messenger::send_to_shell], include/xeus/xcontrol_messenger.hpp). *)
  Inductive uop2 :=
  | AOp1 (o : uop1)
  | ASendToShell (message : json).
  Definition uval2 (o : uop2) : Type :=
    match o with AOp1 o => uval1 o | ASendToShell _ => json end.
  Definition uans2 (o : uop2) : Type := (uval2 o + exn)%type.
  Definition ucode0 := tree uans0.
  Definition ucode := tree uans1.
  Definition ucode2 := tree uans2.

  (** ** State and atomic operations *)
  Record kstate := {
    k_guid : nat;                       (* identifiers drawn so far *)
    k_clock : nat;                      (* clock readings so far *)
    k_pid : channel -> list string;     (* m_parent_id *)
    k_phdr : channel -> json;           (* m_parent_header *)
    k_trace : list event;
    k_shell : list (option frames);     (* answers of the next non-blocking receives on the shell socket *)
    k_stdin : nat;                      (* stdin messages received so far *)
    k_replies : list frames;            (* next answers of the shell thread to the control thread (split servers) *)
    k_count : Z;                        (* m_execution_count *)
    k_history : history;
    k_comms : comms;
    k_input : option ihandler;          (* m_input_reply_handler *)
    k_value : option string;            (* the variable [value] of blocking_input_request, while alive *)
    k_user : U
  }.

  Inductive kop :=
  | KGuid | KNow
  | KPid (c : channel) | KPhdr (c : channel)
  | KSetPid (c : channel) (ids : list string) | KSetPhdr (c : channel) (h : json)
  | KEmit (e : event)
  | KStdin
  | KShellLen | KShellPop
  | KCall (w : frames)
  | KCount | KSetCount (z : Z)
  | KHistory | KSetHistory (h : history)
  | KComms | KSetComms (cs : comms)
  | KInput | KSetInput (h : option ihandler)
  | KValue | KSetValue (v : option string)
  | KUser | KSetUser (u : U).
  Definition kans (o : kop) : Type :=
    match o with
    | KGuid | KNow | KStdin | KShellLen => nat
    | KPid _ => list string
    | KPhdr _ => json
    | KShellPop => option frames
    | KCall _ => frames
    | KCount => Z
    | KHistory => history
    | KComms => comms
    | KInput => option ihandler
    | KValue => option string
    | KUser => U
    | _ => unit
    end.
  Definition kprog := tree kans.
  Definition kdo (o : kop) : kprog (kans o) := perform o.

  Definition upd_chan {A} (c : channel) (x : A) (f : channel -> A) : channel -> A :=
    fun c' => if chan_eqb c c' then x else f c'.

  Definition set_guid n s := {| k_guid := n; k_clock := k_clock s; k_pid := k_pid s; k_phdr := k_phdr s; k_trace := k_trace s; k_shell := k_shell s; k_stdin := k_stdin s; k_replies := k_replies s; k_count := k_count s; k_history := k_history s; k_comms := k_comms s; k_input := k_input s; k_value := k_value s; k_user := k_user s |}.
  Definition set_clock n s := {| k_guid := k_guid s; k_clock := n; k_pid := k_pid s; k_phdr := k_phdr s; k_trace := k_trace s; k_shell := k_shell s; k_stdin := k_stdin s; k_replies := k_replies s; k_count := k_count s; k_history := k_history s; k_comms := k_comms s; k_input := k_input s; k_value := k_value s; k_user := k_user s |}.
  Definition set_pid p s := {| k_guid := k_guid s; k_clock := k_clock s; k_pid := p; k_phdr := k_phdr s; k_trace := k_trace s; k_shell := k_shell s; k_stdin := k_stdin s; k_replies := k_replies s; k_count := k_count s; k_history := k_history s; k_comms := k_comms s; k_input := k_input s; k_value := k_value s; k_user := k_user s |}.
  Definition set_phdr p s := {| k_guid := k_guid s; k_clock := k_clock s; k_pid := k_pid s; k_phdr := p; k_trace := k_trace s; k_shell := k_shell s; k_stdin := k_stdin s; k_replies := k_replies s; k_count := k_count s; k_history := k_history s; k_comms := k_comms s; k_input := k_input s; k_value := k_value s; k_user := k_user s |}.
  Definition set_trace t s := {| k_guid := k_guid s; k_clock := k_clock s; k_pid := k_pid s; k_phdr := k_phdr s; k_trace := t; k_shell := k_shell s; k_stdin := k_stdin s; k_replies := k_replies s; k_count := k_count s; k_history := k_history s; k_comms := k_comms s; k_input := k_input s; k_value := k_value s; k_user := k_user s |}.
  Definition set_shell q s := {| k_guid := k_guid s; k_clock := k_clock s; k_pid := k_pid s; k_phdr := k_phdr s; k_trace := k_trace s; k_shell := q; k_stdin := k_stdin s; k_replies := k_replies s; k_count := k_count s; k_history := k_history s; k_comms := k_comms s; k_input := k_input s; k_value := k_value s; k_user := k_user s |}.
  Definition set_stdin n s := {| k_guid := k_guid s; k_clock := k_clock s; k_pid := k_pid s; k_phdr := k_phdr s; k_trace := k_trace s; k_shell := k_shell s; k_stdin := n; k_replies := k_replies s; k_count := k_count s; k_history := k_history s; k_comms := k_comms s; k_input := k_input s; k_value := k_value s; k_user := k_user s |}.
  Definition set_replies q s := {| k_guid := k_guid s; k_clock := k_clock s; k_pid := k_pid s; k_phdr := k_phdr s; k_trace := k_trace s; k_shell := k_shell s; k_stdin := k_stdin s; k_replies := q; k_count := k_count s; k_history := k_history s; k_comms := k_comms s; k_input := k_input s; k_value := k_value s; k_user := k_user s |}.
  Definition set_count z s := {| k_guid := k_guid s; k_clock := k_clock s; k_pid := k_pid s; k_phdr := k_phdr s; k_trace := k_trace s; k_shell := k_shell s; k_stdin := k_stdin s; k_replies := k_replies s; k_count := z; k_history := k_history s; k_comms := k_comms s; k_input := k_input s; k_value := k_value s; k_user := k_user s |}.
  Definition set_history h s := {| k_guid := k_guid s; k_clock := k_clock s; k_pid := k_pid s; k_phdr := k_phdr s; k_trace := k_trace s; k_shell := k_shell s; k_stdin := k_stdin s; k_replies := k_replies s; k_count := k_count s; k_history := h; k_comms := k_comms s; k_input := k_input s; k_value := k_value s; k_user := k_user s |}.
  Definition set_comms cs s := {| k_guid := k_guid s; k_clock := k_clock s; k_pid := k_pid s; k_phdr := k_phdr s; k_trace := k_trace s; k_shell := k_shell s; k_stdin := k_stdin s; k_replies := k_replies s; k_count := k_count s; k_history := k_history s; k_comms := cs; k_input := k_input s; k_value := k_value s; k_user := k_user s |}.
  Definition set_input h s := {| k_guid := k_guid s; k_clock := k_clock s; k_pid := k_pid s; k_phdr := k_phdr s; k_trace := k_trace s; k_shell := k_shell s; k_stdin := k_stdin s; k_replies := k_replies s; k_count := k_count s; k_history := k_history s; k_comms := k_comms s; k_input := h; k_value := k_value s; k_user := k_user s |}.
  Definition set_value v s := {| k_guid := k_guid s; k_clock := k_clock s; k_pid := k_pid s; k_phdr := k_phdr s; k_trace := k_trace s; k_shell := k_shell s; k_stdin := k_stdin s; k_replies := k_replies s; k_count := k_count s; k_history := k_history s; k_comms := k_comms s; k_input := k_input s; k_value := v; k_user := k_user s |}.
  Definition set_user u s := {| k_guid := k_guid s; k_clock := k_clock s; k_pid := k_pid s; k_phdr := k_phdr s; k_trace := k_trace s; k_shell := k_shell s; k_stdin := k_stdin s; k_replies := k_replies s; k_count := k_count s; k_history := k_history s; k_comms := k_comms s; k_input := k_input s; k_value := k_value s; k_user := u |}.

  (** Effect and answer of one atomic operation. *)
  Definition kstep (o : kop) (s : kstate) : kstate * kans o :=
    match o return kstate * kans o with
    | KGuid => (set_guid (S (k_guid s)) s, k_guid s)
    | KNow => (set_clock (S (k_clock s)) s, k_clock s)
    | KPid c => (s, k_pid s c)
    | KPhdr c => (s, k_phdr s c)
    | KSetPid c ids => (set_pid (upd_chan c ids (k_pid s)) s, tt)
    | KSetPhdr c h => (set_phdr (upd_chan c h (k_phdr s)) s, tt)
    | KEmit e => (set_trace (k_trace s ++ [e]) s, tt)
    | KStdin => (set_stdin (S (k_stdin s)) s, k_stdin s)
    | KShellLen => (s, List.length (k_shell s))
    | KShellPop => match k_shell s with [] => (s, None) | x :: q => (set_shell q s, x) end
    | KCall w => match k_replies s with [] => (s, [""]) | x :: q => (set_replies q s, x) end
    | KCount => (s, k_count s)
    | KSetCount z => (set_count z s, tt)
    | KHistory => (s, k_history s)
    | KSetHistory h => (set_history h s, tt)
    | KComms => (s, k_comms s)
    | KSetComms cs => (set_comms cs s, tt)
    | KInput => (s, k_input s)
    | KSetInput h => (set_input h s, tt)
    | KValue => (s, k_value s)
    | KSetValue v => (set_value v s, tt)
    | KUser => (s, k_user s)
    | KSetUser u => (set_user u s, tt)
    end.
  Definition run {A} (p : kprog A) (s : kstate) : kstate * res A := exec kstep p s.

  (** ** Environment: libraries, configuration, user code *)
  Record env := {
    e_crypto : crypto;
    e_auth : auth;                        (* p_auth *)
    e_eh : ehandler;                      (* m_error_handler *)
    e_kernel_id : string; e_user_name : string; e_session_id : string;
    e_guid : nat -> string;               (* the n-th identifier of new_xguid *)
    e_now : nat -> string;                (* the n-th timestamp of iso8601_now *)
    e_stdin : nat -> frames;              (* the n-th message received on the stdin socket *)
    e_logger : logcall -> res unit;       (* p_logger *)
    e_regex : regex_lib;
    e_indet : indet;
    e_long_id : string -> res string;     (* an xguid of more than 55 bytes: from a string, by concatenation *)
    e_configure : ucode unit;
    e_interp : request -> ucode json;
    e_split : bool;                       (* the server is one of the split servers *)
    e_debugger : option (json -> json -> ucode2 json);  (* p_debugger, may be null *)
    e_callback : nat -> nat -> xmessage -> ucode unit;  (* target callbacks *)
    e_handler : nat -> xmessage -> ucode unit;          (* comm handlers *)
    e_input : nat -> string -> ucode0 unit              (* input handlers *)
  }.

  Variable E : env.

  Definition new_guid : kprog string := n <-- kdo KGuid ;; Ret (e_guid E n).
  Definition now : kprog string := n <-- kdo KNow ;; Ret (e_now E n).
  Definition log (l : logcall) : kprog unit := of_res (e_logger E l).
  Definition emit (e : event) : kprog unit := kdo (KEmit e).

  (** [make_header], src/xmessage.cpp:251-263. *)
  Definition new_header (msg_type : string) : kprog json :=
    g <-- new_guid ;; d <-- now ;;
    Ret (make_header g d msg_type (e_user_name E) (e_session_id E)).
  (** [get_topic], src/xkernel_core.cpp:470-473. *)
  Definition get_topic (msg_type : string) : string := "kernel_core." +++ e_kernel_id E +++ "." +++ msg_type.
  (** [get_metadata], src/xkernel_core.cpp:475-480. *)
  Definition get_metadata : kprog json := d <-- now ;; Ret (jobj [("started", JStr d)]).

  (** [publish_message], src/xkernel_core.cpp:146-163. *)
  Definition publish_message (msg_type : string) (metadata content : json) (buffers : list string) (c : channel) : kprog unit :=
    h <-- new_header msg_type ;;
    p <-- kdo (KPhdr c) ;;
    let m := {| m_topic := get_topic msg_type;
                m_pbase := {| m_header := h; m_parent_header := p; m_metadata := metadata;
                              m_content := content; m_buffers := buffers |} |} in
    log (LIopub m) ;;;
    w <-- of_res (pub_serialize (e_crypto E) (e_auth E) (e_eh E) m) ;;
    emit (EPublish c m w).

  Definition empty : json := JObj [].

  (** [build_start_msg], src/xkernel_core.cpp:91-108. *)
  Definition build_start_msg : kprog (xpub * frames) :=
    h <-- new_header "status" ;;
    let m := {| m_topic := "kernel_core." +++ e_kernel_id E +++ ".status";
                m_pbase := {| m_header := h; m_parent_header := empty; m_metadata := empty;
                              m_content := jobj [("execution_state", JStr "starting")]; m_buffers := [] |} |} in
    w <-- of_res (pub_serialize (e_crypto E) (e_auth E) (e_eh E) m) ;;
    Ret (m, w).

  (** [publish_status], src/xkernel_core.cpp:385-390. *)
  Definition publish_status (status : string) (c : channel) : kprog unit :=
    publish_message "status" empty (jobj [("execution_state", JStr status)]) [] c.

  (** [send_reply], src/xkernel_core.cpp:418-442. *)
  Definition send_reply_to (ids : list string) (reply_type : string) (parent_header metadata content : json) (c : channel) : kprog unit :=
    h <-- new_header reply_type ;;
    let m := {| m_ids := ids;
                m_base := {| m_header := h; m_parent_header := parent_header; m_metadata := metadata;
                             m_content := content; m_buffers := [] |} |} in
    log (LSent m (Some c)) ;;;
    w <-- of_res (serialize (e_crypto E) (e_auth E) (e_eh E) m) ;;
    emit (ESend c m w).
  (** [send_reply], src/xkernel_core.cpp:405-416. *)
  Definition send_reply (reply_type : string) (metadata content : json) (c : channel) : kprog unit :=
    ids <-- kdo (KPid c) ;;
    p <-- kdo (KPhdr c) ;;
    send_reply_to ids reply_type p metadata content c.

  (** ** The comm manager on the shared state *)
  Definition with_comms {A} (f : comms -> res (comms * A)) : kprog A :=
    cs <-- kdo KComms ;;
    r <-- of_res (f cs) ;;
    kdo (KSetComms (fst r)) ;;;
    Ret (snd r).
  Definition no_answer (f : comms -> res comms) (cs : comms) : res (comms * unit) :=
    let* cs := f cs in Ok (cs, tt).
  Definition look_comms {A} (f : comms -> res A) : kprog A :=
    cs <-- kdo KComms ;; of_res (f cs).

  (** [xtarget::publish_message], src/xcomm.cpp:18-28. *)
  Definition target_publish (p : nat) (msg_type : string) (metadata content : json) (buffers : list string) : kprog unit :=
    t <-- look_comms (deref_target p) ;;
    if t_manager t then publish_message msg_type metadata content buffers SHELL
    else Stuck "null p_manager".
  (** [open], [close] and [send], include/xeus/xcomm.hpp:355-372, with [send_comm_message] 264-287. *)
  Definition comm_open_msg (a : nat) (metadata data : json) (buffers : list string) : kprog unit :=
    c <-- look_comms (deref a) ;;
    t <-- look_comms (deref_target (c_target c)) ;;
    target_publish (c_target c) "comm_open" metadata (comm_open_content c (t_name t) data) buffers.
  Definition comm_close_msg (a : nat) (metadata data : json) (buffers : list string) : kprog unit :=
    c <-- look_comms (deref a) ;;
    target_publish (c_target c) "comm_close" metadata (comm_content c data) buffers.
  Definition comm_send_msg (a : nat) (metadata data : json) (buffers : list string) : kprog unit :=
    c <-- look_comms (deref a) ;;
    target_publish (c_target c) "comm_msg" metadata (comm_content c data) buffers.

  (** [build_display_content], src/xinterpreter.cpp:250-257. *)
  Definition display_content (data metadata transient : json) : json :=
    jobj [("data", data); ("metadata", metadata); ("transient", transient)].
  (** [publish_execution_input], src/xinterpreter.cpp:123-132, through the publisher registered in
      src/xkernel_core.cpp:72-79. *)
  Definition publish_execution_input (code : string) (count : Z) : kprog unit :=
    publish_message "execute_input" empty (jobj [("code", JStr code); ("execution_count", JInt count)]) [] SHELL.

  (** What each operation offered to user code does: src/xinterpreter.cpp:88-201, 208-216,
      src/xkernel_core.cpp:72-84, include/xeus/xcomm.hpp. *)
  Definition api0 (o : uop0) : kprog (uval0 o) :=
    match o return kprog (uval0 o) with
    | AGet => kdo KUser
    | APut u => kdo (KSetUser u)
    | AGuid => new_guid
    | ANow => now
    | AStream name text => publish_message "stream" empty (jobj [("name", JStr name); ("text", JStr text)]) [] SHELL
    | ADisplay d m t => publish_message "display_data" empty (display_content d m t) [] SHELL
    | AUpdateDisplay d m t => publish_message "update_display_data" empty (display_content d m t) [] SHELL
    | AExecInput code count => publish_execution_input code count
    | AExecResult count d m =>
        publish_message "execute_result" empty
          (jobj [("execution_count", JInt count); ("data", d); ("metadata", m)]) [] SHELL
    | AExecError en ev tb =>
        publish_message "error" empty
          (jobj [("ename", JStr en); ("evalue", JStr ev); ("traceback", JArr (List.map JStr tb))]) [] SHELL
    | AClear wait => publish_message "clear_output" empty (jobj [("wait", JBool wait)]) [] SHELL
    | AParentHeader => kdo (KPhdr SHELL)
    | ASetInput h => kdo (KSetInput (option_map HUser h))
    | AHistory content => h <-- kdo KHistory ;; of_res (process_request (e_regex E) content h)
    | AHistTail n raw output => h <-- kdo KHistory ;; of_res (get_tail n raw output h)
    | AHistRange se st sp raw output => h <-- kdo KHistory ;; of_res (get_range se st sp raw output h)
    | AHistSearch p raw output n u => h <-- kdo KHistory ;; of_res (search (e_regex E) p raw output n u h)
    | ATarget name => with_comms (fun cs => Ok (target_node name cs))
    | ARegTarget name cb => with_comms (no_answer (fun cs => Ok (register_comm_target name cb cs)))
    | AUnregTarget name => with_comms (no_answer (fun cs => Ok (unregister_comm_target name cs)))
    | ATargetPublish p ty m c b => target_publish p ty m c b
    | AComms => look_comms (fun cs => Ok (registry cs))
    | ANew p => id <-- new_guid ;; with_comms (comm_new p id)
    | ANewId p id => with_comms (comm_new p id)
    | AMove a => with_comms (comm_move a)
    | ACopy a => id <-- new_guid ;; with_comms (comm_copy a id)
    | AMoveAssign d s => with_comms (no_answer (comm_move_assign d s))
    | ACopyAssign d s => id <-- new_guid ;; with_comms (no_answer (comm_copy_assign d s id))
    | ADestroy a => with_comms (no_answer (comm_destroy (e_indet E) a))
    | AOnMessage a h => with_comms (no_answer (comm_on_message a h))
    | AOnClose a h => with_comms (no_answer (comm_on_close a h))
    | ACommId a => look_comms (fun cs => let* c := deref a cs in Ok (c_id c))
    | AOpen a m d b => comm_open_msg a m d b
    | AClose a m d b => comm_close_msg a m d b
    | ASendComm a m d b => comm_send_msg a m d b
    end.

  (** Running user code. *)
  Fixpoint embed0 {A} (t : ucode0 A) : kprog A :=
    match t with
    | Ret a => Ret a
    | Throw e => Throw e
    | Stuck w => Stuck w
    | Do o k => tbind (attempt (api0 o)) (fun r => embed0 (k r))
    end.

  (** ** Standard input *)
  (** [xinterpreter::input_reply], src/xinterpreter.cpp:234-240; the lambda of src/xinput.cpp:23
      writes through its reference. *)
  Definition input_reply (v : string) : kprog unit :=
    h <-- kdo KInput ;;
    match h with
    | None => Ret tt
    | Some HStore =>
        x <-- kdo KValue ;;
        match x with
        | Some _ => kdo (KSetValue (Some v))
        | None => Stuck "dangling reference in the input handler"
        end
    | Some (HUser n) => emit (EInput n v) ;;; embed0 (e_input E n v)
    end.
  (** [dispatch_stdin], src/xkernel_core.cpp:120-137. *)
  Definition dispatch_stdin (w : frames) : kprog unit :=
    catch_std
      (m <-- of_res (deserialize (e_crypto E) (e_auth E) w) ;;
       log (LReceived m None) ;;;
       v <-- of_res (value_string "value" "" (m_content (m_base m))) ;;
       input_reply v)
      (Ret tt).
  (** [send_stdin], src/xkernel_core.cpp:165-179, with src/xserver_zmq.cpp:67-73: the server waits for
      one message on the stdin socket and dispatches it. (If none ever comes, the call does not
      return; the model covers the executions in which one comes.) *)
  Definition send_stdin (msg_type : string) (metadata content : json) : kprog unit :=
    ids <-- kdo (KPid SHELL) ;;
    h <-- new_header msg_type ;;
    p <-- kdo (KPhdr SHELL) ;;
    let m := {| m_ids := ids;
                m_base := {| m_header := h; m_parent_header := p; m_metadata := metadata;
                             m_content := content; m_buffers := [] |} |} in
    log (LSent m None) ;;;
    w <-- of_res (serialize (e_crypto E) (e_auth E) (e_eh E) m) ;;
    emit (EStdin m w) ;;;
    n <-- kdo KStdin ;;
    dispatch_stdin (e_stdin E n).
  (** [input_request], src/xinterpreter.cpp:223-232. *)
  Definition input_request (prompt : string) (pwd : bool) : kprog unit :=
    send_stdin "input_request" empty (jobj [("prompt", JStr prompt); ("pwd", JBool pwd)]).
  (** [blocking_input_request], src/xinput.cpp:17-32. If [input_request] throws, the handler stays
      registered and the variable dies. *)
  Definition blocking_input_request (prompt : string) (pwd : bool) : kprog string :=
    kdo (KSetValue (Some "")) ;;;
    kdo (KSetInput (Some HStore)) ;;;
    r <-- attempt (input_request prompt pwd) ;;
    match r with
    | inl _ =>
        kdo (KSetInput None) ;;;
        v <-- kdo KValue ;;
        kdo (KSetValue None) ;;;
        Ret (match v with Some v => v | None => "" end)
    | inr e => kdo (KSetValue None) ;;; Throw e
    end.

  Definition api1 (o : uop1) : kprog (uval1 o) :=
    match o return kprog (uval1 o) with
    | AOp o => api0 o
    | AInputRequest p pwd => input_request p pwd
    | ABlockingInput p pwd => blocking_input_request p pwd
    end.
  Fixpoint embed {A} (t : ucode A) : kprog A :=
    match t with
    | Ret a => Ret a
    | Throw e => Throw e
    | Stuck w => Stuck w
    | Do o k => tbind (attempt (api1 o)) (fun r => embed (k r))
    end.

  (** A virtual function of the interpreter. *)
  Definition interp (r : request) : kprog json := emit (EInterp r) ;;; embed (e_interp E r).

  (** [dispatch_internal], src/xkernel_core.cpp:139-144; [popstr] on an empty multipart is undefined. *)
  Definition dispatch_internal (w : frames) : kprog frames :=
    f <-- of_res (let* (f, _) := pop w in Ok f) ;;
    j <-- of_res (parse f) ;;
    rep <-- interp (RInternal j) ;;
    text <-- of_res (dump (e_eh E) rep) ;;
    Ret [text].

  (** [send_to_shell]: src/xtrivial_messenger.cpp:27-32 calls the listener in place,
      src/xzmq_messenger.cpp:59-66 sends the text to the shell thread and waits for the answer
      ([KCall]; src/xshell.cpp:68-88 is the other side). *)
  Definition send_to_shell (j : json) : kprog json :=
    text <-- of_res (dump EStrict j) ;;
    rep <-- (if e_split E then kdo (KCall [text]) else dispatch_internal [text]) ;;
    f <-- of_res (let* (f, _) := pop rep in Ok f) ;;
    of_res (parse f).
  Definition api2 (o : uop2) : kprog (uval2 o) :=
    match o return kprog (uval2 o) with
    | AOp1 o => api1 o
    | ASendToShell j => send_to_shell j
    end.
  Fixpoint embed2 {A} (t : ucode2 A) : kprog A :=
    match t with
    | Ret a => Ret a
    | Throw e => Throw e
    | Stuck w => Stuck w
    | Do o k => tbind (attempt (api2 o)) (fun r => embed2 (k r))
    end.

  (** ** Aborting the pending shell requests *)
  (** Position of the last underscore ([find_last_of]). *)
  Fixpoint last_underscore (s : string) : option nat :=
    match s with
    | "" => None
    | String a s' =>
        match last_underscore s' with
        | Some n => Some (S n)
        | None => if Ascii.eqb a "_" then Some 0 else None
        end
    end.
  (** [msg_type.replace(msg_type.find_last_of('_'), 8, "_reply")], src/xkernel_core.cpp:459. *)
  Definition reply_type_of (msg_type : string) : res string :=
    match last_underscore msg_type with
    | Some n => Ok (stake n msg_type +++ "_reply" +++ sdrop (n + 8) msg_type)
    | None => Exn (Std "basic_string::replace")
    end.
  (** [abort_request], src/xkernel_core.cpp:444-468. *)
  Definition abort_request (w : frames) : kprog unit :=
    r <-- catch_std (m <-- of_res (deserialize (e_crypto E) (e_auth E) w) ;; Ret (Some m)) (Ret None) ;;
    match r with
    | None => Ret tt
    | Some m =>
        let header := m_header (m_base m) in
        msg_type <-- of_res (value_string "msg_type" "" header) ;;
        ty <-- of_res (reply_type_of msg_type) ;;
        send_reply_to (m_ids m) ty header empty (jobj [("status", JStr "error")]) SHELL
    end.
  (** [abort_queue_impl], src/xserver_zmq.cpp:133-147. The loop ends at the first receive that finds
      nothing; the model covers the executions in which this happens. *)
  Fixpoint abort_loop (n : nat) : kprog unit :=
    match n with
    | 0 => Ret tt
    | S n =>
        r <-- kdo KShellPop ;;
        match r with
        | None => Ret tt
        | Some w => abort_request w ;;; abort_loop n
        end
    end.
  Definition abort_queue : kprog unit := n <-- kdo KShellLen ;; abort_loop (S n).

  (** ** Request handlers *)
  (** [xinterpreter::execute_request], src/xinterpreter.cpp:32-51. *)
  Definition interp_execute (code : string) (silent store_history : bool) (ue : json) (allow_stdin : bool) : kprog json :=
    (if silent then Ret tt
     else
       n <-- kdo KCount ;;
       if (n =? int_max)%Z then Stuck "overflow of m_execution_count"
       else
         kdo (KSetCount (n + 1)) ;;;
         publish_execution_input code (n + 1)) ;;;
    n <-- kdo KCount ;;
    reply <-- interp (RExecute n code silent store_history ue allow_stdin) ;;
    n <-- kdo KCount ;;
    of_res (jset "execution_count" (JInt n) reply).

  (** src/xkernel_core.cpp:249-287. *)
  Definition execute_request (m : xmessage) (c : channel) : kprog unit :=
    catch_std
      (let content := m_content (m_base m) in
       code <-- of_res (value_string "code" "" content) ;;
       silent <-- of_res (value_bool "silent" false content) ;;
       store_history <-- of_res (value_bool "store_history" true content) ;;
       execution_count <-- of_res (value_int "execution_count" 1%Z content) ;;
       let store_history := store_history && negb silent in
       user_expressions <-- of_res (value_json "user_expressions" empty content) ;;
       allow_stdin <-- of_res (value_bool "allow_stdin" true content) ;;
       stop_on_error <-- of_res (value_bool "stop_on_error" false content) ;;
       metadata <-- get_metadata ;;
       reply <-- interp_execute code silent store_history user_expressions allow_stdin ;;
       status <-- of_res (value_string "status" "error" reply) ;;
       send_reply "execute_reply" metadata reply c ;;;
       (if negb silent && store_history then
          h <-- kdo KHistory ;;
          kdo (KSetHistory (store_inputs 0 execution_count code "" h))
        else Ret tt) ;;;
       (if negb silent && String.eqb status "error" && stop_on_error then abort_queue else Ret tt))
      (Ret tt).
  (** 289-297 *)
  Definition complete_request (m : xmessage) (c : channel) : kprog unit :=
    let content := m_content (m_base m) in
    code <-- of_res (value_string "code" "" content) ;;
    cursor_pos <-- of_res (value_int "cursor_pos" (-1)%Z content) ;;
    reply <-- interp (RComplete code cursor_pos) ;;
    send_reply "complete_reply" empty reply c.
  (** 299-308 *)
  Definition inspect_request (m : xmessage) (c : channel) : kprog unit :=
    let content := m_content (m_base m) in
    code <-- of_res (value_string "code" "" content) ;;
    cursor_pos <-- of_res (value_int "cursor_pos" (-1)%Z content) ;;
    detail_level <-- of_res (value_int "detail_level" 0%Z content) ;;
    reply <-- interp (RInspect code cursor_pos detail_level) ;;
    send_reply "inspect_reply" empty reply c.
  (** 310-317 *)
  Definition history_request (m : xmessage) (c : channel) : kprog unit :=
    h <-- kdo KHistory ;;
    reply <-- of_res (process_request (e_regex E) (m_content (m_base m)) h) ;;
    send_reply "history_reply" empty reply c.
  (** 319-326 *)
  Definition is_complete_request (m : xmessage) (c : channel) : kprog unit :=
    code <-- of_res (value_string "code" "" (m_content (m_base m))) ;;
    reply <-- interp (RIsComplete code) ;;
    send_reply "is_complete_reply" empty reply c.
  (** The loop of 333-342 over the registry. *)
  Fixpoint comm_infos (target_name : string) (cs : comms) (r : list (string * nat)) (acc : json) : res json :=
    match r with
    | [] => Ok acc
    | (id, a) :: r =>
        let* c := deref a cs in
        let* t := deref_target (c_target c) cs in
        let name := t_name t in
        let* acc :=
          if String.eqb target_name "" || String.eqb name target_name
          then jset id (jobj [("target_name", JStr name)]) acc else Ok acc in
        comm_infos target_name cs r acc
    end.
  (** 328-347 *)
  Definition comm_info_request (m : xmessage) (c : channel) : kprog unit :=
    let content := m_content (m_base m) in
    target_name <-- of_res (if is_null content then Ok "" else value_string "target_name" "" content) ;;
    infos <-- look_comms (fun cs => comm_infos target_name cs (registry cs) empty) ;;
    send_reply "comm_info_reply" empty (jobj [("comms", infos); ("status", JStr "ok")]) c.
  (** 349-354 *)
  Definition kernel_info_request (m : xmessage) (c : channel) : kprog unit :=
    reply <-- interp RKernelInfo ;;
    reply <-- of_res (jset "protocol_version" (JStr protocol_version) reply) ;;
    send_reply "kernel_info_reply" empty reply c.
  (** 356-366 *)
  Definition shutdown_request (m : xmessage) (c : channel) : kprog unit :=
    restart <-- of_res (value_bool "restart" false (m_content (m_base m))) ;;
    interp RShutdown ;;;
    emit EStop ;;;
    let reply := jobj [("restart", JBool restart)] in
    publish_message "shutdown" empty reply [] CONTROL ;;;
    send_reply "shutdown_reply" empty reply c.
  (** 368-373 *)
  Definition interrupt_request (m : xmessage) (c : channel) : kprog unit :=
    publish_message "interrupt" empty empty [] CONTROL ;;;
    send_reply "interrupt_reply" empty empty c.
  (** 375-383 *)
  Definition debug_request (m : xmessage) (c : channel) : kprog unit :=
    match e_debugger E with
    | None => Ret tt
    | Some dbg =>
        let h := m_header (m_base m) in let t := m_content (m_base m) in
        emit (EDebug h t) ;;;
        reply <-- embed2 (dbg h t) ;;
        metadata <-- get_metadata ;;
        send_reply "debug_reply" metadata reply c
    end.

  (** [handle_message] / [handle_close], include/xeus/xcomm.hpp:248-262. *)
  Definition run_handler (h : option nat) (m : xmessage) : kprog unit :=
    match h with
    | None => Ret tt
    | Some n => emit (EHandler n m) ;;; embed (e_handler E n m)
    end.
  (** [target(comm, request)], include/xeus/xcomm.hpp:219-222; an empty callback throws
      std::bad_function_call. *)
  Definition run_callback (cb : option nat) (a : nat) (m : xmessage) : kprog unit :=
    match cb with
    | None => Throw (Std "bad_function_call")
    | Some n => emit (ECallback n a m) ;;; embed (e_callback E n a m)
    end.
  Definition no_such_target : exn := Std "No such comm target registered".
  (** [throw std::runtime_error("No such comm registered: " + id)], src/xcomm.cpp:90 and 106: the sum of
      a literal and an [xguid] is an [xguid] too, of 25 bytes more. *)
  Definition no_such_comm (id : string) : res unit :=
    let* what := fixed (e_long_id E) ("No such comm registered: " +++ id) in Exn (Std what).

  (** [xcomm_manager::comm_open], src/xcomm.cpp:64-81: the local [comm] is destroyed when the
      callback returns or throws. *)
  Definition comm_open (m : xmessage) (c : channel) : kprog unit :=
    let content := m_content (m_base m) in
    target_name <-- of_res (let* j := jget "target_name" content in get_string j) ;;
    pos <-- look_comms (fun cs => Ok (mfind target_name (targets cs))) ;;
    match pos with
    | None => Throw no_such_target
    | Some (p, t) =>
        id <-- of_res (let* j := jget "comm_id" content in to_xguid (e_long_id E) j) ;;
        a <-- with_comms (comm_new p id) ;;
        r <-- attempt (run_callback (t_callback t) a m) ;;
        with_comms (no_answer (comm_destroy (e_indet E) a)) ;;;
        match r with inl _ => Ret tt | inr e => Throw e end
    end.
  (** src/xcomm.cpp:83-97 *)
  Definition comm_close (m : xmessage) (c : channel) : kprog unit :=
    id <-- of_res (let* j := jget "comm_id" (m_content (m_base m)) in to_xguid (e_long_id E) j) ;;
    pos <-- look_comms (fun cs => Ok (mfind id (registry cs))) ;;
    match pos with
    | None => of_res (no_such_comm id)
    | Some a =>
        o <-- look_comms (deref a) ;;
        run_handler (c_close o) m ;;;
        with_comms (no_answer (fun cs => Ok (set_registry (mdel id (registry cs)) cs)))
    end.
  (** src/xcomm.cpp:99-112 *)
  Definition comm_msg (m : xmessage) (c : channel) : kprog unit :=
    id <-- of_res (let* j := jget "comm_id" (m_content (m_base m)) in to_xguid (e_long_id E) j) ;;
    pos <-- look_comms (fun cs => Ok (mfind id (registry cs))) ;;
    match pos with
    | None => of_res (no_such_comm id)
    | Some a =>
        o <-- look_comms (deref a) ;;
        run_handler (c_message o) m
    end.

  (** [m_handler], src/xkernel_core.cpp:50-63. *)
  Definition handlers : list (string * (xmessage -> channel -> kprog unit)) :=
    [("execute_request", execute_request); ("complete_request", complete_request);
     ("inspect_request", inspect_request); ("history_request", history_request);
     ("is_complete_request", is_complete_request); ("comm_info_request", comm_info_request);
     ("comm_open", comm_open); ("comm_close", comm_close); ("comm_msg", comm_msg);
     ("kernel_info_request", kernel_info_request); ("shutdown_request", shutdown_request);
     ("interrupt_request", interrupt_request); ("debug_request", debug_request)].

  (** [set_parent], src/xkernel_core.cpp:482-489. *)
  Definition set_parent (ids : list string) (header : json) (c : channel) : kprog unit :=
    kdo (KSetPid c ids) ;;; kdo (KSetPhdr c header).

  (** The handler of the message type, with the catch block of src/xkernel_core.cpp:228-236 that
      prints the content. *)
  Definition handle (msg_type : string) (m : xmessage) (c : channel) : kprog unit :=
    match mfind msg_type handlers with
    | None => Ret tt
    | Some h => catch_std (h m c) (of_res (dump EStrict (m_content (m_base m))) ;;; Ret tt)
    end.
  (** [dispatch], src/xkernel_core.cpp:201-240. *)
  Definition dispatch (w : frames) (c : channel) : kprog unit :=
    r <-- catch_std (m <-- of_res (deserialize (e_crypto E) (e_auth E) w) ;; Ret (Some m)) (Ret None) ;;
    match r with
    | None => Ret tt
    | Some m =>
        log (LReceived m (Some c)) ;;;
        let header := m_header (m_base m) in
        set_parent (m_ids m) header c ;;;
        publish_status "busy" c ;;;
        msg_type <-- of_res (value_string "msg_type" "" header) ;;
        handle msg_type m c ;;;
        publish_status "idle" c
    end.

  (** [xkernel::init] (configure, src/xkernel.cpp:162) and [xkernel::start] up to the server's loop:
      src/xkernel.cpp:165-169, src/xserver_zmq.cpp:80-87. *)
  Definition kernel_start : kprog unit :=
    embed (e_configure E) ;;;
    sm <-- build_start_msg ;;
    emit (EPublish SHELL (fst sm) (snd sm)).

  (** The state after the constructors: src/xkernel_core.cpp:46-47, src/xinterpreter.cpp:22-25. *)
  Definition kinit (u : U) (shell : list (option frames)) : kstate :=
    {| k_guid := 0; k_clock := 0; k_pid := fun _ => []; k_phdr := fun _ => empty; k_trace := [];
       k_shell := shell; k_stdin := 0; k_replies := []; k_count := 0; k_history := []; k_comms := no_comms;
       k_input := None; k_value := None; k_user := u |}.

  (** A message handed to one of the kernel's listeners. *)
  Definition deliver (x : channel * frames) : kprog unit := dispatch (snd x) (fst x).
End Kernel.
Unset Implicit Arguments.
Unset Contextual Implicit.
