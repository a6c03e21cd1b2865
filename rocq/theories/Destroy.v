(** The destruction of a kernel: [xkernel::~xkernel] (src/xkernel.cpp:115-117), which destroys the members in the reverse order of
    their declaration (include/xeus/xkernel.hpp:78-92), and the constructor when [init] throws, which does the same before the
    exception leaves it. Modelled are the ZeroMQ context, the sockets that were made with it, and the comms that belong to the
    interpreter; the other members have nothing to do with each other.
    [zmq::context_t::~context_t] calls [zmq_ctx_term], which returns when all sockets of the context are closed; a thread that waits on
    such a socket gets ETERM, which cppzmq throws and which nothing catches in the threads of xeus. *)
From Verif Require Import Base Auth Host Comm Construct.

(** The members, include/xeus/xkernel.hpp:78-92. *)
Inductive member :=
| Config | KernelId | SessionId | UserName | Interpreter | HistoryManager | Logger | ServerBuilder | Server | DebuggerBuilder | Debugger
| Context | Core | DebuggerConfig | ErrorHandler.
Definition members : list member :=
  [Config; KernelId; SessionId; UserName; Interpreter; HistoryManager; Logger; ServerBuilder; Server; DebuggerBuilder; Debugger;
   Context; Core; DebuggerConfig; ErrorHandler].

(** The sockets of the servers, all made with the context of the kernel: src/xserver_zmq.cpp:25-32, src/xpublisher.cpp:23-25,
    src/xheartbeat.cpp:23-24; src/xserver_zmq_split.cpp:28-31, src/xcontrol.cpp:25-27, src/xzmq_messenger.cpp:22-24, src/xshell.cpp:25-28. *)
Definition publisher_sockets : list string := ["publisher"; "listener"; "publisher controller"].
Definition heartbeat_sockets : list string := ["heartbeat"; "heartbeat controller"].
Definition server_sockets (split : bool) : list string :=
  if split
  then ["control"; "publisher_pub"; "shell controller"; "publisher controller"; "heartbeat controller"] ++ heartbeat_sockets ++ publisher_sockets ++
       ["shell"; "stdin"; "publisher_pub"; "controller"]
  else ["shell"; "controller"; "stdin"; "publisher_pub"; "publisher_controller"; "heartbeat_controller"] ++ publisher_sockets ++ heartbeat_sockets.

(** What matters of a kernel: open sockets of the server and of the debugger, the comm manager of the core with the comms, the addresses
    of the comms that belong to the interpreter, and whether the threads of the server run. *)
Record standing := { z_server : list string; z_debugger : list string; z_comms : comms; z_owned : list nat; z_threads : bool }.
Inductive fate :=
| Gone (z : standing)                        (* the destructor returns *)
| Waits (m : member) (z : standing)          (* it waits for something that this thread would do afterwards *)
| Dies (why : string).                       (* undefined behaviour or std::terminate *)

Section Destroy.
  Context (pol : indet).
  Fixpoint destroy_comms (l : list nat) (cs : comms) : res comms :=
    match l with
    | [] => Ok cs
    | a :: l => let* cs := comm_destroy pol a cs in destroy_comms l cs
    end.
  (** The destructor of one member. The core takes its comm manager along: the targets and the registry (src/xkernel_core.hpp:133). *)
  Definition destroy (m : member) (z : standing) : fate :=
    match m with
    | Interpreter =>
        match destroy_comms (z_owned z) (z_comms z) with
        | Ok cs => Gone {| z_server := z_server z; z_debugger := z_debugger z; z_comms := cs; z_owned := []; z_threads := z_threads z |}
        | Exn e => Dies "exception in a destructor"
        | UB w => Dies w
        end
    | Server => Gone {| z_server := []; z_debugger := z_debugger z; z_comms := z_comms z; z_owned := z_owned z; z_threads := z_threads z |}
    | Debugger => Gone {| z_server := z_server z; z_debugger := []; z_comms := z_comms z; z_owned := z_owned z; z_threads := z_threads z |}
    | Context =>
        if z_threads z then Dies "zmq::error_t in a thread"
        else match z_server z, z_debugger z with [], [] => Gone z | _, _ => Waits Context z end
    | Core =>
        Gone {| z_server := z_server z; z_debugger := z_debugger z;
                z_comms := set_registry [] (set_targets [] (next_node (z_comms z)) (z_comms z)); z_owned := z_owned z; z_threads := z_threads z |}
    | _ => Gone z
    end.
  Fixpoint destroy_all (l : list member) (z : standing) : fate :=
    match l with
    | [] => Gone z
    | m :: l => match destroy m z with Gone z => destroy_all l z | f => f end
    end.
  (** A kernel whose members were declared in this order. *)
  Definition tear_down (declared : list member) (z : standing) : fate := destroy_all (rev declared) z.

  (** The constructor: [init] and, if it throws, the destruction of the members. The server exists if its builder has returned; what the
      debugger and the interpreter have by then is [z]. *)
  Inductive outcome := Built (k : made) | Throws (e : exn) | Never (m : member) | Lost (why : string).
  Definition server_made (H : host) (x : args) (c : config) : bool :=
    let c := if String.eqb (g_key c) "" then with_key (h_guid H 2) c else c in
    match make_xauthentication (g_scheme c) (g_key c), make_server H (x_split x) c {| b_draws := 0; b_bound := [] |} with
    | Ok _, Ok _ => true
    | _, _ => false
    end.
  Definition construct (H : host) (x : args) (c : config) (debugger : list string) (cs : comms) (owned : list nat) : outcome :=
    match snd (init H x c) with
    | Ok k => Built k
    | UB w => Lost w
    | Exn e =>
        match tear_down members {| z_server := if server_made H x c then server_sockets (x_split x) else []; z_debugger := debugger;
                                   z_comms := cs; z_owned := owned; z_threads := false |} with
        | Gone _ => Throws e
        | Waits m _ => Never m
        | Dies w => Lost w
        end
    end.
End Destroy.
