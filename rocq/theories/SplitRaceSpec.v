(** Vocabulary: which objects of xeus the threads of the split servers use, and data races on them. The
    variables of the user's code ([KUser]) are not objects of xeus; the function of the system that makes
    identifiers ([KGuid]) may be called from any thread; the queues behind the sockets are ZeroMQ's. The
    date of a header is made by [std::gmtime] ([KNow]), which returns a pointer to one object for all threads. *)
From Verif Require Import Base Json Message Comm Tree Kernel KernelSpec Server Split.

Inductive spot :=
| PIds (c : channel) | PHeader (c : channel)    (* m_parent_id, m_parent_header, src/xkernel_core.hpp:137-138 *)
| PCount                                        (* xinterpreter::m_execution_count *)
| PHistory                                      (* the history manager's list *)
| PComms                                        (* the comm manager's maps, the comms and the targets *)
| PInput | PValue                               (* m_input_reply_handler, [value] in src/xinput.cpp:22 *)
| PShell | PStdin                               (* xshell::m_shell, m_stdin *)
| PPub (c : channel)                            (* m_publisher_pub of xshell and of xcontrol *)
| PShellCtl                                     (* xshell::m_controller *)
| PControl                                      (* xcontrol::m_control *)
| PMsgShell | PMsgPub | PMsgHb                  (* the sockets of xzmq_messenger *)
| PRequestStop                                  (* xcontrol::m_request_stop *)
| PStopped                                      (* xserver_zmq_split::m_control_stopped *)
| PCalendar.                                    (* the object of std::gmtime, src/xmessage.cpp:236 *)
(** An object and whether it is changed. Every use of a socket changes it: ZeroMQ's sockets may not be
    used by two threads at the same time. *)
Definition access : Type := spot * bool.

(** What an operation of the kernel uses. The markers ([EInterp], ...) use nothing. *)
Definition op_uses {U} (o : kop U) : list access :=
  match o with
  | KPid c => [(PIds c, false)] | KSetPid c _ => [(PIds c, true)]
  | KPhdr c => [(PHeader c, false)] | KSetPhdr c _ => [(PHeader c, true)]
  | KEmit (EPublish c _ _) => [(PPub c, true)]
  | KEmit (ESend SHELL _ _) => [(PShell, true)]
  | KEmit (ESend CONTROL _ _) => [(PControl, true)]
  | KEmit (EStdin _ _) | KStdin => [(PStdin, true)]
  | KEmit EStop => [(PRequestStop, true)]
  | KEmit _ => []
  | KShellPop => [(PShell, true)]
  | KCall _ => [(PMsgShell, true)]
  | KCount => [(PCount, false)] | KSetCount _ => [(PCount, true)]
  | KHistory => [(PHistory, false)] | KSetHistory _ => [(PHistory, true)]
  | KComms => [(PComms, false)] | KSetComms _ => [(PComms, true)]
  | KInput => [(PInput, false)] | KSetInput _ => [(PInput, true)]
  | KValue => [(PValue, false)] | KSetValue _ => [(PValue, true)]
  | KNow => [(PCalendar, true)]
  | KGuid | KShellLen | KUser | KSetUser _ => []
  end.
Definition going_uses {U A} (g : going U A) : list access :=
  match g with Going (Do o _) => op_uses o | Going _ => [] | Calling _ => [(PMsgShell, true)] end.
(** What a thread is using, or is about to use. *)
Definition shell_uses {U} (v : variant) (a : shpc U) : list access :=
  match a with
  | SPoll => [(PShell, true); (PShellCtl, true)]
  | SRecv _ => [(PShell, true)]
  | SRun g _ => going_uses g
  | SCtl => [(PShellCtl, true)]
  | SIntern (Going (Ret _)) => [(PShellCtl, true)]
  | SIntern g => going_uses g
  | SOut => match v with ShellMain => [(PStopped, false)] | ControlMain => [] end
  | SEnd => []
  end.
Definition control_uses {U} (b : ctpc U) : list access :=
  match b with
  | CTest => [(PRequestStop, false)]
  | CRecv => [(PControl, true)]
  | CRun g => going_uses g
  | CStopShell | CWaitShell => [(PMsgShell, true)]
  | CStopPub | CWaitPub => [(PMsgPub, true)]
  | CStopHb | CWaitHb => [(PMsgHb, true)]
  | CNotify => [(PStopped, true)]
  | COut | CEnd => []
  end.
Definition uses {U} (v : variant) (c : channel) (s : ysys U) : list access :=
  match c with SHELL => shell_uses v (y_sh s) | CONTROL => control_uses (y_ct s) end.
(** The shell and the control threads use the same object at the same time and one changes it. *)
Definition race {U} (v : variant) (s : ysys U) (p : spot) : Prop :=
  y_end s = None /\ exists x y, In (p, x) (uses v SHELL s) /\ In (p, y) (uses v CONTROL s) /\ (x = true \/ y = true).

(** The thread that may use an object; the flag [m_control_stopped] is meant for both, and the object of
    [std::gmtime] is nobody's. *)
Definition home (p : spot) : option channel :=
  match p with
  | PIds c | PHeader c | PPub c => Some c
  | PCount | PHistory | PComms | PInput | PValue | PShell | PStdin | PShellCtl => Some SHELL
  | PControl | PMsgShell | PMsgPub | PMsgHb | PRequestStop => Some CONTROL
  | PStopped | PCalendar => None
  end.

(** The message types with a handler. *)
Definition known_types : list string :=
  ["execute_request"; "complete_request"; "inspect_request"; "history_request"; "is_complete_request"; "comm_info_request";
   "comm_open"; "comm_close"; "comm_msg"; "kernel_info_request"; "shutdown_request"; "interrupt_request"; "debug_request"].
Section Placed.
  Context {U : Type} (E : env U).
  (** User code that may run in the control thread: it has its own variables, the identifiers and the
      clock, and it may call the interpreter in the shell thread. *)
  Definition own_op (o : uop1 U) : Prop := match o with AOp (AGet | APut _ | AGuid | ANow) => True | _ => False end.
  Definition discreet {A} (t : ucode U A) : Prop := always own_op t.
  Definition discreet2 {A} (t : ucode2 U A) : Prop :=
    always (fun o : uop2 U => match o with AOp1 o => own_op o | ASendToShell _ => True end) t.
  (** The messages meant for a channel: on the control channel, interrupt, shutdown, debug and
      kernel information requests, handled by discreet code; on the shell channel, all the others. *)
  Inductive placed : channel -> string -> Prop :=
  | pl_shell ty : ~ In ty ["shutdown_request"; "interrupt_request"; "debug_request"] -> placed SHELL ty
  | pl_interrupt : placed CONTROL "interrupt_request"
  | pl_shutdown : discreet (e_interp E RShutdown) -> placed CONTROL "shutdown_request"
  | pl_kernel_info : discreet (e_interp E RKernelInfo) -> placed CONTROL "kernel_info_request"
  | pl_debug : (forall d h ct, e_debugger E = Some d -> discreet2 (d h ct)) -> placed CONTROL "debug_request"
  | pl_unknown c ty : ~ In ty known_types -> placed c ty.
  Definition well_placed (c : channel) (w : frames) : Prop :=
    forall m ty, accepted E w m -> typed (m_header (m_base m)) ty -> placed c ty.
End Placed.
