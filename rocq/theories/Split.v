(** The split servers (src/xserver_zmq_split.cpp, src/xserver_control_main.cpp,
    src/xserver_shell_main.cpp): four threads, the shell (src/xshell.cpp), control
    (src/xcontrol.cpp with src/xzmq_messenger.cpp), publisher and heartbeat threads, interleaved at
    the kernel's atomic operations. Data races between the shell and control threads are not given
    the meaning C++ gives them (undefined behaviour): accesses are sequentially consistent. *)
From Verif Require Import Base Json Message Comm Tree Kernel Server.

(** Which thread runs in [main]: the one whose end exits the process. *)
Inductive variant := ControlMain | ShellMain.
Inductive tid := TShell | TControl | TPub | TBeat | TEnv.

(** Observations. *)
Inductive slabel :=
| YArrive (c : channel) (w : frames) | YBeat (w : frames) | YStdin   (* arrivals *)
| YHand (c : channel) (w : frames)       (* thread [c] calls its listener *)
| YEvent (c : channel) (e : event)       (* an event of thread [c] *)
| YTook (c : channel) (w : frames)       (* thread [c] takes [w] in abort_queue *)
| YCall (c : channel) (w : frames)       (* thread [c] sends a request to the shell's controller socket *)
| YAnswer (c : channel) (w : frames)     (* ... and receives the answer *)
| YIntern (w : frames)                   (* the shell thread calls the internal listener *)
| YInternEnd (w : frames)                (* ... and sends its answer *)
| YTau (t : tid).
Definition chan_tid (c : channel) : tid := match c with SHELL => TShell | CONTROL => TControl end.
Definition who (l : slabel) : tid :=
  match l with
  | YArrive _ _ | YBeat _ | YStdin => TEnv
  | YHand c _ | YEvent c _ | YTook c _ | YCall c _ | YAnswer c _ => chan_tid c
  | YIntern _ | YInternEnd _ => TShell
  | YTau t => t
  end.

Section Split.
  Context {U : Type}.
  Variable v : variant.
  Variable listener : channel -> frames -> kprog U unit.   (* shell and control listeners *)
  Variable internal : frames -> kprog U frames.            (* internal listener *)

  (** A listener running in a thread: between two operations, or waiting in
      [xzmq_messenger::send_to_shell_impl] for the shell thread's answer. *)
  Inductive going (A : Type) :=
  | Going (p : kprog U A)
  | Calling (k : frames -> kprog U A).
  Arguments Going {A} p. Arguments Calling {A} k.

  (** Position in [xshell::run], src/xshell.cpp:54-90, and then [start_impl] of the shell main server. *)
  Inductive shpc :=
  | SPoll                                        (* zmq::poll *)
  | SRecv (c : bool)                             (* recv on m_shell; [c]: the controller's flag of this poll *)
  | SRun (g : going unit) (c : bool)             (* notify_shell_listener *)
  | SCtl                                         (* recv on m_controller *)
  | SIntern (g : going frames)                   (* notify_internal_listener *)
  | SOut                                         (* out of the loop *)
  | SEnd.                                        (* returned (control main) *)
  (** Position in [xcontrol::run], src/xcontrol.cpp:55-68, with [stop_channels],
      src/xzmq_messenger.cpp:41-57. *)
  Inductive ctpc :=
  | CTest                                        (* while (!m_request_stop) *)
  | CRecv                                        (* recv on m_control *)
  | CRun (g : going unit)                        (* notify_control_listener *)
  | CStopShell | CWaitShell | CStopPub | CWaitPub | CStopHb | CWaitHb
  | CNotify                                      (* notify_control_stopped *)
  | COut                                         (* returned *)
  | CEnd.
  Inductive ending := Exited | Crashed.
  Record ysys := {
    y_sh : shpc;
    y_ct : ctpc;
    y_mem : mem U;
    y_stopped : bool;           (* m_control_stopped *)
    y_end : option ending       (* std::exit or std::terminate was called *)
  }.

  (** One step of a listener running in thread [c]. *)
  Definition label_of (c : channel) (o : kop U) : kans o -> slabel :=
    match o return kans o -> slabel with
    | KShellPop => fun x => match x with Some w => YTook c w | None => YTau (chan_tid c) end
    | KEmit e => fun _ => YEvent c e
    | _ => fun _ => YTau (chan_tid c)
    end.
  Inductive gstep (c : channel) {A} : going A -> mem U -> slabel -> going A -> mem U -> Prop :=
  | gs_op o k m m' x : mop o m m' x -> gstep c (Going (Do o k)) m (label_of c o x) (Going (k x)) m'
  | gs_call w k m : m_call m = SIdle ->
      gstep c (Going (Do (KCall w) k)) m (YCall c w) (Calling k) (set_call (SAsked w) m)
  | gs_answer k w m : m_call m = SAnswered w ->
      gstep c (Calling k) m (YAnswer c w) (Going (k w)) (set_call SIdle m).

  (** The shell thread. *)
  Inductive shell_step : shpc -> mem U -> slabel -> shpc -> mem U -> Prop :=
  | ss_poll_shell m : m_shellq m <> [] ->
      shell_step SPoll m (YTau TShell) (SRecv (asked (m_call m))) m
  | ss_poll_ctl m : m_shellq m = [] -> asked (m_call m) = true ->
      shell_step SPoll m (YTau TShell) SCtl m
  | ss_recv m w q b : m_shellq m = w :: q ->
      shell_step (SRecv b) m (YHand SHELL w) (SRun (Going (listener SHELL w)) b) (set_shellq q m)
  | ss_run m g l g' m' b : gstep SHELL g m l g' m' -> shell_step (SRun g b) m l (SRun g' b) m'
  | ss_ret m a b : shell_step (SRun (Going (Ret a)) b) m (YTau TShell) (if b then SCtl else SPoll) m
  | ss_stop m f w : m_call m = SAsked (f :: w) -> f = "stop" ->
      shell_step SCtl m (YTau TShell) SOut (set_call (SAnswered (f :: w)) m)
  | ss_intern m f w : m_call m = SAsked (f :: w) -> f <> "stop" ->
      shell_step SCtl m (YIntern (f :: w)) (SIntern (Going (internal (f :: w)))) m
  | ss_intern_run m g l g' m' : gstep SHELL g m l g' m' -> shell_step (SIntern g) m l (SIntern g') m'
  | ss_intern_ret m w : shell_step (SIntern (Going (Ret w))) m (YInternEnd w) SPoll (set_call (SAnswered w) m).

  (** The control thread, except its last step. *)
  Inductive control_step : ctpc -> mem U -> slabel -> ctpc -> mem U -> Prop :=
  | cs_go m : m_stop m = false -> control_step CTest m (YTau TControl) CRecv m
  | cs_leave m : m_stop m = true -> control_step CTest m (YTau TControl) CStopShell m
  | cs_recv m w q : m_ctlq m = w :: q ->
      control_step CRecv m (YHand CONTROL w) (CRun (Going (listener CONTROL w))) (set_ctlq q m)
  | cs_run m g l g' m' : gstep CONTROL g m l g' m' -> control_step (CRun g) m l (CRun g') m'
  | cs_ret m a : control_step (CRun (Going (Ret a))) m (YTau TControl) CTest m
  | cs_stop_shell m : m_call m = SIdle ->
      control_step CStopShell m (YTau TControl) CWaitShell (set_call (SAsked stop_frames) m)
  | cs_wait_shell m w : m_call m = SAnswered w ->
      control_step CWaitShell m (YTau TControl) CStopPub (set_call SIdle m)
  | cs_stop_pub m : f_ctl (m_pub m) = SIdle ->
      control_step CStopPub m (YTau TControl) CWaitPub (set_pub (f_set (SAsked stop_again) (m_pub m)) m)
  | cs_wait_pub m w : f_ctl (m_pub m) = SAnswered w ->
      control_step CWaitPub m (YTau TControl) CStopHb (set_pub (f_set SIdle (m_pub m)) m)
  | cs_stop_hb m : f_ctl (m_hb m) = SIdle ->
      control_step CStopHb m (YTau TControl) CWaitHb (set_hb (f_set (SAsked stop_again) (m_hb m)) m)
  | cs_wait_hb m w : f_ctl (m_hb m) = SAnswered w ->
      control_step CWaitHb m (YTau TControl) CNotify (set_hb (f_set SIdle (m_hb m)) m).

  (** A listener that throws (or has no defined behaviour) in this position. *)
  Definition dying (g : shpc) : Prop :=
    match g with SRun (Going p) _ => failing p | SIntern (Going p) => failing p | _ => False end.
  Definition dying_c (g : ctpc) : Prop := match g with CRun (Going p) => failing p | _ => False end.

  (** Steps of the process, by thread. No step is made after its end. *)
  Inductive ystep : ysys -> slabel -> ysys -> Prop :=
  | y_shell a c m b l a' m' : shell_step a m l a' m' ->
      ystep {| y_sh := a; y_ct := c; y_mem := m; y_stopped := b; y_end := None |} l
            {| y_sh := a'; y_ct := c; y_mem := m'; y_stopped := b; y_end := None |}
  | y_control a c m b l c' m' : control_step c m l c' m' ->
      ystep {| y_sh := a; y_ct := c; y_mem := m; y_stopped := b; y_end := None |} l
            {| y_sh := a; y_ct := c'; y_mem := m'; y_stopped := b; y_end := None |}
  | y_notify a m b :
      ystep {| y_sh := a; y_ct := CNotify; y_mem := m; y_stopped := b; y_end := None |} (YTau TControl)
            {| y_sh := a; y_ct := COut; y_mem := m; y_stopped := true; y_end := None |}
  | y_out_control a m b : (* xserver_control_main::start_impl, lines 38-40: std::exit *)
      ystep {| y_sh := a; y_ct := COut; y_mem := m; y_stopped := b; y_end := None |} (YTau TControl)
            {| y_sh := a; y_ct := CEnd; y_mem := m; y_stopped := b;
               y_end := match v with ControlMain => Some Exited | ShellMain => None end |}
  | y_out_shell c m b : (* xserver_shell_main::start_impl, lines 42-49 *)
      (v = ShellMain -> b = true) ->
      ystep {| y_sh := SOut; y_ct := c; y_mem := m; y_stopped := b; y_end := None |} (YTau TShell)
            {| y_sh := SEnd; y_ct := c; y_mem := m; y_stopped := b;
               y_end := match v with ControlMain => None | ShellMain => Some Exited end |}
  | y_crash_shell a c m b : dying a ->
      ystep {| y_sh := a; y_ct := c; y_mem := m; y_stopped := b; y_end := None |} (YTau TShell)
            {| y_sh := a; y_ct := c; y_mem := m; y_stopped := b; y_end := Some Crashed |}
  | y_crash_control a c m b : dying_c c ->
      ystep {| y_sh := a; y_ct := c; y_mem := m; y_stopped := b; y_end := None |} (YTau TControl)
            {| y_sh := a; y_ct := c; y_mem := m; y_stopped := b; y_end := Some Crashed |}
  | y_publish a c m b f : fnext (m_pub m) = Some f ->
      ystep {| y_sh := a; y_ct := c; y_mem := m; y_stopped := b; y_end := None |} (YTau TPub)
            {| y_sh := a; y_ct := c; y_mem := set_pub f m; y_stopped := b; y_end := None |}
  | y_beat a c m b f : fnext (m_hb m) = Some f ->
      ystep {| y_sh := a; y_ct := c; y_mem := m; y_stopped := b; y_end := None |} (YTau TBeat)
            {| y_sh := a; y_ct := c; y_mem := set_hb f m; y_stopped := b; y_end := None |}
  | y_arrive a c m b ch w :
      ystep {| y_sh := a; y_ct := c; y_mem := m; y_stopped := b; y_end := None |} (YArrive ch w)
            {| y_sh := a; y_ct := c;
               y_mem := match ch with SHELL => set_shellq (m_shellq m ++ [w]) m | CONTROL => set_ctlq (m_ctlq m ++ [w]) m end;
               y_stopped := b; y_end := None |}
  | y_hb_arrive a c m b w :
      ystep {| y_sh := a; y_ct := c; y_mem := m; y_stopped := b; y_end := None |} (YBeat w)
            {| y_sh := a; y_ct := c; y_mem := set_hb (f_push w (m_hb m)) m; y_stopped := b; y_end := None |}
  | y_stdin_arrive a c m b :
      ystep {| y_sh := a; y_ct := c; y_mem := m; y_stopped := b; y_end := None |} YStdin
            {| y_sh := a; y_ct := c; y_mem := set_mstdin (S (m_stdin m)) m; y_stopped := b; y_end := None |}.
  Inductive yrun : ysys -> list slabel -> ysys -> Prop :=
  | yr_nil s : yrun s [] s
  | yr_snoc s ls s1 l s2 : yrun s ls s1 -> ystep s1 l s2 -> yrun s (ls ++ [l]) s2.

  (** After [start_impl] has started the threads and published the start message. *)
  Definition y_init (k : kstate U) (start : frames) : ysys :=
    {| y_sh := SPoll; y_ct := CTest;
       y_mem := {| m_k := k; m_ctlq := []; m_shellq := []; m_stdin := k_stdin k; m_stop := false;
                   m_pub := f_push start f_init; m_hb := f_init; m_call := SIdle |};
       y_stopped := false; y_end := None |}.
End Split.
Arguments going : clear implicits. Arguments shpc : clear implicits. Arguments ctpc : clear implicits. Arguments ysys : clear implicits.
Arguments Going {U A} p. Arguments Calling {U A} k.
