(** The servers' threads as labelled transition systems over the kernel's atomic operations: the
    publisher and heartbeat threads, and the default server (src/xserver_zmq.cpp).
    ZeroMQ sockets are FIFO queues without high-water mark; PUB/SUB pipes inside the process do not
    drop messages; a REQ/REP pair is a slot. *)
From Verif Require Import Base Json Message Comm Tree Kernel.

(** A REQ/REP pair of sockets: nothing pending, a request, an answer. *)
Inductive slot := SIdle | SAsked (w : frames) | SAnswered (w : frames).
Definition asked (s : slot) : bool := match s with SAsked _ => true | _ => false end.

(** ** Publisher and heartbeat threads *)
(** Position in [xpublisher::run] (src/xpublisher.cpp:43-70) and [xheartbeat::run]
    (src/xheartbeat.cpp:39-66): in [zmq::poll]; about to receive, then to send, a message, with the
    controller's flag of this poll; about to answer the controller; out of the loop. *)
Inductive fpc := FPoll | FRecv (c : bool) | FSend (w : frames) (c : bool) | FCtl | FDone.
Record fwd := {
  f_in : list frames;      (* messages waiting on the listener (publisher) or ROUTER (heartbeat) socket *)
  f_out : list frames;     (* messages sent *)
  f_ctl : slot;            (* the controller socket *)
  f_pc : fpc
}.
(** One step of the thread; [None]: blocked or finished. *)
Definition fnext (f : fwd) : option fwd :=
  match f_pc f with
  | FPoll =>
      match f_in f with
      | _ :: _ => Some {| f_in := f_in f; f_out := f_out f; f_ctl := f_ctl f; f_pc := FRecv (asked (f_ctl f)) |}
      | [] =>
          if asked (f_ctl f) then Some {| f_in := f_in f; f_out := f_out f; f_ctl := f_ctl f; f_pc := FCtl |} else None
      end
  | FRecv c =>
      match f_in f with
      | w :: q => Some {| f_in := q; f_out := f_out f; f_ctl := f_ctl f; f_pc := FSend w c |}
      | [] => None
      end
  | FSend w c =>
      Some {| f_in := f_in f; f_out := f_out f ++ [w]; f_ctl := f_ctl f; f_pc := if c then FCtl else FPoll |}
  | FCtl =>
      match f_ctl f with
      | SAsked w => Some {| f_in := f_in f; f_out := f_out f; f_ctl := SAnswered w; f_pc := FDone |}
      | _ => None
      end
  | FDone => None
  end.
Definition f_init : fwd := {| f_in := []; f_out := []; f_ctl := SIdle; f_pc := FPoll |}.
Definition f_push (w : frames) (f : fwd) : fwd :=
  {| f_in := f_in f ++ [w]; f_out := f_out f; f_ctl := f_ctl f; f_pc := f_pc f |}.
Definition f_set (s : slot) (f : fwd) : fwd :=
  {| f_in := f_in f; f_out := f_out f; f_ctl := s; f_pc := f_pc f |}.

(** The stop command of [stop_channels], src/xserver_zmq.cpp:165 and src/xzmq_messenger.cpp:43. *)
Definition stop_frames : frames := ["stop"].
(** [zmq_msg_send] empties the message it sends: when the same [stop_msg] is sent again, an empty
    frame is sent. *)
Definition stop_again : frames := [""].

(** ** Memory shared by the threads *)
Record mem (U : Type) := {
  m_k : kstate U;
  m_ctlq : list frames;    (* waiting on the control socket *)
  m_shellq : list frames;  (* waiting on the shell socket *)
  m_stdin : nat;           (* messages that have arrived on the stdin socket *)
  m_stop : bool;           (* m_request_stop *)
  m_pub : fwd; m_hb : fwd;
  m_call : slot            (* xzmq_messenger::m_shell_controller / xshell::m_controller *)
}.
Arguments m_k {U}. Arguments m_ctlq {U}. Arguments m_shellq {U}. Arguments m_stdin {U}. Arguments m_stop {U}.
Arguments m_pub {U}. Arguments m_hb {U}. Arguments m_call {U}.

Section Mem.
  Context {U : Type}.
  Implicit Types (m : mem U).
  Definition set_k k m : mem U := {| m_k := k; m_ctlq := m_ctlq m; m_shellq := m_shellq m; m_stdin := m_stdin m; m_stop := m_stop m; m_pub := m_pub m; m_hb := m_hb m; m_call := m_call m |}.
  Definition set_ctlq q m : mem U := {| m_k := m_k m; m_ctlq := q; m_shellq := m_shellq m; m_stdin := m_stdin m; m_stop := m_stop m; m_pub := m_pub m; m_hb := m_hb m; m_call := m_call m |}.
  Definition set_shellq q m : mem U := {| m_k := m_k m; m_ctlq := m_ctlq m; m_shellq := q; m_stdin := m_stdin m; m_stop := m_stop m; m_pub := m_pub m; m_hb := m_hb m; m_call := m_call m |}.
  Definition set_mstdin n m : mem U := {| m_k := m_k m; m_ctlq := m_ctlq m; m_shellq := m_shellq m; m_stdin := n; m_stop := m_stop m; m_pub := m_pub m; m_hb := m_hb m; m_call := m_call m |}.
  Definition set_stop b m : mem U := {| m_k := m_k m; m_ctlq := m_ctlq m; m_shellq := m_shellq m; m_stdin := m_stdin m; m_stop := b; m_pub := m_pub m; m_hb := m_hb m; m_call := m_call m |}.
  Definition set_pub f m : mem U := {| m_k := m_k m; m_ctlq := m_ctlq m; m_shellq := m_shellq m; m_stdin := m_stdin m; m_stop := m_stop m; m_pub := f; m_hb := m_hb m; m_call := m_call m |}.
  Definition set_hb f m : mem U := {| m_k := m_k m; m_ctlq := m_ctlq m; m_shellq := m_shellq m; m_stdin := m_stdin m; m_stop := m_stop m; m_pub := m_pub m; m_hb := f; m_call := m_call m |}.
  Definition set_call c m : mem U := {| m_k := m_k m; m_ctlq := m_ctlq m; m_shellq := m_shellq m; m_stdin := m_stdin m; m_stop := m_stop m; m_pub := m_pub m; m_hb := m_hb m; m_call := c |}.

  (** What happens outside the kernel's variables at an event: [publish_impl]
      (src/xserver_zmq.cpp:75-78, src/xserver_zmq_split.cpp:59-70) sends to the publisher's listener,
      [stop_impl] (src/xserver_zmq.cpp:149-152, src/xserver_zmq_split.cpp:77-80) sets the flag. *)
  Definition on_event (e : event) m : mem U :=
    match e with
    | EPublish _ _ w => set_pub (f_push w (m_pub m)) m
    | EStop => set_stop true m
    | _ => m
    end.

  (** [mop o m m' x]: a thread performs [o] on the memory [m]; the new memory is [m'] and the answer
      [x]. [KShellLen] may answer any number: it is the number of rounds the loop of
      [abort_queue_impl] is going to make. [KStdin] waits for a message. [KCall] is not atomic and
      is handled by the threads. *)
  Definition mop (o : kop U) : mem U -> mem U -> kans o -> Prop :=
    match o return mem U -> mem U -> kans o -> Prop with
    | KShellPop => fun m m' x =>
        match m_shellq m with
        | [] => m' = m /\ x = None
        | w :: q => m' = set_shellq q m /\ x = Some w
        end
    | KShellLen => fun m m' x => m' = m
    | KStdin => fun m m' x =>
        k_stdin (m_k m) < m_stdin m /\
        m' = set_k (fst (kstep KStdin (m_k m))) m /\ x = snd (kstep KStdin (m_k m))
    | KCall _ => fun _ _ _ => False
    | KEmit e => fun m m' x => m' = on_event e (set_k (fst (kstep (KEmit e) (m_k m))) m)
    | o => fun m m' x => m' = set_k (fst (kstep o (m_k m))) m /\ x = snd (kstep o (m_k m))
    end.
End Mem.

(** ** The default server *)
(** What is observed of a step. *)
Inductive label :=
| Arrive (c : channel) (w : frames)     (* a message reaches the shell or control socket *)
| HbArrive (w : frames)                 (* ... the heartbeat socket *)
| StdinArrive                           (* ... the stdin socket *)
| Poll (control shell : bool)           (* zmq::poll returns with these flags *)
| Hand (c : channel) (w : frames)       (* a listener is called *)
| Took (w : frames)                     (* a non-blocking receive of abort_queue_impl finds [w] *)
| StopRequest                           (* xserver::stop *)
| Emitted (e : event)                   (* any other event *)
| Tau.

Section Default.
  Context {U : Type}.
  (** The registered listeners. *)
  Variable listener : channel -> frames -> kprog U unit.

  (** Position in [start_impl] (src/xserver_zmq.cpp:80-97), [poll] (111-131) and [stop_channels]
      (163-175). *)
  Inductive mpc :=
  | MTest                                          (* while (!m_request_stop) *)
  | MPoll                                          (* zmq::poll *)
  | MControl (shell : bool)                        (* recv on m_controller; [shell]: flag of the poll *)
  | MInControl (p : kprog U unit) (shell : bool)   (* notify_control_listener *)
  | MShell (shell : bool)                          (* if (!m_request_stop && items[1]...) *)
  | MRecvShell                                     (* recv on m_shell *)
  | MInShell (p : kprog U unit)                    (* notify_shell_listener *)
  | MStop1 | MWait1 | MStop2 | MWait2
  | MExit                                          (* std::exit *)
  | MCrash.                                        (* an exception leaves the loop: std::terminate *)
  Record dsys := { d_pc : mpc; d_mem : mem U }.

  Definition event_label (e : event) : label := match e with EStop => StopRequest | e => Emitted e end.
  Definition op_label (o : kop U) : kans o -> label :=
    match o return kans o -> label with
    | KShellPop => fun x => match x with Some w => Took w | None => Tau end
    | KEmit e => fun _ => event_label e
    | _ => fun _ => Tau
    end.
  Definition failing {A} (p : kprog U A) : Prop := match p with Throw _ | Stuck _ => True | _ => False end.

  (** Steps of the main thread. *)
  Inductive main_step : dsys -> label -> dsys -> Prop :=
  | ms_go m : m_stop m = false -> main_step {| d_pc := MTest; d_mem := m |} Tau {| d_pc := MPoll; d_mem := m |}
  | ms_leave m : m_stop m = true -> main_step {| d_pc := MTest; d_mem := m |} Tau {| d_pc := MStop1; d_mem := m |}
  | ms_poll m : m_ctlq m <> [] \/ m_shellq m <> [] ->
      let rc := negb (Nat.eqb (List.length (m_ctlq m)) 0) in
      let rs := negb (Nat.eqb (List.length (m_shellq m)) 0) in
      main_step {| d_pc := MPoll; d_mem := m |} (Poll rc rs) {| d_pc := if rc then MControl rs else MShell rs; d_mem := m |}
  | ms_control m w q rs : m_ctlq m = w :: q ->
      main_step {| d_pc := MControl rs; d_mem := m |} (Hand CONTROL w)
                {| d_pc := MInControl (listener CONTROL w) rs; d_mem := set_ctlq q m |}
  | ms_control_op m m' o k x rs : mop o m m' x ->
      main_step {| d_pc := MInControl (Do o k) rs; d_mem := m |} (op_label o x) {| d_pc := MInControl (k x) rs; d_mem := m' |}
  | ms_control_end m rs a : main_step {| d_pc := MInControl (Ret a) rs; d_mem := m |} Tau {| d_pc := MShell rs; d_mem := m |}
  | ms_control_crash m rs p : failing p -> main_step {| d_pc := MInControl p rs; d_mem := m |} Tau {| d_pc := MCrash; d_mem := m |}
  | ms_shell m rs :
      main_step {| d_pc := MShell rs; d_mem := m |} Tau {| d_pc := if negb (m_stop m) && rs then MRecvShell else MTest; d_mem := m |}
  | ms_recv_shell m w q : m_shellq m = w :: q ->
      main_step {| d_pc := MRecvShell; d_mem := m |} (Hand SHELL w)
                {| d_pc := MInShell (listener SHELL w); d_mem := set_shellq q m |}
  | ms_shell_op m m' o k x : mop o m m' x ->
      main_step {| d_pc := MInShell (Do o k); d_mem := m |} (op_label o x) {| d_pc := MInShell (k x); d_mem := m' |}
  | ms_shell_end m a : main_step {| d_pc := MInShell (Ret a); d_mem := m |} Tau {| d_pc := MTest; d_mem := m |}
  | ms_shell_crash m p : failing p -> main_step {| d_pc := MInShell p; d_mem := m |} Tau {| d_pc := MCrash; d_mem := m |}
  | ms_stop1 m : f_ctl (m_pub m) = SIdle ->
      main_step {| d_pc := MStop1; d_mem := m |} Tau {| d_pc := MWait1; d_mem := set_pub (f_set (SAsked stop_frames) (m_pub m)) m |}
  | ms_wait1 m w : f_ctl (m_pub m) = SAnswered w ->
      main_step {| d_pc := MWait1; d_mem := m |} Tau {| d_pc := MStop2; d_mem := set_pub (f_set SIdle (m_pub m)) m |}
  | ms_stop2 m : f_ctl (m_hb m) = SIdle ->
      main_step {| d_pc := MStop2; d_mem := m |} Tau {| d_pc := MWait2; d_mem := set_hb (f_set (SAsked stop_again) (m_hb m)) m |}
  | ms_wait2 m w : f_ctl (m_hb m) = SAnswered w ->
      main_step {| d_pc := MWait2; d_mem := m |} Tau {| d_pc := MExit; d_mem := set_hb (f_set SIdle (m_hb m)) m |}.

  (** A step of the process: the environment, the main thread, or one of the two other threads.
      After [std::exit] or [std::terminate] the process makes no step. *)
  Definition alive (pc : mpc) : Prop := match pc with MExit | MCrash => False | _ => True end.
  Inductive dstep : dsys -> label -> dsys -> Prop :=
  | ds_main s l s' : main_step s l s' -> dstep s l s'
  | ds_pub pc m f : alive pc -> fnext (m_pub m) = Some f -> dstep {| d_pc := pc; d_mem := m |} Tau {| d_pc := pc; d_mem := set_pub f m |}
  | ds_hb pc m f : alive pc -> fnext (m_hb m) = Some f -> dstep {| d_pc := pc; d_mem := m |} Tau {| d_pc := pc; d_mem := set_hb f m |}
  | ds_control pc m w : dstep {| d_pc := pc; d_mem := m |} (Arrive CONTROL w) {| d_pc := pc; d_mem := set_ctlq (m_ctlq m ++ [w]) m |}
  | ds_shell pc m w : dstep {| d_pc := pc; d_mem := m |} (Arrive SHELL w) {| d_pc := pc; d_mem := set_shellq (m_shellq m ++ [w]) m |}
  | ds_beat pc m w : dstep {| d_pc := pc; d_mem := m |} (HbArrive w) {| d_pc := pc; d_mem := set_hb (f_push w (m_hb m)) m |}
  | ds_stdin pc m : dstep {| d_pc := pc; d_mem := m |} StdinArrive {| d_pc := pc; d_mem := set_mstdin (S (m_stdin m)) m |}.
  Inductive drun : dsys -> list label -> dsys -> Prop :=
  | dr_nil s : drun s [] s
  | dr_snoc s ls s1 l s2 : drun s ls s1 -> dstep s1 l s2 -> drun s (ls ++ [l]) s2.

  (** [start_impl] up to the loop: the threads run, the start message is published, the flag is
      cleared. [k] is the kernel's state; the [k_stdin k] messages read so far from the stdin socket (by
      the configuration of the interpreter) are no longer waiting on it. *)
  Definition d_init (k : kstate U) (start : frames) : dsys :=
    {| d_pc := MTest;
       d_mem := {| m_k := k; m_ctlq := []; m_shellq := []; m_stdin := k_stdin k; m_stop := false;
                   m_pub := f_push start f_init; m_hb := f_init; m_call := SIdle |} |}.
End Default.
Arguments mpc : clear implicits. Arguments dsys : clear implicits.
