(** The set of stopped threads of the debugger, [m_stopped_threads] with [m_stopped_mutex]
    (include/xeus/xdebugger_base.hpp:115-116), used by the thread that handles debug requests and by the threads of the clients of the
    debug adapter: src/xdebugger_base.cpp:76-107, 282-294, 315-380, src/xdap_tcp_client.cpp:125-172, 324-346.
    Only what uses the set, and what orders these uses, is here: the requests and their replies through the client, the events, the end
    of the client's loop. The handshake is left out; the functions themselves are in [Debugger] and [Dap]. *)
From Verif Require Import Base Debugger.

(** Requests of the user's client, as far as they matter: [Other] is passed on to the adapter. *)
Inductive drequest := Initialize | Info | Other | Disconnect.
(** Messages of the adapter; [Response d]: a response, to "disconnect" if [d]. *)
Inductive amsg := StoppedAt (z : Z) | ContinuedAt (z : Z) | Event | Response (d : bool).
Definition uses_set (m : amsg) : bool := match m with StoppedAt _ | ContinuedAt _ => true | _ => false end.

(** Where the thread of the debugger is. *)
Inductive cpoint :=
| Idle
| Locking               (* debug_info_request before its lock_guard *)
| Reading               (* ... before it reads the set, holding the mutex *)
| Waiting (d : bool)    (* forward_message: sent, to be received; [d]: the request is "disconnect" *)
| Stopping              (* in stop() *)
| Clearing.             (* before m_stopped_threads.clear() *)
(** Where the thread of a client is: in the loop, in stopped_event or continued_event before the lock, or before the set. *)
Inductive epoint := Loop | Wants (m : amsg) | Holds (m : amsg).
Record client := {
  l_queue : list amsg;      (* m_message_queue *)
  l_at : epoint;
  l_pending : option bool;  (* the request received on m_controller, to be answered *)
  l_answer : bool;          (* an answer is on its way to the debugger *)
  l_stop : bool;            (* m_request_stop *)
  l_gone : bool }.          (* start_debugger has returned *)
Definition fresh_client : client := {| l_queue := []; l_at := Loop; l_pending := None; l_answer := false; l_stop := false; l_gone := false |}.
Inductive holder := ByDebugger | ByClient (i : nat).
(** The clients: the last one is the one connected to the sockets of the debugger. *)
Record bench := {
  s_todo : list drequest; s_at : cpoint; s_started : bool; s_set : list Z; s_lock : option holder; s_clients : list client }.

Section Stopped.
  (** [joins]: the [stop()] of the derived class waits for the thread of the client. [honest]: the adapter answers each request with a
      response of this request. [proper q]: what the adapter may send in one go. *)
  Context (joins honest : bool) (proper : list amsg -> Prop).

  Definition with_clients (l : list client) (s : bench) : bench :=
    {| s_todo := s_todo s; s_at := s_at s; s_started := s_started s; s_set := s_set s; s_lock := s_lock s; s_clients := l |}.
  Definition at_point (p : cpoint) (s : bench) : bench :=
    {| s_todo := s_todo s; s_at := p; s_started := s_started s; s_set := s_set s; s_lock := s_lock s; s_clients := s_clients s |}.
  Definition replace (i : nat) (c : client) (s : bench) : bench :=
    with_clients (firstn i (s_clients s) ++ c :: skipn (S i) (s_clients s)) s.
  Definition ask (d : bool) (c : client) : client :=
    {| l_queue := l_queue c; l_at := l_at c; l_pending := Some d; l_answer := l_answer c; l_stop := l_stop c; l_gone := l_gone c |}.
  Definition answered (c : client) : client :=
    {| l_queue := l_queue c; l_at := l_at c; l_pending := l_pending c; l_answer := false; l_stop := l_stop c; l_gone := l_gone c |}.
  Definition took (r : list drequest) (s : bench) : bench :=
    {| s_todo := r; s_at := s_at s; s_started := s_started s; s_set := s_set s; s_lock := s_lock s; s_clients := s_clients s |}.

  (** What is done to the set. *)
  Definition apply_event (m : amsg) (l : list Z) : list Z :=
    match m with StoppedAt z => zinsert z l | ContinuedAt z => zremove z l | _ => l end.

  (** The thread of the debugger: process_request_impl. *)
  Inductive dmove : bench -> bench -> Prop :=
  | M_info s r : s_at s = Idle -> s_todo s = Info :: r -> dmove s (at_point Locking (took r s))
  | M_lock s : s_at s = Locking -> s_lock s = None ->
      dmove s {| s_todo := s_todo s; s_at := Reading; s_started := s_started s; s_set := s_set s; s_lock := Some ByDebugger; s_clients := s_clients s |}
  | M_read s : s_at s = Reading ->
      dmove s {| s_todo := s_todo s; s_at := Idle; s_started := s_started s; s_set := s_set s; s_lock := None; s_clients := s_clients s |}
  | M_start s r : s_at s = Idle -> s_todo s = Initialize :: r -> s_started s = false ->
      dmove s {| s_todo := r; s_at := Waiting false; s_started := true; s_set := s_set s; s_lock := s_lock s;
                 s_clients := s_clients s ++ [ask false fresh_client] |}
  | M_start_fails s r : s_at s = Idle -> s_todo s = Initialize :: r -> s_started s = false -> dmove s (took r s)
  | M_forward s q r cs c : s_at s = Idle -> s_todo s = q :: r -> q = Other \/ q = Initialize -> s_started s = true -> s_clients s = (cs ++ [c])%list ->
      dmove s (at_point (Waiting false) (with_clients (cs ++ [ask false c]) (took r s)))
  | M_ignore s r : s_at s = Idle -> s_todo s = Other :: r -> s_started s = false -> dmove s (took r s)
  | M_disconnect s r cs c : s_at s = Idle -> s_todo s = Disconnect :: r -> s_started s = true -> s_clients s = (cs ++ [c])%list ->
      dmove s (at_point (Waiting true) (with_clients (cs ++ [ask true c]) (took r s)))
  | M_disconnect_idle s r : s_at s = Idle -> s_todo s = Disconnect :: r -> s_started s = false -> dmove s (at_point Stopping (took r s))
  | M_reply s d cs c : s_at s = Waiting d -> s_clients s = (cs ++ [c])%list -> l_answer c = true ->
      dmove s (at_point (if d then Stopping else Idle) (with_clients (cs ++ [answered c]) s))
  | M_stopped s : s_at s = Stopping -> (joins = true -> forall c, In c (s_clients s) -> l_gone c = true) -> dmove s (at_point Clearing s)
  | M_clear s : s_at s = Clearing ->
      dmove s {| s_todo := s_todo s; s_at := Idle; s_started := false; s_set := []; s_lock := s_lock s; s_clients := s_clients s |}.

  (** The thread of the [i]-th client: the loop, process_message_queue, the event callback. A response that nobody waits for throws and
      ends the process: no step. *)
  Inductive lmove (i : nat) (s : bench) (c : client) : bench -> Prop :=
  | L_read q : l_at c = Loop -> l_queue c = [] -> l_stop c = false -> l_gone c = false -> proper q ->
      lmove i s c (replace i {| l_queue := q; l_at := Loop; l_pending := l_pending c; l_answer := l_answer c; l_stop := false; l_gone := false |} s)
  | L_event m q : l_at c = Loop -> l_queue c = m :: q -> uses_set m = true ->
      lmove i s c (replace i {| l_queue := q; l_at := Wants m; l_pending := l_pending c; l_answer := l_answer c; l_stop := l_stop c; l_gone := l_gone c |} s)
  | L_other q : l_at c = Loop -> l_queue c = Event :: q ->
      lmove i s c (replace i {| l_queue := q; l_at := Loop; l_pending := l_pending c; l_answer := l_answer c; l_stop := l_stop c; l_gone := l_gone c |} s)
  | L_response d d' q : l_at c = Loop -> l_queue c = Response d :: q -> l_pending c = Some d' -> (honest = true -> d' = d) ->
      lmove i s c (replace i {| l_queue := q; l_at := Loop; l_pending := None; l_answer := true; l_stop := (l_stop c || d)%bool; l_gone := l_gone c |} s)
  | L_lock m : l_at c = Wants m -> s_lock s = None ->
      lmove i s c {| s_todo := s_todo s; s_at := s_at s; s_started := s_started s; s_set := s_set s; s_lock := Some (ByClient i);
                     s_clients := s_clients (replace i {| l_queue := l_queue c; l_at := Holds m; l_pending := l_pending c; l_answer := l_answer c;
                                                          l_stop := l_stop c; l_gone := l_gone c |} s) |}
  | L_apply m : l_at c = Holds m ->
      lmove i s c {| s_todo := s_todo s; s_at := s_at s; s_started := s_started s; s_set := apply_event m (s_set s); s_lock := None;
                     s_clients := s_clients (replace i {| l_queue := l_queue c; l_at := Loop; l_pending := l_pending c; l_answer := l_answer c;
                                                          l_stop := l_stop c; l_gone := l_gone c |} s) |}
  | L_leave : l_at c = Loop -> l_queue c = [] -> l_stop c = true -> l_gone c = false ->
      lmove i s c (replace i {| l_queue := []; l_at := Loop; l_pending := l_pending c; l_answer := l_answer c; l_stop := true; l_gone := true |} s).

  Inductive bmove (s : bench) : bench -> Prop :=
  | B_debugger s' : dmove s s' -> bmove s s'
  | B_client i c s' : nth_error (s_clients s) i = Some c -> lmove i s c s' -> bmove s s'.
  Inductive bruns (s : bench) : bench -> Prop :=
  | BR_refl : bruns s s
  | BR_step s1 s2 : bruns s s1 -> bmove s1 s2 -> bruns s s2.
  (** After the constructor of the debugger. *)
  Definition bench0 (todo : list drequest) : bench :=
    {| s_todo := todo; s_at := Idle; s_started := false; s_set := []; s_lock := None; s_clients := [] |}.
End Stopped.
