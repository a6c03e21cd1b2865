(** The construction of a kernel: [xkernel::xkernel] and [xkernel::init] (src/xkernel.cpp:73-163), the sockets that the
    constructors of the servers bind, and [update_config] (src/xserver_zmq.cpp:24-46, 154-161, src/xserver_zmq_split.cpp:27-35,
    88-95, src/xcontrol.cpp:20-43, src/xshell.cpp:19-52, src/xpublisher.cpp:19-41, src/xheartbeat.cpp:19-37).
    Not modelled: the sockets inside the process (their end points differ, C51) and failures to create a socket. *)
From Verif Require Import Base Auth Host.

(** The machine: numbers drawn, identifiers, and what zmq_bind does. [h_bind bound e]: a socket is bound to [e] while other
    sockets of the process are bound to [bound]; [Some r]: it succeeds, and the socket's last end point is [r]. *)
Record host := { h_draw : nat -> Z; h_guid : nat -> string; h_bind : list string -> string -> option string }.
(** What the constructors have done: numbers drawn, last end points of the sockets bound. *)
Record built := { b_draws : nat; b_bound : list string }.

Inductive chan := Control | Shell | Stdin | Iopub | Hb.
Definition port_of (ch : chan) (c : config) : string :=
  match ch with Control => g_control c | Shell => g_shell c | Stdin => g_stdin c | Iopub => g_iopub c | Hb => g_hb c end.

Section Construct.
  Context (H : host).

  (** [init_socket], src/xmiddleware.cpp:68-83: the socket's last end point, [None]: it is not bound. The result of
      [find_free_port_impl] is not looked at. *)
  Definition init_socket (transport ip port : string) (b : built) : res (option string * built) :=
    if negb (String.eqb port "") then
      match h_bind H (b_bound b) (get_end_point transport ip port) with
      | Some r => Ok (Some r, {| b_draws := b_draws b; b_bound := b_bound b ++ [r] |})
      | None => Exn (Std "zmq::error_t")
      end
    else
      let '(tried, port) := find_free_port_impl 100 transport ip (fun n => h_draw H (b_draws b + n))
                              (fun _ e => match h_bind H (b_bound b) e with Some _ => true | None => false end) in
      let draws := b_draws b + List.length tried in
      match (if String.eqb port "" then None else h_bind H (b_bound b) (get_end_point transport ip port)) with
      | Some r => Ok (Some r, {| b_draws := draws; b_bound := b_bound b ++ [r] |})
      | None => Ok (None, {| b_draws := draws; b_bound := b_bound b |})
      end.

  (** The five sockets of a server, each with its last end point. *)
  Definition sockets := chan -> option string.
  Definition chan_eqb (a b : chan) : bool :=
    match a, b with Control, Control | Shell, Shell | Stdin, Stdin | Iopub, Iopub | Hb, Hb => true | _, _ => false end.
  Fixpoint bind_all (l : list chan) (c : config) (s : sockets) (b : built) : res (sockets * built) :=
    match l with
    | [] => Ok (s, b)
    | ch :: l =>
        let* (e, b) := init_socket (g_transport c) (g_ip c) (port_of ch c) b in
        bind_all l c (fun ch' => if chan_eqb ch' ch then e else s ch') b
    end.
  (** The order in which the sockets are bound: the default server binds those of the publisher and the heartbeat first, since
      they are members; the split servers in the order of the members of xserver_zmq_split. *)
  Definition bind_order (split : bool) : list chan :=
    if split then [Control; Hb; Iopub; Shell; Stdin] else [Iopub; Hb; Shell; Control; Stdin].
  Definition make_server (split : bool) (c : config) (b : built) : res (sockets * built) :=
    bind_all (bind_order split) c (fun _ => None) b.

  (** [get_socket_port] of a socket; a socket that is not bound has the empty last end point. *)
  Definition port_read (e : option string) : res string := get_socket_port (match e with Some e => e | None => "" end).
  (** [update_config_impl]. *)
  Definition update_config (s : sockets) (c : config) : res config :=
    let* control := port_read (s Control) in
    let* shell := port_read (s Shell) in
    let* stdin := port_read (s Stdin) in
    let* iopub := port_read (s Iopub) in
    let* hb := port_read (s Hb) in
    Ok {| g_transport := g_transport c; g_ip := g_ip c; g_control := control; g_shell := shell; g_stdin := stdin; g_iopub := iopub; g_hb := hb;
          g_scheme := g_scheme c; g_key := g_key c |}.

  (** The arguments of the constructor: [x_logger]: a logger was given, [x_env]: XEUS_LOG is set; what the builder of the
      debugger does ([false]: there is no debugger) and what [configure] does. *)
  Record args := {
    x_split : bool; x_logger : bool; x_env : bool;
    x_debugger : config -> string -> res bool;
    x_configure : res unit }.
  (** What [init] calls, in order. *)
  Inductive call :=
  | CServer (c : config)                   (* m_server_builder *)
  | CDebugger (c : config) (session : string)
  | CCore (session : string) (a : auth)
  | CMessenger (debugger : bool)           (* register_control_messenger of the debugger or the interpreter *)
  | CHistory
  | CConfigure.
  Record made := { n_kernel : string; n_session : string; n_config : config; n_auth : auth; n_logs : bool; n_sockets : sockets }.
  (** [xkernel::init], lines 119-163: the calls made, and the kernel. *)
  Definition with_key (key : string) (c : config) : config :=
    {| g_transport := g_transport c; g_ip := g_ip c; g_control := g_control c; g_shell := g_shell c; g_stdin := g_stdin c;
       g_iopub := g_iopub c; g_hb := g_hb c; g_scheme := g_scheme c; g_key := key |}.
  Definition init (x : args) (c : config) : list call * built * res made :=
    let b := {| b_draws := 0; b_bound := [] |} in
    let kernel := h_guid H 0 in
    let session := h_guid H 1 in
    let c := if String.eqb (g_key c) "" then with_key (h_guid H 2) c else c in
    match make_xauthentication (g_scheme c) (g_key c) with
    | Exn e => ([], b, Exn e)
    | UB w => ([], b, UB w)
    | Ok auth =>
        let logs := (x_logger x && x_env x)%bool in
        let calls := [CServer c] in
        match make_server (x_split x) c b with
        | Exn e => (calls, b, Exn e)
        | UB w => (calls, b, UB w)
        | Ok (s, b) =>
            match update_config s c with
            | Exn e => (calls, b, Exn e)
            | UB w => (calls, b, UB w)
            | Ok c =>
                let calls := (calls ++ [CDebugger c session])%list in
                match x_debugger x c session with
                | Exn e => (calls, b, Exn e)
                | UB w => (calls, b, UB w)
                | Ok debugger =>
                    let calls := (calls ++ [CCore session auth] ++ (if debugger then [CMessenger true] else []) ++
                                  [CMessenger false; CHistory; CConfigure])%list in
                    (calls, b, let* _ := x_configure x in
                               Ok {| n_kernel := kernel; n_session := session; n_config := c; n_auth := auth; n_logs := logs; n_sockets := s |})
                end
            end
        end
    end.
  (** The second constructor, lines 95-113: the default members, include/xeus/xkernel_configuration.hpp:19-30. *)
  Definition default_config : config :=
    {| g_transport := "tcp"; g_ip := "127.0.0.1"; g_control := ""; g_shell := ""; g_stdin := ""; g_iopub := ""; g_hb := "";
       g_scheme := "hmac-sha256"; g_key := "" |}.
End Construct.
