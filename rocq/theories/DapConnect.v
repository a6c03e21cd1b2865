(** The debug adapter client with the debugger and the adapter around it: src/xdap_tcp_client.cpp:125-213. [Dap] runs the client on
    what will have arrived; here the adapter answers what the client sends, and a client that waits for bytes goes on when they arrive.
    The TCP socket is a STREAM socket (line 28): the identity of the peer precedes each chunk, and an empty chunk announces that a
    peer has connected or disconnected (ZMQ_STREAM_NOTIFY, on by default). [append_tcp_message] (lines 312-322) drops the identity and
    takes the empty chunk like any other. *)
From Verif Require Import Base Json JsonText Auth Message Dap.

(** What the thread of the debugger sends, waiting each time: a header (src/xdebugger_base.cpp:354-358) or a request (255-270). *)
Inductive question := AskHeader (h : string) | AskRequest (r : string).
Definition add_hdr (x : string) (c : client) : client := set_hdr (c_hdr c ++ [x]) (c_parent c) c.
Definition add_ctl (x : string) (c : client) : client := set_ctl (c_ctl c ++ [x]) (c_owed c) c.
Definition add_net (x : string) (c : client) : client := set_net (c_net c ++ [x]) c.
(** What the adapter has been sent. *)
Definition sent_out (l : list action) : list string := flat_map (fun a => match a with AForward b | AAdapter b => [b] | _ => [] end) l.

Section Connect.
  (** The adapter: its state, and what it does when it gets a request: the bodies of the messages it sends. [strangers]: others may
      connect to the socket and disconnect. *)
  Context (E : dapenv) {A : Type} (adapter : A -> string -> A * list string) (strangers : bool).

  (** [w_round]: the client is in a round of its loop in which poll had found these sockets readable, and waits in it for bytes of the
      adapter; [w_c] is its state before the round. [w_note]: the notification of the connection has not arrived. [w_pipe]: bytes of the
      adapter on their way. [w_seen]: how many of the requests sent the adapter has got. *)
  Record world := {
    w_c : client; w_round : option (bool * bool * bool); w_dead : bool;
    w_note : bool; w_pipe : string; w_ad : A; w_seen : nat; w_todo : list question }.
  Definition with_c (c : client) (w : world) : world :=
    {| w_c := c; w_round := w_round w; w_dead := w_dead w; w_note := w_note w; w_pipe := w_pipe w; w_ad := w_ad w; w_seen := w_seen w; w_todo := w_todo w |}.
  Definition with_round (r : option (bool * bool * bool)) (w : world) : world :=
    {| w_c := w_c w; w_round := r; w_dead := w_dead w; w_note := w_note w; w_pipe := w_pipe w; w_ad := w_ad w; w_seen := w_seen w; w_todo := w_todo w |}.
  Definition with_todo (l : list question) (w : world) : world :=
    {| w_c := w_c w; w_round := w_round w; w_dead := w_dead w; w_note := w_note w; w_pipe := w_pipe w; w_ad := w_ad w; w_seen := w_seen w; w_todo := l |}.
  Definition with_pipe (n : bool) (p : string) (w : world) : world :=
    {| w_c := w_c w; w_round := w_round w; w_dead := w_dead w; w_note := n; w_pipe := p; w_ad := w_ad w; w_seen := w_seen w; w_todo := w_todo w |}.
  Definition with_adapter (a : A) (p : string) (w : world) : world :=
    {| w_c := w_c w; w_round := w_round w; w_dead := w_dead w; w_note := w_note w; w_pipe := p; w_ad := a; w_seen := S (w_seen w); w_todo := w_todo w |}.
  Definition dead (w : world) : world :=
    {| w_c := w_c w; w_round := w_round w; w_dead := true; w_note := w_note w; w_pipe := w_pipe w; w_ad := w_ad w; w_seen := w_seen w; w_todo := w_todo w |}.

  (** The client as it is now: what it has done within the round. *)
  Definition now (w : world) : client :=
    match w_round w with None => w_c w | Some (h, k, t) => fst (iteration E h k t (w_c w)) end.
  (** A round goes on as far as the bytes allow; an exception leaves [start_debugger], and the client does nothing any more. *)
  Definition settle (w : world) : world :=
    match w_round w with
    | None => w
    | Some (h, k, t) =>
        match iteration E h k t (w_c w) with
        | (c, Done _) => with_round None (with_c c w)
        | (_, Waits) => w
        | (c, _) => dead (with_round None (with_c c w))
        end
    end.
  (** The REQ sockets of the debugger have their answers. *)
  Definition free (c : client) : Prop := c_hdr c = [] /\ c_ctl c = [] /\ c_owed c = false.

  Inductive wstep (w : world) : world -> Prop :=
  | W_header h l : w_todo w = AskHeader h :: l -> free (now w) -> wstep w (with_todo l (with_c (add_hdr h (w_c w)) w))
  | W_request r l : w_todo w = AskRequest r :: l -> free (now w) -> wstep w (with_todo l (with_c (add_ctl r (w_c w)) w))
  | W_note : w_note w = true -> wstep w (settle (with_pipe false (w_pipe w) (with_c (add_net "" (w_c w)) w)))
  | W_stranger : strangers = true -> w_note w = false -> wstep w (settle (with_c (add_net "" (w_c w)) w))
  | W_bytes x p : w_note w = false -> w_pipe w = x +++ p -> x <> "" -> wstep w (settle (with_pipe false p (with_c (add_net x (w_c w)) w)))
  | W_adapter b a bodies : nth_error (sent_out (c_log (now w))) (w_seen w) = Some b -> adapter (w_ad w) b = (a, bodies) ->
      wstep w (with_adapter a (w_pipe w +++ sconcat (map dap_frame bodies)) w)
  | W_poll h k t : w_round w = None -> w_dead w = false -> c_stop (w_c w) = false -> polled h k t (w_c w) ->
      wstep w (settle (with_round (Some (h, k, t)) w)).
  Inductive wruns (w : world) : world -> Prop :=
  | WR_refl : wruns w w
  | WR_step w1 w2 : wruns w w1 -> wstep w1 w2 -> wruns w w2.

  (** [init_tcp_socket], lines 183-201, and the handshake, lines 130-145. A server ([dap_tcp_type::server]) takes the first
      identity and the notification, a client nothing. [hello]: what the adapter says before it is asked. *)
  Definition world0 (server : bool) (a : A) (hello : list string) (todo : list question) : world :=
    {| w_c := set_attach (dp_parallel E) (log (AAck true) (c_init [] [] [])); w_round := None; w_dead := false;
       w_note := negb server; w_pipe := sconcat (map dap_frame hello); w_ad := a; w_seen := 0; w_todo := todo |}.
End Connect.
