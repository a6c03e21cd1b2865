(** The debug adapter client, src/xdap_tcp_client.cpp and include/xeus/xdap_tcp_client.hpp. *)
From Verif Require Import Base Json JsonText Auth Message.

(** Outcome of a call that may wait on a socket: [Wait] means that the thread blocks in a receive and
    everything that was going to arrive has been read. *)
Inductive io (A : Type) : Type :=
| Done (a : A)
| Fail (e : exn)
| Undef (why : string)
| Waits.
Arguments Done {A} a. Arguments Fail {A} e. Arguments Undef {A} why. Arguments Waits {A}.
Definition io_of {A} (r : res A) : io A := match r with Ok a => Done a | Exn e => Fail e | UB w => Undef w end.

(** ** std::string *)
(** [s.find(pat, from)]. *)
Fixpoint sfind0 (pat s : string) : option nat :=
  if sprefix pat s then Some 0 else match s with "" => None | String _ s' => option_map S (sfind0 pat s') end.
Definition sfind (pat s : string) (from : nat) : option nat :=
  if from <=? slen s then option_map (Nat.add from) (sfind0 pat (sdrop from s)) else None.
(** [s.substr(pos, count)]. *)
Definition substr (s : string) (pos count : nat) : res string :=
  if pos <=? slen s then Ok (stake count (sdrop pos s)) else Exn (Std "out_of_range").
(** [isspace] in the C locale. *)
Definition is_space (c : ascii) : bool := (code c =? 32)%N || ((9 <=? code c)%N && (code c <=? 13)%N).
Fixpoint skip_space (s : string) : string :=
  match s with String c s' => if is_space c then skip_space s' else s | "" => "" end.
Definition ullong_max : Z := 2 ^ 64 - 1.
(** [std::stoull] (64 bits): white space, an optional sign, digits; a negative value wraps around. *)
Definition stoull (s : string) : res N :=
  let s := skip_space s in
  let '(neg, s) := match s with
                   | String c r => if (code c =? 45)%N then (true, r) else if (code c =? 43)%N then (false, r) else (false, s)
                   | "" => (false, "")
                   end in
  match span_digits s with
  | ("", _) => Exn (Std "invalid_argument")
  | (d, _) =>
      let z := digits_val 0 d in
      if (z <=? ullong_max)%Z then Ok (Z.to_N (if neg then (- z) mod 2 ^ 64 else z)) else Exn (Std "out_of_range")
  end.

(** include/xeus/xdap_tcp_client.hpp:49-52. *)
Definition HEADER : string := "Content-Length: ".
Definition HEADER_LENGTH : nat := 16.
Definition SEPARATOR : string := String (chr 13) (String (chr 10) (String (chr 13) (String (chr 10) ""))).
Definition SEPARATOR_LENGTH : nat := 4.
(** The framed text, lines 71-76 and src/xdebugger_base.cpp:257-262. *)
Definition dap_frame (content : string) : string := HEADER +++ dec_of_nat (slen content) +++ SEPARATOR +++ content.

(** ** Reading from the adapter's stream
    [net]: the chunks which [m_tcp_socket.recv] will return, the identity frames removed
    ([append_tcp_message], lines 312-322). *)
(** The loops of lines 269-273 and 276-281: append a chunk until [pat] is found from [hint] on. *)
Fixpoint read_until (pat : string) (hint : nat) (found : option nat) (buf : string) (net : list string) :
  list string * string * option nat :=
  match found with
  | Some p => (net, buf, Some p)
  | None => match net with
            | [] => ([], buf, None)
            | x :: r => read_until pat hint (sfind pat (buf +++ x) hint) (buf +++ x) r
            end
  end.
(** Lines 287-290. *)
Fixpoint read_size (pos : nat) (size : N) (buf : string) (net : list string) : list string * string * bool :=
  if (N.of_nat (slen buf - pos) <? size)%N then
    match net with [] => ([], buf, false) | x :: r => read_size pos size (buf +++ x) r end
  else (net, buf, true).
(** [handle_tcp_socket], lines 255-310, after [hint], [header_pos] and [buffer] have been set; the
    result is the rest of the stream, the messages pushed and the outcome. Each round consumes at least
    the header, so that the fuel given in [handle_tcp] never runs out (DapProofs.v). *)
Fixpoint frame_loop (fuel : nat) (buf : string) (header_pos : option nat) (hint : nat) (net queue : list string) :
  list string * list string * io unit :=
  match fuel with
  | 0 => (net, queue, Undef "fuel")
  | S fuel =>
      let '(net, buf, header_pos) := read_until HEADER hint header_pos buf net in
      match header_pos with
      | None => (net, queue, Waits)
      | Some header_pos =>
          let hint := header_pos + HEADER_LENGTH in
          let '(net, buf, separator_pos) := read_until SEPARATOR hint (sfind SEPARATOR buf hint) buf net in
          match separator_pos with
          | None => (net, queue, Waits)
          | Some separator_pos =>
              match (let* t := substr buf (header_pos + HEADER_LENGTH) separator_pos in stoull t) with
              | Exn e => (net, queue, Fail e)
              | UB w => (net, queue, Undef w)
              | Ok msg_size =>
                  let msg_pos := separator_pos + SEPARATOR_LENGTH in
                  let '(net, buf, enough) := read_size msg_pos msg_size buf net in
                  if negb enough then (net, queue, Waits)
                  else if (N.of_nat (slen buf - msg_pos) =? msg_size)%N then
                    (net, (queue ++ [sdrop msg_pos buf])%list, Done tt)
                  else
                    let queue := (queue ++ [stake (N.to_nat msg_size) (sdrop msg_pos buf)])%list in
                    let hint := msg_pos + N.to_nat msg_size in
                    frame_loop fuel buf (sfind HEADER buf hint) hint net queue
              end
          end
      end
  end.
(** [handle_tcp_socket], lines 255-310. *)
Definition handle_tcp (net queue : list string) : list string * list string * io unit :=
  frame_loop (S (slen (sconcat net))) "" None 0 net queue.

(** ** The client *)
(** What the client does, in order. *)
Inductive action : Type :=
| AForward (bytes : string)    (* a request of the debugger sent to the adapter, after its identity *)
| AAdapter (bytes : string)    (* a request of the client itself sent to the adapter *)
| AReply (text : string)       (* sent on m_controller *)
| AAck (c : bool)              (* "ACK" on m_controller (true) or m_controller_header *)
| APublish (w : frames)        (* sent on m_publisher *)
| ACallback (j : json)         (* m_event_callback called *)
| AEvent (j : json).           (* the virtual handle_event called *)

(** Sockets: [c_net] as above; [c_ctl], [c_hdr]: requests that m_controller and m_controller_header will
    receive; [c_owed]: m_controller (a REP socket) has received a request and not yet sent the reply. *)
Record client := {
  c_net : list string; c_ctl : list string; c_hdr : list string; c_owed : bool;
  c_parent : string; c_stop : bool; c_attach : bool;
  c_queue : list string; c_stopped : list string;
  c_ids : nat; c_log : list action }.
Definition set_net x c := {| c_net := x; c_ctl := c_ctl c; c_hdr := c_hdr c; c_owed := c_owed c; c_parent := c_parent c; c_stop := c_stop c; c_attach := c_attach c; c_queue := c_queue c; c_stopped := c_stopped c; c_ids := c_ids c; c_log := c_log c |}.
Definition set_ctl x o c := {| c_net := c_net c; c_ctl := x; c_hdr := c_hdr c; c_owed := o; c_parent := c_parent c; c_stop := c_stop c; c_attach := c_attach c; c_queue := c_queue c; c_stopped := c_stopped c; c_ids := c_ids c; c_log := c_log c |}.
Definition set_hdr x p c := {| c_net := c_net c; c_ctl := c_ctl c; c_hdr := x; c_owed := c_owed c; c_parent := p; c_stop := c_stop c; c_attach := c_attach c; c_queue := c_queue c; c_stopped := c_stopped c; c_ids := c_ids c; c_log := c_log c |}.
Definition set_stop x c := {| c_net := c_net c; c_ctl := c_ctl c; c_hdr := c_hdr c; c_owed := c_owed c; c_parent := c_parent c; c_stop := x; c_attach := c_attach c; c_queue := c_queue c; c_stopped := c_stopped c; c_ids := c_ids c; c_log := c_log c |}.
Definition set_attach x c := {| c_net := c_net c; c_ctl := c_ctl c; c_hdr := c_hdr c; c_owed := c_owed c; c_parent := c_parent c; c_stop := c_stop c; c_attach := x; c_queue := c_queue c; c_stopped := c_stopped c; c_ids := c_ids c; c_log := c_log c |}.
Definition set_queue x c := {| c_net := c_net c; c_ctl := c_ctl c; c_hdr := c_hdr c; c_owed := c_owed c; c_parent := c_parent c; c_stop := c_stop c; c_attach := c_attach c; c_queue := x; c_stopped := c_stopped c; c_ids := c_ids c; c_log := c_log c |}.
Definition set_stopped x c := {| c_net := c_net c; c_ctl := c_ctl c; c_hdr := c_hdr c; c_owed := c_owed c; c_parent := c_parent c; c_stop := c_stop c; c_attach := c_attach c; c_queue := c_queue c; c_stopped := x; c_ids := c_ids c; c_log := c_log c |}.
Definition set_ids x c := {| c_net := c_net c; c_ctl := c_ctl c; c_hdr := c_hdr c; c_owed := c_owed c; c_parent := c_parent c; c_stop := c_stop c; c_attach := c_attach c; c_queue := c_queue c; c_stopped := c_stopped c; c_ids := x; c_log := c_log c |}.
Definition log (a : action) c := {| c_net := c_net c; c_ctl := c_ctl c; c_hdr := c_hdr c; c_owed := c_owed c; c_parent := c_parent c; c_stop := c_stop c; c_attach := c_attach c; c_queue := c_queue c; c_stopped := c_stopped c; c_ids := c_ids c; c_log := (c_log c ++ [a])%list |}.

(** Calls as state transformers. *)
Definition D (A : Type) := client -> client * io A.
Definition dret {A} (a : A) : D A := fun c => (c, Done a).
Definition dbind {A B} (p : D A) (f : A -> D B) : D B := fun c =>
  match p c with
  | (c', Done a) => f a c'
  | (c', Fail e) => (c', Fail e)
  | (c', Undef w) => (c', Undef w)
  | (c', Waits) => (c', Waits)
  end.
Definition dlift {A} (r : res A) : D A := fun c => (c, io_of r).
Definition dmod (f : client -> client) : D unit := fun c => (f c, Done tt).
Notation "'do*' x ':=' p 'in' f" := (dbind p (fun x => f)) (at level 200, x pattern, p at level 100, f at level 200, right associativity).

(** What the virtual [handle_event] of a derived class may do: forward events and send requests; it may
    throw. Not modelled: a handler that calls [wait_for_message]. *)
Inductive ucall : Type := UForward (j : json) | URequest (j : json).
Record dapenv := {
  dp_crypto : crypto; dp_auth : auth; dp_user : string; dp_session : string;
  dp_guid : nat -> string; dp_date : nat -> string;
  dp_callback : list action -> json -> res unit;              (* m_event_callback *)
  dp_event : list action -> string -> json -> list ucall * res unit; (* handle_event, given parent_header() *)
  dp_parallel : bool }.                                       (* m_dap_init_type == parallel *)

Section Client.
  Context (E : dapenv).

  (** A REP socket sends only when it owes a reply; otherwise zmq::error_t (EFSM). *)
  Definition reply (t : string) : D unit := fun c =>
    if c_owed c then (log (AReply t) (set_ctl (c_ctl c) false c), Done tt) else (c, Fail (Std "EFSM")).

  (** [forward_event], lines 53-67. *)
  Definition forward_event (message : json) : D unit := fun c =>
    let c := log (ACallback message) c in
    (do* _ := dlift (dp_callback E (c_log c) message) in
     do* n := (fun c => (set_ids (S (c_ids c)) c, Done (c_ids c))) in
     let header := make_header (dp_guid E n) (dp_date E n) "debug_event" (dp_user E) (dp_session E) in
     do* parent_header := (fun c => (c, if String.eqb (c_parent c) "" then Done (JObj []) else io_of (parse (c_parent c)))) in
     do* w := dlift (pub_serialize (dp_crypto E) (dp_auth E) EStrict
       {| m_topic := "debug_event"; m_pbase := {| m_header := header; m_parent_header := parent_header;
          m_metadata := JObj []; m_content := message; m_buffers := [] |} |}) in
     dmod (log (APublish w))) c.

  (** [send_dap_request], lines 69-81. *)
  Definition send_dap_request (message : json) : D unit :=
    do* content := dlift (dump EStrict message) in dmod (log (AAdapter (dap_frame content))).

  (** The search of lines 89-95: the first queued message that satisfies the condition. *)
  Fixpoint find_msg (cond : json -> res bool) (seen q : list string) : res (option (json * list string)) :=
    match q with
    | [] => Ok None
    | raw :: q' =>
        let* j := parse raw in let* b := cond j in
        if b then Ok (Some (j, (rev seen ++ q')%list)) else find_msg cond (raw :: seen) q'
    end.
  (** The inner loop, lines 106-120; [found] is [message] if the condition was met. *)
  Fixpoint sort_stopped (cond : json -> res bool) (found : option json) (stopped queue : list string) :
    list string * list string * res (option json) :=
    match stopped with
    | [] => ([], queue, Ok found)
    | raw :: r =>
        match (let* j := parse raw in let* b := cond j in Ok (j, b)) with
        | Ok (j, true) => sort_stopped cond (Some j) r queue
        | Ok (j, false) => sort_stopped cond found r (queue ++ [raw])
        | Exn e => (stopped, queue, Exn e)
        | UB w => (stopped, queue, UB w)
        end
    end.
  (** The loop of lines 103-121; each round reads at least one chunk. *)
  Fixpoint wait_loop (fuel : nat) (cond : json -> res bool) : D json := fun c =>
    match fuel with
    | 0 => (c, Undef "fuel")
    | S fuel =>
        let '(net, stopped, o) := handle_tcp (c_net c) (c_stopped c) in
        let c := set_net net (set_stopped stopped c) in
        match o with
        | Done _ =>
            let '(stopped, queue, r) := sort_stopped cond None (c_stopped c) (c_queue c) in
            let c := set_stopped stopped (set_queue queue c) in
            match r with
            | Ok (Some j) => (c, Done j)
            | Ok None => wait_loop fuel cond c
            | Exn e => (c, Fail e)
            | UB w => (c, Undef w)
            end
        | Fail e => (c, Fail e)
        | Undef w => (c, Undef w)
        | Waits => (c, Waits)
        end
    end.
  (** [wait_for_message], lines 83-123. *)
  Definition wait_for_message (cond : json -> res bool) : D json := fun c =>
    match find_msg cond [] (c_queue c) with
    | Ok (Some (j, q)) => (set_queue q c, Done j)
    | Ok None => wait_loop (S (List.length (c_net c))) cond c
    | Exn e => (c, Fail e)
    | UB w => (c, Undef w)
    end.

  (** The conditions of lines 351-354, 367-370, 373-376. The messages are const: reading a missing field is
      undefined. *)
  Definition is_message (type key value : string) (message : json) : res bool :=
    let* t := jget "type" message in
    if json_eqb t (JStr type) then let* e := jget key message in Ok (json_eqb e (JStr value)) else Ok false.

  (** [handle_init_sequence], lines 348-382. *)
  Definition handle_init_sequence : D unit :=
    do* initialized := wait_for_message (is_message "event" "event" "initialized") in
    do* (seq, initialized) := dlift (jget_mut "seq" initialized) in
    do* seq := dlift (get_int seq) in
    do* seq := dlift (if (seq <? int_max)%Z then Ok (seq + 1)%Z else UB "int overflow") in
    do* _ := send_dap_request (jobj [("type", JStr "request"); ("seq", JInt seq); ("command", JStr "configurationDone")]) in
    do* _ := wait_for_message (is_message "response" "command" "configurationDone") in
    do* attach_response := wait_for_message (is_message "response" "command" "attach") in
    do* _ := forward_event initialized in
    do* raw_response := dlift (dump EStrict attach_response) in
    reply raw_response.

  (** [handle_header_socket], lines 215-221. *)
  Definition handle_header_socket : D unit := fun c =>
    match c_hdr c with
    | [] => (c, Waits)
    | m :: r => (log (AAck false) (set_hdr r m c), Done tt)
    end.

  (** [handle_control_socket], lines 223-253. When the separator is missing, [pos] is npos and
      [pos + SEPARATOR_LENGTH] is 3. *)
  Definition handle_control_socket : D unit := fun c =>
    match c_ctl c with
    | [] => (c, Waits)
    | message :: r =>
        let c := set_ctl r true c in
        if c_attach c then
          (do* to_parse := dlift (let p := match sfind SEPARATOR message 0 with Some p => p + SEPARATOR_LENGTH | None => 3 end in
                                  substr message p (slen message)) in
           do* json_message := dlift (parse to_parse) in
           do* _ := dmod (log (AForward message)) in
           do* (command, _) := dlift (jget_mut "command" json_message) in
           if json_eqb command (JStr "attach") then
             do* _ := handle_init_sequence in dmod (set_attach false)
           else dret tt) c
        else (log (AForward message) c, Done tt)
    end.

  (** A call of the virtual [handle_event]. *)
  Fixpoint ucalls (l : list ucall) : D unit :=
    match l with
    | [] => dret tt
    | UForward j :: r => do* _ := forward_event j in ucalls r
    | URequest j :: r => do* _ := send_dap_request j in ucalls r
    end.
  Definition handle_event (message : json) : D unit := fun c =>
    let c := log (AEvent message) c in
    let (l, r) := dp_event E (c_log c) (c_parent c) message in
    (do* _ := ucalls l in dlift r) c.

  (** One round of [process_message_queue], lines 326-345, for the front message. *)
  Definition process_message (raw_message : string) : D unit :=
    do* message := dlift (parse raw_message) in
    do* (type, message) := dlift (jget_mut "type" message) in
    if json_eqb type (JStr "event") then handle_event message
    else
      do* (command, _) := dlift (jget_mut "command" message) in
      do* _ := (if json_eqb command (JStr "disconnect") then dmod (set_stop true) else dret tt) in
      reply raw_message.
  (** [process_message_queue], lines 324-346; a message is removed after it was processed. *)
  Fixpoint process_queue (q : list string) : D unit := fun c =>
    match q with
    | [] => (set_queue [] c, Done tt)
    | raw :: r =>
        let c := set_queue q c in
        match process_message raw c with (c', Done _) => process_queue r c' | f => f end
    end.
  Definition process_message_queue : D unit := fun c => process_queue (c_queue c) c.

  Definition handle_tcp_socket : D unit := fun c =>
    let '(net, queue, o) := handle_tcp (c_net c) (c_queue c) in (set_net net (set_queue queue c), o).

  (** One round of the loop of [start_debugger], lines 146-170: [h], [k], [t] are the sockets poll has found
      readable. *)
  Definition when (b : bool) (p : D unit) : D unit := if b then p else dret tt.
  Definition iteration (h k t : bool) : D unit :=
    do* _ := when h handle_header_socket in
    do* _ := when k handle_control_socket in
    do* _ := when t handle_tcp_socket in
    process_message_queue.
  (** What poll may answer: a socket found readable is. A REP socket that owes a reply is not. *)
  Definition polled (h k t : bool) (c : client) : Prop :=
    h || k || t = true /\ (h = true -> c_hdr c <> []) /\ (k = true -> c_ctl c <> [] /\ c_owed c = false) /\ (t = true -> c_net c <> []).
  (** The loop, entered with line 145 done. *)
  Inductive serves : client -> client -> Prop :=
  | serves_none c : serves c c
  | serves_one c h k t c' c'' : c_stop c = false -> polled h k t c -> iteration h k t c = (c', Done tt) -> serves c' c'' -> serves c c''.
  (** [start_debugger] up to the loop, lines 125-145: the connection handshake, and the client as constructed
      (lines 23-47). *)
  Definition c_init (net ctl hdr : list string) : client :=
    {| c_net := net; c_ctl := ctl; c_hdr := hdr; c_owed := false; c_parent := ""; c_stop := false; c_attach := false;
       c_queue := []; c_stopped := []; c_ids := 0; c_log := [] |}.
  Definition start_debugger : D unit := fun c =>
    match c_ctl c with
    | [] => (c, Waits)
    | _ :: r => (set_attach (dp_parallel E) (set_stop false (log (AAck true) (set_ctl r false c))), Done tt)
    end.
End Client.
