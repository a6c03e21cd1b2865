(** Vocabulary for whole sessions of the debug adapter client: what becomes of the adapter's messages. *)
From Verif Require Import Base BaseFacts Json JsonText Auth Message Dap DapSpec Debugger DebuggerSpec.

(** The event, the two responses of the handshake. *)
Definition is_named (type key value raw : string) : Prop := exists j, parse raw = Ok j /\ named type key value j.
Definition is_initialized : string -> Prop := is_named "event" "event" "initialized".
Definition is_configured : string -> Prop := is_named "response" "command" "configurationDone".
Definition is_attached : string -> Prop := is_named "response" "command" "attach".
(** A stream of the adapter: messages of the protocol, at most one of each kind used in the handshake. *)
Definition adapter_stream (bodies : list string) : Prop :=
  Forall protocol_message bodies /\ at_most_one is_initialized bodies /\ at_most_one is_configured bodies /\ at_most_one is_attached bodies.

(** Two texts of the same value. *)
Definition same_value (a b : string) : Prop := exists j, parse a = Ok j /\ parse b = Ok j.
Definition an_event (raw : string) : Prop := exists j, parse raw = Ok j /\ is_event j.
(** Messages read during the handshake: the three messages of the handshake are taken out, the others are events. *)
Definition handshaken (read kept : list string) (attached : string) : Prop :=
  exists init conf l1 l2, is_initialized init /\ is_configured conf /\ is_attached attached /\
    without init read l1 /\ without conf l1 l2 /\ without attached l2 kept /\ Forall an_event kept.

(** What became of the messages [read]: each was dispatched, in order; or (true) there was a handshake, and then
    the reply to the attach request stands in the place of the handshake, before the events kept. *)
Inductive session : bool -> list string -> list action -> Prop :=
| session_plain read acts : Forall2 dispatched read acts -> session false read acts
| session_attach p acts_p h kept attached t acts_h s acts_s :
    Forall2 dispatched p acts_p -> handshaken h kept attached -> same_value attached t -> Forall2 dispatched kept acts_h -> Forall2 dispatched s acts_s ->
    session true (p ++ h ++ s) (acts_p ++ AReply t :: acts_h ++ acts_s).
(** The handshake has taken place. *)
Definition after_handshake (E : dapenv) (c : client) : bool := dp_parallel E && negb (c_attach c).

(** [ans]: the messages of [l] that are no events, except responses to configurationDone if [hidden]. *)
Inductive answers_of (hidden : bool) : list string -> list string -> Prop :=
| answers_nil : answers_of hidden [] []
| answers_event raw l ans : an_event raw -> answers_of hidden l ans -> answers_of hidden (raw :: l) ans
| answers_hidden raw l ans : hidden = true -> is_configured raw -> answers_of hidden l ans -> answers_of hidden (raw :: l) ans
| answers_keep raw l ans : is_answer raw -> ~ (hidden = true /\ is_configured raw) -> answers_of hidden l ans -> answers_of hidden (raw :: l) (raw :: ans).

(** ** Debugger, client and adapter *)
(** [j] is a response to the request [m]. *)
Definition response_to (m j : json) : Prop :=
  jfield "type" j = Some (JStr "response") /\ jfield "request_seq" j = jfield "seq" m /\ jfield "command" j = jfield "command" m.
(** The text [t] is a response to the request in the frame [f]. *)
Definition answers_frame (f t : string) : Prop :=
  exists content m j, f = dap_frame content /\ parse content = Ok m /\ parse t = Ok j /\ response_to m j.
(** The adapter answers requests that it was sent, and each of them once: the texts which the client takes for answers. *)
Definition answers_asked (l : list action) : Prop :=
  forall l1 t l2, l = (l1 ++ AReply t :: l2)%list -> exists f, In f (requests l1) /\ answers_frame f t.
Definition answers_once (l : list action) : Prop :=
  forall i k t t' f, nth_error (replies l) i = Some t -> nth_error (replies l) k = Some t' -> In f (requests l) ->
    answers_frame f t -> answers_frame f t' -> i = k.

(** What the debugger sends on its two sockets, and what it receives. *)
Definition sent (l : list dact) : list string := flat_map (fun a => match a with DSend _ f => [f] | _ => [] end) l.
Definition received (l : list dact) : list string := flat_map (fun a => match a with DRecv t => [t] | _ => [] end) l.
Definition headers_sent (l : list dact) : list string := flat_map (fun a => match a with DHeader t => [t] | _ => [] end) l.
(** A client [C] serves the debugger whose actions since it was started are [l]: its sockets receive what the debugger
    sends, the debugger receives replies of the client; [c] is its state, [net] what the adapter sends. *)
Definition linked (C : dapenv) (net : list string) (l : list dact) (c : client) : Prop :=
  exists connect c0, start_debugger C (c_init net (connect :: sent l) (headers_sent l)) = (c0, Done tt) /\ serves C c0 c /\
    prefix (received l) (replies (c_log c)).
(** Every message that was sent was answered. *)
Definition all_answered (l : list dact) : Prop := List.length (sent l) = List.length (received l).
