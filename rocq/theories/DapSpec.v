(** Vocabulary for the properties of the debug adapter client. *)
From Verif Require Import Base BaseFacts Json JsonText Auth Message Dap.

(** ** The base protocol of the debug adapter protocol: header fields, each ended by CR LF, an empty line,
    and the content; one field gives the length of the content in bytes. *)
Definition CRLF : string := String (chr 13) (String (chr 10) "").
Definition contains (p s : string) : Prop := exists a b, s = a +++ p +++ b.
(** A header field: not empty, without CR and LF. *)
Definition field (f : string) : Prop := f <> "" /\ sall (fun c => negb (code c =? 13)%N && negb (code c =? 10)%N) f = true.
Definition dap_header (before : list string) (n : nat) (after : list string) : string :=
  sconcat (map (fun f => f +++ CRLF) (before ++ ["Content-Length: " +++ dec_of_nat n] ++ after)) +++ CRLF.
(** [t] is a message with content [body]; the fields before the length do not contain its name. *)
Definition dap_message (body t : string) : Prop :=
  exists before after, Forall field before /\ Forall field after /\ Forall (fun f => ~ contains "Content-Length: " f) before /\
    (N.of_nat (slen body) < 2 ^ 64)%N /\ t = dap_header before (slen body) after +++ body.
(** A stream of messages. *)
Definition dap_stream (bodies : list string) (s : string) : Prop :=
  exists ts, Forall2 dap_message bodies ts /\ s = sconcat ts.

(** [l] with one element [m] removed, elsewhere in the same order. *)
Definition without {A} (m : A) (l l' : list A) : Prop := exists a b, l = (a ++ m :: b)%list /\ l' = (a ++ b)%list.
Definition prefix {A} (a b : list A) : Prop := exists c, b = (a ++ c)%list.

(** Conditions on messages. [defined]: the text is JSON and the condition does not fail on it. *)
Section Conditions.
  Context (parse : string -> res json) (cond : json -> res bool).
  Definition meets (raw : string) (j : json) : Prop := parse raw = Ok j /\ cond j = Ok true.
  Definition fails (raw : string) : Prop := exists j, parse raw = Ok j /\ cond j = Ok false.
  Definition defined (raw : string) : Prop := (exists j, meets raw j) \/ fails raw.
  (** [l'] is [l] without the messages that meet the condition. *)
  Inductive rejected_of : list string -> list string -> Prop :=
  | rejected_nil : rejected_of [] []
  | rejected_skip raw j l l' : meets raw j -> rejected_of l l' -> rejected_of (raw :: l) l'
  | rejected_keep raw l l' : fails raw -> rejected_of l l' -> rejected_of (raw :: l) (raw :: l').
End Conditions.
(** At most one element of the list satisfies the predicate. *)
Definition at_most_one {A} (P : A -> Prop) (l : list A) : Prop := forall a x b y d, l = (a ++ x :: b ++ y :: d)%list -> P x -> P y -> False.

(** ** What becomes of the messages of the adapter *)
Definition routed (l : list action) : list action := filter (fun a => match a with AEvent _ | AReply _ => true | _ => false end) l.
Definition is_event (j : json) : Prop := jfield "type" j = Some (JStr "event").
(** What becomes of a message. *)
Definition dispatched (raw : string) (a : action) : Prop :=
  exists j, parse raw = Ok j /\ ((is_event j /\ a = AEvent j) \/ (~ is_event j /\ a = AReply raw)).
Definition asks_stop (raw : string) : Prop := exists j, parse raw = Ok j /\ ~ is_event j /\ jfield "command" j = Some (JStr "disconnect").
(** Any message that is not an event is taken for the answer to the request. *)
Definition is_answer (raw : string) : Prop := exists j, parse raw = Ok j /\ ~ is_event j.

(** ** Requests and replies of the control socket *)
Definition requests (l : list action) : list string := flat_map (fun a => match a with AForward b => [b] | _ => [] end) l.
Definition replies (l : list action) : list string := flat_map (fun a => match a with AReply b => [b] | _ => [] end) l.
(** Requests and replies alternate; [owed]: the last request has not been answered. *)
Inductive alternates : list action -> bool -> Prop :=
| alt_nil : alternates [] false
| alt_request l b : alternates l false -> alternates (l ++ [AForward b]) true
| alt_reply l t : alternates l true -> alternates (l ++ [AReply t]) false
| alt_other l a o : alternates l o -> (forall b, a <> AForward b) -> (forall t, a <> AReply t) -> alternates (l ++ [a]) o.

(** ** Published events. The header received last when the actions [l] have been done: every header
    received is acknowledged. *)
Definition acks (l : list action) : nat := List.length (filter (fun a => match a with AAck false => true | _ => false end) l).
Definition header_at (headers : list string) (l : list action) : string := last (firstn (acks l) headers) "".
(** The parent header of an event: the last header received, or an empty object. *)
Definition parent_of (h : string) (j : json) : Prop := (h = "" /\ j = JObj []) \/ (h <> "" /\ parse h = Ok j).
(** [w] was published after [before]: a debug_event message with an event just given to the callback as its
    content and the last header received as its parent. *)
Definition published (E : dapenv) (headers : list string) (before : list action) (w : frames) : Prop :=
  exists earlier event n parent, before = (earlier ++ [ACallback event])%list /\ parent_of (header_at headers before) parent /\
    pub_serialize (dp_crypto E) (dp_auth E) EStrict
      {| m_topic := "debug_event"; m_pbase :=
          {| m_header := make_header (dp_guid E n) (dp_date E n) "debug_event" (dp_user E) (dp_session E);
             m_parent_header := parent; m_metadata := JObj []; m_content := event; m_buffers := [] |} |} = Ok w.

(** ** Messages of the protocol *)
Definition named (type key value : string) (j : json) : Prop :=
  jfield "type" j = Some (JStr type) /\ jfield key j = Some (JStr value).
(** An event has a name, a response names its command. *)
Definition protocol_message (raw : string) : Prop :=
  exists j, parse raw = Ok j /\ jfield "type" j <> None /\
    (jfield "type" j = Some (JStr "event") -> jfield "event" j <> None) /\
    (jfield "type" j = Some (JStr "response") -> jfield "command" j <> None).
(** [raw] is the only message of the list with this name. *)
Definition the_message (type key value raw : string) (j : json) (l : list string) : Prop :=
  parse raw = Ok j /\ named type key value j /\ In raw l /\ at_most_one (fun r => exists i, parse r = Ok i /\ named type key value i) l.

(** ** When the client's rounds do not block *)
(** What comes from the adapter is a stream of at least one message. *)
Definition some_message (net : list string) : Prop := exists bodies, bodies <> [] /\ dap_stream bodies (sconcat net).
(** An attach request. *)
Definition asks_attach (m : string) : Prop :=
  exists content req, m = dap_frame content /\ parse content = Ok req /\ jfield "command" req = Some (JStr "attach").
(** The three messages of the handshake. *)
Definition handshake (init conf attach : string) : Prop :=
  (exists j, parse init = Ok j /\ named "event" "event" "initialized" j) /\
  (exists j, parse conf = Ok j /\ named "response" "command" "configurationDone" j) /\
  (exists j, parse attach = Ok j /\ named "response" "command" "attach" j).
Definition handshake_in (l : list string) : Prop :=
  exists init conf attach, handshake init conf attach /\ In init l /\ In conf l /\ In attach l.
