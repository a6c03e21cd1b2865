(** Vocabulary: a run of the default server as the handling of one message after the other. *)
From Verif Require Import Base BaseFacts Json JsonText Utf8 Auth Message WireSpec History Comm Tree Kernel KernelSpec Server ServerSpec KernelLemmas.

(** The messages handed over, each with the messages its handling took from the shell socket. *)
Definition episode : Type := channel * frames * list frames.
Inductive episodes : list label -> list episode -> Prop :=
| ep_start : episodes [] []
| ep_hand ls es c w : episodes ls es -> episodes (ls ++ [Hand c w]) (es ++ [(c, w, [])])
| ep_took ls es c w l x : episodes ls (es ++ [(c, w, l)]) -> episodes (ls ++ [Took x]) (es ++ [(c, w, l ++ [x])])
| ep_other ls es l : episodes ls es -> (forall c w, l <> Hand c w) -> (forall w, l <> Took w) -> episodes (ls ++ [l]) es.
(** The events, in order. *)
Definition happened (ls : list label) : list event :=
  flat_map (fun l => match l with Emitted e => [e] | StopRequest => [EStop] | _ => [] end) ls.
(** The state without the messages pending on the shell socket. *)
Definition bare {U} (k : kstate U) : kstate U := set_shell [] k.
(** The messages [es] handled one after the other, all to the end; the pending messages a handler
    finds on the shell socket are those of its episode, and it takes all of them. *)
Inductive served {U} (E : env U) : list episode -> kstate U -> kstate U -> Prop :=
| sd_nil k : served E [] k k
| sd_snoc es c w l k k0 k1 : served E es k k0 -> run (dispatch E w c) (set_shell (List.map Some l) k0) = (k1, Ok tt) ->
    k_shell k1 = [] -> served E (es ++ [(c, w, l)]) k k1.

(** Where the main thread is. *)
Inductive place := Between | Handling | Failed.
Definition place_of {U} (pc : mpc U) : place :=
  match pc with MInControl _ _ | MInShell _ => Handling | MCrash => Failed | _ => Between end.

(** ** The events of one episode *)
Section Blocks.
  Context {U : Type} (E : env U).
  (** Events between busy and the reply: no status, no reply; what is published for the channel of
      the message has the header of the message as parent, as have input requests. *)
  Definition inner (c : channel) (m : xmessage) (e : event) : Prop :=
    well_sent E e /\ ~ is_status e /\ ~ is_send e /\
    match e with
    | EPublish c' p _ => (c' = c -> m_parent_header (m_pbase p) = m_header (m_base m)) /\
        exists id ty, header_with (m_header (m_pbase p)) id ty (e_user_name E) (e_session_id E) /\ (c' = SHELL \/ In ty control_types)
    | EStdin q _ => c = SHELL -> m_ids q = m_ids m /\ m_parent_header (m_base q) = m_header (m_base m)
    | _ => True
    end.
  (** Busy, then what the handler emits, its reply, and the replies to the messages [l] it aborts; one
      that cannot be aborted ends the loop. *)
  Definition opening (c : channel) (m : xmessage) (ty : string) (l : list frames) (evs : list event) : Prop :=
    exists busy mid rep ab ws lo hi, evs = (busy :: mid ++ rep ++ ab)%list /\
      status_event E "busy" c (m_header (m_base m)) busy /\ well_sent E busy /\ Forall (inner c m) mid /\
      Forall (fun e => well_sent E e /\ routed E c (m_ids m) (m_header (m_base m)) ty e) rep /\ List.length rep <= 1 /\
      aborts E lo ws ab hi /\ (ws <> [] -> rep <> [] /\ ty = "execute_request") /\
      (l = ws \/ exists x, l = (ws ++ [x])%list).
  (** [block e evs ok]: the events of the episode [e] when the handling has ended; [ok]: normally. *)
  Inductive block : episode -> list event -> bool -> Prop :=
  | bk_rejected c w : rejected E w -> block (c, w, []) [] true
  | bk_fatal c w : fatal E w -> block (c, w, []) [] false
  | bk_untyped c w m busy : accepted E w m -> (forall ty, ~ typed (m_header (m_base m)) ty) ->
      status_event E "busy" c (m_header (m_base m)) busy -> well_sent E busy -> block (c, w, []) [busy] false
  | bk_done c w l m ty evs idle : accepted E w m -> typed (m_header (m_base m)) ty -> opening c m ty l evs ->
      status_event E "idle" c (m_header (m_base m)) idle -> well_sent E idle -> block (c, w, l) (evs ++ [idle]) true
  | bk_failed c w l m ty evs : accepted E w m -> typed (m_header (m_base m)) ty -> opening c m ty l evs ->
      block (c, w, l) evs false.
  (** The events of the messages handled, one block after the other, followed by the initial part of a
      block if a message is being handled. *)
  Definition stream (es : list episode) (p : place) (evs : list event) : Prop :=
    match p with
    | Between => exists bs, evs = List.concat bs /\ Forall2 (fun e b => block e b true) es bs
    | Handling => exists es' e bs b ok last, es = (es' ++ [e])%list /\ evs = (List.concat bs ++ last)%list /\
        Forall2 (fun e b => block e b true) es' bs /\ block e b ok /\ prefix last b
    | Failed => exists es' e bs b, es = (es' ++ [e])%list /\ evs = (List.concat bs ++ b)%list /\
        Forall2 (fun e b => block e b true) es' bs /\ block e b false
    end.
  (** [e] is a reply to the message [snd x] of the channel [fst x]: to its sender, with its header, of
      the type of a reply to a request handled or aborted. *)
  Definition answers (x : channel * frames) (e : event) : Prop :=
    exists m ty r f id rty, accepted E (snd x) m /\ typed (m_header (m_base m)) ty /\ e = ESend (fst x) r f /\ well_sent E e /\
      (reply_name ty rty \/ abort_type ty rty /\ m_content (m_base r) = JObj [("status", JStr "error")]) /\
      m_ids r = m_ids m /\ m_parent_header (m_base r) = m_header (m_base m) /\
      header_with (m_header (m_base r)) id rty (e_user_name E) (e_session_id E).
End Blocks.
(** The messages taken from the shell and control sockets, in order. *)
Definition received (ls : list label) : list (channel * frames) :=
  flat_map (fun l => match l with Hand c w => [(c, w)] | Took w => [(SHELL, w)] | _ => [] end) ls.
(** The replies sent. *)
Definition sends (evs : list event) : list event := filter (fun e => match e with ESend _ _ _ => true | _ => false end) evs.
(** [sub a b]: [a] is [b] with some elements left out. *)
Inductive sub {A} : list A -> list A -> Prop :=
| sub_nil : sub [] []
| sub_skip a b x : sub a b -> sub a (x :: b)
| sub_take a b x : sub a b -> sub (x :: a) (x :: b).
