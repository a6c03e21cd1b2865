(** Vocabulary for the split servers. *)
From Verif Require Import Base Json JsonText Message Comm Tree Kernel KernelSpec Server Split.

(** Thread [c] starts something new: it calls a listener. *)
Definition starts (c : channel) (l : slabel) : Prop :=
  match l with YHand c' _ => c' = c | YIntern _ => c = SHELL | _ => False end.
(** ... and did not during [ls]. *)
Definition in_same (c : channel) (ls : list slabel) : Prop := Forall (fun l => ~ starts c l) ls.
(** Messages taken by thread [c] from the shell socket while aborting the queue. *)
Definition tooks (c : channel) (ls : list slabel) : list frames :=
  flat_map (fun l => match l with YTook c' w => if chan_eqb c c' then [w] else [] | _ => [] end) ls.
(** Events of thread [c]. *)
Definition events (c : channel) (ls : list slabel) : list event :=
  flat_map (fun l => match l with YEvent c' e => if chan_eqb c c' then [e] else [] | _ => [] end) ls.
(** Messages that reached the socket of channel [c]; messages taken from it: given to its listener
    or, on shell, aborted. *)
Definition came (c : channel) (ls : list slabel) : list frames :=
  flat_map (fun l => match l with YArrive c' w => if chan_eqb c c' then [w] else [] | _ => [] end) ls.
Definition taken (c : channel) (ls : list slabel) : list frames :=
  flat_map (fun l => match l with
                     | YHand c' w => if chan_eqb c c' then [w] else []
                     | YTook _ w => if chan_eqb c SHELL then [w] else []
                     | _ => []
                     end) ls.
(** Messages published by the shell and control threads, and heartbeat messages received. *)
Definition sent_out (ls : list slabel) : list frames :=
  flat_map (fun l => match l with YEvent _ (EPublish _ _ w) => [w] | _ => [] end) ls.
Definition pulses (ls : list slabel) : list frames :=
  flat_map (fun l => match l with YBeat w => [w] | _ => [] end) ls.
(** Exchanges between a messenger and the shell thread. *)
Definition is_sync (l : slabel) : bool :=
  match l with YCall _ _ | YAnswer _ _ | YIntern _ | YInternEnd _ => true | _ => false end.
Definition sync (ls : list slabel) : list slabel := filter is_sync ls.
(** Complete rounds: the control thread asks, the shell thread takes this request and answers it,
    the control thread gets this answer. *)
Inductive rounds : list slabel -> Prop :=
| rd_nil : rounds []
| rd_round L w r : rounds L -> rounds (L ++ [YCall CONTROL w; YIntern w; YInternEnd r; YAnswer CONTROL r]).
(** A round that is not complete. A call made by the shell thread itself is never answered. *)
Inductive in_round : list slabel -> Prop :=
| ir_none : in_round []
| ir_call c w : in_round [YCall c w]
| ir_intern w : in_round [YCall CONTROL w; YIntern w]
| ir_end w r : in_round [YCall CONTROL w; YIntern w; YInternEnd r].

(** A value user code can return, whatever the answers it gets. *)
Fixpoint can_return {Op} {Ar : Op -> Type} {A} (t : tree Ar A) (a : A) : Prop :=
  match t with Ret b => b = a | Do o k => exists x, can_return (k x) a | _ => False end.

Section Spec.
  Context {U : Type} (E : env U).
  (** [evs] and [r] are the events and the result of asking the interpreter in the shell thread:
      [w] is the text of a JSON value, the interpreter is called with it, [r] is the text of what
      it returned. *)
  Definition asked_interpreter (w : frames) (evs : list event) (r : frames) : Prop :=
    exists t rest j a text, w = t :: rest /\ parse t = Ok j /\ (exists l, evs = EInterp (RInternal j) :: l) /\
      can_return (e_interp E (RInternal j)) a /\ dump (e_eh E) a = Ok text /\ r = [text].
  (** [m] is the last message of channel [c] that was accepted. *)
  Definition last_accepted (c : channel) (ls : list slabel) (m : xmessage) : Prop :=
    exists a w b, ls = (a ++ YHand c w :: b)%list /\ accepted E w m /\
      forall w' m', In (YHand c w') b -> ~ accepted E w' m'.
  Definition none_accepted (c : channel) (ls : list slabel) : Prop :=
    forall w' m', In (YHand c w') ls -> ~ accepted E w' m'.

  (** An event of a thread handling message [m] of channel [c]: its own replies go to the sender of
      [m] with the header of [m] as parent, its publications on its own channel have that parent
      header; the only other replies are the error replies to messages it took from the shell
      socket; standard input is requested from the sender of [m] when the channel is shell. *)
  Definition attributed (c : channel) (m : xmessage) (took : list frames) (e : event) : Prop :=
    match e with
    | ESend c' r _ =>
        (c' = c /\ m_ids r = m_ids m /\ m_parent_header (m_base r) = m_header (m_base m)) \/
        (c' = SHELL /\ exists w' m', In w' took /\ accepted E w' m' /\ m_ids r = m_ids m' /\ m_parent_header (m_base r) = m_header (m_base m'))
    | EPublish c' p _ => c' = c -> m_parent_header (m_pbase p) = m_header (m_base m)
    | EStdin r _ => c = SHELL -> m_ids r = m_ids m /\ m_parent_header (m_base r) = m_header (m_base m)
    | _ => True
    end.
  (** The events of a complete call with the frames [w]: none when they are rejected, else from the
      busy status to the idle status. *)
  Definition whole (c : channel) (w : frames) (evs : list event) : Prop :=
    (evs = [] /\ rejected E w) \/
    exists m b l i, accepted E w m /\ evs = (b :: l ++ [i])%list /\
      status_event E "busy" c (m_header (m_base m)) b /\ status_event E "idle" c (m_header (m_base m)) i.
End Spec.

(** ** Fair executions *)
(** An execution: a step or, after a while, nothing. *)
Section Fair.
  Context {U : Type} (v : variant) (listener : channel -> frames -> kprog U unit) (internal : frames -> kprog U frames).
  Variable (sigma : nat -> ysys U) (lab : nat -> option slabel).
  Definition execution : Prop := forall n,
    match lab n with
    | Some l => ystep v listener internal (sigma n) l (sigma (S n))
    | None => sigma (S n) = sigma n
    end.
  Definition enabled (t : tid) (s : ysys U) : Prop := exists l s', who l = t /\ ystep v listener internal s l s'.
  (** Thread [t] does not stay enabled without making a step. *)
  Definition fair (t : tid) : Prop := forall n, exists m, n <= m /\
    (~ enabled t (sigma m) \/ exists l, lab m = Some l /\ who l = t).
  (** The shell thread is about to call itself, or waits for itself. *)
  Definition calls_itself (s : ysys U) : Prop :=
    match y_sh s with
    | SRun (Going (Do (KCall _) _)) _ | SRun (Calling _) _ | SIntern (Going (Do (KCall _) _)) | SIntern (Calling _) => True
    | _ => False
    end.
  (** The shell thread waits for a message on the stdin socket. *)
  Definition waits_stdin (s : ysys U) : Prop :=
    match y_sh s with
    | SRun (Going (Do KStdin _)) _ => m_stdin (y_mem s) <= k_stdin (m_k (y_mem s))
    | _ => False
    end.
End Fair.
(** The process has exited, with its threads finished. *)
Definition all_stopped {U} (s : ysys U) : Prop :=
  y_end s = Some Exited /\ (y_sh s = SOut \/ y_sh s = SEnd) /\ (y_ct s = COut \/ y_ct s = CEnd) /\
  f_pc (m_pub (y_mem s)) = FDone /\ f_pc (m_hb (y_mem s)) = FDone.
