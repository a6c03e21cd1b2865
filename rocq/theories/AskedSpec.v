(** Which message on the stdin socket answers which input request. *)
From Verif Require Import Base Json Auth Message History Comm Tree Kernel KernelSpec Server Split.

(** What happens on the stdin socket: [send_stdin] sends an input request, a message arrives, an input
    handler of the interpreter is given a value. *)
Inductive stdin_obs := OAsk (m : xmessage) | OInput (h : nat) (v : string) | OArrive.
Definition of_event (e : event) : list stdin_obs :=
  match e with EStdin m _ => [OAsk m] | EInput h v => [OInput h v] | _ => [] end.
Definition of_label (l : label) : list stdin_obs := match l with Emitted e => of_event e | StdinArrive => [OArrive] | _ => [] end.
Definition of_slabel (l : slabel) : list stdin_obs := match l with YEvent _ e => of_event e | YStdin => [OArrive] | _ => [] end.
Definition on_stdin (ls : list label) : list stdin_obs := flat_map of_label ls.
Definition y_on_stdin (ls : list slabel) : list stdin_obs := flat_map of_slabel ls.
Definition is_ask (o : stdin_obs) : bool := match o with OAsk _ => true | _ => false end.
Definition is_arrive (o : stdin_obs) : bool := match o with OArrive => true | _ => false end.
Definition asks (os : list stdin_obs) : nat := List.length (filter is_ask os).
Definition arrivals (os : list stdin_obs) : nat := List.length (filter is_arrive os).

Section Asked.
  Context {U : Type} (E : env U).
  (** [base] messages had been read from the socket before. *)
  Variable base : nat.
  (** The value in a message: that of the field, or "" if there is none. *)
  Definition value_of (w : frames) (v : string) : Prop :=
    exists m mm, accepted E w m /\ m_content (m_base m) = JObj mm /\
      (mfind "value" mm = Some (JStr v) \/ (mfind "value" mm = None /\ v = "")).
  (** After [os], the last request, [q], is the [n]-th (from 0), its message has been read, and [v] is
      the value in that message: the [n]-th one that arrives. *)
  Definition answered (os : list stdin_obs) (q : xmessage) (n : nat) (v : string) : Prop :=
    exists l i, os = (l ++ OAsk q :: repeat OArrive i)%list /\ asks l = n /\ n < arrivals os /\ value_of (e_stdin E (base + n)) v.
  (** Every value given to an input handler answers the last request, and is the first one since. *)
  Definition in_turn (os : list stdin_obs) : Prop :=
    forall l1 h v l2, os = (l1 ++ OInput h v :: l2)%list -> exists q n, answered l1 q n v.
  (** As many messages have been read as requests sent, but for the last request if its message has not
      been read. *)
  Definition even (os : list stdin_obs) (k : kstate U) (waiting : bool) : Prop :=
    asks os + base = k_stdin k + (if waiting then 1 else 0) /\ k_stdin k <= base + arrivals os.
  (** The variable of [blocking_input_request] has the value in the message that answers the last
      request, or is empty. *)
  Definition own_value (os : list stdin_obs) (k : kstate U) : Prop :=
    forall v, k_value k = Some v -> v = "" \/ exists q n, answered os q n v.
End Asked.

(** The thread that handles the shell channel waits for a message on the stdin socket. *)
Definition d_waits {U} (s : dsys U) : bool := match d_pc s with MInControl (Do KStdin _) _ | MInShell (Do KStdin _) => true | _ => false end.
Definition y_waits {U} (s : ysys U) : bool := match y_sh s with SRun (Going (Do KStdin _)) _ | SIntern (Going (Do KStdin _)) => true | _ => false end.

(** Clients that follow the protocol: a message arrives only after the request it answers, and
    [replies q w]: the [n]-th message is an answer to the [n]-th request. *)
Definition after_request (os : list stdin_obs) : Prop := forall l1 l2, os = (l1 ++ OArrive :: l2)%list -> arrivals l1 < asks l1.
Definition nth_ask (os : list stdin_obs) (n : nat) (q : xmessage) : Prop := exists l1 l2, os = (l1 ++ OAsk q :: l2)%list /\ asks l1 = n.
Definition replies {U} (E : env U) (q : xmessage) (w : frames) : Prop :=
  exists m, accepted E w m /\ m_ids m = m_ids q /\ m_parent_header (m_base m) = m_header (m_base q) /\ typed (m_header (m_base m)) "input_reply".
Definition polite {U} (E : env U) (base : nat) (os : list stdin_obs) : Prop :=
  after_request os /\ forall n q, nth_ask os n q -> n < arrivals os -> replies E q (e_stdin E (base + n)).
(** The value comes from an answer to the last request; the message has arrived since. *)
Definition own_answer {U} (E : env U) (base : nat) (os : list stdin_obs) (v : string) : Prop :=
  exists l q i n, os = (l ++ OAsk q :: repeat OArrive i)%list /\ arrivals l <= n < arrivals l + i /\
    replies E q (e_stdin E (base + n)) /\ value_of E (e_stdin E (base + n)) v.
