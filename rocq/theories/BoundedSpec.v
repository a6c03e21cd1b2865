(** Vocabulary: the publications of the default server on their way to a subscriber. C104. *)
From Verif Require Import Base Json Message Comm Tree Kernel Server Join JoinSpec SequentialSpec Bounded.

(** The publications of the main thread. *)
Definition spoken (ls : list blabel) : list frames :=
  flat_map (fun l => match l with BMain (Emitted (EPublish _ _ w)) _ => [w] | _ => [] end) ls.
(** What the publisher thread has sent. *)
Definition sent_on (ls : list blabel) : list frames := flat_map (fun l => match l with BSend w => [w] | _ => [] end) ls.
(** What is sent after the i-th subscriber was connected. *)
Fixpoint after_subscribe (i : nat) (ls : list blabel) : list frames :=
  match ls with
  | [] => []
  | BSubscribe _ :: r => match i with 0 => sent_on r | S i => after_subscribe i r end
  | _ :: r => after_subscribe i r
  end.
(** What the i-th subscriber has subscribed to, and what it has read. *)
Fixpoint topic_of (i : nat) (ls : list blabel) : option string :=
  match ls with
  | [] => None
  | BSubscribe t :: r => match i with 0 => Some t | S i => topic_of i r end
  | _ :: r => topic_of i r
  end.
Definition read_by (i : nat) (ls : list blabel) : list frames :=
  flat_map (fun l => match l with BRead j w => if Nat.eqb j i then [w] else [] | _ => [] end) ls.
Definition begins (topic : string) (w : frames) : Prop :=
  match w with [] => topic = "" | x :: _ => exists r, x = topic +++ r end.
(** The messages of [b] that begin with the topic, some may be missing; none is missing. *)
Inductive some_of (topic : string) : list frames -> list frames -> Prop :=
| so_nil : some_of topic [] []
| so_take w a b : begins topic w -> some_of topic a b -> some_of topic (w :: a) (w :: b)
| so_skip w a b : some_of topic a b -> some_of topic a (w :: b).
Inductive all_of (topic : string) : list frames -> list frames -> Prop :=
| ao_nil : all_of topic [] []
| ao_take w a b : begins topic w -> all_of topic a b -> all_of topic (w :: a) (w :: b)
| ao_skip w a b : ~ begins topic w -> all_of topic a b -> all_of topic a (w :: b).
(** At no moment of the run are [n] messages, the start message and publications that are not sent, before the publisher. *)
Definition publisher_keeps_up (n : nat) (ls : list blabel) : Prop :=
  forall l1 l2, ls = (l1 ++ l2)%list -> List.length (spoken l1) + 1 < List.length (sent_on l1) + n.
(** At no moment are [n] messages that were sent since the i-th subscriber was connected, with its topic, not read by it. *)
Definition reader_keeps_up (n i : nat) (ls : list blabel) : Prop :=
  forall l1 l2 t a, ls = (l1 ++ l2)%list -> topic_of i l1 = Some t -> all_of t a (after_subscribe i l1) -> List.length a < List.length (read_by i l1) + n.
(** What is seen of the other threads. *)
Definition bseen (ls : list blabel) : list label :=
  flat_map (fun l => match l with BMain l _ | BEnv l => if visible l then [l] else [] | _ => [] end) ls.
