(** Vocabulary for the server properties: what a list of observations says about the messages. *)
From Verif Require Import Base Json Message Comm Tree Kernel Server.

(** Messages that reached the socket of channel [c]. *)
Definition arrived (c : channel) (ls : list label) : list frames :=
  flat_map (fun l => match l with Arrive c' w => if chan_eqb c c' then [w] else [] | _ => [] end) ls.
(** Messages given to a listener, with the channel. *)
Definition handed (ls : list label) : list (channel * frames) :=
  flat_map (fun l => match l with Hand c w => [(c, w)] | _ => [] end) ls.
(** Messages taken from the control socket. *)
Definition control_taken (ls : list label) : list frames :=
  flat_map (fun l => match l with Hand CONTROL w => [w] | _ => [] end) ls.
(** Messages taken from the shell socket: given to the shell listener or aborted. *)
Definition shell_taken (ls : list label) : list frames :=
  flat_map (fun l => match l with Hand SHELL w => [w] | Took w => [w] | _ => [] end) ls.
Definition is_poll (l : label) : Prop := match l with Poll _ _ => True | _ => False end.
Definition no_poll (ls : list label) : Prop := Forall (fun l => ~ is_poll l) ls.
(** Messages published, in order. *)
Definition published (ls : list label) : list frames :=
  flat_map (fun l => match l with Emitted (EPublish _ _ w) => [w] | _ => [] end) ls.
(** Heartbeat messages received. *)
Definition beats (ls : list label) : list frames :=
  flat_map (fun l => match l with HbArrive w => [w] | _ => [] end) ls.
Definition prefix {A} (a b : list A) : Prop := exists r, b = (a ++ r)%list.
