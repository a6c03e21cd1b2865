(** Vocabulary for the debug adapter client among the debugger and the adapter. *)
From Verif Require Import Base BaseFacts Json JsonText Auth Message Dap DapSpec DapConnect.

(** A message of the adapter: an object, of a length that the header can tell. *)
Definition adapter_message (raw : string) : Prop := (N.of_nat (slen raw) < 2 ^ 64)%N /\ exists m, parse raw = Ok (JObj m).
(** [l] has [n] messages that are not events. *)
Inductive answers : nat -> list string -> Prop :=
| answers_nil : answers 0 []
| answers_event n raw l : ~ is_answer raw -> answers n l -> answers n (raw :: l)
| answers_one n raw l : is_answer raw -> answers n l -> answers (S n) (raw :: l).
(** An adapter that sends events, and one answer to each request. *)
Definition answers_each {A} (adapter : A -> string -> A * list string) : Prop :=
  forall a b, Forall adapter_message (snd (adapter a b)) /\ answers 1 (snd (adapter a b)).
(** Handlers of events that do not fail, for parent headers that meet [P], and send nothing to the adapter. *)
Definition handles_events (E : dapenv) (P : string -> Prop) : Prop :=
  (forall raw j c, parse raw = Ok j -> is_event j -> P (c_parent c) -> snd (handle_event E j c) = Done tt) /\
  (forall l p j u, List.In u (fst (dp_event E l p j)) -> exists j', u = UForward j').
Definition asked_requests (l : list question) : list string := flat_map (fun q => match q with AskRequest r => [r] | _ => [] end) l.
Definition headers_meet (P : string -> Prop) (l : list question) : Prop := forall h, List.In (AskHeader h) l -> P h.

(** Whatever order the steps are taken in, a world of [P] is reached. *)
Inductive will {W : Type} (step : W -> W -> Prop) (P : W -> Prop) (w : W) : Prop :=
| will_now : P w -> will step P w
| will_later : (exists w', step w w') -> (forall w', step w w' -> will step P w') -> will step P w.

(** All has been asked and answered, or the client has been told to stop. *)
Definition served {A} (E : dapenv) (todo : list question) (w : world (A := A)) : Prop :=
  w_dead w = false /\ List.length (replies (c_log (now E w))) = List.length (requests (c_log (now E w))) /\
  ((w_todo w = [] /\ free (now E w) /\ requests (c_log (now E w)) = asked_requests todo) \/ c_stop (now E w) = true).
