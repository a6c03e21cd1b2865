(** Calls that overlap, and the dates that can come of it. *)
From Verif Require Import Base Json JsonText Logger Calendar.

(** Thread [j] has read the clock at [u] and its call has not returned at the end of [ls]. *)
Definition pending (j : nat) (u : Z) (ls : list dlab) : Prop :=
  exists a b, ls = (a ++ TCall j u :: b)%list /\ forall s, ~ In (TBack j s) b.
(** The call of thread [i] at [now], between [before] and its return after [during]. *)
Definition call_of (i : nat) (now : Z) (before during : list dlab) (s : string) (ls : list dlab) : Prop :=
  exists rest, ls = (before ++ TCall i now :: during ++ TBack i s :: rest)%list /\ forall x, ~ In (TBack i x) during.
(** Another call in progress at the same time. *)
Definition overlaps (i : nat) (before during : list dlab) (u : Z) : Prop :=
  exists j, j <> i /\ (pending j u before \/ In (TCall j u) during).
(** A date made of parts of the dates of [ts]; the fraction is that of [now]. *)
Definition mixture (ts : Z -> Prop) (now : Z) (s : string) : Prop :=
  exists c : tm, (forall f, exists u, ts u /\ c f = gm u f) /\ s = stamp c now.
