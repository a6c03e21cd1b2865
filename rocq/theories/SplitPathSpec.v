(** Vocabulary: a thread of the split servers runs the program of its listener. *)
From Verif Require Import Base Json JsonText Message Comm Tree Kernel KernelSpec Server Split SplitSpec.

(** The labels of thread [c] while it handles something. *)
Definition own_label (c : channel) (l : slabel) : bool :=
  match l with
  | YEvent c' _ | YTook c' _ | YCall c' _ | YAnswer c' _ => chan_eqb c c'
  | YInternEnd _ => chan_eqb c SHELL
  | _ => false
  end.
Definition own_labels (c : channel) (ls : list slabel) : list slabel := filter (own_label c) ls.
(** An operation that is not observed. *)
Definition hidden {U} (o : kop U) : Prop := match o with KEmit _ | KShellPop | KCall _ => False | _ => True end.
(** [follows c p ls q]: thread [c] gets from the program [p] to the program [q] with the labels [ls]: each
    event is announced, a message that was taken and the answer to a request are what the program goes
    on with, and nothing is known of the values of the other operations. *)
Inductive follows {U A} (c : channel) : kprog U A -> list slabel -> kprog U A -> Prop :=
| fo_nil p : follows c p [] p
| fo_emit e k x ls q : follows c (k x) ls q -> follows c (Do (KEmit e) k) (YEvent c e :: ls) q
| fo_took k w ls q : follows c (k (Some w)) ls q -> follows c (Do KShellPop k) (YTook c w :: ls) q
| fo_empty k ls q : follows c (k None) ls q -> follows c (Do KShellPop k) ls q
| fo_call w r k ls q : follows c (k r) ls q -> follows c (Do (KCall w) k) (YCall c w :: YAnswer c r :: ls) q
| fo_hidden o k x ls q : hidden o -> follows c (k x) ls q -> follows c (Do o k) ls q.
(** ... and possibly waits for an answer. *)
Definition follows_on {U A} (c : channel) (p : kprog U A) (ls : list slabel) : Prop :=
  (exists q, follows c p ls q) \/
  exists ls' w k, ls = (ls' ++ [YCall c w])%list /\ follows c p ls' (Do (KCall w) k).
