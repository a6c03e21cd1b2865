(** Vocabulary of the handlers of comms. *)
From Verif Require Import Base CommSpec.

(** ** The handlers of a comm *)
Inductive slot := OnMessage | OnClose.
Definition sets (k : slot) (a : nat) (h : option nat) : cop := match k with OnMessage => COnMessage a h | OnClose => COnClose a h end.
(** The objects are numbered in the order of their construction. *)
Definition constructs (o : cop) : bool := match o with CNew _ _ | CMove _ | CCopy _ _ => true | _ => false end.
Definition made (past : list cop) : nat := List.length (filter constructs past).
(** After the operations [past] (the last one first) the object [a] has the handler [h]: the one it was last
    given, or has from a comm that was moved into it; a new comm, a copy and a comm that was moved from have
    none, and assigning a copy changes nothing. *)
Inductive holds (k : slot) : list cop -> nat -> option nat -> Prop :=
| ho_given past a h : holds k (sets k a h :: past) a h
| ho_new past p id : holds k (CNew p id :: past) (made past) None
| ho_copy past b id : holds k (CCopy b id :: past) (made past) None
| ho_moved past b h : holds k past b h -> holds k (CMove b :: past) (made past) h
| ho_left past b : b <> made past -> holds k (CMove b :: past) b None
| ho_assigned past d b h : holds k past b h -> holds k (CMoveAssign d b :: past) d h
| ho_taken past d b : b <> d -> holds k (CMoveAssign d b :: past) b None
| ho_kept o past a h : holds k past a h -> (forall h', o <> sets k a h') -> o <> CMove a -> (forall b, o <> CMoveAssign a b) ->
    (forall d, o <> CMoveAssign d a) ->
    (constructs o = true -> a <> made past) -> holds k (o :: past) a h.
