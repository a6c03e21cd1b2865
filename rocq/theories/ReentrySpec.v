(** Vocabulary for callbacks that destroy themselves. *)
From Verif Require Import Base Json JsonText Auth Message Comm Tree Kernel Reentry.

(** The operation destroys or replaces the function in this place. *)
Definition destroys {U} (o : uop0 U) (x : slot) : Prop :=
  match x with
  | SMessage a => o = ADestroy a \/ o = AMove a \/ (exists b, o = AMoveAssign a b) \/ (exists b, o = AMoveAssign b a) \/ (exists h, o = AOnMessage a h)
  | SClose a => o = ADestroy a \/ o = AMove a \/ (exists b, o = AMoveAssign a b) \/ (exists b, o = AMoveAssign b a) \/ (exists h, o = AOnClose a h)
  | STarget name => o = AUnregTarget name \/ (exists cb, o = ARegTarget name cb)
  | SInput => exists h, o = ASetInput h
  end.
Definition leaves0 {U} (P : list slot) (o : uop0 U) : Prop := forall x, List.In x P -> ~ destroys o x.
Definition leaves {U} (P : list slot) (o : uop1 U) : Prop := forall o0, o = AOp o0 -> leaves0 P o0.
(** User code that leaves the running functions alone: handlers those of comms, the callback of a target its own, input handlers input
    handlers and the function that may have asked for input. *)
Definition mild {U} (E : env U) : Prop :=
  (forall a n m, always (leaves [SMessage a]) (e_handler E n m) /\ always (leaves [SClose a]) (e_handler E n m)) /\
  (forall name n a m, jfield "target_name" (m_content (m_base m)) = Some (JStr name) -> always (leaves [STarget name]) (e_callback E n a m)) /\
  (forall s n v, always (leaves0 [SInput; s]) (e_input E n v)).
