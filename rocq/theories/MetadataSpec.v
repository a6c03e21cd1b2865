(** Vocabulary of C111: the metadata of outgoing messages. *)
From Verif Require Import Base Json Message Tree Kernel KernelSpec.

(** The metadata an operation of user code hands over: only messages about comms have one. *)
Definition op_metadata {U} (o : uop0 U) : option json :=
  match o with
  | AOpen _ md _ _ | AClose _ md _ _ | ASendComm _ md _ _ | ATargetPublish _ _ md _ _ => Some md
  | _ => None
  end.
(** All metadata that user code hands over satisfy [given]. *)
Definition op_gives {U} (given : json -> Prop) (o : uop0 U) : Prop := match op_metadata o with Some md => given md | None => True end.
Definition op_gives1 {U} (given : json -> Prop) (o : uop1 U) : Prop := match o with AOp o => op_gives given o | _ => True end.
Definition user_gives {U} (E : env U) (given : json -> Prop) : Prop := user_always E (op_gives given) (op_gives1 given).

(** The metadata of an event: that of replies as [reply] says, none in input requests, none or what user code
    gave in publications. *)
Definition described (reply given : json -> Prop) (e : event) : Prop :=
  match e with
  | ESend _ r _ => reply (m_metadata (m_base r))
  | EStdin m _ => m_metadata (m_base m) = JObj []
  | EPublish _ m _ => m_metadata (m_pbase m) = JObj [] \/ given (m_metadata (m_pbase m))
  | _ => True
  end.
(** The date of a clock reading from number [lo] on, before number [hi]. *)
Definition dated {U} (E : env U) (lo hi : nat) (md : json) : Prop := exists n, lo <= n < hi /\ md = JObj [("started", JStr (e_now E n))].
