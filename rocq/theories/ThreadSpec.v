(** Vocabulary of C109: what a thread of the split servers may be asked without the other thread showing in its answers. *)
From Verif Require Import Base BaseFacts Json Message Tree Kernel KernelSpec Split SplitSpec.

(** The types of the messages for thread [c] that only depend on what this thread does: on shell all but the two whose publications bear the
    parent of the control channel; on control those that have to do neither with the count and history nor with the comms. *)
Definition homely (c : channel) (ty : string) : Prop :=
  match c with
  | SHELL => ~ In ty ["shutdown_request"; "interrupt_request"]
  | CONTROL => ~ In ty ["execute_request"; "history_request"; "comm_info_request"; "comm_open"; "comm_close"; "comm_msg"]
  end.
Definition keeps_to {U} (E : env U) (c : channel) (w : frames) : Prop :=
  forall m ty, accepted E w m -> typed (m_header (m_base m)) ty -> homely c ty.
(** The messages the listener of thread [c] was called with. *)
Definition handed_to (c : channel) (ls : list slabel) : list (channel * frames) :=
  flat_map (fun l => match l with YHand c' w => if chan_eqb c c' then [(c, w)] else [] | _ => [] end) ls.
(** The frames thread [c] sent: publications, replies. *)
Definition told_by (c : channel) (ls : list slabel) : list frames :=
  flat_map (fun l => match l with YEvent c' (EPublish _ _ w) => if chan_eqb c c' then [w] else [] | _ => [] end) ls.
Definition replied_by (c ch : channel) (ls : list slabel) : list frames :=
  flat_map (fun l => match l with YEvent c' (ESend ch' _ w) => if chan_eqb c c' then (if chan_eqb ch ch' then [w] else []) else [] | _ => [] end) ls.
