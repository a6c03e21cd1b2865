(** Vocabulary: the sockets of the split servers as a client and a subscriber see them. *)
From Verif Require Import Base BaseFacts Json JsonText Utf8 Auth Message WireSpec History Comm Tree Kernel KernelSpec Server ServerSpec Split SplitSpec SequentialSpec HeardSpec.

(** What was sent on the socket of channel [c]: multipart messages, in order. *)
Definition socket_frames (c : channel) (evs : list event) : list frames :=
  flat_map (fun e => match e with ESend c' _ f => if chan_eqb c c' then [f] else [] | _ => [] end) evs.
(** What was published by thread [c], and by both. *)
Definition said_by (c : channel) (ls : list slabel) : list frames :=
  flat_map (fun l => match l with YEvent c' (EPublish _ _ w) => if chan_eqb c c' then [w] else [] | _ => [] end) ls.
(** [l] consists of the elements of [a] and of those of [b], each in their order. *)
Inductive interleaves {A} : list A -> list A -> list A -> Prop :=
| il_nil : interleaves [] [] []
| il_left x a b l : interleaves a b l -> interleaves (x :: a) b (x :: l)
| il_right x a b l : interleaves a b l -> interleaves a (x :: b) (x :: l).

(** What a thread does: it handles messages; the shell thread also answers requests of the control
    thread. *)
Inductive turn := THandle (w : frames) | TInternal (w : frames).
Definition turns_of (c : channel) (ls : list slabel) : list turn :=
  flat_map (fun l => match l with
                     | YHand c' w => if chan_eqb c c' then [THandle w] else []
                     | YIntern w => if chan_eqb c SHELL then [TInternal w] else []
                     | _ => []
                     end) ls.
Section Spec.
  Context {U : Type} (E : env U).
  (** A publication of another type. *)
  Definition other_type (f : frames) : Prop :=
    exists h id ty, heads f h /\ header_with h id ty (e_user_name E) (e_session_id E) /\ ty <> "status".
  (** What thread [c] publishes in a turn, complete ([true]) or not: nothing for a message that is
      rejected, the block from busy to idle for one that is accepted (HeardSpec.v), no statuses for a
      request of the control thread. *)
  Inductive told (c : channel) : turn -> list frames -> bool -> Prop :=
  | told_before w : told c (THandle w) [] false
  | told_rejected w : rejected E w -> told c (THandle w) [] true
  | told_block w m b ok : accepted E w m -> said E c (m_header (m_base m)) b ok -> told c (THandle w) b ok
  | told_internal w b ok : Forall other_type b -> told c (TInternal w) b ok.
  (** Turn by turn: the last one may be incomplete. *)
  Definition thread_told (c : channel) (ts : list turn) (fs : list frames) : Prop :=
    exists ts1 bs, Forall2 (fun t b => told c t b true) ts1 bs /\
      ((ts = ts1 /\ fs = List.concat bs) \/ exists t b ok, ts = (ts1 ++ [t])%list /\ told c t b ok /\ fs = (List.concat bs ++ b)%list).
End Spec.
