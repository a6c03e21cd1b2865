(** Vocabulary: the order of the publications of the split servers. C105. *)
From Verif Require Import Base Json Message Comm Tree Kernel Server Split Startup Pipes.

(** What is published on channel [c], with the start message. *)
Definition published (v : variant) (c : channel) (ls : list plabel) : list frames :=
  flat_map (fun l => match l, v, c with
                     | PStep (ZStart w) _, ControlMain, CONTROL | PStep (ZStart w) _, ShellMain, SHELL => [w]
                     | PStep (ZStep (YEvent _ (EPublish SHELL _ w))) _, _, SHELL | PStep (ZStep (YEvent _ (EPublish CONTROL _ w))) _, _, CONTROL => [w]
                     | _, _, _ => []
                     end) ls.
(** ... after the subscription has reached the socket of [c]. *)
Fixpoint subscribed (v : variant) (c : channel) (ls : list plabel) : list frames :=
  match ls with
  | [] => []
  | l :: r => match l, c with PJoin SHELL, SHELL | PJoin CONTROL, CONTROL => published v c r | _, _ => subscribed v c r end
  end.
(** What the publisher thread has sent. *)
Definition out (ls : list plabel) : list frames := flat_map (fun l => match l with PSend w => [w] | _ => [] end) ls.
(** [a], in order, is in [b]. *)
Inductive within : list frames -> list frames -> Prop :=
| wi_nil : within [] []
| wi_take w a b : within a b -> within (w :: a) (w :: b)
| wi_skip w a b : within a b -> within a (w :: b).
(** [l] is made of [a] and [b], each in order. *)
Inductive shuffle : list frames -> list frames -> list frames -> Prop :=
| sh_nil : shuffle [] [] []
| sh_left w a b l : shuffle a b l -> shuffle (w :: a) b (w :: l)
| sh_right w a b l : shuffle a b l -> shuffle a (w :: b) (w :: l).
(** At no moment are [n] messages between the publishing threads and the subscribers. *)
Definition keeps_up (v : variant) (n : nat) (ls : list plabel) : Prop :=
  forall l1 l2, ls = (l1 ++ l2)%list -> List.length (subscribed v SHELL l1) + List.length (subscribed v CONTROL l1) < List.length (out l1) + n.
(** What is seen of the other threads: all their steps; in Startup.v those of the publisher thread are left out. *)
Definition others (ls : list plabel) : list zlabel := flat_map (fun l => match l with PStep l _ => [l] | _ => [] end) ls.
Definition not_publisher (l : zlabel) : bool := match l with ZStep (YTau TPub) => false | _ => true end.
(** The same process up to the publisher thread. *)
Definition same_apart {U} (z t : zsys U) : Prop :=
  z_boot z = z_boot t /\ z_begun z = z_begun t /\ y_sh (z_sys z) = y_sh (z_sys t) /\ y_ct (z_sys z) = y_ct (z_sys t) /\
  y_stopped (z_sys z) = y_stopped (z_sys t) /\ y_end (z_sys z) = y_end (z_sys t) /\
  let m := y_mem (z_sys z) in let n := y_mem (z_sys t) in
  m_k m = m_k n /\ m_ctlq m = m_ctlq n /\ m_shellq m = m_shellq n /\ m_stdin m = m_stdin n /\ m_stop m = m_stop n /\ m_hb m = m_hb n /\
  m_call m = m_call n /\ f_ctl (m_pub m) = f_ctl (m_pub n).
(** The steps of the publisher thread. *)
Definition of_pub_thread (l : plabel) : bool := match l with PTake _ _ | PSend _ | PTau => true | _ => false end.
