(** The iopub sockets of the default server with their high-water marks. The code sets none (only the linger period,
    src/xserver_zmq.cpp:39, src/xmiddleware.cpp:73, src/xpublisher.cpp:26-30), so that those of ZeroMQ hold: a PUB socket does not
    wait, it drops what a pipe has no room for. There is one pipe from m_publisher_pub to m_listener (src/xserver_zmq.cpp:40,
    src/xpublisher.cpp:29), and one from m_publisher to every subscriber (src/xpublisher.cpp:60).
    A pipe with fewer than [lo] messages takes another one; with [hi] it does not; between, both may happen (ZeroMQ learns in
    batches how much of a pipe has been read). In Server.v pipes take everything, and nobody is connected to m_publisher. *)
From Verif Require Import Base Json Message Comm Tree Kernel Server Join.

(** A subscriber: the prefix it subscribed to, what is on its way, what it has read. *)
Record reader := { r_topic : string; r_pipe : list frames; r_read : list frames }.
(** A PUB socket compares the first frame with the subscription. *)
Definition first_frame (w : frames) : string := match w with [] => "" | x :: _ => x end.
Definition wants (topic : string) (w : frames) : bool := String.prefix topic (first_frame w).
Inductive blabel :=
| BMain (l : label) (taken : bool)   (* a step of the main thread; a publication is taken by the pipe or dropped *)
| BSend (w : frames)                 (* the publisher thread sends *)
| BPub                               (* another step of it *)
| BBeat                              (* of the heartbeat thread *)
| BEnv (l : label)                   (* something arrives *)
| BSubscribe (topic : string)        (* a subscriber is connected *)
| BRead (i : nat) (w : frames).      (* the i-th subscriber reads *)

Section Bounded.
  Context {U : Type}.
  Variable listener : channel -> frames -> kprog U unit.
  Variables lo hi : nat.       (* m_publisher_pub to m_listener *)
  Variables lo' hi' : nat.     (* m_publisher to a subscriber *)
  Record bsys := { b_sys : dsys U; b_readers : list reader }.
  Definition waiting (s : dsys U) : nat := List.length (f_in (m_pub (d_mem s))).
  (** A publication can be taken, or dropped. *)
  Definition fits (taken : bool) (s : dsys U) (l : label) : Prop :=
    match l with Emitted (EPublish _ _ _) => if taken then waiting s < hi else lo <= waiting s | _ => taken = true end.
  (** m_publisher and a subscriber (src/xpublisher.cpp:60). *)
  Inductive offer (w : frames) : reader -> reader -> Prop :=
  | of_other a : wants (r_topic a) w = false -> offer w a a
  | of_taken a : wants (r_topic a) w = true -> List.length (r_pipe a) < hi' ->
      offer w a {| r_topic := r_topic a; r_pipe := r_pipe a ++ [w]; r_read := r_read a |}
  | of_full a : wants (r_topic a) w = true -> lo' <= List.length (r_pipe a) -> offer w a a.
  (** The message the publisher thread is about to send. *)
  Definition sending (f : fwd) : option frames := match f_pc f with FSend w _ => Some w | _ => None end.
  Fixpoint set_nth {A} (i : nat) (x : A) (l : list A) : list A :=
    match i, l with 0, _ :: r => x :: r | S i, y :: r => y :: set_nth i x r | _, [] => [] end.
  Inductive bstep : bsys -> blabel -> bsys -> Prop :=
  | b_main s l s' rs taken : main_step listener s l s' -> fits taken s l ->
      bstep {| b_sys := s; b_readers := rs |} (BMain l taken) {| b_sys := delivered taken s l s'; b_readers := rs |}
  | b_send pc m f w rs rs' : alive pc -> fnext (m_pub m) = Some f -> sending (m_pub m) = Some w -> Forall2 (offer w) rs rs' ->
      bstep {| b_sys := {| d_pc := pc; d_mem := m |}; b_readers := rs |} (BSend w) {| b_sys := {| d_pc := pc; d_mem := set_pub f m |}; b_readers := rs' |}
  | b_pub pc m f rs : alive pc -> fnext (m_pub m) = Some f -> sending (m_pub m) = None ->
      bstep {| b_sys := {| d_pc := pc; d_mem := m |}; b_readers := rs |} BPub {| b_sys := {| d_pc := pc; d_mem := set_pub f m |}; b_readers := rs |}
  | b_beat pc m f rs : alive pc -> fnext (m_hb m) = Some f ->
      bstep {| b_sys := {| d_pc := pc; d_mem := m |}; b_readers := rs |} BBeat {| b_sys := {| d_pc := pc; d_mem := set_hb f m |}; b_readers := rs |}
  | b_env s l s' rs : dstep listener s l s' -> is_arrival l -> bstep {| b_sys := s; b_readers := rs |} (BEnv l) {| b_sys := s'; b_readers := rs |}
  | b_subscribe s rs topic :
      bstep {| b_sys := s; b_readers := rs |} (BSubscribe topic) {| b_sys := s; b_readers := rs ++ [{| r_topic := topic; r_pipe := []; r_read := [] |}] |}
  | b_read s rs i a w q : nth_error rs i = Some a -> r_pipe a = w :: q ->
      bstep {| b_sys := s; b_readers := rs |} (BRead i w)
            {| b_sys := s; b_readers := set_nth i {| r_topic := r_topic a; r_pipe := q; r_read := r_read a ++ [w] |} rs |}.
  Inductive brun : bsys -> list blabel -> bsys -> Prop :=
  | br_nil b : brun b [] b
  | br_snoc b ls b1 l b2 : brun b ls b1 -> bstep b1 l b2 -> brun b (ls ++ [l]) b2.
  (** As in Server.v, with the start message on its way and nobody subscribed. *)
  Definition b_init (k : kstate U) (start : frames) : bsys := {| b_sys := d_init k start; b_readers := [] |}.
End Bounded.
Arguments bsys : clear implicits.
