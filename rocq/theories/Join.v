(** The start of the default server, [start_impl] (src/xserver_zmq.cpp:80-97), and its connection to the publisher thread.
    The constructor of xpublisher binds the SUB socket m_listener (src/xpublisher.cpp:19-34); the server's PUB socket
    m_publisher_pub connects to it (src/xserver_zmq.cpp:40). A PUB socket drops what it is given until the subscription has
    reached it, and the subscription is sent when the publisher thread uses m_listener: in its first [zmq::poll]
    (src/xpublisher.cpp:43-53). In Server.v the subscription is there from the beginning. *)
From Verif Require Import Base Json Message Comm Tree Kernel Server.

(** Position of the thread that calls [start_impl]: about to create the publisher thread, the heartbeat thread; about to publish
    the start message; in the loop. *)
Inductive stage := StPub | StHb | StStart | StLoop.
Definition stage_rank (b : stage) : nat := match b with StPub => 0 | StHb => 1 | StStart => 2 | StLoop => 3 end.
Inductive jlabel :=
| JSpawn                  (* a thread is created *)
| JStart (w : frames)     (* the start message is published *)
| JJoin                   (* the subscription reaches the PUB socket *)
| JMain (l : label)       (* a step of the main thread in its loop *)
| JPub                    (* of the publisher thread *)
| JBeat                   (* of the heartbeat thread *)
| JEnv (l : label).       (* something arrives *)

Section Join.
  Context {U : Type}.
  Variable listener : channel -> frames -> kprog U unit.
  Variable start : frames.
  Record jsys := { j_stage : stage; j_joined : bool; j_sys : dsys U }.
  Definition is_arrival (l : label) : Prop := match l with Arrive _ _ | HbArrive _ | StdinArrive => True | _ => False end.
  (** The publisher after a step [l] from [s] to [s']: a publication is dropped if there is no subscription. *)
  Definition delivered (joined : bool) (s : dsys U) (l : label) (s' : dsys U) : dsys U :=
    match l with
    | Emitted (EPublish _ _ _) => if joined then s' else {| d_pc := d_pc s'; d_mem := set_pub (m_pub (d_mem s)) (d_mem s') |}
    | _ => s'
    end.
  Inductive jstep : jsys -> jlabel -> jsys -> Prop :=
  | j_spawn_pub j s : jstep {| j_stage := StPub; j_joined := j; j_sys := s |} JSpawn {| j_stage := StHb; j_joined := j; j_sys := s |}
  | j_spawn_hb j s : jstep {| j_stage := StHb; j_joined := j; j_sys := s |} JSpawn {| j_stage := StStart; j_joined := j; j_sys := s |}
  | j_start j pc m : jstep {| j_stage := StStart; j_joined := j; j_sys := {| d_pc := pc; d_mem := m |} |} (JStart start)
      {| j_stage := StLoop; j_joined := j; j_sys := {| d_pc := pc; d_mem := set_pub (if j then f_push start (m_pub m) else m_pub m) m |} |}
  | j_join g s : 0 < stage_rank g -> alive (d_pc s) ->
      jstep {| j_stage := g; j_joined := false; j_sys := s |} JJoin {| j_stage := g; j_joined := true; j_sys := s |}
  | j_main j s l s' : main_step listener s l s' ->
      jstep {| j_stage := StLoop; j_joined := j; j_sys := s |} (JMain l) {| j_stage := StLoop; j_joined := j; j_sys := delivered j s l s' |}
  | j_pub g j pc m f : 0 < stage_rank g -> alive pc -> fnext (m_pub m) = Some f ->
      jstep {| j_stage := g; j_joined := j; j_sys := {| d_pc := pc; d_mem := m |} |} JPub
            {| j_stage := g; j_joined := j; j_sys := {| d_pc := pc; d_mem := set_pub f m |} |}
  | j_beat g j pc m f : 1 < stage_rank g -> alive pc -> fnext (m_hb m) = Some f ->
      jstep {| j_stage := g; j_joined := j; j_sys := {| d_pc := pc; d_mem := m |} |} JBeat
            {| j_stage := g; j_joined := j; j_sys := {| d_pc := pc; d_mem := set_hb f m |} |}
  | j_env g j s l s' : dstep listener s l s' -> is_arrival l ->
      jstep {| j_stage := g; j_joined := j; j_sys := s |} (JEnv l) {| j_stage := g; j_joined := j; j_sys := s' |}.
  Inductive jrun : jsys -> list jlabel -> jsys -> Prop :=
  | jr_nil j : jrun j [] j
  | jr_snoc j ls j1 l j2 : jrun j ls j1 -> jstep j1 l j2 -> jrun j (ls ++ [l]) j2.
  (** When [start_impl] is called; the sockets are bound, messages may arrive. *)
  Definition j_init (k : kstate U) : jsys :=
    {| j_stage := StPub; j_joined := false;
       j_sys := {| d_pc := MTest; d_mem := {| m_k := k; m_ctlq := []; m_shellq := []; m_stdin := k_stdin k; m_stop := false;
                                              m_pub := f_init; m_hb := f_init; m_call := SIdle |} |} |}.
End Join.
Arguments jsys : clear implicits.
