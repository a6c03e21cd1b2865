(** The way of the publications in the split servers. The shell and control threads have a PUB socket each
    (src/xshell.cpp:28,34-35, src/xcontrol.cpp:26,32-33), connected to the SUB socket m_listener of the publisher thread
    (src/xpublisher.cpp:28-29); [publish_impl] chooses by channel, not by thread (src/xserver_zmq_split.cpp:66-76). There are thus
    two pipes: each is in order, between them there is no order, and m_listener takes from any of them that is not empty. A PUB
    socket drops what it is given before the subscription has reached it (as in Join.v; xcontrol connects before m_listener is bound,
    src/xserver_zmq_split.cpp:28-31, and the subscription is sent when it is bound) and what its pipe has no room for (as in
    Bounded.v: with fewer than [lo] messages there is room, with [hi] there is not). In Split.v and Startup.v there is one pipe,
    which takes everything. *)
From Verif Require Import Base Json Message Comm Tree Kernel Server Split Startup.

Inductive plabel :=
| PStep (l : zlabel) (taken : bool)      (* a step of a thread other than the publisher; a publication is taken or dropped *)
| PJoin (c : channel)                    (* the subscription reaches the PUB socket of [c] *)
| PTake (c : channel) (w : frames)       (* the publisher thread receives [w] from the pipe of [c] *)
| PSend (w : frames)                     (* ... sends [w] *)
| PTau.                                  (* another step of it *)
Definition pipes := channel -> list frames.
Definition set_pipe (c : channel) (q : list frames) (pp : pipes) : pipes := fun c' => if chan_eqb c c' then q else pp c'.

(** [xpublisher::run], src/xpublisher.cpp:43-72, on two pipes; [f_in] is not used. *)
Inductive pubstep : fwd -> pipes -> plabel -> fwd -> pipes -> Prop :=
| pu_poll q o k pp c : pp c <> [] ->
    pubstep {| f_in := q; f_out := o; f_ctl := k; f_pc := FPoll |} pp PTau {| f_in := q; f_out := o; f_ctl := k; f_pc := FRecv (asked k) |} pp
| pu_ctl q o k pp : (forall c, pp c = []) -> asked k = true ->
    pubstep {| f_in := q; f_out := o; f_ctl := k; f_pc := FPoll |} pp PTau {| f_in := q; f_out := o; f_ctl := k; f_pc := FCtl |} pp
| pu_take q o k pp b c w r : pp c = w :: r ->
    pubstep {| f_in := q; f_out := o; f_ctl := k; f_pc := FRecv b |} pp (PTake c w) {| f_in := q; f_out := o; f_ctl := k; f_pc := FSend w b |} (set_pipe c r pp)
| pu_send q o k pp b w :
    pubstep {| f_in := q; f_out := o; f_ctl := k; f_pc := FSend w b |} pp (PSend w)
            {| f_in := q; f_out := o ++ [w]; f_ctl := k; f_pc := if b then FCtl else FPoll |} pp
| pu_stop q o pp w :
    pubstep {| f_in := q; f_out := o; f_ctl := SAsked w; f_pc := FCtl |} pp PTau {| f_in := q; f_out := o; f_ctl := SAnswered w; f_pc := FDone |} pp.

Section Pipes.
  Context {U : Type}.
  Variable v : variant.
  Variable listener : channel -> frames -> kprog U unit.
  Variable internal : frames -> kprog U frames.
  Variable start : frames.
  Variables lo hi : nat.
  Record psys := { p_z : zsys U; p_pipes : pipes; p_joined : channel -> bool }.
  (** What a step publishes, and through which socket: the start message goes through that of the calling thread
      (src/xserver_control_main.cpp:37, src/xserver_shell_main.cpp:38). *)
  Definition given_by (l : zlabel) : option (channel * frames) :=
    match l with
    | ZStart w => Some (match v with ControlMain => CONTROL | ShellMain => SHELL end, w)
    | ZStep (YEvent _ (EPublish c _ w)) => Some (c, w)
    | _ => None
    end.
  Definition of_publisher (l : zlabel) : bool := match l with ZStep (YTau TPub) => true | _ => false end.
  Definition z_pub_of (z : zsys U) : fwd := m_pub (y_mem (z_sys z)).
  Definition z_with (g : fwd) (z : zsys U) : zsys U := {| z_boot := z_boot z; z_begun := z_begun z; z_sys := on_mem (set_pub g) (z_sys z) |}.
  Inductive pstep : psys -> plabel -> psys -> Prop :=
  | p_step z l z' pp j : zstep v listener internal start z l z' -> of_publisher l = false -> given_by l = None ->
      pstep {| p_z := z; p_pipes := pp; p_joined := j |} (PStep l true) {| p_z := z'; p_pipes := pp; p_joined := j |}
  | p_taken z l z' pp j c w : zstep v listener internal start z l z' -> given_by l = Some (c, w) -> j c = true -> List.length (pp c) < hi ->
      pstep {| p_z := z; p_pipes := pp; p_joined := j |} (PStep l true)
            {| p_z := z_with (z_pub_of z) z'; p_pipes := set_pipe c (pp c ++ [w]) pp; p_joined := j |}
  | p_dropped z l z' pp j c w : zstep v listener internal start z l z' -> given_by l = Some (c, w) -> j c = false \/ lo <= List.length (pp c) ->
      pstep {| p_z := z; p_pipes := pp; p_joined := j |} (PStep l false) {| p_z := z_with (z_pub_of z) z'; p_pipes := pp; p_joined := j |}
  | p_join z pp j c : y_end (z_sys z) = None -> (c = SHELL -> 0 < boot_rank (z_boot z)) -> j c = false ->
      pstep {| p_z := z; p_pipes := pp; p_joined := j |} (PJoin c)
            {| p_z := z; p_pipes := pp; p_joined := fun c' => if chan_eqb c c' then true else j c' |}
  | p_pub z pp j l f pp' : y_end (z_sys z) = None -> 0 < boot_rank (z_boot z) -> pubstep (z_pub_of z) pp l f pp' ->
      pstep {| p_z := z; p_pipes := pp; p_joined := j |} l {| p_z := z_with f z; p_pipes := pp'; p_joined := j |}.
  Inductive prun : psys -> list plabel -> psys -> Prop :=
  | pr_nil p : prun p [] p
  | pr_snoc p ls p1 l p2 : prun p ls p1 -> pstep p1 l p2 -> prun p (ls ++ [l]) p2.
  (** When [start_impl] is called. *)
  Definition p_init (k : kstate U) : psys := {| p_z := z_init start k; p_pipes := fun _ => []; p_joined := fun _ => false |}.
End Pipes.
Arguments psys : clear implicits.
