(** The start of the split servers: [start_impl], src/xserver_control_main.cpp:31-41 and
    src/xserver_shell_main.cpp:32-49, up to the loops of the threads (Split.v). The thread that calls it
    creates the threads of the publisher, of the heartbeat and of the other loop, publishes the start
    message and enters its own loop. The control thread begins with [m_request_stop = false],
    src/xcontrol.cpp:57. The sockets are bound by the constructors: messages arrive from the beginning. *)
From Verif Require Import Base Json Message Comm Tree Kernel Server Split.

(** Position of the calling thread: about to create the publisher, the heartbeat, the other thread; about
    to publish the start message; in its loop. *)
Inductive boot := BPub | BHb | BOther | BStart | BLoop.
Definition boot_rank (b : boot) : nat := match b with BPub => 0 | BHb => 1 | BOther => 2 | BStart => 3 | BLoop => 4 end.
Inductive zlabel :=
| ZSpawn (t : tid)        (* a thread is created *)
| ZStart (w : frames)     (* the start message is published *)
| ZBegin (b : bool)       (* the control thread sets m_request_stop to false; it was [b] *)
| ZStep (l : slabel).     (* a step of the threads, Split.v *)

Section Startup.
  Context {U : Type}.
  Variable v : variant.
  Variable listener : channel -> frames -> kprog U unit.
  Variable internal : frames -> kprog U frames.
  Variable start : frames.
  Record zsys := { z_boot : boot; z_begun : bool; z_sys : ysys U }.
  Definition other : tid := match v with ControlMain => TShell | ShellMain => TControl end.
  (** The thread [t] exists and, if it is the calling one, has entered its loop. *)
  Definition exists_thread (b : boot) (t : tid) : Prop :=
    match t with
    | TEnv => True
    | TPub => 0 < boot_rank b
    | TBeat => 1 < boot_rank b
    | TShell => match v with ControlMain => 2 < boot_rank b | ShellMain => b = BLoop end
    | TControl => match v with ControlMain => b = BLoop | ShellMain => 2 < boot_rank b end
    end.
  Definition on_mem (f : mem U -> mem U) (s : ysys U) : ysys U :=
    {| y_sh := y_sh s; y_ct := y_ct s; y_mem := f (y_mem s); y_stopped := y_stopped s; y_end := y_end s |}.
  Inductive zstep : zsys -> zlabel -> zsys -> Prop :=
  | z_pub g s : y_end s = None ->
      zstep {| z_boot := BPub; z_begun := g; z_sys := s |} (ZSpawn TPub) {| z_boot := BHb; z_begun := g; z_sys := s |}
  | z_hb g s : y_end s = None ->
      zstep {| z_boot := BHb; z_begun := g; z_sys := s |} (ZSpawn TBeat) {| z_boot := BOther; z_begun := g; z_sys := s |}
  | z_other g s : y_end s = None ->
      zstep {| z_boot := BOther; z_begun := g; z_sys := s |} (ZSpawn other) {| z_boot := BStart; z_begun := g; z_sys := s |}
  | z_start g s : y_end s = None ->
      zstep {| z_boot := BStart; z_begun := g; z_sys := s |} (ZStart start)
            {| z_boot := BLoop; z_begun := g; z_sys := on_mem (fun m => set_pub (f_push start (m_pub m)) m) s |}
  | z_begin b s : y_end s = None -> exists_thread b TControl ->
      zstep {| z_boot := b; z_begun := false; z_sys := s |} (ZBegin (m_stop (y_mem s)))
            {| z_boot := b; z_begun := true; z_sys := on_mem (set_stop false) s |}
  | z_step b g s l s' : ystep v listener internal s l s' -> exists_thread b (who l) -> (who l = TControl -> g = true) ->
      zstep {| z_boot := b; z_begun := g; z_sys := s |} (ZStep l) {| z_boot := b; z_begun := g; z_sys := s' |}.
  Inductive zrun : zsys -> list zlabel -> zsys -> Prop :=
  | zr_nil z : zrun z [] z
  | zr_snoc z ls z1 l z2 : zrun z ls z1 -> zstep z1 l z2 -> zrun z (ls ++ [l]) z2.
  (** When [start_impl] is called. *)
  Definition z_init (k : kstate U) : zsys :=
    {| z_boot := BPub; z_begun := false; z_sys := on_mem (set_pub f_init) (y_init k start) |}.
End Startup.
Arguments zsys : clear implicits.
