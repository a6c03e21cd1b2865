(** Vocabulary of the comm properties. *)
From Verif Require Import Base BaseFacts Json Comm.

(** The object at address [a] is alive and its target is [t]. *)
Definition points_to (cs : comms) (a : nat) (t : target) : Prop :=
  exists c name, heap cs a = Some c /\ In (name, (c_target c, t)) (targets cs).
(** Every registered comm is alive, and so is its target. *)
Record listable (cs : comms) : Prop := {
  ls_sorted : msorted (registry cs) = true;
  ls_nodes : NoDup (List.map (fun e => fst (snd e)) (targets cs));
  ls_live : forall id a, In (id, a) (registry cs) -> exists t, points_to cs a t }.
(** [j] lists exactly the registered comms whose target has this name (all of them if it is
    empty). *)
Definition listing (cs : comms) (name : string) (j : json) : Prop :=
  exists m, j = JObj m /\ msorted m = true /\
    forall id v, mfind id m = Some v <->
      exists a t, mfind id (registry cs) = Some a /\ points_to cs a t /\ (name = "" \/ t_name t = name) /\
        v = JObj [("target_name", JStr (t_name t))].

(** ** Operations on comms *)
(** The operations of user code and of the kernel on the comm manager. *)
Inductive cop :=
| CNew (p : nat) (id : string)            (* constructor *)
| CMove (a : nat) | CCopy (a : nat) (id : string)
| CMoveAssign (dst src : nat) | CCopyAssign (dst src : nat) (id : string)
| CDestroy (a : nat)
| COnMessage (a : nat) (h : option nat) | COnClose (a : nat) (h : option nat)
| CErase (id : string)                     (* end of comm_close, src/xcomm.cpp:96 *)
| CTarget (name : string) | CRegTarget (name : string) (cb : option nat) | CUnregTarget (name : string).
Definition cstep (pol : indet) (o : cop) (cs : comms) : res comms :=
  match o with
  | CNew p id => let* (cs, _) := comm_new p id cs in Ok cs
  | CMove a => let* (cs, _) := comm_move a cs in Ok cs
  | CCopy a id => let* (cs, _) := comm_copy a id cs in Ok cs
  | CMoveAssign d s => comm_move_assign d s cs
  | CCopyAssign d s id => comm_copy_assign d s id cs
  | CDestroy a => comm_destroy pol a cs
  | COnMessage a h => comm_on_message a h cs
  | COnClose a h => comm_on_close a h cs
  | CErase id => Ok (set_registry (mdel id (registry cs)) cs)
  | CTarget name => Ok (fst (target_node name cs))
  | CRegTarget name cb => Ok (register_comm_target name cb cs)
  | CUnregTarget name => Ok (unregister_comm_target name cs)
  end.
Definition not_self_move (o : cop) : Prop := match o with CMoveAssign d s => d <> s | _ => True end.
(** [ops] lead from [cs] to [cs'], all of them satisfying [P] in the state they start from. *)
Inductive csteps (pol : indet) (P : comms -> cop -> Prop) : list cop -> comms -> comms -> Prop :=
| cs_nil cs : csteps pol P [] cs cs
| cs_cons o ops cs cs1 cs' : P cs o -> cstep pol o cs = Ok cs1 -> csteps pol P ops cs1 cs' -> csteps pol P (o :: ops) cs cs'.

(** Every registered identifier points to a live comm with this identifier. *)
Definition no_dangling (cs : comms) : Prop :=
  forall id a, mfind id (registry cs) = Some a -> exists c, heap cs a = Some c /\ c_id c = id.

(** The object at [a] is alive and nobody has moved from it. *)
Definition in_use (cs : comms) (a : nat) (c : comm) : Prop := heap cs a = Some c /\ c_moved c <> Init true.
(** Discipline: new identifiers are not in use; moved-from comms are only destroyed. *)
Definition fresh_id (cs : comms) (id : string) : Prop := forall a c, heap cs a = Some c -> c_id c <> id.
Definition disciplined (cs : comms) (o : cop) : Prop :=
  match o with
  | CNew _ id => fresh_id cs id
  | CMove a => exists c, in_use cs a c
  | CCopy a id => fresh_id cs id /\ exists c, in_use cs a c
  | CMoveAssign d s => d <> s /\ (exists c, in_use cs d c) /\ exists c, in_use cs s c
  | CCopyAssign d s id => fresh_id cs id /\ (exists c, in_use cs d c) /\ exists c, in_use cs s c
  | COnMessage a _ | COnClose a _ => exists c, in_use cs a c
  | _ => True
  end.
Definition erased (ops : list cop) (id : string) : Prop := In (CErase id) ops.
