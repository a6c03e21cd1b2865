(** Comms and the comm manager: include/xeus/xcomm.hpp and src/xcomm.cpp. Objects live in a heap
    of addresses; handlers and callbacks are named by numbers (their code is in the environment of
    the kernel). *)
From Verif Require Import Base Json.

(** [xtarget], include/xeus/xcomm.hpp:39-64: name, callback (an empty [std::function] is [None]),
    whether [p_manager] is non-null. *)
Record target := { t_name : string; t_callback : option nat; t_manager : bool }.

(** [m_moved_from]: initialised, or indeterminate as after the constructors
    include/xeus/xcomm.hpp:333-345. *)
Inductive flag := Init (b : bool) | Indet.

(** [xcomm], include/xeus/xcomm.hpp:131-135. [c_target] is the pointer [p_target]: the node of
    [m_targets] it points to. *)
Record comm := {
  c_close : option nat; c_message : option nat; c_target : nat; c_id : string; c_moved : flag }.

(** [xcomm_manager], include/xeus/xcomm.hpp:179-181, with the heap of [xcomm] objects.
    [m_targets] is a [std::map]: its nodes keep their address until they are erased. *)
Record comms := {
  heap : nat -> option comm;
  next_addr : nat;
  registry : list (string * nat);              (* m_comms *)
  targets : list (string * (nat * target));    (* m_targets: name, (node, xtarget) *)
  next_node : nat
}.
(** A fresh [xcomm_manager], src/xcomm.cpp:30-33. *)
Definition no_comms : comms :=
  {| heap := fun _ => None; next_addr := 0; registry := []; targets := []; next_node := 0 |}.

Definition set_heap (a : nat) (o : option comm) (cs : comms) : comms :=
  {| heap := fun b => if Nat.eqb b a then o else heap cs b; next_addr := next_addr cs;
     registry := registry cs; targets := targets cs; next_node := next_node cs |}.
Definition set_registry (r : list (string * nat)) (cs : comms) : comms :=
  {| heap := heap cs; next_addr := next_addr cs; registry := r; targets := targets cs; next_node := next_node cs |}.
Definition set_targets (t : list (string * (nat * target))) (n : nat) (cs : comms) : comms :=
  {| heap := heap cs; next_addr := next_addr cs; registry := registry cs; targets := t; next_node := n |}.
(** A new object at a fresh address. *)
Definition alloc (c : comm) (cs : comms) : comms :=
  {| heap := fun b => if Nat.eqb b (next_addr cs) then Some c else heap cs b; next_addr := S (next_addr cs);
     registry := registry cs; targets := targets cs; next_node := next_node cs |}.

(** What reading an indeterminate [bool] does: undefined behaviour (the C++ rule), or the byte that
    happens to be there. *)
Inductive indet := IndetUB | IndetVal (f : nat -> bool).
Definition read_flag (pol : indet) (a : nat) (fl : flag) : res bool :=
  match fl, pol with
  | Init b, _ => Ok b
  | Indet, IndetUB => UB "read of the uninitialised m_moved_from"
  | Indet, IndetVal f => Ok (f a)
  end.

(** Dereference of an [xcomm*] and of an [xtarget*]. *)
Definition deref (a : nat) (cs : comms) : res comm :=
  match heap cs a with Some c => Ok c | None => UB "dangling xcomm*" end.
Definition node_of (p : nat) (ts : list (string * (nat * target))) : option target :=
  option_map (fun e => snd (snd e)) (find (fun e => Nat.eqb (fst (snd e)) p) ts).
Definition deref_target (p : nat) (cs : comms) : res target :=
  match node_of p (targets cs) with Some t => Ok t | None => UB "dangling xtarget*" end.

(** [xtarget::register_comm] and [xcomm_manager::register_comm], include/xeus/xcomm.hpp:224-227,
    src/xcomm.cpp:54-57. *)
Definition register_comm (p : nat) (id : string) (a : nat) (cs : comms) : res comms :=
  let* t := deref_target p cs in
  if t_manager t then Ok (set_registry (mset id a (registry cs)) cs) else UB "null p_manager".
(** [unregister_comm], include/xeus/xcomm.hpp:229-232, src/xcomm.cpp:59-62. *)
Definition unregister_comm (p : nat) (id : string) (cs : comms) : res comms :=
  let* t := deref_target p cs in
  if t_manager t then Ok (set_registry (mdel id (registry cs)) cs) else UB "null p_manager".

(** The constructors [xcomm(xtarget* , xguid)] and [xcomm(xtarget* )] (with [id] the generated identifier),
    include/xeus/xcomm.hpp:333-345. *)
Definition comm_new (p : nat) (id : string) (cs : comms) : res (comms * nat) :=
  let a := next_addr cs in
  let cs := alloc {| c_close := None; c_message := None; c_target := p; c_id := id; c_moved := Indet |} cs in
  let* cs := register_comm p id a cs in
  Ok (cs, a).

(** Move constructor, include/xeus/xcomm.hpp:289-299. A moved-from [std::function] is empty, a
    moved-from fixed string keeps its bytes. *)
Definition comm_move (src : nat) (cs : comms) : res (comms * nat) :=
  let* c := deref src cs in
  let a := next_addr cs in
  let cs := alloc {| c_close := c_close c; c_message := c_message c; c_target := c_target c; c_id := c_id c;
                     c_moved := Init false |} cs in
  let cs := set_heap src (Some {| c_close := None; c_message := None; c_target := c_target c; c_id := c_id c;
                                  c_moved := Init true |}) cs in
  let* cs := register_comm (c_target c) (c_id c) a cs in
  Ok (cs, a).

(** Copy constructor, include/xeus/xcomm.hpp:301-307; [id] is the generated identifier. *)
Definition comm_copy (src : nat) (id : string) (cs : comms) : res (comms * nat) :=
  let* c := deref src cs in
  let a := next_addr cs in
  let cs := alloc {| c_close := None; c_message := None; c_target := c_target c; c_id := id; c_moved := Init false |} cs in
  let* cs := register_comm (c_target c) id a cs in
  Ok (cs, a).

(** Move assignment [dst = std::move(src)], include/xeus/xcomm.hpp:309-321. With [dst] and [src] the
    same object the handlers survive (the library swaps through a temporary) and the flag ends up
    true. *)
Definition comm_move_assign (dst src : nat) (cs : comms) : res comms :=
  let* d := deref dst cs in
  let* c := deref src cs in
  let* cs := unregister_comm (c_target c) (c_id d) cs in
  let self := Nat.eqb dst src in
  let cs := set_heap dst (Some {| c_close := c_close c; c_message := c_message c; c_target := c_target c;
                                  c_id := c_id c; c_moved := Init false |}) cs in
  let cs := set_heap src (Some {| c_close := if self then c_close c else None;
                                  c_message := if self then c_message c else None;
                                  c_target := c_target c; c_id := c_id c; c_moved := Init true |}) cs in
  register_comm (c_target c) (c_id c) dst cs.

(** Copy assignment, include/xeus/xcomm.hpp:323-331; the handlers of [dst] are kept. *)
Definition comm_copy_assign (dst src : nat) (id : string) (cs : comms) : res comms :=
  let* d := deref dst cs in
  let* c := deref src cs in
  let* cs := unregister_comm (c_target c) (c_id d) cs in
  let cs := set_heap dst (Some {| c_close := c_close d; c_message := c_message d; c_target := c_target c;
                                  c_id := id; c_moved := Init false |}) cs in
  register_comm (c_target c) id dst cs.

(** Destructor, include/xeus/xcomm.hpp:347-353. *)
Definition comm_destroy (pol : indet) (a : nat) (cs : comms) : res comms :=
  let* c := deref a cs in
  let* moved := read_flag pol a (c_moved c) in
  let* cs := if moved then Ok cs else unregister_comm (c_target c) (c_id c) cs in
  Ok (set_heap a None cs).

(** [on_message] and [on_close], include/xeus/xcomm.hpp:379-389. *)
Definition comm_on_message (a : nat) (h : option nat) (cs : comms) : res comms :=
  let* c := deref a cs in
  Ok (set_heap a (Some {| c_close := c_close c; c_message := h; c_target := c_target c; c_id := c_id c; c_moved := c_moved c |}) cs).
Definition comm_on_close (a : nat) (h : option nat) (cs : comms) : res comms :=
  let* c := deref a cs in
  Ok (set_heap a (Some {| c_close := h; c_message := c_message c; c_target := c_target c; c_id := c_id c; c_moved := c_moved c |}) cs).

(** [m_targets[name]] as an lvalue: the node, created with a default [xtarget]
    (include/xeus/xcomm.hpp:188-193) if missing. *)
Definition target_node (name : string) (cs : comms) : comms * nat :=
  match mfind name (targets cs) with
  | Some (n, _) => (cs, n)
  | None =>
      let n := next_node cs in
      (set_targets (mset name (n, {| t_name := ""; t_callback := None; t_manager := false |}) (targets cs)) (S n) cs, n)
  end.
(** [xcomm_manager::target], include/xeus/xcomm.hpp:395-398, is [target_node].
    [register_comm_target], src/xcomm.cpp:43-47. *)
Definition register_comm_target (name : string) (cb : option nat) (cs : comms) : comms :=
  let (cs, n) := target_node name cs in
  set_targets (mset name (n, {| t_name := name; t_callback := cb; t_manager := true |}) (targets cs)) (next_node cs) cs.
(** [unregister_comm_target], src/xcomm.cpp:49-52. *)
Definition unregister_comm_target (name : string) (cs : comms) : comms :=
  set_targets (mdel name (targets cs)) (next_node cs) cs.

(** Content of outgoing comm messages: [send_comm_message], include/xeus/xcomm.hpp:264-287. *)
Definition comm_content (c : comm) (data : json) : json := jobj [("comm_id", JStr (c_id c)); ("data", data)].
Definition comm_open_content (c : comm) (name : string) (data : json) : json :=
  jobj [("comm_id", JStr (c_id c)); ("target_name", JStr name); ("data", data)].

(** An [xguid] is an [xtl::xfixed_string<55>] (include/xeus/xguid.hpp:28). What the library does with a
    longer string is left open: [long_id]. *)
Definition xguid_size : nat := 55.
Definition fixed (long_id : string -> res string) (s : string) : res string :=
  if Nat.leb (slen s) xguid_size then Ok s else long_id s.
(** [xguid id = content[key]]: a JSON string converted to [xguid]. *)
Definition to_xguid (long_id : string -> res string) (j : json) : res string :=
  let* s := get_string j in fixed long_id s.
