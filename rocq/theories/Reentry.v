(** Callbacks that destroy themselves. The kernel calls the [std::function]s it was given in place: the handlers of an [xcomm]
    (include/xeus/xcomm.hpp:248-262), the callback of an [xtarget] (lines 219-222) and the input handler of the interpreter
    (src/xinterpreter.cpp:234-240). User code that destroys or replaces such a function while it runs leaves the rest of its body without
    its captured variables. [Kernel] takes handlers by number and does not see this. Here is the kernel of [Kernel] in which such an
    operation is undefined behaviour. *)
From Verif Require Import Base Json JsonText Auth Message History Comm Tree Kernel.

(** The functions that can be running. *)
Inductive slot := SMessage (a : nat) | SClose (a : nat) | STarget (name : string) | SInput.
Definition slot_eqb (x y : slot) : bool :=
  match x, y with
  | SMessage a, SMessage b | SClose a, SClose b => Nat.eqb a b
  | STarget a, STarget b => String.eqb a b
  | SInput, SInput => true
  | _, _ => false
  end.
Definition runs_in (P : list slot) (x : slot) : bool := existsb (slot_eqb x) P.
Definition destroyed_running : string := "a running std::function is destroyed".

Section Reentry.
  Context {U : Type}.
  (** Operations that destroy or replace a function of [P]. Moving a comm whose handler runs is counted too: what is left in the source
      is not specified. Copying a comm leaves the handlers of both alone (lines 300-306, 323-331). *)
  Definition touches (P : list slot) (o : uop0 U) : bool :=
    let comm a := (runs_in P (SMessage a) || runs_in P (SClose a))%bool in
    match o with
    | ADestroy a => comm a
    | AMove a => comm a
    | AMoveAssign dst src => (comm dst || comm src)%bool
    | AOnMessage a _ => runs_in P (SMessage a)
    | AOnClose a _ => runs_in P (SClose a)
    | ARegTarget name _ => runs_in P (STarget name)
    | AUnregTarget name => runs_in P (STarget name)
    | ASetInput _ => runs_in P SInput
    | _ => false
    end.
  Definition touches1 (P : list slot) (o : uop1 U) : bool := match o with AOp o => touches P o | _ => false end.
  Fixpoint guard0 {A} (P : list slot) (t : ucode0 U A) : ucode0 U A :=
    match t with
    | Do o k => if touches P o then Stuck destroyed_running else Do o (fun r => guard0 P (k r))
    | t => t
    end.
  Fixpoint guard {A} (P : list slot) (t : ucode U A) : ucode U A :=
    match t with
    | Do o k => if touches1 P o then Stuck destroyed_running else Do o (fun r => guard P (k r))
    | t => t
    end.

  Variable E : env U.
  (** The environment of code that runs while the functions of [P] run: an input handler may be called from it. *)
  Definition amid (P : list slot) : env U :=
    {| e_crypto := e_crypto E; e_auth := e_auth E; e_eh := e_eh E; e_kernel_id := e_kernel_id E; e_user_name := e_user_name E;
       e_session_id := e_session_id E; e_guid := e_guid E; e_now := e_now E; e_stdin := e_stdin E; e_logger := e_logger E;
       e_regex := e_regex E; e_indet := e_indet E; e_long_id := e_long_id E; e_configure := e_configure E; e_interp := e_interp E;
       e_split := e_split E; e_debugger := e_debugger E; e_callback := e_callback E; e_handler := e_handler E;
       e_input := fun n v => guard0 (SInput :: P) (e_input E n v) |}.
  Notation E0 := (amid []).

  (** The functions of [Kernel] that call a handler or a callback. *)
  Definition run_handler_r (x : slot) (h : option nat) (m : xmessage) : kprog U unit :=
    match h with
    | None => Ret tt
    | Some n => emit (EHandler n m) ;;; embed (amid [x]) (guard [x] (e_handler E n m))
    end.
  Definition run_callback_r (name : string) (cb : option nat) (a : nat) (m : xmessage) : kprog U unit :=
    match cb with
    | None => Throw (Std "bad_function_call")
    | Some n => emit (ECallback n a m) ;;; embed (amid [STarget name]) (guard [STarget name] (e_callback E n a m))
    end.
  Definition comm_open_r (m : xmessage) (c : channel) : kprog U unit :=
    let content := m_content (m_base m) in
    target_name <-- of_res (let* j := jget "target_name" content in get_string j) ;;
    pos <-- look_comms (fun cs => Ok (mfind target_name (targets cs))) ;;
    match pos with
    | None => Throw no_such_target
    | Some (p, t) =>
        id <-- of_res (let* j := jget "comm_id" content in to_xguid (e_long_id E) j) ;;
        a <-- with_comms (comm_new p id) ;;
        r <-- attempt (run_callback_r target_name (t_callback t) a m) ;;
        with_comms (no_answer (comm_destroy (e_indet E) a)) ;;;
        match r with inl _ => Ret tt | inr e => Throw e end
    end.
  Definition comm_close_r (m : xmessage) (c : channel) : kprog U unit :=
    id <-- of_res (let* j := jget "comm_id" (m_content (m_base m)) in to_xguid (e_long_id E) j) ;;
    pos <-- look_comms (fun cs => Ok (mfind id (registry cs))) ;;
    match pos with
    | None => of_res (no_such_comm E id)
    | Some a =>
        o <-- look_comms (deref a) ;;
        run_handler_r (SClose a) (c_close o) m ;;;
        with_comms (no_answer (fun cs => Ok (set_registry (mdel id (registry cs)) cs)))
    end.
  Definition comm_msg_r (m : xmessage) (c : channel) : kprog U unit :=
    id <-- of_res (let* j := jget "comm_id" (m_content (m_base m)) in to_xguid (e_long_id E) j) ;;
    pos <-- look_comms (fun cs => Ok (mfind id (registry cs))) ;;
    match pos with
    | None => of_res (no_such_comm E id)
    | Some a =>
        o <-- look_comms (deref a) ;;
        run_handler_r (SMessage a) (c_message o) m
    end.
  Definition handle_r (msg_type : string) (m : xmessage) (c : channel) : kprog U unit :=
    let after h := catch_std (h m c) (of_res (dump EStrict (m_content (m_base m))) ;;; Ret tt) in
    if String.eqb msg_type "comm_open" then after comm_open_r
    else if String.eqb msg_type "comm_close" then after comm_close_r
    else if String.eqb msg_type "comm_msg" then after comm_msg_r
    else match mfind msg_type (handlers E0) with None => Ret tt | Some h => after h end.
  Definition dispatch_r (w : frames) (c : channel) : kprog U unit :=
    r <-- catch_std (m <-- of_res (deserialize (e_crypto E) (e_auth E) w) ;; Ret (Some m)) (Ret None) ;;
    match r with
    | None => Ret tt
    | Some m =>
        log E (LReceived m (Some c)) ;;;
        let header := m_header (m_base m) in
        set_parent (m_ids m) header c ;;;
        publish_status E "busy" c ;;;
        msg_type <-- of_res (value_string "msg_type" "" header) ;;
        handle_r msg_type m c ;;;
        publish_status E "idle" c
    end.
  Definition deliver_r (x : channel * frames) : kprog U unit := dispatch_r (snd x) (fst x).
  Definition kernel_start_r : kprog U unit :=
    embed E0 (e_configure E) ;;;
    sm <-- build_start_msg E ;;
    emit (EPublish SHELL (fst sm) (snd sm)).
End Reentry.
