(** C112: on which targets comms can be created. *)
From Verif Require Import Base BaseFacts Json JsonText Auth Message WireSpec WireLemmas History Comm CommSpec CommProofs CommTargets Tree Kernel KernelSpec KernelProofs KernelSession KernelComm KernelDemo.

(** After any sequence of operations, a comm constructed on what [xcomm_manager::target(name)] returns (xcomm.hpp:395-398;
    [Comm.target_node]) is registered under its identifier if the target has been registered and not been
    unregistered since. Otherwise [target] makes a target without a manager (xcomm.hpp:188-193), and the
    constructor of the comm (340-347) calls [register_comm] on a null pointer (224-227). *)
Theorem C112_create pol P ops cs name id : csteps pol P ops no_comms cs ->
  let (cs1, p) := target_node name cs in
  (registered name ops -> exists cs2 a, comm_new p id cs1 = Ok (cs2, a) /\ mfind id (registry cs2) = Some a /\ exists c, heap cs2 a = Some c /\ c_id c = id) /\
  (~ registered name ops -> is_ub (comm_new p id cs1) = true).
Proof. apply create_iff. Qed.
Print Assumptions C112_create.

(** A frontend can bring this about: [comm_open] (src/xcomm.cpp:64-81) only asks whether there is an entry of the name,
    and looking up a target makes one. *)
Theorem C112_open_null : forall U (E : env U) pol P ops m c name id (s : kstate U), csteps pol P ops no_comms (k_comms s) ->
  names_target (m_content (m_base m)) name -> names_comm (m_content (m_base m)) id ->
  looked_up name ops -> ~ registered name ops -> is_ub (snd (run (comm_open E m c) s)) = true.
Proof.
  intros U E pol P ops m c name id s H Ht Hi L R. destruct (present_null pol P ops name (k_comms s) id H L R) as (p & t & F & w & W).
  unfold comm_open. cbv zeta. rewrite run_bind, run_res, (names_target_name _ _ Ht). unfold look_comms. rewrite run_bind, run_bind, run_kdo. cbn [kstep fst snd]. rewrite run_res, F.
  rewrite run_bind, run_res, (names_comm_id _ _ _ Hi). unfold with_comms. rewrite run_bind, run_bind, run_kdo. cbn [kstep fst snd]. rewrite run_bind, run_res, W. reflexivity.
Qed.
Print Assumptions C112_open_null.

(** A target is registered, another only looked up, a third registered and unregistered; a comm exists already. *)
Definition ops_ex : list cop := [CTarget "b"; CRegTarget "a" None; CRegTarget "c" None; CNew 1 "old"; CUnregTarget "c"; CTarget "c"].
Definition can_create (name : string) : res bool :=
  let* cs := fold_left (fun r o => let* cs := r in cstep IndetUB o cs) ops_ex (Ok no_comms) in
  let (cs1, p) := target_node name cs in Ok (negb (is_ub (comm_new p "new" cs1))).
Example C112_ex : List.map can_create ["a"; "b"; "c"; "d"] = [Ok true; Ok false; Ok false; Ok false].
Proof. reflexivity. Qed.
Example C112_hyp : exists cs, csteps IndetUB (fun _ _ => True) ops_ex no_comms cs /\ registered "a" ops_ex /\ ~ registered "c" ops_ex /\ looked_up "c" ops_ex.
Proof.
  eexists. split; [|split; [|split]].
  - repeat (eapply cs_cons; [exact I|reflexivity|]). apply cs_nil.
  - apply registered_fold. reflexivity.
  - intros H. apply registered_fold in H. discriminate H.
  - exists [CTarget "b"; CRegTarget "a" None; CRegTarget "c" None; CNew 1 "old"; CUnregTarget "c"], []. split; [reflexivity|intros []].
Qed.
(** A kernel that asks for the target "chat" when it is configured but never registers it, and a frontend that opens a
    comm for it; a comm for a target never mentioned is refused. *)
Definition lookup_demo : env U0 := {|
  e_crypto := toy; e_auth := toy_auth; e_eh := EStrict; e_kernel_id := "k1"; e_user_name := "user"; e_session_id := "s1";
  e_guid := ticks; e_now := fun _ => "2024-01-01T00:00:00Z"; e_stdin := stdin_msg; e_logger := fun _ => Ok tt;
  e_regex := fun _ => Ok (fun _ => false); e_indet := IndetUB; e_long_id := fun s => Ok s;
  e_configure := act (ATarget "chat") (Ret tt); e_interp := demo_interp; e_split := false; e_debugger := None;
  e_callback := demo_callback; e_handler := demo_handler; e_input := fun _ _ => Ret tt |}.
Theorem C112_open_refuted : exists (E : env U0) ops s w m name, quiet E /\ s = fst (run (kernel_start E) (kinit [] [])) /\
  csteps (e_indet E) (fun _ _ => True) ops no_comms (k_comms s) /\ ~ registered name ops /\ accepted E w m /\ typed (m_header (m_base m)) "comm_open" /\
  names_target (m_content (m_base m)) name /\ is_ub (snd (run (dispatch E w SHELL) s)) = true.
Proof.
  set (m := comm_request "comm_open" "c1" [("target_name", JStr "chat")]).
  exists lookup_demo, [CTarget "chat"], (fst (run (kernel_start lookup_demo) (kinit [] []))), (wire_of m), m, "chat".
  split; [intros l; reflexivity|]. split; [reflexivity|]. split; [eapply cs_cons; [exact I|reflexivity|]; apply cs_nil|].
  split; [intros H; apply registered_fold in H; discriminate H|]. split; [vm_compute; reflexivity|]. split; [eexists; split; reflexivity|].
  split; [eexists; split; reflexivity|vm_compute; reflexivity].
Qed.
Print Assumptions C112_open_refuted.
Definition opened_for (name : string) : bool :=
  let s := fst (run (kernel_start lookup_demo) (kinit [] [])) in
  is_ub (snd (run (dispatch lookup_demo (wire_of (comm_request "comm_open" "c1" [("target_name", JStr name)])) SHELL) s)).
Example C112_open_ex : opened_for "chat" = true /\ opened_for "other" = false.
Proof. vm_compute. split; reflexivity. Qed.
