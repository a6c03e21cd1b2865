(** Nothing leaves the kernel, and no request is acted upon, before the logger has taken the message: C98. *)
From Verif Require Import Base BaseFacts Json JsonText Utf8 Auth Message WireSpec History Comm Logger HostSpec Tree Kernel KernelSpec KernelRun KernelDemo
  Server ServerSpec ServerProofs ServerExec ServerLemmas Split SplitSpec ServerDemo LogSpec LoggedSpec Logged PropsKernel PropsLog.

(** C98. The loggers are functions of the model that can refuse a message: the exception of a logger. As
    the theorems are about all loggers, a program that sends a message that was not given to the logger
    first would not satisfy them.
    One message: whatever is published, sent on a channel or sent to stdin was accepted by the logger. *)
Theorem C98_message : forall U (E : env U) w c, always (vetted E) (dispatch E w c).
Proof. exact @v_dispatch. Qed.
Print Assumptions C98_message.
(** In every run of the default server, whatever arrives and whatever the user code does. *)
Theorem C98_default : forall U (E : env U) k start ls s e, drun (fun c w => dispatch E w c) (d_init k start) ls s -> In (Emitted e) ls -> consented E e.
Proof. intros U E k start ls s e H I. refine (proj2 (d_ok_run (vetted E) _ _ _ _ _ _ H) e I); [intros; apply v_dispatch|exact Logic.I]. Qed.
Print Assumptions C98_default.
(** Of the split servers. *)
Theorem C98_split : forall U v (E : env U) k start ls s c e, yrun v (fun c w => dispatch E w c) (dispatch_internal E) (y_init k start) ls s -> In (YEvent c e) ls -> consented E e.
Proof.
  intros U v E k start ls s c e H I. refine (proj2 (y_ok_run (vetted E) v _ _ _ _ _ _ _ _ H) c e I); [intros; apply v_dispatch|intros; apply v_internal|split; exact Logic.I].
Qed.
Print Assumptions C98_split.
(** With a chain of console and file loggers: each of them has written one entry, which names the
    channel and the first identity, or the topic, and shows of the message what its level asks for. *)
Theorem C98_default_written : forall U (E : env U) lg k start ls s e, e_logger E = chain_logger lg ->
  drun (fun c w => dispatch E w c) (d_init k start) ls s -> In (Emitted e) ls -> written lg e.
Proof. intros. eapply consented_written; eauto. eapply C98_default; eauto. Qed.
Print Assumptions C98_default_written.
Theorem C98_split_written : forall U v (E : env U) lg k start ls s c e, e_logger E = chain_logger lg ->
  yrun v (fun c w => dispatch E w c) (dispatch_internal E) (y_init k start) ls s -> In (YEvent c e) ls -> written lg e.
Proof. intros. eapply consented_written; eauto. eapply C98_split; eauto. Qed.
Print Assumptions C98_split_written.

(** C98. Nothing is done about a message that came in on the shell, on the control or on the stdin
    socket before the logger has accepted it: no status is published, no handler is run, nothing is
    stored. *)
Theorem C98_in : forall U (E : env U) w m, accepted E w m ->
  (forall c, always (fun _ => e_logger E (LReceived m (Some c)) = Ok tt) (dispatch E w c)) /\
  always (fun _ => e_logger E (LReceived m None) = Ok tt) (dispatch_stdin E w).
Proof. intros U E w m A. split; [intros c; now apply first_dispatch|now apply first_stdin]. Qed.
Print Assumptions C98_in.
(** So a message that the logger refuses has no effect. *)
Theorem C98_in_refused : forall U (E : env U) w m, accepted E w m ->
  (forall c, e_logger E (LReceived m (Some c)) <> Ok tt -> forall s s' r, run (dispatch E w c) s = (s', r) -> s' = s /\ forall a, r <> Ok a) /\
  (forall s s' r, e_logger E (LReceived m None) <> Ok tt -> run (dispatch_stdin E w) s = (s', r) -> s' = s).
Proof.
  intros U E w m A. destruct (C98_in U E w m A) as [D I]. split.
  - intros c N s s' r R. unfold dispatch in R. unfold accepted in A. rewrite A in R. cbn [of_res tbind catch_std] in R. unfold log in R.
    destruct (e_logger E (LReceived m (Some c))) as [[]|e|y] eqn:L; [congruence| |]; cbn [of_res tbind run] in R; injection R as <- <-; split; auto; discriminate.
  - intros s s' r N R. destruct (dispatch_stdin E w) as [a|e|y|o k]; try (cbn [run] in R; now injection R as <- <-). destruct I as [I _]. contradiction.
Qed.
Print Assumptions C98_in_refused.
(** With a chain of loggers: what each of them has written when the handling starts. *)
Theorem C98_in_written : forall U (E : env U) lg w m, e_logger E = chain_logger lg -> accepted E w m ->
  (forall c, always (fun _ => written_in lg (Some c) m) (dispatch E w c)) /\ always (fun _ => written_in lg None m) (dispatch_stdin E w).
Proof.
  intros U E lg w m L A. destruct (C98_in U E w m A) as [D I]. split; [intros c; eapply always_impl; [|apply D]|eapply always_impl; [|apply I]]; intros o H; eapply received_written; eauto.
Qed.
Print Assumptions C98_in_written.

(** A session with a file logger and a console logger: what left, and what the console shows of it. *)
Definition left (ls : list label) : list event := flat_map (fun l => match l with Emitted (EPublish _ _ _ as e) | Emitted (ESend _ _ _ as e) | Emitted (EStdin _ _ as e) => [e] | _ => [] end) ls.
Definition console (lg : logger) (e : event) : list string :=
  flat_map (fun x => match x with EConsole info _ => [info] | EFile _ _ => [] end)
    (fst match e with EPublish _ m _ => chain_call lg (LIopub m) | ESend c m _ => chain_call lg (LSent m (Some c)) | EStdin m _ => chain_call lg (LSent m None) | _ => ([], Ok tt) end).
Example C98_ex : let ls := fst (ldefault_run logged_choices) in let s := snd (ldefault_run logged_choices) in
  drun (fun c w => dispatch ldemo w c) (d_init demo_start ["start"]) ls s /\ e_logger ldemo = chain_logger both /\
  flat_map (console both) (left ls) =
    ["XEUS: sent message on iopub - kernel_core.k1.status"; "XEUS: sent message on iopub - kernel_core.k1.execute_input";
     "XEUS: sent message on iopub - kernel_core.k1.stream"; "XEUS: sent message on iopub - kernel_core.k1.execute_result";
     "XEUS: sent message on shell - peer"; "XEUS: sent message on iopub - kernel_core.k1.status";
     "XEUS: sent message on iopub - kernel_core.k1.status"; "XEUS: sent message on control - peer"; "XEUS: sent message on iopub - kernel_core.k1.status";
     "XEUS: sent message on iopub - kernel_core.k1.status"; "XEUS: sent message on iopub - kernel_core.k1.execute_input";
     "XEUS: sent message on iopub - kernel_core.k1.stream"; "XEUS: sent message on iopub - kernel_core.k1.execute_result";
     "XEUS: sent message on shell - peer"; "XEUS: sent message on iopub - kernel_core.k1.status"].
Proof. intros ls s. split; [exact (ldefault_run_ok logged_choices)|]. split; [reflexivity|]. vm_compute. reflexivity. Qed.
Definition left_by (c : channel) (ls : list slabel) : list event := filter (fun e => match e with EPublish _ _ _ | ESend _ _ _ | EStdin _ _ => true | _ => false end) (events c ls).
Example C98_split_ex : forall v, let ls := fst (lsplit_run v split_logged) in let s := snd (lsplit_run v split_logged) in
  yrun v (fun c w => dispatch lsdemo w c) (dispatch_internal lsdemo) (y_init demo_start ["start"]) ls s /\ e_logger lsdemo = chain_logger both /\
  flat_map (console both) (left_by CONTROL ls) =
    ["XEUS: sent message on iopub - kernel_core.k1.status"; "XEUS: sent message on control - peer"; "XEUS: sent message on iopub - kernel_core.k1.status"].
Proof. intros v ls s. split; [exact (lsplit_run_ok v split_logged)|]. split; [reflexivity|]. destruct v; vm_compute; reflexivity. Qed.
(** A logger that refuses completion requests. *)
Definition refuses (l : logcall) : res unit :=
  match l with LReceived m _ => match msg_type m with Some "complete_request" => Exn type_error_316 | _ => Ok tt end | _ => Ok tt end.
Definition choosy : env U0 := with_logger refuses demo.
Definition completion : xmessage := simple "complete_request".
Example C98_in_ex : accepted choosy (wire_of completion) completion /\ e_logger choosy (LReceived completion (Some SHELL)) = Exn type_error_316 /\
  names (fst (run (dispatch demo (wire_of completion) SHELL) demo_start)) = ["starting"; "busy"; "interpreter"; "complete_reply"; "idle"] /\
  names (fst (run (dispatch choosy (wire_of completion) SHELL) demo_start)) = ["starting"].
Proof. vm_compute. auto. Qed.

(** C98. Every request that is answered was logged: refuted. The requests that a failed execution takes
    from the queue are answered without having been given to the logger. *)
Theorem C98_abort_refuted : exists U (E : env U) s w1 w2 m, accepted E w2 m /\ (forall c, e_logger E (LReceived m c) <> Ok tt) /\
  exists c r w, In (ESend c r w) (k_trace (fst (run (dispatch E w1 SHELL) s))) /\ ~ In (ESend c r w) (k_trace s) /\ m_parent_header (m_base r) = m_header (m_base m) /\ m_ids r = m_ids m.
Proof.
  exists U0, choosy, (queue_up [wire_of completion] demo_start), failing_cell, (wire_of completion), completion.
  split; [vm_compute; reflexivity|]. split; [intros c; vm_compute; discriminate|].
  assert (k_trace (queue_up [wire_of completion] demo_start) = k_trace demo_start /\ existsb (fun e => match e with ESend _ _ _ => true | _ => false end) (k_trace demo_start) = false) as [T N] by (vm_compute; auto).
  assert (exists e, nth_error (k_trace (fst (run (dispatch choosy failing_cell SHELL) (queue_up [wire_of completion] demo_start)))) 6 = Some e /\
    match e with ESend c r w => m_parent_header (m_base r) = m_header (m_base completion) /\ m_ids r = m_ids completion | _ => False end) as (e & I & X).
  { eexists. split; [vm_compute; reflexivity|]. vm_compute. auto. }
  destruct e as [|c r w| | | | | | |]; try contradiction. exists c, r, w. split; [eapply nth_error_In, I|]. split; [|exact X]. rewrite T. intros J.
  assert (existsb (fun e => match e with ESend _ _ _ => true | _ => false end) (k_trace demo_start) = true) as Y by (apply existsb_exists; eauto). congruence.
Qed.
Print Assumptions C98_abort_refuted.
(** Every message that leaves was logged: refuted for the first one. The message that announces the
    start is not given to the logger. *)
Theorem C98_start_refuted : exists U (E : env U) s, exists c m w, In (EPublish c m w) (k_trace (fst (run (kernel_start E) s))) /\ k_trace s = [] /\ e_logger E (LIopub m) <> Ok tt.
Proof.
  exists U0, (with_logger (fun _ => Exn type_error_316) demo), (kinit [] []). do 3 eexists. split; [vm_compute; left; reflexivity|]. split; [reflexivity|discriminate].
Qed.
Print Assumptions C98_start_refuted.
