(** C32-C37: the servers' threads. Each run is a list of observations of the machine of Server.v or
    Split.v; the vocabulary is that of ServerSpec.v and SplitSpec.v. *)
From Verif Require Import Base BaseFacts Json JsonText Utf8 Utf8Proofs JsonTextProofs Auth Message MessageProofs WireSpec WireLemmas History Comm Tree Kernel KernelSpec KernelProofs KernelRun KernelDemo
  Server ServerSpec ServerProofs Split SplitSpec Threads SplitProofs SplitCalls SplitStop ServerExec ServerLemmas ServerDemo.

(** C32. Messages are taken from each socket in arrival order, each once; what was not taken is still
    waiting. A message taken from the shell socket is given to the listener or, while the queue is
    being aborted, answered with an error. *)
Theorem C32_order : forall U (listener : channel -> frames -> kprog U unit) k start ls s,
  drun listener (d_init k start) ls s ->
  arrived CONTROL ls = (control_taken ls ++ m_ctlq (d_mem s))%list /\ arrived SHELL ls = (shell_taken ls ++ m_shellq (d_mem s))%list.
Proof. exact @server_order. Qed.
Print Assumptions C32_order.
Example C32_order_ex : let r := default_run busy_choices in
  drun default_listener (d_init demo_start ["start"]) (fst r) (snd r) /\
  handed (fst r) = [(CONTROL, info); (SHELL, exec1); (SHELL, exec2)] /\ m_shellq (d_mem (snd r)) = [] /\ d_pc (snd r) = MPoll.
Proof. cbv zeta. split; [apply default_run_ok|]. vm_compute. auto. Qed.
(** When the main thread is blocked in its poll, everything that arrived was taken. *)
Theorem C32_no_loss : forall U (listener : channel -> frames -> kprog U unit) k start ls s,
  drun listener (d_init k start) ls s -> d_pc s = MPoll -> (forall l s', ~ main_step listener s l s') ->
  control_taken ls = arrived CONTROL ls /\ shell_taken ls = arrived SHELL ls.
Proof. exact @server_idle. Qed.
Print Assumptions C32_no_loss.
Example C32_no_loss_ex : let r := default_run busy_choices in
  d_pc (snd r) = MPoll /\ (forall l s', ~ main_step default_listener (snd r) l s') /\ shell_taken (fst r) = [exec1; exec2].
Proof.
  cbv zeta. split; [vm_compute; reflexivity|]. split; [|vm_compute; reflexivity].
  intros l s' H. remember (snd (default_run busy_choices)) as s eqn:E.
  assert (P : d_pc s = MPoll /\ m_ctlq (d_mem s) = [] /\ m_shellq (d_mem s) = []) by (subst s; vm_compute; auto). clear E. destruct P as (P1 & P2 & P3).
  destruct H; cbn in *; try discriminate. destruct H as [H|H]; contradiction.
Qed.
(** Each message handed over follows a poll that found it. In one poll at most one control and one
    shell message are handed over, the control message first; if a control message was waiting, a
    shell message is only handed over after it. *)
Theorem C32_priority : forall U (listener : channel -> frames -> kprog U unit) k start ls s l1 l3 c w,
  drun listener (d_init k start) ls s -> ls = (l1 ++ Hand c w :: l3)%list ->
  exists a rc rs b, l1 = (a ++ Poll rc rs :: b)%list /\ no_poll b /\
    (rc = true <-> control_taken a <> arrived CONTROL a) /\ (rs = true <-> shell_taken a <> arrived SHELL a) /\
    match c with
    | CONTROL => rc = true /\ handed b = []
    | SHELL => rs = true /\ (if rc then exists w', handed b = [(CONTROL, w')] else handed b = [])
    end.
Proof. exact @server_priority. Qed.
Print Assumptions C32_priority.
Definition is_hand_shell (l : label) : bool := match l with Hand SHELL _ => true | _ => false end.
Fixpoint split_at (p : label -> bool) (ls : list label) : list label * list label :=
  match ls with [] => ([], []) | l :: r => if p l then ([], l :: r) else let (a, b) := split_at p r in (l :: a, b) end.
Example C32_priority_ex : let ls := fst (default_run busy_choices) in
  exists l1 l3, ls = (l1 ++ Hand SHELL exec1 :: l3)%list /\ In (Poll true true) l1 /\ handed l1 = [(CONTROL, info)].
Proof.
  cbv zeta. exists (fst (split_at is_hand_shell (fst (default_run busy_choices)))), (tl (snd (split_at is_hand_shell (fst (default_run busy_choices))))).
  split; [vm_compute; reflexivity|]. split; [vm_compute; auto 10 | vm_compute; reflexivity].
Qed.
(** After [xserver::stop] nothing is handed over and nothing is polled. *)
Theorem C32_stop : forall U (listener : channel -> frames -> kprog U unit) k start ls s l1 l2,
  drun listener (d_init k start) ls s -> ls = (l1 ++ StopRequest :: l2)%list -> handed l2 = [] /\ no_poll l2.
Proof. exact @server_stop. Qed.
Print Assumptions C32_stop.
Definition is_stop (l : label) : bool := match l with StopRequest => true | _ => false end.
Example C32_stop_ex : let r := default_run stop_choices in
  exists l1 l2, fst r = (l1 ++ StopRequest :: l2)%list /\ In (Poll true true) l1 /\ m_shellq (d_mem (snd r)) = [exec2] /\ d_pc (snd r) = MExit.
Proof.
  cbv zeta. exists (fst (split_at is_stop (fst (default_run stop_choices)))), (tl (snd (split_at is_stop (fst (default_run stop_choices))))).
  split; [vm_compute; reflexivity|]. split; [vm_compute; auto 10|]. vm_compute. auto.
Qed.
(** A listener of the control channel that aborts the shell queue leaves the main thread waiting for a
    shell message it announced: from then on control messages are not handled until a shell message
    arrives. *)
Theorem C32_blocked_refuted : exists U (E : env U) k start ls s,
  drun (fun c w => dispatch E w c) (d_init k start) ls s /\ d_pc s = MRecvShell /\ m_shellq (d_mem s) = [] /\
  forall l s', ~ main_step (fun c w => dispatch E w c) s l s'.
Proof.
  exists U0, demo, demo_start, ["start"], (fst (default_run steal_choices)), (snd (default_run steal_choices)).
  split; [apply default_run_ok|]. split; [vm_compute; reflexivity|]. split; [vm_compute; reflexivity|].
  intros l s' H. remember (snd (default_run steal_choices)) as s eqn:E.
  assert (P : d_pc s = MRecvShell /\ m_shellq (d_mem s) = []) by (subst s; vm_compute; auto). clear E. destruct P as (P1 & P2).
  destruct H; cbn in *; congruence.
Qed.
Print Assumptions C32_blocked_refuted.

(** C33. What the publisher has sent is at any time an initial segment of what was published: same
    messages, same order, no duplicates, nothing skipped. *)
Theorem C33_order : forall U (listener : channel -> frames -> kprog U unit) k start ls s,
  drun listener (d_init k start) ls s -> prefix (f_out (m_pub (d_mem s))) (start :: published ls).
Proof. exact @server_publisher. Qed.
Print Assumptions C33_order.
Example C33_order_ex : let r := default_run busy_choices in
  f_out (m_pub (d_mem (snd r))) = ["start"] :: published (fst r) /\ List.length (published (fst r)) = 12.
Proof. vm_compute. auto. Qed.
(** Blocked in its poll, it has sent everything. *)
Theorem C33_idle : forall U (listener : channel -> frames -> kprog U unit) k start ls s,
  drun listener (d_init k start) ls s -> f_pc (m_pub (d_mem s)) = FPoll -> fnext (m_pub (d_mem s)) = None ->
  f_out (m_pub (d_mem s)) = start :: published ls.
Proof. exact @server_publisher_idle. Qed.
Print Assumptions C33_idle.
Example C33_idle_ex : let r := default_run busy_choices in f_pc (m_pub (d_mem (snd r))) = FPoll /\ fnext (m_pub (d_mem (snd r))) = None.
Proof. vm_compute. auto. Qed.
(** Before the stop command, the publisher and heartbeat threads, given time, send everything. *)
Theorem C33_before_stop : forall U (listener : channel -> frames -> kprog U unit) k start ls s,
  drun listener (d_init k start) ls s -> before_stop (d_pc s) ->
  (exists f, fsteps (m_pub (d_mem s)) f /\ f_out f = start :: published ls) /\
  (exists f, fsteps (m_hb (d_mem s)) f /\ f_out f = beats ls).
Proof. exact @server_forwards. Qed.
Print Assumptions C33_before_stop.
Example C33_before_stop_ex : let r := default_run [(GArrive SHELL exec1, 1); (GBeat ["hb"; "1"], 1); (GMain, 500)] in
  before_stop (d_pc (snd r)) /\ f_out (m_pub (d_mem (snd r))) = [] /\ List.length (published (fst r)) = 5 /\ beats (fst r) = [["hb"; "1"]].
Proof. vm_compute. auto. Qed.
(** Messages published before the stop command are lost when the publisher is late: here the busy and
    idle status of the shutdown request and the shutdown message. *)
Theorem C33_lost_refuted : exists U (E : env U) k start ls s,
  drun (fun c w => dispatch E w c) (d_init k start) ls s /\ d_pc s = MExit /\
  List.length (published ls) = 3 /\ f_out (m_pub (d_mem s)) = [start].
Proof.
  exists U0, demo, demo_start, ["start"], (fst (default_run stop_choices)), (snd (default_run stop_choices)).
  split; [apply default_run_ok|]. vm_compute. auto.
Qed.
Print Assumptions C33_lost_refuted.
(** The same for the split servers. *)
Theorem C33_split : forall U v (listener : channel -> frames -> kprog U unit) internal k start ls s,
  yrun v listener internal (y_init k start) ls s ->
  prefix (f_out (m_pub (y_mem s))) (start :: sent_out ls) /\
  (f_pc (m_pub (y_mem s)) = FPoll -> fnext (m_pub (y_mem s)) = None -> f_out (m_pub (y_mem s)) = start :: sent_out ls).
Proof.
  intros U v listener internal k start ls s H. split; [exact (proj1 (split_publisher v listener internal k start ls s H))|].
  exact (proj1 (split_forward_idle v listener internal k start ls s H)).
Qed.
Print Assumptions C33_split.
Example C33_split_ex : let r := split_run ControlMain together in
  f_pc (m_pub (y_mem (snd r))) = FPoll /\ fnext (m_pub (y_mem (snd r))) = None /\ List.length (f_out (m_pub (y_mem (snd r)))) = 13.
Proof. vm_compute. auto. Qed.

(** C34 *)
Theorem C34_echo : forall U (listener : channel -> frames -> kprog U unit) k start ls s,
  drun listener (d_init k start) ls s ->
  prefix (f_out (m_hb (d_mem s))) (beats ls) /\
  (f_pc (m_hb (d_mem s)) = FPoll -> fnext (m_hb (d_mem s)) = None -> f_out (m_hb (d_mem s)) = beats ls).
Proof.
  intros U listener k start ls s H. split; [exact (server_heartbeat listener k start ls s H) | exact (server_heartbeat_idle listener k start ls s H)].
Qed.
Print Assumptions C34_echo.
Example C34_ex : let r := default_run [(GBeat ["hb"; "1"], 1); (GBeat ["hc"; "2"], 1); (GHb, 50); (GBeat ["hb"; "3"], 1); (GHb, 2)] in
  f_out (m_hb (d_mem (snd r))) = [["hb"; "1"]; ["hc"; "2"]] /\ beats (fst r) = [["hb"; "1"]; ["hc"; "2"]; ["hb"; "3"]].
Proof. vm_compute. auto. Qed.
Theorem C34_split : forall U v (listener : channel -> frames -> kprog U unit) internal k start ls s,
  yrun v listener internal (y_init k start) ls s ->
  prefix (f_out (m_hb (y_mem s))) (pulses ls) /\
  (f_pc (m_hb (y_mem s)) = FPoll -> fnext (m_hb (y_mem s)) = None -> f_out (m_hb (y_mem s)) = pulses ls).
Proof.
  intros U v listener internal k start ls s H. split; [exact (proj2 (split_publisher v listener internal k start ls s H))|].
  exact (proj2 (split_forward_idle v listener internal k start ls s H)).
Qed.
Print Assumptions C34_split.
Example C34_split_ex : let r := split_run ControlMain together in f_out (m_hb (y_mem (snd r))) = [["hb"; "1"]] /\ fnext (m_hb (y_mem (snd r))) = None.
Proof. vm_compute. auto. Qed.

(** C35. [execution]: an infinite sequence of steps, possibly idle from some point on; [fair t]: the
    thread [t] does not remain able to move without moving. The control thread is about to send the
    first stop command. The process then exits with all threads finished, or a listener throws out of
    its thread; provided that the control thread has not emptied the shell queue (see
    [C35_theft_refuted]), the shell thread does not call itself through the debugger
    ([C35_self_call_refuted]) and does not wait for standard input forever ([C35_stdin_refuted]). *)
Theorem C35_stop_ends : forall U v (E : env U) k start ls0 sigma lab,
  execution v (fun c w => dispatch E w c) (dispatch_internal E) sigma lab ->
  yrun v (fun c w => dispatch E w c) (dispatch_internal E) (y_init k start) ls0 (sigma 0) ->
  y_ct (sigma 0) = CStopShell -> y_end (sigma 0) = None ->
  (forall t, t <> TEnv -> fair v (fun c w => dispatch E w c) (dispatch_internal E) sigma lab t) ->
  (forall w, ~ In (YTook CONTROL w) ls0) -> (forall n w, lab n <> Some (YTook CONTROL w)) ->
  (forall n, ~ calls_itself (sigma n)) -> (forall n, exists m, n <= m /\ ~ waits_stdin (sigma m)) ->
  exists n, y_end (sigma n) = Some Crashed \/ all_stopped (sigma n).
Proof. exact @stop_ends. Qed.
Print Assumptions C35_stop_ends.
(** Both servers, with a pending shell message. *)
Example C35_ex : forall v, let sigma := path v slisten sintern (turns 50) (stopping v) in let lab := plab v slisten sintern (turns 50) (stopping v) in
  execution v slisten sintern sigma lab /\ (exists ls0, yrun v slisten sintern (y_init demo_start ["start"]) ls0 (sigma 0) /\ (forall w, ~ In (YTook CONTROL w) ls0)) /\
  y_ct (sigma 0) = CStopShell /\ y_end (sigma 0) = None /\ m_shellq (y_mem (sigma 0)) = [exec1] /\
  (forall t, t <> TEnv -> fair v slisten sintern sigma lab t) /\ (forall n w, lab n <> Some (YTook CONTROL w)) /\
  (forall n, ~ calls_itself (sigma n)) /\ (forall n, exists m, n <= m /\ ~ waits_stdin (sigma m)) /\
  y_end (sigma 200) = Some Exited.
Proof.
  intros v. cbv zeta. split; [apply path_execution|]. split.
  { exists (fst (split_run v until_stop)). split; [apply split_run_ok|]. intros w Hi.
    assert (F : forallb (fun l => negb (theft_label l)) (fst (split_run v until_stop)) = true) by (destruct v; vm_compute; reflexivity).
    rewrite forallb_forall in F. apply F in Hi. discriminate. }
  split; [destruct v; vm_compute; reflexivity|]. split; [destruct v; vm_compute; reflexivity|]. split; [destruct v; vm_compute; reflexivity|].
  split. { intros t Ht. apply path_fair; auto. destruct v, t; try contradiction; vm_compute; reflexivity. }
  split. { intros n w Hl. apply (plab_all v slisten sintern (fun l => negb (theft_label l))) in Hl; [discriminate|]. destruct v; vm_compute; reflexivity. }
  split. { intros n. apply self_calling_ok. apply negb_true_iff. revert n. apply (path_all v slisten sintern (fun s => negb (self_calling s))). destruct v; vm_compute; reflexivity. }
  split. { intros n. exists n. split; auto. apply stdin_waiting_ok. apply negb_true_iff. revert n. apply (path_all v slisten sintern (fun s => negb (stdin_waiting s))). destruct v; vm_compute; reflexivity. }
  destruct v; vm_compute; reflexivity.
Qed.
(** Without the three conditions the process can be stuck for ever, after the control thread has left
    its loop: no thread can move ([dead]).
    A failing cell sent on the control channel empties the shell queue between the shell thread's poll
    and receive. *)
Theorem C35_theft_refuted : forall v, exists U (E : env U) k start ls s,
  yrun v (fun c w => dispatch E w c) (dispatch_internal E) (y_init k start) ls s /\
  y_ct s = CWaitShell /\ dead v (fun c w => dispatch E w c) (dispatch_internal E) s /\ (exists b, y_sh s = SRecv b).
Proof.
  intros v. exists U0, sdemo, demo_start, ["start"], (fst (split_run v theft)), (snd (split_run v theft)).
  split; [apply split_run_ok|]. split; [destruct v; vm_compute; reflexivity|]. split; [apply deadf_ok; destruct v; vm_compute; reflexivity|].
  eexists. destruct v; vm_compute; reflexivity.
Qed.
Print Assumptions C35_theft_refuted.
(** A debug request sent on the shell channel whose handling asks the interpreter. *)
Theorem C35_self_call_refuted : forall v, exists U (E : env U) k start ls s,
  yrun v (fun c w => dispatch E w c) (dispatch_internal E) (y_init k start) ls s /\
  y_ct s = CStopShell /\ dead v (fun c w => dispatch E w c) (dispatch_internal E) s /\ calls_itself s.
Proof.
  intros v. exists U0, sdemo, demo_start, ["start"], (fst (split_run v self_call)), (snd (split_run v self_call)).
  split; [apply split_run_ok|]. split; [destruct v; vm_compute; reflexivity|]. split; [apply deadf_ok; destruct v; vm_compute; reflexivity|].
  destruct v; vm_compute; exact I.
Qed.
Print Assumptions C35_self_call_refuted.
(** A cell that waits for input when the shutdown request comes. *)
Theorem C35_stdin_refuted : forall v, exists U (E : env U) k start ls s,
  yrun v (fun c w => dispatch E w c) (dispatch_internal E) (y_init k start) ls s /\
  y_ct s = CWaitShell /\ dead v (fun c w => dispatch E w c) (dispatch_internal E) s /\ waits_stdin s.
Proof.
  intros v. exists U0, sdemo, demo_start, ["start"], (fst (split_run v no_input)), (snd (split_run v no_input)).
  split; [apply split_run_ok|]. split; [destruct v; vm_compute; reflexivity|]. split; [apply deadf_ok; destruct v; vm_compute; reflexivity|].
  destruct v; vm_compute; apply le_n.
Qed.
Print Assumptions C35_stdin_refuted.
(** A shutdown request on the shell channel is answered, but the control thread does not leave its
    loop before the next control message. *)
Theorem C35_shell_shutdown_refuted : forall v, exists U (E : env U) k start ls s,
  yrun v (fun c w => dispatch E w c) (dispatch_internal E) (y_init k start) ls s /\
  m_stop (y_mem s) = true /\ y_ct s = CRecv /\ dead v (fun c w => dispatch E w c) (dispatch_internal E) s.
Proof.
  intros v. exists U0, sdemo, demo_start, ["start"], (fst (split_run v shell_stop)), (snd (split_run v shell_stop)).
  split; [apply split_run_ok|]. split; [destruct v; vm_compute; reflexivity|]. split; [destruct v; vm_compute; reflexivity|].
  apply deadf_ok; destruct v; vm_compute; reflexivity.
Qed.
Print Assumptions C35_shell_shutdown_refuted.

(** C36. [c] is the thread (shell or control); [YHand c w]: it starts handling the frames [w]; until it
    starts something else, all its events concern the message [w] carries: see [attributed] in
    SplitSpec.v; the first is the busy status of that message. *)
Theorem C36_attribution : forall U v (E : env U) k start ls s c w e l1 l2 l3,
  yrun v (fun c w => dispatch E w c) (dispatch_internal E) (y_init k start) ls s ->
  ls = (l1 ++ YHand c w :: l2 ++ YEvent c e :: l3)%list -> in_same c l2 ->
  exists m, accepted E w m /\ attributed E c m (tooks c l2) e /\
    (events c l2 = [] -> status_event E "busy" c (m_header (m_base m)) e).
Proof. exact @thread_attribution. Qed.
Print Assumptions C36_attribution.
(** When the thread starts something else, the events of this message are complete: none if the frames
    are rejected, else from its busy to its idle status. *)
Theorem C36_complete : forall U v (E : env U) k start ls s c w l l1 l2 l3,
  yrun v (fun c w => dispatch E w c) (dispatch_internal E) (y_init k start) ls s ->
  ls = (l1 ++ YHand c w :: l2 ++ l :: l3)%list -> in_same c l2 -> starts c l -> whole E c w (events c l2).
Proof. exact @thread_whole. Qed.
Print Assumptions C36_complete.
(** Output of the interpreter while it answers the debugger in the shell thread belongs to the last
    shell message. *)
Theorem C36_internal : forall U v (E : env U) k start ls s w e l1 l2 l3 m,
  yrun v (fun c w => dispatch E w c) (dispatch_internal E) (y_init k start) ls s ->
  ls = (l1 ++ YIntern w :: l2 ++ YEvent SHELL e :: l3)%list -> in_same SHELL l2 -> last_accepted E SHELL l1 m ->
  attributed E SHELL m (tooks SHELL l2) e.
Proof. exact @intern_attribution. Qed.
Print Assumptions C36_internal.
(** A run where events of the two threads alternate. *)
Definition thread_of (l : slabel) : option channel := match l with YEvent c _ => Some c | _ => None end.
Fixpoint threads (ls : list slabel) : list channel :=
  match ls with [] => [] | l :: r => match thread_of l with Some c => c :: threads r | None => threads r end end.
Fixpoint ysplit (p : slabel -> bool) (ls : list slabel) : list slabel * list slabel :=
  match ls with [] => ([], []) | l :: r => if p l then ([], l :: r) else let (a, b) := ysplit p r in (l :: a, b) end.
Definition hand_control (l : slabel) : bool := match l with YHand CONTROL _ => true | _ => false end.
Definition hand_shell (l : slabel) : bool := match l with YHand SHELL _ => true | _ => false end.
Definition reply_control (l : slabel) : bool := match l with YEvent CONTROL (ESend _ _ _) => true | _ => false end.
Definition startsb (c : channel) (l : slabel) : bool := match l with YHand c' _ => chan_eqb c' c | YIntern _ => chan_eqb c SHELL | _ => false end.
Lemma startsb_ok c ls : forallb (fun l => negb (startsb c l)) ls = true -> in_same c ls.
Proof.
  rewrite forallb_forall. intros H. apply Forall_forall. intros l Hl Hs. apply H in Hl. destruct l; cbn in *; try contradiction; subst.
  - destruct c; discriminate.
  - discriminate.
Qed.
Example C36_ex : let ls := fst (split_run ControlMain together) in
  yrun ControlMain slisten sintern (y_init demo_start ["start"]) ls (snd (split_run ControlMain together)) /\
  firstn 6 (threads ls) = [SHELL; CONTROL; SHELL; CONTROL; SHELL; SHELL] /\
  exists l1 l2 e l3, ls = (l1 ++ YHand CONTROL debug :: l2 ++ YEvent CONTROL e :: l3)%list /\ in_same CONTROL l2 /\
    match e with ESend CONTROL r _ => m_ids r = ["peer"; "x"] /\ jfield "msg_type" (m_header (m_base r)) = Some (JStr "debug_reply") | _ => False end.
Proof.
  cbv zeta. split; [apply split_run_ok|]. split; [vm_compute; reflexivity|].
  set (ls := fst (split_run ControlMain together)). set (r := tl (snd (ysplit hand_control ls))). set (q := snd (ysplit reply_control r)).
  exists (fst (ysplit hand_control ls)), (fst (ysplit reply_control r)), (match q with YEvent _ e :: _ => e | _ => EStop end), (tl q).
  split; [vm_compute; reflexivity|]. split; [apply startsb_ok; vm_compute; reflexivity|]. vm_compute. auto.
Qed.
Example C36_complete_ex : let ls := fst (split_run ControlMain together) in
  exists l1 l2 l3, ls = (l1 ++ YHand SHELL exec1 :: l2 ++ YHand SHELL exec2 :: l3)%list /\ in_same SHELL l2 /\ List.length (events SHELL l2) = 7.
Proof.
  cbv zeta. set (ls := fst (split_run ControlMain together)). set (r := tl (snd (ysplit hand_shell ls))).
  exists (fst (ysplit hand_shell ls)), (fst (ysplit hand_shell r)), (tl (snd (ysplit hand_shell r))).
  split; [vm_compute; reflexivity|]. split; [apply startsb_ok; vm_compute; reflexivity|]. vm_compute. reflexivity.
Qed.
Definition is_intern (l : slabel) : bool := match l with YIntern _ => true | _ => false end.
Example C36_internal_ex : let ls := fst (split_run ControlMain together) in
  exists l1 w l2 e l3, ls = (l1 ++ YIntern w :: l2 ++ YEvent SHELL e :: l3)%list /\ in_same SHELL l2 /\ last_accepted sdemo SHELL l1 (execute "2" []).
Proof.
  cbv zeta. set (ls := fst (split_run ControlMain together)). set (r := snd (ysplit is_intern ls)).
  exists (fst (ysplit is_intern ls)), (match r with YIntern w :: _ => w | _ => [] end), [], (match r with _ :: YEvent _ e :: _ => e | _ => EStop end), (tl (tl r)).
  split; [vm_compute; reflexivity|]. split; [constructor|].
  set (h := fun l => match l with YHand SHELL w => if list_eq_dec string_dec w exec2 then true else false | _ => false end).
  exists (fst (ysplit h (fst (ysplit is_intern ls)))), exec2, (tl (snd (ysplit h (fst (ysplit is_intern ls))))).
  split; [vm_compute; reflexivity|]. split; [vm_compute; reflexivity|].
  intros w' m' Hi. exfalso.
  assert (F : forallb (fun l => negb (hand_shell l)) (tl (snd (ysplit h (fst (ysplit is_intern ls))))) = true) by (vm_compute; reflexivity).
  rewrite forallb_forall in F. apply F in Hi. discriminate.
Qed.

(** C37. No text of a JSON value is the stop command. *)
Theorem C37_not_stop : forall h j t, dump h j = Ok t -> t <> "stop".
Proof. exact dump_not_stop. Qed.
Print Assumptions C37_not_stop.
Example C37_not_stop_ex : dump EStrict (JStr "stop") = Ok """stop""".
Proof. reflexivity. Qed.
(** Every request a thread sends to the shell thread is the text of a JSON value ... *)
Theorem C37_calls : forall U v (E : env U) k start ls s c w,
  yrun v (fun c w => dispatch E w c) (dispatch_internal E) (y_init k start) ls s -> In (YCall c w) ls ->
  exists j t, dump EStrict j = Ok t /\ w = [t] /\ t <> "stop".
Proof. exact @calls_not_stop. Qed.
Print Assumptions C37_calls.
(** ... which the shell thread reads back. *)
Theorem C37_same_value : forall h j t, jgood j = true -> dump EStrict j = Ok t -> dump h j = Ok t /\ parse t = Ok j.
Proof. exact same_value. Qed.
Print Assumptions C37_same_value.
Example C37_same_value_ex : jgood (jobj [("a", JArr [JInt 1; JStr "stop"])]) = true /\ exists t, dump EStrict (jobj [("a", JArr [JInt 1; JStr "stop"])]) = Ok t.
Proof. split; [reflexivity|]. eexists. vm_compute. reflexivity. Qed.
(** Requests and answers alternate, and each is what the other side sent. *)
Theorem C37_lock_step : forall U v (E : env U) k start ls s,
  yrun v (fun c w => dispatch E w c) (dispatch_internal E) (y_init k start) ls s ->
  exists L R, sync ls = (L ++ R)%list /\ rounds L /\ in_round R.
Proof. exact (fun U v E k start ls s H => lock_step v E k start ls s H). Qed.
Print Assumptions C37_lock_step.
(** The answer [r] the control thread gets for [w] is the text of what the interpreter returned when it
    was called with the value of [w], in the shell thread, between the two. *)
Theorem C37_answer : forall U v (E : env U) k start ls s w r l1 l2 l3,
  yrun v (fun c w => dispatch E w c) (dispatch_internal E) (y_init k start) ls s ->
  ls = (l1 ++ YCall CONTROL w :: l2 ++ YAnswer CONTROL r :: l3)%list -> (forall c w', ~ In (YCall c w') l2) ->
  exists a b d, l2 = (a ++ YIntern w :: b ++ YInternEnd r :: d)%list /\ in_same SHELL b /\ asked_interpreter E w (events SHELL b) r.
Proof. exact @call_answered. Qed.
Print Assumptions C37_answer.
Definition is_ycall (l : slabel) : bool := match l with YCall _ _ => true | _ => false end.
Definition is_yanswer (l : slabel) : bool := match l with YAnswer _ _ => true | _ => false end.
Example C37_ex : let ls := fst (split_run ShellMain together) in
  yrun ShellMain slisten sintern (y_init demo_start ["start"]) ls (snd (split_run ShellMain together)) /\
  exists l1 l2 l3, ls = (l1 ++ YCall CONTROL ["""stop"""] :: l2 ++ YAnswer CONTROL ["{""status"":""ok""}"] :: l3)%list /\ (forall c w', ~ In (YCall c w') l2).
Proof.
  cbv zeta. split; [apply split_run_ok|]. set (ls := fst (split_run ShellMain together)). set (r := tl (snd (ysplit is_ycall ls))).
  exists (fst (ysplit is_ycall ls)), (fst (ysplit is_yanswer r)), (tl (snd (ysplit is_yanswer r))).
  split; [vm_compute; reflexivity|]. intros c w' Hi.
  assert (F : forallb (fun l => negb (is_ycall l)) (fst (ysplit is_yanswer r)) = true) by (vm_compute; reflexivity).
  rewrite forallb_forall in F. apply F in Hi. discriminate.
Qed.
(** The shell thread leaves its loop only after the control thread has left its own. *)
Theorem C37_shell_runs : forall U v (E : env U) k start ls s,
  yrun v (fun c w => dispatch E w c) (dispatch_internal E) (y_init k start) ls s -> y_sh s = SOut \/ y_sh s = SEnd ->
  match y_ct s with CTest | CRecv | CRun _ | CStopShell => False | _ => True end.
Proof.
  intros U v E k start ls s H Ho. destruct (shell_leaves v E k start ls s H Ho) as [-> |P]; [exact I|]. destruct (y_ct s); try discriminate; exact I.
Qed.
Print Assumptions C37_shell_runs.
Example C37_shell_runs_ex : forall v, let s := path v slisten sintern (turns 50) (stopping v) 200 in y_sh s = SOut \/ y_sh s = SEnd.
Proof. intros []; vm_compute; auto. Qed.
(** The default server: the interpreter is called in place, with the same value, and its answer is
    returned. *)
Theorem C37_trivial : forall U (E : env U) j a s s', e_split E = false ->
  jgood j = true -> utf8_json j -> jgood a = true -> utf8_json a ->
  run (interp E (RInternal j)) s = (s', Ok a) -> run (send_to_shell E j) s = (s', Ok a).
Proof. exact @trivial_messenger. Qed.
Print Assumptions C37_trivial.
Example C37_trivial_ex : e_split demo = false /\ jgood (JStr "stop") = true /\ utf8_json (JStr "stop") /\ jgood ok_reply_json = true /\ utf8_json ok_reply_json /\
  snd (run (interp demo (RInternal (JStr "stop"))) demo_start) = Ok ok_reply_json.
Proof.
  split; [reflexivity|]. split; [reflexivity|]. split; [apply jvalid_utf8; reflexivity|]. split; [reflexivity|]. split; [apply jvalid_utf8; reflexivity|]. vm_compute. reflexivity.
Qed.
