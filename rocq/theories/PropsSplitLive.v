(** Liveness of the split servers: C78-C80. An execution is infinite, possibly idle from some moment on;
    [fair t]: the thread [t] does not stay able to move without moving; see SplitSpec.v and
    SplitLiveSpec.v. *)
From Verif Require Import Base BaseFacts Json JsonText Auth Message WireSpec History Comm Tree Kernel KernelSpec KernelDemo
  Server ServerSpec ServerProofs ServerExec ServerLemmas Split SplitSpec SplitCalls SplitStop ServerDemo LiveSpec Live SplitLiveSpec SplitLive SplitLiveDemo.

Section Ends.
  Context {U : Type} (v : variant) (E : env U) (k : kstate U) (start : frames) (sigma : nat -> ysys U) (lab : nat -> option slabel).
  Hypothesis Hex : execution v (fun c w => dispatch E w c) (dispatch_internal E) sigma lab.
  Hypothesis H0 : sigma 0 = y_init k start.
  (** A process that has ended crashed or was asked to stop. *)
  Lemma over_why m : over sigma m -> y_end (sigma m) = Some Crashed \/ left_loop (y_ct (sigma m)).
  Proof.
    unfold over. intros H. destruct (y_end (sigma m)) as [[|]|] eqn:He; auto; [|now destruct H]. right.
    destruct (run_sinv v E _ _ _ _ (obs_run v E k start sigma lab Hex H0 m)) as (_ & _ & _ & _ & X). specialize (X He). destruct (y_ct (sigma m)); try discriminate; exact I.
  Qed.
  Lemma over_or_stop m : over sigma m \/ m_stop (y_mem (sigma m)) = true -> y_end (sigma m) = Some Crashed \/ asked_stop (seen lab m).
  Proof.
    destruct (stop_at v E k start sigma lab Hex H0 m) as [S1 S2]. intros [H|H]; [|right; now apply S1].
    destruct (over_why m H) as [X|X]; auto. right. apply S1. auto.
  Qed.
  Lemma taken_prefix c n m : n <= m -> List.length (came c (seen lab n)) <= cnt lab c m -> prefix (came c (seen lab n)) (taken c (seen lab m)).
  Proof.
    intros Hm HL. destruct (queues v E k start sigma lab Hex H0 m) as [Q1 Q2].
    eapply prefix_of; [|destruct c; [exists (m_shellq (y_mem (sigma m)))|exists (m_ctlq (y_mem (sigma m)))]; eassumption|exact HL].
    destruct (obs_prefix lab n m Hm) as [r ->]. exists (came c r). apply ServerLemmas.came_app.
  Qed.
End Ends.

(** C78. Every message that arrived on the shell socket is eventually taken from it (given to the
    listener, or answered with an error by the handling of a failing cell), unless a listener throws out
    of its thread or the server is asked to stop. The shell thread does not call itself through the
    debugger and does not wait for standard input for ever. *)
Theorem C78_shell : forall U v (E : env U) k start sigma lab,
  execution v (fun c w => dispatch E w c) (dispatch_internal E) sigma lab -> sigma 0 = y_init k start ->
  fair v (fun c w => dispatch E w c) (dispatch_internal E) sigma lab TShell ->
  (forall n, ~ calls_itself (sigma n)) -> gets_input SHELL sigma ->
  forall n, exists m, n <= m /\
    (prefix (came SHELL (seen lab n)) (taken SHELL (seen lab m)) \/ y_end (sigma m) = Some Crashed \/ asked_stop (seen lab m)).
Proof.
  intros U v E k start sigma lab Hex H0 HS HC HI n.
  destruct (shell_all_taken v E k start sigma lab Hex H0 HS HC HI n) as (m & Hm & H). exists m. split; auto.
  destruct H as [H|H]; [left; eapply taken_prefix; eauto|right; eapply over_or_stop; eauto].
Qed.
Print Assumptions C78_shell.
(** The same for the control socket, if the handling of control messages does not empty the shell
    socket: a control message that asks the interpreter is answered by the shell thread. *)
Theorem C78_control : forall U v (E : env U) k start sigma lab,
  execution v (fun c w => dispatch E w c) (dispatch_internal E) sigma lab -> sigma 0 = y_init k start ->
  fair v (fun c w => dispatch E w c) (dispatch_internal E) sigma lab TShell ->
  fair v (fun c w => dispatch E w c) (dispatch_internal E) sigma lab TControl ->
  (forall n, ~ calls_itself (sigma n)) -> gets_input SHELL sigma -> gets_input CONTROL sigma -> keeps_off lab ->
  forall n, exists m, n <= m /\
    (prefix (came CONTROL (seen lab n)) (taken CONTROL (seen lab m)) \/ y_end (sigma m) = Some Crashed \/ asked_stop (seen lab m)).
Proof.
  intros U v E k start sigma lab Hex H0 HS HT HC HI HI2 HO n.
  destruct (control_all_taken v E k start sigma lab Hex H0 HS HC HI HT HO HI2 n) as (m & Hm & H). exists m. split; auto.
  destruct H as [H|H]; [left; eapply taken_prefix; eauto|right; eapply over_or_stop; eauto].
Qed.
Print Assumptions C78_control.
(** Every request of the control thread to the shell thread is eventually answered: again and again all
    of them have been ([rounds]). *)
Theorem C78_answered : forall U v (E : env U) k start sigma lab,
  execution v (fun c w => dispatch E w c) (dispatch_internal E) sigma lab -> sigma 0 = y_init k start ->
  fair v (fun c w => dispatch E w c) (dispatch_internal E) sigma lab TShell ->
  fair v (fun c w => dispatch E w c) (dispatch_internal E) sigma lab TControl ->
  (forall n, ~ calls_itself (sigma n)) -> gets_input SHELL sigma -> gets_input CONTROL sigma -> keeps_off lab ->
  forall n, exists m, n <= m /\ (rounds (sync (seen lab m)) \/ y_end (sigma m) = Some Crashed).
Proof.
  intros U v E k start sigma lab Hex H0 HS HT HC HI HI2 HO n.
  destruct (rounds_complete v E k start sigma lab Hex H0 HS HC HI HT HO HI2 n) as (m & Hm & H). exists m. split; auto.
  destruct H as [H|H]; auto. destruct (over_why v E k start sigma lab Hex H0 m H) as [X|X]; auto. left.
  apply (settled v E k start sigma lab Hex H0 HC). destruct (y_ct (sigma m)); auto; destruct X.
Qed.
Print Assumptions C78_answered.
Example C78_ex : forall v, let sigma := split_path v live_choices in let lab := split_lab v live_choices in
  fair_hyps v sigma lab /\ (forall n, ~ calls_itself (sigma n)) /\ gets_input SHELL sigma /\ gets_input CONTROL sigma /\ keeps_off lab /\
  came SHELL (seen lab 5) = [exec1; exec2] /\ taken SHELL (seen lab 5) = [] /\ came CONTROL (seen lab 5) = [debug; info] /\ taken CONTROL (seen lab 5) = [] /\
  (exists n w, sync (seen lab n) = [YCall CONTROL w]) /\
  (forall n, y_end (sigma n) = None /\ ~ asked_stop (seen lab n)).
Proof.
  intros v. cbv zeta. assert (HF : fair_hyps v (split_path v live_choices) (split_lab v live_choices)) by (apply split_fair; destruct v; vm_compute; reflexivity).
  split; [exact HF|]. split; [apply split_calls; destruct v; vm_compute; reflexivity|].
  split; [apply split_input; destruct v; vm_compute; reflexivity|]. split; [apply split_input; destruct v; vm_compute; reflexivity|].
  split; [apply split_off; destruct v; vm_compute; reflexivity|]. unfold split_lab at 1 2 3 4. rewrite !plab_labels.
  split; [destruct v; vm_compute; reflexivity|]. split; [destruct v; vm_compute; reflexivity|]. split; [destruct v; vm_compute; reflexivity|]. split; [destruct v; vm_compute; reflexivity|].
  split; [exists 100, ["""stop"""]; unfold split_lab; rewrite plab_labels; destruct v; vm_compute; reflexivity|].
  intros n. pose proof (path_all v slisten sintern (fun s => match y_end s with None => negb (m_stop (y_mem s)) | _ => false end) live_choices (y_init demo_start ["start"]) ltac:(destruct v; vm_compute; reflexivity) n) as H.
  cbv beta in H. fold (split_path v live_choices) in H. destruct (y_end (split_path v live_choices n)); [discriminate|]. split; auto.
  intros X. destruct HF as (A & B & _). apply (proj1 (stop_at v sdemo demo_start ["start"] _ _ A B n)) in X. rewrite X in H. discriminate.
Qed.
(** Without the conditions a message can wait for ever: the shell thread asks itself, it waits for an
    input that does not come, or the control thread has emptied the shell socket and then asks the shell
    thread, which waits for a shell message. *)
Theorem C78_self_call_refuted : forall v, exists U (E : env U) k start sigma lab,
  execution v (fun c w => dispatch E w c) (dispatch_internal E) sigma lab /\ sigma 0 = y_init k start /\
  (forall t, t <> TEnv -> fair v (fun c w => dispatch E w c) (dispatch_internal E) sigma lab t) /\ gets_input SHELL sigma /\ gets_input CONTROL sigma /\ keeps_off lab /\
  exists n, forall m, n <= m -> came SHELL (seen lab m) = [debug; exec1] /\ taken SHELL (seen lab m) = [debug] /\ y_end (sigma m) = None /\ ~ asked_stop (seen lab m).
Proof.
  intros v. destruct (split_fair v self_live) as (A & B & C); [destruct v; vm_compute; reflexivity|].
  exists U0, sdemo, demo_start, ["start"], (split_path v self_live), (split_lab v self_live). split; [exact A|]. split; [exact B|]. split; [exact C|].
  split; [apply split_input; destruct v; vm_compute; reflexivity|]. split; [apply split_input; destruct v; vm_compute; reflexivity|].
  split; [apply split_off; destruct v; vm_compute; reflexivity|].
  exists (List.length self_live). intros m Hm. unfold split_lab, split_path. rewrite plab_labels, path_end, firstn_all2 by exact Hm.
  split; [destruct v; vm_compute; reflexivity|]. split; [destruct v; vm_compute; reflexivity|]. split; [destruct v; vm_compute; reflexivity|].
  intros [c X]. destruct v; vm_compute in X; intuition discriminate.
Qed.
Print Assumptions C78_self_call_refuted.
Theorem C78_input_refuted : forall v, exists U (E : env U) k start sigma lab,
  execution v (fun c w => dispatch E w c) (dispatch_internal E) sigma lab /\ sigma 0 = y_init k start /\
  (forall t, t <> TEnv -> fair v (fun c w => dispatch E w c) (dispatch_internal E) sigma lab t) /\ (forall n, ~ calls_itself (sigma n)) /\ gets_input CONTROL sigma /\ keeps_off lab /\
  exists n, forall m, n <= m -> came SHELL (seen lab m) = [ask; exec1] /\ taken SHELL (seen lab m) = [ask] /\ y_end (sigma m) = None /\ ~ asked_stop (seen lab m).
Proof.
  intros v. destruct (split_fair v input_live) as (A & B & C); [destruct v; vm_compute; reflexivity|].
  exists U0, sdemo, demo_start, ["start"], (split_path v input_live), (split_lab v input_live). split; [exact A|]. split; [exact B|]. split; [exact C|].
  split; [apply split_calls; destruct v; vm_compute; reflexivity|]. split; [apply split_input; destruct v; vm_compute; reflexivity|].
  split; [apply split_off; destruct v; vm_compute; reflexivity|].
  exists (List.length input_live). intros m Hm. unfold split_lab, split_path. rewrite plab_labels, path_end, firstn_all2 by exact Hm.
  split; [destruct v; vm_compute; reflexivity|]. split; [destruct v; vm_compute; reflexivity|]. split; [destruct v; vm_compute; reflexivity|].
  intros [c X]. destruct v; vm_compute in X; intuition discriminate.
Qed.
Print Assumptions C78_input_refuted.
Theorem C78_control_refuted : forall v, exists U (E : env U) k start sigma lab,
  execution v (fun c w => dispatch E w c) (dispatch_internal E) sigma lab /\ sigma 0 = y_init k start /\
  (forall t, t <> TEnv -> fair v (fun c w => dispatch E w c) (dispatch_internal E) sigma lab t) /\ (forall n, ~ calls_itself (sigma n)) /\ gets_input SHELL sigma /\ gets_input CONTROL sigma /\
  exists n w, forall m, n <= m -> came CONTROL (seen lab m) = [failing_cell; debug; info] /\ taken CONTROL (seen lab m) = [failing_cell; debug] /\
    sync (seen lab m) = [YCall CONTROL w] /\ y_end (sigma m) = None /\ ~ asked_stop (seen lab m).
Proof.
  intros v. destruct (split_fair v theft_live) as (A & B & C); [destruct v; vm_compute; reflexivity|].
  exists U0, sdemo, demo_start, ["start"], (split_path v theft_live), (split_lab v theft_live). split; [exact A|]. split; [exact B|]. split; [exact C|].
  split; [apply split_calls; destruct v; vm_compute; reflexivity|].
  split; [apply split_input; destruct v; vm_compute; reflexivity|]. split; [apply split_input; destruct v; vm_compute; reflexivity|].
  exists (List.length theft_live), ["""stop"""]. intros m Hm. unfold split_lab, split_path. rewrite plab_labels, path_end, firstn_all2 by exact Hm.
  split; [destruct v; vm_compute; reflexivity|]. split; [destruct v; vm_compute; reflexivity|]. split; [destruct v; vm_compute; reflexivity|]. split; [destruct v; vm_compute; reflexivity|].
  intros [c X]. destruct v; vm_compute in X; intuition discriminate.
Qed.
Print Assumptions C78_control_refuted.

(** C79. Everything published by either thread is eventually sent by the publisher and every heartbeat
    is eventually returned, whatever the shell and control threads do, unless the control thread tells
    the forwarding thread to stop or a listener throws out of its thread. *)
Theorem C79_published : forall U v (E : env U) k start sigma lab,
  execution v (fun c w => dispatch E w c) (dispatch_internal E) sigma lab -> sigma 0 = y_init k start ->
  fair v (fun c w => dispatch E w c) (dispatch_internal E) sigma lab TPub ->
  forall n, exists m, n <= m /\
    (prefix (start :: sent_out (seen lab n)) (f_out (m_pub (y_mem (sigma m)))) \/ y_end (sigma m) = Some Crashed \/ told_publisher (sigma m)).
Proof.
  intros U v E k start sigma lab Hex H0 HF n.
  destruct (forwarded v E k start sigma lab Hex H0 true n HF) as (m & Hm & H). exists m. split; auto. destruct H as [H|[H|H]]; auto.
  - left. rewrite <- (fw_all v E k start sigma lab Hex H0 true n). eapply prefix_of; [apply (all_prefix v E k start sigma lab Hex H0 true n m Hm)|apply out_prefix|exact H].
  - right. unfold over in H. destruct (y_end (sigma m)) as [[|]|] eqn:He; auto; [|now destruct H]. right. unfold told_publisher.
    destruct (run_sinv v E _ _ _ _ (obs_run v E k start sigma lab Hex H0 m)) as (_ & _ & _ & _ & X). specialize (X He). destruct (y_ct (sigma m)); try discriminate; exact I.
Qed.
Print Assumptions C79_published.
Theorem C79_beats : forall U v (E : env U) k start sigma lab,
  execution v (fun c w => dispatch E w c) (dispatch_internal E) sigma lab -> sigma 0 = y_init k start ->
  fair v (fun c w => dispatch E w c) (dispatch_internal E) sigma lab TBeat ->
  forall n, exists m, n <= m /\
    (prefix (pulses (seen lab n)) (f_out (m_hb (y_mem (sigma m)))) \/ y_end (sigma m) = Some Crashed \/ told_heartbeat (sigma m)).
Proof.
  intros U v E k start sigma lab Hex H0 HF n.
  destruct (forwarded v E k start sigma lab Hex H0 false n HF) as (m & Hm & H). exists m. split; auto. destruct H as [H|[H|H]]; auto.
  - left. rewrite <- (fw_all v E k start sigma lab Hex H0 false n). eapply prefix_of; [apply (all_prefix v E k start sigma lab Hex H0 false n m Hm)|apply out_prefix|exact H].
  - right. unfold over in H. destruct (y_end (sigma m)) as [[|]|] eqn:He; auto; [|now destruct H]. right. unfold told_heartbeat.
    destruct (run_sinv v E _ _ _ _ (obs_run v E k start sigma lab Hex H0 m)) as (_ & _ & _ & _ & X). specialize (X He). destruct (y_ct (sigma m)); try discriminate; exact I.
Qed.
Print Assumptions C79_beats.
(** In the execution of C78 the publisher and the heartbeat thread have something to do and are not told
    to stop. *)
Example C79_ex : forall v, let sigma := split_path v live_choices in let lab := split_lab v live_choices in
  fair_hyps v sigma lab /\ pulses (seen lab 5) = [["hb"; "1"]] /\ f_out (m_hb (y_mem (sigma 5))) = [] /\
  List.length (sent_out (seen lab 40)) = 2 /\ f_out (m_pub (y_mem (sigma 40))) = [["start"]] /\
  (forall n, y_end (sigma n) = None /\ ~ told_publisher (sigma n) /\ ~ told_heartbeat (sigma n)).
Proof.
  intros v. cbv zeta. split; [apply split_fair; destruct v; vm_compute; reflexivity|].
  unfold split_lab. rewrite !plab_labels.
  split; [destruct v; vm_compute; reflexivity|]. split; [destruct v; vm_compute; reflexivity|].
  split; [destruct v; vm_compute; reflexivity|]. split; [destruct v; vm_compute; reflexivity|].
  intros n. pose proof (path_all v slisten sintern (fun s => match y_end s, y_ct s with None, (CTest | CRecv | CRun _) => true | _, _ => false end) live_choices (y_init demo_start ["start"]) ltac:(destruct v; vm_compute; reflexivity) n) as H.
  cbv beta in H. fold (split_path v live_choices) in H. unfold told_publisher, told_heartbeat. destruct (y_end (split_path v live_choices n)); [discriminate|]. split; auto.
  destruct (y_ct (split_path v live_choices n)); try discriminate; auto.
Qed.

(** C80. Once the control thread has asked the server to stop (the handling of a shutdown request on the
    control socket) the process exits with all threads finished, or a listener throws out of its
    thread. *)
Theorem C80_stop : forall U v (E : env U) k start sigma lab,
  execution v (fun c w => dispatch E w c) (dispatch_internal E) sigma lab -> sigma 0 = y_init k start ->
  (forall t, t <> TEnv -> fair v (fun c w => dispatch E w c) (dispatch_internal E) sigma lab t) ->
  (forall n, ~ calls_itself (sigma n)) -> gets_input SHELL sigma -> gets_input CONTROL sigma -> keeps_off lab ->
  forall n, In (YEvent CONTROL EStop) (seen lab n) -> exists m, n <= m /\ (y_end (sigma m) = Some Crashed \/ all_stopped (sigma m)).
Proof.
  intros U v E k start sigma lab Hex H0 HF HC HI HI2 HO n Hn.
  apply (stop_ends v E k start sigma lab Hex H0 (HF TShell ltac:(discriminate)) HC HI (HF TControl ltac:(discriminate)) HO HI2 (HF TPub ltac:(discriminate)) (HF TBeat ltac:(discriminate))); auto.
  exists CONTROL. exact Hn.
Qed.
Print Assumptions C80_stop.
(** When the shell thread has asked, the process ends after the next control message. *)
Theorem C80_stop_shell : forall U v (E : env U) k start sigma lab,
  execution v (fun c w => dispatch E w c) (dispatch_internal E) sigma lab -> sigma 0 = y_init k start ->
  (forall t, t <> TEnv -> fair v (fun c w => dispatch E w c) (dispatch_internal E) sigma lab t) ->
  (forall n, ~ calls_itself (sigma n)) -> gets_input SHELL sigma -> gets_input CONTROL sigma -> keeps_off lab ->
  forall n i w, In (YEvent SHELL EStop) (seen lab n) -> n <= i -> lab i = Some (YArrive CONTROL w) ->
    exists m, n <= m /\ (y_end (sigma m) = Some Crashed \/ all_stopped (sigma m)).
Proof.
  intros U v E k start sigma lab Hex H0 HF HC HI HI2 HO n i w Hn Hi Hl.
  apply (stop_ends v E k start sigma lab Hex H0 (HF TShell ltac:(discriminate)) HC HI (HF TControl ltac:(discriminate)) HO HI2 (HF TPub ltac:(discriminate)) (HF TBeat ltac:(discriminate))); eauto.
  exists SHELL. exact Hn.
Qed.
Print Assumptions C80_stop_shell.
Example C80_ex : forall v, let sigma := split_path v stop_live in let lab := split_lab v stop_live in
  fair_hyps v sigma lab /\ (forall n, ~ calls_itself (sigma n)) /\ gets_input SHELL sigma /\ gets_input CONTROL sigma /\ keeps_off lab /\
  In (YEvent CONTROL EStop) (seen lab 100) /\ y_end (sigma 100) = None.
Proof.
  intros v. cbv zeta. split; [apply split_fair; destruct v; vm_compute; reflexivity|]. split; [apply split_calls; destruct v; vm_compute; reflexivity|].
  split; [apply split_input; destruct v; vm_compute; reflexivity|]. split; [apply split_input; destruct v; vm_compute; reflexivity|].
  split; [apply split_off; destruct v; vm_compute; reflexivity|]. unfold split_lab. rewrite plab_labels.
  split; [|destruct v; vm_compute; reflexivity]. apply stop_in. destruct v; vm_compute; reflexivity.
Qed.
Example C80_shell_ex : forall v, let sigma := split_path v shell_stop_then in let lab := split_lab v shell_stop_then in let n := List.length shell_stop_live in
  fair_hyps v sigma lab /\ (forall n, ~ calls_itself (sigma n)) /\ gets_input SHELL sigma /\ gets_input CONTROL sigma /\ keeps_off lab /\
  In (YEvent SHELL EStop) (seen lab n) /\ lab n = Some (YArrive CONTROL info) /\ y_end (sigma n) = None.
Proof.
  intros v. cbv zeta. split; [apply split_fair; destruct v; vm_compute; reflexivity|]. split; [apply split_calls; destruct v; vm_compute; reflexivity|].
  split; [apply split_input; destruct v; vm_compute; reflexivity|]. split; [apply split_input; destruct v; vm_compute; reflexivity|].
  split; [apply split_off; destruct v; vm_compute; reflexivity|]. unfold split_lab at 1. rewrite plab_labels.
  split; [apply stop_in; destruct v; vm_compute; reflexivity|]. split; destruct v; vm_compute; reflexivity.
Qed.
(** Without a control message the process goes on for ever: the control thread waits for one and the
    flag is tested in its loop only. *)
Theorem C80_shell_refuted : forall v, exists U (E : env U) k start sigma lab,
  execution v (fun c w => dispatch E w c) (dispatch_internal E) sigma lab /\ sigma 0 = y_init k start /\
  (forall t, t <> TEnv -> fair v (fun c w => dispatch E w c) (dispatch_internal E) sigma lab t) /\
  (forall n, ~ calls_itself (sigma n)) /\ gets_input SHELL sigma /\ gets_input CONTROL sigma /\ keeps_off lab /\
  exists n, In (YEvent SHELL EStop) (seen lab n) /\ forall m, n <= m -> y_end (sigma m) = None /\ y_sh (sigma m) = SPoll /\ y_ct (sigma m) = CRecv.
Proof.
  intros v. destruct (split_fair v shell_stop_live) as (A & B & C); [destruct v; vm_compute; reflexivity|].
  exists U0, sdemo, demo_start, ["start"], (split_path v shell_stop_live), (split_lab v shell_stop_live). split; [exact A|]. split; [exact B|]. split; [exact C|].
  split; [apply split_calls; destruct v; vm_compute; reflexivity|].
  split; [apply split_input; destruct v; vm_compute; reflexivity|]. split; [apply split_input; destruct v; vm_compute; reflexivity|].
  split; [apply split_off; destruct v; vm_compute; reflexivity|]. exists (List.length shell_stop_live). split.
  - unfold split_lab. rewrite plab_labels. apply stop_in. destruct v; vm_compute; reflexivity.
  - intros m Hm. unfold split_path. rewrite path_end by exact Hm. split; [destruct v; vm_compute; reflexivity|]. split; destruct v; vm_compute; reflexivity.
Qed.
Print Assumptions C80_shell_refuted.
