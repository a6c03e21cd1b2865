(** Data races in the split servers: C85. *)
From Verif Require Import Base BaseFacts Json JsonText Auth Message WireLemmas History Comm Tree Kernel KernelSpec KernelDemo Server Split SplitSpec ServerExec ServerDemo SplitRaceSpec SplitRace.

(** C85. Every message arrives on the channel it is meant for, and the user's code in the control thread
    is discreet. Then each thread uses only its own objects, except for the flag [m_control_stopped] and the
    object of [std::gmtime]. *)
Theorem C85_owned : forall U v (E : env U) k start, e_split E = true -> forall c ls s p x,
  yrun v (fun c w => dispatch E w c) (dispatch_internal E) (y_init k start) ls s ->
  (forall c w, In (YArrive c w) ls -> well_placed E c w) ->
  In (p, x) (uses v c s) -> (home p = Some c \/ p = PCalendar) \/ (p = PStopped /\ v = ShellMain /\ c = SHELL) \/ (p = PStopped /\ c = CONTROL).
Proof. intros U v E k start Hs. exact (uses_home v E k start Hs). Qed.
Print Assumptions C85_owned.
(** C85. So there is no data race between the threads, except for [std::gmtime] and for this flag in the
    shell main server. *)
Theorem C85_no_race : forall U v (E : env U) k start, e_split E = true -> forall ls s p,
  yrun v (fun c w => dispatch E w c) (dispatch_internal E) (y_init k start) ls s ->
  (forall c w, In (YArrive c w) ls -> well_placed E c w) ->
  race v s p -> p = PCalendar \/ (p = PStopped /\ v = ShellMain).
Proof. intros U v E k start Hs. exact (no_race v E k start Hs). Qed.
Print Assumptions C85_no_race.

(** The demonstration server. *)
Definition arrivals (ls : list slabel) : list (channel * frames) := flat_map (fun l => match l with YArrive c w => [(c, w)] | _ => [] end) ls.
Lemma in_arrivals c w ls : In (YArrive c w) ls -> In (c, w) (arrivals ls).
Proof. intros H. apply in_flat_map. exists (YArrive c w). split; [exact H|now left]. Qed.
Lemma arrivals_placed ls : arrivals ls = [(CONTROL, shutdown); (SHELL, exec1)] -> forall c w, In (YArrive c w) ls -> well_placed sdemo c w.
Proof.
  intros X c w H. apply in_arrivals in H. rewrite X in H. clear X. destruct H as [[= <- <-]|[[= <- <-]|[]]].
  - intros m ty Hm Hty. assert (Hm' : accepted sdemo shutdown (request_msg ["peer"] "shutdown_request" (jobj [("restart", JBool false)]))) by (vm_compute; reflexivity).
    unfold accepted in *. rewrite Hm' in Hm. injection Hm as <-. destruct Hty as (l & Hl & Hty). injection Hl as <-. cbn in Hty. injection Hty as <-.
    apply pl_shutdown. exact I.
  - intros m ty Hm Hty. assert (Hm' : accepted sdemo exec1 (execute "1" [])) by (vm_compute; reflexivity).
    unfold accepted in *. rewrite Hm' in Hm. injection Hm as <-. destruct Hty as (l & Hl & Hty). injection Hl as <-. cbn in Hty. injection Hty as <-.
    apply pl_shell. cbn. intuition discriminate.
Qed.
(** A run that meets the hypotheses: a cell is executed and the kernel is shut down at the same time. The
    threads use objects in it. *)
Example C85_ex : forall v, let r := split_run v until_stop in
  e_split sdemo = true /\ yrun v slisten sintern (y_init demo_start ["start"]) (fst r) (snd r) /\
  (forall c w, In (YArrive c w) (fst r) -> well_placed sdemo c w) /\
  uses v SHELL (snd r) = [(PShell, true); (PShellCtl, true)] /\ uses v CONTROL (snd r) = [(PMsgShell, true)].
Proof. intros v. cbv zeta. split; [reflexivity|]. split; [apply split_run_ok|]. split; [apply arrivals_placed; destruct v; vm_compute; reflexivity|]. destruct v; vm_compute; auto. Qed.
Lemma race_one U v (s : ysys U) p a b x y : y_end s = None -> uses v SHELL s = (a ++ (p, x) :: b)%list -> uses v CONTROL s = [(p, y)] -> x || y = true -> race v s p.
Proof.
  intros H0 H1 H2 H. split; [exact H0|]. exists x, y. rewrite H1, H2. split; [apply in_or_app; right; now left|]. split; [now left|]. now apply orb_true_iff.
Qed.
(** The first exception: both threads make a header at the same time, here those of their busy messages.
    The dates of the two headers are made in the one object of [std::gmtime] (see C95). *)
Definition date_choices : list (ychoice * nat) := [(YIn CONTROL shutdown, 1); (YIn SHELL exec1, 1); (YGo TShell, 5); (YGo TControl, 5)].
Theorem C85_date_refuted : forall v, exists ls s,
  yrun v (fun c w => dispatch sdemo w c) (dispatch_internal sdemo) (y_init demo_start ["start"]) ls s /\
  (forall c w, In (YArrive c w) ls -> well_placed sdemo c w) /\ race v s PCalendar.
Proof.
  intros v. exists (fst (split_run v date_choices)), (snd (split_run v date_choices)). split; [apply split_run_ok|]. split.
  - apply arrivals_placed. destruct v; vm_compute; reflexivity.
  - apply (race_one _ _ _ _ [] [] true true); destruct v; vm_compute; reflexivity.
Qed.
Print Assumptions C85_date_refuted.
(** The second exception: at the end of the shell main server, the main thread reads the flag while the control
    thread writes it. *)
Definition stop_choices_race : list (ychoice * nat) :=
  until_stop ++ [(YGo TShell, 100); (YGo TControl, 1); (YGo TShell, 3); (YGo TControl, 2); (YGo TPub, 9); (YGo TControl, 2); (YGo TBeat, 9); (YGo TControl, 1)].
Theorem C85_stopped_refuted : exists ls s,
  yrun ShellMain (fun c w => dispatch sdemo w c) (dispatch_internal sdemo) (y_init demo_start ["start"]) ls s /\
  (forall c w, In (YArrive c w) ls -> well_placed sdemo c w) /\ race ShellMain s PStopped.
Proof.
  exists (fst (split_run ShellMain stop_choices_race)), (snd (split_run ShellMain stop_choices_race)). split; [apply split_run_ok|]. split.
  - apply arrivals_placed. vm_compute. reflexivity.
  - apply (race_one _ _ _ _ [] [] false true); vm_compute; reflexivity.
Qed.
Print Assumptions C85_stopped_refuted.
(** Without its hypotheses C85 is false. A shutdown request on the shell channel: [xcontrol::stop] is
    called in the shell thread while the control thread tests [m_request_stop]. *)
Theorem C85_shell_shutdown_refuted : forall v, exists ls s,
  yrun v (fun c w => dispatch sdemo w c) (dispatch_internal sdemo) (y_init demo_start ["start"]) ls s /\ race v s PRequestStop.
Proof.
  intros v. exists (fst (split_run v [(YIn SHELL shutdown, 1); (YGo TShell, 9)])), (snd (split_run v [(YIn SHELL shutdown, 1); (YGo TShell, 9)])).
  split; [apply split_run_ok|]. apply (race_one _ _ _ _ [] [] true false); destruct v; vm_compute; reflexivity.
Qed.
Print Assumptions C85_shell_shutdown_refuted.
(** An execution request on the control channel: [abort_queue] receives from the shell socket while the
    shell thread polls it. *)
Theorem C85_control_execute_refuted : forall v, exists ls s,
  yrun v (fun c w => dispatch sdemo w c) (dispatch_internal sdemo) (y_init demo_start ["start"]) ls s /\ race v s PShell.
Proof.
  intros v. exists (fst (split_run v [(YIn CONTROL failing_cell, 1); (YGo TControl, 30)])), (snd (split_run v [(YIn CONTROL failing_cell, 1); (YGo TControl, 30)])).
  split; [apply split_run_ok|]. apply (race_one _ _ _ _ [] [(PShellCtl, true)] true true); destruct v; vm_compute; reflexivity.
Qed.
Print Assumptions C85_control_execute_refuted.
(** An interpreter that prints something when it is shut down, as [publish_stream] lets it: the control
    thread sends through the socket of the shell thread while this thread sends through it. All
    messages are on the right channel. *)
Definition talker : env U0 := {|
  e_crypto := toy; e_auth := toy_auth; e_eh := EStrict; e_kernel_id := "k1"; e_user_name := "user"; e_session_id := "s1";
  e_guid := ticks; e_now := fun _ => "2024-01-01T00:00:00Z"; e_stdin := stdin_msg; e_logger := fun _ => Ok tt;
  e_regex := fun _ => Ok (fun _ => false); e_indet := IndetVal (fun _ => false); e_long_id := fun s => Ok s;
  e_configure := Ret tt; e_interp := fun r => match r with RShutdown => fin (act (AStream "stdout" "bye") (Ret tt)) ok_reply_json | _ => demo_interp r end;
  e_split := true; e_debugger := None; e_callback := demo_callback; e_handler := demo_handler; e_input := fun _ _ => Ret tt |}.
Definition talks v cs := yexec v (fun c w => dispatch talker w c) (dispatch_internal talker) cs [] (y_init demo_start ["start"]).
Lemma talks_ok v cs : yrun v (fun c w => dispatch talker w c) (dispatch_internal talker) (y_init demo_start ["start"]) (fst (talks v cs)) (snd (talks v cs)).
Proof. apply yexec_run. Qed.
Definition talk_choices : list (ychoice * nat) := [(YIn SHELL exec1, 1); (YGo TShell, 7); (YIn CONTROL shutdown, 1); (YGo TControl, 12)].
Theorem C85_output_refuted : forall v, exists ls s,
  yrun v (fun c w => dispatch talker w c) (dispatch_internal talker) (y_init demo_start ["start"]) ls s /\
  arrivals ls = [(SHELL, exec1); (CONTROL, shutdown)] /\ race v s (PPub SHELL).
Proof.
  intros v. exists (fst (talks v talk_choices)), (snd (talks v talk_choices)). split; [apply talks_ok|]. split; [destruct v; vm_compute; reflexivity|].
  apply (race_one _ _ _ _ [] [] true true); destruct v; vm_compute; reflexivity.
Qed.
Print Assumptions C85_output_refuted.
