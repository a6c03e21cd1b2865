(** Liveness of the default server: C74-C76. An execution is infinite, possibly idle from some moment
    on; see LiveSpec.v. [just a]: the thread [a] does not stay able to move without moving. *)
From Verif Require Import Base BaseFacts Json JsonText Auth Message WireSpec History Comm Tree Kernel KernelSpec KernelRun KernelDemo
  Server ServerSpec ServerProofs ServerExec ServerLemmas ServerDemo LiveSpec Live LiveDemo.

(** C74. Once [xserver::stop] was called the process exits with its threads finished, or a listener
    throws out of the main thread, provided that the main thread does not wait for standard input for
    ever. *)
Theorem C74_stop : forall U (E : env U) k start sigma lab, e_split E = false ->
  executes (acts (fun c w => dispatch E w c)) sigma lab -> sigma 0 = d_init k start ->
  just (acts (fun c w => dispatch E w c)) sigma lab AMain -> just (acts (fun c w => dispatch E w c)) sigma lab APublisher ->
  just (acts (fun c w => dispatch E w c)) sigma lab AHeartbeat ->
  (forall n, exists m, n <= m /\ ~ waits_input (sigma m)) ->
  forall n, In StopRequest (observed lab n) -> exists m, n <= m /\ (d_pc (sigma m) = MCrash \/ ended (sigma m)).
Proof.
  intros U E k start sigma lab Hs Hex H0 HM HP HB HI n Hn.
  assert (Hown : forall c w, always own ((fun c w => dispatch E w c) c w)) by (intros c w; now apply own_dispatch).
  apply (proj1 (stop_at _ k start sigma lab Hex H0 n)) in Hn.
  destruct (ends _ Hown k start sigma lab Hex H0 HM HI HP HB n Hn) as (m & Hm & Ho). exists m. split; auto.
  eapply over_ended; eauto.
Qed.
Print Assumptions C74_stop.
Example C74_ex : e_split demo = false /\ live_hyps (default_path stop_choices) (default_lab stop_choices) /\
  In StopRequest (observed (default_lab stop_choices) 40) /\ d_pc (default_path stop_choices 40) <> MExit /\ ended (default_path stop_choices 900).
Proof.
  split; [reflexivity|]. split; [apply default_live; vm_compute; reflexivity|]. unfold default_lab. rewrite dlab_labels. split; [vm_compute; auto 50|]. split; [vm_compute; discriminate|]. vm_compute. auto.
Qed.
(** A cell that waits for an input that does not come keeps the server from stopping, the shutdown
    request being left on the control socket. *)
Definition input_choices : list (choice * nat) :=
  [(GArrive SHELL ask, 1); (GMain, 100); (GArrive CONTROL shutdown, 1); (GMain, 10); (GPub, 100); (GHb, 10)].
Theorem C74_input_refuted : exists U (E : env U) k start sigma lab, e_split E = false /\
  executes (acts (fun c w => dispatch E w c)) sigma lab /\ sigma 0 = d_init k start /\
  just (acts (fun c w => dispatch E w c)) sigma lab AMain /\ just (acts (fun c w => dispatch E w c)) sigma lab APublisher /\
  just (acts (fun c w => dispatch E w c)) sigma lab AHeartbeat /\
  exists n, arrived CONTROL (observed lab n) = [shutdown] /\ forall m, n <= m -> waits_input (sigma m) /\ control_taken (observed lab m) = [] /\ ~ In StopRequest (observed lab m).
Proof.
  exists U0, demo, demo_start, ["start"], (default_path input_choices), (default_lab input_choices).
  split; [reflexivity|]. split; [apply dpath_executes|]. split; [reflexivity|].
  split; [eapply dpath_just; [reflexivity|vm_compute; reflexivity]|]. split; [eapply dpath_just; [reflexivity|vm_compute; reflexivity]|].
  split; [eapply dpath_just; [reflexivity|vm_compute; reflexivity]|].
  exists (List.length (expand input_choices)). unfold default_path, default_lab. split; [rewrite dlab_labels; vm_compute; reflexivity|]. intros m Hm. rewrite dpath_end, dlab_end, dlab_labels by exact Hm.
  split; [vm_compute; apply le_n|]. split; [vm_compute; reflexivity|]. vm_compute. intuition discriminate.
Qed.
Print Assumptions C74_input_refuted.

(** C75. Every message that arrived on the shell socket is eventually taken from it (given to the
    listener, or answered with an error by the handling of a failing cell), unless the process ends. *)
Theorem C75_shell : forall U (E : env U) k start sigma lab, e_split E = false ->
  executes (acts (fun c w => dispatch E w c)) sigma lab -> sigma 0 = d_init k start ->
  just (acts (fun c w => dispatch E w c)) sigma lab AMain -> (forall n, exists m, n <= m /\ ~ waits_input (sigma m)) ->
  forall n, exists m, n <= m /\
    (prefix (arrived SHELL (observed lab n)) (shell_taken (observed lab m)) \/ d_pc (sigma m) = MCrash \/ In StopRequest (observed lab m)).
Proof.
  intros U E k start sigma lab Hs Hex H0 HM HI n.
  assert (Hown : forall c w, always own ((fun c w => dispatch E w c) c w)) by (intros c w; now apply own_dispatch).
  destruct (all_taken _ Hown k start sigma lab Hex H0 HM HI SHELL n) as (m & Hm & H); [discriminate|].
  exists m. split; auto. destruct H as [H|[H|H]]; auto.
  - left. eapply taken_prefix; eauto.
  - right. right. now apply (proj1 (stop_at _ k start sigma lab Hex H0 m)).
Qed.
Print Assumptions C75_shell.
(** The same for the control socket if the handling of control messages does not empty the shell
    socket. *)
Theorem C75_control : forall U (E : env U) k start sigma lab, e_split E = false ->
  executes (acts (fun c w => dispatch E w c)) sigma lab -> sigma 0 = d_init k start ->
  just (acts (fun c w => dispatch E w c)) sigma lab AMain -> (forall n, exists m, n <= m /\ ~ waits_input (sigma m)) ->
  (forall n w, controlling (d_pc (sigma n)) -> lab n <> Some (AMain, Took w)) ->
  forall n, exists m, n <= m /\
    (prefix (arrived CONTROL (observed lab n)) (control_taken (observed lab m)) \/ d_pc (sigma m) = MCrash \/ In StopRequest (observed lab m)).
Proof.
  intros U E k start sigma lab Hs Hex H0 HM HI HT n.
  assert (Hown : forall c w, always own ((fun c w => dispatch E w c) c w)) by (intros c w; now apply own_dispatch).
  destruct (all_taken _ Hown k start sigma lab Hex H0 HM HI CONTROL n) as (m & Hm & H).
  { intros _ i Hi. eapply recv_at; eauto. rewrite Hi. exact I. }
  exists m. split; auto. destruct H as [H|[H|H]]; auto.
  - left. eapply taken_prefix; eauto.
  - right. right. now apply (proj1 (stop_at _ k start sigma lab Hex H0 m)).
Qed.
Print Assumptions C75_control.
Example C75_ex : live_hyps (default_path busy_choices) (default_lab busy_choices) /\
  (forall n w, controlling (d_pc (default_path busy_choices n)) -> default_lab busy_choices n <> Some (AMain, Took w)) /\
  arrived SHELL (observed (default_lab busy_choices) 4) = [exec1; exec2] /\ shell_taken (observed (default_lab busy_choices) 4) = [] /\
  arrived CONTROL (observed (default_lab busy_choices) 4) = [info] /\ control_taken (observed (default_lab busy_choices) 4) = [] /\
  (forall n, d_pc (default_path busy_choices n) <> MCrash /\ ~ In StopRequest (observed (default_lab busy_choices) n)).
Proof.
  split; [apply default_live; vm_compute; reflexivity|]. split.
  { intros n w Hc Hl. pose proof (dpath_all default_listener (fun s x => negb (steals s x)) (expand busy_choices) (d_init demo_start ["start"]) ltac:(vm_compute; reflexivity) n) as H.
    unfold default_path, default_lab in *. unfold steals in H. rewrite Hl in H. destruct (d_pc (dpath _ _ _ n)); try contradiction. discriminate. }
  unfold default_lab at 1 2 3 4. rewrite !dlab_labels. split; [vm_compute; reflexivity|]. split; [vm_compute; reflexivity|]. split; [vm_compute; reflexivity|]. split; [vm_compute; reflexivity|].
  intros n. pose proof (dpath_all default_listener (fun s _ => match d_pc s with MCrash => false | _ => negb (m_stop (d_mem s)) end) (expand busy_choices) (d_init demo_start ["start"]) ltac:(vm_compute; reflexivity) n) as H.
  cbv beta in H. fold (default_path busy_choices n) in H. split.
  - intros X. rewrite X in H. discriminate.
  - intros X. apply (proj1 (stop_at default_listener demo_start ["start"] (default_path busy_choices) (default_lab busy_choices) (dpath_executes _ _ _) eq_refl n)) in X.
    rewrite X in H. destruct (d_pc (default_path busy_choices n)); discriminate.
Qed.
(** Without that condition a control message can wait for ever: a failing cell on the control socket
    empties the shell socket after the poll announced a message there. *)
Definition starve_choices : list (choice * nat) :=
  [(GArrive CONTROL failing_cell, 1); (GArrive SHELL exec1, 1); (GMain, 500); (GArrive CONTROL info, 1); (GMain, 5); (GPub, 200); (GHb, 50)].
Theorem C75_control_refuted : exists U (E : env U) k start sigma lab, e_split E = false /\
  executes (acts (fun c w => dispatch E w c)) sigma lab /\ sigma 0 = d_init k start /\
  just (acts (fun c w => dispatch E w c)) sigma lab AMain /\ just (acts (fun c w => dispatch E w c)) sigma lab APublisher /\
  just (acts (fun c w => dispatch E w c)) sigma lab AHeartbeat /\ (forall n, exists m, n <= m /\ ~ waits_input (sigma m)) /\
  exists n, forall m, n <= m -> arrived CONTROL (observed lab m) = [failing_cell; info] /\ control_taken (observed lab m) = [failing_cell] /\
    d_pc (sigma m) = MRecvShell /\ ~ In StopRequest (observed lab m).
Proof.
  exists U0, demo, demo_start, ["start"], (default_path starve_choices), (default_lab starve_choices). split; [reflexivity|].
  destruct (default_live starve_choices) as (A & B & C & D & F & G); [vm_compute; reflexivity|vm_compute; reflexivity|].
  repeat (split; [assumption|]). exists (List.length (expand starve_choices)). intros m Hm. unfold default_path, default_lab. rewrite dpath_end, dlab_end, dlab_labels by exact Hm.
  split; [vm_compute; reflexivity|]. split; [vm_compute; reflexivity|]. split; [vm_compute; reflexivity|]. vm_compute. intuition discriminate.
Qed.
Print Assumptions C75_control_refuted.

(** C76. Everything published is eventually sent by the publisher and every heartbeat is eventually
    returned, whatever the other threads do, unless the main thread stops these threads or the process
    ends. *)
Theorem C76_published : forall U (listener : channel -> frames -> kprog U unit) k start sigma lab,
  executes (acts listener) sigma lab -> sigma 0 = d_init k start -> just (acts listener) sigma lab APublisher ->
  forall n, exists m, n <= m /\ (prefix (start :: published (observed lab n)) (f_out (m_pub (d_mem (sigma m)))) \/ closing (d_pc (sigma m))).
Proof.
  intros U listener k start sigma lab Hex H0 HJ n. destruct (forwarded listener k start sigma lab Hex H0 true n HJ) as (m & Hm & [H|H]); exists m; split; auto.
  left. pose proof (fw_all listener k start sigma lab Hex H0 true n) as A. cbn [fw] in A. cbn [fw] in H. rewrite <- A.
  eapply prefix_of; [exact (all_prefix listener k start sigma lab Hex H0 true n m Hm)|apply out_prefix|exact H].
Qed.
Print Assumptions C76_published.
Theorem C76_heartbeat : forall U (listener : channel -> frames -> kprog U unit) k start sigma lab,
  executes (acts listener) sigma lab -> sigma 0 = d_init k start -> just (acts listener) sigma lab AHeartbeat ->
  forall n, exists m, n <= m /\ (prefix (beats (observed lab n)) (f_out (m_hb (d_mem (sigma m)))) \/ closing (d_pc (sigma m))).
Proof.
  intros U listener k start sigma lab Hex H0 HJ n. destruct (forwarded listener k start sigma lab Hex H0 false n HJ) as (m & Hm & [H|H]); exists m; split; auto.
  left. pose proof (fw_all listener k start sigma lab Hex H0 false n) as A. cbn [fw] in A. cbn [fw] in H. rewrite <- A.
  eapply prefix_of; [exact (all_prefix listener k start sigma lab Hex H0 false n m Hm)|apply out_prefix|exact H].
Qed.
Print Assumptions C76_heartbeat.
(** The heartbeat is returned while the main thread waits for an input that does not come. *)
Definition beat_choices : list (choice * nat) :=
  [(GArrive SHELL ask, 1); (GMain, 100); (GBeat ["hb"; "1"], 1); (GPub, 100); (GHb, 10)].
Example C76_ex : let sigma := default_path beat_choices in let lab := default_lab beat_choices in
  executes (acts default_listener) sigma lab /\ sigma 0 = d_init demo_start ["start"] /\
  just (acts default_listener) sigma lab APublisher /\ just (acts default_listener) sigma lab AHeartbeat /\
  waits_input (sigma 102) /\ beats (observed lab 102) = [["hb"; "1"]] /\ List.length (published (observed lab 102)) = 2 /\ (forall n, ~ closing (d_pc (sigma n))) /\
  f_out (m_hb (d_mem (sigma 102))) = [] /\ f_out (m_hb (d_mem (sigma 212))) = [["hb"; "1"]] /\
  List.length (f_out (m_pub (d_mem (sigma 102)))) = 0 /\ List.length (f_out (m_pub (d_mem (sigma 212)))) = 3.
Proof.
  cbv zeta. split; [apply dpath_executes|]. split; [reflexivity|].
  split; [eapply dpath_just; [reflexivity|vm_compute; reflexivity]|]. split; [eapply dpath_just; [reflexivity|vm_compute; reflexivity]|].
  unfold default_lab. rewrite dlab_labels. split; [vm_compute; apply le_n|]. split; [vm_compute; reflexivity|]. split; [vm_compute; reflexivity|]. split.
  { intros n X. pose proof (dpath_all default_listener (fun s _ => match d_pc s with MStop1 | MWait1 | MStop2 | MWait2 | MExit | MCrash => false | _ => true end)
      (expand beat_choices) (d_init demo_start ["start"]) ltac:(vm_compute; reflexivity) n) as H. cbv beta in H. fold (default_path beat_choices n) in H.
    destruct (d_pc (default_path beat_choices n)); cbn in X; try contradiction; discriminate. }
  vm_compute. auto.
Qed.
