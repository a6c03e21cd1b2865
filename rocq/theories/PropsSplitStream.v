(** The split servers over whole runs: C71-C73. *)
From Verif Require Import Base BaseFacts Json JsonText Utf8 Auth Message WireSpec History Comm Tree Kernel KernelSpec KernelProofs KernelRun KernelLemmas KernelSession KernelDemo
  Server ServerSpec ServerProofs ServerExec ServerLemmas Split SplitSpec SplitProofs ServerDemo SequentialSpec SplitStreamSpec SplitStream SplitIds PropsServer PropsSequential.

(** C71. [YHand c w]: thread [c] calls its listener with the frames [w]; [l2]: what is observed until it
    starts something else. Its events during [l2] are an initial part of: the busy status, events that
    are neither a status nor a reply, the reply to [w], the error replies to the messages it took from
    the shell socket, the idle status ([segment], SplitStreamSpec.v), whatever the other threads do. *)
Theorem C71_segment : forall U v (E : env U) raw, user_publishes E raw -> ~ raw "status" ->
  forall k start ls s c w l1 l2, yrun v (fun c w => dispatch E w c) (dispatch_internal E) (y_init k start) ls s ->
  ls = (l1 ++ YHand c w :: l2)%list -> in_same c l2 -> exists ok, segment E c w (tooks c l2) (events c l2) ok.
Proof. exact @thread_segment. Qed.
Print Assumptions C71_segment.
(** Complete when the thread starts something else. *)
Theorem C71_complete : forall U v (E : env U) raw, user_publishes E raw -> ~ raw "status" ->
  forall k start ls s c w l l1 l2 l3, yrun v (fun c w => dispatch E w c) (dispatch_internal E) (y_init k start) ls s ->
  ls = (l1 ++ YHand c w :: l2 ++ l :: l3)%list -> in_same c l2 -> starts c l -> segment E c w (tooks c l2) (events c l2) true.
Proof. exact @thread_ended. Qed.
Print Assumptions C71_complete.
(** Nothing outside: no status and no reply while the shell thread answers an internal request, nothing
    before the first message. *)
Theorem C71_outside : forall U v (E : env U) raw, user_publishes E raw -> ~ raw "status" ->
  forall k start ls s, yrun v (fun c w => dispatch E w c) (dispatch_internal E) (y_init k start) ls s ->
  (forall w l1 l2, ls = (l1 ++ YIntern w :: l2)%list -> in_same SHELL l2 -> tooks SHELL l2 = [] /\ Forall (aside E) (events SHELL l2)) /\
  (forall c, in_same c ls -> tooks c ls = [] /\ events c ls = []).
Proof.
  intros U v E raw HU Hraw k start ls s H. split; intros.
  - eapply (thread_internal v E raw HU Hraw); eauto.
  - eapply (thread_before v E raw HU Hraw); eauto.
Qed.
Print Assumptions C71_outside.

Lemma sdemo_publishes (raw : string -> Prop) : (forall ty, In ty ["error"; "stream"; "execute_result"; "comm_msg"] -> raw ty) -> user_publishes sdemo raw.
Proof.
  intros H. destruct (demo_publishes raw H) as [A B C D F G]. constructor; auto; try exact I. cbn. intros _ _. split; [exact I|]. intros [j|e]; exact I.
Qed.
(** A failing cell and two messages it aborts, with a request on the control channel meanwhile. *)
Definition crossing : list (ychoice * nat) :=
  [(YIn SHELL failing_cell, 1); (YIn SHELL exec1, 1); (YIn SHELL info, 1); (YIn CONTROL debug, 1); (YIn CONTROL info, 1)] ++ mix 60.
Definition event_names (l : list event) : list string := names (set_trace l demo_start).
Definition is_hand (c : channel) (w : frames) (l : slabel) : bool :=
  match l with YHand c' w' => chan_eqb c c' && String.eqb (String.concat "," w) (String.concat "," w') | _ => false end.
Example C71_ex : exists raw, user_publishes sdemo raw /\ ~ raw "status" /\
  let ls := fst (split_run ControlMain crossing) in
  yrun ControlMain slisten sintern (y_init demo_start ["start"]) ls (snd (split_run ControlMain crossing)) /\
  exists l1 l2 l l3, ls = (l1 ++ YHand SHELL failing_cell :: l2 ++ l :: l3)%list /\ in_same SHELL l2 /\ starts SHELL l /\ tooks SHELL l2 = [exec1; info] /\
    event_names (events SHELL l2) = ["busy"; "execute_input"; "interpreter"; "error"; "execute_reply"; "execute_reply"; "kernel_info_reply"; "idle"] /\
    event_names (events SHELL l3) = ["interpreter"].
Proof.
  exists user_types. split; [apply sdemo_publishes; cbn; tauto|]. split; [cbn; intuition discriminate|].
  cbv zeta. split; [apply split_run_ok|]. set (ls := fst (split_run ControlMain crossing)).
  set (r := tl (snd (ysplit (is_hand SHELL failing_cell) ls))). set (q := snd (ysplit (startsb SHELL) r)).
  exists (fst (ysplit (is_hand SHELL failing_cell) ls)), (fst (ysplit (startsb SHELL) r)), (hd (YTau TShell) q), (tl q).
  split; [vm_compute; reflexivity|]. split; [apply startsb_ok; vm_compute; reflexivity|]. vm_compute. auto.
Qed.

(** C72. The replies a thread sends answer different messages it received itself, in the order in which
    it received them: none is answered twice, and none of the replies goes to another client or
    channel, however the threads alternate. *)
Theorem C72_replies : forall U v (E : env U) raw, user_publishes E raw -> ~ raw "status" ->
  forall k start ls s, yrun v (fun c w => dispatch E w c) (dispatch_internal E) (y_init k start) ls s ->
  forall c, exists xs, sub xs (received_by c ls) /\ Forall2 (answers E) xs (sends (events c ls)).
Proof. intros U v E raw HU Hraw k start ls s H c. exact (thread_replies v E raw HU Hraw k start c (List.length ls) ls s (le_n _) H). Qed.
Print Assumptions C72_replies.
Definition addresses (l : list event) : list (channel * list string * option string) :=
  List.map (fun e => match e with ESend c m _ => (c, m_ids m, msg_type m) | _ => (SHELL, [], None) end) (sends l).
Example C72_ex : let ls := fst (split_run ControlMain crossing) in
  received_by SHELL ls = [(SHELL, failing_cell); (SHELL, exec1); (SHELL, info)] /\ received_by CONTROL ls = [(CONTROL, debug); (CONTROL, info)] /\
  addresses (events SHELL ls) = [(SHELL, ["peer"], Some "execute_reply"); (SHELL, ["peer"], Some "execute_reply"); (SHELL, ["peer"; "x"], Some "kernel_info_reply")] /\
  addresses (events CONTROL ls) = [(CONTROL, ["peer"; "x"], Some "debug_reply"); (CONTROL, ["peer"; "x"], Some "kernel_info_reply")] /\
  firstn 6 (threads ls) = [SHELL; CONTROL; SHELL; CONTROL; SHELL; SHELL].
Proof. vm_compute. repeat split. Qed.

(** C73. The identifiers of all messages sent by the two threads, start message included, are
    distinct; all messages have complete headers and are signed. The trace of the kernel state is the
    start message followed by the events of the run. *)
Theorem C73_identifiers : forall U v (E : env U) raw, env_utf8 E -> user_publishes E raw ->
  (forall a b, e_guid E a = e_guid E b -> a = b) ->
  forall u q start ls s, let k0 := fst (run (kernel_start E) (kinit u q)) in
  yrun v (fun c w => dispatch E w c) (dispatch_internal E) (y_init k0 start) ls s ->
  let sent := (k_trace k0 ++ occurred ls)%list in
  NoDup (event_ids sent) /\ Forall (well_sent E) sent /\
  (forall e h, In e sent -> emitted e = Some h -> exists id ty, header_with h id ty (e_user_name E) (e_session_id E)) /\
  k_trace (m_k (y_mem s)) = sent.
Proof.
  intros U v E raw Hu HU Hinj u q start ls s k0 H sent.
  pose proof (yrun_trace v _ _ k0 start ls s H) as T. fold sent in T. rewrite <- T.
  destruct (split_ids v E k0 start ls s H (start_ids E raw Hu HU u q)) as (ns & pa & pb & _ & _ & O).
  split; [rewrite (io_ids _ _ _ _ _ O); apply map_inj_NoDup; [exact Hinj|exact (io_nodup _ _ _ _ _ O)]|].
  split; [exact (io_sent _ _ _ _ _ O)|]. split; [exact (io_headers _ _ _ _ _ O)|reflexivity].
Qed.
Print Assumptions C73_identifiers.
Definition sdemo_start : kstate U0 := fst (run (kernel_start sdemo) (kinit [] [])).
Example C73_ex : env_utf8 sdemo /\ user_publishes sdemo user_types /\ (forall a b, e_guid sdemo a = e_guid sdemo b -> a = b) /\
  let r := yexec ControlMain slisten sintern crossing [] (y_init sdemo_start ["start"]) in
  yrun ControlMain slisten sintern (y_init sdemo_start ["start"]) (fst r) (snd r) /\
  event_ids (k_trace sdemo_start ++ occurred (fst r)) = List.map ticks (seq 0 14).
Proof.
  split; [|split; [apply sdemo_publishes; cbn; tauto|]].
  { destruct demo_utf8 as (A & B & C & D). split; [exact A|]. split; [exact B|]. split; [exact C|exact D]. }
  split; [exact ticks_inj|]. split; [apply yexec_run|]. vm_compute. reflexivity.
Qed.
