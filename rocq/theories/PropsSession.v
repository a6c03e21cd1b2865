(** Properties C59, C89, C90: whole sessions of the debugger, the debug adapter client and the adapter. *)
From Verif Require Import Base BaseFacts Json JsonText JsonTextProofs JsonParseProofs Auth Message MessageProofs Dap DapSpec DapProofs DapQueue DapMain
  Debugger DebuggerSpec DapSessionSpec DapSession DapWaiting DebugSession PropsDap PropsDebugger.

(** C89. At the end of any round, however the adapter's stream is cut: the messages of the stream up to some point have
    been read, each of them was dispatched once and in order, except for those of the handshake; nothing is left in the client's queues. *)
Theorem C89_session : forall E net ctl hdr bodies rest c0 c, dap_stream bodies (sconcat net +++ rest) -> adapter_stream bodies ->
  start_debugger E (c_init net ctl hdr) = (c0, Done tt) -> serves E c0 c ->
  c_queue c = [] /\ c_stopped c = [] /\
  exists read left, bodies = (read ++ left)%list /\ dap_stream left (sconcat (c_net c) +++ rest) /\ session (after_handshake E c) read (routed (c_log c)).
Proof. intros E net ctl hdr bodies rest c0 c Hs Ha St Se. destruct (session_ok E net ctl hdr bodies rest c0 c Hs Ha St Se) as (Q & S & _ & H). auto. Qed.
Print Assumptions C89_session.
(** C89. The replies to the debugger are the messages that are no events, in order; the response to the client's own
    configurationDone request is kept from the debugger. *)
Theorem C89_answers : forall E net ctl hdr bodies rest c0 c, dap_stream bodies (sconcat net +++ rest) -> adapter_stream bodies ->
  start_debugger E (c_init net ctl hdr) = (c0, Done tt) -> serves E c0 c ->
  exists read left ans, bodies = (read ++ left)%list /\ dap_stream left (sconcat (c_net c) +++ rest) /\
    answers_of (after_handshake E c) read ans /\ Forall2 same_value ans (replies (c_log c)).
Proof.
  intros E net ctl hdr bodies rest c0 c Hs Ha St Se. destruct (session_ok E net ctl hdr bodies rest c0 c Hs Ha St Se) as (_ & _ & _ & read & left & -> & D & S).
  destruct (session_answers _ read _ (at_most_one_app _ _ _ (proj1 (proj2 (proj2 Ha)))) S) as (ans & A & V). rewrite replies_routed in V. exists read, left, ans. auto.
Qed.
Print Assumptions C89_answers.
(** An adapter stream for the examples. *)
Lemma demo_protocol l : (forall raw, In raw l -> In raw [ev_init; ev_out; re_conf; re_attach; re_disc]) -> Forall protocol_message l.
Proof.
  intros H. apply Forall_forall. intros raw Hr. apply H in Hr. cbn [In] in Hr.
  destruct Hr as [<-|[<-|[<-|[<-|[<-|[]]]]]]; (eexists; split; [vm_compute; reflexivity|]; repeat split; vm_compute; discriminate).
Qed.
Lemma not_named t k v raw j : parse raw = Ok j -> (jfield "type" j <> Some (JStr t) \/ jfield k j <> Some (JStr v)) -> ~ is_named t k v raw.
Proof. intros P N (i & P' & T & V). assert (i = j) by congruence. subst. tauto. Qed.
Lemma at_most_none {A} (P : A -> Prop) l : Forall (fun x => ~ P x) l -> at_most_one P l.
Proof. intros F a x b y d -> Hx _. rewrite Forall_forall in F. apply (F x); auto. apply in_elt. Qed.
Lemma at_most_here {A} (P : A -> Prop) a x b : Forall (fun x => ~ P x) a -> Forall (fun x => ~ P x) b -> at_most_one P (a ++ x :: b).
Proof.
  intros Fa Fb u y v z w E Hy Hz. revert u E. induction Fa as [|r a N Fa IH]; intros u E; cbn in E.
  - destruct u; cbn in E; injection E as -> E; rewrite Forall_forall in Fb; [apply (Fb z)|apply (Fb z)]; auto; rewrite E; apply in_or_app; right; cbn; auto. right. apply in_elt.
  - destruct u; cbn in E; injection E as -> E; [contradiction|]. eapply IH; eauto.
Qed.
Ltac unnamed := repeat (apply Forall_cons; [eapply not_named; [vm_compute; reflexivity|vm_compute; (left; discriminate) || (right; discriminate)]|]); apply Forall_nil.
Definition demo_bodies : list string := [ev_out; re_attach; ev_init; ev_out; re_conf; re_disc].
Lemma demo_adapter : adapter_stream demo_bodies.
Proof.
  split; [|split; [|split]].
  - apply demo_protocol. unfold demo_bodies. cbn. tauto.
  - apply (at_most_here is_initialized [ev_out; re_attach] ev_init [ev_out; re_conf; re_disc]); unnamed.
  - apply (at_most_here is_configured [ev_out; re_attach; ev_init; ev_out] re_conf [re_disc]); unnamed.
  - apply (at_most_here is_attached [ev_out] re_attach [ev_init; ev_out; re_conf; re_disc]); unnamed.
Qed.
Definition demo_net : list string := cut 11 (dap_frame ev_out) ++ cut 20 (sconcat (map dap_frame [re_attach; ev_init; ev_out; re_conf])) ++ [dap_frame re_disc].
Example C89_ex : dap_stream demo_bodies (sconcat demo_net +++ "") /\ adapter_stream demo_bodies /\
  exists c0 c t, start_debugger (demo_dap true) (c_init demo_net ["connect"; dap_frame rq_attach; dap_frame "{}"] []) = (c0, Done tt) /\ serves (demo_dap true) c0 c /\
    after_handshake (demo_dap true) c = true /\ c_net c = [] /\ replies (c_log c) = [t; re_disc] /\ same_value re_attach t.
Proof.
  split; [|split; [exact demo_adapter|]].
  - replace (sconcat demo_net +++ "") with (sconcat (map dap_frame demo_bodies)) by (vm_compute; reflexivity). apply stream_frames. repeat constructor.
  - eexists _, _, _. split; [vm_compute; reflexivity|]. split.
    + eapply (serves_one _ _ false false true); [reflexivity|repeat split; discriminate|vm_compute; reflexivity|].
      eapply (serves_one _ _ false true false); [reflexivity|repeat split; discriminate|vm_compute; reflexivity|].
      eapply (serves_one _ _ false true false); [reflexivity|repeat split; discriminate|vm_compute; reflexivity|].
      eapply (serves_one _ _ false false true); [reflexivity|repeat split; discriminate|vm_compute; reflexivity|]. apply serves_none.
    + split; [reflexivity|]. split; [reflexivity|]. split; [vm_compute; reflexivity|]. eexists. split; vm_compute; reflexivity.
Qed.
(** The condition is needed: of two responses to configurationDone that are read together none is given to the debugger. *)
Definition twice : list string := [ev_init; re_conf; re_conf; re_attach].
Definition twice_net : list string := [dap_frame ev_init; sconcat (map dap_frame [re_conf; re_conf; re_attach])].
Theorem C89_twice_refuted : dap_stream twice (sconcat twice_net) /\ Forall protocol_message twice /\
  exists c0 c t, start_debugger (demo_dap true) (c_init twice_net ["connect"; dap_frame rq_attach] []) = (c0, Done tt) /\ serves (demo_dap true) c0 c /\
    c_net c = [] /\ c_queue c = [] /\ c_stopped c = [] /\ routed (c_log c) = [AReply t] /\ same_value re_attach t.
Proof.
  split; [|split].
  - replace (sconcat twice_net) with (sconcat (map dap_frame twice)) by (vm_compute; reflexivity). apply stream_frames. repeat constructor.
  - apply demo_protocol. unfold twice. cbn. tauto.
  - eexists _, _, _. split; [vm_compute; reflexivity|]. split.
    + eapply (serves_one _ _ false true false); [reflexivity|repeat split; discriminate|vm_compute; reflexivity|]. apply serves_none.
    + repeat (split; [vm_compute; reflexivity|]). eexists. split; vm_compute; reflexivity.
Qed.
Print Assumptions C89_twice_refuted.

(** C90. The client: the k-th reply answers the k-th request, if the adapter answers only requests that it was sent, and each once. *)
Theorem C90_in_order : forall E net ctl hdr c0 c, start_debugger E (c_init net ctl hdr) = (c0, Done tt) -> serves E c0 c ->
  answers_asked (c_log c) -> answers_once (c_log c) ->
  forall k t, nth_error (replies (c_log c)) k = Some t -> exists f, nth_error (requests (c_log c)) k = Some f /\ answers_frame f t.
Proof. intros E net ctl hdr c0 c St Se As On. destruct (lock_step E net ctl hdr c0 c St Se) as [Al _]. exact (replies_match _ _ Al As On). Qed.
Print Assumptions C90_in_order.
(** C90. The debugger, the client and the adapter together: the reply to a debug request is a response to this request. *)
Theorem C90_reply : forall E fs l d h m name d' r C net before seg c,
  history E (d_init fs) l d -> all_answered (d_log d) -> is_request name m -> unregistered E name -> d_started d = true \/ name = "initialize" \/ name = "debugInfo" -> jgood m = true ->
  process_request E h m d = (d', Done r) -> d_log d' = (before ++ DStart true :: seg)%list ->
  linked C net seg c -> answers_asked (c_log c) -> answers_once (c_log c) -> response_to m r.
Proof. exact request_matched. Qed.
Print Assumptions C90_reply.
(** C90. Whatever a handler of the derived class forwards is answered by a response to it. *)
Theorem C90_forwarded : forall E fs l d C net before seg c, sendable l -> history E (d_init fs) l d -> d_log d = (before ++ DStart true :: seg)%list ->
  linked C net seg c -> answers_asked (c_log c) -> answers_once (c_log c) ->
  forall a m f b t e, seg = (a ++ DSend m f :: b ++ DRecv t :: e)%list -> (forall t', ~ In (DRecv t') b) -> jgood m = true ->
  exists j, parse t = Ok j /\ response_to m j.
Proof.
  intros E fs l d C net before seg c Hs H L Lk As On a m f b t e El N G.
  destruct (C41_forwarded E fs l d m f Hs H) as (content & D & -> & P & _). { rewrite L, El. apply in_app_iff. right. right. apply in_elt. }
  assert (Ps : DebuggerLock.phase false seg <> None).
  { pose proof (DebuggerLock.locked_history E (d_init fs) l d eq_refl H) as Ph. rewrite L, DebuggerLock.phase_app in Ph.
    destruct (DebuggerLock.phase false before) as [w|]; [|now elim Ph]. cbn [DebuggerLock.phase] in Ph. destruct w; [now elim Ph|exact Ph]. }
  destruct (linked_match C net seg c Ps Lk As On _ _ _ _ _ _ El N) as (m' & j & Pc & Pj & R). rewrite (P G) in Pc. injection Pc as <-. eauto.
Qed.
Print Assumptions C90_forwarded.
(** Before the debugger is started, a request for the adapter is answered with an empty object, which is no response. *)
Theorem C90_stopped_refuted : exists E h m r, process_request E h m (d_init no_files) = (d_init no_files, Done r) /\ (forall name, unregistered E name) /\
  is_request "threads" m /\ jfield "seq" m = Some (JInt 4) /\ ~ response_to m r.
Proof.
  exists (demo_dbg true ev_stopped ok_text), (JObj []), (jtext "{""command"":""threads"",""seq"":4}"), (JObj []). split; [vm_compute; reflexivity|].
  split; [intros n b p []|]. split; [vm_compute; reflexivity|]. split; [vm_compute; reflexivity|]. intros (T & _). discriminate.
Qed.
Print Assumptions C90_stopped_refuted.
(** A session with two requests; events come before and between the responses. *)
Definition re_one : string := "{""type"":""response"",""request_seq"":1,""command"":""initialize"",""success"":true,""seq"":8}".
Definition re_two : string := "{""type"":""response"",""request_seq"":2,""command"":""threads"",""success"":true,""seq"":9}".
Definition rq_threads : json := jtext "{""command"":""threads"",""seq"":2}".
Definition two_dbg : dbgenv :=
  {| dn_regs := []; dn_event_regs := []; dn_start := fun _ => ([], Ok true); dn_stop := fun _ => ([], Ok tt);
     dn_info := fun _ => {| i_seed := 7; i_prefix := ""; i_suffix := ""; i_rich := false; i_paths := [] |};
     dn_tmp := fun code => Ok code; dn_ack := fun _ => ([], true);
     dn_reply := fun l => ([], Some (if List.length (sent l) =? 1 then re_one else re_two)) |}.
Definition two_net : list string := [dap_frame ev_out +++ dap_frame re_one; dap_frame ev_out; dap_frame re_two].
Definition two_start : dbg := fst (process_request two_dbg (JObj []) req_init (d_init no_files)).
Definition two_seg : list dact := tl (d_log (fst (process_request two_dbg (JObj []) rq_threads two_start))).
Definition two_frames : list string := ["Content-Length: 32" +++ SEPARATOR +++ "{""command"":""initialize"",""seq"":1}"; "Content-Length: 29" +++ SEPARATOR +++ "{""command"":""threads"",""seq"":2}"].
Lemma two_answers : let f1 := nth 0 two_frames "" in let f2 := nth 1 two_frames "" in
  answers_frame f1 re_one /\ answers_frame f2 re_two /\ ~ answers_frame f1 re_two /\ ~ answers_frame f2 re_one.
Proof.
  cbn zeta. assert (E1 : nth 0 two_frames "" = dap_frame "{""command"":""initialize"",""seq"":1}") by (vm_compute; reflexivity).
  assert (E2 : nth 1 two_frames "" = dap_frame "{""command"":""threads"",""seq"":2}") by (vm_compute; reflexivity). rewrite E1, E2. split; [|split; [|split]].
  - eexists _, _, _. split; [reflexivity|]. split; [vm_compute; reflexivity|]. split; [vm_compute; reflexivity|]. repeat split.
  - eexists _, _, _. split; [reflexivity|]. split; [vm_compute; reflexivity|]. split; [vm_compute; reflexivity|]. repeat split.
  - intros (content & m & j & F & Pm & Pj & _ & R & _). apply frame_inj in F. subst content. vm_compute in Pm, Pj. injection Pm as <-. injection Pj as <-. discriminate.
  - intros (content & m & j & F & Pm & Pj & _ & R & _). apply frame_inj in F. subst content. vm_compute in Pm, Pj. injection Pm as <-. injection Pj as <-. discriminate.
Qed.
Fixpoint asks (seen : list string) (l : list action) : Prop :=
  match l with
  | [] => True
  | AForward f :: r => asks (seen ++ [f]) r
  | AReply t :: r => (exists f, In f seen /\ answers_frame f t) /\ asks seen r
  | _ :: r => asks seen r
  end.
Lemma asks_asked l : asks [] l -> answers_asked l.
Proof.
  assert (G : forall l seen, asks seen l -> forall l1 t l2, l = (l1 ++ AReply t :: l2)%list -> exists f, In f (seen ++ requests l1) /\ answers_frame f t).
  { clear l. induction l as [|a l IH]; intros seen H l1 t l2 E; [now destruct l1|]. destruct l1 as [|b l1]; cbn in E; injection E as -> E.
    - cbn in H. destruct H as [(f & Hf & A) _]. exists f. split; auto. apply in_app_iff. auto.
    - destruct b; cbn [asks] in H; try (destruct (IH _ H _ _ _ E) as (f & Hf & A); exists f; split; [exact Hf|exact A]).
      + destruct (IH _ H _ _ _ E) as (f & Hf & A). exists f. split; auto. rewrite <- app_assoc in Hf. exact Hf.
      + destruct H as [_ H]. destruct (IH _ H _ _ _ E) as (f & Hf & A). exists f. split; [exact Hf|exact A]. }
  intros H l1 t l2 E. exact (G l [] H l1 t l2 E).
Qed.
Example C90_ex : exists d d' r c, history two_dbg (d_init no_files) [HRequest (JObj []) req_init] d /\ all_answered (d_log d) /\ d_started d = true /\ jgood rq_threads = true /\
  process_request two_dbg (JObj []) rq_threads d = (d', Done r) /\ d_log d' = ([] ++ DStart true :: two_seg)%list /\ linked (demo_dap false) two_net two_seg c /\
  answers_asked (c_log c) /\ answers_once (c_log c) /\ Ok r = parse re_two.
Proof.
  eexists two_start, _, _, _. split; [eapply hist_done; [vm_compute; reflexivity|apply hist_nil]|]. split; [vm_compute; reflexivity|]. split; [reflexivity|]. split; [reflexivity|].
  split; [vm_compute; reflexivity|]. split; [vm_compute; reflexivity|].
  assert (S2 : sent two_seg = two_frames) by (vm_compute; reflexivity). destruct two_answers as (A1 & A2 & N1 & N2).
  split; [|split; [|split; [|vm_compute; reflexivity]]].
  - exists "connect". eexists. split; [vm_compute; reflexivity|]. split.
    + eapply (serves_one _ _ true true false); [reflexivity|repeat split; discriminate|vm_compute; reflexivity|].
      eapply (serves_one _ _ false false true); [reflexivity|repeat split; discriminate|vm_compute; reflexivity|].
      eapply (serves_one _ _ true true true); [reflexivity|repeat split; discriminate|vm_compute; reflexivity|].
      eapply (serves_one _ _ false false true); [reflexivity|repeat split; discriminate|vm_compute; reflexivity|]. apply serves_none.
    + exists []. vm_compute. reflexivity.
  - apply asks_asked. cbn [c_log asks app]. split; [exists (nth 0 two_frames ""); split; [now left|exact A1]|]. split; auto. exists (nth 1 two_frames ""). split; [right; now left|exact A2].
  - intros i k t t' f Hi Hk Hf. cbn [c_log replies requests flat_map app] in Hi, Hk, Hf.
    assert (X : forall n u, nth_error [re_one; re_two] n = Some u -> n = 0 /\ u = re_one \/ n = 1 /\ u = re_two).
    { intros [|[|n]] u H; cbn [nth_error] in H; [injection H as <-; auto|injection H as <-; auto|destruct n; discriminate]. }
    apply X in Hi, Hk. intros B B'. destruct Hf as [Hf|[Hf|[]]].
    + change (nth 0 two_frames "" = f) in Hf. subst f. destruct Hi as [[-> ->]|[-> ->]], Hk as [[-> ->]|[-> ->]]; auto; contradiction.
    + change (nth 1 two_frames "" = f) in Hf. subst f. destruct Hi as [[-> ->]|[-> ->]], Hk as [[-> ->]|[-> ->]]; auto; contradiction.
Qed.

(** C59. The handshake is due in parallel initialisation, with the first attach request and with no other: [c_attach] says so
    at the end of every round ([C59_attach] is what then happens). *)
Theorem C59_waits : forall E net connect ctl hdr c0 c, Forall framed ctl ->
  start_debugger E (c_init net (connect :: ctl) hdr) = (c0, Done tt) -> serves E c0 c ->
  (c_attach c = true <-> dp_parallel E = true /\ Forall (fun m => ~ attach_request m) (requests (c_log c))).
Proof. exact waiting_ok. Qed.
Print Assumptions C59_waits.
Example C59_waits_ex : Forall framed [dap_frame "{}"; dap_frame rq_attach] /\
  (exists c0 c, start_debugger (demo_dap true) (c_init [dap_frame re_disc] ["connect"; dap_frame "{}"; dap_frame rq_attach] []) = (c0, Done tt) /\ serves (demo_dap true) c0 c /\
     requests (c_log c) = [dap_frame "{}"] /\ c_owed c = false /\ c_attach c = true) /\
  exists c0 c, start_debugger (demo_dap true) (c_init [dap_frame ev_init; dap_frame re_conf; dap_frame re_attach] ["connect"; dap_frame rq_attach] []) = (c0, Done tt) /\
    serves (demo_dap true) c0 c /\ requests (c_log c) = [dap_frame rq_attach] /\ attach_request (dap_frame rq_attach) /\ c_attach c = false.
Proof.
  split; [|split].
  - repeat constructor; eexists; reflexivity.
  - eexists _, _. split; [vm_compute; reflexivity|]. split.
    + eapply (serves_one _ _ false true true); [reflexivity|repeat split; discriminate|vm_compute; reflexivity|]. apply serves_none.
    + repeat split.
  - eexists _, _. split; [vm_compute; reflexivity|]. split.
    + eapply (serves_one _ _ false true false); [reflexivity|repeat split; discriminate|vm_compute; reflexivity|]. apply serves_none.
    + split; [vm_compute; reflexivity|]. split; [|reflexivity]. eexists _, _. split; [reflexivity|]. split; vm_compute; reflexivity.
Qed.
