(** Properties C38-C41, C59-C62: the debug adapter client. *)
From Verif Require Import Base BaseFacts Json JsonText JsonTextProofs JsonParseProofs Utf8 Auth Message MessageProofs WireSpec WireLemmas Dap DapSpec DapProofs DapQueue DapMain DapAttach DapLive.

(** A client for the examples: no signature, events forwarded to the front end. *)
Definition demo_dap (parallel : bool) : dapenv :=
  {| dp_crypto := toy; dp_auth := NoAuth; dp_user := "u"; dp_session := "s"; dp_guid := fun _ => "id"; dp_date := fun _ => "now";
     dp_callback := fun _ _ => Ok tt; dp_event := fun _ _ j => ([UForward j], Ok tt); dp_parallel := parallel |}.
Definition ev_init : string := "{""type"":""event"",""event"":""initialized"",""seq"":4}".
Definition ev_out : string := "{""type"":""event"",""event"":""output"",""seq"":5,""body"":""Content-Length: 3""}".
Definition re_conf : string := "{""type"":""response"",""command"":""configurationDone"",""seq"":6}".
Definition re_attach : string := "{""type"":""response"",""command"":""attach"",""seq"":7}".
Definition re_disc : string := "{""type"":""response"",""command"":""disconnect"",""seq"":8}".
Definition rq_attach : string := "{""type"":""request"",""command"":""attach"",""seq"":2}".
Definition cut (n : nat) (s : string) : list string := [stake n s; sdrop n s].
Lemma stream_frames l : Forall (fun b => (N.of_nat (slen b) < 2 ^ 64)%N) l -> dap_stream l (sconcat (map dap_frame l)).
Proof.
  intros H. exists (map dap_frame l). split; auto. induction H; cbn; constructor; auto. now apply frame_message.
Qed.

(** C38. One call: it delivers a prefix of the messages, or waits when the stream it can read does not end at
    the end of a message ([rest]: what has not arrived). *)
Theorem C38_call : forall bodies rest net queue, dap_stream bodies (sconcat net +++ rest) ->
  exists b1 b2 used net' o, handle_tcp net queue = (net', (queue ++ b1)%list, o) /\
    bodies = (b1 ++ b2)%list /\ net = (used ++ net')%list /\
    ((o = Waits /\ net' = [] /\ (rest = "" -> bodies = [])) \/
     (o = Done tt /\ b1 <> [] /\ used <> [] /\ dap_stream b2 (sconcat net' +++ rest))).
Proof. exact handle_tcp_stream. Qed.
Print Assumptions C38_call.
(** C38. Any number of calls, any chunking: only the messages, in order; and all of them if the stream is complete. *)
Theorem C38_prefix : forall bodies rest net q net', dap_stream bodies (sconcat net +++ rest) -> reads net q net' ->
  exists b2, bodies = (q ++ b2)%list /\ dap_stream b2 (sconcat net' +++ rest).
Proof. exact reads_stream. Qed.
Print Assumptions C38_prefix.
Theorem C38_all : forall bodies net, dap_stream bodies (sconcat net) -> exists net', reads net bodies net' /\ sconcat net' = "".
Proof. exact reads_all. Qed.
Print Assumptions C38_all.
Example C38_ex : dap_stream [ev_init; ev_out] (sconcat (cut 7 (sconcat (map dap_frame [ev_init; ev_out])))) /\
  handle_tcp (cut 7 (sconcat (map dap_frame [ev_init; ev_out]))) ["x"] = ([], ["x"; ev_init; ev_out], Done tt).
Proof.
  split; [|vm_compute; reflexivity]. replace (sconcat (cut 7 _)) with (sconcat (map dap_frame [ev_init; ev_out])) by (vm_compute; reflexivity).
  apply stream_frames. repeat constructor.
Qed.
Example C38_fields_ex : dap_message "{}" ("X: 1" +++ CRLF +++ "Content-Length: 2" +++ CRLF +++ "Content-Type: c" +++ CRLF +++ CRLF +++ "{}").
Proof.
  exists ["X: 1"], ["Content-Type: c"]. repeat split; try (repeat constructor; try discriminate; fail); try reflexivity.
  constructor; [|constructor]. intros (a & b & H). destruct a as [|? [|? [|? [|? [|? a]]]]]; discriminate.
Qed.
(** A complete message is not processed before the end of the next one when both come in one chunk. *)
Theorem C38_prompt_refuted : exists body t, dap_message body t /\
  forall c, c_queue c = [] -> c_net c = [t +++ "Con"] -> snd (handle_tcp_socket c) = Waits.
Proof.
  exists "{}", (dap_frame "{}"). split; [now apply frame_message|]. intros c Hq Hn. unfold handle_tcp_socket. rewrite Hq, Hn. vm_compute. reflexivity.
Qed.
Print Assumptions C38_prompt_refuted.

(** C39. In general: either a queued message is taken, the first that meets the condition, or messages are
    read until a batch (one call) contains one; the result is the last such message of that batch, and all
    messages read that do not meet the condition are appended to the queue. *)
Theorem C39_wait : forall cond c bodies rest,
  dap_stream bodies (sconcat (c_net c) +++ rest) -> Forall (defined parse cond) (c_queue c) -> Forall (defined parse cond) bodies -> c_stopped c = [] ->
  exists c' o, wait_for_message cond c = (c', o) /\ same_rest c c' /\
    ((o = Waits /\ (rest = "" -> Forall (fails parse cond) (c_queue c ++ bodies))) \/
     (exists j a raw b, o = Done j /\ c_queue c = (a ++ raw :: b)%list /\ Forall (fails parse cond) a /\ meets parse cond raw j /\
        c_stopped c' = [] /\ c_net c' = c_net c /\ c_queue c' = (a ++ b)%list) \/
     (exists j b1 b2 kept u l, o = Done j /\ Forall (fails parse cond) (c_queue c) /\ bodies = (b1 ++ b2)%list /\ rejected_of parse cond b1 kept /\
        c_queue c' = (c_queue c ++ kept)%list /\ c_stopped c' = [] /\ b1 = (u ++ l)%list /\ Forall (fails parse cond) u /\ last_of cond l j /\
        dap_stream b2 (sconcat (c_net c') +++ rest) /\
        exists n1 n2, c_net c = (n1 ++ n2)%list /\ handle_tcp n2 [] = (c_net c', l, Done tt))).
Proof. exact wait_for_ok. Qed.
Print Assumptions C39_wait.
(** C39. Nothing else is lost or reordered if no two messages to come meet the condition. *)
Theorem C39_keeps : forall cond c bodies rest,
  dap_stream bodies (sconcat (c_net c) +++ rest) -> Forall (defined parse cond) (c_queue c) -> Forall (defined parse cond) bodies -> c_stopped c = [] ->
  at_most_one (fun raw => exists j, meets parse cond raw j) bodies ->
  exists c' o, wait_for_message cond c = (c', o) /\ same_rest c c' /\
    ((o = Waits /\ (rest = "" -> Forall (fails parse cond) (c_queue c ++ bodies))) \/
     (exists j raw b1 b2, o = Done j /\ meets parse cond raw j /\ bodies = (b1 ++ b2)%list /\ without raw (c_queue c ++ b1) (c_queue c') /\
        c_stopped c' = [] /\ dap_stream b2 (sconcat (c_net c') +++ rest))).
Proof. exact wait_keeps. Qed.
Print Assumptions C39_keeps.
Example C39_ex : let c := c_init (cut 30 (sconcat (map dap_frame [ev_init; re_attach; ev_out]))) [] [] in
  (let r := wait_for_message (is_message "response" "command" "attach") c in c_queue (fst r) = [ev_init; ev_out] /\ c_net (fst r) = [] /\ exists j, snd r = Done j) /\
  Forall (defined parse (is_message "response" "command" "attach")) [ev_init; re_attach; ev_out].
Proof.
  split. - vm_compute. repeat split. eexists. reflexivity.
  - apply Forall_cons; [right|apply Forall_cons; [left|apply Forall_cons; [right|apply Forall_nil]]]; eexists; split; vm_compute; reflexivity.
Qed.
(** Two messages in one batch: the first is lost. *)
Theorem C39_lost_refuted : exists cond c bodies j,
  dap_stream bodies (sconcat (c_net c)) /\ Forall (defined parse cond) bodies /\ c_stopped c = [] /\ c_queue c = [] /\
  (let r := wait_for_message cond c in snd r = Done j /\ c_net (fst r) = [] /\ c_queue (fst r) = [] /\ c_stopped (fst r) = []) /\ List.length bodies = 2.
Proof.
  exists (is_message "response" "command" "attach"), (c_init [dap_frame re_attach +++ dap_frame re_attach] [] []), [re_attach; re_attach]. eexists.
  split; [exact (stream_frames [re_attach; re_attach] ltac:(repeat constructor))|].
  split; [apply Forall_cons; [|apply Forall_cons; [|apply Forall_nil]]; left; eexists; split; vm_compute; reflexivity|]. vm_compute. repeat split.
Qed.
Print Assumptions C39_lost_refuted.

(** C40. If the processing ends, every message was dispatched once, in order, and the queue is empty; the
    client is asked to stop iff a non-event message names the command disconnect. *)
Theorem C40_queue : forall E c c', process_message_queue E c = (c', Done tt) ->
  exists acts new, Forall2 dispatched (c_queue c) acts /\ c_log c' = (c_log c ++ new)%list /\ routed new = acts /\ kept_by_queue c c' /\ c_queue c' = [] /\
    (c_stop c' = true <-> c_stop c = true \/ exists raw, In raw (c_queue c) /\ asks_stop raw).
Proof. intros E c c'. exact (process_queue_ok E (c_queue c) c c'). Qed.
Print Assumptions C40_queue.
(** C40. It ends if all messages are objects, the event handler succeeds, and there is at most one answer, which
    is awaited. *)
Theorem C40_ends : forall E c, Forall (fun raw => exists m, parse raw = Ok (JObj m)) (c_queue c) -> events_handled E c (c_queue c) ->
  at_most_one is_answer (c_queue c) -> (forall raw, In raw (c_queue c) -> is_answer raw -> c_owed c = true) ->
  exists c', process_message_queue E c = (c', Done tt).
Proof. intros E c. exact (process_queue_done E (c_queue c) c). Qed.
Print Assumptions C40_ends.
Example C40_ex : let c := set_ctl [] true (set_queue [ev_out; re_disc; ev_init] (c_init [] [] [])) in
  exists c' j1 j2, process_message_queue (demo_dap false) c = (c', Done tt) /\ routed (c_log c') = [AEvent j1; AReply re_disc; AEvent j2] /\ c_stop c' = true.
Proof. cbn zeta. eexists _, _, _. split; [vm_compute; reflexivity|]. split; reflexivity. Qed.
(** A message that is no event and answers no request ends the client with an exception: for example a
    request of the adapter, or a second answer. *)
Theorem C40_unsolicited_refuted :
  (exists c raw, c_queue c = [raw] /\ is_answer raw /\ c_owed c = false /\ snd (process_message_queue (demo_dap false) c) = Fail (Std "EFSM")) /\
  (exists c raw, c_queue c = [raw; raw] /\ is_answer raw /\ c_owed c = true /\ snd (process_message_queue (demo_dap false) c) = Fail (Std "EFSM")).
Proof.
  split.
  - exists (set_queue ["{""type"":""request"",""command"":""runInTerminal""}"] (c_init [] [] [])). eexists. split; [reflexivity|].
    split; [|split; [reflexivity|vm_compute; reflexivity]]. eexists. split; [vm_compute; reflexivity|]. vm_compute. discriminate.
  - exists (set_ctl [] true (set_queue [re_attach; re_attach] (c_init [] [] []))). eexists. split; [reflexivity|].
    split; [|split; [reflexivity|vm_compute; reflexivity]]. eexists. split; [vm_compute; reflexivity|]. vm_compute. discriminate.
Qed.
Print Assumptions C40_unsolicited_refuted.

(** C41. Requests of the client: one frame with the text; the text reads back as the message. *)
Theorem C41_request : forall j c c', send_dap_request j c = (c', Done tt) ->
  exists t, dump EStrict j = Ok t /\ c_log c' = (c_log c ++ [AAdapter (dap_frame t)])%list /\ (jgood j = true -> parse t = Ok j) /\
    ((N.of_nat (slen t) < 2 ^ 64)%N -> dap_message t (dap_frame t)).
Proof.
  intros j c c'. unfold send_dap_request, dbind, dlift. destruct (dump EStrict j) as [t| |] eqn:D; try discriminate. intros [= <-].
  exists t. repeat split; auto using frame_message. intros G. eapply parse_dump; [exact G| |exact D].
  apply dump_strict_some. exists t. now apply dump_ok.
Qed.
Print Assumptions C41_request.
(** C41. However the frames are cut into chunks, the decoder recovers the texts. *)
Theorem C41_decoded : forall contents net, Forall (fun t => (N.of_nat (slen t) < 2 ^ 64)%N) contents -> sconcat net = sconcat (map dap_frame contents) ->
  exists net', reads net contents net' /\ sconcat net' = "".
Proof. intros contents net H E. apply reads_all. rewrite E. now apply stream_frames. Qed.
Print Assumptions C41_decoded.
Example C41_ex : exists c', send_dap_request (jobj [("a", JStr (String (chr 195) (String (chr 169) "")))]) (c_init [] [] []) = (c', Done tt) /\
  c_log c' = [AAdapter ("Content-Length: 10" +++ SEPARATOR +++ "{""a"":""" +++ String (chr 195) (String (chr 169) "") +++ """}")].
Proof. eexists. split; [vm_compute; reflexivity|]. vm_compute. reflexivity. Qed.

(** C59 *)
Theorem C59_attach : forall E c m content req r bodies raw_i init raw_c confd raw_a resp n parent,
  c_attach c = true -> c_owed c = false -> c_ctl c = m :: r -> c_stopped c = [] ->
  m = dap_frame content -> parse content = Ok req -> jfield "command" req = Some (JStr "attach") ->
  dap_stream bodies (sconcat (c_net c)) -> Forall protocol_message (c_queue c ++ bodies) ->
  the_message "event" "event" "initialized" raw_i init (c_queue c ++ bodies) ->
  the_message "response" "command" "configurationDone" raw_c confd (c_queue c ++ bodies) ->
  the_message "response" "command" "attach" raw_a resp (c_queue c ++ bodies) ->
  jfield "seq" init = Some (JInt n) -> (int_min <= n < int_max)%Z ->
  parent_of (c_parent c) parent -> (forall l, dp_callback E l init = Ok tt) ->
  json_ok (make_header (dp_guid E (c_ids c)) (dp_date E (c_ids c)) "debug_event" (dp_user E) (dp_session E)) = true ->
  exists c' t_conf w t_resp b2 l1 l2,
    handle_control_socket E c = (c', Done tt) /\
    c_log c' = (c_log c ++ [AForward m; AAdapter (dap_frame t_conf); ACallback init; APublish w; AReply t_resp])%list /\
    parse t_conf = Ok (jobj [("type", JStr "request"); ("seq", JInt (n + 1)); ("command", JStr "configurationDone")]) /\
    pub_deserialize (dp_crypto E) (dp_auth E) w = Ok (event_of E (c_ids c) parent init) /\
    parse t_resp = Ok resp /\
    c_attach c' = false /\ c_owed c' = false /\ c_ctl c' = r /\ c_stopped c' = [] /\
    dap_stream b2 (sconcat (c_net c')) /\
    without raw_i (c_queue c ++ bodies) l1 /\ without raw_c l1 l2 /\ without raw_a l2 (c_queue c' ++ b2).
Proof. exact attach_ok. Qed.
Print Assumptions C59_attach.
Definition attach_state : client := set_attach true (set_queue [ev_out] (c_init (cut 11 (sconcat (map dap_frame [re_attach; ev_init; ev_out; re_conf]))) [dap_frame rq_attach; "next"] [])).
Lemma attach_pos t k v raw l : (exists j, parse raw = Ok j /\ named t k v j) -> (exists a b, l = (a ++ raw :: b)%list /\
  Forall (fun r => exists j, parse r = Ok j /\ (jfield "type" j <> Some (JStr t) \/ jfield k j <> Some (JStr v))) (a ++ b)) -> exists j, the_message t k v raw j l.
Proof.
  intros (j & P & N) (a & b & -> & F). exists j. split; auto. split; auto. split; [apply in_elt|].
  assert (Q : forall r, In r (a ++ b) -> ~ (exists i, parse r = Ok i /\ named t k v i)).
  { intros r Hr (i & Pi & Ni). rewrite Forall_forall in F. destruct (F r Hr) as (i' & Pi' & O). assert (i' = i) by congruence. subst. destruct Ni. tauto. }
  assert (R : forall i z, nth_error (a ++ raw :: b) i = Some z -> i <> List.length a -> In z (a ++ b)).
  { intros i z H Hi. apply in_app_iff. destruct (Nat.lt_ge_cases i (List.length a)).
    - left. rewrite nth_error_app1 in H by auto. eapply nth_error_In; eauto.
    - right. rewrite nth_error_app2 in H by auto. destruct (i - List.length a) eqn:D; [lia|]. cbn in H. eapply nth_error_In; eauto. }
  intros u x w y d E Hx Hy.
  assert (X : nth_error (a ++ raw :: b) (List.length u) = Some x) by (rewrite E, nth_error_app2, Nat.sub_diag by lia; reflexivity).
  assert (Y : nth_error (a ++ raw :: b) (List.length (u ++ x :: w)) = Some y).
  { rewrite E. replace (u ++ x :: w ++ y :: d)%list with ((u ++ x :: w) ++ y :: d)%list by now rewrite <- app_assoc. rewrite nth_error_app2, Nat.sub_diag by lia. reflexivity. }
  rewrite app_length in Y. cbn in Y.
  destruct (Nat.eq_dec (List.length u) (List.length a)) as [L|L]; [apply (Q y)|apply (Q x)]; auto; eapply R; eauto. lia.
Qed.
Example C59_ex : exists c', handle_control_socket (demo_dap true) attach_state = (c', Done tt) /\ c_queue c' = [ev_out; ev_out] /\ c_net c' = [] /\
  List.length (c_log c') = 5 /\ c_ctl c' = ["next"].
Proof. eexists. split; [vm_compute; reflexivity|]. repeat split; vm_compute; reflexivity. Qed.
Example C59_hyps : exists bodies init confd resp, dap_stream bodies (sconcat (c_net attach_state)) /\ Forall protocol_message (c_queue attach_state ++ bodies) /\
  the_message "event" "event" "initialized" ev_init init (c_queue attach_state ++ bodies) /\
  the_message "response" "command" "configurationDone" re_conf confd (c_queue attach_state ++ bodies) /\
  the_message "response" "command" "attach" re_attach resp (c_queue attach_state ++ bodies) /\ jfield "seq" init = Some (JInt 4).
Proof.
  set (bodies := [re_attach; ev_init; ev_out; re_conf]). exists bodies.
  assert (S : dap_stream bodies (sconcat (c_net attach_state))).
  { replace (sconcat (c_net attach_state)) with (sconcat (map dap_frame bodies)) by (vm_compute; reflexivity). apply stream_frames. repeat constructor. }
  assert (P : Forall protocol_message (c_queue attach_state ++ bodies)).
  { cbn [app attach_state c_queue bodies]. repeat (apply Forall_cons; [eexists; (split; [vm_compute; reflexivity|]); repeat split; vm_compute; discriminate|]). apply Forall_nil. }
  destruct (attach_pos "event" "event" "initialized" ev_init (c_queue attach_state ++ bodies)) as (i & Hi).
  { eexists. split; [vm_compute; reflexivity|]. split; reflexivity. }
  { exists [ev_out; re_attach], [ev_out; re_conf]. split; [reflexivity|]. cbn [app]. repeat (apply Forall_cons; [eexists; (split; [vm_compute; reflexivity|]); (left; vm_compute; discriminate) || (right; vm_compute; discriminate)|]). apply Forall_nil. }
  destruct (attach_pos "response" "command" "configurationDone" re_conf (c_queue attach_state ++ bodies)) as (cf & Hc).
  { eexists. split; [vm_compute; reflexivity|]. split; reflexivity. }
  { exists [ev_out; re_attach; ev_init; ev_out], []. split; [reflexivity|]. cbn [app]. repeat (apply Forall_cons; [eexists; (split; [vm_compute; reflexivity|]); (left; vm_compute; discriminate) || (right; vm_compute; discriminate)|]). apply Forall_nil. }
  destruct (attach_pos "response" "command" "attach" re_attach (c_queue attach_state ++ bodies)) as (at' & Ha).
  { eexists. split; [vm_compute; reflexivity|]. split; reflexivity. }
  { exists [ev_out], [ev_init; ev_out; re_conf]. split; [reflexivity|]. cbn [app]. repeat (apply Forall_cons; [eexists; (split; [vm_compute; reflexivity|]); (left; vm_compute; discriminate) || (right; vm_compute; discriminate)|]). apply Forall_nil. }
  exists i, cf, at'. repeat (split; [assumption|]). destruct Hi as (Pi & _). vm_compute in Pi. injection Pi as <-. reflexivity.
Qed.

(** C60 *)
Theorem C60_lock_step : forall E net ctl hdr c0 c, start_debugger E (c_init net ctl hdr) = (c0, Done tt) -> serves E c0 c ->
  alternates (c_log c) (c_owed c) /\ exists connect, ctl = (connect :: requests (c_log c) ++ c_ctl c)%list.
Proof. exact lock_step. Qed.
Print Assumptions C60_lock_step.
Theorem C60_count : forall l owed, alternates l owed -> List.length (requests l) = List.length (replies l) + (if owed then 1 else 0).
Proof. exact alternates_count. Qed.
Print Assumptions C60_count.
Definition demo_ctl : list string := ["connect"; dap_frame "{}"; dap_frame "{}"].
Example C60_ex : exists c0 c, start_debugger (demo_dap false) (c_init [dap_frame ev_out; dap_frame re_attach] demo_ctl ["{}"]) = (c0, Done tt) /\ serves (demo_dap false) c0 c /\
  c_owed c = true /\ List.length (requests (c_log c)) = 2 /\ List.length (replies (c_log c)) = 1 /\ c_net c = [].
Proof.
  eexists. eexists. split; [vm_compute; reflexivity|]. split.
  - eapply (serves_one _ _ true true true); [reflexivity|repeat split; discriminate|vm_compute; reflexivity|].
    eapply (serves_one _ _ false false true); [reflexivity|repeat split; discriminate|vm_compute; reflexivity|].
    eapply (serves_one _ _ false true false); [reflexivity|repeat split; discriminate|vm_compute; reflexivity|]. apply serves_none.
  - vm_compute. repeat split.
Qed.

(** C61. At any time, also while a round is interrupted. *)
Theorem C61_published : forall E net ctl hdrs c0 c h k t, start_debugger E (c_init net ctl hdrs) = (c0, Done tt) -> serves E c0 c ->
  forall a w b, c_log (fst (iteration E h k t c)) = (a ++ APublish w :: b)%list -> published E hdrs a w.
Proof. exact published_ok. Qed.
Print Assumptions C61_published.
Example C61_ex : exists c0 c a w b, start_debugger (demo_dap false) (c_init [dap_frame ev_out; dap_frame ev_init] demo_ctl ["{}"; "{""a"":1}"]) = (c0, Done tt) /\
  serves (demo_dap false) c0 c /\ c_log (fst (iteration (demo_dap false) true false true c)) = (a ++ APublish w :: b)%list /\ header_at ["{}"; "{""a"":1}"] a = "{""a"":1}".
Proof.
  eexists. eexists. eexists [_; _; _; _; _; _; _; _]. eexists. eexists. split; [vm_compute; reflexivity|]. split.
  - eapply (serves_one _ _ true false true); [reflexivity|repeat split; discriminate|vm_compute; reflexivity|]. apply serves_none.
  - split; vm_compute; reflexivity.
Qed.

(** C62. A round does not block if there is a message to read when the adapter's socket is found readable
    and, in the case of an attach request, the three messages of the handshake are in the queue or still
    to come, with something left to read after the chunks in which they come if the adapter's socket
    is to be read in the same round. *)
Theorem C62_progress : forall E h k t c, polled h k t c ->
  (t = true -> some_message (c_net c)) ->
  (k = true -> c_attach c = true -> exists content, head (c_ctl c) = Some (dap_frame content)) ->
  (k = true -> c_attach c = true -> (exists m, head (c_ctl c) = Some m /\ asks_attach m) ->
     c_stopped c = [] /\ exists ahead bodies later, c_net c = (ahead ++ later)%list /\ dap_stream bodies (sconcat ahead) /\
       Forall protocol_message (c_queue c ++ bodies) /\ handshake_in (c_queue c ++ bodies) /\ (t = true -> some_message later)) ->
  snd (iteration E h k t c) <> Waits.
Proof. exact round_progress. Qed.
Print Assumptions C62_progress.
Example C62_ex : polled false true true (c_init [dap_frame ev_out] ["r"] []) /\ some_message [dap_frame ev_out].
Proof. split; [repeat split; discriminate|]. exists [ev_out]. split; [discriminate|]. apply (stream_frames [ev_out]). repeat constructor. Qed.
(** The attach request of C59, with an event that follows in a chunk of its own. *)
Definition attach_more : client := set_net (c_net attach_state ++ [dap_frame ev_out]) attach_state.
Example C62_attach_ex : polled false true true attach_more /\ some_message (c_net attach_more) /\
  (c_attach attach_more = true /\ exists content, head (c_ctl attach_more) = Some (dap_frame content) /\ asks_attach (dap_frame content)) /\
  (c_stopped attach_more = [] /\ exists ahead bodies later, c_net attach_more = (ahead ++ later)%list /\ dap_stream bodies (sconcat ahead) /\
    Forall protocol_message (c_queue attach_more ++ bodies) /\ handshake_in (c_queue attach_more ++ bodies) /\ some_message later) /\
  List.map (fun a => match a with AForward _ => "forward" | AAdapter _ => "request" | AReply _ => "reply" | AAck _ => "ack" | APublish _ => "publish" | ACallback _ => "callback" | AEvent _ => "event" end)
    (c_log (fst (iteration (demo_dap true) false true true attach_more))) =
    ["forward"; "request"; "callback"; "publish"; "reply"; "event"; "callback"; "publish"; "event"; "callback"; "publish"; "event"; "callback"; "publish"].
Proof.
  split; [repeat split; discriminate|].
  assert (S : forall l, Forall (fun b => (N.of_nat (slen b) < 2 ^ 64)%N) l -> forall net, sconcat net = sconcat (map dap_frame l) -> dap_stream l (sconcat net)) by (intros l H net ->; now apply stream_frames).
  split. { exists [re_attach; ev_init; ev_out; re_conf; ev_out]. split; [discriminate|]. apply S; [repeat constructor|vm_compute; reflexivity]. }
  split. { split; [reflexivity|]. exists rq_attach. split; [reflexivity|]. eexists rq_attach, _. split; [reflexivity|]. split; vm_compute; reflexivity. }
  split.
  { split; [reflexivity|]. exists (c_net attach_state), [re_attach; ev_init; ev_out; re_conf], [dap_frame ev_out]. split; [reflexivity|].
    split; [apply S; [repeat constructor|vm_compute; reflexivity]|]. split.
    { cbn [app attach_more attach_state set_net set_attach set_queue c_queue]. repeat (apply Forall_cons; [eexists; (split; [vm_compute; reflexivity|]); repeat split; vm_compute; discriminate|]). apply Forall_nil. }
    split.
    - exists ev_init, re_conf, re_attach. split; [repeat split; (eexists; split; [vm_compute; reflexivity|split; reflexivity])|]. cbn. tauto.
    - exists [ev_out]. split; [discriminate|]. apply S; [repeat constructor|reflexivity]. }
  vm_compute. reflexivity.
Qed.
(** It blocks, with a request of the debugger waiting: after an attach request whose messages were read during
    the handshake, and after the empty chunk that announces the connection. *)
Theorem C62_blocks_refuted :
  (exists c c' bodies, polled false true true c /\ dap_stream bodies (sconcat (c_net c)) /\ bodies <> [] /\
     iteration (demo_dap true) false true true c = (c', Waits) /\ c_ctl c' <> [] /\ c_owed c' = false) /\
  (exists c c', polled false false true c /\ c_net c = [""] /\ iteration (demo_dap true) false false true c = (c', Waits) /\ c_ctl c' <> [] /\ c_owed c' = false).
Proof.
  split.
  - exists (set_queue [] attach_state). eexists. exists [re_attach; ev_init; ev_out; re_conf]. split; [repeat split; discriminate|].
    split; [|split; [discriminate|split; [vm_compute; reflexivity|split; [discriminate|reflexivity]]]].
    replace (sconcat (c_net (set_queue [] attach_state))) with (sconcat (map dap_frame [re_attach; ev_init; ev_out; re_conf])) by (vm_compute; reflexivity).
    apply stream_frames. repeat constructor.
  - exists (c_init [""] ["r"] []). eexists. split; [repeat split; discriminate|]. split; [reflexivity|]. split; [vm_compute; reflexivity|]. split; [discriminate|reflexivity].
Qed.
Print Assumptions C62_blocks_refuted.
