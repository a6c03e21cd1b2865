(** Properties C07-C18, C20-C22 and C57: the kernel core.

    [E] is any environment: any key and hash function, clock, identifier generator, stdin messages,
    interpreter, debugger, comm callbacks and handlers. The interpreter and the other user code are
    arbitrary programs over the xeus API. [quiet E]: no logger (the default). [env_utf8 E]: the user
    name, the session id, the generated identifiers and dates are valid UTF-8. [user_publishes E raw]:
    [raw] contains the types of the messages the user code publishes itself. *)
From Verif Require Import Base BaseFacts Json JsonText Utf8 Utf8Proofs JsonTextProofs Auth Message WireSpec WireLemmas History HistoryProofs Comm CommSpec Tree Kernel KernelSpec KernelProofs KernelRun KernelHandlers KernelReplies KernelExec KernelDispatch KernelLemmas KernelExecProps KernelSession KernelMisc KernelInfo KernelDemo.

Definition any_type : string -> Prop := fun _ => True.
(** Variants of the example kernel. *)
Definition with_interp (f : request -> ucode U0 json) (E : env U0) : env U0 := {|
  e_crypto := e_crypto E; e_auth := e_auth E; e_eh := e_eh E; e_kernel_id := e_kernel_id E; e_user_name := e_user_name E; e_session_id := e_session_id E;
  e_guid := e_guid E; e_now := e_now E; e_stdin := e_stdin E; e_logger := e_logger E; e_regex := e_regex E; e_indet := e_indet E; e_long_id := e_long_id E;
  e_configure := e_configure E; e_interp := f; e_split := e_split E; e_debugger := e_debugger E; e_callback := e_callback E; e_handler := e_handler E; e_input := e_input E |}.

(** C07 *)
Theorem C07_bracket : forall U (E : env U) (raw : string -> Prop), quiet E -> env_utf8 E -> user_publishes E raw -> ~ raw "status" ->
  forall w c m ty s s' r, accepted E w m -> typed (m_header (m_base m)) ty -> run (dispatch E w c) s = (s', r) ->
  exists busy mid tail, k_trace s' = (k_trace s ++ busy :: mid ++ tail)%list /\
    status_event E "busy" c (m_header (m_base m)) busy /\ Forall (fun e => ~ is_status e) mid /\
    ((r = Ok tt /\ exists idle, tail = [idle] /\ status_event E "idle" c (m_header (m_base m)) idle) \/
     (tail = [] /\ ((exists tag, r = Exn (Foreign tag)) \/ is_ub r = true))).
Proof. intros U E raw Hq Hu HU Hs w c m ty s s' r. exact (bracket E raw Hq Hu HU w c m ty s s' r Hs). Qed.
Print Assumptions C07_bracket.
Example C07_ex : ~ user_types "status" /\ accepted demo (wire_of (execute "boom" [])) (execute "boom" []) /\
  names (send_all [(SHELL, execute "1+1" []); (SHELL, execute "boom" []); (CONTROL, simple "interrupt_request")] demo_start) =
    ["starting"; "busy"; "execute_input"; "interpreter"; "stream"; "execute_result"; "execute_reply"; "idle";
     "busy"; "execute_input"; "interpreter"; "idle"; "busy"; "interrupt"; "interrupt_reply"; "idle"].
Proof. split; [cbn; intuition discriminate|]. vm_compute. repeat split; reflexivity. Qed.
(** Only a std::exception is caught: after another exception there is no idle status. *)
Theorem C07_foreign_refuted : exists U (E : env U) w m s s' r, quiet E /\ env_utf8 E /\ user_publishes E (fun _ => False) /\ accepted E w m /\
  typed (m_header (m_base m)) "kernel_info_request" /\ run (dispatch E w SHELL) s = (s', r) /\
  forall e h, status_event E "idle" SHELL h e -> ~ In e (k_trace s').
Proof.
  exists U0, (with_interp (fun _ => Throw (Foreign "int")) {| e_crypto := toy; e_auth := toy_auth; e_eh := EStrict; e_kernel_id := "k1"; e_user_name := "user"; e_session_id := "s1";
    e_guid := ticks; e_now := fun _ => "2024-01-01T00:00:00Z"; e_stdin := stdin_msg; e_logger := fun _ => Ok tt; e_regex := fun _ => Ok (fun _ => false);
    e_indet := IndetVal (fun _ => false); e_long_id := fun s => Ok s; e_configure := Ret tt; e_interp := fun _ => Ret JNull; e_split := false; e_debugger := None;
    e_callback := fun _ _ _ => Ret tt; e_handler := fun _ _ => Ret tt; e_input := fun _ _ => Ret tt |}).
  exists (wire_of (simple "kernel_info_request")), (simple "kernel_info_request"), (kinit [] []).
  eexists. eexists. split; [intros l; reflexivity|]. split; [exact demo_utf8|]. split; [constructor; cbn; auto|].
  split; [vm_compute; reflexivity|]. split; [eexists; split; reflexivity|]. split; [vm_compute; reflexivity|].
  intros e h (m & w & id & -> & _ & _ & _ & _ & Hc & _). cbn [k_trace]. intros [H|[H|[]]]; [|discriminate].
  injection H as H _. rewrite <- H in Hc. discriminate.
Qed.
Print Assumptions C07_foreign_refuted.

(** C08. [rejected E w]: deserialization of [w] throws (bad signature, malformed parts, duplicate). *)
Theorem C08_rejected : forall U (E : env U) w, rejected E w ->
  (forall c s, run (dispatch E w c) s = (s, Ok tt)) /\ (forall s, run (dispatch_stdin E w) s = (s, Ok tt)) /\
  (forall s, run (abort_request E w) s = (s, Ok tt)).
Proof.
  intros U E w H. split; [intros c s; now apply run_dispatch_rejected|]. split; intros s; [now apply run_stdin_rejected | now apply run_abort_rejected].
Qed.
Print Assumptions C08_rejected.
Example C08_ex : rejected demo ["peer"; "<IDS|MSG>"; "00000000"; "{}"; "{}"; "{}"; "{}"] /\
  (forall w, wire_of (execute "1" []) = w -> rejected demo (removelast w ++ ["{}"])%list) /\
  rejected demo ["peer"; "<IDS|MSG>"; sign toy toy_auth "{" "{}" "{}" "{}"; "{"; "{}"; "{}"; "{}"].
Proof. split; [eexists; vm_compute; reflexivity|]. split; [intros w <-|]; eexists; vm_compute; reflexivity. Qed.

(** C09. [pre], [post]: no reply is sent; [rep]: the reply; [ab]: answers to the aborted requests [ws]. *)
Theorem C09_routing : forall U (E : env U) raw, quiet E -> env_utf8 E -> user_publishes E raw ->
  forall w c m ty s s' r, accepted E w m -> typed (m_header (m_base m)) ty -> run (dispatch E w c) s = (s', r) ->
  exists pre rep ab post ws, k_trace s' = (k_trace s ++ pre ++ rep ++ ab ++ post)%list /\
    Forall (fun e => ~ is_send e) pre /\ Forall (fun e => ~ is_send e) post /\
    Forall (routed E c (m_ids m) (m_header (m_base m)) ty) rep /\ List.length rep <= 1 /\
    (exists lo hi, aborts E lo ws ab hi) /\ taken (k_shell s) ws (k_shell s') /\ (ws <> [] -> rep <> [] /\ ty = "execute_request").
Proof. exact @routing. Qed.
Print Assumptions C09_routing.
(** The identities and types of the replies of a trace. *)
Definition replies_of (s : kstate U0) : list (channel * list string * option string) :=
  List.concat (List.map (fun e => match e with ESend c m _ => [(c, m_ids m, msg_type m)] | _ => [] end) (k_trace s)).
Definition queue_up (ws : list frames) (s : kstate U0) : kstate U0 := set_shell (List.map Some ws) s.
Example C09_ex : let s := fst (run (dispatch demo (wire_of (execute "bad" [("stop_on_error", JBool true)])) SHELL)
      (queue_up [wire_of (simple "complete_request"); wire_of (execute "2" [])] demo_start)) in
  replies_of s = [(SHELL, ["peer"], Some "execute_reply"); (SHELL, ["peer"; "x"], Some "complete_reply"); (SHELL, ["peer"], Some "execute_reply")] /\
  replies_of (send_all [(CONTROL, simple "kernel_info_request")] demo_start) = [(CONTROL, ["peer"; "x"], Some "kernel_info_reply")].
Proof. vm_compute. auto. Qed.

(** C10. At most one reply: C09_routing. [well_formed E s h ty content P]: the request is well formed,
    the interpreter returns; [P] is what the content of the reply must be. *)
Theorem C10_exactly_one : forall U (E : env U) raw, quiet E -> env_utf8 E -> user_publishes E raw ->
  forall w c m ty s P, accepted E w m -> typed (m_header (m_base m)) ty -> parents_utf8 s ->
  well_formed E s (m_header (m_base m)) ty (m_content (m_base m)) P ->
  let h := m_header (m_base m) in
  exists s' x busy mid r f ab ws tail, run (dispatch E w c) s = (s', x) /\
    k_trace s' = (k_trace s ++ busy :: mid ++ ESend c r f :: ab ++ tail)%list /\
    status_event E "busy" c h busy /\ ended E c h x tail /\
    Forall (fun e => ~ is_send e) mid /\ routed E c (m_ids m) h ty (ESend c r f) /\ P (m_content (m_base r)) /\
    (exists lo hi, aborts E lo ws ab hi) /\ (ws <> [] -> ty = "execute_request") /\
    (x = Ok tt \/ is_ub x = true /\ exists w0, In (Some w0) (k_shell s) /\ fatal E w0).
Proof. exact @dispatch_replies. Qed.
Print Assumptions C10_exactly_one.
Example C10_ex : replies_of (send_all [(SHELL, simple "complete_request"); (SHELL, simple "inspect_request"); (SHELL, simple "is_complete_request");
     (CONTROL, simple "debug_request"); (SHELL, simple "comm_info_request"); (SHELL, request_msg ["p"] "history_request" (jobj [("hist_access_type", JStr "tail"); ("n", JInt 1)]))] demo_start) =
  [(SHELL, ["peer"; "x"], Some "complete_reply"); (SHELL, ["peer"; "x"], Some "inspect_reply"); (SHELL, ["peer"; "x"], Some "is_complete_reply");
   (CONTROL, ["peer"; "x"], Some "debug_reply"); (SHELL, ["peer"; "x"], Some "comm_info_reply"); (SHELL, ["p"], Some "history_reply")].
Proof. vm_compute. reflexivity. Qed.
Example C10_wf_ex : forall h, parents_utf8 (U := U0) (kinit [] []) /\
  well_formed demo (kinit [] []) h "complete_request" (JObj [("code", JStr "a")]) (parented_answer demo (Ret ok_reply_json)).
Proof.
  intros h. split; [intros c; exact utf8_empty|]. apply (wf_complete demo (kinit [] []) h [("code", JStr "a")] "a" (-1)%Z).
  - right. reflexivity.
  - left. split; reflexivity.
  - intros s _. exists s. exists ok_reply_json. split; [reflexivity|]. apply utf8_obj; repeat constructor; cbn [fst snd]; try apply utf8_str; apply utf8_lit; reflexivity.
Qed.
(** As the property is worded (the interpreter returns an object with a string status) it fails:
    a returned string that is not UTF-8 makes the strict serialization throw, and no reply is sent. *)
Definition not_utf8 : string := String (ascii_of_nat 255) "".
Theorem C10_utf8_refuted : exists (E : env U0) w m s s' r, quiet E /\ env_utf8 E /\ user_publishes E user_types /\ accepted E w m /\ parents_utf8 s /\
  typed (m_header (m_base m)) "complete_request" /\ (exists mm, m_content (m_base m) = JObj mm /\ str_field mm "code" "" "a" /\ num_field mm "cursor_pos" (-1) 0) /\
  returns E (e_interp E (RComplete "a" 0)) (fun j => jfield "status" j = Some (JStr "ok")) /\
  run (dispatch E w SHELL) s = (s', r) /\ Forall (fun e => ~ is_send e) (k_trace s').
Proof.
  exists (with_interp (fun _ => Ret (jobj [("status", JStr "ok"); ("x", JStr not_utf8)])) demo).
  set (m := request_msg ["peer"] "complete_request" (JObj [("code", JStr "a"); ("cursor_pos", JInt 0)])).
  exists (wire_of m), m, (kinit [] []). eexists. eexists.
  split; [exact demo_quiet|]. split; [exact demo_utf8|]. split; [destruct demo_user; constructor; cbn; auto|].
  split; [vm_compute; reflexivity|]. split; [intros c; exact utf8_empty|]. split; [eexists; split; reflexivity|].
  split; [eexists; split; [reflexivity|]; split; [right; reflexivity | right; eexists; split; reflexivity]|].
  split; [intros s _; exists s; eexists; split; reflexivity|]. split; [vm_compute; reflexivity|].
  cbn [k_trace]. repeat (apply Forall_cons; [intros (? & ? & ? & X); discriminate X|]). apply Forall_nil.
Qed.
Print Assumptions C10_utf8_refuted.

(** C11 *)
Theorem C11_unknown : forall U (E : env U), quiet E -> env_utf8 E ->
  forall w c m ty s, accepted E w m -> typed (m_header (m_base m)) ty ->
  ~ In ty ["execute_request"; "complete_request"; "inspect_request"; "history_request"; "is_complete_request"; "comm_info_request"; "comm_open"; "comm_close";
           "comm_msg"; "kernel_info_request"; "shutdown_request"; "interrupt_request"; "debug_request"] ->
  exists s' busy idle, run (dispatch E w c) s = (s', Ok tt) /\ k_trace s' = (k_trace s ++ [busy; idle])%list /\
    status_event E "busy" c (m_header (m_base m)) busy /\ status_event E "idle" c (m_header (m_base m)) idle /\
    k_history s' = k_history s /\ k_count s' = k_count s /\ k_comms s' = k_comms s /\ k_shell s' = k_shell s /\
    k_user s' = k_user s /\ k_input s' = k_input s /\ k_stdin s' = k_stdin s.
Proof. exact @unknown. Qed.
Print Assumptions C11_unknown.
Example C11_ex : names (send_all [(SHELL, simple "list_subshell_request"); (SHELL, request_msg [] "" empty)] demo_start) = ["starting"; "busy"; "idle"; "busy"; "idle"].
Proof. vm_compute. reflexivity. Qed.

(** C12. [executed E raw p c ids h ph s s' evs]: a non-silent execution first publishes execute_input
    with the incremented count, then calls the interpreter once with it, then replies with it. *)
Theorem C12_execution : forall U (E : env U) raw, quiet E -> env_utf8 E -> user_publishes E raw ->
  forall w c m p s s' r, accepted E w m -> typed (m_header (m_base m)) "execute_request" -> exec_params (m_content (m_base m)) p ->
  x_silent p = true \/ k_count s <> int_max -> utf8_json (k_phdr s SHELL) -> run (dispatch E w c) s = (s', r) ->
  let h := m_header (m_base m) in
  exists busy evs tail, k_trace s' = (k_trace s ++ busy :: evs ++ tail)%list /\
    status_event E "busy" c h busy /\ ended E c h r tail /\ executed E raw p c (m_ids m) h (upd_chan c h (k_phdr s) SHELL) s s' evs.
Proof. exact @dispatch_executed. Qed.
Print Assumptions C12_execution.
(** The count after a session is the number of its non-silent well-formed execute requests; [tally]
    determines that number. *)
Theorem C12_count : forall U (E : env U) raw, quiet E -> env_utf8 E -> user_publishes E raw ->
  forall msgs s s', session E msgs s s' -> parents_utf8 s ->
  exists n, tally (fun x => exists p, executes E (snd x) p /\ x_silent p = false) msgs n /\ k_count s' = (k_count s + Z.of_nat n)%Z.
Proof. exact @session_count. Qed.
Print Assumptions C12_count.
Theorem C12_tally_functional : forall X (P : X -> Prop) l n n', tally P l n -> tally P l n' -> n = n'.
Proof. intros X P l n n' H. exact (tally_det P l n H n'). Qed.
Print Assumptions C12_tally_functional.
(** After 2^31 - 1 executions the increment overflows: undefined. *)
Theorem C12_overflow_refuted : forall U (E : env U), quiet E -> env_utf8 E ->
  forall w c s s' r p, executes E w p -> x_silent p = false -> k_count s = int_max -> run (dispatch E w c) s = (s', r) -> is_ub r = true.
Proof. exact @dispatch_overflow. Qed.
Print Assumptions C12_overflow_refuted.
Definition session_msgs : list (channel * xmessage) :=
  [(SHELL, execute "a" []); (SHELL, execute "boom" []); (SHELL, execute "b" [("silent", JBool true)]); (SHELL, simple "complete_request"); (SHELL, execute "c" [("store_history", JBool false)])].
Lemma session_demo msgs : forall s, (fix go l s := match l with [] => True | (c, m) :: l => snd (run (dispatch demo (wire_of m) c) s) = Ok tt /\ go l (fst (run (dispatch demo (wire_of m) c) s)) end) msgs s ->
  session demo (List.map (fun x => (fst x, wire_of (snd x))) msgs) s (send_all msgs s).
Proof.
  induction msgs as [|[c m] l IH]; intros s H; [constructor|]. destruct H as [H1 H2]. cbn [List.map fst snd send_all].
  destruct (run (dispatch demo (wire_of m) c) s) as [s1 r1] eqn:Hr. cbn [fst snd] in *. subst r1. econstructor; [exact Hr | auto].
Qed.
Example C12_ex : session demo (List.map (fun x => (fst x, wire_of (snd x))) session_msgs) demo_start (send_all session_msgs demo_start) /\
  k_count (send_all session_msgs demo_start) = 3%Z /\
  List.concat (List.map (fun e => match shown e with Some (t, j) => if (String.eqb t "execute_input" || String.eqb t "execute_reply")%bool then [(t, jfield "execution_count" j)] else [] | None => [] end)
    (k_trace (send_all session_msgs demo_start))) =
  [("execute_input", Some (JInt 1)); ("execute_reply", Some (JInt 1)); ("execute_input", Some (JInt 2)); ("execute_reply", Some (JInt 2)); ("execute_input", Some (JInt 3)); ("execute_reply", Some (JInt 3))].
Proof. split; [apply session_demo; vm_compute; repeat split | vm_compute; auto]. Qed.

(** C13. Between busy and the reply only the interpreter's own output. *)
Theorem C13_silent : forall U (E : env U) raw, quiet E -> env_utf8 E -> user_publishes E raw ->
  forall w c m p s s' r, accepted E w m -> typed (m_header (m_base m)) "execute_request" -> exec_params (m_content (m_base m)) p ->
  x_silent p = true -> parents_utf8 s -> run (dispatch E w c) s = (s', r) ->
  let h := m_header (m_base m) in
  exists busy out rep tail,
    k_trace s' = (k_trace s ++ busy :: EInterp (RExecute (k_count s) (x_code p) true false (x_ue p) (x_stdin p)) :: out ++ rep ++ tail)%list /\
    status_event E "busy" c h busy /\ ended E c h r tail /\
    Forall (fun e => match e with
                     | EPublish _ m _ => exists ty, pub_type m = Some ty /\ raw ty
                     | EStdin _ _ | EInput _ _ => True
                     | _ => False end) out /\
    (rep = [] \/ exists e st, rep = [e] /\ exec_reply E c (m_ids m) h (k_count s) st e) /\
    k_count s' = k_count s /\ k_history s' = k_history s /\ k_shell s' = k_shell s.
Proof. exact @silent_execution. Qed.
Print Assumptions C13_silent.
Example C13_ex : ~ user_types "execute_input" /\ let s := fst (run (dispatch demo (wire_of (execute "bad" [("silent", JBool true); ("store_history", JBool true); ("stop_on_error", JBool true)])) SHELL)
      (queue_up [wire_of (execute "2" [])] demo_start)) in
  names s = ["starting"; "busy"; "interpreter"; "error"; "execute_reply"; "idle"] /\ k_history s = [] /\ k_count s = 0%Z /\ List.length (k_shell s) = 1.
Proof. split; [cbn; intuition discriminate | vm_compute; auto]. Qed.

(** C14. [recorded E msgs s l]: [l] are the stored executions of the session whose reply was sent. *)
Theorem C14_history : forall U (E : env U) raw, quiet E -> env_utf8 E -> user_publishes E raw ->
  forall msgs s s', session E msgs s s' -> parents_utf8 s ->
  exists l, recorded E msgs s l /\ k_history s' = (k_history s ++ List.map history_entry l)%list.
Proof. exact @session_history. Qed.
Print Assumptions C14_history.
(** The line number is not the execution count. *)
Theorem C14_line_refuted : exists (E : env U0) msgs s s' r f c n e, quiet E /\ env_utf8 E /\ user_publishes E user_types /\
  session E msgs s s' /\ parents_utf8 s /\ k_history s = [] /\ In (ESend c r f) (k_trace s') /\ jfield "execution_count" (m_content (m_base r)) = Some (JInt n) /\
  nth_error (k_history s') 1 = Some e /\ n = 2%Z /\ h_line e = "1" /\ h_input e = "b".
Proof.
  set (msgs := [(SHELL, execute "a" []); (SHELL, execute "b" [])]).
  exists demo, (List.map (fun x => (fst x, wire_of (snd x))) msgs), (kinit [] []), (send_all msgs (kinit [] [])).
  do 5 eexists. split; [exact demo_quiet|]. split; [exact demo_utf8|]. split; [exact demo_user|].
  split; [apply session_demo; vm_compute; repeat split|]. split; [intros c; exact utf8_empty|]. split; [reflexivity|].
  split; [vm_compute; do 12 right; left; reflexivity|]. split; [vm_compute; reflexivity|]. split; [vm_compute; reflexivity|]. repeat split.
Qed.
Print Assumptions C14_line_refuted.
Example C14_ex : k_history (send_all session_msgs demo_start) = [{| h_session := "0"; h_line := "1"; h_input := "a"; h_output := "" |}] /\
  k_history (send_all [(SHELL, execute "x" [("execution_count", JInt 7)])] demo_start) = [{| h_session := "0"; h_line := "7"; h_input := "x"; h_output := "" |}].
Proof. vm_compute. auto. Qed.

(** C15. [k_shell s] are the results of the non-blocking reads of the shell socket: a message or
    nothing; [drained]: they were read up to the first nothing. *)
Theorem C15_stop_on_error : forall U (E : env U) raw, quiet E -> env_utf8 E -> user_publishes E raw ->
  forall w c m p s, accepted E w m -> typed (m_header (m_base m)) "execute_request" -> exec_params (m_content (m_base m)) p ->
  x_silent p = false -> x_stop p = true -> k_count s <> int_max -> parents_utf8 s ->
  returns E (e_interp E (RExecute (k_count s + 1) (x_code p) false (x_store p) (x_ue p) (x_stdin p)))
    (fun j => utf8_json j /\ exists mm, j = JObj mm /\ mfind "status" mm = Some (JStr "error")) ->
  (forall x, In (Some x) (k_shell s) -> abortable E x) ->
  let h := m_header (m_base m) in
  exists s' busy mid rep ab ws idle, run (dispatch E w c) s = (s', Ok tt) /\
    k_trace s' = (k_trace s ++ busy :: mid ++ rep :: ab ++ [idle])%list /\
    status_event E "busy" c h busy /\ status_event E "idle" c h idle /\ Forall (fun e => ~ is_send e) mid /\
    exec_reply E c (m_ids m) h (k_count s + 1) "error" rep /\ (exists lo hi, aborts E lo ws ab hi) /\ drained (k_shell s) ws (k_shell s') /\
    (exists inp out, mid = (inp ++ EInterp (RExecute (k_count s + 1) (x_code p) false (x_store p) (x_ue p) (x_stdin p)) :: out)%list /\
       Forall (fun e => forall rq, e <> EInterp rq) (inp ++ out)).
Proof. exact @stop_on_error. Qed.
Print Assumptions C15_stop_on_error.
(** The images by [R] of the elements satisfying [P], in order. *)
Inductive sublist_where {A B} (P : A -> Prop) (R : A -> B -> Prop) : list A -> list B -> Prop :=
| sw_nil : sublist_where P R [] []
| sw_take a b l l' : P a -> R a b -> sublist_where P R l l' -> sublist_where P R (a :: l) (b :: l')
| sw_skip a l l' : ~ P a -> sublist_where P R l l' -> sublist_where P R (a :: l) l'.
(** [aborts] determines the answered requests: one reply for each accepted one. *)
Theorem C15_every_pending : forall U (E : env U) lo ws ab hi, aborts E lo ws ab hi ->
  exists ms, Forall2 (fun m e => exists r f, e = ESend SHELL r f /\ m_ids r = m_ids m /\ m_parent_header (m_base r) = m_header (m_base m) /\
     m_content (m_base r) = JObj [("status", JStr "error")]) ms ab /\
  sublist_where (fun w => exists m, accepted E w m) (accepted E) ws ms.
Proof.
  intros U E lo ws ab hi H. induction H as [|lo w ws evs hi Hr _ IH|lo n w ws evs hi m ty rty r f Ha Hty Hab Hlo Hh Hi Hp Hm Hc Hb Hs _ IH].
  - exists []. split; constructor.
  - destruct IH as (ms & F & S). exists ms. split; auto. apply sw_skip; auto. intros (m & Ha). destruct Hr as (what & Hr). unfold accepted in Ha. congruence.
  - destruct IH as (ms & F & S). exists (m :: ms). split; [constructor; auto; exists r, f; auto|]. apply sw_take; eauto.
Qed.
Print Assumptions C15_every_pending.
Theorem C15_no_underscore_refuted : exists w m s s', accepted demo w m /\ typed (m_header (m_base m)) "execute_request" /\
  (exists p, exec_params (m_content (m_base m)) p /\ x_silent p = false /\ x_stop p = true) /\ parents_utf8 s /\
  run (dispatch demo w SHELL) s = (s', Ok tt) /\ List.length (k_shell s') = 1 /\ replies_of s' = [(SHELL, ["peer"], Some "execute_reply")].
Proof.
  set (m := execute "bad" [("stop_on_error", JBool true)]).
  exists (wire_of m), m, (kinit [] [Some (wire_of (simple "ping")); Some (wire_of (simple "complete_request"))]). eexists.
  split; [vm_compute; reflexivity|]. split; [eexists; split; reflexivity|].
  split; [exists {| x_code := "bad"; x_silent := false; x_store := true; x_count := 1; x_ue := JObj []; x_stdin := true; x_stop := true |};
          split; [exists [("code", JStr "bad"); ("stop_on_error", JBool true)]; repeat split; unfold str_field, bool_field, num_field, any_field; cbn; auto; right; eauto | split; reflexivity]|].
  split; [intros c; exact utf8_empty|]. split; [vm_compute; reflexivity|]. vm_compute. auto.
Qed.
Print Assumptions C15_no_underscore_refuted.
Example C15_ex : let s := fst (run (dispatch demo (wire_of (execute "bad" [("stop_on_error", JBool true)])) SHELL)
      (queue_up [wire_of (simple "complete_request"); ["junk"; "<IDS|MSG>"; "00000000"; "{}"; "{}"; "{}"; "{}"]; wire_of (execute "2" [])] demo_start)) in
  names s = ["starting"; "busy"; "execute_input"; "interpreter"; "error"; "execute_reply"; "complete_reply"; "execute_reply"; "idle"] /\ k_shell s = [] /\
  abortable demo (wire_of (execute "2" [])).
Proof.
  split; [vm_compute; reflexivity|]. split; [vm_compute; reflexivity|]. right. exists (execute "2" []), "execute", "request".
  split; [vm_compute; reflexivity|]. split; [eexists; split; reflexivity|]. split; [|cbn; lia].
  intros a b H. do 7 (destruct a as [|? a]; [discriminate H|]; injection H as _ H). destruct a; discriminate H.
Qed.

(** C16 *)
Theorem C16_no_std_escapes : forall U (E : env U) raw, quiet E -> env_utf8 E -> user_publishes E raw ->
  forall w c s, (forall m, accepted E w m -> exists ty, typed (m_header (m_base m)) ty) ->
  forall what, snd (run (dispatch E w c) s) <> Exn (Std what).
Proof. exact @no_std_escapes. Qed.
Print Assumptions C16_no_std_escapes.
Theorem C16_stdin : forall U (E : env U) w s what, snd (run (dispatch_stdin E w) s) <> Exn (Std what).
Proof. exact @stdin_no_std. Qed.
Print Assumptions C16_stdin.
Example C16_ex : names (send_all [(SHELL, execute "boom" []); (SHELL, request_msg ["p"] "execute_request" (JArr [])); (SHELL, request_msg ["p"] "history_request" (JInt 3)); (SHELL, execute "1" [])] demo_start) =
    ["starting"; "busy"; "execute_input"; "interpreter"; "idle"; "busy"; "idle"; "busy"; "idle"; "busy"; "execute_input"; "interpreter"; "stream"; "execute_result"; "execute_reply"; "idle"].
Proof. vm_compute. reflexivity. Qed.
(** Every accepted message without a message type that can be read leaves the kernel busy and throws
    out of the listener. *)
Theorem C16_untyped_refuted : forall U (E : env U), quiet E -> env_utf8 E -> forall w c m s, accepted E w m -> (forall ty, ~ typed (m_header (m_base m)) ty) ->
  exists s' e what, run (dispatch E w c) s = (s', Exn (Std what)) /\ k_trace s' = (k_trace s ++ [e])%list /\ status_event E "busy" c (m_header (m_base m)) e.
Proof.
  intros U E Hq Hu w c m s Ha Hn. destruct (run_dispatch_untyped E w c m s Hq Hu Ha Hn) as (fb & what & Hfb & Hr). cbv zeta in *.
  eexists. eexists. exists what. split; [exact Hr|]. split; [reflexivity|].
  pose proof (status_event_ok E "busy" c (parented (m_ids m) (m_header (m_base m)) c s) fb) as X. cbn [parented k_phdr set_phdr] in X. rewrite upd_same in X. exact X.
Qed.
Print Assumptions C16_untyped_refuted.
Example C16_untyped_ex : let m := {| m_ids := ["peer"]; m_base := {| m_header := jobj [("msg_type", JInt 1)]; m_parent_header := empty; m_metadata := empty; m_content := empty; m_buffers := [] |} |} in
  accepted demo (wire_of m) m /\ forall ty, ~ typed (m_header (m_base m)) ty.
Proof. split; [vm_compute; reflexivity|]. intros ty (mm & [= <-] & H). discriminate H. Qed.

(** C17 *)
Theorem C17_attribution : forall U (E : env U) raw, quiet E -> env_utf8 E -> user_publishes E raw ->
  forall w m ty s s' r, accepted E w m -> typed (m_header (m_base m)) ty -> run (dispatch E w SHELL) s = (s', r) ->
  exists evs, k_trace s' = (k_trace s ++ evs)%list /\
    forall p f, In (EPublish SHELL p f) evs -> m_parent_header (m_pbase p) = m_header (m_base m).
Proof. exact @attribution. Qed.
Print Assumptions C17_attribution.
(** Any code of the user leaves the parent header unchanged, publishes with it, and reads it. *)
Theorem C17_parent_header : forall U (E : env U) raw, user_publishes E raw ->
  forall A (t : ucode U A) s s' r, always (op_allowed raw) t -> run (embed E t) s = (s', r) ->
  k_phdr s' = k_phdr s /\ run (api1 E (AOp AParentHeader)) s' = (s', Ok (k_phdr s SHELL)) /\
  exists evs, k_trace s' = (k_trace s ++ evs)%list /\
    forall c p f, In (EPublish c p f) evs -> c = SHELL /\ m_parent_header (m_pbase p) = k_phdr s SHELL.
Proof.
  intros U E raw HU A t s s' r Ha Hr. pose proof (frame_embed E raw (ua_input _ _ _ HU) t Ha s) as X. rewrite Hr in X.
  destruct X as [_ P _ _ _ (evs & T & _ & F)]. cbn [fst] in *. split; auto. split.
  - rewrite <- P. reflexivity.
  - exists evs. split; auto. intros c p f Hin. rewrite Forall_forall in F. specialize (F _ Hin). destruct F as [_ (F1 & F2 & _)]. auto.
Qed.
Print Assumptions C17_parent_header.
(** When a handler starts, the parent header of the channel is that of the message. *)
Theorem C17_parent_set : forall U (E : env U), quiet E -> env_utf8 E ->
  forall w c m ty s, accepted E w m -> typed (m_header (m_base m)) ty ->
  exists s0, k_phdr s0 c = m_header (m_base m) /\ k_pid s0 c = m_ids m /\
    run (dispatch E w c) s = match run (handle E ty m c) s0 with
                             | (s', Ok _) => run (publish_status E "idle" c) s'
                             | (s', Exn e) => (s', Exn e)
                             | (s', UB u) => (s', UB u)
                             end.
Proof.
  intros U E Hq Hu w c m ty s Ha Hty. destruct (run_dispatch_accepted E w c m ty s Hq Hu Ha Hty) as (fb & Hfb & HD). cbv zeta in *.
  eexists. split; [|split; [|exact HD]]; cbn; apply upd_same.
Qed.
Print Assumptions C17_parent_set.
(** The parent headers of the messages published for two cells. *)
Example C17_ex : let m1 := execute "1" [] in let m2 := simple "kernel_info_request" in
  List.map (fun e => match e with EPublish _ m _ => Some (m_parent_header (m_pbase m)) | _ => None end) (k_trace (send_all [(SHELL, m1); (SHELL, m2)] demo_start)) =
  let h1 := Some (m_header (m_base m1)) in let h2 := Some (m_header (m_base m2)) in [Some empty; h1; h1; None; h1; h1; None; h1; h2; None; None; h2].
Proof. vm_compute. reflexivity. Qed.

(** C18. [numbered E lo evs hi]: the messages of [evs] have complete headers whose identifiers are
    generated, with strictly increasing numbers; [well_sent]: they are signed. *)
Theorem C18_headers : forall U (E : env U) raw, quiet E -> env_utf8 E -> user_publishes E raw ->
  forall u q msgs s', let s0 := fst (run (kernel_start E) (kinit u q)) in serves E msgs s0 s' ->
  (forall e h, In e (k_trace s') -> emitted e = Some h -> exists id ty, header_with h id ty (e_user_name E) (e_session_id E)) /\
  Forall (well_sent E) (k_trace s') /\
  exists ns, event_ids (k_trace s') = List.map (e_guid E) ns /\ NoDup ns.
Proof.
  intros U E raw Hq Hu HU u q msgs s' s0 Hs. destruct (start_extends E raw Hu HU u q) as [(e1 & T1 & N1 & F1) _]. fold s0 in T1, N1.
  destruct (serves_extends E raw Hq Hu HU msgs s0 s' Hs) as (e2 & T2 & N2 & F2). cbn [kinit k_trace app] in T1. rewrite T2, T1.
  assert (N := numbered_app E _ _ _ _ _ N1 N2). split; [exact (numbered_headers E _ _ _ N)|]. split; [apply Forall_app; auto|].
  destruct (numbered_ids E _ _ _ N) as (ns & H1 & _ & H2). eauto.
Qed.
Print Assumptions C18_headers.
Theorem C18_fresh : forall U (E : env U) raw, quiet E -> env_utf8 E -> user_publishes E raw -> (forall a b, e_guid E a = e_guid E b -> a = b) ->
  forall u q msgs s', serves E msgs (fst (run (kernel_start E) (kinit u q))) s' -> NoDup (event_ids (k_trace s')).
Proof.
  intros U E raw Hq Hu HU Hinj u q msgs s' Hs. destruct (C18_headers U E raw Hq Hu HU u q msgs s' Hs) as (_ & _ & ns & -> & H). now apply map_inj_NoDup.
Qed.
Print Assumptions C18_fresh.
Example C18_ex : event_ids (k_trace (send_all [(SHELL, execute "1" []); (SHELL, simple "complete_request")] demo_start)) = List.map ticks [0; 1; 2; 3; 4; 5; 6; 7; 8; 9] /\
  forall a b, e_guid demo a = e_guid demo b -> a = b.
Proof. split; [vm_compute; reflexivity | exact ticks_inj]. Qed.

(** C20 *)
Theorem C20_shutdown : forall U (E : env U) raw, quiet E -> env_utf8 E -> user_publishes E raw ->
  forall w c m mm restart s, accepted E w m -> typed (m_header (m_base m)) "shutdown_request" -> m_content (m_base m) = JObj mm ->
  bool_field mm "restart" false restart -> returns E (e_interp E RShutdown) (fun _ => True) -> parents_utf8 s ->
  let h := m_header (m_base m) in
  exists s' busy out pub rep idle, run (dispatch E w c) s = (s', Ok tt) /\
    k_trace s' = (k_trace s ++ busy :: EInterp RShutdown :: out ++ [EStop; pub; rep; idle])%list /\
    status_event E "busy" c h busy /\ status_event E "idle" c h idle /\ Forall (user_output raw) out /\
    broadcast E CONTROL "shutdown" (upd_chan c h (k_phdr s) CONTROL) (JObj [("restart", JBool restart)]) pub /\
    reply_with E c (m_ids m) h "shutdown_request" (JObj [("restart", JBool restart)]) rep /\
    k_count s' = k_count s /\ k_history s' = k_history s /\ k_shell s' = k_shell s.
Proof. exact @shutdown_exact. Qed.
Print Assumptions C20_shutdown.
Example C20_ex : names (send_all [(CONTROL, request_msg ["peer"] "shutdown_request" (jobj [("restart", JBool true)]))] demo_start) =
  ["starting"; "busy"; "interpreter"; "stop"; "shutdown"; "shutdown_reply"; "idle"] /\
  returns demo (e_interp demo RShutdown) (fun _ => True).
Proof. split; [vm_compute; reflexivity|]. intros s _. exists s. eexists. split; [reflexivity | exact I]. Qed.
(** When the interpreter's shutdown throws, the server is not asked to stop and there is no reply. *)
Theorem C20_throw_refuted : exists (E : env U0) w m s s', quiet E /\ env_utf8 E /\ accepted E w m /\ typed (m_header (m_base m)) "shutdown_request" /\
  m_content (m_base m) = JObj [("restart", JBool false)] /\ run (dispatch E w CONTROL) s = (s', Ok tt) /\ ~ In EStop (k_trace s') /\ Forall (fun e => ~ is_send e) (k_trace s').
Proof.
  exists (with_interp (fun _ => Throw (Std "busy")) demo). set (m := request_msg ["peer"] "shutdown_request" (JObj [("restart", JBool false)])).
  exists (wire_of m), m, (kinit [] []). eexists. split; [exact demo_quiet|]. split; [exact demo_utf8|]. split; [vm_compute; reflexivity|].
  split; [eexists; split; reflexivity|]. split; [reflexivity|]. split; [vm_compute; reflexivity|].
  cbn [k_trace]. split; [intros [H|[H|[H|[]]]]; discriminate|]. repeat (apply Forall_cons; [intros (? & ? & ? & X); discriminate X|]). apply Forall_nil.
Qed.
Print Assumptions C20_throw_refuted.

(** C21. Every reply to kernel_info (exactly one if well formed: C10) has the interpreter's fields
    and the version. A null answer counts as an empty object. *)
Theorem C21_kernel_info : forall U (E : env U) raw, quiet E -> env_utf8 E -> user_publishes E raw ->
  forall w c m s s' r, accepted E w m -> typed (m_header (m_base m)) "kernel_info_request" -> run (dispatch E w c) s = (s', r) ->
  exists evs, k_trace s' = (k_trace s ++ evs)%list /\
    forall c' r f, In (ESend c' r f) evs ->
      exists mm, m_content (m_base r) = JObj (mset "protocol_version" (JStr "5.3") mm) /\
        (answer E (e_interp E RKernelInfo) (JObj mm) \/ (answer E (e_interp E RKernelInfo) JNull /\ mm = [])).
Proof. exact @info_reply. Qed.
Print Assumptions C21_kernel_info.
Example C21_ex : nth_error (List.map shown (k_trace (send_all [(SHELL, simple "kernel_info_request")] demo_start))) 3 =
  Some (Some ("kernel_info_reply", jobj [("implementation", JStr "demo"); ("protocol_version", JStr "5.3"); ("status", JStr "ok")])) /\
  answer demo (e_interp demo RKernelInfo) (jobj [("implementation", JStr "demo"); ("protocol_version", JStr "4.0"); ("status", JStr "ok")]).
Proof. split; [vm_compute; reflexivity|]. exists (kinit [] []). eexists. reflexivity. Qed.

(** C22. [e_stdin E n] is the [n]-th message that arrives on stdin; [typed_in E w v]: [v] is its value
    field, or "" if it is rejected or has none. *)
Theorem C22_blocking_input : forall U (E : env U) prompt pwd s, quiet E -> env_utf8 E -> utf8_json (k_phdr s SHELL) -> utf8_text prompt ->
  ~ fatal E (e_stdin E (k_stdin s)) ->
  exists s' v e, run (blocking_input_request E prompt pwd) s = (s', Ok v) /\ typed_in E (e_stdin E (k_stdin s)) v /\
    k_trace s' = (k_trace s ++ [e])%list /\ input_prompt E (k_pid s SHELL) (k_phdr s SHELL) prompt pwd e /\
    k_stdin s' = S (k_stdin s) /\ k_input s' = None /\ k_value s' = None /\
    k_count s' = k_count s /\ k_history s' = k_history s /\ k_comms s' = k_comms s /\ k_pid s' = k_pid s /\ k_phdr s' = k_phdr s /\ k_shell s' = k_shell s /\ k_user s' = k_user s.
Proof. exact @blocking_input. Qed.
Print Assumptions C22_blocking_input.
Example C22_ex : names (send_all [(SHELL, execute "ask" [])] demo_start) =
    ["starting"; "busy"; "execute_input"; "interpreter"; "input_request"; "stream"; "execute_reply"; "idle"] /\
  snd (run (blocking_input_request demo "name?" false) demo_start) = Ok "Ada" /\ is_ub (deserialize toy toy_auth (e_stdin demo 0)) = false.
Proof. vm_compute. auto. Qed.
(** If the prompt is not UTF-8, the handler stays registered after the exception, with a reference to
    a dead variable: the next input_request writes through it. *)
Theorem C22_dangling_refuted : exists (E : env U0) prompt s s' what, quiet E /\ env_utf8 E /\ utf8_json (k_phdr s SHELL) /\ ~ fatal E (e_stdin E (k_stdin s)) /\
  run (blocking_input_request E prompt false) s = (s', Exn (Std what)) /\ k_input s' = Some HStore /\ k_value s' = None /\
  is_ub (snd (run (input_request E "again?" false) s')) = true.
Proof.
  exists demo, not_utf8, (kinit [] []). eexists. eexists. split; [exact demo_quiet|]. split; [exact demo_utf8|]. split; [exact utf8_empty|].
  split; [vm_compute; discriminate|]. split; [vm_compute; reflexivity|]. split; [reflexivity|]. split; [reflexivity|]. vm_compute. reflexivity.
Qed.
Print Assumptions C22_dangling_refuted.

(** C57. When configuring publishes nothing, the trace after the start is the start message. *)
Theorem C57_start : forall U (E : env U), env_utf8 E -> forall u q s r, always publishes_nothing (e_configure E) -> run (kernel_start E) (kinit u q) = (s, r) ->
  (exists e, k_trace s = [e] /\ start_event E e /\ r = Ok tt) \/
  (k_trace s = [] /\ is_ok r = false /\ r = snd (run (embed E (e_configure E)) (kinit u q))).
Proof. exact @started_first. Qed.
Print Assumptions C57_start.
Example C57_ex : names demo_start = ["starting"] /\ always publishes_nothing (e_configure demo).
Proof. split; [vm_compute; reflexivity|]. cbn. repeat split. Qed.
(** configure() runs in the constructor: what it publishes comes before. *)
Theorem C57_configure_refuted : exists (E : env U0) s, env_utf8 E /\ run (kernel_start E) (kinit [] []) = (s, Ok tt) /\ names s = ["stream"; "starting"].
Proof.
  exists {| e_crypto := toy; e_auth := toy_auth; e_eh := EStrict; e_kernel_id := "k1"; e_user_name := "user"; e_session_id := "s1";
    e_guid := ticks; e_now := fun _ => "2024-01-01T00:00:00Z"; e_stdin := stdin_msg; e_logger := fun _ => Ok tt; e_regex := fun _ => Ok (fun _ => false);
    e_indet := IndetVal (fun _ => false); e_long_id := fun s => Ok s; e_configure := act (AStream "stdout" "hi") (Ret tt); e_interp := fun _ => Ret JNull; e_split := false; e_debugger := None;
    e_callback := fun _ _ _ => Ret tt; e_handler := fun _ _ => Ret tt; e_input := fun _ _ => Ret tt |}.
  eexists. split; [exact demo_utf8|]. split; vm_compute; reflexivity.
Qed.
Print Assumptions C57_configure_refuted.
