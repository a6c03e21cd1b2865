(** Properties C41-C47, C63-C65: the debugger. *)
From Verif Require Import Base BaseFacts Json JsonText JsonTextProofs JsonParseProofs Auth Message MessageProofs Dap DapSpec DapProofs DapQueue DapMain Debugger DebuggerSpec DebuggerProofs DebuggerState DebuggerRequests DebuggerReplies DebuggerLock.

(** A debugger for the examples: the adapter gives always the same answer, and an event arrives with each answer. *)
Definition demo_dbg (started : bool) (event answer : string) : dbgenv :=
  {| dn_regs := []; dn_event_regs := []; dn_start := fun _ => ([], Ok started); dn_stop := fun _ => ([], Ok tt);
     dn_info := fun _ => {| i_seed := 7; i_prefix := "/tmp/x_1/"; i_suffix := ".cpp"; i_rich := false; i_paths := [] |};
     dn_tmp := fun code => Ok ("/tmp/x_1/" +++ code +++ ".cpp"); dn_ack := fun _ => ([], true);
     dn_reply := fun _ => (match parse event with Ok j => [j] | _ => [] end, Some answer) |}.
Definition no_files : files := {| f_at := fun _ => Absent; f_create := fun _ => true |}.
Definition jtext (t : string) : json := match parse t with Ok j => j | _ => JNull end.
Definition req_init : json := jtext "{""command"":""initialize"",""seq"":1}".
Definition req_bps : json := jtext "{""command"":""setBreakpoints"",""seq"":2,""arguments"":{""source"":{""path"":""a""},""breakpoints"":[{""line"":3}]}}".
Definition req_info : json := jtext "{""command"":""debugInfo"",""seq"":9}".
Definition req_disc : json := jtext "{""command"":""disconnect"",""seq"":10}".
Definition ev_stopped : string := "{""type"":""event"",""event"":""stopped"",""body"":{""threadId"":5}}".
Definition ok_text : string := "{""type"":""response"",""success"":true}".
Definition demo_history : list hop := [HRequest (JObj []) req_init; HRequest (JObj []) req_bps].
Lemma demo_sendable : sendable (demo_history ++ [HRequest (JObj []) req_disc; HRequest (JObj []) req_info]).
Proof. intros h m [[= <- <-]|[[= <- <-]|[[= <- <-]|[[= <- <-]|[]]]]]; eexists; vm_compute; reflexivity. Qed.
Lemma demo_left b ev an : breakpoints_left (demo_dbg b ev an) /\ threads_left (demo_dbg b ev an) /\ only_started (demo_dbg b ev an) /\ forall name, unregistered (demo_dbg b ev an) name.
Proof. split; [intros n b' p []|]. split; [split; intros []|]. split; [intros n b' p []|intros n b' p []]. Qed.
Ltac run_history := repeat (first [apply hist_nil | eapply hist_done; [vm_compute; reflexivity|] | eapply hist_events; [vm_compute; reflexivity|]]).

(** C41. Every message forwarded by the debugger is one frame whose text reads back as the message. *)
Theorem C41_forwarded : forall E fs l d m f, sendable l -> history E (d_init fs) l d -> In (DSend m f) (d_log d) ->
  exists t, dump EStrict m = Ok t /\ f = dap_frame t /\ (jgood m = true -> parse t = Ok m) /\ ((N.of_nat (slen t) < 2 ^ 64)%N -> dap_message t f).
Proof.
  intros E fs l d m f Hs H Hin. destruct (frames_history E fs l d Hs H m f Hin) as (t & D & ->). exists t. repeat split; auto using frame_message.
  intros G. eapply parse_dump; [exact G| |exact D]. apply dump_strict_some. exists t. now apply dump_ok.
Qed.
Print Assumptions C41_forwarded.
Example C41_forwarded_ex : exists d, history (demo_dbg true ev_stopped ok_text) (d_init no_files) demo_history d /\
  In (DSend req_init ("Content-Length: 32" +++ SEPARATOR +++ "{""command"":""initialize"",""seq"":1}")) (d_log d).
Proof. eexists. split; [run_history|]. vm_compute. tauto. Qed.

(** C42 *)
Theorem C42_breakpoints_reported : forall E fs l d h m d' r,
  breakpoints_left E -> unregistered E "debugInfo" -> sendable l -> history E (d_init fs) l d -> is_request "debugInfo" m ->
  process_request E h m d = (d', Done r) ->
  d' = d /\ answers m true r /\ exists body bs table, jfield "body" r = Some body /\ jfield "breakpoints" body = Some (JArr bs) /\
    Forall2 reported bs table /\ strings_sorted (map fst table) /\
    forall src bps, In (src, bps) table <-> is_started (d_log d) /\ in_force (d_log d) src bps.
Proof.
  intros E fs l d h m d' r L U Hs H C R. rewrite (process_debug_info _ _ _ _ C U) in R. apply debug_info_done in R as (-> & A & body & B & _ & Bp & _).
  destruct (bps_history _ _ _ _ L Hs H) as [S F]. destruct (gate_history _ _ _ _ Hs H) as [G _]. split; auto. split; auto.
  exists body. destruct (d_started d).
  - eexists _, (d_bps d). split; [exact B|]. split; [exact Bp|]. split; [|split; [now apply msorted_keys|]].
    + clear. induction (d_bps d) as [|p q IH]; cbn; constructor; auto. split; reflexivity.
    + intros src bps. rewrite <- F. split; [intros Hin; split; [now apply G|now apply in_mfind]|intros [_ Hf]; now apply mfind_in].
  - exists [], []. split; [exact B|]. split; [exact Bp|]. split; [constructor|]. split; [exact Logic.I|]. intros src bps. split; [intros []|].
    intros [Hs' _]. apply G in Hs'. discriminate.
Qed.
Print Assumptions C42_breakpoints_reported.
(** C42. debugInfo always answers. *)
Theorem C42_answered : forall E h m d seq, unregistered E "debugInfo" -> is_request "debugInfo" m -> jfield "seq" m = Some seq ->
  exists r, process_request E h m d = (d, Done r).
Proof. intros E h m d seq U C S. rewrite (process_debug_info _ _ _ _ C U). eapply debug_info_answers; eauto. Qed.
Print Assumptions C42_answered.
Example C42_ex : exists d r body, history (demo_dbg true ev_stopped ok_text) (d_init no_files) demo_history d /\
  process_request (demo_dbg true ev_stopped ok_text) (JObj []) req_info d = (d, Done r) /\
  jfield "body" r = Some body /\ jfield "breakpoints" body = Some (jtext "[{""breakpoints"":[{""line"":3}],""source"":""a""}]") /\
  in_force (d_log d) "a" [jtext "{""line"":3}"].
Proof.
  eexists _, _, _. split; [run_history|]. split; [vm_compute; reflexivity|]. split; [reflexivity|]. split; [vm_compute; reflexivity|].
  eexists [_; _; _; _; _; _], req_bps, _, [_; _]. split; [vm_compute; reflexivity|]. split.
  - split; [reflexivity|]. eexists _, _, _. repeat split; vm_compute; reflexivity.
  - split; [intros [H|[H|[]]]; discriminate|]. intros m' f' bps' [H|[H|[]]]; discriminate.
Qed.
Example C42_disconnected_ex : exists d r body, history (demo_dbg true ev_stopped ok_text) (d_init no_files) (demo_history ++ [HRequest (JObj []) req_disc]) d /\
  process_request (demo_dbg true ev_stopped ok_text) (JObj []) req_info d = (d, Done r) /\
  jfield "body" r = Some body /\ jfield "breakpoints" body = Some (JArr []) /\ jfield "stoppedThreads" body = Some (JArr []).
Proof. eexists _, _, _. split; [run_history|]. split; [vm_compute; reflexivity|]. split; [reflexivity|]. split; vm_compute; reflexivity. Qed.

(** C43 *)
Theorem C43_stopped_threads : forall E fs l d h m d' r,
  threads_left E -> unregistered E "debugInfo" -> sendable l -> history E (d_init fs) l d -> is_request "debugInfo" m ->
  process_request E h m d = (d', Done r) ->
  exists body ts, jfield "body" r = Some body /\ jfield "stoppedThreads" body = Some (JArr (map JInt ts)) /\ zsorted ts /\
    forall t, In t ts <-> is_stopped (d_log d) t.
Proof.
  intros E fs l d h m d' r L U Hs H C R. rewrite (process_debug_info _ _ _ _ C U) in R. apply debug_info_done in R as (-> & A & body & B & _ & _ & T).
  destruct (threads_history _ _ _ _ L Hs H) as [S F]. exists body, (d_threads d). auto.
Qed.
Print Assumptions C43_stopped_threads.
Example C43_ex : exists d r body, history (demo_dbg true ev_stopped ok_text) (d_init no_files) demo_history d /\
  process_request (demo_dbg true ev_stopped ok_text) (JObj []) req_info d = (d, Done r) /\
  jfield "body" r = Some body /\ jfield "stoppedThreads" body = Some (JArr [JInt 5]) /\ is_stopped (d_log d) 5.
Proof.
  eexists _, _, _. split; [run_history|]. split; [vm_compute; reflexivity|]. split; [reflexivity|]. split; [vm_compute; reflexivity|].
  eexists [_; _; _; _; _; _; _], _, [_]. split; [vm_compute; reflexivity|]. split.
  - split; [reflexivity|]. eexists _, _. repeat split; vm_compute; reflexivity.
  - split; [intros [H|[]]; discriminate|]. intros j' [H|[]]; discriminate.
Qed.
Example C43_continued_ex : exists d, history (demo_dbg true ev_stopped ok_text) (d_init no_files)
    (demo_history ++ [HEvents [jtext "{""event"":""stopped"",""body"":{""threadId"":-2}}"; jtext "{""event"":""continued"",""body"":{""threadId"":5}}"]]) d /\ d_threads d = [(-2)%Z].
Proof. eexists. split; [run_history|]. vm_compute. reflexivity. Qed.

(** C44. Nothing is sent to the adapter unless the debugger is started. *)
Theorem C44_gated : forall E fs l d, only_started E -> sendable l -> history E (d_init fs) l d ->
  forall a x b, d_log d = (a ++ x :: b)%list -> to_adapter x -> is_started a.
Proof. intros E fs l d Ho Hs H. destruct (gate_history E fs l d Hs H) as [_ G]. exact (G Ho). Qed.
Print Assumptions C44_gated.
(** C44. The debugger is started ([d_started], in the hypotheses of C45-C47 and C63) when a start succeeded and it was not stopped since. *)
Theorem C44_started : forall E fs l d, sendable l -> history E (d_init fs) l d -> (d_started d = true <-> is_started (d_log d)).
Proof. intros E fs l d Hs H. exact (proj1 (gate_history E fs l d Hs H)). Qed.
Print Assumptions C44_started.
(** C44. An ordinary request has no effect and is answered with an empty object. *)
Theorem C44_ignored : forall E fs l d h m name, sendable l -> history E (d_init fs) l d -> ~ is_started (d_log d) ->
  is_request name m -> unregistered E name -> name <> "initialize" -> name <> "disconnect" -> name <> "debugInfo" ->
  process_request E h m d = (d, Done (JObj [])).
Proof.
  intros E fs l d h m name Hs H N C U N1 N2 N3. destruct (gate_history E fs l d Hs H) as [G _].
  rewrite (process_plain _ _ _ _ _ C N1 N2). rewrite (no_handler E false name U).
  - destruct (d_started d) eqn:S; [|reflexivity]. elim N. now apply G.
  - unfold builtin. destruct (String.eqb_spec name "debugInfo"); [contradiction|reflexivity].
Qed.
Print Assumptions C44_ignored.
(** C44. A start that fails: the reply says so, and the debugger is still not started. *)
Theorem C44_start_fails : forall E fs l d h m d' r events, sendable l -> history E (d_init fs) l d -> ~ is_started (d_log d) ->
  is_request "initialize" m -> unregistered E "initialize" -> dn_start E (d_log d) = (events, Ok false) ->
  process_request E h m d = (d', Done r) ->
  jfield "success" r = Some (JBool false) /\ jfield "type" r = Some (JStr "response") /\ jfield "command" r = Some (JStr "initialize") /\
  jfield "request_seq" r = jfield "seq" m /\ ~ is_started (d_log d') /\
  exists s, d_log d' = (d_log d ++ s)%list /\ forall x, In x s -> ~ to_adapter x.
Proof.
  intros E fs l d h m d' r events Hs H N C U St R. destruct (gate_history E fs l d Hs H) as [G _].
  assert (S : d_started d = false) by (destruct (d_started d); auto; elim N; now apply G).
  revert R. unfold process_request, gbind at 1, glift at 1. rewrite (proj2 (jget_ok _ _ _) C). cbn [io_of]. change (json_eqb (JStr "initialize") (JStr "initialize")) with true. cbn iota.
  intros R. apply gbind_done in R as (d1 & reply & R1 & R). destruct (adds_start E m _ _ _ R1) as (s & L & F).
  unfold do_start in R1. rewrite S, St in R1. apply gbind_done in R1 as (d2 & [] & Dl & R1). apply gbind_done in R1 as (d3 & ok & R2 & R1). apply glift_done in R2 as [-> [= <-]].
  apply gbind_done in R1 as (d3 & [] & [= <-] & R1). apply glift_done in R1 as [-> R1].
  apply gbind_done in R as (d4 & name & R2 & R). apply glift_done in R2 as [-> [= <-]].
  rewrite (no_handler E false "initialize" U eq_refl) in R. unfold gbind at 1 in R. cbn [d_started d_set_started dlog] in R.
  change (json_eqb (JStr "initialize") (JStr "disconnect")) with false in R. cbn iota in R. injection R as <- <-.
  destruct (jget "seq" m) as [seq| |] eqn:Sq; try discriminate. cbn [bind] in R1. injection R1 as <-. apply jget_ok in Sq. rewrite Sq. repeat split; try reflexivity.
  - cbn [d_log dlog d_set_started]. rewrite started_app. intros [X|[X _]]; [discriminate|]. apply N. destruct (adds_deliver E events _ _ _ Dl) as (s2 & L2 & F2). rewrite L2 in X.
    destruct X as (u & w & Ex & Nx). clear -Ex Nx F2.
    revert w Ex Nx. induction s2 as [|y s2 IH] using rev_ind; intros w Ex Nx; [rewrite app_nil_r in Ex; exists u, w; auto|].
    apply Forall_app in F2 as [F2 Fy]. rewrite app_assoc in Ex. apply snoc_split in Ex as [(b' & -> & Ex)|(_ & Ex & _)].
    + apply (IH F2 b' Ex). intros Hin. apply Nx. apply in_app_iff. auto.
    + inversion Fy as [|? ? Hy]; subst. destruct Hy.
  - exists s. split; auto. rewrite Forall_forall in F. exact F.
Qed.
Print Assumptions C44_start_fails.
(** C44. disconnect stops the debugger; if it was not started the answer is an empty object and nothing is sent. *)
Theorem C44_disconnect : forall E fs l d h m d' r, sendable l -> history E (d_init fs) l d -> is_request "disconnect" m -> unregistered E "disconnect" ->
  process_request E h m d = (d', Done r) ->
  d_started d' = false /\ d_bps d' = [] /\ d_threads d' = [] /\ (exists a, d_log d' = (a ++ [DStop])%list) /\
  (~ is_started (d_log d) -> r = JObj [] /\ exists s, d_log d' = (d_log d ++ s)%list /\ forall x, In x s -> ~ to_adapter x).
Proof.
  intros E fs l d h m d' r Hs H C U R. destruct (gate_history E fs l d Hs H) as [G _].
  revert R. unfold process_request, gbind at 1, glift at 1. rewrite (proj2 (jget_ok _ _ _) C). cbn [io_of]. change (json_eqb (JStr "disconnect") (JStr "initialize")) with false. cbn iota.
  change (json_eqb (JStr "disconnect") (JStr "disconnect")) with true. cbn iota.
  intros R. apply gbind_done in R as (d1 & reply & R1 & R). injection R1 as <- <-. apply gbind_done in R as (d1 & name & R2 & R). apply glift_done in R2 as [-> [= <-]].
  rewrite (no_handler E false "disconnect" U eq_refl) in R. apply gbind_done in R as (d1 & r1 & R1 & R). apply gbind_done in R as (d2 & [] & R2 & R). injection R as <- <-.
  destruct (adds_stop E _ _ _ R2) as (s & L & F).
  assert (X : d_started d2 = false /\ d_bps d2 = [] /\ d_threads d2 = [] /\ exists a, d_log d2 = (a ++ [DStop])%list).
  { clear -R2. unfold do_stop in R2. destruct (dn_stop E (d_log d1)) as [evs q]. apply gbind_done in R2 as (d3 & [] & _ & R). apply gbind_done in R as (d4 & [] & _ & R). injection R as <-. cbn. eauto. }
  destruct X as (X1 & X2 & X3 & X4). repeat split; auto. 
  all: intros; destruct (d_started d) eqn:S; [elim H0; now apply G|]; injection R1 as <- <-; auto.
  exists s. split; auto. rewrite Forall_forall in F. exact F.
Qed.
Print Assumptions C44_disconnect.
Example C44_ex : exists d, history (demo_dbg false ev_stopped ok_text) (d_init no_files) [HRequest (JObj []) req_init] d /\ ~ is_started (d_log d) /\
  process_request (demo_dbg false ev_stopped ok_text) (JObj []) req_bps d = (d, Done (JObj [])).
Proof.
  eexists. split; [run_history|]. split; [|vm_compute; reflexivity]. intros (a & b & H & _). destruct a as [|x [|y a]]; discriminate.
Qed.
Example C44_start_fails_ex : exists d' r, process_request (demo_dbg false ev_stopped ok_text) (JObj []) req_init (d_init no_files) = (d', Done r) /\
  r = jtext "{""command"":""initialize"",""request_seq"":1,""seq"":3,""success"":false,""type"":""response""}" /\ d_log d' = [DStart false].
Proof. eexists _, _. split; [vm_compute; reflexivity|]. split; vm_compute; reflexivity. Qed.
Example C44_disconnect_ex : exists d' r, process_request (demo_dbg true ev_stopped ok_text) (JObj []) req_disc (d_init no_files) = (d', Done r) /\ r = JObj [] /\ d_log d' = [DStop].
Proof. eexists _, _. split; [vm_compute; reflexivity|]. split; reflexivity. Qed.

(** C45 *)
Theorem C45_window : forall E h m d d' r, is_request "variables" m -> unregistered E "variables" -> d_started d = true ->
  process_request E h m d = (d', Done r) ->
  exists pre text reply, d_log d' = (pre ++ [DRecv text])%list /\ parse text = Ok reply /\
    forall l s c, body_has "variables" (JArr l) reply -> asked "start" m s -> asked "count" m c -> (int_min <= s + c <= int_max)%Z ->
    exists v, windowed l s c v /\ with_body "variables" v reply r.
Proof.
  intros E h m d d' r C U S R. destruct (process_forwarded E h m "variables" page d d' r C U eq_refl S R) as (pre & text & reply & L & P & Pg).
  exists pre, text, reply. split; auto. split; auto. intros l s c B As Ac Ov.
  assert (W : jwf reply = true) by (pose proof (parse_json_ok _ _ P) as W; unfold json_ok in W; rewrite !andb_true_iff in W; tauto).
  assert (O : in_int (s + c) = true) by (unfold in_int; apply andb_true_iff; split; apply Z.leb_le; lia).
  destruct (page_value m reply l s c W B As Ac O) as [V1 V2].
  assert (Hd : in_window l s c \/ ~ in_window l s c) by (unfold in_window; lia).
  destruct Hd as [Hw|Hw]; [|rewrite (V2 Hw) in Pg; discriminate]. destruct (V1 Hw) as (r' & Pr & Wb). rewrite Pr in Pg. injection Pg as <-.
  exists (windowed_value l s c). split; auto. apply windowed_iff. auto.
Qed.
Print Assumptions C45_window.
(** C45. A window inside the list is answered, any other throws. *)
Theorem C45_range : forall m text reply l s c, parse text = Ok reply -> body_has "variables" (JArr l) reply -> asked "start" m s -> asked "count" m c -> (int_min <= s + c <= int_max)%Z ->
  ((exists v, windowed l s c v) -> exists r, page m reply = Ok r) /\ ((forall v, ~ windowed l s c v) -> page m reply = Exn (Std "out_of_range.401")).
Proof.
  intros m text reply l s c P B As Ac Ov.
  assert (W : jwf reply = true) by (pose proof (parse_json_ok _ _ P) as W; unfold json_ok in W; rewrite !andb_true_iff in W; tauto).
  assert (O : in_int (s + c) = true) by (unfold in_int; apply andb_true_iff; split; apply Z.leb_le; lia).
  destruct (page_value m reply l s c W B As Ac O) as [V1 V2]. split.
  - intros (v & Hv). apply windowed_iff in Hv as [Hv _]. destruct (V1 Hv) as (r & Hr & _). eauto.
  - intros N. apply V2. intros Hw. apply (N (windowed_value l s c)). apply windowed_iff. auto.
Qed.
Print Assumptions C45_range.
(** C45. A window that would be empty is answered with null, not with an empty list; a failed reply cannot be paged. *)
Definition req_vars (args : string) : json := jtext ("{""command"":""variables"",""seq"":4,""arguments"":" +++ args +++ "}").
Definition three : json := jtext "{""body"":{""variables"":[1,2,3]},""success"":true}".
Theorem C45_empty_window_null :
  page (req_vars "{""start"":3}") three = Ok (jtext "{""body"":{""variables"":null},""success"":true}") /\
  page (req_vars "{""start"":2,""count"":2}") three = Exn (Std "out_of_range.401") /\
  page (req_vars "{""start"":1,""count"":1}") (jtext "{""success"":false,""message"":""no""}") = Exn type_error_304.
Proof. repeat split; vm_compute; reflexivity. Qed.
Print Assumptions C45_empty_window_null.
Example C45_ex : exists d' r, process_request (demo_dbg true ev_stopped "{""body"":{""variables"":[1,2,3]},""success"":true}") (JObj []) (req_vars "{""start"":1,""count"":2}")
    (d_set_started true (d_init no_files)) = (d', Done r) /\ r = jtext "{""body"":{""variables"":[2,3]},""success"":true}".
Proof. eexists _, _. split; [vm_compute; reflexivity|]. vm_compute. reflexivity. Qed.
Example C45_asked_ex : asked "start" (req_vars "{""start"":1}") 1 /\ asked "count" (req_vars "{""start"":1}") 0 /\ windowed [JInt 1; JInt 2] 1 0 (JArr [JInt 2]).
Proof.
  split; [|split].
  - eexists. split; [vm_compute; reflexivity|]. right. eexists. split; [vm_compute; reflexivity|]. reflexivity.
  - eexists. split; [vm_compute; reflexivity|]. left. split; reflexivity.
  - apply (win_tail [JInt 1; JInt 2] [JInt 1] [JInt 2]); auto; discriminate.
Qed.

(** C46 *)
Theorem C46_first_string_frame_removed : forall E h m d d' r, is_request "stackTrace" m -> unregistered E "stackTrace" -> d_started d = true ->
  process_request E h m d = (d', Done r) ->
  exists pre text reply, d_log d' = (pre ++ [DRecv text])%list /\ parse text = Ok reply /\
    forall l l', body_has "stackFrames" (JArr l) reply -> first_removed l l' -> with_body "stackFrames" (JArr l') reply r.
Proof.
  intros E h m d d' r C U S R. destruct (process_forwarded E h m "stackTrace" (fun _ => stack_frames) d d' r C U eq_refl S R) as (pre & text & reply & L & P & Pg).
  exists pre, text, reply. split; auto. split; auto. intros l l' B F.
  assert (W : jwf reply = true) by (pose proof (parse_json_ok _ _ P) as W; unfold json_ok in W; rewrite !andb_true_iff in W; tauto).
  destruct (stack_frames_value reply l l' W B F) as (r' & Pr & Wb). rewrite Pr in Pg. injection Pg as <-. exact Wb.
Qed.
Print Assumptions C46_first_string_frame_removed.
(** C46. The case covered: every frame has a path. *)
Theorem C46_covered : forall l, Forall (fun f => exists p, has_path f p) l -> exists l', first_removed l l'.
Proof. exact removed_exists. Qed.
Print Assumptions C46_covered.
(** C46. In that case there is a reply. *)
Theorem C46_answered : forall text reply l l', parse text = Ok reply -> body_has "stackFrames" (JArr l) reply -> first_removed l l' ->
  exists r, stack_frames reply = Ok r /\ with_body "stackFrames" (JArr l') reply r.
Proof.
  intros text reply l l' P. apply stack_frames_value. pose proof (parse_json_ok _ _ P) as W. unfold json_ok in W. rewrite !andb_true_iff in W. tauto.
Qed.
Print Assumptions C46_answered.
(** C46. A frame without a source (which the protocol allows) is changed, and so is a failed reply. *)
Theorem C46_other_frames_refuted :
  stack_frames (jtext "{""body"":{""stackFrames"":[{""id"":1},{""id"":2,""source"":{""path"":""<string>""}}]}}") =
    Ok (jtext "{""body"":{""stackFrames"":[{""id"":1,""source"":{""path"":null}}]}}") /\
  stack_frames (jtext "{""success"":false,""message"":""no""}") = Ok (jtext "{""success"":false,""message"":""no"",""body"":{""stackFrames"":null}}").
Proof. split; vm_compute; reflexivity. Qed.
Print Assumptions C46_other_frames_refuted.
Definition frames_text : string := "{""body"":{""stackFrames"":[{""id"":1,""source"":{""path"":""a""}},{""id"":2,""source"":{""path"":""<string>""}},{""id"":3,""source"":{""path"":""<string>""}}]},""success"":true}".
Example C46_ex : exists d' r, process_request (demo_dbg true ev_stopped frames_text) (JObj []) (jtext "{""command"":""stackTrace"",""seq"":4}")
    (d_set_started true (d_init no_files)) = (d', Done r) /\
  r = jtext "{""body"":{""stackFrames"":[{""id"":1,""source"":{""path"":""a""}},{""id"":3,""source"":{""path"":""<string>""}}]},""success"":true}".
Proof. eexists _, _. split; [vm_compute; reflexivity|]. vm_compute. reflexivity. Qed.

(** C47. [code_taken]: the code is the string in the arguments, or empty if something else is there. The reply names the file; a file that can be read stays as it is, an absent one is created with the code, a file that can only be written is overwritten. *)
Theorem C47_dumped : forall E h m d d' r code name p, is_request "dumpCell" m -> unregistered E "dumpCell" -> d_started d = true ->
  code_taken m code -> dn_tmp E code = Ok name -> c_string name p -> process_request E h m d = (d', Done r) ->
  answers m true r /\ (exists body, jfield "body" r = Some body /\ jfield "sourcePath" body = Some (JStr name)) /\
  (forall q, q <> p -> f_at (d_fs d') q = f_at (d_fs d) q) /\
  (forall c, reads (d_fs d) p c -> d_fs d' = d_fs d) /\
  (f_at (d_fs d) p = Absent -> f_at (d_fs d') p = if f_create (d_fs d) p then Plain true true code else Absent) /\
  (forall w c, f_at (d_fs d) p = Plain false w c -> f_at (d_fs d') p = Plain false w (if w then code else c)).
Proof.
  intros E h m d d' r code name p C U S Co T Cs R. destruct (process_builtin E h m "dumpCell" (dump_cell_request E) d d' r C U eq_refl S R) as (d1 & H1 & R1).
  apply header_fs in H1 as [H1 _]. destruct (dump_cell_done E m d1 d' r code name Co T R1) as (A & B & ->). cbn [d_fs d_set_fs]. rewrite <- H1.
  split; [exact A|]. split; [exact B|]. pose proof (cpath_c _ _ Cs) as Cp. split; [|split; [|split]].
  - intros q Hp. destruct (open_in (d_fs d1) name); auto. unfold write_out. rewrite Cp. apply String.eqb_neq in Hp.
    destruct (f_at (d_fs d1) p) as [| |r0 w b]; [destruct (f_create (d_fs d1) p); cbn; rewrite ?Hp; auto|auto|destruct w; cbn; rewrite ?Hp; auto].
  - intros c H. now rewrite (reads_open _ _ _ _ Cs H).
  - intros Ab. unfold open_in, write_out. rewrite Cp, Ab. destruct (f_create (d_fs d1) p); [|exact Ab]. cbn. now rewrite String.eqb_refl.
  - intros w c Ab. unfold open_in, write_out. rewrite Cp, Ab. destruct w; [|exact Ab]. cbn. now rewrite String.eqb_refl.
Qed.
Print Assumptions C47_dumped.
(** C47. Such a request is answered whatever stands in the place of the code. *)
Lemma process_built E h m name k d d1 : is_request name m -> unregistered E name -> builtin E true name = Some k -> d_started d = true ->
  send_header E h d = (d1, Done tt) -> process_request E h m d = k m d1.
Proof.
  intros C U B S H. assert (N : builtin E false name = None /\ name <> "initialize" /\ name <> "disconnect").
  { unfold builtin in *. destruct (String.eqb_spec name "debugInfo") as [->|]; [discriminate|]. split; auto. split; intros ->; discriminate. }
  destruct N as (N1 & N2 & N3). rewrite (process_plain _ _ _ _ _ C) by auto. rewrite (no_handler _ _ _ U N1), S, (own_handler _ _ _ _ U B).
  unfold gbind. now rewrite H.
Qed.
Theorem C47_answered : forall E h m d d1 code name seq, is_request "dumpCell" m -> unregistered E "dumpCell" -> d_started d = true -> jfield "seq" m = Some seq ->
  code_taken m code -> dn_tmp E code = Ok name -> send_header E h d = (d1, Done tt) -> exists d' r, process_request E h m d = (d', Done r).
Proof.
  intros E h m d d1 code name seq C U S Sq Co T H. rewrite (process_built E h m "dumpCell" (dump_cell_request E) d d1 C U eq_refl S H).
  unfold dump_cell_request, gbind, glift, gmod. rewrite (code_taken_value _ _ Co). cbn [io_of]. rewrite T. cbn [io_of].
  rewrite (response_value _ _ _ _ _ Sq C). cbn [io_of]. eauto.
Qed.
Print Assumptions C47_answered.
(** C47. If the file cannot be created the reply still says success and names it; an existing file is trusted whatever it contains. *)
Definition req_dump (code : string) : json := jtext ("{""command"":""dumpCell"",""seq"":6,""arguments"":{""code"":""" +++ code +++ """}}").
Definition started_with (fs : files) : dbg := d_set_started true (d_init fs).
Theorem C47_exists_refuted :
  (exists fs d' r body, process_request (demo_dbg true ev_stopped ok_text) (JObj []) (req_dump "x") (started_with fs) = (d', Done r) /\
     answers (req_dump "x") true r /\ jfield "body" r = Some body /\ jfield "sourcePath" body = Some (JStr "/tmp/x_1/x.cpp") /\ f_at (d_fs d') "/tmp/x_1/x.cpp" = Absent) /\
  (exists fs d' r body, process_request (demo_dbg true ev_stopped ok_text) (JObj []) (req_dump "x") (started_with fs) = (d', Done r) /\
     answers (req_dump "x") true r /\ jfield "body" r = Some body /\ jfield "sourcePath" body = Some (JStr "/tmp/x_1/x.cpp") /\ f_at (d_fs d') "/tmp/x_1/x.cpp" = Plain true true "y").
Proof.
  split.
  - exists {| f_at := fun _ => Absent; f_create := fun _ => false |}. eexists _, _, _. split; [vm_compute; reflexivity|]. repeat split; reflexivity.
  - exists {| f_at := fun _ => Plain true true "y"; f_create := fun _ => false |}. eexists _, _, _. split; [vm_compute; reflexivity|]. repeat split; reflexivity.
Qed.
Print Assumptions C47_exists_refuted.
Example C47_ex : exists d' r, process_request (demo_dbg true ev_stopped ok_text) (JObj []) (req_dump "x") (started_with no_files) = (d', Done r) /\
  f_at (d_fs d') "/tmp/x_1/x.cpp" = Plain true true "x" /\ f_at (d_fs d') "/tmp/x_1/y.cpp" = Absent.
Proof. eexists _, _. split; [vm_compute; reflexivity|]. split; reflexivity. Qed.

(** C63. The source of a dumped cell is its code, after any further requests and events. *)
Theorem C63_round_trip : forall E h m d d1 r1 code name p l d2 h' m' d3 r a s,
  is_request "dumpCell" m -> unregistered E "dumpCell" -> d_started d = true -> code_of m code -> dn_tmp E code = Ok name ->
  process_request E h m d = (d1, Done r1) ->
  c_string name p -> f_at (d_fs d) p = Absent -> f_create (d_fs d) p = true ->
  sendable l -> (forall fs, ~ In (HFiles fs) l) -> history E d1 l d2 -> d_started d2 = true ->
  is_request "source" m' -> unregistered E "source" -> jfield "arguments" m' = Some a -> jfield "source" a = Some s -> jfield "path" s = Some (JStr name) ->
  process_request E h' m' d2 = (d3, Done r) ->
  answers m' true r /\ exists body, jfield "body" r = Some body /\ jfield "content" body = Some (JStr code).
Proof.
  intros E h m d d1 r1 code name p l d2 h' m' d3 r a s C U S Co T R Cs Ab Cr Hs Hf H S2 C2 U2 A Sr P R2.
  destruct (C47_dumped E h m d d1 r1 code name p C U S (or_introl Co) T Cs R) as (_ & _ & _ & _ & D & _). specialize (D Ab). rewrite Cr in D.
  assert (Rd : readable name code d1) by (apply (reads_open _ _ _ _ Cs); right; eauto).
  pose proof (readable_history E d1 l d2 name code Hs Hf Rd H) as Rd2.
  destruct (process_builtin E h' m' "source" source_request d2 d3 r C2 U2 eq_refl S2 R2) as (d4 & H4 & R4). apply header_fs in H4 as [H4 _].
  assert (G : get_source_path m' = Ok name) by (unfold get_source_path; rewrite (proj2 (jget_ok _ _ _) A); cbn [bind]; rewrite (proj2 (jget_ok _ _ _) Sr); cbn [bind]; rewrite (proj2 (jget_ok _ _ _) P); reflexivity).
  destruct (source_done m' d4 d3 r name G R4) as (_ & V & _). apply V. rewrite H4. exact Rd2.
Qed.
Print Assumptions C63_round_trip.
(** C63. The source request gives the content of any file it can read, and a failure for any other. *)
Theorem C63_source : forall E h m d d' r a s path p, is_request "source" m -> unregistered E "source" -> d_started d = true ->
  jfield "arguments" m = Some a -> jfield "source" a = Some s -> jfield "path" s = Some (JStr path) -> c_string path p -> process_request E h m d = (d', Done r) ->
  d_fs d' = d_fs d /\
  (forall c, reads (d_fs d) p c -> answers m true r /\ exists body, jfield "body" r = Some body /\ jfield "content" body = Some (JStr c)) /\
  (unreadable (d_fs d) p -> answers m false r /\ jfield "message" r = Some (JStr "source unavailable")).
Proof.
  intros E h m d d' r a s path p C U S A Sr P Cs R.
  destruct (process_builtin E h m "source" source_request d d' r C U eq_refl S R) as (d4 & H4 & R4). apply header_fs in H4 as [H4 _].
  assert (G : get_source_path m = Ok path) by (unfold get_source_path; rewrite (proj2 (jget_ok _ _ _) A); cbn [bind]; rewrite (proj2 (jget_ok _ _ _) Sr); cbn [bind]; rewrite (proj2 (jget_ok _ _ _) P); reflexivity).
  destruct (source_done m d4 d' r path G R4) as (-> & V1 & V2). rewrite H4 in V1, V2. split; [auto|split].
  - intros c H. exact (V1 c (reads_open _ _ _ _ Cs H)).
  - intros H. exact (V2 (unreadable_open _ _ _ Cs H)).
Qed.
Print Assumptions C63_source.
(** C63. A source request without a path is answered like one for a file that cannot be read. *)
Definition path_missing (m : json) : Prop := exists a, jfield "arguments" m = Some a /\
  ((forall f, a <> JObj f) \/ exists s, jfield "source" a = Some s /\ ((forall f, s <> JObj f) \/ exists v, jfield "path" s = Some v /\ forall t, v <> JStr t)).
Lemma path_missing_value m : path_missing m -> or_empty (get_source_path m) = Ok "".
Proof.
  intros (a & A & H). unfold get_source_path. rewrite (proj2 (jget_ok _ _ _) A). cbn [bind]. destruct H as [H|(s & Sr & H)]; [destruct a; try reflexivity; now destruct (H m0)|].
  rewrite (proj2 (jget_ok _ _ _) Sr). cbn [bind]. destruct H as [H|(v & V & H)]; [destruct s; try reflexivity; now destruct (H m0)|].
  rewrite (proj2 (jget_ok _ _ _) V). cbn [bind]. destruct v; try reflexivity. now destruct (H s0).
Qed.
Theorem C63_no_path : forall E h m d d1 seq, is_request "source" m -> unregistered E "source" -> d_started d = true -> jfield "seq" m = Some seq ->
  path_missing m -> unreadable (d_fs d) "" -> send_header E h d = (d1, Done tt) ->
  exists d' r, process_request E h m d = (d', Done r) /\ d_fs d' = d_fs d /\ answers m false r /\ jfield "message" r = Some (JStr "source unavailable").
Proof.
  intros E h m d d1 seq C U S Sq Pm Un H. rewrite (process_built E h m "source" source_request d d1 C U eq_refl S H). apply header_fs in H as [H _].
  assert (O : open_in (d_fs d1) "" = None) by (rewrite H; apply (unreadable_open _ "" ""); [split; [intros [|? ?] b X; discriminate X|now left]|exact Un]).
  unfold source_request, gbind, glift. rewrite (path_missing_value _ Pm). cbn [io_of]. rewrite O, (response_value _ _ _ _ _ Sq C). cbn [io_of].
  eexists _, _. split; [reflexivity|]. split; [exact H|]. unfold answers. rewrite Sq, C. repeat split.
Qed.
Print Assumptions C63_no_path.
Example C63_no_path_ex : let m := jtext "{""command"":""source"",""seq"":7,""arguments"":{""source"":5}}" in is_request "source" m /\ path_missing m /\ unreadable no_files "" /\
  exists d', process_request (demo_dbg true ev_stopped ok_text) (JObj []) m (started_with no_files) =
    (d', Done (jtext "{""type"":""response"",""request_seq"":7,""success"":false,""command"":""source"",""message"":""source unavailable"",""body"":[null]}")).
Proof. split; [vm_compute; reflexivity|]. split; [eexists; split; [vm_compute; reflexivity|]; right; eexists; split; [reflexivity|]; left; discriminate|]. split; [now left|]. eexists. vm_compute. reflexivity. Qed.
Example C47_answered_ex : let m := jtext "{""command"":""dumpCell"",""seq"":6,""arguments"":{""code"":[1]}}" in code_taken m "" /\
  exists d' r, process_request (demo_dbg true ev_stopped ok_text) (JObj []) m (started_with no_files) = (d', Done r) /\ f_at (d_fs d') "/tmp/x_1/.cpp" = Plain true true "".
Proof. split; [right; split; [|reflexivity]; eexists; split; [vm_compute; reflexivity|]; right; eexists; split; [reflexivity|discriminate]|]. eexists _, _. split; vm_compute; reflexivity. Qed.
Definition req_source (path : string) : json := jtext ("{""command"":""source"",""seq"":7,""arguments"":{""source"":{""path"":""" +++ path +++ """}}}").
Example C63_ex : exists d1 r1 d2 d3 r, process_request (demo_dbg true ev_stopped ok_text) (JObj []) (req_dump "x") (started_with no_files) = (d1, Done r1) /\
  c_string "/tmp/x_1/x.cpp" "/tmp/x_1/x.cpp" /\
  history (demo_dbg true ev_stopped ok_text) d1 [HRequest (JObj []) req_bps; HRequest (JObj []) (req_dump "yy")] d2 /\
  process_request (demo_dbg true ev_stopped ok_text) (JObj []) (req_source "/tmp/x_1/x.cpp") d2 = (d3, Done r) /\
  jfield "body" r = Some (jtext "{""content"":""x""}").
Proof.
  eexists _, _, _, _, _. split; [vm_compute; reflexivity|]. split; [apply no_nul; reflexivity|]. split; [run_history|]. split; [vm_compute; reflexivity|]. vm_compute. reflexivity.
Qed.

(** C64. The header of the request is the first thing the client gets, and it gets it once. *)
Theorem C64_header_first : forall E h m d d' o, only_started E -> process_request E h m d = (d', o) ->
  exists s, d_log d' = (d_log d ++ s)%list /\
    ((forall x, In x s -> ~ to_adapter x) \/
     exists pre t rest, s = (pre ++ DHeader t :: rest)%list /\ dump EStrict h = Ok t /\ (forall x, In x pre -> ~ to_adapter x) /\ (forall x, In x rest -> ~ is_header x)).
Proof.
  intros E h m d d' o Ho R. destruct (request_heads E h m Ho _ _ _ R) as (s & L & [F|(pre & t & rest & -> & F1 & D & F2)]); exists s || eexists; split; eauto.
  - left. now apply Forall_forall.
  - right. exists pre, t, rest. repeat split; auto; now apply Forall_forall.
Qed.
Print Assumptions C64_header_first.
Example C64_ex : exists d' r, process_request (demo_dbg true "" ok_text) (jtext "{""msg_id"":""1""}") req_init (d_init no_files) = (d', Done r) /\
  d_log d' = [DStart true; DHeader "{""msg_id"":""1""}"; DSend req_init ("Content-Length: 32" +++ SEPARATOR +++ "{""command"":""initialize"",""seq"":1}"); DRecv ok_text].
Proof. eexists _, _. split; [vm_compute; reflexivity|]. vm_compute. reflexivity. Qed.

(** C65. One message at a time. *)
Theorem C65_lock_step : forall E fs l d, history E (d_init fs) l d -> one_at_a_time (d_log d).
Proof. intros E fs l d H. apply phase_one. eapply locked_history; [|exact H]. reflexivity. Qed.
Print Assumptions C65_lock_step.
Example C65_ex : exists d, history (demo_dbg true ev_stopped ok_text) (d_init no_files) demo_history d /\
  map (fun a => match a with DSend _ _ => "s" | DRecv _ => "r" | DHeader _ => "h" | DEvent _ => "e" | _ => "." end) (d_log d) = [".";"h";"s";"e";"r";"h";"s";"e";"r"].
Proof. eexists. split; [run_history|]. vm_compute. reflexivity. Qed.
