(** The kernels that come with xeus: C107. *)
From Verif Require Import Base BaseFacts Json JsonText Utf8 Utf8Proofs Auth Message WireSpec WireLemmas History HistoryProofs Comm CommSpec Tree Kernel KernelSpec KernelProofs KernelRun KernelDispatch KernelExec KernelSession KernelDemo
  Server ServerSpec ServerProofs ServerExec ServerLemmas ServerDemo SequentialSpec SequentialProofs LiveSpec Live LiveDemo PropsLive Shipped ShippedSpec ShippedProofs.

(** C107. The example kernel and the kernel of the tests. At the start they publish the status "starting" and remember nothing. *)
Theorem C107_start : forall E W T, shipped E W T -> env_utf8 E -> forall q k r, run (kernel_start E) (kinit tt q) = (k, r) ->
  r = Ok tt /\ memory_of k = fresh /\ gists (k_trace k) = [Said SHELL "status" (JObj []) (JObj [("execution_state", JStr "starting")])].
Proof.
  intros E W T SH EU q k r R. destruct (started E W T SH EU q) as (k' & R' & _ & M & _ & G). rewrite R in R'. injection R' as <- ->. auto.
Qed.
Print Assumptions C107_start.

(** Whatever the messages, if [session] says what the kernel says to them - to each what [does] says, between busy and idle -, then
    that is what it says, in this order and nothing else, and its count, history and parent headers are as [session] says. *)
Theorem C107_kernel : forall E W T, shipped E W T -> env_utf8 E -> forall q k r, run (kernel_start E) (kinit tt q) = (k, r) ->
  forall ws gs y, session W T E fresh ws gs y -> forall k', serves E ws k k' ->
  memory_of k' = y /\ exists evs, k_trace k' = (k_trace k ++ evs)%list /\ gists evs = gs.
Proof.
  intros E W T SH EU q k r R ws gs y S k' H. destruct (started E W T SH EU q) as (k1 & R' & RD & M & _ & G). rewrite R in R'. injection R' as <- ->.
  destruct (session_serves E W T SH EU _ _ _ _ S k k' RD M H) as (_ & M' & X). auto.
Qed.
Print Assumptions C107_kernel.

(** Under the default server: as long as the messages handed over are covered by [session], the server does not end with an
    uncaught exception, no message is taken from the shell socket to be aborted, what has been said is an initial part of what
    [session] says, and all of it as soon as the main thread is between two messages. *)
Theorem C107_session : forall E W T, shipped E W T -> env_utf8 E -> e_split E = false ->
  forall k r start ls s, run (kernel_start E) (kinit tt []) = (k, r) -> drun (fun c w => dispatch E w c) (d_init k start) ls s ->
  forall gs y, session W T E fresh (handed ls) gs y ->
  place_of (d_pc s) <> Failed /\ (forall w, ~ In (Took w) ls) /\ prefix (gists (happened ls)) gs /\
  (place_of (d_pc s) = Between -> gists (happened ls) = gs /\ memory_of (m_k (d_mem s)) = y).
Proof. intros E W T SH EU Hsp k r start ls s R H gs y S. eapply run_session; eauto. Qed.
Print Assumptions C107_session.

(** Under fair scheduling of the main thread: everything that arrives is taken and said, unless the kernel is told to stop. These
    kernels never wait for input. *)
Theorem C107_eventually : forall E W T, shipped E W T -> env_utf8 E -> e_split E = false ->
  forall k r start sigma lab, run (kernel_start E) (kinit tt []) = (k, r) ->
  executes (acts (fun c w => dispatch E w c)) sigma lab -> sigma 0 = d_init k start ->
  just (acts (fun c w => dispatch E w c)) sigma lab AMain ->
  (forall n, exists gs y, session W T E fresh (handed (observed lab n)) gs y) ->
  forall n, exists m, n <= m /\
    (In StopRequest (observed lab m) \/
     prefix (arrived SHELL (observed lab n)) (shell_taken (observed lab m)) /\ prefix (arrived CONTROL (observed lab n)) (control_taken (observed lab m)) /\
     exists gs y, session W T E fresh (handed (observed lab m)) gs y /\ gists (happened (observed lab m)) = gs /\ memory_of (m_k (d_mem (sigma m))) = y).
Proof.
  intros E W T SH EU Hsp k r start sigma lab R Hex H0 HM Hcov n.
  pose proof (fun i => obs_run _ k start sigma lab Hex H0 i) as Hrun.
  assert (HI : forall i, ~ waits_input (sigma i)).
  { intros i. pose proof (keeps_programs deaf _ (fun c w => deaf_dispatch E W T SH w c) k start _ _ (Hrun i)) as D. unfold waits_input.
    destruct (d_pc (sigma i)) as [| | |p rs| | |p| | | | | |]; try tauto; destruct p as [| | |o q]; try tauto; destruct o; try tauto; now destruct D. }
  assert (HI' : forall i, exists j, i <= j /\ ~ waits_input (sigma j)) by (intros i; exists i; auto).
  assert (HC : forall i, place_of (d_pc (sigma i)) <> Failed /\ forall w, ~ In (Took w) (observed lab i)).
  { intros i. destruct (Hcov i) as (gs & y & S). destruct (C107_session E W T SH EU Hsp k r start _ _ R (Hrun i) gs y S) as (A & B & _). auto. }
  assert (HX : forall i, d_pc (sigma i) <> MCrash) by (intros i X; apply (HC i); rewrite X; reflexivity).
  assert (HT : forall i w, controlling (d_pc (sigma i)) -> lab i <> Some (AMain, Took w)).
  { intros i w _ L. apply (proj2 (HC (S i)) w). rewrite (obs_S lab i _ _ L). apply in_or_app. right. now left. }
  destruct (C75_shell unit E k start sigma lab Hsp Hex H0 HM HI' n) as (m1 & L1 & [P1|[P1|P1]]); [|now destruct (HX m1)|eauto].
  destruct (C75_control unit E k start sigma lab Hsp Hex H0 HM HI' HT n) as (m2 & L2 & [P2|[P2|P2]]); [|now destruct (HX m2)|eauto].
  assert (Hown : forall c w, always own ((fun c w => dispatch E w c) c w)) by (intros c w; now apply own_dispatch).
  destruct (rests _ Hown k start sigma lab Hex H0 HM HI' (Nat.max m1 m2)) as (m & Lm & Hr). unfold at_rest in Hr.
  exists m. split; [lia|]. right. split; [|split].
  - destruct P1 as [x Hx], (obs_prefix lab m1 m ltac:(lia)) as [z Hz]. rewrite Hz. unfold shell_taken in *. rewrite flat_map_app, Hx, <- app_assoc. eexists. reflexivity.
  - destruct P2 as [x Hx], (obs_prefix lab m2 m ltac:(lia)) as [z Hz]. rewrite Hz. unfold control_taken in *. rewrite flat_map_app, Hx, <- app_assoc. eexists. reflexivity.
  - destruct (Hcov m) as (gs & y & S). exists gs, y. split; [exact S|].
    destruct (C107_session E W T SH EU Hsp k r start _ _ R (Hrun m) gs y S) as (A & _ & _ & B). apply B.
    destruct (place_of (d_pc (sigma m))); [reflexivity|now destruct Hr|now destruct A].
Qed.
Print Assumptions C107_eventually.

(** ** Examples *)
Definition ship (conf : ucode unit unit) (int : request -> ucode unit json) (pol : indet) : env unit := {|
  e_crypto := toy; e_auth := toy_auth; e_eh := EStrict; e_kernel_id := "k1"; e_user_name := "user"; e_session_id := "s1";
  e_guid := ticks; e_now := fun _ => "2024-01-01T00:00:00Z"; e_stdin := stdin_msg; e_logger := fun _ => Ok tt;
  e_regex := fun _ => Ok (fun _ => false); e_indet := pol; e_long_id := fun s => Ok s;
  e_configure := conf; e_interp := int; e_split := false; e_debugger := None;
  e_callback := fun _ _ _ => Ret tt; e_handler := fun _ _ => Ret tt; e_input := fun _ _ => Ret tt |}.
Definition example_env : env unit := ship custom_configure custom_interpreter IndetUB.
Definition test_env (pol : indet) : env unit := ship test_configure test_interpreter pol.
Lemma ship_utf8 conf int pol : env_utf8 (ship conf int pol).
Proof. repeat split; try (apply utf8_lit; reflexivity). - intros n. apply ticks_utf8. - intros n. apply utf8_lit; reflexivity. Qed.
Lemma example_shipped : shipped example_env example_manner (fun _ => False).
Proof. apply sh_example. constructor; reflexivity. Qed.
Lemma test_shipped pol : shipped (test_env pol) test_manner (fun name => name = "test_target").
Proof. apply sh_test. constructor; reflexivity. Qed.
Definition hello : xmessage := execute "hello, world" [].
Definition complete_H : xmessage := request_msg ["peer"] "complete_request" (JObj [("code", JStr "He"); ("cursor_pos", JInt 2)]).
Definition bye : xmessage := request_msg ["peer"] "shutdown_request" (JObj [("restart", JBool true)]).
Definition stray : xmessage := request_msg ["peer"] "comm_msg" (JObj [("comm_id", JStr "c1")]).
Definition said_status (m : xmessage) (c : channel) (st : string) : gist := Said c "status" (m_header (m_base m)) (JObj [("execution_state", JStr st)]).
Definition hello_params : xparams :=
  {| x_code := "hello, world"; x_silent := false; x_store := true; x_count := 1; x_ue := JObj []; x_stdin := true; x_stop := false |}.
Lemma hello_reads : exec_params (m_content (m_base hello)) hello_params.
Proof. eexists. split; [reflexivity|]. repeat split; first [right; reflexivity|left; split; reflexivity|idtac]. Qed.
Ltac react m ty :=
  match goal with |- reacts ?W ?T ?E ?y ?c ?w ?l _ =>
    let l' := eval cbn in (removelast (tl l)) in
    refine (re_done W T E y c w m ty l' _ _ _ _ _); [reflexivity|eexists; split; reflexivity|] end.
(** A cell, a completion, a message to an unknown comm and a shutdown, to the example kernel. *)
Definition example_ws : list (channel * frames) := [(SHELL, wire_of hello); (SHELL, wire_of complete_H); (SHELL, wire_of stray); (CONTROL, wire_of bye)].
Definition example_gs : list gist :=
  [said_status hello SHELL "busy";
   Said SHELL "execute_input" (m_header (m_base hello)) (JObj [("code", JStr "hello, world"); ("execution_count", JInt 1)]);
   Said SHELL "execute_result" (m_header (m_base hello)) (JObj [("data", JObj [("text/plain", JStr "Hello World !!")]); ("execution_count", JInt 1); ("metadata", JObj [])]);
   Said SHELL "error" (m_header (m_base hello)) (JObj [("ename", JStr "TypeError"); ("evalue", JStr "123"); ("traceback", JArr [JStr "!@#$"; JStr "*(*"])]);
   Replied SHELL ["peer"] "execute_reply" (m_header (m_base hello)) (JObj [("execution_count", JInt 1); ("status", JStr "ok")]);
   said_status hello SHELL "idle";
   said_status complete_H SHELL "busy";
   Replied SHELL ["peer"] "complete_reply" (m_header (m_base complete_H))
     (JObj [("cursor_end", JInt 2); ("cursor_start", JInt 5); ("matches", JArr [JStr "Hello"; JStr "Hey"; JStr "Howdy"]); ("status", JStr "ok")]);
   said_status complete_H SHELL "idle";
   said_status stray SHELL "busy"; said_status stray SHELL "idle";
   said_status bye CONTROL "busy";
   Said CONTROL "shutdown" (m_header (m_base bye)) (JObj [("restart", JBool true)]);
   Replied CONTROL ["peer"] "shutdown_reply" (m_header (m_base bye)) (JObj [("restart", JBool true)]);
   said_status bye CONTROL "idle"].
Definition hello_entry : entry := {| h_session := "0"; h_line := "1"; h_input := "hello, world"; h_output := "" |}.
Definition example_memory : memory :=
  {| y_count := 1; y_history := [hello_entry]; y_parent :=
       with_parent CONTROL (m_header (m_base bye)) (with_parent SHELL (m_header (m_base stray)) (with_parent SHELL (m_header (m_base complete_H))
         (with_parent SHELL (m_header (m_base hello)) (y_parent fresh)))) |}.
Example C107_example_ex : shipped example_env example_manner (fun _ => False) /\ env_utf8 example_env /\
  session example_manner (fun _ => False) example_env fresh example_ws example_gs example_memory.
Proof.
  split; [exact example_shipped|]. split; [apply ship_utf8|].
  refine (se_snoc _ _ _ _ [_; _; _] (firstn 11 example_gs) _ _ _ _ _ (se_snoc _ _ _ _ [_; _] (firstn 9 example_gs) _ _ _ _ _ (se_snoc _ _ _ _ [_] (firstn 6 example_gs) _ _ _ _ _
    (se_snoc _ _ _ _ [] [] _ _ _ _ _ (se_nil _ _ _ _) _) _) _) _).
  - react hello "execute_request". exact (do_execute _ _ _ SHELL ["peer"] _ 0 [] _ hello_params 1 hello_reads eq_refl ltac:(unfold int_max; lia)).
  - react complete_H "complete_request".
    exact (do_complete example_manner _ _ SHELL ["peer"] _ _ _ [("code", JStr "He"); ("cursor_pos", JInt 2)] "He" 2 (or_intror eq_refl) (proj1 (num_field_value [("code", JStr "He"); ("cursor_pos", JInt 2)] "cursor_pos" (-1) 2) eq_refl)).
  - react stray "comm_msg". exact (do_comm example_manner _ _ SHELL ["peer"] _ _ _ "comm_msg" [("comm_id", JStr "c1")] "c1" (or_intror (or_introl eq_refl)) eq_refl ltac:(cbn; lia)).
  - react bye "shutdown_request". exact (do_shutdown example_manner _ _ CONTROL ["peer"] _ _ _ [("restart", JBool true)] true (or_intror eq_refl)).
Qed.
(** A run of the server with these messages, to the end. *)
Definition example_choices : list (choice * nat) :=
  [(GArrive SHELL (wire_of hello), 1); (GArrive SHELL (wire_of complete_H), 1); (GArrive SHELL (wire_of stray), 1); (GMain, 200); (GArrive CONTROL (wire_of bye), 1); (GMain, 100)].
Definition example_start : kstate unit := fst (run (kernel_start example_env) (kinit tt [])).
Definition example_run := dexec (fun c w => dispatch example_env w c) example_choices [] (d_init example_start ["start"]).
Example C107_session_ex : handed (fst example_run) = example_ws /\ place_of (d_pc (snd example_run)) = Between /\ gists (happened (fst example_run)) = example_gs.
Proof. vm_compute. auto. Qed.
(** The same messages in an infinite execution whose main thread is scheduled fairly; the kernel does not stop before the last one. *)
Definition example_path := dpath (fun c w => dispatch example_env w c) (expand example_choices) (d_init example_start ["start"]).
Definition example_lab := dlab (fun c w => dispatch example_env w c) (expand example_choices) (d_init example_start ["start"]).
Lemma session_prefix (W : manner) T (E : env unit) y0 ws gs y : session W T E y0 ws gs y -> forall a, prefix a ws -> exists gs' y', session W T E y0 a gs' y'.
Proof.
  induction 1 as [y|y ws gs y1 c w gs1 y2 S IH R]; intros a [b Hb].
  - symmetry in Hb. apply app_eq_nil in Hb. destruct Hb. subst. eexists _, _. constructor.
  - destruct b as [|x b] using rev_ind.
    + rewrite app_nil_r in Hb. subst a. eexists _, _. eapply se_snoc; eassumption.
    + rewrite app_assoc in Hb. apply app_inj_tail in Hb. apply IH. exists b. apply Hb.
Qed.
Lemma example_handed n : prefix (handed (observed example_lab n)) example_ws.
Proof.
  destruct (Nat.le_gt_cases n (List.length (expand example_choices))) as [L|L].
  - destruct (obs_prefix example_lab n _ L) as [z Hz]. exists (handed z). unfold handed. rewrite <- flat_map_app, <- Hz. unfold example_lab. rewrite dlab_labels. vm_compute. reflexivity.
  - exists []. rewrite app_nil_r. unfold example_lab. rewrite dlab_end, dlab_labels by lia. vm_compute. reflexivity.
Qed.
Example C107_eventually_ex : example_path 0 = d_init example_start ["start"] /\
  executes (acts (fun c w => dispatch example_env w c)) example_path example_lab /\ just (acts (fun c w => dispatch example_env w c)) example_path example_lab AMain /\
  (forall n, exists gs y, session example_manner (fun _ => False) example_env fresh (handed (observed example_lab n)) gs y) /\
  arrived SHELL (observed example_lab 3) = [wire_of hello; wire_of complete_H; wire_of stray] /\ shell_taken (observed example_lab 3) = [] /\
  ~ In StopRequest (observed example_lab 200) /\ shell_taken (observed example_lab 200) = [wire_of hello; wire_of complete_H; wire_of stray].
Proof.
  split; [reflexivity|]. split; [apply dpath_executes|]. split; [eapply dpath_just; [reflexivity|vm_compute; reflexivity]|].
  split; [intros n; eapply session_prefix; [exact (proj2 (proj2 C107_example_ex))|apply example_handed]|].
  unfold example_lab. rewrite !dlab_labels. split; [vm_compute; reflexivity|]. split; [vm_compute; reflexivity|]. split; [vm_compute; intuition discriminate|vm_compute; reflexivity].
Qed.

(** The kernel of the tests. *)
Definition test_ws : list (channel * frames) := [(SHELL, wire_of hello); (SHELL, ["junk"]); (SHELL, wire_of (simple "kernel_info_request"))].
Definition test_gs : list gist :=
  [said_status hello SHELL "busy";
   Said SHELL "execute_input" (m_header (m_base hello)) (JObj [("code", JStr "hello, world"); ("execution_count", JInt 1)]);
   Said SHELL "stream" (m_header (m_base hello)) (JObj [("name", JStr "stdout"); ("text", JStr "hello, world")]);
   Said SHELL "execute_result" (m_header (m_base hello)) (JObj [("data", JObj [("text/plain", JStr "hello, world")]); ("execution_count", JInt 1); ("metadata", JNull)]);
   Replied SHELL ["peer"] "execute_reply" (m_header (m_base hello)) (JObj [("execution_count", JInt 1); ("payload", JArr []); ("status", JStr "ok"); ("user_expressions", JObj [])]);
   said_status hello SHELL "idle";
   said_status (simple "kernel_info_request") SHELL "busy";
   Replied SHELL ["peer"; "x"] "kernel_info_reply" (m_header (m_base (simple "kernel_info_request")))
     (JObj [("banner", JStr "test_kernel"); ("implementation", JStr "cpp_test"); ("implementation_version", JStr "1.0.0");
            ("language_info", JObj [("file_extension", JStr ".cpp"); ("mimetype", JStr "text/x-c++src"); ("name", JStr "cpp"); ("version", JStr "14.0.0")]);
            ("protocol_version", JStr "5.3")]);
   said_status (simple "kernel_info_request") SHELL "idle"].
Example C107_test_ex : shipped (test_env IndetUB) test_manner (fun name => name = "test_target") /\ env_utf8 (test_env IndetUB) /\
  exists y, session test_manner (fun name => name = "test_target") (test_env IndetUB) fresh test_ws test_gs y /\ y_count y = 1%Z /\ y_history y = [hello_entry].
Proof.
  split; [apply test_shipped|]. split; [apply ship_utf8|]. eexists {| y_count := 1; y_history := [hello_entry]; y_parent := _ |}. split; [|split; reflexivity].
  refine (se_snoc _ _ _ _ [_; _] (firstn 6 test_gs) _ _ _ _ _ (se_snoc _ _ _ _ [_] (firstn 6 test_gs) _ _ _ [] _
    (se_snoc _ _ _ _ [] [] _ _ _ _ _ (se_nil _ _ _ _) _) _) _).
  - react hello "execute_request". exact (do_execute test_manner _ _ SHELL ["peer"] _ 0 [] _ hello_params 1 hello_reads eq_refl ltac:(unfold int_max; lia)).
  - apply re_rejected. eexists. reflexivity.
  - react (simple "kernel_info_request") "kernel_info_request". exact (do_kernel_info test_manner _ _ SHELL ["peer"; "x"] _ _ _ _).
Qed.

(** ** What is not covered *)
(** The kernel of the tests does not move the comm of its target out of the callback: its destruction reads a flag that no constructor
    has initialised. This is undefined; and if the byte read happens to be true, the registry keeps the address of the destroyed comm and the next
    message to it, well formed as it is, uses the destroyed object. *)
Definition opens : xmessage := request_msg ["peer"] "comm_open" (JObj [("comm_id", JStr "c1"); ("target_name", JStr "test_target")]).
Definition test_after (pol : indet) (ws : list (channel * frames)) : kstate unit * res unit :=
  fold_left (fun x cw => match x with (k, Ok _) => run (dispatch (test_env pol) (snd cw) (fst cw)) k | _ => x end) ws (run (kernel_start (test_env pol)) (kinit tt [])).
Theorem C107_comm_open_refuted :
  test_kernel (test_env IndetUB) /\ accepted (test_env IndetUB) (wire_of opens) opens /\
  (exists k why, test_after IndetUB [(SHELL, wire_of opens)] = (k, UB why)) /\
  (exists k a, test_after (IndetVal (fun _ => true)) [(SHELL, wire_of opens)] = (k, Ok tt) /\ registry (k_comms k) = [("c1", a)] /\ heap (k_comms k) a = None) /\
  exists k why, test_after (IndetVal (fun _ => true)) [(SHELL, wire_of opens); (SHELL, wire_of stray)] = (k, UB why).
Proof.
  split; [constructor; reflexivity|]. split; [reflexivity|]. split; [|split].
  - vm_compute. eauto.
  - eexists _, 0. split; [vm_compute; reflexivity|]. split; reflexivity.
  - vm_compute. eauto.
Qed.
Print Assumptions C107_comm_open_refuted.
(** A history request for a negative number of entries is undefined in both kernels. *)
Definition negative : xmessage := request_msg ["peer"] "history_request" (JObj [("hist_access_type", JStr "tail"); ("n", JInt (-1))]).
Theorem C107_history_refuted : forall E W T, shipped E W T -> env_utf8 E -> forall w, accepted E w negative ->
  forall q k r, run (kernel_start E) (kinit tt q) = (k, r) -> exists k' why, run (dispatch E w SHELL) k = (k', UB why).
Proof.
  intros E W T SH EU w Ha q k r R. destruct (run_dispatch_accepted E w SHELL negative "history_request" k (sh_quiet E W T SH) EU Ha) as (fb & _ & R1); [eexists; split; reflexivity|].
  cbv zeta in R1. rewrite R1. set (s1 := with_status _ _ _ _ _). unfold handle. cbn [handlers mfind String.eqb Ascii.eqb Bool.eqb].
  rewrite run_catch. unfold history_request. rewrite run_bind, run_kdo. cbn [kstep fst snd]. rewrite run_bind, run_res.
  change (process_request (e_regex E) (m_content (m_base negative)) (k_history s1)) with (get_tail (-1) true false (k_history s1)).
  unfold get_tail. replace (Z.min _ _ <? 0)%Z with true; [eauto|]. symmetry. apply Z.ltb_lt. lia.
Qed.
Print Assumptions C107_history_refuted.
Example C107_history_ex : accepted example_env (wire_of negative) negative.
Proof. reflexivity. Qed.
