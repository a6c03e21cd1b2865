(** C109: what the shipped kernels say under the split servers. *)
From Verif Require Import Base BaseFacts Json JsonText Utf8 Utf8Proofs Hex Auth Message MessageProofs WireSpec WireLemmas History HistoryProofs Comm Tree Kernel KernelSpec KernelProofs KernelRun KernelDemo
  Server ServerSpec ServerProofs ServerDemo ServerExec ServerLemmas SequentialSpec Heard Client Shipped ShippedSpec ShippedProofs Split SplitSpec SplitStop LiveSpec Live SplitLiveSpec SplitLive SplitLiveDemo SplitAnsweredSpec SplitRests PropsSplitLive
  Host HostSpec HostProofs Construct ConstructSpec ConstructProofs Program ProgramSpec ProgramProofs PropsHost PropsConstruct PropsShipped PropsProgram ThreadSpec ThreadProofs.

(** C109. Each thread is a kernel of its own. Whatever the two threads are asked, as long as each message keeps to the thread it is for
    ([keeps_to]): if [session] says what a kernel would say that is given nothing but the messages of thread [c], then thread [c] says this,
    in this order and nothing else - up to a point, and all of it when the thread is not handling a message -; it takes nothing from the shell
    socket to abort it; and the count and the history after it are those that [session] says for the shell thread. *)
Theorem C109_thread : forall E W T v, shipped E W T -> env_utf8 E ->
  forall k r start ls s, run (kernel_start E) (kinit tt []) = (k, r) -> yrun v (fun c w => dispatch E w c) (dispatch_internal E) (y_init k start) ls s ->
  (forall c w, In (YHand c w) ls -> keeps_to E c w) ->
  forall c gs y, ShippedSpec.session W T E fresh (handed_to c ls) gs y ->
  (forall w, ~ In (YTook c w) ls) /\ prefix (gists (events c ls)) gs /\ (rests c s -> gists (events c ls) = gs) /\
  (rests c s -> c = SHELL -> k_count (m_k (y_mem s)) = y_count y /\ k_history (m_k (y_mem s)) = y_history y).
Proof.
  intros E W T v SH EU k r start ls s R H K c gs y S. destruct (started E W T SH EU []) as (k' & R' & RD & M & _). rewrite R in R'. injection R' as <- ->.
  destruct (run_says E W T v SH EU k RD M start ls s c gs y H K S) as (A & B & D). split; [exact A|]. split; [exact B|]. split; [apply D|].
  intros X Hc. apply (proj2 (D X)). now rewrite Hc.
Qed.
Print Assumptions C109_thread.
(** If this holds of both threads, the process does not end with an uncaught exception. *)
Theorem C109_no_crash : forall E W T v, shipped E W T -> env_utf8 E ->
  forall k r start ls s, run (kernel_start E) (kinit tt []) = (k, r) -> yrun v (fun c w => dispatch E w c) (dispatch_internal E) (y_init k start) ls s ->
  (forall c w, In (YHand c w) ls -> keeps_to E c w) -> (forall c, exists gs y, ShippedSpec.session W T E fresh (handed_to c ls) gs y) ->
  y_end s <> Some Crashed.
Proof.
  intros E W T v SH EU k r start ls s R H K S. destruct (started E W T SH EU []) as (k' & R' & RD & M & _). rewrite R in R'. injection R' as <- ->.
  exact (run_end E W T v SH EU k RD M start ls s H K S).
Qed.
Print Assumptions C109_no_crash.

Lemma taken_handed c ls : (forall c' w, ~ In (YTook c' w) ls) -> taken c ls = List.map snd (handed_to c ls).
Proof.
  unfold taken, handed_to. induction ls as [|l ls IH]; intros H; [reflexivity|]. cbn [flat_map]. rewrite map_app, <- IH by (intros c' w X; apply (H c' w); now right).
  f_equal. destruct l; try reflexivity; try (now destruct (Kernel.chan_eqb c c0)). destruct (H c0 w). now left.
Qed.
(** Under fair scheduling of the two threads: everything that arrives is handled and said by its thread, unless the server is asked to stop. *)
Theorem C109_eventually : forall E W T v, shipped E W T -> env_utf8 E ->
  let listener := fun c w => dispatch E w c in
  forall k r start sigma lab, run (kernel_start E) (kinit tt []) = (k, r) -> execution v listener (dispatch_internal E) sigma lab -> sigma 0 = y_init k start ->
  fair v listener (dispatch_internal E) sigma lab TShell -> fair v listener (dispatch_internal E) sigma lab TControl ->
  (forall n c w, lab n = Some (YHand c w) -> keeps_to E c w) ->
  (forall n c, exists gs y, ShippedSpec.session W T E fresh (handed_to c (seen lab n)) gs y) ->
  forall c n, exists m, n <= m /\
    (asked_stop (seen lab m) \/
     prefix (came c (seen lab n)) (List.map snd (handed_to c (seen lab m))) /\
     exists gs y, ShippedSpec.session W T E fresh (handed_to c (seen lab m)) gs y /\ gists (events c (seen lab m)) = gs).
Proof.
  intros E W T v SH EU listener k r start sigma lab R Hex H0 HS HT HK HC c n.
  destruct (started E W T SH EU []) as (k' & R' & RD & M & _). rewrite R in R'. injection R' as <- ->.
  pose proof (fun i => SplitLive.obs_run v E k start sigma lab Hex H0 i) as Hrun.
  assert (HK' : forall i c w, In (YHand c w) (seen lab i) -> keeps_to E c w).
  { intros i c' w. induction i as [|i IH]; [intros []|]. cbn [seen]. intros X. apply in_app_or in X as [X|X]; [auto|]. destruct (lab i) as [l|] eqn:El; [|destruct X]. destruct X as [->|[]]. eauto. }
  assert (Sn : forall i, sane (sigma i)) by (intros i; apply (run_inv E W T v SH EU k RD M start _ _ (Hrun i) (HK' i))).
  assert (NC : forall i, y_end (sigma i) <> Some Crashed) by (intros i; apply (run_end E W T v SH EU k RD M start _ _ (Hrun i) (HK' i) (HC i))).
  assert (NT : forall i c w, ~ In (YTook c w) (seen lab i)).
  { intros i c'. destruct (HC i c') as (gs & y & S). apply (run_says E W T v SH EU k RD M start _ _ c' gs y (Hrun i) (HK' i) S). }
  assert (Off : keeps_off lab).
  { intros i w X. apply (NT (S i) CONTROL w). cbn [seen]. rewrite X. apply in_or_app. right. now left. }
  assert (Calls : forall i, ~ calls_itself (sigma i)).
  { intros i. pose proof (sn_owned _ (Sn i) SHELL) as O. pose proof (sn_intern _ (Sn i)) as N. cbn [doing] in O. unfold calls_itself. destruct (y_sh (sigma i)) as [| |g b| |g| |]; auto; [|now destruct (N g)].
    destruct g as [p|kk]; [|now destruct O]. destruct p as [| | |o q]; auto. destruct O as [p' [O _]]. destruct o; auto. }
  assert (In_ : forall c, gets_input c sigma).
  { intros c' i. exists i. split; [lia|]. pose proof (sn_owned _ (Sn i) c') as O. pose proof (sn_intern _ (Sn i)) as N. unfold at_stdin. destruct c'; cbn [doing] in O.
    - destruct (y_sh (sigma i)) as [| |g b| |g| |]; auto; [|now destruct (N g)]. destruct g as [p|kk]; auto. destruct p as [| | |o q]; auto. destruct O as [p' [O _]]. destruct o; auto.
    - destruct (y_ct (sigma i)) as [| |g| | | | | | | | |]; auto. destruct g as [p|kk]; auto. destruct p as [| | |o q]; auto. destruct O as [p' [O _]]. destruct o; auto. }
  assert (X : exists m, n <= m /\ (asked_stop (seen lab m) \/ prefix (came c (seen lab n)) (taken c (seen lab m)))).
  { destruct c.
    - destruct (C78_shell _ v E k start sigma lab Hex H0 HS Calls (In_ SHELL) n) as (m & Lm & [D|[D|D]]); [exists m; auto|now destruct (NC m)|exists m; auto].
    - destruct (C78_control _ v E k start sigma lab Hex H0 HS HT Calls (In_ SHELL) (In_ CONTROL) Off n) as (m & Lm & [D|[D|D]]); [exists m; auto|now destruct (NC m)|exists m; auto]. }
  destruct X as (m & Lm & X).
  assert (Y : exists m', m <= m' /\ (over sigma m' \/ rests c (sigma m'))).
  { destruct c; [exact (shell_rests v E sigma lab Hex HS Calls (In_ SHELL) m)|].
    exact (control_rests v E k start sigma lab Hex H0 HS Calls (In_ SHELL) HT Off (In_ CONTROL) m). }
  destruct Y as (m' & Lm' & Y). exists m'. split; [lia|]. destruct (SplitLive.obs_prefix lab m m' Lm') as [z Hz].
  assert (Grow : asked_stop (seen lab m) -> asked_stop (seen lab m')) by (intros [c' A]; exists c'; rewrite Hz; apply in_or_app; now left).
  destruct X as [X|X]; [auto|]. destruct Y as [Y|Y].
  - left. destruct (over_or_stop v E k start sigma lab Hex H0 m' (or_introl Y)) as [D|D]; [now destruct (NC m')|exact D].
  - right. split; [|destruct (HC m' c) as (gs & y & S); exists gs, y; split; [exact S|]; now apply (run_says E W T v SH EU k RD M start _ _ c gs y (Hrun m') (HK' m') S)].
    rewrite <- (taken_handed c (seen lab m') (NT m')). destruct X as [z' X]. rewrite Hz. exists (z' ++ taken c z)%list. rewrite app_assoc, <- X. apply flat_map_app.
Qed.
Print Assumptions C109_eventually.

(** The test programs with a split server (test/main_shell.cpp, test/main_control.cpp): each thread publishes and sends the frames that [session]
    says for its messages, in this order, signed for the reader of the connection file. *)
Theorem C109_client : forall C p argv c sv, launched C argv c -> server_of p = Some sv -> forall v, main C p argv = Ok v ->
  forall ls s, yrun sv (fun ch w => dispatch (v_env v) w ch) (dispatch_internal (v_env v)) (y_init (v_kernel v) (v_start v)) ls s ->
  (forall ch w, In (YHand ch w) ls -> keeps_to (v_env v) ch w) ->
  exists user session, user_is C user /\ forall th gs y, ShippedSpec.session (manner_of p) (targets_of p) (v_env v) fresh (handed_to th ls) gs y ->
  exists said later, gs = (said ++ later)%list /\ (rests th s -> later = []) /\
    Forall2 (tells (p_crypto C) c user session) (on_iopub said) (told_by th ls) /\
    forall ch, Forall2 (tells (p_crypto C) c user session) (on_socket ch said) (replied_by th ch ls).
Proof.
  intros C p argv c sv [(f & text & doc & H1 & H2 & H3 & H4) H5 H6 H7 H8] Hsv v M ls s H K.
  destruct (main_serves C p argv f text doc c H1 H2 H3 H4 H5 H6 H7 H8) as (v' & M' & So & SH & EU & Hc & Hu & He & Ha & R & St). rewrite M in M'. injection M' as <-.
  exists (get_user_name C), (e_session_id (v_env v)). split; [apply user_name_is|]. intros th gs y S.
  destruct (C109_thread _ _ _ sv SH EU _ _ _ _ _ R H K th gs y S) as (_ & [later P] & B & _). exists (gists (events th ls)), later.
  pose proof (split_proper _ _ _ sv SH _ _ _ _ H th) as Hp. rewrite <- Hc, <- Hu. split; [exact P|]. split; [|split].
  - intros Hb. rewrite (B Hb) in P. apply (f_equal (@List.length _)) in P. rewrite app_length in P. destruct later; [reflexivity|cbn in P; lia].
  - rewrite told_pubs. eapply published_tells; eassumption.
  - intros ch. eapply replied_tells; eassumption.
Qed.
Print Assumptions C109_client.

(** ** Examples *)
Definition info : xmessage := simple "kernel_info_request".
Lemma keeps_one (E : env unit) c w m ty : accepted E w m -> typed (m_header (m_base m)) ty -> homely c ty -> keeps_to E c w.
Proof.
  intros A Ty H m' ty' A' Ty'. unfold accepted in *. rewrite A in A'. injection A' as <-. destruct Ty as (f & E1 & E2), Ty' as (f' & E1' & E2'). rewrite E1 in E1'. injection E1' as <-.
  destruct (mfind "msg_type" f); [|congruence]. rewrite E2 in E2'. injection E2' as <-. exact H.
Qed.
Definition duo : env unit := test_env IndetUB.
Definition duo_T : string -> Prop := fun name => name = "test_target".
Definition duo_start : kstate unit := fst (run (kernel_start duo) (kinit tt [])).
Lemma shell_session (E : env unit) : accepted E (wire_of hello) hello ->
  ShippedSpec.session test_manner duo_T E fresh [(SHELL, wire_of hello)] (firstn 6 test_gs) {| y_count := 1; y_history := [hello_entry]; y_parent := with_parent SHELL (m_header (m_base hello)) (y_parent fresh) |}.
Proof.
  intros A. refine (se_snoc _ _ _ _ [] [] _ _ _ _ _ (se_nil _ _ _ _) _). refine (re_done _ _ E _ _ _ hello "execute_request" (firstn 4 (skipn 1 test_gs)) _ _ A _ _); [eexists; split; reflexivity|].
  exact (do_execute test_manner _ _ SHELL ["peer"] _ 0 [] _ hello_params 1 hello_reads eq_refl ltac:(unfold int_max; lia)).
Qed.
Definition info_gs : list gist := [said_status info CONTROL "busy"; Replied CONTROL ["peer"; "x"] "kernel_info_reply" (m_header (m_base info)) (w_info test_manner); said_status info CONTROL "idle"].
Lemma control_session (E : env unit) : accepted E (wire_of info) info ->
  ShippedSpec.session test_manner duo_T E fresh [(CONTROL, wire_of info)] info_gs {| y_count := 0; y_history := []; y_parent := with_parent CONTROL (m_header (m_base info)) (y_parent fresh) |}.
Proof.
  intros A. refine (se_snoc _ _ _ _ [] [] _ _ _ _ _ (se_nil _ _ _ _) _). refine (re_done _ _ E _ _ _ info "kernel_info_request" [nth 1 info_gs (said_status info CONTROL "")] _ _ A _ _); [eexists; split; reflexivity|].
  exact (do_kernel_info test_manner _ _ CONTROL ["peer"; "x"] _ _ _ _).
Qed.
(** A cell on shell and a request on control, in turns. *)
Fixpoint alternate (n : nat) : list ychoice := match n with 0 => [] | S n => YGo TShell :: YGo TControl :: YGo TPub :: YGo TBeat :: alternate n end.
Definition duo_choices : list ychoice := YIn SHELL (wire_of hello) :: YIn CONTROL (wire_of info) :: alternate 90.
Definition duo_path v := path v (fun c w => dispatch duo w c) (dispatch_internal duo) duo_choices (y_init duo_start ["start"]).
Definition duo_lab v := plab v (fun c w => dispatch duo w c) (dispatch_internal duo) duo_choices (y_init duo_start ["start"]).
Lemma duo_shell : handed_to SHELL (ylabels ShellMain (fun c w => dispatch duo w c) (dispatch_internal duo) duo_choices (y_init duo_start ["start"])) = [(SHELL, wire_of hello)].
Proof. vm_compute. reflexivity. Qed.
Lemma duo_handed v c n : prefix (handed_to c (seen (duo_lab v) n)) [match c with SHELL => (SHELL, wire_of hello) | CONTROL => (CONTROL, wire_of info) end].
Proof.
  destruct (Nat.le_gt_cases n (List.length duo_choices)) as [L|L].
  - destruct (SplitLive.obs_prefix (duo_lab v) n _ L) as [z Hz]. exists (handed_to c z). rewrite <- handed_app, <- Hz. unfold duo_lab. rewrite plab_labels. destruct v, c; vm_compute; reflexivity.
  - assert (X : forall n, List.length duo_choices <= n -> seen (duo_lab v) n = seen (duo_lab v) (List.length duo_choices)).
    { intros i Li. unfold duo_lab. rewrite !plab_labels, !firstn_all2 by lia. reflexivity. }
    rewrite X by lia. exists []. rewrite app_nil_r. unfold duo_lab. rewrite plab_labels. destruct v, c; vm_compute; reflexivity.
Qed.
Lemma duo_sessions v n c : exists gs y, ShippedSpec.session test_manner duo_T duo fresh (handed_to c (seen (duo_lab v) n)) gs y.
Proof.
  destruct c; (eapply session_prefix; [|apply (duo_handed v)]); [apply shell_session; reflexivity|apply control_session; reflexivity].
Qed.
Lemma duo_keeps v n c w : duo_lab v n = Some (YHand c w) -> keeps_to duo c w.
Proof.
  intros H. assert (X : In (c, w) (handed_to c (seen (duo_lab v) (S n)))).
  { cbn [seen]. rewrite H. rewrite handed_app. apply in_or_app. right. cbn. destruct c; now left. }
  destruct (duo_handed v c (S n)) as [z Hz]. assert (Y : In (c, w) [match c with SHELL => (SHELL, wire_of hello) | CONTROL => (CONTROL, wire_of info) end]) by (rewrite Hz; apply in_or_app; now left).
  destruct Y as [Y|[]]. destruct c; injection Y as <-; [apply (keeps_one _ _ _ hello "execute_request")|apply (keeps_one _ _ _ info "kernel_info_request")];
    try reflexivity; try (eexists; split; reflexivity); intros Z; cbn in Z; intuition discriminate.
Qed.
(** What each thread says, though their steps alternate (the last line: who says the first six things). *)
Example C109_thread_ex : forall v, let ls := seen (duo_lab v) (List.length duo_choices) in let s := duo_path v (List.length duo_choices) in
  yrun v (fun c w => dispatch duo w c) (dispatch_internal duo) (y_init duo_start ["start"]) ls s /\
  (forall c w, In (YHand c w) ls -> keeps_to duo c w) /\ (forall c, rests c s) /\
  gists (events SHELL ls) = firstn 6 test_gs /\ gists (events CONTROL ls) = info_gs /\
  k_count (m_k (y_mem s)) = 1%Z /\ k_history (m_k (y_mem s)) = [hello_entry] /\ y_end s = None /\
  firstn 6 (flat_map (fun l => match l with YEvent c (EPublish _ _ _) => [c] | YEvent c (ESend _ _ _) => [c] | _ => [] end) ls) = [SHELL; CONTROL; CONTROL; SHELL; CONTROL; SHELL].
Proof.
  intros v ls s. split; [|split].
  - apply (SplitLive.obs_run v duo duo_start ["start"]); [apply path_execution|reflexivity].
  - intros c w. subst ls. generalize (List.length duo_choices) as n. induction n as [|n IH]; [intros []|]. cbn [seen]. intros X. apply in_app_or in X as [X|X]; [auto|].
    destruct (duo_lab v n) as [l|] eqn:El; [|destruct X]. destruct X as [->|[]]. eapply duo_keeps; eauto.
  - subst ls s. unfold duo_lab. rewrite plab_labels. split; [intros c; destruct v, c; vm_compute; exact I|]. destruct v; vm_compute; auto 10.
Qed.
Lemma unstopped ls : existsb (fun l => match l with YEvent _ EStop => true | _ => false end) ls = false -> ~ asked_stop ls.
Proof. intros H [c X]. eapply Bool.eq_true_false_abs; [|exact H]. apply existsb_exists. exists (YEvent c EStop). auto. Qed.
Example C109_eventually_ex : forall v,
  execution v (fun c w => dispatch duo w c) (dispatch_internal duo) (duo_path v) (duo_lab v) /\ duo_path v 0 = y_init duo_start ["start"] /\
  (forall t, In t [TShell; TControl] -> fair v (fun c w => dispatch duo w c) (dispatch_internal duo) (duo_path v) (duo_lab v) t) /\
  (forall n c w, duo_lab v n = Some (YHand c w) -> keeps_to duo c w) /\
  (forall n c, exists gs y, ShippedSpec.session test_manner duo_T duo fresh (handed_to c (seen (duo_lab v) n)) gs y) /\
  came SHELL (seen (duo_lab v) 2) = [wire_of hello] /\ handed_to SHELL (seen (duo_lab v) 2) = [] /\ ~ asked_stop (seen (duo_lab v) (List.length duo_choices)).
Proof.
  intros v. split; [apply path_execution|]. split; [reflexivity|]. split.
  { intros t Ht. apply path_fair; destruct Ht as [<-|[<-|[]]]; try discriminate; destruct v; vm_compute; reflexivity. }
  split; [apply duo_keeps|]. split; [apply duo_sessions|]. unfold duo_lab. rewrite !plab_labels.
  split; [destruct v; vm_compute; reflexivity|]. split; [destruct v; vm_compute; reflexivity|]. apply unstopped. destruct v; vm_compute; reflexivity.
Qed.

(** The same cell and request, put to the program [test_kernel_shell] as it serves a connection file. *)
Definition duo_serving : serving :=
  match main (shop "me") PTestShell shop_argv with
  | Ok v => v
  | _ => {| v_env := duo; v_kernel := duo_start; v_start := []; v_made := {| n_config := shop_config; n_auth := NoAuth; n_sockets := fun _ => None; n_kernel := ""; n_session := ""; n_logs := false |} |}
  end.
Lemma duo_serves : main (shop "me") PTestShell shop_argv = Ok duo_serving.
Proof. unfold duo_serving. destruct (C108_serves (shop "me") PTestShell shop_argv shop_config shop_launched) as (v & _ & _ & M & _). now rewrite M. Qed.
Definition served_path := path ShellMain (fun c w => dispatch (v_env duo_serving) w c) (dispatch_internal (v_env duo_serving)) duo_choices (y_init (v_kernel duo_serving) (v_start duo_serving)).
Definition served_labels := ylabels ShellMain (fun c w => dispatch (v_env duo_serving) w c) (dispatch_internal (v_env duo_serving)) duo_choices (y_init (v_kernel duo_serving) (v_start duo_serving)).
Example C109_client_ex : launched (shop "me") shop_argv shop_config /\ server_of PTestShell = Some ShellMain /\ main (shop "me") PTestShell shop_argv = Ok duo_serving /\
  yrun ShellMain (fun c w => dispatch (v_env duo_serving) w c) (dispatch_internal (v_env duo_serving)) (y_init (v_kernel duo_serving) (v_start duo_serving)) served_labels (served_path (List.length duo_choices)) /\
  (forall c w, In (YHand c w) served_labels -> keeps_to (v_env duo_serving) c w) /\
  ShippedSpec.session test_manner duo_T (v_env duo_serving) fresh (handed_to SHELL served_labels) (firstn 6 test_gs) {| y_count := 1; y_history := [hello_entry]; y_parent := with_parent SHELL (m_header (m_base hello)) (y_parent fresh) |} /\
  ShippedSpec.session test_manner duo_T (v_env duo_serving) fresh (handed_to CONTROL served_labels) info_gs {| y_count := 0; y_history := []; y_parent := with_parent CONTROL (m_header (m_base info)) (y_parent fresh) |} /\
  List.length (told_by SHELL served_labels) = 5 /\ List.length (told_by CONTROL served_labels) = 2 /\
  List.length (replied_by SHELL SHELL served_labels) = 1 /\ List.length (replied_by CONTROL CONTROL served_labels) = 1.
Proof.
  assert (A1 : accepted (v_env duo_serving) (wire_of hello) hello) by (vm_compute; reflexivity).
  assert (A2 : accepted (v_env duo_serving) (wire_of info) info) by (vm_compute; reflexivity).
  assert (H1 : handed_to SHELL served_labels = [(SHELL, wire_of hello)]) by (vm_compute; reflexivity).
  assert (H2 : handed_to CONTROL served_labels = [(CONTROL, wire_of info)]) by (vm_compute; reflexivity).
  split; [exact shop_launched|]. split; [reflexivity|]. split; [exact duo_serves|]. split.
  { unfold served_labels. rewrite <- (firstn_all duo_choices) at 1. rewrite <- plab_labels.
    apply (SplitLive.obs_run ShellMain (v_env duo_serving)); [apply path_execution|reflexivity]. }
  split.
  { intros c w X. assert (Y : In (c, w) (handed_to c served_labels)).
    { clear -X. induction served_labels as [|l r IH]; [destruct X|]. change (l :: r) with ([l] ++ r)%list. rewrite handed_app. apply in_or_app. destruct X as [->|X]; [left; destruct c; now left|right; auto]. }
    destruct c; [rewrite H1 in Y|rewrite H2 in Y]; destruct Y as [Y|[]]; injection Y as <-; [apply (keeps_one _ _ _ hello "execute_request" A1)|apply (keeps_one _ _ _ info "kernel_info_request" A2)];
      try (eexists; split; reflexivity); intros Z; cbn in Z; intuition discriminate. }
  rewrite H1, H2. split; [apply shell_session, A1|]. split; [apply control_session, A2|]. vm_compute. auto.
Qed.

(** ** Messages that do not keep to their thread *)
(** An interrupt request on the shell socket: what it publishes bears the header of a request that the control thread received. *)
Definition halt : xmessage := request_msg ["peer"] "interrupt_request" (JObj []).
Definition strayed_choices (w1 w2 : frames) : list ychoice := (YIn CONTROL w1 :: many (YGo TControl) 60 ++ YIn SHELL w2 :: many (YGo TShell) 80)%list.
Definition strayed v w1 w2 := ylabels v (fun c w => dispatch duo w c) (dispatch_internal duo) (strayed_choices w1 w2) (y_init duo_start ["start"]).
Lemma strayed_run v w1 w2 : yrun v (fun c w => dispatch duo w c) (dispatch_internal duo) (y_init duo_start ["start"]) (strayed v w1 w2)
  (path v (fun c w => dispatch duo w c) (dispatch_internal duo) (strayed_choices w1 w2) (y_init duo_start ["start"]) (List.length (strayed_choices w1 w2))).
Proof.
  unfold strayed. rewrite <- (firstn_all (strayed_choices w1 w2)) at 1. rewrite <- plab_labels.
  apply (SplitLive.obs_run v duo duo_start ["start"]); [apply path_execution|reflexivity].
Qed.
Theorem C109_parent_refuted : forall v, exists E W T k start ls s gs y, shipped E W T /\ env_utf8 E /\ run (kernel_start E) (kinit tt []) = (k, Ok tt) /\
  yrun v (fun c w => dispatch E w c) (dispatch_internal E) (y_init k start) ls s /\ (forall c, rests c s) /\
  ShippedSpec.session W T E fresh (handed_to SHELL ls) gs y /\ gists (events SHELL ls) <> gs /\
  handed_to SHELL ls = [(SHELL, wire_of halt)] /\ In (Said CONTROL "interrupt" (m_header (m_base info)) (JObj [])) (gists (events SHELL ls)) /\ m_header (m_base info) <> m_header (m_base halt).
Proof.
  intros v. set (L := strayed v (wire_of info) (wire_of halt)).
  assert (H : handed_to SHELL L = [(SHELL, wire_of halt)]) by (destruct v; vm_compute; reflexivity).
  assert (G : gists (events SHELL L) = [said_status halt SHELL "busy"; Said CONTROL "interrupt" (m_header (m_base info)) (JObj []); Replied SHELL ["peer"] "interrupt_reply" (m_header (m_base halt)) (JObj []); said_status halt SHELL "idle"])
    by (destruct v; vm_compute; reflexivity).
  exists duo, test_manner, duo_T, duo_start, ["start"], L. eexists.
  exists [said_status halt SHELL "busy"; Said CONTROL "interrupt" (JObj []) (JObj []); Replied SHELL ["peer"] "interrupt_reply" (m_header (m_base halt)) (JObj []); said_status halt SHELL "idle"].
  eexists. split; [apply test_shipped|]. split; [apply ship_utf8|]. split; [vm_compute; reflexivity|]. split; [apply strayed_run|]. split; [intros c; destruct v, c; vm_compute; exact I|].
  rewrite H, G. split; [|split; [discriminate|split; [reflexivity|split; [cbn; auto|discriminate]]]].
  refine (se_snoc _ _ _ _ [] [] _ _ _ _ _ (se_nil _ _ _ _) _). react halt "interrupt_request". exact (do_interrupt test_manner _ _ SHELL ["peer"] _ _ _ _).
Qed.
Print Assumptions C109_parent_refuted.
(** Cells on both sockets are counted together: the first of the shell thread is number 2. *)
Theorem C109_count_refuted : forall v, exists E W T k start ls s gs y, shipped E W T /\ env_utf8 E /\ run (kernel_start E) (kinit tt []) = (k, Ok tt) /\
  yrun v (fun c w => dispatch E w c) (dispatch_internal E) (y_init k start) ls s /\ (forall c, rests c s) /\
  ShippedSpec.session W T E fresh (handed_to SHELL ls) gs y /\ handed_to SHELL ls = [(SHELL, wire_of hello)] /\ y_count y = 1%Z /\ k_count (m_k (y_mem s)) = 2%Z /\
  ~ prefix (gists (events SHELL ls)) gs.
Proof.
  intros v. set (L := strayed v (wire_of hello) (wire_of hello)).
  assert (H : handed_to SHELL L = [(SHELL, wire_of hello)]) by (destruct v; vm_compute; reflexivity).
  assert (G : nth 1 (gists (events SHELL L)) (said_status hello SHELL "") = Said SHELL "execute_input" (m_header (m_base hello)) (JObj [("code", JStr "hello, world"); ("execution_count", JInt 2)]))
    by (destruct v; vm_compute; reflexivity).
  exists duo, test_manner, duo_T, duo_start, ["start"], L. eexists. exists (firstn 6 test_gs). eexists.
  split; [apply test_shipped|]. split; [apply ship_utf8|]. split; [vm_compute; reflexivity|]. split; [apply strayed_run|]. split; [intros c; destruct v, c; vm_compute; exact I|].
  split; [rewrite H; apply shell_session; reflexivity|]. split; [exact H|]. split; [reflexivity|]. split; [destruct v; vm_compute; reflexivity|].
  intros [z Hz]. clearbody L. destruct (gists (events SHELL L)) as [|g0 [|g1 r]]; [discriminate G|discriminate G|]. cbn in G. subst g1. discriminate Hz.
Qed.
Print Assumptions C109_count_refuted.
