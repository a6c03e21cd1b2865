(** A kernel with loggers does what the same kernel without them does: C88. *)
From Verif Require Import Base BaseFacts Json JsonText Utf8 Utf8Proofs Auth Message WireSpec WireLemmas History HistoryProofs Comm Logger Tree Kernel KernelSpec KernelProofs KernelRun KernelReplies KernelDemo
  Server ServerSpec ServerProofs ServerExec ServerLemmas Split SplitSpec ServerDemo SequentialSpec SplitStreamSpec AnsweredSpec SplitAnsweredSpec LogSpec LogSim LogServer
  PropsKernel PropsSplitStream PropsAnswered PropsSplitAnswered.

(** C88. A chain of console and file loggers of any levels fails only when what it is given cannot be
    dumped, and then with the exception of the dump. *)
Theorem C88_faithful : forall lg, faithful (chain_logger lg).
Proof. exact chain_faithful. Qed.
Print Assumptions C88_faithful.

(** C88. One message: with a logger, the handling of a message ends in the same state, having sent and
    published the same messages and called the same user code, and in the same way (returned, exception
    or undefined behaviour) as without. *)
Theorem C88_same : forall U (E : env U), log_env E -> forall c w s, regular E w -> pending_ok (k_shell s) ->
  (c = SHELL \/ k_pid s SHELL <> [] \/ asks_nothing E) ->
  run (dispatch E w c) s = run (dispatch (unlogged E) w c) s.
Proof.
  intros U E HE c w s R P W.
  apply (sim_run c (k_pid s SHELL <> []) True) with (b := false) (Q := fun _ => True).
  - apply sim_dispatch; auto.
  - split; auto. intros c' [[K _]|[K ->]]; [discriminate|exact K].
Qed.
Print Assumptions C88_same.
(** C88. The start of the kernel, when the configuration of the interpreter asks for no input (there is nobody to ask yet). *)
Theorem C88_start : forall U (E : env U), log_env E -> always no_input (e_configure E) ->
  forall u q, pending_ok q -> run (kernel_start E) (kinit u q) = run (kernel_start (unlogged E)) (kinit u q).
Proof.
  intros U E HE C u q P. unfold kernel_start. apply (sim_run SHELL False True) with (b := false) (Q := fun _ => True).
  - assert (loud False True false) as L by (right; right; exact I).
    eapply sim_bind; [apply sim_embed; auto; right; exact C|]. intros ? _. eapply sim_self with (b := false); [exact L|].
    apply always_bind; [|intros ?; cbn; auto]. unfold build_start_msg. cbn; repeat (split; [exact I|intros ?]). apply always_bind; [apply always_of_res|intros ?; exact I].
  - split; auto. intros c' [[K _]|[[] _]]. discriminate.
Qed.
Print Assumptions C88_start.

Section Servers.
  Context {U : Type} (E : env U) (HE : log_env E).
  Let E0 := unlogged E.
  Lemma regular_addressed w : regular E w -> addressed w.
  Proof. intros R. apply R. Qed.
  Lemma shell_same w : regular E w -> sim SHELL False False false (dispatch E w SHELL) (dispatch E0 w SHELL) (fun _ => True).
  Proof. intros R. apply sim_dispatch; auto. now left. Qed.
  Lemma control_same (asks : Prop) w : asks \/ asks_nothing E -> regular E w ->
    sim CONTROL asks (asks_nothing E) false (dispatch E w CONTROL) (dispatch E0 w CONTROL) (fun _ => True).
  Proof. intros A R. apply sim_dispatch; auto. now right. Qed.
  Lemma intern_same (asks : Prop) w : asks \/ asks_nothing E -> sim SHELL asks (asks_nothing E) false (dispatch_internal E w) (dispatch_internal E0 w) (fun _ => True).
  Proof. intros A. apply sim_internal; auto; [now right|]. destruct A as [A|A]; [left; right; auto|now right]. Qed.
End Servers.

(** C88. The default server: what can be observed of a run with a logger can be observed without, and
    conversely; the memory (the kernel's state, with the events, and the queues) is the same at the end,
    and so is the point reached outside the handling of a message. Before the first message of the
    control socket is handled a shell message has been, unless the user code never asks for input. *)
Theorem C88_default : forall U (E : env U), log_env E -> forall k start ls, darrivals_ok (regular E) ls ->
  k_pid k SHELL <> [] \/ asks_nothing E \/ dfirst_shell ls ->
  (forall s, drun (fun c w => dispatch E w c) (d_init k start) ls s -> exists s', drun (fun c w => dispatch (unlogged E) w c) (d_init k start) ls s' /\
     d_mem s' = d_mem s /\ place_of (d_pc s') = place_of (d_pc s) /\ (place_of (d_pc s) <> Handling -> d_pc s' = d_pc s)) /\
  (forall s, drun (fun c w => dispatch (unlogged E) w c) (d_init k start) ls s -> exists s', drun (fun c w => dispatch E w c) (d_init k start) ls s' /\
     d_mem s' = d_mem s /\ place_of (d_pc s') = place_of (d_pc s) /\ (place_of (d_pc s) <> Handling -> d_pc s' = d_pc s)).
Proof.
  intros U E HE k start ls Ha Hp.
  assert (D : forall s s' : dsys U, same_dsys (regular E) (asks_nothing E) s s' ->
    d_mem s' = d_mem s /\ place_of (d_pc s') = place_of (d_pc s) /\ (place_of (d_pc s) <> Handling -> d_pc s' = d_pc s)).
  { intros s s' (M & S & _). split; [exact M|]. destruct (d_pc s), (d_pc s'); cbn [dsim place_of] in *; try contradiction; try discriminate; try injection S as ->; split; auto; intros N; now destruct N. }
  split; intros s H.
  - destruct (same_drun _ (fun c w => dispatch (unlogged E) w c) (regular E) (asks_nothing E) (regular_addressed E) (shell_same E HE) (control_same E HE) _ _ _ _ H Ha Hp) as (s' & R & S & _). eauto.
  - destruct (same_drun _ (fun c w => dispatch E w c) (regular E) (asks_nothing E) (regular_addressed E)
      (fun w R => sim_sym _ _ _ _ _ _ _ (shell_same E HE w R)) (fun asks w A R => sim_sym _ _ _ _ _ _ _ (control_same E HE asks w A R)) _ _ _ _ H Ha Hp) as (s' & R & S & _). eauto.
Qed.
Print Assumptions C88_default.
(** C88. The split servers. *)
Theorem C88_split : forall U v (E : env U), log_env E -> forall k start ls, arrivals_ok (regular E) ls ->
  k_pid k SHELL <> [] \/ asks_nothing E \/ first_shell ls ->
  (forall s, yrun v (fun c w => dispatch E w c) (dispatch_internal E) (y_init k start) ls s ->
     exists s', yrun v (fun c w => dispatch (unlogged E) w c) (dispatch_internal (unlogged E)) (y_init k start) ls s' /\
     y_mem s' = y_mem s /\ y_stopped s' = y_stopped s /\ y_end s' = y_end s /\ forall c, rests c s' <-> rests c s) /\
  (forall s, yrun v (fun c w => dispatch (unlogged E) w c) (dispatch_internal (unlogged E)) (y_init k start) ls s ->
     exists s', yrun v (fun c w => dispatch E w c) (dispatch_internal E) (y_init k start) ls s' /\
     y_mem s' = y_mem s /\ y_stopped s' = y_stopped s /\ y_end s' = y_end s /\ forall c, rests c s' <-> rests c s).
Proof.
  intros U v E HE k start ls Ha Hp.
  assert (D : forall s s' : ysys U, same_sys (regular E) (asks_nothing E) s s' ->
    y_mem s' = y_mem s /\ y_stopped s' = y_stopped s /\ y_end s' = y_end s /\ forall c, rests c s' <-> rests c s).
  { intros s s' (M & B & N & S & C & _). do 3 (split; [assumption|]). intros [].
    - cbn [rests]. destruct (y_sh s), (y_sh s'); cbn [shsim] in S; try contradiction; tauto.
    - cbn [rests]. destruct (y_ct s), (y_ct s'); cbn [ctsim] in C; try contradiction; try discriminate; tauto. }
  split; intros s H.
  - destruct (same_run v _ (fun c w => dispatch (unlogged E) w c) _ (dispatch_internal (unlogged E)) (regular E) (asks_nothing E) (regular_addressed E) (shell_same E HE) (control_same E HE) (intern_same E HE)
      _ _ _ _ H Ha Hp) as (s' & R & S & _). eauto.
  - destruct (same_run v _ (fun c w => dispatch E w c) _ (dispatch_internal E) (regular E) (asks_nothing E) (regular_addressed E)
      (fun w R => sim_sym _ _ _ _ _ _ _ (shell_same E HE w R)) (fun asks w A R => sim_sym _ _ _ _ _ _ _ (control_same E HE asks w A R))
      (fun asks w A => sim_sym _ _ _ _ _ _ _ (intern_same E HE asks w A)) _ _ _ _ H Ha Hp) as (s' & R & S & _). eauto.
Qed.
Print Assumptions C88_split.

(** C88. So the theorems on the kernel without a logger hold with one: each request on the shell socket
    of the default server is answered (C77), and each request given to a thread of a split server (C83). *)
Theorem C88_answered : forall U (E : env U) raw k start ls s, log_env E -> e_split E = false -> env_utf8 E -> user_publishes E raw ->
  parents_utf8 k -> Forall entry_utf8 (k_history k) -> darrivals_ok (regular E) ls -> k_pid k SHELL <> [] \/ asks_nothing E \/ dfirst_shell ls ->
  drun (fun c w => dispatch E w c) (d_init k start) ls s -> place_of (d_pc s) = Between ->
  (k_count k + Z.of_nat (List.length (received ls)) <= int_max)%Z ->
  Forall (answerable (unlogged E)) (shell_taken ls) ->
  Forall2 (answers E) (List.map (pair SHELL) (shell_taken ls)) (shell_sends (happened ls)).
Proof.
  intros U E raw k start ls s HE Hs Hu HU Pk Hk Ha Hp H B C A.
  destruct (C88_default U E HE k start ls Ha Hp) as [D _]. destruct (D s H) as (s' & R & _ & B' & _).
  apply (C77_each U (unlogged E) raw k start ls s'); auto; try (intros l; reflexivity); try congruence. destruct HU. constructor; auto.
Qed.
Print Assumptions C88_answered.
Theorem C88_split_answered : forall U v (E : env U) raw, log_env E -> user_publishes E raw -> ~ raw "status" -> env_utf8 E ->
  forall k start, parents_utf8 k -> Forall entry_utf8 (k_history k) ->
  forall c ls s, arrivals_ok (regular E) ls -> k_pid k SHELL <> [] \/ asks_nothing E \/ first_shell ls ->
  yrun v (fun c w => dispatch E w c) (dispatch_internal E) (y_init k start) ls s -> rests c s ->
  (forall w, In (YHand c w) ls -> rejected E w \/ answerable_amid (unlogged E) w) -> (forall w, In (YTook c w) ls -> abortable E w) ->
  Forall2 (answers E) (filter (fun x => is_accepted E (snd x)) (received_by c ls)) (sends (events c ls)).
Proof.
  intros U v E raw HE HU Hraw Hu k start Pk Hk c ls s Ha Hp H B HH HT.
  destruct (C88_split U v E HE k start ls Ha Hp) as [D _]. destruct (D s H) as (s' & R & _ & _ & _ & B').
  apply (C83_each U v (unlogged E) raw) with (k := k) (start := start) (s := s'); auto; try (intros l; reflexivity); [destruct HU; constructor; auto|now apply B'].
Qed.
Print Assumptions C88_split_answered.

(** A kernel with a file logger that writes everything and a console logger that writes the contents. *)
Definition both : logger := LLogger LFull (SFile "log") (LLogger LContent SConsole LNolog).
Definition ldemo : env U0 := with_logger (chain_logger both) demo.
Lemma stdin_regular n : regular demo (stdin_msg n).
Proof.
  unfold stdin_msg. set (w := wire_of _). vm_compute in w. split; [discriminate|]. intros m H. vm_compute in H. injection H as <-. eexists _, _. split; reflexivity.
Qed.
Lemma log_demo E : e_crypto E = toy -> e_auth E = toy_auth -> e_eh E = EStrict -> e_kernel_id E = "k1" -> e_stdin E = stdin_msg -> e_logger E = chain_logger both -> log_env E (U := U0).
Proof.
  intros E1 E2 E3 E4 E5 E6. constructor; auto.
  - rewrite E4. apply utf8_lit. reflexivity.
  - intros n. rewrite E5. destruct (stdin_regular n) as [A B]. split; auto. intros m H. apply B. unfold accepted in *. now rewrite E1, E2 in H.
  - rewrite E6. apply chain_faithful.
Qed.
Lemma ldemo_env : log_env ldemo.
Proof. now apply log_demo. Qed.
Lemma wire_regular E m : e_crypto E = toy -> e_auth E = toy_auth -> deserialize toy toy_auth (wire_of m) = Ok m -> addressed (wire_of m) -> good_header (m_header (m_base m)) -> regular (U := U0) E (wire_of m).
Proof. intros E1 E2 H A G. split; auto. intros m' H'. unfold accepted in H'. rewrite E1, E2, H in H'. now injection H' as <-. Qed.
Ltac wired := apply wire_regular; [reflexivity|reflexivity|vm_compute; reflexivity|vm_compute; discriminate|eexists _, _; split; reflexivity].

(** One message: a cell that asks for input, and a cell whose output is not UTF-8, on which the loggers fail. *)
Definition garbled : env U0 := with_logger (chain_logger both) (with_interp (fun _ => fin (act (AStream "stdout" not_utf8) (Ret tt)) ok_reply_json) demo).
Example C88_same_ex : log_env ldemo /\ regular ldemo ask /\ pending_ok (k_shell demo_start) /\
  names (fst (run (dispatch ldemo ask SHELL) demo_start)) =
    ["starting"; "busy"; "execute_input"; "interpreter"; "input_request"; "stream"; "execute_reply"; "idle"] /\
  log_env garbled /\ regular garbled exec1 /\
  (exists m, loggable (LIopub m) /\ e_logger garbled (LIopub m) = Exn type_error_316) /\
  names (fst (run (dispatch garbled exec1 SHELL) demo_start)) = ["starting"; "busy"; "execute_input"; "interpreter"; "execute_reply"; "idle"].
Proof.
  split; [exact ldemo_env|]. split; [unfold ask; wired|]. split; [vm_compute; constructor|]. split; [vm_compute; reflexivity|].
  split; [now apply log_demo|]. split; [unfold exec1; wired|]. split.
  - exists {| m_topic := "t"; m_pbase := {| m_header := jobj [("msg_type", JStr "stream")]; m_parent_header := empty; m_metadata := empty; m_content := JStr not_utf8; m_buffers := [] |} |}.
    split; [|vm_compute; reflexivity]. split; [eexists _, _; split; reflexivity|]. intros _. apply utf8_lit. reflexivity.
  - vm_compute. reflexivity.
Qed.

(** Deciding [dfirst_shell] and [first_shell]. *)
Fixpoint firstb {A} (p q : A -> bool) (ls : list A) : bool :=
  match ls with [] => true | l :: r => p l || (negb (q l) && firstb p q r) end.
Lemma firstb_spec {A} (p q : A -> bool) ls : firstb p q ls = true -> forall l1 x l2, ls = (l1 ++ x :: l2)%list -> q x = true -> exists y, In y l1 /\ p y = true \/ x = y /\ p y = true.
Proof.
  revert ls. induction ls as [|l r IH]; intros H l1 x l2 E Q; [destruct l1; discriminate|]. cbn in H. destruct l1 as [|a l1]; cbn in E; injection E as <- ->.
  - rewrite Q, orb_false_r in H. eauto.
  - destruct (p l) eqn:P; [exists l; left; cbn; auto|]. cbn in H. apply andb_true_iff in H as [_ H]. destruct (IH H l1 x l2 eq_refl Q) as (y & [[I P']|[I P']]); exists y; cbn; auto.
Qed.
Definition is_emit (l : label) : bool := match l with Emitted _ => true | _ => false end.
Definition is_ctl (l : label) : bool := match l with Hand CONTROL _ => true | _ => false end.
Lemma dfirst_dec ls : firstb is_emit is_ctl ls = true -> dfirst_shell ls.
Proof.
  intros H l1 w l2 E. destruct (firstb_spec _ _ _ H _ _ _ E eq_refl) as (y & [[I P]|[<- P]]); [|discriminate]. destruct y; try discriminate. eauto.
Qed.
Definition y_emit (l : slabel) : bool := match l with YEvent SHELL _ => true | _ => false end.
Definition y_ctl (l : slabel) : bool := match l with YHand CONTROL _ => true | _ => false end.
Lemma yfirst_dec ls : firstb y_emit y_ctl ls = true -> first_shell ls.
Proof.
  intros H l1 w l2 E. destruct (firstb_spec _ _ _ H _ _ _ E eq_refl) as (y & [[I P]|[<- P]]); [|discriminate]. destruct y; try discriminate. destruct c; try discriminate. eauto.
Qed.

(** The default server with the loggers: two cells and a request on the control socket. *)
Definition ldefault_run cs := dexec (fun c w => dispatch ldemo w c) cs [] (d_init demo_start ["start"]).
Lemma ldefault_run_ok cs : drun (fun c w => dispatch ldemo w c) (d_init demo_start ["start"]) (fst (ldefault_run cs)) (snd (ldefault_run cs)).
Proof. apply dexec_run. Qed.
Definition logged_choices : list (choice * nat) :=
  [(GArrive SHELL exec1, 1); (GMain, 40); (GArrive CONTROL info, 1); (GArrive SHELL exec2, 1); (GMain, 600); (GPub, 300)].
Lemma exec1_regular E : e_crypto E = toy -> e_auth E = toy_auth -> regular (U := U0) E exec1.
Proof. intros A B. unfold exec1. apply wire_regular; [exact A|exact B|vm_compute; reflexivity|vm_compute; discriminate|eexists _, _; split; reflexivity]. Qed.
Lemma exec2_regular E : e_crypto E = toy -> e_auth E = toy_auth -> regular (U := U0) E exec2.
Proof. intros A B. unfold exec2. apply wire_regular; [exact A|exact B|vm_compute; reflexivity|vm_compute; discriminate|eexists _, _; split; reflexivity]. Qed.
Lemma info_regular E : e_crypto E = toy -> e_auth E = toy_auth -> regular (U := U0) E info.
Proof. intros A B. unfold info. apply wire_regular; [exact A|exact B|vm_compute; reflexivity|vm_compute; discriminate|eexists _, _; split; reflexivity]. Qed.
Lemma debug_regular E : e_crypto E = toy -> e_auth E = toy_auth -> regular (U := U0) E debug.
Proof. intros A B. unfold debug. apply wire_regular; [exact A|exact B|vm_compute; reflexivity|vm_compute; discriminate|eexists _, _; split; reflexivity]. Qed.
Definition dcame (ls : list label) : list frames := flat_map (fun l => match l with Arrive _ w => [w] | _ => [] end) ls.
Lemma dcame_ok (ok : frames -> Prop) ls : Forall ok (dcame ls) -> darrivals_ok ok ls.
Proof. intros H c w Hin. rewrite Forall_forall in H. apply H. apply in_flat_map. exists (Arrive c w). cbn. auto. Qed.
Definition ycame (ls : list slabel) : list frames := flat_map (fun l => match l with YArrive _ w => [w] | _ => [] end) ls.
Lemma ycame_ok (ok : frames -> Prop) ls : Forall ok (ycame ls) -> arrivals_ok ok ls.
Proof. intros H c w Hin. rewrite Forall_forall in H. apply H. apply in_flat_map. exists (YArrive c w). cbn. auto. Qed.
Example C88_default_ex : let ls := fst (ldefault_run logged_choices) in let s := snd (ldefault_run logged_choices) in
  drun (fun c w => dispatch ldemo w c) (d_init demo_start ["start"]) ls s /\ darrivals_ok (regular ldemo) ls /\ dfirst_shell ls /\
  place_of (d_pc s) = Between /\ e_split ldemo = false /\ env_utf8 ldemo /\ user_publishes ldemo user_types /\
  shell_taken ls = [exec1; exec2] /\ Forall (answerable (unlogged ldemo)) (shell_taken ls) /\
  List.map shown (shell_sends (happened ls)) = [Some ("execute_reply", JObj [("execution_count", JInt 1); ("status", JStr "ok")]);
     Some ("execute_reply", JObj [("execution_count", JInt 2); ("status", JStr "ok")])].
Proof.
  intros ls s. split; [exact (ldefault_run_ok logged_choices)|]. split.
  { apply dcame_ok. assert (dcame ls = [exec1; info; exec2]) as -> by (vm_compute; reflexivity). constructor; [now apply exec1_regular|]. constructor; [now apply info_regular|]. constructor; [now apply exec2_regular|constructor]. }
  split; [apply dfirst_dec; vm_compute; reflexivity|]. split; [vm_compute; reflexivity|]. split; [reflexivity|]. split; [exact demo_utf8|].
  split; [destruct demo_user; constructor; auto|]. assert (shell_taken ls = [exec1; exec2]) as -> by (vm_compute; reflexivity). split; [reflexivity|]. split; [|vm_compute; reflexivity].
  change (unlogged ldemo) with demo.
  constructor; [apply (cell_answerable "1"); try (vm_compute; reflexivity); apply utf8_lit; reflexivity|].
  constructor; [apply (cell_answerable "2"); try (vm_compute; reflexivity); apply utf8_lit; reflexivity|constructor].
Qed.
(** The split servers with the loggers. *)
Definition lsdemo : env U0 := with_logger (chain_logger both) sdemo.
Definition lsplit_run v cs := yexec v (fun c w => dispatch lsdemo w c) (dispatch_internal lsdemo) cs [] (y_init demo_start ["start"]).
Lemma lsplit_run_ok v cs : yrun v (fun c w => dispatch lsdemo w c) (dispatch_internal lsdemo) (y_init demo_start ["start"]) (fst (lsplit_run v cs)) (snd (lsplit_run v cs)).
Proof. apply yexec_run. Qed.
Definition split_logged : list (ychoice * nat) := [(YIn SHELL exec1, 1); (YGo TShell, 20); (YIn CONTROL debug, 1); (YIn SHELL exec2, 1)] ++ mix 60.
Example C88_split_ex : forall v, let ls := fst (lsplit_run v split_logged) in let s := snd (lsplit_run v split_logged) in
  yrun v (fun c w => dispatch lsdemo w c) (dispatch_internal lsdemo) (y_init demo_start ["start"]) ls s /\ log_env lsdemo /\ arrivals_ok (regular lsdemo) ls /\ first_shell ls /\
  (forall c, rests c s) /\ user_publishes lsdemo user_types /\ env_utf8 lsdemo /\ parents_utf8 demo_start /\
  (forall c w, In (YHand c w) ls -> answerable_amid (unlogged lsdemo) w) /\ (forall c w, ~ In (YTook c w) ls) /\
  addresses (events SHELL ls) = [(SHELL, ["peer"], Some "execute_reply"); (SHELL, ["peer"], Some "execute_reply")] /\
  addresses (events CONTROL ls) = [(CONTROL, ["peer"; "x"], Some "debug_reply")].
Proof.
  intros v ls s. split; [exact (lsplit_run_ok v split_logged)|]. split; [now apply log_demo|]. split.
  { apply ycame_ok. assert (ycame ls = [exec1; debug; exec2]) as -> by (destruct v; vm_compute; reflexivity). constructor; [now apply exec1_regular|]. constructor; [now apply debug_regular|]. constructor; [now apply exec2_regular|constructor]. }
  split; [apply yfirst_dec; destruct v; vm_compute; reflexivity|]. split; [intros []; destruct v; vm_compute; exact I|].
  split; [destruct (sdemo_publishes user_types) as [A B C D F G]; [cbn; tauto|]; constructor; auto|]. split; [exact sdemo_utf8|]. split; [exact (proj1 start_fine)|]. split.
  { intros c w Hw. apply in_hands in Hw. assert (hands ls = [(SHELL, exec1); (CONTROL, debug); (SHELL, exec2)]) as X by (destruct v; vm_compute; reflexivity). rewrite X in Hw.
    change (unlogged lsdemo) with sdemo. destruct Hw as [[= <- <-]|[[= <- <-]|[[= <- <-]|[]]]]; [exact exec1_amid|exact debug_amid|exact exec2_amid]. }
  split; [intros c w Hw; apply in_tooks in Hw; assert (tooks c ls = []) as X by (destruct c, v; vm_compute; reflexivity); rewrite X in Hw; exact Hw|].
  destruct v; vm_compute; auto.
Qed.

(** C88. Each of the conditions is needed. With another error handler the output that is not UTF-8 is
    published without a logger and is not with one, which always dumps strictly. *)
Definition lenient (L : logcall -> res unit) : env U0 :=
  {| e_crypto := toy; e_auth := toy_auth; e_eh := EReplace; e_kernel_id := "k1"; e_user_name := "user"; e_session_id := "s1";
     e_guid := ticks; e_now := fun _ => "2024-01-01T00:00:00Z"; e_stdin := stdin_msg; e_logger := L;
     e_regex := fun _ => Ok (fun _ => false); e_indet := IndetVal (fun _ => false); e_long_id := fun s => Ok s;
     e_configure := Ret tt; e_interp := fun _ => fin (act (AStream "stdout" not_utf8) (Ret tt)) ok_reply_json; e_split := false; e_debugger := None;
     e_callback := demo_callback; e_handler := demo_handler; e_input := fun _ _ => Ret tt |}.
Theorem C88_lenient_refuted : exists U (E : env U) w s, faithful (e_logger E) /\ utf8_text (e_kernel_id E) /\ (forall n, regular E (e_stdin E n)) /\ regular E w /\ k_shell s = [] /\
  In (Some "stream") (List.map pub_type (flat_map (fun e => match e with EPublish _ m _ => [m] | _ => [] end) (k_trace (fst (run (dispatch (unlogged E) w SHELL) s))))) /\
  ~ In (Some "stream") (List.map pub_type (flat_map (fun e => match e with EPublish _ m _ => [m] | _ => [] end) (k_trace (fst (run (dispatch E w SHELL) s))))).
Proof.
  exists U0, (lenient (chain_logger both)), exec1, (kinit [] []). split; [apply chain_faithful|]. split; [apply utf8_lit; reflexivity|]. split; [exact stdin_regular|].
  split; [now apply exec1_regular|]. split; [reflexivity|]. split; [vm_compute; tauto|]. vm_compute. intuition discriminate.
Qed.
Print Assumptions C88_lenient_refuted.
(** A request whose header has a type that is not a string: the busy status is published without a
    logger and is not with one. *)
Definition numbered : xmessage :=
  {| m_ids := ["peer"]; m_base := {| m_header := jobj [("msg_type", JInt 1)]; m_parent_header := empty; m_metadata := empty; m_content := empty; m_buffers := [] |} |}.
Theorem C88_untyped_refuted : exists U (E : env U) w s, log_env E /\ addressed w /\ k_shell s = [] /\ s = kinit (k_user s) [] /\
  List.length (k_trace (fst (run (dispatch (unlogged E) w SHELL) s))) = 1 /\ k_trace (fst (run (dispatch E w SHELL) s)) = [].
Proof. exists U0, ldemo, (wire_of numbered), (kinit [] []). split; [exact ldemo_env|]. vm_compute. repeat split; auto. discriminate. Qed.
Print Assumptions C88_untyped_refuted.
(** A client that names itself "<IDS|MSG>", so that its messages have no identity: with a logger, front()
    of an empty vector, that is undefined behaviour; without, the request is answered. *)
Definition nameless : frames := match serialize toy toy_auth EStrict (request_msg [] "kernel_info_request" empty) with Ok w => w | _ => [] end.
Theorem C88_nameless_refuted : exists U (E : env U) w s, log_env E /\ titled E w /\ k_shell s = [] /\
  snd (run (dispatch (unlogged E) w SHELL) s) = Ok tt /\ is_ub (snd (run (dispatch E w SHELL) s)) = true.
Proof.
  exists U0, ldemo, nameless, (kinit [] []). split; [exact ldemo_env|]. split; [|split; [reflexivity|split; vm_compute; reflexivity]].
  intros m H. vm_compute in H. injection H as <-. eexists _, _. split; reflexivity.
Qed.
Print Assumptions C88_nameless_refuted.
(** Asking for input before any message came on the shell socket: undefined behaviour with a logger;
    without, the request is sent to nobody and the reply is taken. *)
Theorem C88_early_refuted : exists U (E : env U) w s, log_env E /\ regular E w /\ k_shell s = [] /\ k_pid s SHELL = [] /\
  snd (run (dispatch (unlogged E) w CONTROL) s) = Ok tt /\ is_ub (snd (run (dispatch E w CONTROL) s)) = true.
Proof.
  exists U0, ldemo, ask, demo_start. split; [exact ldemo_env|]. split; [unfold ask; wired|]. split; [vm_compute; reflexivity|]. split; [vm_compute; reflexivity|]. split; vm_compute; reflexivity.
Qed.
Print Assumptions C88_early_refuted.
