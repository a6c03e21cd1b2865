(** The split servers answer every request: C83, C84. *)
From Verif Require Import Base BaseFacts Json JsonText Utf8 Utf8Proofs Auth Message WireSpec History HistoryProofs Comm Tree Kernel KernelSpec KernelProofs KernelRun KernelReplies AnsweredSpec KernelDemo
  Server ServerSpec ServerProofs ServerExec ServerLemmas Split SplitSpec SplitProofs SplitCalls SplitStop ServerDemo SequentialSpec SplitStreamSpec SplitStream SplitIds
  LiveSpec Live SplitLiveSpec SplitLive SplitLiveDemo SplitAnsweredSpec SplitAnswered SplitRests PropsServer PropsSequential PropsSplitStream PropsSplitLive.

(** C83. One request: thread [c] was given [w], a request that is well formed and that the interpreter
    handles whatever the other thread does, and has come back. Then it published the busy status, sent
    the reply to [w] and published the idle status, whatever the other messages are; the reply is
    followed by the error replies to the messages it aborted. *)
Theorem C83_one : forall U v (E : env U) raw, user_publishes E raw -> ~ raw "status" -> quiet E -> env_utf8 E ->
  forall k start, parents_utf8 k -> Forall entry_utf8 (k_history k) ->
  forall c ls s l1 w l2, yrun v (fun c w => dispatch E w c) (dispatch_internal E) (y_init k start) ls s -> rests c s ->
  ls = (l1 ++ YHand c w :: l2)%list -> in_same c l2 -> answerable_amid E w ->
  exists m ty busy mid rep ab idle, accepted E w m /\ typed (m_header (m_base m)) ty /\ events c l2 = (busy :: mid ++ rep :: ab ++ [idle])%list /\
    status_event E "busy" c (m_header (m_base m)) busy /\ Forall (inner E c m) mid /\
    well_sent E rep /\ routed E c (m_ids m) (m_header (m_base m)) ty rep /\
    (exists ws, aborted E ws ab /\ (tooks c l2 = ws \/ exists x, tooks c l2 = (ws ++ [x])%list)) /\
    status_event E "idle" c (m_header (m_base m)) idle.
Proof. exact @one_answered. Qed.
Print Assumptions C83_one.

(** C83. Each request: when thread [c] is not handling a message, the replies it has sent are the
    answers to the authentic messages it received, one each and in order, if the messages it was given
    are such requests or not authentic, and those it took from the shell socket can be aborted. *)
Theorem C83_each : forall U v (E : env U) raw, user_publishes E raw -> ~ raw "status" -> quiet E -> env_utf8 E ->
  forall k start, parents_utf8 k -> Forall entry_utf8 (k_history k) ->
  forall c ls s, yrun v (fun c w => dispatch E w c) (dispatch_internal E) (y_init k start) ls s -> rests c s ->
  (forall w, In (YHand c w) ls -> rejected E w \/ answerable_amid E w) -> (forall w, In (YTook c w) ls -> abortable E w) ->
  Forall2 (answers E) (filter (fun x => is_accepted E (snd x)) (received_by c ls)) (sends (events c ls)).
Proof. intros U v E raw HU Hraw Hq Hu k start P0 H0 c ls s Hr Hs HH HT. exact (each_answered v E raw HU Hraw Hq Hu k start P0 H0 c _ ls s (le_n _) Hr Hs HH HT). Qed.
Print Assumptions C83_each.

Section Liveness.
  Context {U : Type} (v : variant) (E : env U) (raw : string -> Prop) (HU : user_publishes E raw) (Hraw : ~ raw "status") (Hq : quiet E) (Hu : env_utf8 E).
  Context (k : kstate U) (start : frames) (P0 : parents_utf8 k) (H0 : Forall entry_utf8 (k_history k)) (sigma : nat -> ysys U) (lab : nat -> option slabel).
  Hypothesis Hex : execution v (fun c w => dispatch E w c) (dispatch_internal E) sigma lab.
  Hypothesis Hi : sigma 0 = y_init k start.
  Hypothesis Hoff : keeps_off lab.
  Lemma asked_abortable w : rejected E w \/ answerable_amid E w -> abortable E w.
  Proof.
    intros [H|(m & ty & Ha & Hty & H)]; [left; exact H|right].
    assert (X : exists x, ty = x +++ "_" +++ "request").
    { destruct H; [exists "execute"|exists "complete"|exists "inspect"|exists "is_complete"|exists "kernel_info"|exists "shutdown"|exists "interrupt"|exists "debug"|exists "history"]; reflexivity. }
    destruct X as [x ->]. exists m, x, "request". repeat split; auto. intros a b Hab.
    assert (X : forall t, In "_"%char (list_ascii_of_string (a +++ "_" +++ t))).
    { intros t. clear. induction a as [|y a IH]; [left; reflexivity|right; exact IH]. }
    specialize (X b). rewrite <- Hab in X. cbn in X. intuition discriminate.
  Qed.
  Lemma seen_off m : forall w, ~ In (YTook CONTROL w) (seen lab m).
  Proof.
    intros w. induction m as [|m IH]; [intros []|]. cbn [seen]. intros H. apply in_app_or in H as [H|H]; [auto|].
    destruct (lab m) as [l|] eqn:Hl; [|destruct H]. destruct H as [->|[]]. now apply (Hoff m w).
  Qed.
  Lemma received_taken c ls : (forall w, ~ In (YTook CONTROL w) ls) -> received_by c ls = List.map (pair c) (taken c ls).
  Proof.
    induction ls as [|l ls IH]; intros H; auto. unfold received_by, taken in *. cbn [flat_map]. rewrite map_app, IH; [|intros w Hw; apply (H w); now right]. f_equal.
    destruct l; auto; cbn.
    all: destruct c, c0; try reflexivity; destruct (H w); now left.
  Qed.
  Lemma hand_taken c w ls : In (YHand c w) ls -> In w (taken c ls).
  Proof. intros H. apply in_flat_map. exists (YHand c w). split; auto. rewrite chan_eqb_refl. now left. Qed.
  Lemma took_taken c w ls : In (YTook c w) ls -> In w (taken SHELL ls).
  Proof. intros H. apply in_flat_map. exists (YTook c w). split; auto. now left. Qed.
  Lemma taken_came c m w : In w (taken c (seen lab m)) -> In w (came c (seen lab m)).
  Proof. destruct (queues v E k start sigma lab Hex Hi m) as [Q1 Q2]. destruct c; [rewrite Q2|rewrite Q1]; intros; apply in_or_app; auto. Qed.
  Lemma filter_cut {A} (f : A -> bool) (a b : list A) : prefix a b -> prefix (filter f a) (filter f b).
  Proof. intros [r ->]. exists (filter f r). apply filter_app. Qed.
  Lemma map_cut {A B} (f : A -> B) (a b : list A) : prefix a b -> prefix (List.map f a) (List.map f b).
  Proof. intros [r ->]. exists (List.map f r). apply map_app. Qed.
  Lemma answered_in_time c n :
    (forall i w, In w (came c (seen lab i)) -> rejected E w \/ answerable_amid E w) ->
    ev n (fun m => List.length (came c (seen lab n)) <= cnt lab c m \/ over sigma m \/ m_stop (y_mem (sigma m)) = true) ->
    (forall i, ev i (fun m => over sigma m \/ rests c (sigma m))) ->
    exists m, n <= m /\
      ((exists rs, prefix rs (sends (events c (seen lab m))) /\
          Forall2 (answers E) (filter (fun x => is_accepted E (snd x)) (List.map (pair c) (came c (seen lab n)))) rs) \/
       y_end (sigma m) = Some Crashed \/ asked_stop (seen lab m)).
  Proof.
    intros HA (m & Hm & [H|H]) HR; [|exists m; split; auto; right; eapply over_or_stop; eauto].
    assert (HP : prefix (came c (seen lab n)) (taken c (seen lab m))) by (eapply taken_prefix; eauto).
    destruct (HR m) as (i & Him & [Ho|Hr]); [exists i; split; [lia|]; right; eapply over_or_stop; eauto|].
    exists i. split; [lia|]. left. destruct (obs_prefix lab m i Him) as [r Hobs].
    assert (HP' : prefix (came c (seen lab n)) (taken c (seen lab i))).
    { destruct HP as [x Hx]. rewrite Hobs. unfold taken in *. rewrite flat_map_app, Hx, <- app_assoc. eexists. reflexivity. }
    pose proof (obs_run v E k start sigma lab Hex Hi i) as R.
    assert (F : Forall2 (answers E) (filter (fun x => is_accepted E (snd x)) (received_by c (seen lab i))) (sends (events c (seen lab i)))).
    { eapply C83_each; eauto.
      - intros w Hw. apply (HA i). apply taken_came. now apply hand_taken.
      - intros w Hw. apply asked_abortable. destruct c; [|now apply seen_off in Hw]. apply (HA i). apply taken_came. eapply took_taken; eauto. }
    rewrite received_taken in F by apply seen_off.
    apply (map_cut (pair c)), (filter_cut (fun x => is_accepted E (snd x))) in HP'. destruct HP' as [z Hz]. rewrite Hz in F.
    apply Forall2_app_inv_l in F as (rs & r2 & F1 & _ & F3). exists rs. split; auto. exists r2. exact F3.
  Qed.
End Liveness.

(** C83. Every authentic message that arrived on the shell socket is eventually answered, in the order
    of arrival, if all messages arriving there are such requests (or not authentic), unless the
    process crashes or the server is asked to stop. *)
Theorem C83_shell : forall U v (E : env U) raw, user_publishes E raw -> ~ raw "status" -> quiet E -> env_utf8 E ->
  forall k start, parents_utf8 k -> Forall entry_utf8 (k_history k) ->
  forall sigma lab, execution v (fun c w => dispatch E w c) (dispatch_internal E) sigma lab -> sigma 0 = y_init k start ->
  fair v (fun c w => dispatch E w c) (dispatch_internal E) sigma lab TShell ->
  (forall n, ~ calls_itself (sigma n)) -> gets_input SHELL sigma -> keeps_off lab ->
  (forall n w, In w (came SHELL (seen lab n)) -> rejected E w \/ answerable_amid E w) ->
  forall n, exists m, n <= m /\
    ((exists rs, prefix rs (sends (events SHELL (seen lab m))) /\
        Forall2 (answers E) (filter (fun x => is_accepted E (snd x)) (List.map (pair SHELL) (came SHELL (seen lab n)))) rs) \/
     y_end (sigma m) = Some Crashed \/ asked_stop (seen lab m)).
Proof.
  intros U v E raw HU Hraw Hq Hu k start P0 H0 sigma lab Hex Hi HS HC HI HO HA n. eapply answered_in_time; eauto.
  - exact (shell_all_taken v E k start sigma lab Hex Hi HS HC HI n).
  - intros i. eapply shell_rests; eauto.
Qed.
Print Assumptions C83_shell.
(** The same on the control socket. *)
Theorem C83_control : forall U v (E : env U) raw, user_publishes E raw -> ~ raw "status" -> quiet E -> env_utf8 E ->
  forall k start, parents_utf8 k -> Forall entry_utf8 (k_history k) ->
  forall sigma lab, execution v (fun c w => dispatch E w c) (dispatch_internal E) sigma lab -> sigma 0 = y_init k start ->
  fair v (fun c w => dispatch E w c) (dispatch_internal E) sigma lab TShell ->
  fair v (fun c w => dispatch E w c) (dispatch_internal E) sigma lab TControl ->
  (forall n, ~ calls_itself (sigma n)) -> gets_input SHELL sigma -> gets_input CONTROL sigma -> keeps_off lab ->
  (forall n w, In w (came CONTROL (seen lab n)) -> rejected E w \/ answerable_amid E w) ->
  forall n, exists m, n <= m /\
    ((exists rs, prefix rs (sends (events CONTROL (seen lab m))) /\
        Forall2 (answers E) (filter (fun x => is_accepted E (snd x)) (List.map (pair CONTROL) (came CONTROL (seen lab n)))) rs) \/
     y_end (sigma m) = Some Crashed \/ asked_stop (seen lab m)).
Proof.
  intros U v E raw HU Hraw Hq Hu k start P0 H0 sigma lab Hex Hi HS HT HC HI HI2 HO HA n. eapply answered_in_time; eauto.
  - exact (control_all_taken v E k start sigma lab Hex Hi HS HC HI HT HO HI2 n).
  - intros i. eapply control_rests; eauto.
Qed.
Print Assumptions C83_control.

(** C84. No crash: a thread handling such a request (or a message that is not authentic) does not throw
    and has no undefined behaviour, whatever the other thread does, as long as fewer messages were
    given to the listeners than the execution counter can count. *)
Theorem C84_thread : forall U v (E : env U), quiet E -> env_utf8 E ->
  forall k start, parents_utf8 k -> Forall entry_utf8 (k_history k) ->
  forall c ls s p, yrun v (fun c w => dispatch E w c) (dispatch_internal E) (y_init k start) ls s -> handles c s p ->
  (k_count k + handed ls < int_max)%Z ->
  (forall l1 w l2, ls = (l1 ++ YHand c w :: l2)%list -> in_same c l2 -> (rejected E w \/ answerable_amid E w) /\ Forall (abortable E) (tooks c l2)) ->
  ~ failing p.
Proof. exact @safe. Qed.
Print Assumptions C84_thread.
(** The process does not crash if every message given to a listener is such a request or not authentic,
    the messages aborted can be aborted, and the interpreter handles the requests made to the shell
    thread. *)
Theorem C84_no_crash : forall U v (E : env U), quiet E -> env_utf8 E ->
  forall k start, parents_utf8 k -> Forall entry_utf8 (k_history k) ->
  forall ls s, yrun v (fun c w => dispatch E w c) (dispatch_internal E) (y_init k start) ls s ->
  (k_count k + handed ls < int_max)%Z ->
  (forall c w, In (YHand c w) ls -> rejected E w \/ answerable_amid E w) -> (forall c w, In (YTook c w) ls -> abortable E w) ->
  (forall w, In (YIntern w) ls -> well_inquired E w) -> y_end s <> Some Crashed.
Proof. exact @no_crash. Qed.
Print Assumptions C84_no_crash.

(** The demonstration server: cells that print or fail, a debug request that asks the shell thread, a
    request for information. *)
Lemma sdemo_quiet : quiet sdemo.
Proof. intros l. reflexivity. Qed.
Lemma sdemo_utf8 : env_utf8 sdemo.
Proof. destruct demo_utf8 as (A & B & C & D). split; [exact A|]. split; [exact B|]. split; [exact C|exact D]. Qed.
Lemma start_fine : parents_utf8 demo_start /\ Forall entry_utf8 (k_history demo_start).
Proof.
  assert (Hp : k_phdr demo_start = fun _ => empty) by (vm_compute; reflexivity).
  assert (Hh : k_history demo_start = []) by (vm_compute; reflexivity).
  split; [intros c; rewrite Hp; exact utf8_empty|rewrite Hh; constructor].
Qed.
Lemma settles_bind U (E : env U) A B (P : A -> Prop) (Q : B -> Prop) (p : kprog U A) (f : A -> kprog U B) :
  settles E P p -> (forall a, P a -> settles E Q (f a)) -> settles E Q (tbind p f).
Proof. induction p as [a|e|w|o k IH]; cbn; auto; try contradiction. Qed.
Lemma settles_attempt ty md ct bs c : settles sdemo (fun _ => True) (attempt (publish_message sdemo ty md ct bs c)).
Proof.
  unfold publish_message, new_header, new_guid, now. cbn. intros g _ t _ ph _. 
  match goal with |- context [pub_serialize ?a ?b ?c ?d] => destruct (pub_serialize_cases a b c d) as [[w ->]| ->] end; cbn; auto.
Qed.
Lemma sdemo_cell more m p : m_content (m_base (execute (x_code p) more)) = JObj m -> accepted sdemo (wire_of (execute (x_code p) more)) (execute (x_code p) more) ->
  exec_params (JObj m) p -> In (x_code p) ["1"; "2"; "bad"] -> answerable_amid sdemo (wire_of (execute (x_code p) more)).
Proof.
  intros Hc Ha Hp Hin. exists (execute (x_code p) more), "execute_request". split; [exact Ha|]. split; [eexists; split; reflexivity|]. rewrite Hc.
  apply (wa_execute sdemo _ _ p Hp). intros n. destruct Hin as [X|[X|[X|[]]]]; rewrite <- X; cbn [e_interp sdemo demo_interp String.eqb Ascii.eqb Bool.eqb fin act tbind embed api1 api0];
    repeat (eapply settles_bind; [apply settles_attempt|intros ? _]); cbn [settles tbind embed];
    (split; [apply utf8_obj; repeat constructor; cbn [fst snd]; try apply utf8_str; apply utf8_lit; reflexivity|]; eexists _, _; split; reflexivity).
Qed.
Lemma exec1_amid : answerable_amid sdemo exec1.
Proof.
  refine (sdemo_cell [] _ {| x_code := "1"; x_silent := false; x_store := true; x_count := 1; x_ue := JObj []; x_stdin := true; x_stop := false |} eq_refl _ _ _);
    [vm_compute; reflexivity| |cbn; auto].
  eexists. split; [reflexivity|]. cbn. split; [now right|]. repeat split; now left.
Qed.
Lemma exec2_amid : answerable_amid sdemo exec2.
Proof.
  refine (sdemo_cell [] _ {| x_code := "2"; x_silent := false; x_store := true; x_count := 1; x_ue := JObj []; x_stdin := true; x_stop := false |} eq_refl _ _ _);
    [vm_compute; reflexivity| |cbn; auto].
  eexists. split; [reflexivity|]. cbn. split; [now right|]. repeat split; now left.
Qed.
Lemma failing_amid : answerable_amid sdemo failing_cell.
Proof.
  refine (sdemo_cell [("stop_on_error", JBool true)] _ {| x_code := "bad"; x_silent := false; x_store := true; x_count := 1; x_ue := JObj []; x_stdin := true; x_stop := true |} eq_refl _ _ _);
    [vm_compute; reflexivity| |cbn; auto].
  eexists. split; [reflexivity|]. cbn. split; [now right|]. repeat split; try (now left). now right.
Qed.
Lemma info_amid : answerable_amid sdemo info.
Proof.
  exists (simple "kernel_info_request"), "kernel_info_request". split; [vm_compute; reflexivity|]. split; [eexists; split; reflexivity|].
  apply wa_kernel_info. cbn. split; [|eexists; reflexivity]. apply utf8_obj. repeat constructor; cbn [fst snd]; try apply utf8_str; apply utf8_lit; reflexivity.
Qed.
Lemma debug_amid : answerable_amid sdemo debug.
Proof.
  exists (simple "debug_request"), "debug_request". split; [vm_compute; reflexivity|]. split; [eexists; split; reflexivity|].
  eapply wa_debug; [reflexivity|]. cbn [e_debugger sdemo embed2 api2 e_split].
  unfold send_to_shell. assert (Hd : exists t, dump EStrict (JStr "stop") = Ok t) by (vm_compute; eauto). destruct Hd as [t ->].
  cbn. intros w (j & a & u & Hr & Hu & ->). cbn in Hr. subst a. unfold sdemo in Hu. cbn [e_eh] in Hu.
  assert (Hv : dump EStrict ok_reply_json = Ok u) by exact Hu. vm_compute in Hv. injection Hv as <-. cbn [pop bind of_res tbind attempt].
  match goal with |- context [parse ?t] => assert (Hp : parse t = Ok ok_reply_json) by (vm_compute; reflexivity); rewrite Hp end. cbn.
  apply utf8_obj. repeat constructor; cbn [fst snd]; try apply utf8_str; apply utf8_lit; reflexivity.
Qed.
Lemma stop_inquired : well_inquired sdemo ["""stop"""].
Proof.
  exists """stop""", [], (JStr "stop"). split; [reflexivity|]. split; [vm_compute; reflexivity|]. cbn.
  apply utf8_obj. repeat constructor; cbn [fst snd]; try apply utf8_str; apply utf8_lit; reflexivity.
Qed.
(** A failing cell and two messages it aborts, a message that is not authentic, with requests on the
    control channel meanwhile. *)
Definition forged : frames := ["peer"; "<IDS|MSG>"; "no signature"; "{}"; "{}"; "{}"; "{}"].
Definition mixed : list (ychoice * nat) :=
  [(YIn SHELL failing_cell, 1); (YIn SHELL exec1, 1); (YIn SHELL info, 1); (YIn CONTROL debug, 1); (YIn CONTROL forged, 1); (YIn CONTROL info, 1)] ++ mix 60.
Definition hands (ls : list slabel) : list (channel * frames) := flat_map (fun l => match l with YHand c w => [(c, w)] | _ => [] end) ls.
Definition interns (ls : list slabel) : list frames := flat_map (fun l => match l with YIntern w => [w] | _ => [] end) ls.
Lemma in_hands c w ls : In (YHand c w) ls -> In (c, w) (hands ls).
Proof. intros H. apply in_flat_map. exists (YHand c w). split; auto. now left. Qed.
Lemma in_interns w ls : In (YIntern w) ls -> In w (interns ls).
Proof. intros H. apply in_flat_map. exists (YIntern w). split; auto. now left. Qed.
Lemma in_tooks c w ls : In (YTook c w) ls -> In w (tooks c ls).
Proof. intros H. apply in_flat_map. exists (YTook c w). split; auto. rewrite chan_eqb_refl. now left. Qed.
Lemma forged_rejected : rejected sdemo forged.
Proof. eexists. vm_compute. reflexivity. Qed.
Example C83_ex : forall v, let ls := fst (split_run v mixed) in let s := snd (split_run v mixed) in
  (user_publishes sdemo user_types /\ ~ user_types "status" /\ quiet sdemo /\ env_utf8 sdemo /\ parents_utf8 demo_start /\ Forall entry_utf8 (k_history demo_start)) /\
  yrun v slisten sintern (y_init demo_start ["start"]) ls s /\ (forall c, rests c s) /\
  (forall c w, In (YHand c w) ls -> rejected sdemo w \/ answerable_amid sdemo w) /\ (forall c w, In (YTook c w) ls -> abortable sdemo w) /\
  (forall w, In (YIntern w) ls -> well_inquired sdemo w) /\ (k_count demo_start + handed ls < int_max)%Z /\
  hands ls = [(SHELL, failing_cell); (CONTROL, debug); (CONTROL, forged); (CONTROL, info)] /\ interns ls = [["""stop"""]] /\ tooks SHELL ls = [exec1; info] /\
  addresses (events SHELL ls) = [(SHELL, ["peer"], Some "execute_reply"); (SHELL, ["peer"], Some "execute_reply"); (SHELL, ["peer"; "x"], Some "kernel_info_reply")] /\
  addresses (events CONTROL ls) = [(CONTROL, ["peer"; "x"], Some "debug_reply"); (CONTROL, ["peer"; "x"], Some "kernel_info_reply")].
Proof.
  intros v ls s.
  assert (X1 : hands ls = [(SHELL, failing_cell); (CONTROL, debug); (CONTROL, forged); (CONTROL, info)]) by (destruct v; vm_compute; reflexivity).
  assert (X2 : interns ls = [["""stop"""]]) by (destruct v; vm_compute; reflexivity).
  assert (X3 : tooks SHELL ls = [exec1; info] /\ tooks CONTROL ls = []) by (destruct v; vm_compute; auto).
  split; [split; [apply sdemo_publishes; cbn; tauto|]; split; [cbn; intuition discriminate|]; split; [exact sdemo_quiet|]; split; [exact sdemo_utf8|exact start_fine]|].
  split; [apply split_run_ok|]. split; [intros []; destruct v; vm_compute; exact I|]. split.
  { intros c w Hw. apply in_hands in Hw. rewrite X1 in Hw.
    destruct Hw as [[= <- <-]|[[= <- <-]|[[= <- <-]|[[= <- <-]|[]]]]]; [right; exact failing_amid|right; exact debug_amid|left; exact forged_rejected|right; exact info_amid]. }
  destruct X3 as [X3 X4]. split.
  { intros c w Hw. apply in_tooks in Hw. destruct c; [rewrite X3 in Hw|rewrite X4 in Hw; destruct Hw].
    apply asked_abortable. right. destruct Hw as [<-|[<-|[]]]; [exact exec1_amid|exact info_amid]. }
  split; [intros w Hw; apply in_interns in Hw; rewrite X2 in Hw; destruct Hw as [<-|[]]; exact stop_inquired|].
  split; [destruct v; vm_compute; reflexivity|]. split; [exact X1|]. split; [exact X2|]. split; [exact X3|]. destruct v; vm_compute; auto.
Qed.
(** The hypotheses of C83_one and C84_thread in the middle of such a run. *)
Example C84_ex : forall v, exists n p, let r := split_run v (firstn n mixed) in
  yrun v slisten sintern (y_init demo_start ["start"]) (fst r) (snd r) /\ handles SHELL (snd r) p /\ hands (fst r) = [(SHELL, failing_cell); (CONTROL, debug)] /\ p <> Ret tt.
Proof.
  intros v. set (prog := fun s : ysys U0 => match y_sh s with SRun (Going p) _ => p | _ => Ret tt end).
  exists 20, (prog (snd (split_run v (firstn 20 mixed)))). cbv zeta. split; [apply split_run_ok|].
  assert (H : match y_sh (snd (split_run v (firstn 20 mixed))) with SRun (Going (Do _ _)) _ => true | _ => false end = true) by (destruct v; vm_compute; reflexivity).
  split; [|split; [destruct v; vm_compute; reflexivity|]]; unfold prog, handles; destruct (y_sh (snd (split_run v (firstn 20 mixed)))) as [| |[[| | |o q]|] b| | | |]; try discriminate.
  exists b. reflexivity.
Qed.
(** The hypotheses of C83_shell and C83_control; see C78_ex for the others. *)
Example C83_live_ex : forall v n c w, In w (came c (seen (split_lab v live_choices) n)) -> answerable_amid sdemo w.
Proof.
  intros v n c w Hw.
  assert (HA : came SHELL (ylabels v slisten sintern live_choices (y_init demo_start ["start"])) = [exec1; exec2] /\
    came CONTROL (ylabels v slisten sintern live_choices (y_init demo_start ["start"])) = [debug; info]) by (destruct v; vm_compute; auto).
  unfold split_lab in Hw. rewrite plab_labels in Hw.
  assert (Hc : In w (came c (ylabels v slisten sintern live_choices (y_init demo_start ["start"])))).
  { rewrite <- (firstn_skipn n live_choices), ylabels_app. unfold came. rewrite flat_map_app. apply in_or_app. auto. }
  destruct HA as [A1 A2]. destruct c; [rewrite A1 in Hc|rewrite A2 in Hc]; destruct Hc as [<-|[<-|[]]]; auto using exec1_amid, exec2_amid, debug_amid, info_amid.
Qed.
