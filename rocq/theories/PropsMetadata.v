(** Property C111: the metadata of outgoing messages.

    [described reply given e]: the metadata of the event [e]; [user_gives E given]: the metadata that user code
    hands to the functions that send messages about comms satisfy [given]. *)
From Verif Require Import Base BaseFacts Json JsonText Utf8 Utf8Proofs Auth Message WireSpec WireLemmas History Comm CommSpec Tree Kernel KernelSpec KernelProofs KernelRun KernelHandlers KernelDispatch KernelExec KernelLemmas KernelSession KernelDemo MetadataSpec.

Section Metadata.
  Context {U : Type} (E : env U) (given : json -> Prop).
  Hypothesis UG : user_gives E given.
  Implicit Types (s : kstate U).
  Definition emits (P : event -> Prop) (o : kop U) : Prop := match o with KEmit e => P e | _ => True end.
  (** From [s] to [s'] only events satisfying [P] were added. *)
  Definition adds (P : event -> Prop) s s' : Prop := k_clock s <= k_clock s' /\ exists evs, k_trace s' = (k_trace s ++ evs)%list /\ Forall P evs.
  Lemma adds_refl P s : adds P s s.
  Proof. split; auto. exists []. split; [now rewrite app_nil_r|constructor]. Qed.
  Lemma adds_trans P s1 s2 s3 : adds P s1 s2 -> adds P s2 s3 -> adds P s1 s3.
  Proof. intros (L1 & e1 & T1 & F1) (L2 & e2 & T2 & F2). split; [lia|]. exists (e1 ++ e2)%list. split; [now rewrite T2, T1, app_assoc|]. apply Forall_app. auto. Qed.
  Lemma adds_impl (P Q : event -> Prop) s s' : (forall e, P e -> Q e) -> adds P s s' -> adds Q s s'.
  Proof. intros H (L & e & T & F). split; auto. exists e. split; auto. eapply Forall_impl; eauto. Qed.
  Lemma emits_adds P {A} (p : kprog U A) s : always (emits P) p -> adds P s (fst (run p s)).
  Proof.
    revert s. unfold run. induction p as [a|e|w|o k IH]; intros s H; cbn [exec fst]; try apply adds_refl.
    destruct H as [Ho Hk]. destruct (kstep o s) as [s1 x] eqn:Es. eapply adds_trans; [|apply IH, Hk]. clear IH Hk.
    destruct o; cbn in Es; try (injection Es as <- _; split; cbn; [lia|exists []; split; [now rewrite app_nil_r|constructor]]).
    - injection Es as <- _. split; [cbn; lia|]. exists [e]. split; [reflexivity|]. now constructor.
    - destruct (k_shell s) eqn:Eq; injection Es as <- _; (split; [cbn; lia|exists []; split; [now rewrite app_nil_r|constructor]]).
    - destruct (k_replies s) eqn:Eq; injection Es as <- _; (split; [cbn; lia|exists []; split; [now rewrite app_nil_r|constructor]]).
  Qed.

  (** ** The programs of the kernel *)
  Context (reply : json -> Prop).
  Let P := described reply given.
  Ltac df := repeat match goal with
    | |- always _ (tbind _ _) => apply always_bind; [|intros ?]
    | |- always _ (catch_std _ _) => apply always_catch
    | |- always _ (attempt _) => apply always_attempt
    | |- always _ (of_res _) => apply always_of_res
    | |- always _ (kdo (KEmit _)) => split; [|intros ?; exact I]
    | |- always _ (kdo _) => split; [exact I | intros ?; exact I]
    | |- always _ (Ret _) => exact I
    | |- always _ (Throw _) => exact I
    | |- always _ (Stuck _) => exact I
    | |- always _ (match ?x with _ => _ end) => destruct x
    | |- emits _ _ => exact I
    | _ => progress unfold log, emit, new_guid, now, new_header, get_metadata, with_comms, look_comms
    end.
  Lemma em_publish ty md ct bufs c : md = JObj [] \/ given md -> always (emits P) (publish_message E ty md ct bufs c).
  Proof. intros H. unfold publish_message. cbv zeta. df. exact H. Qed.
  Lemma em_reply_to ids ty h md ct c : reply md -> always (emits P) (send_reply_to E ids ty h md ct c).
  Proof. intros H. unfold send_reply_to. cbv zeta. df. exact H. Qed.
  Lemma em_reply ty md ct c : reply md -> always (emits P) (send_reply E ty md ct c).
  Proof. intros H. unfold send_reply. df. now apply em_reply_to. Qed.
  Lemma em_target p ty md ct bufs : given md -> always (emits P) (target_publish E p ty md ct bufs).
  Proof. intros H. unfold target_publish. df. apply em_publish. auto. Qed.
  Lemma em_api0 o : op_gives given o -> always (emits P) (api0 E o).
  Proof.
    intros H. destruct o; cbn [api0] in *; unfold op_gives in H; cbn [op_metadata] in H;
      try solve [df | apply em_publish; left; reflexivity | unfold publish_execution_input; apply em_publish; left; reflexivity].
    - now apply em_target.
    - unfold comm_open_msg. df. now apply em_target.
    - unfold comm_close_msg. df. now apply em_target.
    - unfold comm_send_msg. df. now apply em_target.
  Qed.
  Lemma em_embed0 {A} (t : ucode0 U A) : always (op_gives given) t -> always (emits P) (embed0 E t).
  Proof. induction t as [a|e|w|o k IH]; cbn [embed0]; intros H; try exact I. destruct H as [Ho Hk]. df; [now apply em_api0|]. apply IH, Hk. Qed.
  Lemma em_stdin_in w : always (emits P) (dispatch_stdin E w).
  Proof.
    unfold dispatch_stdin, input_reply. df. all: try (apply em_embed0; apply (ua_input _ _ _ UG)).
  Qed.
  Lemma em_input prompt pwd : always (emits P) (input_request E prompt pwd).
  Proof. unfold input_request, send_stdin. cbv zeta. df; [reflexivity|apply em_stdin_in]. Qed.
  Lemma em_api1 o : op_gives1 given o -> always (emits P) (api1 E o).
  Proof. destruct o; cbn [api1]; intros H; [now apply em_api0|apply em_input|]. unfold blocking_input_request. df. apply em_input. Qed.
  Lemma em_embed {A} (t : ucode U A) : always (op_gives1 given) t -> always (emits P) (embed E t).
  Proof. induction t as [a|e|w|o k IH]; cbn [embed]; intros H; try exact I. destruct H as [Ho Hk]. df; [now apply em_api1|]. apply IH, Hk. Qed.
  Lemma em_interp r : always (emits P) (interp E r).
  Proof. unfold interp. df. apply em_embed, (ua_interp _ _ _ UG). Qed.
  Lemma em_embed2 {A} (t : ucode2 U A) : always (up2 (op_gives1 given)) t -> always (emits P) (embed2 E t).
  Proof.
    induction t as [a|e|w|o k IH]; cbn [embed2]; intros H; try exact I. destruct H as [Ho Hk]. df; [|apply IH, Hk].
    destruct o; cbn [api2]; [now apply em_api1|]. unfold send_to_shell, dispatch_internal. df. apply em_interp.
  Qed.
  Lemma em_run_handler h m : always (emits P) (run_handler E h m).
  Proof. unfold run_handler. df. apply em_embed, (ua_handler _ _ _ UG). Qed.
  Lemma em_run_callback h a m : always (emits P) (run_callback E h a m).
  Proof. unfold run_callback. df. apply em_embed, (ua_callback _ _ _ UG). Qed.
  Lemma em_status st c : always (emits P) (publish_status E st c).
  Proof. unfold publish_status. apply em_publish. now left. Qed.
  Hypothesis R0 : reply (JObj []).
  Ltac dd := df; repeat (match goal with
    | |- always _ (publish_message _ _ _ _ _ _) => apply em_publish; left; reflexivity
    | |- always _ (send_reply _ _ _ _ _) => apply em_reply; exact R0
    | |- always _ (interp _ _) => apply em_interp
    | |- always _ (run_handler _ _ _) => apply em_run_handler
    | |- always _ (run_callback _ _ _ _) => apply em_run_callback
    end; df).
  Lemma em_abort n : always (emits P) (abort_loop E n).
  Proof. induction n as [|n IH]; cbn [abort_loop]; dd; auto. unfold abort_request. cbv zeta. dd. now apply em_reply_to. Qed.
  Lemma em_handle ty m c : ty <> "execute_request" -> ty <> "debug_request" -> always (emits P) (handle E ty m c).
  Proof.
    intros NE N. unfold handle. destruct (mfind ty (handlers E)) as [h|] eqn:Hf; [|exact I]. apply always_catch; [|dd]. revert Hf.
    unfold handlers. cbn [mfind]. repeat (match goal with |- context [String.eqb ?a ?b] => destruct (String.eqb_spec a b) end; [intros [= <-]|]); try discriminate.
    - congruence.
    - unfold complete_request. cbv zeta. dd.
    - unfold inspect_request. cbv zeta. dd.
    - unfold history_request. cbv zeta. dd.
    - unfold is_complete_request. cbv zeta. dd.
    - unfold comm_info_request. cbv zeta. dd.
    - unfold comm_open. cbv zeta. dd.
    - unfold comm_close. cbv zeta. dd.
    - unfold comm_msg. cbv zeta. dd.
    - unfold kernel_info_request. cbv zeta. dd.
    - unfold shutdown_request. cbv zeta. dd.
    - unfold interrupt_request. cbv zeta. dd.
    - congruence.
  Qed.
  Lemma em_interp_execute code si st ue al : always (emits P) (interp_execute E code si st ue al).
  Proof. unfold interp_execute, publish_execution_input. cbv zeta. dd. Qed.
End Metadata.

Section Runs.
  Context {U : Type} (E : env U) (given : json -> Prop).
  Hypothesis UG : user_gives E given.
  Implicit Types (s : kstate U).
  Let silent := described (fun _ => False) given.
  Let plain := described (eq (JObj [])) given.
  Lemma described_impl (p q : json -> Prop) e : (forall j, p j -> q j) -> described p given e -> described q given e.
  Proof. intros H. destruct e; cbn; auto. Qed.
  Lemma silent_any (q : json -> Prop) e : silent e -> described q given e.
  Proof. apply described_impl. intros j []. Qed.

  Lemma adds_bind P {A B} (p : kprog U A) (f : A -> kprog U B) s : adds P s (fst (run p s)) ->
    (forall a s1, run p s = (s1, Ok a) -> adds P s1 (fst (run (f a) s1))) -> adds P s (fst (run (tbind p f) s)).
  Proof. intros H1 H2. rewrite run_bind. destruct (run p s) as [s1 [a|e|w]] eqn:R; cbn [fst] in *; auto. eapply adds_trans; eauto. Qed.
  Lemma run_kept {A} (p h : kprog U A) s : (forall s, fst (run h s) = s) -> fst (run (catch_std p h) s) = fst (run p s).
  Proof. intros H. unfold run in *. rewrite exec_catch. destruct (exec _ p s) as [s1 [a|[]|w]]; cbn [fst]; auto. Qed.
  Lemma run_pure {A} (r : res A) s : fst (run (of_res r) s : kstate U * res A) = s.
  Proof. destruct r; reflexivity. Qed.
  (** What happens to an accepted message. *)
  Definition rest (m : xmessage) (c : channel) : kprog U unit :=
    log E (LReceived m (Some c)) ;;; set_parent (m_ids m) (m_header (m_base m)) c ;;; publish_status E "busy" c ;;;
    tbind (of_res (value_string "msg_type" "" (m_header (m_base m)))) (fun ty => handle E ty m c ;;; publish_status E "idle" c).
  Lemma run_accepted w c m s : accepted E w m -> run (dispatch E w c) s = run (rest m c) s.
  Proof. intros Ha. unfold dispatch. rewrite run_bind. unfold run at 1. rewrite exec_catch, exec_bind. unfold accepted in Ha. rewrite Ha. reflexivity. Qed.
  Lemma status_clock st c s s1 a : run (publish_status E st c) s = (s1, Ok a) -> k_clock s1 = S (k_clock s).
  Proof.
    unfold publish_status, publish_message, new_header, new_guid, now. rewrite !run_bind. cbn. unfold log. destruct (e_logger E _); cbn; try discriminate.
    destruct (pub_serialize _ _ _ _); cbn; try discriminate. now intros [= <- _].
  Qed.
  (** The part of the run before the handler, and the rest. *)
  Lemma rest_parts m c s : adds silent s (fst (run (rest m c) s)) \/
    exists ty s1, typed (m_header (m_base m)) ty /\ k_clock s1 = S (k_clock s) /\ adds silent s s1 /\ adds silent (fst (run (handle E ty m c) s1)) (fst (run (rest m c) s)).
  Proof.
    assert (ST : forall st s, adds silent s (fst (run (publish_status E st c) s))) by (intros st s0; apply emits_adds, em_status).
    unfold rest. rewrite run_bind. unfold log. destruct (e_logger E (LReceived m (Some c))) as [[]|e|e]; [|left; apply adds_refl..].
    cbn [of_res]. rewrite run_ret, run_bind. destruct (run (set_parent (m_ids m) (m_header (m_base m)) c) s) as [s2 r] eqn:R2.
    assert (C2 : k_clock s2 = k_clock s) by (now injection R2 as <-). assert (T2 : k_trace s2 = k_trace s) by (now injection R2 as <-). assert (r = Ok tt) as -> by (now injection R2 as _ <-).
    assert (A2 : adds silent s s2) by (split; [lia|]; exists []; split; [now rewrite app_nil_r|constructor]).
    rewrite run_bind. pose proof (ST "busy" s2) as A3. destruct (run (publish_status E "busy" c) s2) as [s3 [[]|e|e]] eqn:R3; cbn [fst] in *; [|left; eapply adds_trans; eauto..].
    apply status_clock in R3. rewrite C2 in R3. rewrite run_bind. destruct (value_string "msg_type" "" (m_header (m_base m))) as [ty|e|e] eqn:V; [|left; eapply adds_trans; eauto..].
    cbn [of_res]. rewrite run_ret, run_bind. right. exists ty, s3. split; [now apply typed_value|]. split; [exact R3|]. split; [eapply adds_trans; eauto|].
    destruct (run (handle E ty m c) s3) as [s4 [[]|e|e]]; cbn [fst]; [apply ST|apply adds_refl..].
  Qed.
  Lemma handle_same ty m c s h : mfind ty (handlers E) = Some h -> fst (run (handle E ty m c) s) = fst (run (h m c) s).
  Proof. intros Hf. unfold handle. rewrite Hf. apply run_kept. intros s0. rewrite run_bind. destruct (dump EStrict (m_content (m_base m))); reflexivity. Qed.

  (** A reply, as the last event if there is one. *)
  Lemma reply_run ty md ct c s : let (s1, r) := run (send_reply E ty md ct c) s in k_clock s1 = S (k_clock s) /\
    match r with Ok _ => exists q f, k_trace s1 = (k_trace s ++ [ESend c q f])%list /\ m_metadata (m_base q) = md | _ => k_trace s1 = k_trace s end.
  Proof.
    unfold send_reply, send_reply_to, new_header, new_guid, now. rewrite !run_bind. cbn. unfold log. destruct (e_logger E _); cbn; auto.
    destruct (serialize _ _ _ _); cbn; auto. split; auto. eexists _, _. split; reflexivity.
  Qed.
  (** The events of an execute request. *)
  Definition opened (md : json) (c : channel) s s' : Prop := exists evs, k_trace s' = (k_trace s ++ evs)%list /\
    (Forall silent evs \/ exists pre q f post, evs = (pre ++ ESend c q f :: post)%list /\ Forall silent pre /\ m_metadata (m_base q) = md /\ Forall plain post).
  Lemma silent_opened md c s s' : adds silent s s' -> opened md c s s'.
  Proof. intros (_ & evs & T & F). exists evs. auto. Qed.
  Lemma opened_after md c s s1 s' : adds silent s s1 -> opened md c s1 s' -> opened md c s s'.
  Proof.
    intros (_ & e1 & T1 & F1) (e2 & T2 & H). exists (e1 ++ e2)%list. split; [now rewrite T2, T1, app_assoc|]. destruct H as [H|(pre & q & f & post & -> & H1 & H2 & H3)]; [left; now apply Forall_app|].
    right. exists (e1 ++ pre)%list, q, f, post. split; [now rewrite app_assoc|]. split; [now apply Forall_app|]. auto.
  Qed.
  Lemma opened_then md c s s1 s' : opened md c s s1 -> adds silent s1 s' -> opened md c s s'.
  Proof.
    intros (e1 & T1 & H) (_ & e2 & T2 & F2). exists (e1 ++ e2)%list. split; [now rewrite T2, T1, app_assoc|]. destruct H as [H|(pre & q & f & post & -> & H1 & H2 & H3)]; [left; now apply Forall_app|].
    right. exists pre, q, f, (post ++ e2)%list. split; [now rewrite <- app_assoc|]. split; auto. split; auto. apply Forall_app. split; auto. eapply Forall_impl; [|exact F2]. apply silent_any.
  Qed.
  Lemma opened_bind md c {A B} (p : kprog U A) (f : A -> kprog U B) s : adds silent s (fst (run p s)) ->
    (forall a s1, run p s = (s1, Ok a) -> opened md c s1 (fst (run (f a) s1))) -> opened md c s (fst (run (tbind p f) s)).
  Proof. intros H1 H2. rewrite run_bind. destruct (run p s) as [s1 [a|e|w]] eqn:R; cbn [fst] in *; [eapply opened_after; eauto|now apply silent_opened..]. Qed.
  Lemma opened_read md c {A B} (r : res A) (f : A -> kprog U B) s : (forall a, opened md c s (fst (run (f a) s))) -> opened md c s (fst (run (tbind (of_res r) f) s)).
  Proof. intros H. rewrite run_bind. destruct r; cbn; [apply H|apply silent_opened, adds_refl..]. Qed.
  Lemma execute_opened m c s : opened (JObj [("started", JStr (e_now E (k_clock s)))]) c s (fst (run (execute_request E m c) s)).
  Proof.
    unfold execute_request. rewrite run_kept by reflexivity. cbv zeta. do 7 (apply opened_read; intros ?).
    unfold get_metadata, now. rewrite run_bind. cbn [run exec tbind kdo perform kstep]. set (s1 := set_clock _ s).
    apply opened_after with (s1 := s1); [split; [cbn; lia|]; exists []; split; [now rewrite app_nil_r|constructor]|].
    change (exec (kstep (U:=U))) with (@run U). apply opened_bind; [apply emits_adds, em_interp_execute; exact UG|]. intros reply s2 _.
    apply opened_read. intros st. rewrite run_bind. pose proof (reply_run "execute_reply" (jobj [("started", JStr (e_now E (k_clock s)))]) reply c s2) as X.
    destruct (run (send_reply E "execute_reply" (jobj [("started", JStr (e_now E (k_clock s)))]) reply c) s2) as [s3 r]. destruct X as [_ X].
    destruct r as [[]|e|e]; cbn [fst]; [|exists []; split; [now rewrite X, app_nil_r|left; constructor]..]. destruct X as (q & f & T & Hq).
    match goal with |- opened _ _ _ (fst (run ?p s3)) => assert (A : adds plain s3 (fst (run p s3))) end.
    { apply emits_adds. apply always_bind; [|intros _]; match goal with |- always _ (if ?b then _ else _) => destruct b end; try exact I.
      - repeat (split; [exact I|intros ?]). exact I.
      - unfold abort_queue. split; [exact I|]. intros n. apply em_abort; reflexivity. }
    destruct A as (_ & evs & T' & F). exists (ESend c q f :: evs). split; [rewrite T', T, <- app_assoc; reflexivity|]. right. exists [], q, f, evs. auto.
  Qed.
  (** The events of a debug request. *)
  Lemma debug_dated m c s : adds (described (dated E (k_clock s) (k_clock (fst (run (debug_request E m c) s)))) given) s (fst (run (debug_request E m c) s)).
  Proof.
    unfold debug_request. destruct (e_debugger E) as [dbg|] eqn:Hd; [|apply adds_refl]. pose proof (ua_debugger _ _ _ UG) as HD. rewrite Hd in HD. cbv zeta.
    rewrite run_bind. set (h := m_header (m_base m)). set (t := m_content (m_base m)).
    assert (A1 : adds silent s (fst (run (emit (EDebug h t)) s))) by (apply emits_adds; split; [exact I|intros ?; exact I]).
    cbn [run exec emit kdo perform kstep fst] in A1 |- *. change (exec (kstep (U:=U))) with (@run U). set (s1 := set_trace _ s) in *.
    assert (K : forall (Q : event -> Prop) s', (forall e, silent e -> Q e) -> adds Q s1 s' -> adds Q s s') by (intros Q s' HQ H; eapply adds_trans; [eapply adds_impl; [exact HQ|exact A1]|exact H]).
    rewrite run_bind. assert (A2 : adds silent s1 (fst (run (embed2 E (dbg h t)) s1))) by (apply emits_adds, em_embed2; auto).
    destruct (run (embed2 E (dbg h t)) s1) as [s2 [rep|e|e]]; cbn [fst] in *; [|apply K; [apply silent_any|]; eapply adds_impl; [apply silent_any|exact A2]..].
    rewrite run_bind. unfold get_metadata, now. rewrite run_bind. cbn [run exec tbind kdo perform kstep]. set (s3 := set_clock _ s2). change (exec (kstep (U:=U))) with (@run U).
    pose proof (reply_run "debug_reply" (jobj [("started", JStr (e_now E (k_clock s2)))]) rep c s3) as X.
    destruct (run (send_reply E "debug_reply" (jobj [("started", JStr (e_now E (k_clock s2)))]) rep c) s3) as [s4 r]. destruct X as [C4 X]. cbn [fst].
    assert (L : k_clock s <= k_clock s2) by (destruct A1 as [A1 _]; destruct A2 as [A2 _]; lia). assert (C3 : k_clock s3 = S (k_clock s2)) by reflexivity.
    apply K; [apply silent_any|]. eapply adds_trans; [eapply adds_impl; [apply silent_any|exact A2]|]. split; [lia|].
    destruct r as [[]|e|e]; [destruct X as (q & f & T & Hq)|exists []; rewrite X; split; [cbn; now rewrite app_nil_r|constructor]..].
    exists [ESend c q f]. split; [exact T|]. constructor; [|constructor]. cbn. rewrite Hq. exists (k_clock s2). split; [lia|reflexivity].
  Qed.
End Runs.

(** The reply to an execute request says when the kernel started with it: the clock is read right after the reading for
    the header of the busy status, before user code runs. The replies to the requests aborted afterwards have no metadata. *)
Theorem C111_execute : forall U (E : env U) given, user_gives E given ->
  forall w c m s, accepted E w m -> typed (m_header (m_base m)) "execute_request" ->
  exists evs, k_trace (fst (run (dispatch E w c) s)) = (k_trace s ++ evs)%list /\
    (Forall (described (fun _ => False) given) evs \/
     exists pre r f post, evs = (pre ++ ESend c r f :: post)%list /\ Forall (described (fun _ => False) given) pre /\
       m_metadata (m_base r) = JObj [("started", JStr (e_now E (S (k_clock s))))] /\ Forall (described (eq (JObj [])) given) post).
Proof.
  intros U E given UG w c m s Ha Hty. rewrite (run_accepted E w c m s Ha). destruct (rest_parts E given m c s) as [(_ & evs & T & F)|(ty & s1 & Ht & C & A1 & A2)]; [exists evs; auto|].
  assert (ty = "execute_request") as -> by (destruct Hty as (f & E1 & E2), Ht as (f' & E1' & E2'); rewrite E1 in E1'; injection E1' as <-; destruct (mfind "msg_type" f); congruence).
  rewrite (handle_same E "execute_request" m c s1 (execute_request E)) in A2 by reflexivity. pose proof (execute_opened E given UG m c s1) as O. rewrite C in O.
  exact (opened_after given _ _ _ _ _ A1 (opened_then given _ _ _ _ _ O A2)).
Qed.
Print Assumptions C111_execute.
(** The reply to a debug request has a date read while the request was handled. *)
Theorem C111_debug : forall U (E : env U) given, user_gives E given ->
  forall w c m s s' x, accepted E w m -> typed (m_header (m_base m)) "debug_request" -> run (dispatch E w c) s = (s', x) ->
  exists evs, k_trace s' = (k_trace s ++ evs)%list /\ Forall (described (dated E (S (k_clock s)) (k_clock s')) given) evs.
Proof.
  intros U E given UG w c m s s' x Ha Hty R. rewrite (run_accepted E w c m s Ha) in R. destruct (rest_parts E given m c s) as [(_ & evs & T & F)|(ty & s1 & Ht & C & A1 & A2)]; rewrite R in *; cbn [fst] in *.
  - exists evs. split; auto. eapply Forall_impl; [|exact F]. apply silent_any.
  - assert (ty = "debug_request") as -> by (destruct Hty as (f & E1 & E2), Ht as (f' & E1' & E2'); rewrite E1 in E1'; injection E1' as <-; destruct (mfind "msg_type" f); congruence).
    rewrite (handle_same E "debug_request" m c s1 (debug_request E)) in A2 by reflexivity. pose proof (debug_dated E given UG m c s1) as O. rewrite C in O.
    assert (G : adds (described (dated E (S (k_clock s)) (k_clock s')) given) s s'); [|exact (proj2 G)].
    eapply adds_trans; [eapply adds_impl; [apply silent_any|exact A1]|]. eapply adds_trans; [eapply adds_impl; [|exact O]|eapply adds_impl; [apply silent_any|exact A2]].
    intros e. apply described_impl. intros j (n & L & ->). exists n. split; auto. destruct A2 as [A2 _]. lia.
Qed.
Print Assumptions C111_debug.
(** All other messages have no metadata, except those about comms, whose metadata are the ones user code gave. *)
Theorem C111_plain : forall U (E : env U) given, user_gives E given ->
  forall w c m s, accepted E w m -> ~ typed (m_header (m_base m)) "execute_request" -> ~ typed (m_header (m_base m)) "debug_request" ->
  exists evs, k_trace (fst (run (dispatch E w c) s)) = (k_trace s ++ evs)%list /\ Forall (described (eq (JObj [])) given) evs.
Proof.
  intros U E given UG w c m s Ha N1 N2. rewrite (run_accepted E w c m s Ha). destruct (rest_parts E given m c s) as [(_ & evs & T & F)|(ty & s1 & Ht & C & A1 & A2)].
  - exists evs. split; auto. eapply Forall_impl; [|exact F]. apply silent_any.
  - assert (O : adds (described (eq (JObj [])) given) s1 (fst (run (handle E ty m c) s1))).
    { apply emits_adds, em_handle; [exact UG|reflexivity| |]; intros ->; auto. }
    assert (G : adds (described (eq (JObj [])) given) s (fst (run (rest E m c) s))); [|exact (proj2 G)].
    eapply adds_trans; [eapply adds_impl; [apply silent_any|exact A1]|]. eapply adds_trans; [exact O|eapply adds_impl; [apply silent_any|exact A2]].
Qed.
Print Assumptions C111_plain.

(** ** Examples *)
(** A kernel whose clock can be told apart, with a debugger that says when it was asked. *)
Definition watch : env U0 := {|
  e_crypto := toy; e_auth := toy_auth; e_eh := EStrict; e_kernel_id := "k1"; e_user_name := "user"; e_session_id := "s1";
  e_guid := ticks; e_now := fun n => "at " +++ ticks n; e_stdin := stdin_msg; e_logger := fun _ => Ok tt;
  e_regex := fun _ => Ok (fun _ => false); e_indet := IndetVal (fun _ => false); e_long_id := fun s => Ok s;
  e_configure := act (ARegTarget "chat" (Some 1)) (act (ARegTarget "drop" (Some 2)) (Ret tt));
  e_interp := demo_interp; e_split := false;
  e_debugger := Some (fun _ _ => Do (AOp1 (AOp ANow)) (fun d : uans2 (AOp1 (AOp ANow)) => Ret (jobj [("asked", JStr (match d with inl d => d | inr _ => "" end))])));
  e_callback := demo_callback; e_handler := demo_handler; e_input := fun _ _ => Ret tt |}.
Definition watch_start : kstate U0 := fst (run (kernel_start watch) (kinit [] [])).
Lemma watch_gives (given : json -> Prop) : (forall j, given j) -> user_gives watch given.
Proof.
  intros H. constructor; cbn [watch e_configure e_interp e_debugger e_callback e_handler e_input]; intros; try exact I.
  - cbn. auto.
  - destruct r; cbn [demo_interp]; try exact I.
    destruct (String.eqb code "boom"); [exact I|]. destruct (String.eqb code "bad"); [cbn; auto|]. destruct (String.eqb code "ask"); cbn; auto.
  - cbn. auto.
  - unfold demo_callback. destruct (Nat.eqb n 1); [|exact I]. cbn. split; [exact I|]. intros [b|e]; cbn; auto.
  - unfold demo_handler. destruct (Nat.eqb n 7); [|exact I]. cbn. split; [exact I|]. intros [[|b l]|e]; cbn; auto.
Qed.
Definition metadata_of (e : event) : list json := match e with ESend _ r _ => [m_metadata (m_base r)] | EStdin m _ => [m_metadata (m_base m)] | _ => [] end.
Example C111_ex : user_gives watch (fun _ => True) /\
  (let m := execute "1" [] in accepted watch (wire_of m) m /\ typed (m_header (m_base m)) "execute_request" /\
     List.concat (List.map metadata_of (k_trace (fst (run (dispatch watch (wire_of m) SHELL) watch_start)))) = [jobj [("started", JStr ("at " +++ ticks (S (k_clock watch_start))))]]) /\
  (let m := simple "complete_request" in accepted watch (wire_of m) m /\
     List.concat (List.map metadata_of (k_trace (fst (run (dispatch watch (wire_of m) SHELL) watch_start)))) = [JObj []]).
Proof.
  split; [now apply watch_gives|]. cbv zeta. split; (split; [vm_compute; reflexivity|]); [split; [eexists; split; reflexivity|]|]; vm_compute; reflexivity.
Qed.
(** The date in the reply to a debug request is not the one at which the kernel started with it: the clock is read after the
    debugger has returned. *)
Theorem C111_debug_started_refuted : exists (E : env U0) w m s, user_gives E (fun _ => True) /\ accepted E w m /\ typed (m_header (m_base m)) "debug_request" /\
  exists r f asked n, In (ESend CONTROL r f) (k_trace (fst (run (dispatch E w CONTROL) s))) /\ m_content (m_base r) = JObj [("asked", JStr (e_now E asked))] /\
    m_metadata (m_base r) = JObj [("started", JStr (e_now E n))] /\ asked < n /\ e_now E n <> e_now E asked.
Proof.
  set (m := simple "debug_request"). exists watch, (wire_of m), m, watch_start. split; [now apply watch_gives|]. split; [vm_compute; reflexivity|]. split; [eexists; split; reflexivity|].
  assert (X : exists r f, In (ESend CONTROL r f) (k_trace (fst (run (dispatch watch (wire_of m) CONTROL) watch_start))) /\ m_content (m_base r) = JObj [("asked", JStr (e_now watch (S (k_clock watch_start))))] /\
    m_metadata (m_base r) = JObj [("started", JStr (e_now watch (S (S (k_clock watch_start)))))]).
  { eexists _, _. split; [vm_compute; do 3 right; left; reflexivity|]. split; vm_compute; reflexivity. }
  destruct X as (r & f & X1 & X2 & X3). exists r, f, (S (k_clock watch_start)), (S (S (k_clock watch_start))). split; [exact X1|]. split; [exact X2|]. split; [exact X3|]. split; [lia|]. vm_compute. discriminate.
Qed.
Print Assumptions C111_debug_started_refuted.
