(** Nothing leaves the kernel without the consent of the logger. *)
From Verif Require Import Base BaseFacts Json JsonText Auth Message History Comm Logger HostSpec LoggerProofs Tree Kernel KernelSpec Server ServerSpec Split SplitSpec SplitRace LogSpec LoggedSpec.

Section Walk.
  Context {U : Type} (E : env U).
  Notation ok := (always (vetted E)).
  Ltac np := repeat match goal with
    | |- always _ (tbind _ _) => apply always_bind; [|intros ?]
    | |- always _ (catch_std _ _) => apply always_catch
    | |- always _ (attempt _) => apply always_attempt
    | |- always _ (of_res _) => apply always_of_res
    | |- always _ (kdo _) => split; [exact I | intros ?; exact I]
    | |- always _ (perform _) => split; [exact I | intros ?; exact I]
    | |- always _ (Ret _) => exact I
    | |- always _ (Throw _) => exact I
    | |- always _ (Stuck _) => exact I
    | |- always _ (match mfind ?x ?y with _ => _ end) => destruct (mfind x y) eqn:?
    | |- always _ (match ?x with _ => _ end) => destruct x
    | _ => progress unfold emit, new_guid, now, new_header, get_metadata, with_comms, look_comms
    end.
  Lemma v_publish ty md ct b c : ok (publish_message E ty md ct b c).
  Proof.
    unfold publish_message. cbv zeta. apply always_bind; [np|intros h]. apply always_bind; [np|intros p]. unfold log. apply always_res. intros [] L. apply always_res. intros w _.
    split; [exact L|exact (fun _ => I)].
  Qed.
  Lemma v_send_to ids ty ph md ct c : ok (send_reply_to E ids ty ph md ct c).
  Proof.
    unfold send_reply_to. cbv zeta. apply always_bind; [np|intros h]. unfold log. apply always_res. intros [] L. apply always_res. intros w _. split; [exact L|exact (fun _ => I)].
  Qed.
  Lemma v_send ty md ct c : ok (send_reply E ty md ct c).
  Proof. unfold send_reply. np. apply v_send_to. Qed.
  Lemma v_target p ty md ct b : ok (target_publish E p ty md ct b).
  Proof. unfold target_publish. np. apply v_publish. Qed.
  Lemma v_api0 o : ok (api0 E o).
  Proof. destruct o; cbn [api0]; unfold publish_execution_input, comm_open_msg, comm_close_msg, comm_send_msg; np; auto using v_publish, v_target. Qed.
  Lemma v_embed0 {A} (t : ucode0 U A) : ok (embed0 E t).
  Proof. induction t; cbn [embed0]; try exact I. apply always_bind; [apply always_attempt, v_api0|auto]. Qed.
  Lemma v_stdin w : ok (dispatch_stdin E w).
  Proof. unfold dispatch_stdin, input_reply, log. np. apply v_embed0. Qed.
  Lemma v_input p b : ok (input_request E p b).
  Proof.
    unfold input_request, send_stdin. cbv zeta. apply always_bind; [np|intros ids]. apply always_bind; [np|intros h]. apply always_bind; [np|intros ph].
    unfold log. apply always_res. intros [] L. apply always_res. intros w _. apply always_bind; [split; [exact L|exact (fun _ => I)]|intros _]. np. apply v_stdin.
  Qed.
  Lemma v_api1 o : ok (api1 E o).
  Proof. destruct o; cbn [api1]; [apply v_api0|apply v_input|]. unfold blocking_input_request. np. apply v_input. Qed.
  Lemma v_embed {A} (t : ucode U A) : ok (embed E t).
  Proof. induction t; cbn [embed]; try exact I. apply always_bind; [apply always_attempt, v_api1|auto]. Qed.
  Lemma v_interp r : ok (interp E r).
  Proof. unfold interp. np. apply v_embed. Qed.
  Lemma v_internal w : ok (dispatch_internal E w).
  Proof. unfold dispatch_internal. np. apply v_interp. Qed.
  Lemma v_api2 o : ok (api2 E o).
  Proof. destruct o; cbn [api2]; [apply v_api1|]. unfold send_to_shell. np. apply v_internal. Qed.
  Lemma v_embed2 {A} (t : ucode2 U A) : ok (embed2 E t).
  Proof. induction t; cbn [embed2]; try exact I. apply always_bind; [apply always_attempt, v_api2|auto]. Qed.
  Lemma v_abort_request w : ok (abort_request E w).
  Proof. unfold abort_request. cbv zeta. np. apply v_send_to. Qed.
  Lemma v_loop n : ok (abort_loop E n).
  Proof. induction n as [|n IH]; cbn [abort_loop]; [exact I|]. np; [apply v_abort_request|exact IH]. Qed.
  Lemma v_execute m c : ok (execute_request E m c).
  Proof. unfold execute_request, interp_execute, abort_queue. cbv zeta. np; auto using v_interp, v_publish, v_send, v_loop. apply v_publish. Qed.
  Lemma v_handler ty h m c : mfind ty (handlers E) = Some h -> ok (h m c).
  Proof.
    unfold handlers. cbn [mfind]. intros H.
    repeat match type of H with (if ?b then _ else _) = _ => destruct b eqn:?; [injection H as <-|] end; try discriminate.
    - apply v_execute.
    - unfold complete_request. np; auto using v_interp, v_send.
    - unfold inspect_request. np; auto using v_interp, v_send.
    - unfold history_request. np; auto using v_interp, v_send.
    - unfold is_complete_request. np; auto using v_interp, v_send.
    - unfold comm_info_request. np; auto using v_interp, v_send.
    - unfold comm_open, run_callback. np; auto using v_embed.
    - unfold comm_close, run_handler. np; auto using v_embed.
    - unfold comm_msg, run_handler. np; auto using v_embed.
    - unfold kernel_info_request. np; auto using v_interp, v_send.
    - unfold shutdown_request. cbv zeta. np; auto using v_interp, v_publish, v_send.
    - unfold interrupt_request. np; auto using v_publish, v_send.
    - unfold debug_request. cbv zeta. destruct (e_debugger E); [|exact I]. np; auto using v_embed2, v_send.
  Qed.
  Lemma v_dispatch w c : ok (dispatch E w c).
  Proof.
    unfold dispatch, log, set_parent, handle, publish_status. cbv zeta. apply always_bind; [np|intros [m|]; [|exact I]]. np; auto using v_publish.
    eapply v_handler; eauto.
  Qed.

  (** Nothing is done about a message before the logger has accepted it. *)
  Lemma first_dispatch w c m : accepted E w m -> always (fun _ => e_logger E (LReceived m (Some c)) = Ok tt) (dispatch E w c).
  Proof.
    intros A. unfold accepted in A. unfold dispatch. rewrite A. cbn [of_res tbind catch_std]. unfold log. apply always_res. intros [] L.
    eapply always_impl; [intros o _; exact L|]. instantiate (1 := fun _ => True). cbv zeta. match goal with |- always _ ?t => generalize t end. clear. intros t. induction t; cbn; auto.
  Qed.
  Lemma first_stdin w m : accepted E w m -> always (fun _ => e_logger E (LReceived m None) = Ok tt) (dispatch_stdin E w).
  Proof.
    intros A. unfold accepted in A. unfold dispatch_stdin. rewrite A. cbn [of_res tbind catch_std]. apply always_catch; [|exact I]. unfold log. apply always_res. intros [] L.
    eapply always_impl; [intros o _; exact L|]. instantiate (1 := fun _ => True). match goal with |- always _ ?t => generalize t end. clear. intros t. induction t; cbn; auto.
  Qed.
End Walk.

(** In a run of a server: what is emitted was performed by a listener. *)
Section Default.
  Context {U : Type} (P : kop U -> Prop) (listener : channel -> frames -> kprog U unit) (HL : forall c w, always P (listener c w)).
  Definition d_ok (s : dsys U) : Prop := match d_pc s with MInControl p _ => always P p | MInShell p => always P p | _ => True end.
  Lemma d_ok_step s l s' : dstep listener s l s' -> d_ok s -> d_ok s' /\ forall e, l = Emitted e -> P (KEmit e).
  Proof.
    intros H. destruct H as [s l s' M| | | | | |]; unfold d_ok; cbn [d_pc]; try (intros I; split; [exact I|intros e [=]]; fail).
    destruct M; cbn [d_pc]; try (intros _; split; [try apply HL; try exact I|intros e' [=]]; fail).
    - destruct rc; split; auto; intros e [=].
    - intros [Po Ha]. split; [apply Ha|]. intros e. destruct o; try discriminate; [destruct e0|destruct x]; try discriminate; intros [= <-]; exact Po.
    - intros _. split; [|discriminate]. destruct (negb (m_stop m) && rs)%bool; exact I.
    - intros [Po Ha]. split; [apply Ha|]. intros e. destruct o; try discriminate; [destruct e0|destruct x]; try discriminate; intros [= <-]; exact Po.
  Qed.
  Lemma d_ok_run s0 ls s : d_ok s0 -> drun listener s0 ls s -> d_ok s /\ forall e, In (Emitted e) ls -> P (KEmit e).
  Proof.
    intros H0 H. induction H as [s|s ls s1 l s2 H IH St]; [split; [exact H0|intros e []]|]. destruct (IH H0) as [I1 I2]. destruct (d_ok_step _ _ _ St I1) as [J1 J2].
    split; auto. intros e I. apply in_app_or in I as [I|[I|[]]]; auto.
  Qed.
End Default.
Section Split.
  Context {U : Type} (P : kop U -> Prop) (v : variant) (listener : channel -> frames -> kprog U unit) (internal : frames -> kprog U frames)
    (HL : forall c w, always P (listener c w)) (HI : forall w, always P (internal w)).
  Definition g_ok {A} (g : going U A) : Prop := match g with Going p => always P p | Calling k => forall x, always P (k x) end.
  Definition y_ok (s : ysys U) : Prop :=
    match y_sh s with SRun g _ => g_ok g | SIntern g => g_ok g | _ => True end /\ match y_ct s with CRun g => g_ok g | _ => True end.
  Lemma g_ok_step c A (g : going U A) m l g' m' : gstep c g m l g' m' -> g_ok g -> g_ok g' /\ forall c' e, l = YEvent c' e -> P (KEmit e).
  Proof.
    intros H. destruct H as [o k m m' x Ho|w k m Hc|k w m Hc]; cbn [g_ok].
    - intros [Po Ha]. split; [apply Ha|]. intros c' e. destruct o; try discriminate; [|destruct x; discriminate]. intros [= _ <-]. exact Po.
    - intros [_ H]. split; [exact H|discriminate].
    - intros H. split; [apply H|discriminate].
  Qed.
  Lemma y_ok_step s l s' : ystep v listener internal s l s' -> y_ok s -> y_ok s' /\ forall c e, l = YEvent c e -> P (KEmit e).
  Proof.
    intros Hst (I1 & I2). inversion Hst; subst; cbn [y_sh y_ct y_mem] in *; unfold y_ok; cbn [y_sh y_ct y_mem]; try (split; [auto|discriminate]; fail).
    - match goal with H : shell_step _ _ _ _ _ _ _ |- _ => inversion H; subst; cbn [m_shellq m_ctlq] in * end; try (split; [auto|discriminate]; fail).
      + split; [split; [apply HL|auto]|discriminate].
      + match goal with H : gstep _ _ _ _ _ _ |- _ => destruct (g_ok_step _ _ _ _ _ _ _ H I1) as [A1 A2] end. auto.
      + split; [destruct b0; auto|discriminate].
      + split; [split; [apply HI|auto]|discriminate].
      + match goal with H : gstep _ _ _ _ _ _ |- _ => destruct (g_ok_step _ _ _ _ _ _ _ H I1) as [A1 A2] end. auto.
    - match goal with H : control_step _ _ _ _ _ _ |- _ => inversion H; subst; cbn [m_shellq m_ctlq] in * end; try (split; [auto|discriminate]; fail).
      + split; [split; [auto|apply HL]|discriminate].
      + match goal with H : gstep _ _ _ _ _ _ |- _ => destruct (g_ok_step _ _ _ _ _ _ _ H I2) as [A1 A2] end. auto.
  Qed.
  Lemma y_ok_run s0 ls s : y_ok s0 -> yrun v listener internal s0 ls s -> y_ok s /\ forall c e, In (YEvent c e) ls -> P (KEmit e).
  Proof.
    intros H0 H. induction H as [s|s ls s1 l s2 H IH St]; [split; [exact H0|intros c e []]|]. destruct (IH H0) as [I1 I2]. destruct (y_ok_step _ _ _ St I1) as [J1 J2].
    split; auto. intros c e I. apply in_app_or in I as [I|[I|[]]]; eauto.
  Qed.
End Split.

(** ** What a chain of loggers that accepts has written *)
Lemma accepted_entries lg info b es : log_message lg info (m_header b) (m_parent_header b) (m_metadata b) (m_content b) = (es, Ok tt) -> entries lg info b es.
Proof.
  intros H. unfold entries. destruct lg as [|l s next].
  - injection H as <-. constructor.
  - assert (exists t, type_of (m_header b) t) as [t T].
    { cbn [log_message] in H. unfold at_level, value_string, jvalue in H. destruct (m_header b) as [| | | | | |o]; cbn [bind] in H; try discriminate.
      unfold type_of, jfield. destruct (mfind "msg_type" o) as [v|] eqn:F; [|exists "", o; auto]. destruct v; cbn [get_string bind] in H; try discriminate.
      exists s0, o. auto. }
    pose proof (log_prefix (LLogger l s next) info (m_header b) (m_parent_header b) (m_metadata b) (m_content b) t T) as X. rewrite H in X.
    destruct X as [(pre & post & E & F & G) _]. rewrite (proj1 G eq_refl), app_nil_r in E. rewrite E. clear - F T. induction F; constructor; eauto.
Qed.
Lemma channel_entries what lg m c : snd (log_channel what lg m c) = Ok tt ->
  entries lg ("XEUS: " +++ what +++ " message on " +++ channel_str c +++ " - " +++ shown_id (m_ids m)) (m_base m) (fst (log_channel what lg m c)).
Proof.
  unfold log_channel. destruct lg as [|l s next]; [intros _; constructor|]. destruct (m_ids m) as [|id ids]; [discriminate|]. cbv zeta. cbn [shown_id].
  intros H. apply accepted_entries. destruct (log_message _ _ _ _ _ _) as [es r]. cbn [fst snd] in *. now subst r.
Qed.
Lemma consented_written {U} (E : env U) lg e : e_logger E = chain_logger lg -> consented E e -> written lg e.
Proof.
  intros L. destruct e as [c m w|c m w|m w| | | | | |]; cbn [consented written]; try rewrite L; auto.
  - unfold chain_logger, chain_call, log_iopub. destruct lg as [|l s next]; [intros _; constructor|]. cbv zeta. intros H. apply accepted_entries.
    destruct (log_message _ _ _ _ _ _) as [es r]. cbn [fst snd] in *. now subst r.
  - intros H. apply channel_entries in H. destruct c; exact H.
  - intros H. apply channel_entries in H. exact H.
Qed.
Lemma received_written {U} (E : env U) lg c m : e_logger E = chain_logger lg -> e_logger E (LReceived m c) = Ok tt -> written_in lg c m.
Proof. intros L. rewrite L. intros H. apply channel_entries in H. destruct c as [[]|]; exact H. Qed.
