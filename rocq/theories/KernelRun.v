(** Exact behaviour of the kernel's elementary programs, and the frame of user code. *)
From Verif Require Import Base BaseFacts Json JsonText Utf8 Utf8Proofs JsonTextProofs Auth Message MessageProofs WireSpec History Comm Tree Kernel KernelSpec KernelProofs.

Lemma header_with_make i d ty u s : header_with (make_header i d ty u s) i ty u s.
Proof. exists d. rewrite make_header_sorted. eexists. split; [reflexivity|]. repeat split. Qed.

Section Run.
  Context {U : Type} (E : env U).
  Implicit Types (s : kstate U).

  (** State after drawing a header. *)
  Definition tick s : kstate U := set_clock (S (k_clock s)) (set_guid (S (k_guid s)) s).
  Definition hdr s (ty : string) : json :=
    make_header (e_guid E (k_guid s)) (e_now E (k_clock s)) ty (e_user_name E) (e_session_id E).
  Lemma run_new_header ty s : run (new_header E ty) s = (tick s, Ok (hdr s ty)).
  Proof. reflexivity. Qed.
  Definition pub_msg s (ty : string) (md ct : json) (bufs : list string) (c : channel) : xpub :=
    {| m_topic := get_topic E ty;
       m_pbase := {| m_header := hdr s ty; m_parent_header := k_phdr s c; m_metadata := md; m_content := ct; m_buffers := bufs |} |}.
  Definition add_event (e : event) s : kstate U := set_trace (k_trace s ++ [e]) s.

  Lemma run_emit e s : run (emit e) s = (add_event e s, Ok tt).
  Proof. reflexivity. Qed.
  Lemma run_publish ty md ct bufs c s :
    run (publish_message E ty md ct bufs c) s =
      let m := pub_msg s ty md ct bufs c in
      match e_logger E (LIopub m) with
      | Ok _ =>
          match pub_serialize (e_crypto E) (e_auth E) (e_eh E) m with
          | Ok w => (add_event (EPublish c m w) (tick s), Ok tt)
          | Exn e => (tick s, Exn e)
          | UB w => (tick s, UB w)
          end
      | Exn e => (tick s, Exn e)
      | UB w => (tick s, UB w)
      end.
  Proof.
    unfold publish_message. rewrite run_bind, run_new_header, run_bind, run_kdo. cbn [kstep fst snd]. cbv zeta.
    unfold log, emit. rewrite run_bind, run_res.
    change (k_phdr (tick s) c) with (k_phdr s c). fold (pub_msg s ty md ct bufs c).
    destruct (e_logger E (LIopub (pub_msg s ty md ct bufs c))); try reflexivity.
    rewrite run_bind, run_res.
    destruct (pub_serialize (e_crypto E) (e_auth E) (e_eh E) (pub_msg s ty md ct bufs c)); reflexivity.
  Qed.

  Definition reply_msg s (ids : list string) (ty : string) (ph md ct : json) : xmessage :=
    {| m_ids := ids; m_base := {| m_header := hdr s ty; m_parent_header := ph; m_metadata := md; m_content := ct; m_buffers := [] |} |}.
  Lemma run_reply_to ids ty ph md ct c s :
    run (send_reply_to E ids ty ph md ct c) s =
      let m := reply_msg s ids ty ph md ct in
      match e_logger E (LSent m (Some c)) with
      | Ok _ =>
          match serialize (e_crypto E) (e_auth E) (e_eh E) m with
          | Ok w => (add_event (ESend c m w) (tick s), Ok tt)
          | Exn e => (tick s, Exn e)
          | UB w => (tick s, UB w)
          end
      | Exn e => (tick s, Exn e)
      | UB w => (tick s, UB w)
      end.
  Proof.
    unfold send_reply_to. rewrite run_bind, run_new_header. cbv zeta.
    unfold log, emit. rewrite run_bind, run_res. fold (reply_msg s ids ty ph md ct).
    destruct (e_logger E (LSent (reply_msg s ids ty ph md ct) (Some c))); try reflexivity.
    rewrite run_bind, run_res.
    destruct (serialize (e_crypto E) (e_auth E) (e_eh E) (reply_msg s ids ty ph md ct)); reflexivity.
  Qed.
  Lemma run_reply ty md ct c s :
    run (send_reply E ty md ct c) s = run (send_reply_to E (k_pid s c) ty (k_phdr s c) md ct c) s.
  Proof. unfold send_reply. rewrite run_bind, run_kdo. cbn [kstep fst snd]. now rewrite run_bind, run_kdo. Qed.

  Lemma run_send_stdin ty md ct s :
    run (send_stdin E ty md ct) s =
      let m := reply_msg s (k_pid s SHELL) ty (k_phdr s SHELL) md ct in
      match e_logger E (LSent m None) with
      | Ok _ =>
          match serialize (e_crypto E) (e_auth E) (e_eh E) m with
          | Ok w => run (dispatch_stdin E (e_stdin E (k_stdin s))) (set_stdin (S (k_stdin s)) (add_event (EStdin m w) (tick s)))
          | Exn e => (tick s, Exn e)
          | UB w => (tick s, UB w)
          end
      | Exn e => (tick s, Exn e)
      | UB w => (tick s, UB w)
      end.
  Proof.
    unfold send_stdin. rewrite run_bind, run_kdo. cbn [kstep fst snd]. rewrite run_bind, run_new_header.
    rewrite run_bind, run_kdo. cbn [kstep fst snd]. cbv zeta.
    unfold log, emit. rewrite run_bind, run_res. change (k_phdr (tick s) SHELL) with (k_phdr s SHELL).
    fold (reply_msg s (k_pid s SHELL) ty (k_phdr s SHELL) md ct).
    destruct (e_logger E (LSent (reply_msg s (k_pid s SHELL) ty (k_phdr s SHELL) md ct) None)); try reflexivity.
    rewrite run_bind, run_res.
    destruct (serialize (e_crypto E) (e_auth E) (e_eh E) (reply_msg s (k_pid s SHELL) ty (k_phdr s SHELL) md ct)); reflexivity.
  Qed.

  (** ** Numbered traces *)
  Lemma numbered_le lo evs hi : numbered E lo evs hi -> lo <= hi.
  Proof. induction 1; lia. Qed.
  Lemma numbered_weaken lo lo' evs hi hi' : numbered E lo evs hi -> lo' <= lo -> hi <= hi' -> numbered E lo' evs hi'.
  Proof.
    intros H; revert lo' hi'; induction H; intros lo' hi' X1 X2.
    - constructor; lia.
    - eapply (num_msg E lo' n); eauto; lia.
    - apply num_other; auto.
  Qed.
  Lemma numbered_app lo a mid b hi : numbered E lo a mid -> numbered E mid b hi -> numbered E lo (a ++ b) hi.
  Proof.
    induction 1; intros Hb; cbn [app].
    - eapply numbered_weaken; eauto.
    - eapply num_msg; eauto.
    - apply num_other; auto.
  Qed.
  Lemma numbered_one e s ty : emitted e = Some (hdr s ty) -> numbered E (k_guid s) [e] (S (k_guid s)).
  Proof. intros H. eapply num_msg; eauto using header_with_make. constructor; lia. Qed.
  Lemma numbered_mark e n : emitted e = None -> numbered E n [e] n.
  Proof. intros H. apply num_other; auto. constructor; lia. Qed.

  (** ** The frame of user code *)
  (** What one event of user code looks like, when the shell parent is [ids], [ph]; [raw] are the
      types published directly on a target. *)
  Definition user_event (raw : string -> Prop) (ids : list string) (ph : json) (e : event) : Prop :=
    well_sent E e /\
    match e with
    | EPublish c m _ =>
        c = SHELL /\ m_parent_header (m_pbase m) = ph /\
        exists ty, pub_type m = Some ty /\ raw ty
    | EStdin m _ => m_ids m = ids /\ m_parent_header (m_base m) = ph /\ msg_type m = Some "input_request"
    | EInput _ _ => True
    | _ => False
    end.
  Record uframe (raw : string -> Prop) s s' : Prop := {
    uf_pid : k_pid s' = k_pid s;
    uf_phdr : k_phdr s' = k_phdr s;
    uf_shell : k_shell s' = k_shell s;
    uf_count : k_count s' = k_count s;
    uf_hist : k_history s' = k_history s;
    uf_trace : exists evs, k_trace s' = (k_trace s ++ evs)%list /\
       numbered E (k_guid s) evs (k_guid s') /\ Forall (user_event raw (k_pid s SHELL) (k_phdr s SHELL)) evs
  }.
  Lemma uframe_refl raw s : uframe raw s s.
  Proof. constructor; auto. exists []. rewrite app_nil_r. repeat split; auto. constructor; lia. Qed.
  Lemma uframe_trans raw s1 s2 s3 : uframe raw s1 s2 -> uframe raw s2 s3 -> uframe raw s1 s3.
  Proof.
    intros [A1 A2 A3 A4 A5 (e1 & T1 & N1 & F1)] [B1 B2 B3 B4 B5 (e2 & T2 & N2 & F2)].
    constructor; try congruence. exists (e1 ++ e2)%list. rewrite T2, T1, app_assoc. split; auto.
    split; [eapply numbered_app; eauto|]. rewrite A1, A2 in F2. apply Forall_app; auto.
  Qed.
  (** A step that changes nothing the frame looks at. *)
  Lemma uframe_silent raw s s' :
    k_pid s' = k_pid s -> k_phdr s' = k_phdr s -> k_shell s' = k_shell s -> k_count s' = k_count s ->
    k_history s' = k_history s -> k_trace s' = k_trace s -> k_guid s <= k_guid s' -> uframe raw s s'.
  Proof. intros. constructor; auto. exists []. rewrite app_nil_r. repeat split; auto. now constructor. Qed.

  Lemma always_all {Op} {Ar : Op -> Type} {A} (t : tree Ar A) (P : Op -> Prop) : (forall o, P o) -> always P t.
  Proof. intros H. induction t; cbn; auto. Qed.

  Section Frame.
    Context (raw : string -> Prop).
    Let R := uframe raw.
    Let Rrefl : forall s, R s s := uframe_refl raw.
    Let Rtrans : forall s1 s2 s3, R s1 s2 -> R s2 s3 -> R s1 s3 := uframe_trans raw.

    Lemma tick_frame s : R s (tick s).
    Proof. apply uframe_silent; auto. cbn. lia. Qed.
    Lemma frame_publish ty md ct bufs : raw ty -> keeps R (publish_message E ty md ct bufs SHELL).
    Proof.
      intros Hty s. rewrite run_publish. cbv zeta.
      destruct (e_logger E _); cbn [fst]; try apply tick_frame.
      destruct (pub_serialize _ _ _ _) as [w| |] eqn:Hw; cbn [fst]; try apply tick_frame.
      constructor; auto. eexists [_]. split; [reflexivity|]. split; [apply numbered_one with ty; reflexivity|].
      constructor; auto. split; [exact Hw|]. split; auto. split; auto. exists ty. split; auto.
    Qed.
    Lemma frame_kdo o : (forall s, R s (fst (kstep o s))) -> keeps R (kdo o).
    Proof. apply keeps_kdo. Qed.
    Ltac quiet_op := match goal with |- keeps _ (kdo ?o) => refine (frame_kdo o _) end; intros ?; cbn [kstep fst];
      first [apply Rrefl | apply uframe_silent; cbn; auto; fail].
    Lemma kbind {A B} (p : kprog U A) (f : A -> kprog U B) : keeps R p -> (forall a, keeps R (f a)) -> keeps R (tbind p f).
    Proof. apply keeps_bind, Rtrans. Qed.
    Lemma kret {A} (a : A) : keeps R (Ret a).
    Proof. apply keeps_ret, Rrefl. Qed.
    Lemma kres {A} (r : res A) : keeps R (of_res r).
    Proof. apply keeps_res, Rrefl. Qed.
    Lemma kthrow {A} e : keeps R (Throw e : kprog U A).
    Proof. apply keeps_throw, Rrefl. Qed.
    Lemma kstuck {A} w : keeps R (Stuck w : kprog U A).
    Proof. apply keeps_stuck, Rrefl. Qed.
    Lemma frame_guid : keeps R (new_guid E).
    Proof. unfold new_guid. apply kbind; [quiet_op | intros; apply kret]. Qed.
    Lemma frame_now : keeps R (now E).
    Proof. unfold now. apply kbind; [quiet_op | intros; apply kret]. Qed.
    Lemma frame_look {A} (f : comms -> res A) : keeps R (look_comms f).
    Proof. unfold look_comms. apply kbind; [quiet_op | intros; apply kres]. Qed.
    Lemma frame_with {A} (f : comms -> res (comms * A)) : keeps R (with_comms f).
    Proof.
      unfold with_comms. apply kbind; [quiet_op|]. intros cs. apply keeps_bind; auto using keeps_res.
      intros r. apply kbind; [quiet_op|]. intros; apply kret.
    Qed.
    Lemma frame_target_publish p ty md ct bufs : raw ty -> keeps R (target_publish E p ty md ct bufs).
    Proof.
      intros H. unfold target_publish. apply kbind; [apply frame_look|]. intros t.
      destruct (t_manager t); [now apply frame_publish | apply kstuck].
    Qed.
    Lemma frame_api0 o : op_allowed0 raw o -> keeps R (api0 E o).
    Proof.
      unfold op_allowed0. intros Ho.
      destruct o; cbn [api0 op_type] in *; unfold publish_execution_input, comm_open_msg, comm_close_msg, comm_send_msg;
        first [ apply frame_guid | apply frame_now | apply frame_with | apply frame_look | apply frame_publish; exact Ho | idtac ].
      all: try quiet_op.
      all: try (apply kbind; [quiet_op | intros; apply kres]).
      all: try (apply kbind; [apply frame_guid | intros; apply frame_with]).
      all: try (apply kbind; [apply frame_look | intros; apply frame_target_publish; exact Ho]).
      - apply frame_target_publish. exact Ho.
      - apply kbind; [apply frame_look | intros]. apply kbind; [apply frame_look | intros]. now apply frame_target_publish.
    Qed.
    Context (Hin0 : forall n v, always (op_allowed0 raw) (e_input E n v)).
    Lemma frame_mark n v : keeps R (emit (EInput n v)).
    Proof.
      unfold emit. refine (frame_kdo (KEmit _) _). intros s. constructor; auto. eexists [_]. split; [reflexivity|].
      split; [apply numbered_mark; reflexivity|]. constructor; auto. repeat split.
    Qed.
    Lemma frame_input_reply v : keeps R (input_reply E v).
    Proof.
      unfold input_reply. apply kbind; [quiet_op|]. intros [[|n]|].
      - apply kbind; [quiet_op|]. intros [x|]; [quiet_op | apply kstuck].
      - apply kbind; [apply frame_mark|]. intros _. refine (keeps_embed0 R Rrefl Rtrans E _ _ frame_api0 (Hin0 n v)).
      - apply kret.
    Qed.
    Lemma frame_dispatch_stdin w : keeps R (dispatch_stdin E w).
    Proof.
      unfold dispatch_stdin, log. apply (keeps_catch R Rtrans); [|apply kret].
      apply kbind; [apply kres|]. intros m. apply kbind; [apply kres|]. intros _.
      apply kbind; [apply kres | intros; apply frame_input_reply].
    Qed.
    Lemma frame_input_request p pwd : keeps R (input_request E p pwd).
    Proof.
      intros s. unfold input_request. rewrite run_send_stdin. cbv zeta.
      destruct (e_logger E _); cbn [fst]; try apply tick_frame.
      destruct (serialize _ _ _ _) as [w| |] eqn:Hw; cbn [fst]; try apply tick_frame.
      eapply Rtrans; [|apply frame_dispatch_stdin].
      constructor; auto. eexists [_]. split; [reflexivity|]. split; [apply numbered_one with "input_request"; reflexivity|].
      constructor; auto. split; [exact Hw|]. repeat split.
    Qed.
    Lemma frame_blocking p pwd : keeps R (blocking_input_request E p pwd).
    Proof.
      unfold blocking_input_request. apply kbind; [quiet_op|]. intros _. apply kbind; [quiet_op|]. intros _.
      apply kbind; [apply keeps_attempt, frame_input_request|]. intros [_|e].
      - apply kbind; [quiet_op|]. intros _. apply kbind; [quiet_op|]. intros v.
        apply kbind; [quiet_op|]. intros _. apply kret.
      - apply kbind; [quiet_op|]. intros _. apply kthrow.
    Qed.
    Lemma frame_api1 o : op_allowed raw o -> keeps R (api1 E o).
    Proof. destruct o; cbn [api1 op_allowed]; intros H; [exact (frame_api0 o H) | apply frame_input_request | apply frame_blocking]. Qed.
    Lemma frame_embed {A} (t : ucode U A) : always (op_allowed raw) t -> keeps R (embed E t).
    Proof. intros H. exact (keeps_embed R Rrefl Rtrans E _ _ frame_api1 H). Qed.
  End Frame.
End Run.
