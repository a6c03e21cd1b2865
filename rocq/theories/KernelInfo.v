(** The reply to kernel_info. *)
From Verif Require Import Base BaseFacts Json JsonText Utf8 Utf8Proofs JsonTextProofs Auth Message MessageProofs WireSpec History HistoryProofs Comm Tree Kernel KernelSpec KernelProofs KernelRun KernelHandlers KernelExec KernelDispatch KernelLemmas KernelReplies.

Section Info.
  Context {U : Type} (E : env U) (raw : string -> Prop).
  Implicit Types (s : kstate U).
  Context (Hq : quiet E) (Hu : env_utf8 E) (HU : user_publishes E raw).

  (** The content of the reply: the interpreter's answer (an object, or null) with the version. *)
  Definition info_content (j : json) : Prop :=
    exists mm, j = JObj (mset "protocol_version" (JStr "5.3") mm) /\ (answer E (e_interp E RKernelInfo) (JObj mm) \/ (answer E (e_interp E RKernelInfo) JNull /\ mm = [])).

  Lemma info_sends m c s : exists evs, k_trace (fst (run (kernel_info_request E m c) s)) = (k_trace s ++ evs)%list /\
    forall c' r f, In (ESend c' r f) evs -> info_content (m_content (m_base r)).
  Proof.
    unfold kernel_info_request. rewrite run_bind.
    pose proof (pinterp E raw HU RKernelInfo s) as [[_ _ _ _ (evs & T & _ & F)] _].
    destruct (run (interp E RKernelInfo) s) as [s1 r1] eqn:Hi. cbn [fst] in T.
    assert (Hno : forall c' r f, ~ In (ESend c' r f) evs).
    { intros c' r f Hin. rewrite Forall_forall in F. specialize (F _ Hin). now destruct F. }
    destruct r1 as [j|e|u]; cbn [fst]; try (exists evs; split; [exact T|]; intros c' r f Hin; exact (False_ind _ (Hno _ _ _ Hin))).
    unfold interp in Hi. rewrite run_bind, run_emit in Hi.
    assert (Ha : answer E (e_interp E RKernelInfo) j) by (eexists; eexists; exact Hi).
    rewrite run_bind, run_res. destruct (jset "protocol_version" (JStr protocol_version) j) as [j'|e|u] eqn:Hj; cbn [fst]; try (exists evs; split; [exact T|]; intros c' r f Hin; exact (False_ind _ (Hno _ _ _ Hin))).
    assert (Hc : info_content j').
    { destruct j as [| | | | | |mm]; try discriminate; injection Hj as <-.
      - exists []. split; auto.
      - exists mm. split; auto. }
    rewrite run_reply, run_reply_to. cbv zeta. rewrite Hq. destruct (serialize _ _ _ _) as [w|e|u]; cbn [fst].
    - exists (evs ++ [ESend c (reply_msg E s1 (k_pid s1 c) "kernel_info_reply" (k_phdr s1 c) empty j') w])%list. split; [cbn; now rewrite T, app_assoc|].
      intros c' r f Hin. apply in_app_or in Hin as [Hin|[H|[]]]; [exfalso; eapply Hno; eauto|]. injection H as _ <- _. exact Hc.
    - exists evs. split; auto. intros c' r f Hin; exact (False_ind _ (Hno _ _ _ Hin)).
    - exists evs. split; auto. intros c' r f Hin; exact (False_ind _ (Hno _ _ _ Hin)).
  Qed.
  Lemma info_reply w c m s s' r : accepted E w m -> typed (m_header (m_base m)) "kernel_info_request" -> run (dispatch E w c) s = (s', r) ->
    exists evs, k_trace s' = (k_trace s ++ evs)%list /\ forall c' r f, In (ESend c' r f) evs -> info_content (m_content (m_base r)).
  Proof.
    intros Ha Hty Hrun.
    destruct (dispatch_dispatched E raw Hq Hu HU w c m _ s s' r Ha Hty Hrun) as (busy & mid & rep & ab & ws & tail & T & B & _ & F & R & L & (lo & hi & AB) & W & _ & En & _).
    eexists. split; [exact T|].
    destruct (run_dispatch_accepted E w c m _ s Hq Hu Ha Hty) as (fb & Hfb & HD). rewrite Hrun in HD.
    set (s0 := with_status E "busy" c fb (parented (m_ids m) (m_header (m_base m)) c s)) in *.
    destruct (run_handle E "kernel_info_request" m c s0 (accepted_content_utf8 _ _ _ Ha)) as [[X _]|(h & Hf & Hst & _)]; [discriminate|].
    injection Hf as <-. destruct (info_sends m c s0) as (evs & T2 & HS). rewrite <- Hst in T2.
    assert (Hend : exists x, k_trace s' = (k_trace (fst (run (handle E "kernel_info_request" m c) s0)) ++ x)%list /\ forall c' r f, ~ In (ESend c' r f) x).
    { destruct (run (handle E "kernel_info_request" m c) s0) as [s1 [[]|e|u]]; cbn [fst].
      - unfold publish_status in HD. rewrite run_publish in HD. cbv zeta in HD.
        rewrite Hq in HD. match type of HD with context [pub_serialize ?a ?b ?c ?d] => destruct (pub_serialize a b c d) end; injection HD as -> _;
          try (exists []; rewrite app_nil_r; split; [reflexivity | auto]).
        eexists [_]. split; [reflexivity|]. intros c' r0 f [H|[]]. discriminate.
      - injection HD as -> _. exists []. rewrite app_nil_r. split; auto.
      - injection HD as -> _. exists []. rewrite app_nil_r. split; auto. }
    destruct Hend as (x & Tx & Hx). rewrite Tx, T2 in T. change (k_trace s0) with (k_trace s ++ [EPublish c (status_msg E "busy" c (parented (m_ids m) (m_header (m_base m)) c s)) fb])%list in T.
    rewrite <- !app_assoc in T. apply app_inv_head in T. rewrite <- T. intros c' r0 f Hin. cbn in Hin. destruct Hin as [H|Hin]; [discriminate|].
    apply in_app_or in Hin as [Hin|Hin]; [eapply HS; eauto | exfalso; eapply Hx; eauto].
  Qed.
End Info.
