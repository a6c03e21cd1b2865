(** Dispatching one message. *)
From Verif Require Import Base BaseFacts Json JsonText Utf8 Utf8Proofs JsonTextProofs Auth Message MessageProofs WireSpec History HistoryProofs Comm Tree Kernel KernelSpec KernelProofs KernelRun KernelHandlers KernelExec.

Section Dispatch.
  Context {U : Type} (E : env U) (raw : string -> Prop).
  Implicit Types (s : kstate U).

  (** ** Rejected messages *)
  Lemma run_dispatch_rejected w c s : rejected E w -> run (dispatch E w c) s = (s, Ok tt).
  Proof. intros [e H]. unfold dispatch. rewrite run_bind, run_catch, run_bind, run_res, H. reflexivity. Qed.
  Lemma run_stdin_rejected w s : rejected E w -> run (dispatch_stdin E w) s = (s, Ok tt).
  Proof. intros [e H]. unfold dispatch_stdin. rewrite run_catch, run_bind, run_res, H. reflexivity. Qed.
  Lemma run_abort_rejected w s : rejected E w -> run (abort_request E w) s = (s, Ok tt).
  Proof. intros [e H]. unfold abort_request. rewrite run_bind, run_catch, run_bind, run_res, H. reflexivity. Qed.

  (** ** The state in which a handler starts *)
  Definition parented (ids : list string) (h : json) (c : channel) s : kstate U :=
    set_phdr (upd_chan c h (k_phdr s)) (set_pid (upd_chan c ids (k_pid s)) s).
  Definition status_msg (st : string) (c : channel) s : xpub :=
    pub_msg E s "status" empty (jobj [("execution_state", JStr st)]) [] c.
  Definition with_status (st : string) (c : channel) (f : frames) s : kstate U :=
    add_event (EPublish c (status_msg st c s) f) (tick s).

  Lemma status_serializes st c s : env_utf8 E -> utf8_json (k_phdr s c) -> utf8_text st ->
    exists f, pub_serialize (e_crypto E) (e_auth E) (e_eh E) (status_msg st c s) = Ok f.
  Proof.
    intros (U1 & U2 & U3 & U4) Hp Hst. apply pub_serialize_valid. unfold base_parts, status_msg.
    cbn [pub_msg m_pbase m_header m_parent_header m_metadata m_content].
    repeat apply Forall_cons; auto using utf8_empty.
    - unfold hdr. apply utf8_header; auto. apply utf8_lit; reflexivity.
    - apply utf8_obj. repeat constructor; cbn [fst snd]; auto using utf8_str. apply utf8_lit; reflexivity.
  Qed.
  Lemma run_status st c s f : quiet E -> pub_serialize (e_crypto E) (e_auth E) (e_eh E) (status_msg st c s) = Ok f ->
    run (publish_status E st c) s = (with_status st c f s, Ok tt).
  Proof. intros Hq Hf. unfold publish_status. rewrite run_publish. cbv zeta. rewrite Hq. fold (status_msg st c s). now rewrite Hf. Qed.
  Lemma status_event_ok st c s f : status_event E st c (k_phdr s c) (EPublish c (status_msg st c s) f).
  Proof.
    exists (status_msg st c s), f, (e_guid E (k_guid s)). split; auto. split; [apply header_with_make|]. repeat split.
  Qed.
  Lemma upd_same {A} c (x : A) f : upd_chan c x f c = x.
  Proof. unfold upd_chan. now destruct c. Qed.
  Lemma accepted_header_utf8 w m : accepted E w m -> utf8_json (m_header (m_base m)).
  Proof. intros H. apply accepted_utf8 in H. now inversion H. Qed.
  Lemma accepted_content_utf8 w m : accepted E w m -> utf8_json (m_content (m_base m)).
  Proof.
    intros H. apply accepted_utf8 in H. unfold base_parts in H. rewrite Forall_forall in H. apply H. cbn; auto.
  Qed.

  (** ** Handlers never let a std::exception through *)
  Lemma run_handle ty m c s : utf8_json (m_content (m_base m)) ->
    (mfind ty (handlers E) = None /\ run (handle E ty m c) s = (s, Ok tt)) \/
    (exists h, mfind ty (handlers E) = Some h /\
       let x := run (h m c) s in
       fst (run (handle E ty m c) s) = fst x /\
       (forall w, snd (run (handle E ty m c) s) <> Exn (Std w)) /\
       (snd (run (handle E ty m c) s) = Ok tt <-> (snd x = Ok tt \/ exists w, snd x = Exn (Std w)))).
  Proof.
    intros Hu. unfold handle. destruct (mfind ty (handlers E)) as [h|]; [right|left; auto].
    exists h. split; auto. cbv zeta. rewrite run_catch. destruct (run (h m c) s) as [s' [[]|[w|w]|w]]; cbn [fst snd].
    - split; auto. split; [discriminate|]. split; auto.
    - apply dump_strict_iff in Hu as [t Ht]. rewrite Ht. cbn. split; auto. split; [discriminate|]. split; eauto.
    - split; auto. split; [discriminate|]. split; [discriminate | intros [H|[? H]]; discriminate].
    - split; auto. split; [discriminate|]. split; [discriminate | intros [H|[? H]]; discriminate].
  Qed.

  (** ** Dispatch of an accepted message *)
  Lemma run_dispatch_accepted w c m ty s :
    quiet E -> env_utf8 E -> accepted E w m -> typed (m_header (m_base m)) ty ->
    let sp := parented (m_ids m) (m_header (m_base m)) c s in
    exists fb, pub_serialize (e_crypto E) (e_auth E) (e_eh E) (status_msg "busy" c sp) = Ok fb /\
      run (dispatch E w c) s =
        match run (handle E ty m c) (with_status "busy" c fb sp) with
        | (s', Ok _) => run (publish_status E "idle" c) s'
        | (s', Exn e) => (s', Exn e)
        | (s', UB u) => (s', UB u)
        end.
  Proof.
    intros Hq Hu Ha Hty sp. destruct (status_serializes "busy" c sp Hu) as [fb Hfb].
    { unfold sp. cbn [k_phdr parented set_phdr]. rewrite upd_same. eapply accepted_header_utf8; eauto. }
    { apply utf8_lit; reflexivity. }
    exists fb. split; auto. unfold dispatch. rewrite run_bind, run_catch, run_bind, run_res.
    pose proof Ha as Ha'. unfold accepted in Ha'. rewrite Ha', run_ret. unfold log. rewrite run_bind, run_res, Hq. cbv zeta.
    rewrite run_bind. change (run (set_parent (m_ids m) (m_header (m_base m)) c) s) with (sp, @Ok unit tt). cbn beta iota.
    rewrite run_bind, (run_status _ _ _ _ Hq Hfb). rewrite run_bind, run_res.
    apply typed_value in Hty. rewrite Hty. rewrite run_bind. reflexivity.
  Qed.

  (** Header without a usable msg_type: the exception leaves [dispatch] after the busy status. *)
  Lemma run_dispatch_untyped w c m s :
    quiet E -> env_utf8 E -> accepted E w m -> (forall ty, ~ typed (m_header (m_base m)) ty) ->
    let sp := parented (m_ids m) (m_header (m_base m)) c s in
    exists fb what, pub_serialize (e_crypto E) (e_auth E) (e_eh E) (status_msg "busy" c sp) = Ok fb /\
      run (dispatch E w c) s = (with_status "busy" c fb sp, Exn (Std what)).
  Proof.
    intros Hq Hu Ha Hty sp. destruct (status_serializes "busy" c sp Hu) as [fb Hfb].
    { unfold sp. cbn [k_phdr parented set_phdr]. rewrite upd_same. eapply accepted_header_utf8; eauto. }
    { apply utf8_lit; reflexivity. }
    destruct (value_string_cases "msg_type" "" (m_header (m_base m))) as [[ty Ht]|[e He]].
    { apply typed_value in Ht. now destruct (Hty ty). }
    exists fb, e. split; auto. unfold dispatch. rewrite run_bind, run_catch, run_bind, run_res.
    pose proof Ha as Ha'. unfold accepted in Ha'. rewrite Ha', run_ret. unfold log. rewrite run_bind, run_res, Hq. cbv zeta.
    rewrite run_bind. change (run (set_parent (m_ids m) (m_header (m_base m)) c) s) with (sp, @Ok unit tt). cbn beta iota.
    rewrite run_bind, (run_status _ _ _ _ Hq Hfb). rewrite run_bind, run_res, He. reflexivity.
  Qed.

  (** ** The events of a handler *)
  (** The message that ended the abort loop early could not be aborted. *)
  Definition ender (ws : list frames) s s' : Prop := forall w, quiet E -> env_utf8 E ->
    k_shell s = (List.map Some ws ++ Some w :: k_shell s')%list -> ~ abortable E w.
  Lemma ender_none s s' : k_shell s' = k_shell s -> ender [] s s'.
  Proof. intros H w _ _ X. exfalso. rewrite H in X. apply (f_equal (@List.length _)) in X. cbn in X. lia. Qed.
  Record handled (ty : string) (c : channel) s s' : Prop := {
    h_pid : k_pid s' = k_pid s;
    h_phdr : k_phdr s' = k_phdr s;
    h_events : exists mid rep ab ws,
       k_trace s' = (k_trace s ++ mid ++ rep ++ ab)%list /\
       numbered E (k_guid s) (mid ++ rep ++ ab) (k_guid s') /\
       Forall (pre_event E raw (k_pid s SHELL) (k_phdr s)) mid /\
       Forall (fun e => well_sent E e /\ routed E c (k_pid s c) (k_phdr s c) ty e) rep /\ List.length rep <= 1 /\
       (exists lo hi, aborts E lo ws ab hi) /\ (ws <> [] -> rep <> [] /\ ty = "execute_request") /\
       taken (k_shell s) ws (k_shell s') /\ ender ws s s'
  }.

  Lemma replied_routed ty rty c md ct s s' : reply_name ty rty -> replied E c rty md ct s s' ->
    exists e, k_trace s' = (k_trace s ++ [e])%list /\ well_sent E e /\ routed E c (k_pid s c) (k_phdr s c) ty e /\
      numbered E (k_guid s) [e] (k_guid s') /\ k_pid s' = k_pid s /\ k_phdr s' = k_phdr s /\ k_shell s' = k_shell s /\
      k_count s' = k_count s /\ k_history s' = k_history s.
  Proof.
    intros Hn (w & Hw & ->). eexists. split; [reflexivity|]. split; [exact Hw|]. split.
    { eexists _, w, (e_guid E (k_guid s)), rty. split; [reflexivity|]. split; auto. split; auto. split; auto. split; [apply header_with_make | auto]. }
    split; [apply numbered_one with rty; reflexivity|]. auto.
  Qed.
  Lemma handled_pframe ty c s s' : pframe E raw s s' -> handled ty c s s'.
  Proof.
    intros [[A1 A2 A3 A5 (evs & T & N & F)] A4]. constructor; auto.
    exists evs, [], [], []. rewrite !app_nil_r. split; auto. split; auto. split; auto. split; auto. split; auto.
    split; [exists 0, 0; constructor; lia|]. split; [congruence|]. split; [left; auto | now apply ender_none].
  Qed.
  Lemma handled_answered ty rty c s s' : reply_name ty rty -> answered E raw c rty s s' -> handled ty c s s'.
  Proof.
    intros Hn [H|(s1 & md & ct & [[A1 A2 A3 A5 (evs & T & N & F)] A4] & Hr)]; [now apply handled_pframe|].
    destruct (replied_routed _ _ _ _ _ _ _ Hn Hr) as (e & Te & We & Re & Ne & B1 & B2 & B3 & B4 & B5). constructor; try congruence.
    exists evs, [e], [], []. rewrite !app_nil_r. split; [now rewrite Te, T, app_assoc|].
      split; [eapply numbered_app; eauto|]. split; auto. rewrite A1, A2 in Re. split; [constructor; auto|]. split; auto.
      split; [exists 0, 0; constructor; lia|]. split; [congruence|]. split; [left; split; congruence | apply ender_none; congruence].
  Qed.
  Lemma aborts_numbered lo ws evs hi : aborts E lo ws evs hi -> numbered E lo evs hi.
  Proof. induction 1; [now constructor | auto |]. eapply num_msg; eauto. reflexivity. Qed.

  (** What happens between the start of an execution and the reply. *)
  Lemma exec_started_frame p s s2 : exec_started E p s s2 ->
    k_pid s2 = k_pid s /\ k_phdr s2 = k_phdr s /\ k_shell s2 = k_shell s /\ k_history s2 = k_history s /\
    k_count s2 = exec_count p s /\
    exists evs, k_trace s2 = (k_trace s ++ evs)%list /\ numbered E (k_guid s) evs (k_guid s2) /\
      Forall (pre_event E raw (k_pid s SHELL) (k_phdr s)) evs.
  Proof.
    intros [Hs|w Hs Hc s1 Hw].
    - unfold exec_count. rewrite Hs. repeat split. exists []. rewrite app_nil_r. repeat split; auto. constructor; cbn; lia.
    - unfold exec_count. rewrite Hs. repeat split. eexists [_]. split; [reflexivity|]. split.
      + apply (numbered_one E _ s1 "execute_input"). reflexivity.
      + constructor; auto. split; [exact Hw|]. split; auto. eexists. split; [reflexivity|]. split; [left; cbn; auto 10|now left].
  Qed.
  Context (HU : user_publishes E raw).
  Lemma exec_call_frame p s s2 s3 r : exec_call E p s s2 = (s3, r) ->
    uframe E raw (add_event (EInterp (exec_request p s)) s2) s3.
  Proof.
    intros H. assert (X : keeps (uframe E raw) (embed E (e_interp E (exec_request p s)))) by (apply frame_embed; apply HU).
    specialize (X (add_event (EInterp (exec_request p s)) s2)). unfold exec_call in H. now rewrite H in X.
  Qed.
  Lemma exec_pre p s s2 s3 r : exec_started E p s s2 -> exec_call E p s s2 = (s3, r) ->
    qframe E raw s s3 /\ k_count s3 = exec_count p s.
  Proof.
    intros Hst Hcall. apply exec_call_frame in Hcall. apply uframe_pframe in Hcall as [[B1 B2 B3 B5 (e2 & T2 & N2 & F2)] B4].
    destruct (exec_started_frame _ _ _ Hst) as (A1 & A2 & A3 & A4 & A5 & e1 & T1 & N1 & F1).
    cbn [k_pid k_phdr k_shell k_history k_count k_trace k_guid add_event set_trace] in *.
    split; [|congruence]. constructor; try congruence.
    exists (e1 ++ [EInterp (exec_request p s)] ++ e2)%list. split; [rewrite T2, T1; now rewrite <- !app_assoc|]. split.
    - eapply numbered_app; [exact N1|]. cbn [app]. apply num_other; [reflexivity | exact N2].
    - apply Forall_app. split; auto. constructor; [repeat split|]. now rewrite A1, A2 in F2.
  Qed.
  Lemma exec_failed_frame p s s' : exec_failed p s s' -> qframe E raw s s'.
  Proof. intros [? ?|? ?]; constructor; auto; exists []; rewrite app_nil_r; repeat split; auto; constructor; cbn; lia. Qed.
  Lemma handled_qframe ty c s s' : qframe E raw s s' -> handled ty c s s'.
  Proof.
    intros [A1 A2 A3 A5 (evs & T & N & F)]. constructor; auto.
    exists evs, [], [], []. rewrite !app_nil_r. split; auto. split; auto. split; auto. split; auto. split; auto.
    split; [exists 0, 0; constructor; lia|]. split; [congruence|]. split; [left; auto | now apply ender_none].
  Qed.
  Lemma qframe_tick s s1 : qframe E raw s s1 -> qframe E raw s (tick s1).
  Proof. intros H. eapply qframe_trans; [exact H|]. apply pframe_tick. Qed.
  Lemma exec_stored_frame p s : let s' := exec_stored p s in k_pid s' = k_pid s /\ k_phdr s' = k_phdr s /\ k_shell s' = k_shell s /\
    k_count s' = k_count s /\ k_trace s' = k_trace s /\ k_guid s' = k_guid s.
  Proof. cbv zeta. unfold exec_stored. destruct (stores p); auto 10. Qed.
  Lemma handled_replied s s3 s4 s5 c md ct :
    qframe E raw s s3 -> replied E c "execute_reply" md ct s3 s4 ->
    k_pid s5 = k_pid s4 -> k_phdr s5 = k_phdr s4 -> k_shell s5 = k_shell s4 -> k_trace s5 = k_trace s4 -> k_guid s5 = k_guid s4 ->
    exists mid e, k_pid s5 = k_pid s /\ k_phdr s5 = k_phdr s /\ k_shell s5 = k_shell s /\
      k_trace s5 = (k_trace s ++ mid ++ [e])%list /\ numbered E (k_guid s) (mid ++ [e]) (k_guid s5) /\
      Forall (pre_event E raw (k_pid s SHELL) (k_phdr s)) mid /\ well_sent E e /\ routed E c (k_pid s c) (k_phdr s c) "execute_request" e.
  Proof.
    intros [A1 A2 A3 A5 (evs & T & N & F)] Hr C1 C2 C3 C5 C6.
    destruct (replied_routed "execute_request" "execute_reply" c md ct s3 s4) as (e & Te & We & Re & Ne & B1 & B2 & B3 & B4 & B5); auto; [now exists "execute"|].
    exists evs, e. rewrite A1, A2 in Re. repeat split; try congruence; auto.
    - rewrite C5, Te, T. now rewrite app_assoc.
    - rewrite C6. eapply numbered_app; eauto.
  Qed.
  Lemma handled_exec p c s s' r : exec_end E p c s s' r -> handled "execute_request" c s s'.
  Proof.
    intros [s1 r1 Hf _ _|s2 s3 e Hst Hc|s2 s3 w Hst Hc|s2 s3 j w Hst Hc _|s2 s3 j j' r1 Hst Hc _ _ _|s2 s3 s4 j j' st Hst Hc _ _ Hr _|s2 s3 s4 j j' s6 r1 Hst Hc _ _ Hr _ _ Hab].
    - eapply handled_qframe, exec_failed_frame; eauto.
    - eapply handled_qframe. eapply exec_pre; eauto.
    - eapply handled_qframe. eapply exec_pre; eauto.
    - eapply handled_qframe. eapply exec_pre; eauto.
    - eapply handled_qframe, qframe_tick. eapply exec_pre; eauto.
    - destruct (exec_stored_frame p s4) as (C1 & C2 & C3 & C4 & C5 & C6).
      destruct (exec_pre _ _ _ _ _ Hst Hc) as [Hq _].
      destruct (handled_replied _ _ _ _ _ _ _ Hq Hr C1 C2 C3 C5 C6) as (mid & e & D1 & D2 & D3 & D4 & D5 & D6 & D7 & D8).
      constructor; auto.
      exists mid, [e], [], []. rewrite app_nil_r. split; auto. split; auto. split; auto. split; auto. split; auto.
      split; [exists 0, 0; constructor; lia|]. split; [congruence|]. split; [left; auto | now apply ender_none].
    - destruct (exec_stored_frame p s4) as (C1 & C2 & C3 & C4 & C5 & C6).
      destruct (exec_pre _ _ _ _ _ Hst Hc) as [Hq _].
      destruct (handled_replied _ _ _ _ _ _ _ Hq Hr C1 C2 C3 C5 C6) as (mid & e & D1 & D2 & D3 & D4 & D5 & D6 & D7 & D8).
      destruct (run_abort_queue E (exec_stored p s4)) as (ws & evs & s7 & x & Hrun & [F1 F2 F3 F4 _ _ _ _ _ F10 F11] & He).
      rewrite Hab in Hrun. injection Hrun as <- <-.
      constructor; try congruence.
      exists mid, [e], evs, ws. split; [rewrite F10, D4; now rewrite <- !app_assoc|].
      split; [rewrite app_assoc; eapply numbered_app; [exact D5 | now apply aborts_numbered with ws]|].
      split; auto. split; auto. split; auto. split; eauto. split; [split; congruence|].
      split; [right; rewrite <- D3; destruct He as [[_ Hd]|(_ & w & Hd & _)]; eauto|].
      intros x Q1 Q2 X. rewrite <- D3 in X. destruct He as [[_ [Hd|[Hd Hd']]]|(_ & w & Hd & _ & Hn)]; rewrite X in Hd.
      + apply app_inv_head in Hd. discriminate.
      + rewrite Hd' in Hd. rewrite <- (app_nil_r (List.map _ _)) in Hd at 2. apply app_inv_head in Hd. discriminate.
      + apply app_inv_head in Hd. injection Hd as ->. auto.
  Qed.
  Lemma handled_refl ty c s : handled ty c s s.
  Proof. apply handled_qframe, qframe_refl. Qed.
  Lemma execute_handled m c s : handled "execute_request" c s (fst (run (execute_request E m c) s)).
  Proof.
    destruct (classic_params (m_content (m_base m))) as [[p Hp]|Hno].
    - rewrite (execute_params E m c p s Hp), run_catch. pose proof (run_exec_body E raw HU p c s) as X. cbv zeta in X.
      destruct (run (exec_body E p c) s) as [s' [[]|[e|e]|w]]; cbn [fst snd] in *; eapply handled_exec; eauto.
    - destruct (execute_ill_formed E m c s Hno) as [->|[w ->]]; apply handled_refl.
  Qed.
  Lemma handle_handled ty m c s : utf8_json (m_content (m_base m)) -> handled ty c s (fst (run (handle E ty m c) s)).
  Proof.
    intros Hu. destruct (run_handle ty m c s Hu) as [[_ ->]|(h & Hh & -> & _)]; [apply handled_refl|].
    destruct (String.eqb_spec ty "execute_request") as [->|Hne].
    - injection Hh as <-. apply execute_handled.
    - destruct (handlers_answered E raw HU ty h m c s Hh Hne) as [(rty & Hn & Ha)|[_ Hp]].
      + eapply handled_answered; eauto.
      + now apply handled_pframe.
  Qed.
End Dispatch.
