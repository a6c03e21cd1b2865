(** Execution counter, history, abortion: statements about [dispatch] of execute requests. *)
From Verif Require Import Base BaseFacts Json JsonText Utf8 Utf8Proofs JsonTextProofs Auth Message MessageProofs WireSpec History HistoryProofs Comm Tree Kernel KernelSpec KernelProofs KernelRun KernelHandlers KernelExec KernelDispatch KernelLemmas.

(** The record of one execution. *)
Definition history_entry (p : xparams) : entry :=
  {| h_session := "0"; h_line := dec_of_Z (x_count p); h_input := x_code p; h_output := "" |}.

Section ExecProps.
  Context {U : Type} (E : env U) (raw : string -> Prop).
  Implicit Types (s : kstate U).
  Context (Hq : quiet E) (Hu : env_utf8 E) (HU : user_publishes E raw).

  (** The execute_input message announcing execution [n] of [code]. *)
  Definition input_event (parent : json) (code : string) (n : Z) (e : event) : Prop :=
    exists m w id, e = EPublish SHELL m w /\
      header_with (m_header (m_pbase m)) id "execute_input" (e_user_name E) (e_session_id E) /\
      m_parent_header (m_pbase m) = parent /\
      m_content (m_pbase m) = JObj [("code", JStr code); ("execution_count", JInt n)].
  (** The reply to an execution. *)
  Definition exec_reply (c : channel) (ids : list string) (h : json) (n : Z) (status : string) (e : event) : Prop :=
    routed E c ids h "execute_request" e /\
    exists r w j, e = ESend c r w /\ m_content (m_base r) = JObj j /\
      mfind "execution_count" j = Some (JInt n) /\ str_field j "status" "error" status.
  (** All that happens between the busy and the idle status of an execution. *)
  Definition executed (p : xparams) (c : channel) (ids : list string) (h ph : json) s s' (evs : list event) : Prop :=
    let n := if x_silent p then k_count s else (k_count s + 1)%Z in
    exists inp out rest, evs = (inp ++ EInterp (RExecute n (x_code p) (x_silent p) (stores p) (x_ue p) (x_stdin p)) :: out ++ rest)%list /\
      (if x_silent p then inp = [] else exists e, inp = [e] /\ input_event ph (x_code p) n e) /\
      Forall (fun e => match e with
                       | EPublish c' m _ => c' = SHELL /\ m_parent_header (m_pbase m) = ph /\ exists ty, pub_type m = Some ty /\ raw ty
                       | EStdin _ _ | EInput _ _ => True
                       | _ => False end) out /\
      k_count s' = n /\
      ((rest = [] /\ k_history s' = k_history s /\ k_shell s' = k_shell s) \/
       exists rep ab ws st, rest = rep :: ab /\ exec_reply c ids h n st rep /\
         k_history s' = (k_history s ++ if stores p then [history_entry p] else [])%list /\
         (exists lo hi, aborts E lo ws ab hi) /\
         (if negb (x_silent p) && String.eqb st "error" && x_stop p
          then drained (k_shell s) ws (k_shell s') \/
               exists w, k_shell s = (List.map Some ws ++ Some w :: k_shell s')%list /\ ~ abortable E w
          else ws = [] /\ ab = [] /\ k_shell s' = k_shell s)).

  Lemma stored_history p s : k_history (exec_stored p s) = (k_history s ++ if stores p then [history_entry p] else [])%list.
  Proof. unfold exec_stored. destruct (stores p); [reflexivity | now rewrite app_nil_r]. Qed.
  Lemma out_ok ids ph evs : Forall (user_event E raw ids ph) evs ->
    Forall (fun e => match e with
                     | EPublish c' m _ => c' = SHELL /\ m_parent_header (m_pbase m) = ph /\ exists ty, pub_type m = Some ty /\ raw ty
                     | EStdin _ _ | EInput _ _ => True
                     | _ => False end) evs.
  Proof. apply Forall_impl. intros e [_ H]. destruct e; auto. Qed.

  Lemma exec_body_executed p c s s' r :
    (x_silent p = true \/ k_count s <> int_max) -> utf8_json (k_phdr s SHELL) -> utf8_text (x_code p) ->
    exec_end E p c s s' r ->
    exists evs, k_trace s' = (k_trace s ++ evs)%list /\ executed p c (k_pid s c) (k_phdr s c) (k_phdr s SHELL) s s' evs.
  Proof.
    intros Hmax Hph Hcode Hend.
    assert (Hsplit : forall s2 s3 r1, exec_started E p s s2 -> exec_call E p s s2 = (s3, r1) ->
       exists inp out, k_trace s3 = (k_trace s ++ inp ++ EInterp (exec_request p s) :: out)%list /\
         (if x_silent p then inp = [] else exists e, inp = [e] /\ input_event (k_phdr s SHELL) (x_code p) (exec_count p s) e) /\
         Forall (user_event E raw (k_pid s SHELL) (k_phdr s SHELL)) out /\
         k_pid s3 = k_pid s /\ k_phdr s3 = k_phdr s /\ k_shell s3 = k_shell s /\ k_history s3 = k_history s /\ k_count s3 = exec_count p s).
    { intros s2 s3 r1 Hst Hcall. apply (exec_call_frame E raw HU) in Hcall as [B1 B2 B3 B4 B5 (e2 & T2 & N2 & F2)].
      destruct Hst as [Hs|w Hs Hc s1 Hw]; unfold exec_count; rewrite Hs.
      - exists [], e2. rewrite T2. split; [cbn; now rewrite <- app_assoc|]. auto 10.
      - eexists [_], e2. rewrite T2. split; [cbn; now rewrite <- !app_assoc|]. split.
        { eexists. split; [reflexivity|]. eexists _, w, _. split; [reflexivity|]. split; [apply header_with_make|]. split; reflexivity. }
        auto 10. }
    unfold executed. fold (exec_count p s). fold (exec_request p s).
    destruct Hend as [s1 r1 Hf Hno Hx|s2 s3 e Hst Hc|s2 s3 w Hst Hc|s2 s3 j w Hst Hc _|s2 s3 j j' r1 Hst Hc _ _ _|s2 s3 s4 j j' st Hst Hc Hj Hsf Hr Hcond|s2 s3 s4 j j' s6 r1 Hst Hc Hj Hsf Hr Hsil Hstop Hab].
    - exfalso. destruct (Hx Hq Hu Hph Hcode) as [Hm _]. destruct Hmax as [Hs|Hn]; [|auto]. destruct Hf; congruence.
    - destruct (Hsplit _ _ _ Hst Hc) as (inp & out & T & I & O & P1 & P2 & P3 & P4 & P5).
      eexists. split; [exact T|]. exists inp, out, []. rewrite app_nil_r. split; auto. split; auto. split; [eapply out_ok; eauto|]. auto 10.
    - destruct (Hsplit _ _ _ Hst Hc) as (inp & out & T & I & O & P1 & P2 & P3 & P4 & P5).
      eexists. split; [exact T|]. exists inp, out, []. rewrite app_nil_r. split; auto. split; auto. split; [eapply out_ok; eauto|]. auto 10.
    - destruct (Hsplit _ _ _ Hst Hc) as (inp & out & T & I & O & P1 & P2 & P3 & P4 & P5).
      eexists. split; [exact T|]. exists inp, out, []. rewrite app_nil_r. split; auto. split; auto. split; [eapply out_ok; eauto|]. auto 10.
    - destruct (Hsplit _ _ _ Hst Hc) as (inp & out & T & I & O & P1 & P2 & P3 & P4 & P5).
      eexists. split; [exact T|]. exists inp, out, []. rewrite app_nil_r. split; auto. split; auto. split; [eapply out_ok; eauto|]. auto 10.
    - destruct (Hsplit _ _ _ Hst Hc) as (inp & out & T & I & O & P1 & P2 & P3 & P4 & P5).
      assert (Hrep : exists e, k_trace s4 = (k_trace s3 ++ [e])%list /\ exec_reply c (k_pid s c) (k_phdr s c) (exec_count p s) st e /\
                k_count s4 = k_count s3 /\ k_shell s4 = k_shell s3 /\ k_history s4 = k_history s3).
      { pose proof Hr as Hr'. destruct Hr' as (f & Hf & ->). eexists. split; [reflexivity|]. split; [|auto]. split.
        - eexists _, f, _, "execute_reply". split; [reflexivity|]. split; [now exists "execute"|]. cbn [reply_msg m_ids m_base m_parent_header m_header m_buffers].
          split; [now rewrite P1|]. split; [now rewrite P2|]. split; [apply header_with_make | reflexivity].
        - destruct j as [| | | | | | jm]; try discriminate; injection Hj as <-; (eexists _, f, _; split; [reflexivity|]; split; [reflexivity|]; split; [|exact Hsf]).
          + reflexivity.
          + apply mfind_mset_same. }
      destruct Hrep as (e & T4 & He & Q1 & Q2 & Q3). destruct (exec_stored_frame p s4) as (C1 & C2 & C3 & C4 & C5 & C6).
      exists (inp ++ EInterp (exec_request p s) :: out ++ [e])%list. split.
      { rewrite C5, T4, T. now rewrite <- !app_assoc, <- app_comm_cons. }
      exists inp, out, [e]. split; auto. split; auto. split; [eapply out_ok; eauto|]. split; [congruence|].
      right. exists e, [], [], st. split; auto. split; auto. split; [rewrite stored_history; congruence|]. split; [exists 0, 0; constructor; lia|].
      assert (Hb : negb (x_silent p) && String.eqb st "error" && x_stop p = false).
      { destruct Hcond as [->|[Hne| ->]]; auto.
        - destruct (String.eqb_spec st "error"); [contradiction|]. now rewrite andb_false_r.
        - now rewrite andb_false_r. }
      rewrite Hb. split; auto. split; auto. congruence.
    - destruct (Hsplit _ _ _ Hst Hc) as (inp & out & T & I & O & P1 & P2 & P3 & P4 & P5).
      assert (Hrep : exists e, k_trace s4 = (k_trace s3 ++ [e])%list /\ exec_reply c (k_pid s c) (k_phdr s c) (exec_count p s) "error" e /\
                k_count s4 = k_count s3 /\ k_shell s4 = k_shell s3 /\ k_history s4 = k_history s3).
      { pose proof Hr as Hr'. destruct Hr' as (f & Hf & ->). eexists. split; [reflexivity|]. split; [|auto]. split.
        - eexists _, f, _, "execute_reply". split; [reflexivity|]. split; [now exists "execute"|]. cbn [reply_msg m_ids m_base m_parent_header m_header m_buffers].
          split; [now rewrite P1|]. split; [now rewrite P2|]. split; [apply header_with_make | reflexivity].
        - destruct j as [| | | | | | jm]; try discriminate; injection Hj as <-; (eexists _, f, _; split; [reflexivity|]; split; [reflexivity|]; split; [|exact Hsf]).
          + reflexivity.
          + apply mfind_mset_same. }
      destruct Hrep as (e & T4 & He & Q1 & Q2 & Q3). destruct (exec_stored_frame p s4) as (C1 & C2 & C3 & C4 & C5 & C6).
      destruct (run_abort_queue E (exec_stored p s4)) as (ws & evs & s7 & x & Hrun & [F1 F2 F3 F4 _ _ _ _ _ F10 F11] & Hend).
      rewrite Hab in Hrun. injection Hrun as <- <-.
      exists (inp ++ EInterp (exec_request p s) :: out ++ e :: evs)%list. split.
      { rewrite F10, C5, T4, T. rewrite <- !app_assoc. cbn [app]. rewrite <- ?app_assoc. reflexivity. }
      exists inp, out, (e :: evs). split; auto. split; auto. split; [eapply out_ok; eauto|]. split; [congruence|].
      right. exists e, evs, ws, "error". split; auto. split; auto. split; [rewrite F4, stored_history; congruence|]. split; [eauto|].
      rewrite Hsil, Hstop. cbn [negb andb]. change (String.eqb "error" "error") with true. cbn [andb].
      assert (X : k_shell s = k_shell (exec_stored p s4)) by congruence. rewrite X.
      destruct Hend as [[_ Hd]|(_ & w & Hd & _ & Hna)]; [left; exact Hd | right; exists w; auto].
  Qed.

  Lemma params_code_utf8 ct p : utf8_json ct -> exec_params ct p -> utf8_text (x_code p).
  Proof.
    intros Hct (m & -> & [[_ ->]|Hf] & _); [apply utf8_lit; reflexivity|].
    apply Hct. apply si_member with (k := "code") (x := JStr (x_code p)); [now apply mfind_in | constructor].
  Qed.

  (** Dispatch of a well-formed execute request. *)
  Lemma dispatch_executed w c m p s s' r :
    accepted E w m -> typed (m_header (m_base m)) "execute_request" -> exec_params (m_content (m_base m)) p ->
    x_silent p = true \/ k_count s <> int_max -> utf8_json (k_phdr s SHELL) ->
    run (dispatch E w c) s = (s', r) ->
    let h := m_header (m_base m) in
    exists busy evs tail, k_trace s' = (k_trace s ++ busy :: evs ++ tail)%list /\
      status_event E "busy" c h busy /\ ended E c h r tail /\
      executed p c (m_ids m) h (upd_chan c h (k_phdr s) SHELL) s s' evs.
  Proof.
    intros Ha Hty Hp Hmax Hph Hrun h. destruct (run_dispatch_accepted E w c m _ s Hq Hu Ha Hty) as (fb & Hfb & HD).
    rewrite Hrun in HD. set (sp := parented (m_ids m) (m_header (m_base m)) c s) in *.
    set (s0 := with_status E "busy" c fb sp) in *.
    destruct (run_handle E "execute_request" m c s0 (accepted_content_utf8 _ _ _ Ha)) as [[X _]|(hh & Hf & Hst & Hns & Hok)]; [discriminate|].
    injection Hf as <-. rewrite (execute_params E m c p s0 Hp) in Hst. rewrite run_catch in Hst.
    assert (Hend : exec_end E p c s0 (fst (run (exec_body E p c) s0)) (snd (run (exec_body E p c) s0))) by apply (run_exec_body E raw HU).
    assert (Hs1 : fst (run (handle E "execute_request" m c) s0) = fst (run (exec_body E p c) s0)).
    { rewrite Hst. destruct (run (exec_body E p c) s0) as [s1 [[]|[]|]]; reflexivity. }
    assert (Hphc : utf8_json (k_phdr s0 SHELL)).
    { unfold s0, sp. cbn [with_status add_event set_trace tick set_clock set_guid parented set_phdr k_phdr]. rewrite upd_idem.
      destruct (chan_eqb c SHELL); auto. eapply accepted_header_utf8; eauto. }
    destruct (exec_body_executed p c s0 _ _ Hmax Hphc (params_code_utf8 _ _ (accepted_content_utf8 _ _ _ Ha) Hp) Hend) as (evs & T & X).
    rewrite <- Hs1 in T, X. clear Hs1 Hst Hend.
    destruct (run (handle E "execute_request" m c) s0) as [s1 r1] eqn:Hr1. cbn [fst snd] in *.
    assert (Hpc : k_pid s0 c = m_ids m) by (unfold s0, sp; cbn; apply upd_same).
    assert (Hhc : k_phdr s0 c = h) by (unfold s0, sp; cbn; apply upd_same).
    assert (Hsh : k_phdr s0 SHELL = upd_chan c h (k_phdr s) SHELL) by reflexivity.
    rewrite Hpc, Hhc, Hsh in X.
    assert (Hbusy : status_event E "busy" c h (EPublish c (status_msg E "busy" c sp) fb)).
    { pose proof (status_event_ok E "busy" c sp fb) as Y. unfold sp in Y at 1. cbn [parented k_phdr set_phdr] in Y. now rewrite upd_same in Y. }
    change (k_trace s0) with (k_trace s ++ [EPublish c (status_msg E "busy" c sp) fb])%list in T.
    destruct r1 as [[]|e|u].
    - assert (Hh1 : k_phdr s1 c = h).
      { pose proof (handle_handled E raw HU "execute_request" m c s0 (accepted_content_utf8 _ _ _ Ha)) as Hh. rewrite Hr1 in Hh. cbn [fst] in Hh.
        rewrite (h_phdr _ _ _ _ _ _ Hh). exact Hhc. }
      destruct (status_serializes E "idle" c s1 Hu) as [fi Hfi].
      { rewrite Hh1. eapply accepted_header_utf8; eauto. } { apply status_utf8. }
      rewrite (run_status E "idle" c s1 fi Hq Hfi) in HD. injection HD as -> ->.
      exists (EPublish c (status_msg E "busy" c sp) fb), evs, [EPublish c (status_msg E "idle" c s1) fi]. split.
      { cbn [with_status add_event set_trace tick k_trace set_clock set_guid]. rewrite T. now rewrite <- !app_assoc. }
      split; auto. split; [left; split; auto; eexists; split; [reflexivity|]; split; [|exact Hfi]|exact X].
      rewrite <- Hh1. apply status_event_ok.
    - injection HD as -> ->. exists (EPublish c (status_msg E "busy" c sp) fb), evs, [].
      split; [rewrite T, app_nil_r; now rewrite <- !app_assoc|]. split; auto. split; auto.
      right. split; auto. destruct e as [what|tag]; [now destruct (Hns what) | eauto].
    - injection HD as -> ->. exists (EPublish c (status_msg E "busy" c sp) fb), evs, [].
      split; [rewrite T, app_nil_r; now rewrite <- !app_assoc|]. split; auto. split; auto. right. auto.
  Qed.
End ExecProps.
