(** The kernel properties: from the analysis of the handlers to statements about [dispatch]. *)
From Verif Require Import Base BaseFacts Json JsonText Utf8 Utf8Proofs JsonTextProofs Auth Message MessageProofs WireSpec History HistoryProofs Comm Tree Kernel KernelSpec KernelProofs KernelRun KernelHandlers KernelExec KernelDispatch.

Lemma header_type h id ty u s : header_with h id ty u s -> sfield "msg_type" h = Some ty.
Proof. intros (d & m & _ & _ & _ & H & _). unfold sfield. now rewrite H. Qed.
Lemma header_id h id ty u s : header_with h id ty u s -> sfield "msg_id" h = Some id.
Proof. intros (d & m & _ & _ & H & _). unfold sfield. now rewrite H. Qed.

Section Lemmas.
  Context {U : Type} (E : env U) (raw : string -> Prop).
  Implicit Types (s : kstate U).
  Context (Hq : quiet E) (Hu : env_utf8 E) (HU : user_publishes E raw).

  (** How handling a message may end. *)
  Definition ended (c : channel) (h : json) (r : res unit) (tail : list event) : Prop :=
    (r = Ok tt /\ exists idle, tail = [idle] /\ status_event E "idle" c h idle /\ well_sent E idle) \/
    (tail = [] /\ ((exists tag, r = Exn (Foreign tag)) \/ is_ub r = true)).

  (** Everything that is proved of the trace of one dispatched message. *)
  Definition dispatched (c : channel) (m : xmessage) (ty : string) s s' (r : res unit) : Prop :=
    let h := m_header (m_base m) in
    exists busy mid rep ab ws tail,
      k_trace s' = (k_trace s ++ busy :: mid ++ rep ++ ab ++ tail)%list /\
      status_event E "busy" c h busy /\ well_sent E busy /\
      Forall (pre_event E raw (upd_chan c (m_ids m) (k_pid s) SHELL) (upd_chan c h (k_phdr s))) mid /\
      Forall (fun e => well_sent E e /\ routed E c (m_ids m) h ty e) rep /\ List.length rep <= 1 /\
      (exists lo hi, aborts E lo ws ab hi) /\ (ws <> [] -> rep <> [] /\ ty = "execute_request") /\
      taken (k_shell s) ws (k_shell s') /\
      ended c h r tail /\
      numbered E (k_guid s) (busy :: mid ++ rep ++ ab ++ tail) (k_guid s') /\
      k_pid s' = upd_chan c (m_ids m) (k_pid s) /\ k_phdr s' = upd_chan c h (k_phdr s) /\
      (forall x, k_shell s = (List.map Some ws ++ Some x :: k_shell s')%list -> ~ abortable E x).

  Lemma status_utf8 : utf8_text "idle".
  Proof. apply utf8_lit; reflexivity. Qed.

  Lemma dispatch_dispatched w c m ty s s' r :
    accepted E w m -> typed (m_header (m_base m)) ty -> run (dispatch E w c) s = (s', r) -> dispatched c m ty s s' r.
  Proof.
    intros Ha Hty Hrun. destruct (run_dispatch_accepted E w c m ty s Hq Hu Ha Hty) as (fb & Hfb & HD).
    rewrite Hrun in HD. set (sp := parented (m_ids m) (m_header (m_base m)) c s) in *.
    set (s0 := with_status E "busy" c fb sp) in *.
    pose proof (handle_handled E raw HU ty m c s0 (accepted_content_utf8 _ _ _ Ha)) as Hh.
    pose proof (run_handle E ty m c s0 (accepted_content_utf8 _ _ _ Ha)) as Hstd.
    destruct (run (handle E ty m c) s0) as [s1 r1] eqn:Hr1. cbn [fst snd] in Hh.
    assert (Hns : forall what, r1 <> Exn (Std what)).
    { destruct Hstd as [[_ Hs]|(hh & _ & _ & Hs & _)]; [injection Hs as _ ->; discriminate | exact Hs]. }
    destruct Hh as [A1 A2 (mid & rep & ab & ws & T & N & F & R & L & AB & W & TK & EN)].
    change (k_trace s0) with (k_trace s ++ [EPublish c (status_msg E "busy" c sp) fb])%list in T.
    change (k_guid s0) with (S (k_guid s)) in N.
    change (k_pid s0) with (upd_chan c (m_ids m) (k_pid s)) in *.
    change (k_phdr s0) with (upd_chan c (m_header (m_base m)) (k_phdr s)) in *.
    change (k_shell s0) with (k_shell s) in *.
    assert (R' : Forall (fun e => well_sent E e /\ routed E c (m_ids m) (m_header (m_base m)) ty e) rep).
    { eapply Forall_impl; [|exact R]. intros e. cbn beta. now rewrite !upd_same. }
    assert (Hbusy : status_event E "busy" c (m_header (m_base m)) (EPublish c (status_msg E "busy" c sp) fb)).
    { pose proof (status_event_ok E "busy" c sp fb) as X. unfold sp in X at 1. cbn [parented k_phdr set_phdr] in X. now rewrite upd_same in X. }
    assert (Hnum : forall tail hi, numbered E (k_guid s1) tail hi ->
       numbered E (k_guid s) (EPublish c (status_msg E "busy" c sp) fb :: mid ++ rep ++ ab ++ tail) hi).
    { intros tail hi Ht. eapply num_msg with (n := k_guid s); [lia | reflexivity | apply header_with_make |].
      replace (mid ++ rep ++ ab ++ tail)%list with ((mid ++ rep ++ ab) ++ tail)%list by now rewrite <- !app_assoc.
      eapply numbered_app; eauto. }
    destruct r1 as [[]|e|u].
    - destruct (status_serializes E "idle" c s1 Hu) as [fi Hfi].
      { rewrite A2, upd_same. eapply accepted_header_utf8; eauto. }
      { apply status_utf8. }
      rewrite (run_status E "idle" c s1 fi Hq Hfi) in HD. injection HD as -> ->.
      exists (EPublish c (status_msg E "busy" c sp) fb), mid, rep, ab, ws, [EPublish c (status_msg E "idle" c s1) fi].
      split. { cbn [with_status add_event set_trace tick k_trace set_clock set_guid]. rewrite T. now rewrite <- !app_assoc. }
      split; auto. split; [exact Hfb|]. split; auto. split; auto. split; auto. split; auto. split; auto. split; [exact TK|].
      split. { left. split; auto. eexists. split; [reflexivity|]. split; [|exact Hfi].
               pose proof (status_event_ok E "idle" c s1 fi) as X. now rewrite A2, upd_same in X. }
      split; [|split; [exact A1 | split; [exact A2 | intros x; now apply EN]]]. apply Hnum. apply (numbered_one E _ s1 "status"). reflexivity.
    - injection HD as -> ->. destruct e as [what|tag]; [now destruct (Hns what)|].
      exists (EPublish c (status_msg E "busy" c sp) fb), mid, rep, ab, ws, [].
      split; [rewrite T, app_nil_r; now rewrite <- !app_assoc|].
      split; auto. split; [exact Hfb|]. split; auto. split; auto. split; auto. split; auto. split; auto. split; [exact TK|].
      split; [right; split; eauto|]. split; [apply Hnum; constructor; lia|]. split; [exact A1|]. split; [exact A2|]. intros x; now apply EN.
    - injection HD as -> ->.
      exists (EPublish c (status_msg E "busy" c sp) fb), mid, rep, ab, ws, [].
      split; [rewrite T, app_nil_r; now rewrite <- !app_assoc|].
      split; auto. split; [exact Hfb|]. split; auto. split; auto. split; auto. split; auto. split; auto. split; [exact TK|].
      split; [right; split; auto|]. split; [apply Hnum; constructor; lia|]. split; [exact A1|]. split; [exact A2|]. intros x; now apply EN.
  Qed.

  (** ** Status bracketing *)
  Definition is_status (e : event) : Prop := exists c m w, e = EPublish c m w /\ pub_type m = Some "status".
  Lemma pre_not_status ids ph e : ~ raw "status" -> pre_event E raw ids ph e -> ~ is_status e.
  Proof.
    intros Hn [_ H] (c & m & w & -> & Ht). destruct H as (_ & ty & Ht' & [Hi|Hr] & _).
    - rewrite Ht in Ht'. injection Ht' as <-. cbn in Hi. intuition discriminate.
    - rewrite Ht in Ht'. injection Ht' as <-. auto.
  Qed.
  Lemma aborts_sends lo ws ab hi : aborts E lo ws ab hi -> Forall (fun e => exists r f, e = ESend SHELL r f) ab.
  Proof. induction 1; auto. constructor; eauto. Qed.
  Lemma bracket w c m ty s s' r : ~ raw "status" ->
    accepted E w m -> typed (m_header (m_base m)) ty -> run (dispatch E w c) s = (s', r) ->
    exists busy mid tail, k_trace s' = (k_trace s ++ busy :: mid ++ tail)%list /\
      status_event E "busy" c (m_header (m_base m)) busy /\ Forall (fun e => ~ is_status e) mid /\
      ((r = Ok tt /\ exists idle, tail = [idle] /\ status_event E "idle" c (m_header (m_base m)) idle) \/
       (tail = [] /\ ((exists tag, r = Exn (Foreign tag)) \/ is_ub r = true))).
  Proof.
    intros Hn Ha Hty Hrun.
    destruct (dispatch_dispatched w c m ty s s' r Ha Hty Hrun) as (busy & mid & rep & ab & ws & tail & T & B & _ & F & R & L & (lo & hi & AB) & _ & _ & En & _).
    exists busy, (mid ++ rep ++ ab)%list, tail. split; [rewrite T; now rewrite <- !app_assoc|]. split; auto. split.
    - repeat (apply Forall_app; split).
      + eapply Forall_impl; [|exact F]. intros e. now apply pre_not_status.
      + eapply Forall_impl; [|exact R]. intros e (_ & r0 & w0 & id & rty & -> & _) (c' & m' & w' & He & _). discriminate.
      + eapply Forall_impl; [|exact (aborts_sends _ _ _ _ AB)]. intros e (r0 & f & ->) (c' & m' & w' & He & _). discriminate.
    - destruct En as [(-> & idle & -> & Hs & _)|En]; [left; eauto | right; auto].
  Qed.

  (** ** Routing of replies *)
  Definition is_send (e : event) : Prop := exists c m w, e = ESend c m w.
  Lemma pre_not_send ids ph e : pre_event E raw ids ph e -> ~ is_send e.
  Proof. intros [_ H] (c & m & w & ->). exact H. Qed.
  Lemma status_not_send st c h e : status_event E st c h e -> ~ is_send e.
  Proof. intros (m & w & id & -> & _) (c' & m' & w' & He). discriminate. Qed.
  Lemma routing w c m ty s s' r :
    accepted E w m -> typed (m_header (m_base m)) ty -> run (dispatch E w c) s = (s', r) ->
    exists pre rep ab post ws, k_trace s' = (k_trace s ++ pre ++ rep ++ ab ++ post)%list /\
      Forall (fun e => ~ is_send e) pre /\ Forall (fun e => ~ is_send e) post /\
      Forall (routed E c (m_ids m) (m_header (m_base m)) ty) rep /\ List.length rep <= 1 /\
      (exists lo hi, aborts E lo ws ab hi) /\ taken (k_shell s) ws (k_shell s') /\
      (ws <> [] -> rep <> [] /\ ty = "execute_request").
  Proof.
    intros Ha Hty Hrun.
    destruct (dispatch_dispatched w c m ty s s' r Ha Hty Hrun) as (busy & mid & rep & ab & ws & tail & T & B & _ & F & R & L & AB & W & TK & En & _).
    exists (busy :: mid), rep, ab, tail, ws. split; [exact T|]. split.
    { constructor; [eapply status_not_send; eauto|]. eapply Forall_impl; [|exact F]. intros e. apply pre_not_send. }
    split. { destruct En as [(_ & idle & -> & Hs & _)|[-> _]]; auto. constructor; auto. eapply status_not_send; eauto. }
    split. { eapply Forall_impl; [|exact R]. now intros e []. }
    auto.
  Qed.

  (** ** Attribution of output *)
  (** Every message published on the shell topic while a shell request is handled has its header. *)
  Lemma attribution w m ty s s' r :
    accepted E w m -> typed (m_header (m_base m)) ty -> run (dispatch E w SHELL) s = (s', r) ->
    exists evs, k_trace s' = (k_trace s ++ evs)%list /\
      forall p f, In (EPublish SHELL p f) evs -> m_parent_header (m_pbase p) = m_header (m_base m).
  Proof.
    intros Ha Hty Hrun.
    destruct (dispatch_dispatched w SHELL m ty s s' r Ha Hty Hrun) as (busy & mid & rep & ab & ws & tail & T & B & _ & F & R & L & (lo & hi & AB) & _ & _ & En & _).
    eexists. split; [exact T|]. intros p f Hin.
    destruct Hin as [->|Hin].
    { destruct B as (m' & w' & id & [= <- <-] & _ & _ & H & _). exact H. }
    apply in_app_or in Hin as [Hin|Hin].
    { rewrite Forall_forall in F. apply F in Hin as [_ [H _]]. exact H. }
    apply in_app_or in Hin as [Hin|Hin].
    { rewrite Forall_forall in R. apply R in Hin as (_ & r0 & w0 & id & rty & He & _). discriminate. }
    apply in_app_or in Hin as [Hin|Hin].
    { pose proof (aborts_sends _ _ _ _ AB) as X. rewrite Forall_forall in X. apply X in Hin as (r0 & f0 & He). discriminate. }
    destruct En as [(_ & idle & -> & Hs & _)|[-> _]]; [|destruct Hin].
    destruct Hin as [->|[]]. destruct Hs as (m' & w' & id & [= <- <-] & _ & _ & H & _). exact H.
  Qed.

  (** ** Messages that are not execute requests *)
  Lemma upd_idem {A} c (x : A) f c' : upd_chan c x f c' = if chan_eqb c c' then x else f c'.
  Proof. reflexivity. Qed.
  Lemma other_frame w c m ty s s' r :
    accepted E w m -> typed (m_header (m_base m)) ty -> ty <> "execute_request" -> run (dispatch E w c) s = (s', r) ->
    k_count s' = k_count s /\ k_history s' = k_history s /\ k_shell s' = k_shell s.
  Proof.
    intros Ha Hty Hne Hrun. destruct (run_dispatch_accepted E w c m ty s Hq Hu Ha Hty) as (fb & Hfb & HD).
    rewrite Hrun in HD. set (sp := parented (m_ids m) (m_header (m_base m)) c s) in *.
    set (s0 := with_status E "busy" c fb sp) in *.
    assert (X : let s1 := fst (run (handle E ty m c) s0) in k_count s1 = k_count s /\ k_history s1 = k_history s /\ k_shell s1 = k_shell s).
    { cbv zeta. destruct (run_handle E ty m c s0 (accepted_content_utf8 _ _ _ Ha)) as [[_ ->]|(hh & Hf & -> & _)]; [auto|].
      destruct (handlers_answered E raw HU ty hh m c s0 Hf Hne) as [(rty & Hn & [Hp|(s1 & md & ct & Hp & Hr)])|[_ Hp]].
      - destruct Hp as [[P1 P2 P3 P4 _] P5]. auto.
      - destruct Hp as [[P1 P2 P3 P4 _] P5]. destruct Hr as (f & _ & ->). cbn. auto.
      - destruct Hp as [[P1 P2 P3 P4 _] P5]. auto. }
    destruct (run (handle E ty m c) s0) as [s1 [[]|e|u]]; cbn [fst] in X; try (injection HD as -> ->; exact X).
    unfold publish_status in HD. rewrite run_publish in HD. cbv zeta in HD. rewrite Hq in HD.
    destruct (pub_serialize (e_crypto E) (e_auth E) (e_eh E) (pub_msg E s1 "status" empty (jobj [("execution_state", JStr "idle")]) [] c)); injection HD as -> _; exact X.
  Qed.

  (** ** Unknown types *)
  Definition handled_types : list string :=
    ["execute_request"; "complete_request"; "inspect_request"; "history_request"; "is_complete_request"; "comm_info_request";
     "comm_open"; "comm_close"; "comm_msg"; "kernel_info_request"; "shutdown_request"; "interrupt_request"; "debug_request"].
  Lemma unknown_handler ty : ~ In ty handled_types -> mfind ty (handlers E) = None.
  Proof.
    intros H. destruct (mfind ty (handlers E)) eqn:F; auto. exfalso. apply H.
    assert (X : In ty (List.map fst (handlers E))) by (apply mfind_in in F; apply (in_map fst) in F; exact F). exact X.
  Qed.
  Lemma unknown w c m ty s :
    accepted E w m -> typed (m_header (m_base m)) ty -> ~ In ty handled_types ->
    exists s' busy idle, run (dispatch E w c) s = (s', Ok tt) /\ k_trace s' = (k_trace s ++ [busy; idle])%list /\
      status_event E "busy" c (m_header (m_base m)) busy /\ status_event E "idle" c (m_header (m_base m)) idle /\
      k_history s' = k_history s /\ k_count s' = k_count s /\ k_comms s' = k_comms s /\ k_shell s' = k_shell s /\
      k_user s' = k_user s /\ k_input s' = k_input s /\ k_stdin s' = k_stdin s.
  Proof.
    intros Ha Hty Hun. destruct (run_dispatch_accepted E w c m ty s Hq Hu Ha Hty) as (fb & Hfb & HD).
    set (sp := parented (m_ids m) (m_header (m_base m)) c s) in *. set (s0 := with_status E "busy" c fb sp) in *.
    unfold handle in HD. rewrite unknown_handler in HD by auto. rewrite run_ret in HD.
    destruct (status_serializes E "idle" c s0 Hu) as [fi Hfi].
    { unfold s0, sp. cbn. rewrite upd_same. eapply accepted_header_utf8; eauto. } { apply status_utf8. }
    rewrite (run_status E "idle" c s0 fi Hq Hfi) in HD.
    exists (with_status E "idle" c fi s0), (EPublish c (status_msg E "busy" c sp) fb), (EPublish c (status_msg E "idle" c s0) fi).
    split; auto. split; [cbn; now rewrite <- app_assoc|].
    assert (X1 : k_phdr sp c = m_header (m_base m)) by (unfold sp; cbn; apply upd_same).
    assert (X2 : k_phdr s0 c = m_header (m_base m)) by (unfold s0, sp; cbn; apply upd_same).
    split; [rewrite <- X1; apply status_event_ok|]. split; [rewrite <- X2; apply status_event_ok|]. auto 10.
  Qed.
End Lemmas.
