(** Silent executions, abortion, shutdown, input: statements about [dispatch]. *)
From Verif Require Import Base BaseFacts Json JsonText Utf8 Utf8Proofs JsonTextProofs Auth Message MessageProofs WireSpec History HistoryProofs Comm CommSpec Tree Kernel KernelSpec KernelProofs KernelRun KernelHandlers KernelExec KernelDispatch KernelLemmas KernelExecProps KernelReplies KernelSession.

Section Misc.
  Context {U : Type} (E : env U) (raw : string -> Prop).
  Implicit Types (s : kstate U).
  Context (Hq : quiet E) (Hu : env_utf8 E).

  (** ** The frame of a dispatched message *)
  (** [s0] is [s] after the busy status. *)
  Record entered (c : channel) (m : xmessage) (busy : event) s s0 : Prop := {
    en_busy : status_event E "busy" c (m_header (m_base m)) busy;
    en_trace : k_trace s0 = (k_trace s ++ [busy])%list;
    en_pid : k_pid s0 = upd_chan c (m_ids m) (k_pid s);
    en_phdr : k_phdr s0 = upd_chan c (m_header (m_base m)) (k_phdr s);
    en_count : k_count s0 = k_count s; en_history : k_history s0 = k_history s; en_comms : k_comms s0 = k_comms s;
    en_shell : k_shell s0 = k_shell s; en_user : k_user s0 = k_user s; en_input : k_input s0 = k_input s; en_value : k_value s0 = k_value s;
    en_stdin : k_stdin s0 = k_stdin s }.
  (** [s'] is [s1] after the idle status. *)
  Record left_idle (c : channel) (m : xmessage) (idle : event) s1 s' : Prop := {
    le_idle : status_event E "idle" c (m_header (m_base m)) idle;
    le_trace : k_trace s' = (k_trace s1 ++ [idle])%list;
    le_pid : k_pid s' = k_pid s1; le_phdr : k_phdr s' = k_phdr s1;
    le_count : k_count s' = k_count s1; le_history : k_history s' = k_history s1; le_comms : k_comms s' = k_comms s1;
    le_shell : k_shell s' = k_shell s1; le_user : k_user s' = k_user s1; le_input : k_input s' = k_input s1; le_value : k_value s' = k_value s1;
    le_stdin : k_stdin s' = k_stdin s1 }.
  Lemma dispatch_skeleton w c m ty h s : accepted E w m -> typed (m_header (m_base m)) ty -> mfind ty (handlers E) = Some h ->
    exists s0 busy, entered c m busy s s0 /\
      forall s1 r, run (h m c) s0 = (s1, r) -> k_phdr s1 c = k_phdr s0 c ->
        match r with
        | Ok _ | Exn (Std _) => exists s' idle, run (dispatch E w c) s = (s', Ok tt) /\ left_idle c m idle s1 s'
        | _ => run (dispatch E w c) s = (s1, r)
        end.
  Proof.
    intros Ha Hty Hf. destruct (run_dispatch_accepted E w c m ty s Hq Hu Ha Hty) as (fb & Hfb & HD).
    set (sp := parented (m_ids m) (m_header (m_base m)) c s) in *. set (s0 := with_status E "busy" c fb sp) in *.
    exists s0, (EPublish c (status_msg E "busy" c sp) fb). split.
    { constructor; auto. pose proof (status_event_ok E "busy" c sp fb) as Y. unfold sp in Y at 1. cbn [parented k_phdr set_phdr] in Y. now rewrite upd_same in Y. }
    intros s1 r Hr Hph. assert (Hhc : k_phdr s1 c = m_header (m_base m)) by (rewrite Hph; unfold s0, sp; cbn; apply upd_same).
    assert (Hidle : exists s' idle, run (publish_status E "idle" c) s1 = (s', Ok tt) /\ left_idle c m idle s1 s').
    { destruct (status_serializes E "idle" c s1 Hu) as [fi Hfi]; [rewrite Hhc; eapply accepted_header_utf8; eauto | apply status_utf8 |].
      rewrite (run_status E "idle" c s1 fi Hq Hfi). eexists _, _. split; [reflexivity|]. constructor; try reflexivity. rewrite <- Hhc. apply status_event_ok. }
    unfold handle in HD. rewrite Hf, run_catch, Hr in HD.
    destruct r as [[]|[e|e]|u].
    - destruct Hidle as (s' & idle & Hi & Hl). rewrite Hi in HD. eauto.
    - pose proof (accepted_content_utf8 _ _ _ Ha) as Hut. apply dump_strict_iff in Hut as [t Ht]. rewrite Ht in HD. cbn [run exec of_res tbind] in HD.
      destruct Hidle as (s' & idle & Hi & Hl). exists s', idle. split; auto. etransitivity; [exact HD | exact Hi].
    - exact HD.
    - exact HD.
  Qed.

  Context (HU : user_publishes E raw).

  (** ** Silent executions *)
  Lemma silent_execution w c m p s s' r :
    accepted E w m -> typed (m_header (m_base m)) "execute_request" -> exec_params (m_content (m_base m)) p -> x_silent p = true -> parents_utf8 s ->
    run (dispatch E w c) s = (s', r) ->
    let h := m_header (m_base m) in
    exists busy out rep tail, k_trace s' = (k_trace s ++ busy :: EInterp (RExecute (k_count s) (x_code p) true false (x_ue p) (x_stdin p)) :: out ++ rep ++ tail)%list /\
      status_event E "busy" c h busy /\ ended E c h r tail /\
      Forall (fun e => match e with
                       | EPublish _ m _ => exists ty, pub_type m = Some ty /\ raw ty
                       | EStdin _ _ | EInput _ _ => True
                       | _ => False end) out /\
      (rep = [] \/ exists e st, rep = [e] /\ exec_reply E c (m_ids m) h (k_count s) st e) /\
      k_count s' = k_count s /\ k_history s' = k_history s /\ k_shell s' = k_shell s.
  Proof.
    intros Ha Hty Hp Hs Hpu Hrun h.
    destruct (dispatch_executed E raw Hq Hu HU w c m p s s' r Ha Hty Hp (or_introl Hs) (Hpu SHELL) Hrun) as (busy & evs & tail & T & B & En & X).
    unfold executed in X. rewrite Hs in X. assert (Hst : stores p = false) by (unfold stores; rewrite Hs; now rewrite andb_false_r). rewrite Hst in X.
    destruct X as (inp & out & rest & -> & -> & O & C & D). cbn [app negb andb] in *.
    assert (O' : Forall (fun e => match e with
                       | EPublish _ m _ => exists ty, pub_type m = Some ty /\ raw ty
                       | EStdin _ _ | EInput _ _ => True
                       | _ => False end) out).
    { eapply Forall_impl; [|exact O]. intros [] H; auto. now destruct H as (_ & _ & H). }
    destruct D as [(-> & Hh & Hsh)|(rep & ab & ws & st & -> & Hrep & Hh & _ & -> & -> & Hsh)].
    - exists busy, out, [], tail. rewrite app_nil_r in T. cbn [app]. repeat (split; auto).
    - exists busy, out, [rep], tail. rewrite app_nil_r in Hh. rewrite <- app_assoc in T. split; auto. split; auto. split; auto. split; auto. split; [right; eauto|]. auto.
  Qed.

  (** ** stop_on_error *)
  Lemma first_send l1 a r1 l2 b r2 : (l1 ++ a :: r1 = l2 ++ b :: r2)%list ->
    Forall (fun e => ~ is_send e) l1 -> Forall (fun e => ~ is_send e) l2 -> is_send a -> is_send b -> l1 = l2 /\ a = b /\ r1 = r2.
  Proof.
    revert l2. induction l1 as [|x l1 IH]; intros [|y l2] H F1 F2 Ha Hb; cbn in H; injection H; intros.
    - subst. auto.
    - subst. inversion F2; contradiction.
    - subst. inversion F1; contradiction.
    - subst. inversion F1; inversion F2; subst. edestruct (IH l2) as (-> & -> & ->); eauto.
  Qed.
  Lemma abortable_not_fatal w : abortable E w -> ~ fatal E w.
  Proof. unfold fatal. intros [[e He]|(m & x & y & Ha & _)]; [rewrite He | unfold accepted in Ha; rewrite Ha]; discriminate. Qed.
  Lemma stop_on_error w c m p s :
    accepted E w m -> typed (m_header (m_base m)) "execute_request" -> exec_params (m_content (m_base m)) p ->
    x_silent p = false -> x_stop p = true -> k_count s <> int_max -> parents_utf8 s ->
    returns E (e_interp E (RExecute (k_count s + 1) (x_code p) false (x_store p) (x_ue p) (x_stdin p)))
      (fun j => utf8_json j /\ exists mm, j = JObj mm /\ mfind "status" mm = Some (JStr "error")) ->
    (forall x, In (Some x) (k_shell s) -> abortable E x) ->
    let h := m_header (m_base m) in
    exists s' busy mid rep ab ws idle, run (dispatch E w c) s = (s', Ok tt) /\
      k_trace s' = (k_trace s ++ busy :: mid ++ rep :: ab ++ [idle])%list /\
      status_event E "busy" c h busy /\ status_event E "idle" c h idle /\ Forall (fun e => ~ is_send e) mid /\
      exec_reply E c (m_ids m) h (k_count s + 1) "error" rep /\ (exists lo hi, aborts E lo ws ab hi) /\ drained (k_shell s) ws (k_shell s') /\
      (exists inp out, mid = (inp ++ EInterp (RExecute (k_count s + 1) (x_code p) false (x_store p) (x_ue p) (x_stdin p)) :: out)%list /\
         Forall (fun e => forall rq, e <> EInterp rq) (inp ++ out)).
  Proof.
    intros Ha Hty Hp Hs Hstop Hmax Hpu Hret Habt h.
    assert (Hsto : stores p = x_store p) by (unfold stores; rewrite Hs; now rewrite andb_true_r).
    assert (Hwf : well_formed E s h "execute_request" (m_content (m_base m))
      (fun j => exists m0, parented_answer E (e_interp E (RExecute (k_count s + 1) (x_code p) false (x_store p) (x_ue p) (x_stdin p))) (JObj m0) /\ j = JObj (mset "execution_count" (JInt (k_count s + 1)) m0))).
    { pose proof (wf_execute E s h _ p Hp (or_intror Hmax)) as X. cbv zeta in X. rewrite Hs, Hsto in X. apply X.
      intros s0 Hs0. destruct (Hret s0 Hs0) as (s1 & j & Hr & Hj & mm & -> & Hst). eexists _, _. split; [exact Hr|]. eauto. }
    destruct (dispatch_replies E raw Hq Hu HU w c m _ s _ Ha Hty Hpu Hwf) as (s' & x & busy & mid & r & f & ab & ws & tail & Hrun & T & B & En & F & R & (m0 & (s2 & s3 & Hs2 & Hans) & HP) & AB & _ & Hx).
    assert (x = Ok tt).
    { destruct Hx as [Hx|(_ & w' & Hin & Hfat)]; auto. apply Habt in Hin. now apply abortable_not_fatal in Hin. }
    subst x. destruct En as [(_ & idle & -> & Hidle & _)|[_ [[tag Ht]|Ht]]]; try discriminate.
    destruct (dispatch_executed E raw Hq Hu HU w c m p s s' _ Ha Hty Hp (or_intror Hmax) (Hpu SHELL) Hrun) as (busy' & evs & tail & T' & B' & En & X).
    unfold executed in X. rewrite Hs, Hsto in X. destruct X as (inp & out & rest & -> & (ie & -> & Hie) & O & C & D).
    assert (Hno : Forall (fun e => ~ is_send e) out) by (eapply out_no_send; eauto).
    assert (Htail : Forall (fun e => ~ is_send e) tail).
    { destruct En as [(_ & idle' & -> & Hs' & _)|[-> _]]; auto. constructor; auto. eapply status_not_send; eauto. }
    assert (Hiens : ~ is_send ie) by (destruct Hie as (m' & w' & id & -> & _); intros (? & ? & ? & [=])).
    rewrite T in T'. apply app_inv_head in T'. injection T' as <- T'.
    destruct D as [(-> & _)|(rep & ab' & ws' & st & -> & Hrep & _ & AB' & Hcond)].
    { exfalso. rewrite app_nil_r in T'. assert (Hin : In (ESend c r f) (mid ++ ESend c r f :: ab ++ [idle])) by (apply in_or_app; right; now left).
      rewrite T' in Hin. destruct Hin as [->|[He|Hin]]; [| |apply in_app_or in Hin as [Hin|Hin]].
      - now destruct Hiens; eexists _, _, _.
      - discriminate.
      - rewrite Forall_forall in Hno. apply (Hno _ Hin). now eexists _, _, _.
      - rewrite Forall_forall in Htail. apply (Htail _ Hin). now eexists _, _, _. }
    set (ei := EInterp (RExecute (k_count s + 1) (x_code p) false (x_store p) (x_ue p) (x_stdin p))) in *.
    assert (T2 : (mid ++ ESend c r f :: (ab ++ [idle]) = (([ie] ++ ei :: out)) ++ rep :: (ab' ++ tail))%list).
    { rewrite T'. cbn [app]. rewrite <- ?app_assoc. reflexivity. }
    assert (Hrs : is_send rep) by (destruct Hrep as [(r' & w' & id & rty & -> & _) _]; now eexists _, _, _).
    apply first_send in T2 as (-> & <- & T3); auto; [|apply Forall_app; split; auto; constructor; auto; intros (? & ? & ? & [=])|now eexists _, _, _].
    assert (st = "error").
    { destruct Hrep as [_ (r' & w' & j & [= <- <-] & Hc & _ & Hst)]. rewrite HP in Hc. injection Hc as <-.
      destruct (Hret s2 Hs2) as (s5 & j & Hr5 & _ & mm & -> & Hse). rewrite Hans in Hr5. injection Hr5 as <- ->.
      destruct Hst as [[Hn _]|Hn]; rewrite mfind_mset_other, Hse in Hn by discriminate; [discriminate|]. now injection Hn. }
    subst st. rewrite Hstop in Hcond. cbn [negb andb] in Hcond. change (String.eqb "error" "error") with true in Hcond. cbn [andb] in Hcond.
    destruct Hcond as [Hd|(w' & Hw' & Hna)].
    2: { destruct Hna. apply Habt. rewrite Hw'. apply in_or_app. right. now left. }
    assert (Htl : tail = [idle] /\ ab' = ab).
    { destruct En as [(_ & idle' & -> & _)|[_ [[tag [=]]|[=]]]]. apply app_inj_tail in T3 as [-> ->]. auto. }
    destruct Htl as [-> ->].
    exists s', busy, ([ie] ++ ei :: out)%list, (ESend c r f), ab, ws', idle. split; auto. split; auto. split; auto. split; auto. split; auto.
    split; auto. split; auto. split; auto. exists [ie], out. split; auto. apply Forall_app. split.
    - constructor; auto. destruct Hie as (m' & w' & id & -> & _). discriminate.
    - eapply Forall_impl; [|exact O]. intros [] H rq; cbn in H; try discriminate; contradiction.
  Qed.

  (** ** Exceptions *)
  Lemma no_std_escapes w c s : (forall m, accepted E w m -> exists ty, typed (m_header (m_base m)) ty) ->
    forall what, snd (run (dispatch E w c) s) <> Exn (Std what).
  Proof.
    intros Hty what He. destruct (run (dispatch E w c) s) as [s' r] eqn:Hrun. cbn [snd] in He. subst r.
    destruct (deserialize_cases E w) as [[m Ha]|[[e Hr]|Hub]].
    - destruct (Hty m Ha) as [ty Ht].
      destruct (dispatch_dispatched E raw Hq Hu HU w c m ty s s' _ Ha Ht Hrun) as (busy & mid & rep & ab & ws & tail & T & B & _ & F & R & L & AB & W & TK & En & _).
      destruct En as [([=] & _)|[_ [[tag [=]]|[=]]]].
    - pose proof (run_dispatch_rejected E w c s (ex_intro _ _ Hr)) as X. rewrite Hrun in X. discriminate.
    - unfold dispatch in Hrun. rewrite run_bind, run_catch, run_bind, run_res in Hrun. destruct (deserialize (e_crypto E) (e_auth E) w); discriminate.
  Qed.
  Lemma stdin_no_std w s what : snd (run (dispatch_stdin E w) s) <> Exn (Std what).
  Proof.
    unfold dispatch_stdin. rewrite run_catch. destruct (run _ s) as [s1 [[]|[e|e]|u]]; discriminate.
  Qed.
End Misc.

(** ** Blocking input *)
Section Input.
  Context {U : Type} (E : env U).
  Implicit Types (s : kstate U).

  (** The value the user typed: the "value" field of an accepted message. *)
  Inductive typed_in (w : frames) : string -> Prop :=
  | ti_value m mm v : accepted E w m -> m_content (m_base m) = JObj mm -> mfind "value" mm = Some (JStr v) -> typed_in w v
  | ti_rejected : rejected E w -> typed_in w ""
  | ti_none m : accepted E w m -> (forall mm v, m_content (m_base m) = JObj mm -> mfind "value" mm <> Some (JStr v)) -> typed_in w "".
  Lemma stdin_store w s v0 : quiet E -> ~ fatal E w -> k_input s = Some HStore -> k_value s = Some v0 ->
    exists s' v, run (dispatch_stdin E w) s = (s', Ok tt) /\
      (s' = s /\ typed_in w "" \/ typed_in w v /\ s' = set_value (Some v) s).
  Proof.
    intros Hq Hnf Hi Hv. unfold dispatch_stdin. rewrite run_catch, run_bind, run_res.
    destruct (deserialize_cases E w) as [[m Ha]|[[e Hr]|Hub]]; [| |contradiction].
    2: { rewrite Hr. exists s, "". split; [reflexivity|]. left. split; auto. apply ti_rejected. now exists e. }
    pose proof Ha as Ha'. unfold accepted in Ha'. rewrite Ha'. unfold log. rewrite run_bind, run_res, Hq. rewrite run_bind, run_res.
    destruct (m_content (m_base m)) as [| | | | | |mm] eqn:Hc;
      try (exists s, ""; split; [reflexivity|]; left; split; auto; apply (ti_none _ m); auto; intros ? ?; rewrite Hc; discriminate).
    destruct (mfind "value" mm) as [j|] eqn:Hf.
    - unfold value_string, jvalue. rewrite Hf. destruct j as [| | | |v| |]; cbn [get_string bind];
        try (exists s, ""; split; [reflexivity|]; left; split; auto; apply (ti_none _ m); auto; intros ? ?; rewrite Hc; intros [= <-]; rewrite Hf; discriminate).
      unfold input_reply. rewrite run_bind, run_kdo. cbn [kstep fst snd]. rewrite Hi. cbn beta iota. rewrite run_bind, run_kdo. cbn [kstep fst snd]. rewrite Hv. cbn beta iota.
      exists (set_value (Some v) s), v. split; [reflexivity|]. right. split; auto. eapply ti_value; eauto.
    - unfold value_string, jvalue. rewrite Hf. cbn [bind].
      unfold input_reply. rewrite run_bind, run_kdo. cbn [kstep fst snd]. rewrite Hi. cbn beta iota. rewrite run_bind, run_kdo. cbn [kstep fst snd]. rewrite Hv. cbn beta iota.
      exists (set_value (Some "") s), "". split; [reflexivity|]. right. split; auto. apply (ti_none _ m); auto. intros ? ?. rewrite Hc. intros [= <-]. congruence.
  Qed.
  (** The request sent to the frontend. *)
  Definition input_prompt (ids : list string) (parent : json) (prompt : string) (pwd : bool) (e : event) : Prop :=
    exists m w id, e = EStdin m w /\ header_with (m_header (m_base m)) id "input_request" (e_user_name E) (e_session_id E) /\
      m_ids m = ids /\ m_parent_header (m_base m) = parent /\ m_metadata (m_base m) = JObj [] /\
      m_content (m_base m) = JObj [("prompt", JStr prompt); ("pwd", JBool pwd)] /\ m_buffers (m_base m) = [] /\
      serialize (e_crypto E) (e_auth E) (e_eh E) m = Ok w.
  Lemma blocking_input prompt pwd s : quiet E -> env_utf8 E -> utf8_json (k_phdr s SHELL) -> utf8_text prompt -> ~ fatal E (e_stdin E (k_stdin s)) ->
    exists s' v e, run (blocking_input_request E prompt pwd) s = (s', Ok v) /\ typed_in (e_stdin E (k_stdin s)) v /\
      k_trace s' = (k_trace s ++ [e])%list /\ input_prompt (k_pid s SHELL) (k_phdr s SHELL) prompt pwd e /\
      k_stdin s' = S (k_stdin s) /\ k_input s' = None /\ k_value s' = None /\
      k_count s' = k_count s /\ k_history s' = k_history s /\ k_comms s' = k_comms s /\ k_pid s' = k_pid s /\ k_phdr s' = k_phdr s /\ k_shell s' = k_shell s /\ k_user s' = k_user s.
  Proof.
    intros Hq Hu Hph Hpr Hnf. unfold blocking_input_request. rewrite run_bind, run_kdo. cbn [kstep fst snd]. rewrite run_bind, run_kdo. cbn [kstep fst snd].
    set (s1 := set_input (Some HStore) (set_value (Some "") s)). rewrite run_bind, run_attempt. unfold input_request. rewrite run_send_stdin. cbv zeta.
    set (m := reply_msg E s1 (k_pid s1 SHELL) "input_request" (k_phdr s1 SHELL) empty (jobj [("prompt", JStr prompt); ("pwd", JBool pwd)])).
    destruct (serialize_valid (e_crypto E) (e_auth E) (e_eh E) m) as [f Hf].
    { unfold base_parts. cbn [m reply_msg m_base m_header m_parent_header m_metadata m_content]. destruct Hu as (U1 & U2 & U3 & U4).
      repeat apply Forall_cons; auto using utf8_empty.
      - unfold hdr. apply utf8_header; auto. apply utf8_lit; reflexivity.
      - apply utf8_obj. repeat constructor; cbn [fst snd]; auto using utf8_str; try (apply utf8_lit; reflexivity). apply utf8_bool. }
    rewrite Hq, Hf. set (s2 := set_stdin (S (k_stdin s1)) (add_event (EStdin m f) (tick s1))).
    destruct (stdin_store (e_stdin E (k_stdin s1)) s2 "" Hq Hnf eq_refl eq_refl) as (s3 & v & Hr & Hs3). rewrite Hr.
    rewrite run_bind, run_kdo. cbn [kstep fst snd]. rewrite run_bind, run_kdo. cbn [kstep fst snd]. rewrite run_bind, run_kdo. cbn [kstep fst snd]. rewrite run_ret.
    destruct Hs3 as [[-> Hti]|[Hti ->]]; eexists _, _, _; (split; [reflexivity|]); (split; [exact Hti|]); (split; [reflexivity|]);
      (split; [eexists m, f, _; split; [reflexivity|]; split; [apply header_with_make|]; auto 10|]); repeat split.
  Qed.
End Input.

(** ** Shutdown *)
Section Shutdown.
  Context {U : Type} (E : env U) (raw : string -> Prop).
  Implicit Types (s : kstate U).
  Context (Hq : quiet E) (Hu : env_utf8 E) (HU : user_publishes E raw).

  (** A publication of the kernel. *)
  Definition broadcast (c : channel) (ty : string) (parent content : json) (e : event) : Prop :=
    exists m w id, e = EPublish c m w /\ header_with (m_header (m_pbase m)) id ty (e_user_name E) (e_session_id E) /\
      m_topic m = "kernel_core." +++ e_kernel_id E +++ "." +++ ty /\
      m_parent_header (m_pbase m) = parent /\ m_metadata (m_pbase m) = JObj [] /\ m_content (m_pbase m) = content /\ m_buffers (m_pbase m) = [].
  (** A reply with this content. *)
  Definition reply_with (c : channel) (ids : list string) (h : json) (ty : string) (content : json) (e : event) : Prop :=
    routed E c ids h ty e /\ exists r w, e = ESend c r w /\ m_content (m_base r) = content.
  (** Output of user code. *)
  Definition user_output (e : event) : Prop :=
    match e with EPublish _ m _ => exists ty, pub_type m = Some ty /\ raw ty | EStdin _ _ | EInput _ _ => True | _ => False end.
  Lemma user_events_output ids ph evs : Forall (user_event E raw ids ph) evs -> Forall user_output evs.
  Proof. apply Forall_impl. intros [] [_ H]; cbn in *; auto. now destruct H as (_ & _ & H). Qed.

  Lemma shutdown_exact w c m mm restart s :
    accepted E w m -> typed (m_header (m_base m)) "shutdown_request" -> m_content (m_base m) = JObj mm -> bool_field mm "restart" false restart ->
    returns E (e_interp E RShutdown) (fun _ => True) -> parents_utf8 s ->
    let h := m_header (m_base m) in
    exists s' busy out pub rep idle, run (dispatch E w c) s = (s', Ok tt) /\
      k_trace s' = (k_trace s ++ busy :: EInterp RShutdown :: out ++ [EStop; pub; rep; idle])%list /\
      status_event E "busy" c h busy /\ status_event E "idle" c h idle /\ Forall user_output out /\
      broadcast CONTROL "shutdown" (upd_chan c h (k_phdr s) CONTROL) (JObj [("restart", JBool restart)]) pub /\
      reply_with c (m_ids m) h "shutdown_request" (JObj [("restart", JBool restart)]) rep /\
      k_count s' = k_count s /\ k_history s' = k_history s /\ k_shell s' = k_shell s.
  Proof.
    intros Ha Hty Hc Hb Hret Hpu h.
    destruct (dispatch_skeleton E Hq Hu w c m _ (shutdown_request E) s Ha Hty eq_refl) as (s0 & busy & [B1 B2 B3 B4 B5 B6 B7 B8 _ _ _ _] & HD).
    assert (Hp0 : forall c', utf8_json (k_phdr s0 c')).
    { intros c'. rewrite B4, upd_idem. destruct (chan_eqb c c'); auto. eapply accepted_header_utf8; eauto. }
    destruct (Hret (add_event (EInterp RShutdown) s0) Hp0) as (s1 & j & Hr1 & _).
    assert (Hf : uframe E raw (add_event (EInterp RShutdown) s0) s1).
    { assert (X : keeps (uframe E raw) (embed E (e_interp E RShutdown))) by (apply frame_embed; apply HU).
      specialize (X (add_event (EInterp RShutdown) s0)). now rewrite Hr1 in X. }
    destruct Hf as [F1 F2 F3 F4 F5 (out & T & _ & O)].
    set (rj := jobj [("restart", JBool restart)]).
    assert (Hrj : utf8_json rj) by (apply utf8_obj; repeat constructor; cbn [fst snd]; auto using utf8_bool; apply utf8_lit; reflexivity).
    set (s2 := add_event EStop s1).
    destruct (publish_ok E Hq Hu "shutdown" empty rj [] CONTROL s2) as (f & Hf2 & Hrun2); auto using utf8_empty; [apply utf8_lit; reflexivity | unfold s2; cbn; rewrite F2; apply Hp0 |].
    set (pe := EPublish CONTROL (pub_msg E s2 "shutdown" empty rj [] CONTROL) f) in *. set (s3 := add_event pe (tick s2)) in *.
    destruct (send_ok E Hq Hu "shutdown_reply" empty rj c s3) as (s4 & Hrun4 & g & Hg & ->); auto using utf8_empty; [apply utf8_lit; reflexivity | unfold s3, s2; cbn; rewrite F2; apply Hp0 |].
    set (re := ESend c (reply_msg E s3 (k_pid s3 c) "shutdown_reply" (k_phdr s3 c) empty rj) g) in *.
    assert (HR : run (shutdown_request E m c) s0 = (add_event re (tick s3), Ok tt)).
    { unfold shutdown_request. rewrite Hc, run_bind, run_res. apply bool_field_value in Hb. rewrite Hb.
      unfold interp. rewrite run_bind, run_bind, run_emit, Hr1. rewrite run_bind, run_emit. fold s2. cbv zeta. fold rj. rewrite run_bind, Hrun2. exact Hrun4. }
    specialize (HD _ _ HR). cbn beta iota in HD. destruct HD as (s' & idle & Hrun & [L1 L2 L3 L4 L5 L6 L7 L8 _ _ _ _]).
    { unfold s3, s2. cbn. rewrite F2. reflexivity. }
    exists s', busy, out, pe, re, idle. split; auto. split.
    { rewrite L2. unfold s3, s2. cbn [add_event set_trace k_trace tick set_clock set_guid]. rewrite T. cbn [add_event set_trace k_trace]. rewrite B2.
      rewrite <- !app_assoc. reflexivity. }
    split; auto. split; auto. split; [eapply user_events_output; eauto|].
    split. { eexists _, f, _. split; [reflexivity|]. split; [apply header_with_make|]. split; [reflexivity|]. split; [|auto]. unfold s2. cbn. rewrite F2. cbn. now rewrite B4. }
    split.
    { split; [|eexists _, g; split; reflexivity]. eexists _, g, _, "shutdown_reply". split; [reflexivity|]. split; [now exists "shutdown"|].
      cbn [reply_msg m_ids m_base m_parent_header m_header m_buffers]. unfold s3, s2. cbn. rewrite F1, F2. cbn. rewrite B3, B4, !upd_same.
      split; auto. split; auto. split; [apply header_with_make | reflexivity]. }
    rewrite L5, L6, L8. unfold s3, s2. cbn. rewrite F3, F4, F5. cbn. auto.
  Qed.
End Shutdown.
