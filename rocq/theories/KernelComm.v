(** Comms and the kernel: everything the kernel does to the comm manager is a sequence of comm
    operations; comm messages reach their handlers; outgoing comm messages. *)
From Verif Require Import Base BaseFacts Json JsonText Utf8 Utf8Proofs JsonTextProofs Auth Message MessageProofs WireSpec History HistoryProofs Comm CommSpec CommProofs Tree Kernel KernelSpec KernelProofs KernelRun KernelHandlers KernelExec KernelDispatch KernelLemmas KernelExecProps KernelReplies KernelSession KernelMisc.

(** The comm operation performed by an operation of user code satisfies [Q]. *)
Definition comm_ops {U} (Q : cop -> Prop) (o : uop0 U) : Prop :=
  match o with
  | ATarget n => Q (CTarget n) | ARegTarget n cb => Q (CRegTarget n cb) | AUnregTarget n => Q (CUnregTarget n)
  | ANew p => forall id, Q (CNew p id) | ANewId p id => Q (CNew p id) | AMove a => Q (CMove a) | ACopy a => forall id, Q (CCopy a id)
  | AMoveAssign d s => Q (CMoveAssign d s) | ACopyAssign d s => forall id, Q (CCopyAssign d s id)
  | ADestroy a => Q (CDestroy a) | AOnMessage a h => Q (COnMessage a h) | AOnClose a h => Q (COnClose a h)
  | _ => True
  end.
Definition comm_ops1 {U} (Q : cop -> Prop) (o : uop1 U) : Prop := match o with AOp o => comm_ops Q o | _ => True end.
Definition user_comms {U} (E : env U) (Q : cop -> Prop) : Prop := user_always E (comm_ops Q) (comm_ops1 Q).

Section Comms.
  Context {U : Type} (E : env U) (Q : cop -> Prop).
  Implicit Types (s : kstate U).
  Context (QN : forall p id, Q (CNew p id)) (QD : forall a, Q (CDestroy a)) (QE : forall id, Q (CErase id)).
  Context (HC : user_comms E Q).

  Definition comm_run s s' : Prop := exists ops, csteps (e_indet E) (fun _ o => Q o) ops (k_comms s) (k_comms s').
  Let R := comm_run.
  Lemma csteps_app pol (P : comms -> cop -> Prop) o1 o2 a b c : csteps pol P o1 a b -> csteps pol P o2 b c -> csteps pol P (o1 ++ o2) a c.
  Proof. induction 1; cbn; auto. intros. econstructor; eauto. Qed.
  Lemma comm_run_refl s : R s s.
  Proof. exists []. constructor. Qed.
  Lemma comm_run_trans s1 s2 s3 : R s1 s2 -> R s2 s3 -> R s1 s3.
  Proof. intros [o1 H1] [o2 H2]. exists (o1 ++ o2)%list. eapply csteps_app; eauto. Qed.
  Lemma comm_run_same s s' : k_comms s' = k_comms s -> R s s'.
  Proof. intros H. exists []. rewrite H. constructor. Qed.

  Lemma keeps_comms (o : kop U) : (forall s, k_comms (fst (kstep o s)) = k_comms s) -> keeps R (kdo o).
  Proof. intros H. apply keeps_kdo. intros s. apply comm_run_same, H. Qed.
  Lemma keeps_with {A} (f : comms -> res (comms * A)) o : Q o ->
    (forall cs cs' a, f cs = Ok (cs', a) -> cstep (e_indet E) o cs = Ok cs') -> keeps R (with_comms f).
  Proof.
    intros HQ Hf s. unfold with_comms. rewrite run_bind, run_kdo. cbn [kstep fst snd]. rewrite run_bind, run_res.
    destruct (f (k_comms s)) as [[cs' a]| |] eqn:Hr; cbn [fst]; try apply comm_run_refl.
    exists [o]. econstructor; [exact HQ | eapply Hf; eauto | constructor].
  Qed.
  Create HintDb kc discriminated.
  Ltac kp :=
    cbv zeta; repeat first
      [ progress cbv zeta | solve [auto 1 with kc nocore] | apply keeps_ret, comm_run_refl | apply keeps_throw, comm_run_refl | apply keeps_stuck, comm_run_refl | apply keeps_res, comm_run_refl
      | match goal with |- keeps _ (tbind _ _) => apply keeps_bind; [exact comm_run_trans| |intros ?] end | apply keeps_catch; [exact comm_run_trans| |] | apply keeps_attempt
      | match goal with |- keeps _ (kdo ?o) => exact (keeps_comms o (fun _ => eq_refl)) end ].
  Lemma keeps_log l : keeps R (log E l).
  Proof. unfold log. kp. Qed.
  Hint Resolve keeps_log : kc.
  Lemma keeps_publish ty md ct b c : keeps R (publish_message E ty md ct b c).
  Proof. unfold publish_message, new_header, new_guid, now, log, emit. kp.
 Qed.
  Hint Resolve keeps_publish : kc.
  Lemma keeps_look {A} (f : comms -> res A) : keeps R (look_comms f : kprog U A).
  Proof. unfold look_comms. kp. Qed.
  Hint Resolve keeps_look : kc.
  Lemma keeps_tpublish p ty md ct b : keeps R (target_publish E p ty md ct b).
  Proof. unfold target_publish. kp. destruct (t_manager _); kp. Qed.
  Hint Resolve keeps_tpublish : kc.
  Lemma keeps_send_to ids ty ph md ct c : keeps R (send_reply_to E ids ty ph md ct c).
  Proof. unfold send_reply_to, new_header, new_guid, now, log, emit. kp. Qed.
  Hint Resolve keeps_send_to : kc.
  Lemma keeps_send ty md ct c : keeps R (send_reply E ty md ct c).
  Proof. unfold send_reply. kp. Qed.
  Hint Resolve keeps_send : kc.

  Lemma keeps_api0 o : comm_ops Q o -> keeps R (api0 E o).
  Proof.
    destruct o; cbn [comm_ops api0]; intros Ho; try (apply keeps_publish);
      try (unfold comm_open_msg, comm_close_msg, comm_send_msg, new_guid, now; kp; fail).
    all: try (apply (keeps_with _ _ Ho); unfold no_answer; cbn [cstep]; intros cs cs' x; auto;
              try (intros H; injection H as <- <-; reflexivity); fail).
    - apply (keeps_with _ _ Ho). cbn [cstep]. intros cs cs' x H. injection H as H. now rewrite H.
    - unfold new_guid. kp. eapply (keeps_with _ (CNew _ _)); [apply Ho|]. cbn [cstep]. intros cs cs' x H. now rewrite H.
    - apply (keeps_with _ (CNew p id)); [apply Ho|]. cbn [cstep]. intros cs cs' x H. now rewrite H.
    - apply (keeps_with _ (CMove a)); [apply Ho|]. cbn [cstep]. intros cs cs' x H. now rewrite H.
    - unfold new_guid. kp. eapply (keeps_with _ (CCopy _ _)); [apply Ho|]. cbn [cstep]. intros cs cs' x H. now rewrite H.
    - apply (keeps_with _ (CMoveAssign dst src)); [apply Ho|]. cbn [cstep]. unfold no_answer. intros cs cs' x H.
      destruct (comm_move_assign dst src cs); cbn in H; [congruence | discriminate..].
    - unfold new_guid. kp. apply (keeps_with _ (CCopyAssign dst src a)); [apply Ho|]. cbn [cstep]. unfold no_answer. intros cs cs' x H.
      destruct (comm_copy_assign dst src a cs); cbn in H; [congruence | discriminate..].
    - apply (keeps_with _ (CDestroy a)); [apply Ho|]. cbn [cstep]. unfold no_answer. intros cs cs' x H.
      destruct (comm_destroy _ a cs); cbn in H; [congruence | discriminate..].
    - apply (keeps_with _ (COnMessage a h)); [apply Ho|]. cbn [cstep]. unfold no_answer. intros cs cs' x H.
      destruct (comm_on_message a h cs); cbn in H; [congruence | discriminate..].
    - apply (keeps_with _ (COnClose a h)); [apply Ho|]. cbn [cstep]. unfold no_answer. intros cs cs' x H.
      destruct (comm_on_close a h cs); cbn in H; [congruence | discriminate..].
  Qed.
  Lemma keeps_user0 {A} (t : ucode0 U A) : always (comm_ops Q) t -> keeps R (embed0 E t).
  Proof. apply keeps_embed0; [exact comm_run_refl | exact comm_run_trans | exact keeps_api0]. Qed.
  Lemma keeps_input_reply v : keeps R (input_reply E v).
  Proof.
    unfold input_reply, emit. kp. destruct a as [[|n]|]; kp; [destruct a; kp|]. apply keeps_user0. apply (ua_input _ _ _ HC).
  Qed.
  Hint Resolve keeps_input_reply : kc.
  Lemma keeps_stdin w : keeps R (dispatch_stdin E w).
  Proof. unfold dispatch_stdin, log. kp. Qed.
  Hint Resolve keeps_stdin : kc.
  Lemma keeps_input_request p pwd : keeps R (input_request E p pwd).
  Proof. unfold input_request, send_stdin, new_header, new_guid, now, log, emit. kp. Qed.
  Hint Resolve keeps_input_request : kc.
  Lemma keeps_api1 o : comm_ops1 Q o -> keeps R (api1 E o).
  Proof.
    destruct o; cbn [comm_ops1 api1]; intros Ho; [now apply keeps_api0 | apply keeps_input_request|].
    unfold blocking_input_request. kp. destruct a1; kp.
  Qed.
  Lemma keeps_user {A} (t : ucode U A) : always (comm_ops1 Q) t -> keeps R (embed E t).
  Proof. apply keeps_embed; [exact comm_run_refl | exact comm_run_trans | exact keeps_api1]. Qed.
  Lemma keeps_interp r : keeps R (interp E r).
  Proof. unfold interp, emit. kp. apply keeps_user, HC. Qed.
  Hint Resolve keeps_interp : kc.
  Lemma keeps_send_to_shell j : keeps R (send_to_shell E j).
  Proof.
    unfold send_to_shell. kp. destruct (e_split E).
    - intros s. rewrite run_kdo. cbn [kstep]. destruct (k_replies s); apply comm_run_same; reflexivity.
    - unfold dispatch_internal. kp.
  Qed.
  Lemma keeps_debugger {A} (t : ucode2 U A) : always (up2 (comm_ops1 Q)) t -> keeps R (embed2 E t).
  Proof.
    apply keeps_embed2; [exact comm_run_refl | exact comm_run_trans |]. intros [o|j]; cbn [up2 api2]; [apply keeps_api1 | intros _; apply keeps_send_to_shell].
  Qed.
  Lemma keeps_abort n : keeps R (abort_loop E n).
  Proof.
    induction n as [|n IH]; cbn [abort_loop]; kp.
    { intros s. rewrite run_kdo. cbn [kstep]. destruct (k_shell s); apply comm_run_same; reflexivity. }
    destruct a as [w|]; kp; auto. unfold abort_request. kp. destruct a as [m|]; kp.
  Qed.
  Hint Resolve keeps_abort : kc.
  Lemma keeps_callback cb a m : keeps R (run_callback E cb a m).
  Proof. unfold run_callback, emit. destruct cb; kp. apply keeps_user, HC. Qed.
  Hint Resolve keeps_callback : kc.
  Lemma keeps_handler h m : keeps R (run_handler E h m).
  Proof. unfold run_handler, emit. destruct h; kp. apply keeps_user, HC. Qed.
  Hint Resolve keeps_handler : kc.
  Lemma keeps_destroy a : keeps R (with_comms (no_answer (comm_destroy (e_indet E) a))).
  Proof.
    apply (keeps_with _ (CDestroy a)); [apply QD|]. cbn [cstep]. unfold no_answer. intros cs cs' x H.
    destruct (comm_destroy _ a cs); cbn in H; [congruence | discriminate..].
  Qed.
  Hint Resolve keeps_destroy : kc.

  Lemma keeps_handlers ty h m c : mfind ty (handlers E) = Some h -> keeps R (h m c).
  Proof.
    intros H. apply mfind_in in H. cbn [handlers] in H.
    repeat (destruct H as [[= _ <-]|H]; [|]); [..|destruct H].
    - unfold execute_request. cbv zeta. kp.
      + unfold get_metadata, now. kp.
      + unfold interp_execute. kp. destruct a0; kp. destruct (Z.eqb _ _); kp. unfold publish_execution_input. kp.
      + destruct (_ && _); kp.
      + destruct (_ && _); kp. unfold abort_queue. kp.
    - unfold complete_request. cbv zeta. kp.
    - unfold inspect_request. cbv zeta. kp.
    - unfold history_request. cbv zeta. kp.
    - unfold is_complete_request. cbv zeta. kp.
    - unfold comm_info_request. cbv zeta. kp.
    - unfold comm_open. cbv zeta. kp. destruct a0 as [[p t]|]; kp.
      + eapply (keeps_with _ (CNew _ _)); [apply QN|]. cbn [cstep]. intros cs cs' x H. now rewrite H.
      + destruct a2; kp.
    - unfold comm_close. kp. destruct a0; kp.
      eapply (keeps_with _ (CErase _)); [apply QE|]. cbn [cstep]. unfold no_answer. cbn. intros cs cs' x H. now injection H as <- <-.
    - unfold comm_msg. kp. destruct a0; kp.
    - unfold kernel_info_request. kp.
    - unfold shutdown_request, emit. cbv zeta. kp.
    - unfold interrupt_request. kp.
    - unfold debug_request, emit. pose proof (ua_debugger _ _ _ HC) as Hd. destruct (e_debugger E) as [d|]; cbv zeta; kp.
      + apply keeps_debugger, Hd.
      + unfold get_metadata, now. kp.
  Qed.
  Lemma keeps_dispatch w c : keeps R (dispatch E w c).
  Proof.
    unfold dispatch. kp. destruct a as [m|]; [|kp]. cbv zeta. unfold set_parent, publish_status.
    kp.
    unfold handle. destruct (mfind a2 (handlers E)) as [h|] eqn:Hf; kp. eapply keeps_handlers; eauto.
  Qed.
  Lemma keeps_internal w : keeps R (dispatch_internal E w).
  Proof. unfold dispatch_internal. kp. Qed.
  Lemma keeps_start : keeps R (kernel_start E).
  Proof. unfold kernel_start, build_start_msg, new_header, new_guid, now, emit. kp. apply keeps_user, HC. Qed.

  Lemma serves_comms msgs s s' : serves E msgs s s' -> comm_run s s'.
  Proof. induction 1; [apply comm_run_refl | eapply comm_run_trans; [apply keeps_dispatch | eauto]]. Qed.
End Comms.

(** ** Comm messages from the frontend *)
(** The content names this comm (identifiers of more than 55 bytes are left open, see Comm.v). *)
Definition names_comm (content : json) (id : string) : Prop :=
  exists mm, content = JObj mm /\ mfind "comm_id" mm = Some (JStr id) /\ slen id <= 55.
(** The message of the exception for an unknown comm fits into an identifier, or the library can make a
    longer one or throws. *)
Definition reported {U} (E : env U) (id : string) : Prop :=
  let what := "No such comm registered: " +++ id in
  slen what <= 55 \/ (exists x, e_long_id E what = Ok x) \/ (exists x, e_long_id E what = Exn (Std x)).
Definition names_target (content : json) (name : string) : Prop :=
  exists mm, content = JObj mm /\ mfind "target_name" mm = Some (JStr name).

Section CommMessages.
  Context {U : Type} (E : env U) (raw : string -> Prop).
  Implicit Types (s : kstate U).
  Context (Hq : quiet E) (Hu : env_utf8 E) (HU : user_publishes E raw).

  Lemma names_comm_id content id : names_comm content id -> (let* j := jget "comm_id" content in to_xguid (e_long_id E) j) = Ok id.
  Proof. intros (mm & -> & Hf & Hl). cbn [jget bind]. rewrite Hf. unfold to_xguid, fixed, xguid_size. cbn [bind get_string]. now rewrite (leb_correct _ _ Hl). Qed.
  Lemma names_target_name content n : names_target content n -> (let* j := jget "target_name" content in get_string j) = Ok n.
  Proof. intros (mm & -> & Hf). cbn [jget bind]. now rewrite Hf. Qed.

  (** The output of user code run on behalf of a message and how the handling ended. *)
  Lemma user_frame {A} (t : ucode U A) s s1 r : always (op_allowed raw) t -> run (embed E t) s = (s1, r) -> uframe E raw s s1.
  Proof. intros Ha Hr. pose proof (frame_embed E raw (ua_input _ _ _ HU) t Ha s) as X. now rewrite Hr in X. Qed.

  (** [x] is how user code ended; how the dispatch then ends. *)
  Definition user_end (c : channel) (h : json) (x : res unit) (r : res unit) (tail : list event) : Prop :=
    match x with
    | Ok _ | Exn (Std _) => r = Ok tt /\ exists idle, tail = [idle] /\ status_event E "idle" c h idle
    | _ => r = x /\ tail = []
    end.

  (** comm_msg for a registered comm with a handler. *)
  Lemma comm_msg_handled w c m id a o n s :
    accepted E w m -> typed (m_header (m_base m)) "comm_msg" -> names_comm (m_content (m_base m)) id ->
    mfind id (registry (k_comms s)) = Some a -> heap (k_comms s) a = Some o -> c_message o = Some n ->
    let h := m_header (m_base m) in
    exists s0 s1 x s' r busy out tail, run (dispatch E w c) s = (s', r) /\
      k_trace s' = (k_trace s ++ busy :: EHandler n m :: out ++ tail)%list /\
      status_event E "busy" c h busy /\ Forall (user_output raw) out /\ user_end c h x r tail /\
      k_comms s0 = k_comms s /\ run (embed E (e_handler E n m)) s0 = (s1, x) /\ k_comms s' = k_comms s1.
  Proof.
    intros Ha Hty Hid Hreg Ho Hn h.
    destruct (dispatch_skeleton E Hq Hu w c m _ (comm_msg E) s Ha Hty eq_refl) as (s0 & busy & [B1 B2 B3 B4 B5 B6 B7 B8 _ _ _ _] & HD).
    set (s0' := add_event (EHandler n m) s0). destruct (run (embed E (e_handler E n m)) s0') as [s1 x] eqn:Hx.
    destruct (user_frame _ _ _ _ (ua_handler _ _ _ HU n m) Hx) as [F1 F2 F3 F4 F5 (out & T & _ & O)].
    assert (HR : run (comm_msg E m c) s0 = (s1, x)).
    { unfold comm_msg. rewrite run_bind, run_res, (names_comm_id _ _ Hid). unfold look_comms. rewrite run_bind, run_bind, run_kdo. cbn [kstep fst snd]. rewrite run_res.
      rewrite B7, Hreg. rewrite run_bind, run_bind, run_kdo. cbn [kstep fst snd]. rewrite run_res. unfold deref. rewrite B7, Ho.
      unfold run_handler. rewrite Hn, run_bind, run_emit. exact Hx. }
    specialize (HD _ _ HR). rewrite F2 in HD. specialize (HD eq_refl).
    assert (Tr : k_trace s1 = (k_trace s ++ busy :: EHandler n m :: out)%list).
    { rewrite T. unfold s0'. cbn. rewrite B2, <- !app_assoc. reflexivity. }
    apply user_events_output in O.
    exists s0', s1, x. destruct x as [[]|[e|e]|u].
    - destruct HD as (s' & idle & Hr & [L1 L2 L3 L4 L5 L6 L7 L8 _ _ _ _]). exists s', (Ok tt), busy, out, [idle]. split; auto. split; [rewrite L2, Tr, <- app_assoc; reflexivity|].
      split; auto. split; auto. split; [cbn; eauto|]. auto.
    - destruct HD as (s' & idle & Hr & [L1 L2 L3 L4 L5 L6 L7 L8 _ _ _ _]). exists s', (Ok tt), busy, out, [idle]. split; auto. split; [rewrite L2, Tr, <- app_assoc; reflexivity|].
      split; auto. split; auto. split; [cbn; eauto|]. auto.
    - exists s1, (Exn (Foreign e)), busy, out, []. split; auto. split; [rewrite app_nil_r; auto|]. split; auto. split; auto. split; [cbn; auto|]. auto.
    - exists s1, (UB u), busy, out, []. split; auto. split; [rewrite app_nil_r; auto|]. split; auto. split; auto. split; [cbn; auto|]. auto.
  Qed.

  (** The message has no effect but the two status messages. *)
  Definition ignored (w : frames) (c : channel) (m : xmessage) s : Prop :=
    exists s' busy idle, run (dispatch E w c) s = (s', Ok tt) /\ k_trace s' = (k_trace s ++ [busy; idle])%list /\
      status_event E "busy" c (m_header (m_base m)) busy /\ status_event E "idle" c (m_header (m_base m)) idle /\
      k_comms s' = k_comms s /\ k_user s' = k_user s.
  Lemma ignored_by w c m ty h s : accepted E w m -> typed (m_header (m_base m)) ty -> mfind ty (handlers E) = Some h ->
    (forall s0, k_comms s0 = k_comms s -> run (h m c) s0 = (s0, Ok tt) \/ exists e, run (h m c) s0 = (s0, Exn (Std e))) -> ignored w c m s.
  Proof.
    intros Ha Hty Hf Hh. destruct (dispatch_skeleton E Hq Hu w c m ty h s Ha Hty Hf) as (s0 & busy & [B1 B2 B3 B4 B5 B6 B7 B8 B9 _ _ _] & HD).
    destruct (Hh s0 B7) as [Hr|[e Hr]]; specialize (HD _ _ Hr eq_refl); cbn beta iota in HD; destruct HD as (s' & idle & Hrun & [L1 L2 L3 L4 L5 L6 L7 L8 L9 _ _ _]);
      exists s', busy, idle; (split; [exact Hrun|]); (split; [rewrite L2, B2, <- app_assoc; reflexivity|]); repeat (split; [congruence || assumption|]); congruence.
  Qed.
  Lemma comm_msg_unknown w c m id s : reported E id ->
    accepted E w m -> typed (m_header (m_base m)) "comm_msg" \/ typed (m_header (m_base m)) "comm_close" -> names_comm (m_content (m_base m)) id ->
    mfind id (registry (k_comms s)) = None -> ignored w c m s.
  Proof.
    intros R Ha Hty Hid Hreg. assert (X : exists e, no_such_comm E id = Exn (Std e)).
    { unfold no_such_comm, fixed, xguid_size. destruct R as [R|[[x R]|[x R]]].
      - rewrite (leb_correct _ _ R). cbn. eauto.
      - rewrite R. destruct (Nat.leb _ _); cbn; eauto.
      - rewrite R. destruct (Nat.leb _ _); cbn; eauto. }
    destruct X as [e X]. destruct Hty as [Hty|Hty]; (eapply ignored_by; [exact Ha | exact Hty | reflexivity|]); intros s0 H0; right; exists e;
      unfold comm_msg, comm_close; rewrite run_bind, run_res, (names_comm_id _ _ Hid); unfold look_comms; rewrite run_bind, run_bind, run_kdo; cbn [kstep fst snd]; rewrite run_res, H0, Hreg, run_res, X; reflexivity.
  Qed.
  Lemma comm_msg_no_handler w c m id a o s :
    accepted E w m -> typed (m_header (m_base m)) "comm_msg" -> names_comm (m_content (m_base m)) id ->
    mfind id (registry (k_comms s)) = Some a -> heap (k_comms s) a = Some o -> c_message o = None -> ignored w c m s.
  Proof.
    intros Ha Hty Hid Hreg Ho Hn. (eapply ignored_by; [exact Ha | exact Hty | reflexivity|]). intros s0 H0. left.
    unfold comm_msg. rewrite run_bind, run_res, (names_comm_id _ _ Hid). unfold look_comms. rewrite run_bind, run_bind, run_kdo. cbn [kstep fst snd]. rewrite run_res, H0, Hreg.
    rewrite run_bind, run_bind, run_kdo. cbn [kstep fst snd]. rewrite run_res. unfold deref. rewrite H0, Ho. unfold run_handler. now rewrite Hn.
  Qed.
  Lemma comm_open_unknown w c m name s :
    accepted E w m -> typed (m_header (m_base m)) "comm_open" -> names_target (m_content (m_base m)) name ->
    mfind name (targets (k_comms s)) = None -> ignored w c m s.
  Proof.
    intros Ha Hty Hid Hreg. (eapply ignored_by; [exact Ha | exact Hty | reflexivity|]). intros s0 H0. right. exists "No such comm target registered".
    unfold comm_open. cbv zeta. rewrite run_bind, run_res, (names_target_name _ _ Hid). unfold look_comms. rewrite run_bind, run_bind, run_kdo. cbn [kstep fst snd]. rewrite run_res, H0, Hreg. reflexivity.
  Qed.

  (** comm_close for a registered comm: [handler_run] says what the close handler did. *)
  Definition handler_run (h : option nat) (m : xmessage) (evs : list event) s s1 (x : res unit) : Prop :=
    match h with
    | None => evs = [] /\ s1 = s /\ x = Ok tt
    | Some n => exists out, evs = EHandler n m :: out /\ Forall (user_output raw) out /\
                  run (embed E (e_handler E n m)) (add_event (EHandler n m) s) = (s1, x)
    end.
  Lemma run_handler_run h m s : exists evs s1 x, run (run_handler E h m) s = (s1, x) /\ handler_run h m evs s s1 x /\
    k_trace s1 = (k_trace s ++ evs)%list /\ k_phdr s1 = k_phdr s.
  Proof.
    destruct h as [n|]; unfold run_handler.
    - destruct (run (embed E (e_handler E n m)) (add_event (EHandler n m) s)) as [s1 x] eqn:Hx.
      destruct (user_frame _ _ _ _ (ua_handler _ _ _ HU n m) Hx) as [F1 F2 F3 F4 F5 (out & T & _ & O)].
      exists (EHandler n m :: out), s1, x. rewrite run_bind, run_emit. split; auto. split; [exists out; split; auto; split; auto; eapply user_events_output; eauto|].
      split; auto. rewrite T. cbn. now rewrite <- app_assoc.
    - exists [], s, (Ok tt). split; auto. split; [cbn; auto|]. rewrite app_nil_r. auto.
  Qed.
  Lemma comm_close_handled w c m id a o s :
    accepted E w m -> typed (m_header (m_base m)) "comm_close" -> names_comm (m_content (m_base m)) id ->
    mfind id (registry (k_comms s)) = Some a -> heap (k_comms s) a = Some o ->
    let h := m_header (m_base m) in
    exists s0 s1 x s' r busy evs tail, run (dispatch E w c) s = (s', r) /\
      k_trace s' = (k_trace s ++ busy :: evs ++ tail)%list /\
      status_event E "busy" c h busy /\ user_end c h x r tail /\
      k_comms s0 = k_comms s /\ handler_run (c_close o) m evs s0 s1 x /\
      k_comms s' = (if is_ok x then set_registry (mdel id (registry (k_comms s1))) (k_comms s1) else k_comms s1).
  Proof.
    intros Ha Hty Hid Hreg Ho h.
    destruct (dispatch_skeleton E Hq Hu w c m _ (comm_close E) s Ha Hty eq_refl) as (s0 & busy & [B1 B2 B3 B4 B5 B6 B7 B8 _ _ _ _] & HD).
    destruct (run_handler_run (c_close o) m s0) as (evs & s1 & x & Hx & HH & T & Hph).
    set (s2 := if is_ok x then set_comms (set_registry (mdel id (registry (k_comms s1))) (k_comms s1)) s1 else s1).
    assert (HR : run (comm_close E m c) s0 = (s2, x)).
    { unfold comm_close. rewrite run_bind, run_res, (names_comm_id _ _ Hid). unfold look_comms. rewrite run_bind, run_bind, run_kdo. cbn [kstep fst snd]. rewrite run_res.
      rewrite B7, Hreg. rewrite run_bind, run_bind, run_kdo. cbn [kstep fst snd]. rewrite run_res. unfold deref. rewrite B7, Ho.
      rewrite run_bind, Hx. unfold s2. destruct x as [[]|e|u]; reflexivity. }
    assert (S2 : k_trace s2 = k_trace s1 /\ k_phdr s2 = k_phdr s1 /\
       k_comms s2 = (if is_ok x then set_registry (mdel id (registry (k_comms s1))) (k_comms s1) else k_comms s1)) by (unfold s2; destruct (is_ok x); auto).
    destruct S2 as (S2t & S2p & S2c). specialize (HD _ _ HR). rewrite S2p, Hph in HD. specialize (HD eq_refl).
    assert (Tr : k_trace s2 = (k_trace s ++ busy :: evs)%list) by (rewrite S2t, T, B2, <- app_assoc; reflexivity).
    exists s0, s1, x. destruct x as [[]|[e|e]|u].
    - destruct HD as (s' & idle & Hr & [L1 L2 L3 L4 L5 L6 L7 L8 _ _ _ _]). exists s', (Ok tt), busy, evs, [idle]. split; auto. split; [rewrite L2, Tr, <- app_assoc; reflexivity|].
      split; auto. split; [cbn; eauto|]. repeat (split; auto); congruence.
    - destruct HD as (s' & idle & Hr & [L1 L2 L3 L4 L5 L6 L7 L8 _ _ _ _]). exists s', (Ok tt), busy, evs, [idle]. split; auto. split; [rewrite L2, Tr, <- app_assoc; reflexivity|].
      split; auto. split; [cbn; eauto|]. repeat (split; auto); congruence.
    - exists s2, (Exn (Foreign e)), busy, evs, []. split; auto. split; [rewrite app_nil_r; auto|]. split; auto. split; [cbn; auto|]. auto.
    - exists s2, (UB u), busy, evs, []. split; auto. split; [rewrite app_nil_r; auto|]. split; auto. split; [cbn; auto|]. auto.
  Qed.

  (** comm_open for a registered target with a callback. [cb_state] is the state in which the
      callback starts: the new comm is registered under the given identifier at a fresh address. *)
  Definition fresh_comm (p : nat) (id : string) : comm := {| c_close := None; c_message := None; c_target := p; c_id := id; c_moved := Indet |}.
  Definition callback_comms (p : nat) (id : string) (cs cs0 : comms) (a : nat) : Prop :=
    a = next_addr cs /\ heap cs0 a = Some (fresh_comm p id) /\ (forall b, b <> a -> heap cs0 b = heap cs b) /\
    mfind id (registry cs0) = Some a /\ (forall i, i <> id -> mfind i (registry cs0) = mfind i (registry cs)) /\ targets cs0 = targets cs /\ (msorted (registry cs) = true -> msorted (registry cs0) = true).
  Lemma comm_open_handled w c m name id p t cb s :
    accepted E w m -> typed (m_header (m_base m)) "comm_open" -> names_target (m_content (m_base m)) name -> names_comm (m_content (m_base m)) id ->
    mfind name (targets (k_comms s)) = Some (p, t) -> NoDup (List.map (fun e => fst (snd e)) (targets (k_comms s))) ->
    t_manager t = true -> t_callback t = Some cb ->
    let h := m_header (m_base m) in
    exists s0 s1 x busy out a,
      status_event E "busy" c h busy /\ callback_comms p id (k_comms s) (k_comms s0) a /\
      run (embed E (e_callback E cb a m)) s0 = (s1, x) /\ Forall (user_output raw) out /\
      k_trace s1 = (k_trace s ++ busy :: ECallback cb a m :: out)%list /\
      (* the end of the comm object: its destructor *)
      ((exists e, x = Exn e) \/ x = Ok tt -> forall cs2, comm_destroy (e_indet E) a (k_comms s1) = Ok cs2 ->
         exists s' r tail, run (dispatch E w c) s = (s', r) /\ user_end c h x r tail /\ k_trace s' = (k_trace s1 ++ tail)%list /\ k_comms s' = cs2).
  Proof.
    intros Ha Hty Hnm Hid Hreg Hnd Hm Hcb h.
    destruct (dispatch_skeleton E Hq Hu w c m _ (comm_open E) s Ha Hty eq_refl) as (s0 & busy & [B1 B2 B3 B4 B5 B6 B7 B8 _ _ _ _] & HD).
    set (a := next_addr (k_comms s)). set (cs0 := set_registry (mset id a (registry (k_comms s))) (alloc (fresh_comm p id) (k_comms s))).
    assert (Hnew : comm_new p id (k_comms s) = Ok (cs0, a)).
    { unfold comm_new, register_comm, deref_target. change (targets (alloc _ _)) with (targets (k_comms s)). rewrite (in_node_of _ _ _ _ Hnd (mfind_in _ _ _ Hreg)). cbn [bind]. rewrite Hm. reflexivity. }
    set (s0' := add_event (ECallback cb a m) (set_comms cs0 s0)). destruct (run (embed E (e_callback E cb a m)) s0') as [s1 x] eqn:Hx.
    destruct (user_frame _ _ _ _ (ua_callback _ _ _ HU cb a m) Hx) as [F1 F2 F3 F4 F5 (out & T & _ & O)].
    exists s0', s1, x, busy, out, a. split; auto. split.
    { unfold callback_comms, s0', cs0. cbn. split; auto. rewrite Nat.eqb_refl. split; auto. split; [intros b Hb; neqb; [contradiction | auto]|].
      split; [apply mfind_mset_same|]. split; [intros i Hi; now apply mfind_mset_other|]. split; auto. apply mset_sorted. }
    split; auto. split; [eapply user_events_output; eauto|]. split; [rewrite T; unfold s0'; cbn; rewrite B2, <- !app_assoc; reflexivity|].
    intros Hxx cs2 Hdes.
    assert (HR : run (comm_open E m c) s0 = (set_comms cs2 s1, match x with Ok _ => Ok tt | _ => x end)).
    { unfold comm_open. cbv zeta. rewrite run_bind, run_res, (names_target_name _ _ Hnm). unfold look_comms. rewrite run_bind, run_bind, run_kdo. cbn [kstep fst snd]. rewrite run_res, B7, Hreg.
      rewrite run_bind, run_res, (names_comm_id _ _ Hid). unfold with_comms. rewrite run_bind, run_bind, run_kdo. cbn [kstep fst snd]. rewrite run_bind, run_res, B7, Hnew.
      rewrite run_bind, run_kdo. cbn [kstep fst snd]. rewrite run_ret. rewrite run_bind, run_attempt. unfold run_callback. rewrite Hcb, run_bind, run_emit. fold s0'. rewrite Hx.
      destruct Hxx as [[e ->]| ->]; cbn beta iota; rewrite run_bind, run_bind, run_kdo; cbn [kstep fst snd]; rewrite run_bind, run_res; unfold no_answer; rewrite Hdes; cbn [bind];
        rewrite run_bind, run_kdo; reflexivity. }
    specialize (HD _ _ HR). change (k_phdr (set_comms cs2 s1)) with (k_phdr s1) in HD. rewrite F2 in HD. specialize (HD eq_refl).
    destruct Hxx as [[[e|e] ->]| ->]; cbn beta iota in HD.
    - destruct HD as (s' & idle & Hr & [L1 L2 L3 L4 L5 L6 L7 L8 _ _ _ _]). exists s', (Ok tt), [idle]. split; auto. split; [cbn; eauto|]. split; auto.
    - exists (set_comms cs2 s1), (Exn (Foreign e)), []. split; auto. split; [cbn; auto|]. rewrite app_nil_r. split; reflexivity.
    - destruct HD as (s' & idle & Hr & [L1 L2 L3 L4 L5 L6 L7 L8 _ _ _ _]). exists s', (Ok tt), [idle]. split; auto. split; [cbn; eauto|]. split; auto.
  Qed.

  (** The destructor of the comm made for comm_open. *)
  Lemma destroy_kept pol a cs o : heap cs a = Some o -> c_moved o = Init true ->
    exists cs', comm_destroy pol a cs = Ok cs' /\ heap cs' a = None /\ (forall b, b <> a -> heap cs' b = heap cs b) /\ registry cs' = registry cs.
  Proof.
    intros Ho Hm. unfold comm_destroy, deref. rewrite Ho. cbn [bind]. rewrite Hm. cbn [read_flag bind]. eexists. split; [reflexivity|]. cbn. rewrite Nat.eqb_refl.
    split; auto. split; auto. intros b Hb. neqb; [contradiction | auto].
  Qed.
  Lemma destroy_not_kept pol a cs o t : lucky pol -> heap cs a = Some o -> c_moved o <> Init true -> deref_target (c_target o) cs = Ok t -> t_manager t = true ->
    msorted (registry cs) = true ->
    exists cs', comm_destroy pol a cs = Ok cs' /\ heap cs' a = None /\ (forall b, b <> a -> heap cs' b = heap cs b) /\
      mfind (c_id o) (registry cs') = None /\ (forall i, i <> c_id o -> mfind i (registry cs') = mfind i (registry cs)).
  Proof.
    intros Hl Ho Hm Ht Hmg Hs. unfold comm_destroy, deref. rewrite Ho. cbn [bind].
    assert (Hr : read_flag pol a (c_moved o) = Ok false) by (destruct (c_moved o) as [[]|]; [contradiction|reflexivity|apply Hl]).
    rewrite Hr. cbn [bind]. unfold unregister_comm. rewrite Ht. cbn [bind]. rewrite Hmg. cbn [bind]. eexists. split; [reflexivity|]. cbn. rewrite Nat.eqb_refl.
    split; auto. split; [intros b Hb; neqb; [contradiction | auto]|]. split.
    - now rewrite (mfind_mdel _ _ _ Hs), String.eqb_refl.
    - intros i Hi. rewrite (mfind_mdel _ _ _ Hs). apply String.eqb_neq in Hi. now rewrite Hi.
  Qed.

  (** Any user code keeps the registry sorted. *)
  Lemma user_sorted {A} (t : ucode U A) s s1 r : run (embed E t) s = (s1, r) -> msorted (registry (k_comms s)) = true -> msorted (registry (k_comms s1)) = true.
  Proof.
    intros Hr Hs.
    assert (HC : user_comms E (fun _ => True)).
    { constructor; intros; try destruct (e_debugger E); try exact I; intros; apply always_all; intros []; cbn; auto; repeat match goal with o : uop1 _ |- _ => destruct o; cbn; auto | o : uop0 _ |- _ => destruct o; cbn; auto end. }
    assert (X : keeps (comm_run E (fun _ => True)) (embed E t)).
    { apply keeps_user; auto. apply always_all. intros [o| |]; cbn; auto. destruct o; cbn; auto. }
    destruct (X s) as [ops Ho]. rewrite Hr in Ho. eapply sorted_steps; eauto.
  Qed.

  (** comm_open, up to the end of the comm object. *)
  Lemma comm_open_end w c m name id p t cb s :
    accepted E w m -> typed (m_header (m_base m)) "comm_open" -> names_target (m_content (m_base m)) name -> names_comm (m_content (m_base m)) id ->
    mfind name (targets (k_comms s)) = Some (p, t) -> NoDup (List.map (fun e => fst (snd e)) (targets (k_comms s))) ->
    t_manager t = true -> t_callback t = Some cb -> lucky (e_indet E) -> msorted (registry (k_comms s)) = true ->
    let h := m_header (m_base m) in
    exists s0 s1 x busy out a,
      status_event E "busy" c h busy /\ callback_comms p id (k_comms s) (k_comms s0) a /\
      run (embed E (e_callback E cb a m)) s0 = (s1, x) /\ Forall (user_output raw) out /\
      k_trace s1 = (k_trace s ++ busy :: ECallback cb a m :: out)%list /\
      ((exists e, x = Exn (Std e)) \/ x = Ok tt -> forall o, heap (k_comms s1) a = Some o ->
         (c_moved o = Init true \/ exists t', deref_target (c_target o) (k_comms s1) = Ok t' /\ t_manager t' = true) ->
         exists s' idle, run (dispatch E w c) s = (s', Ok tt) /\ k_trace s' = (k_trace s1 ++ [idle])%list /\ status_event E "idle" c h idle /\
           heap (k_comms s') a = None /\ (forall b, b <> a -> heap (k_comms s') b = heap (k_comms s1) b) /\
           (c_moved o = Init true -> registry (k_comms s') = registry (k_comms s1)) /\
           (c_moved o <> Init true -> mfind (c_id o) (registry (k_comms s')) = None /\
              forall i, i <> c_id o -> mfind i (registry (k_comms s')) = mfind i (registry (k_comms s1)))).
  Proof.
    intros Ha Hty Hnm Hid Hreg Hnd Hm Hcb Hl Hso h.
    destruct (comm_open_handled w c m name id p t cb s Ha Hty Hnm Hid Hreg Hnd Hm Hcb) as (s0 & s1 & x & busy & out & a & B & C & R & O & T & End).
    exists s0, s1, x, busy, out, a. repeat (split; [assumption|]). intros Hx o Ho Hmv.
    assert (Hs0 : msorted (registry (k_comms s1)) = true -> exists s' idle, run (dispatch E w c) s = (s', Ok tt) /\ k_trace s' = (k_trace s1 ++ [idle])%list /\ status_event E "idle" c h idle /\
           heap (k_comms s') a = None /\ (forall b, b <> a -> heap (k_comms s') b = heap (k_comms s1) b) /\
           (c_moved o = Init true -> registry (k_comms s') = registry (k_comms s1)) /\
           (c_moved o <> Init true -> mfind (c_id o) (registry (k_comms s')) = None /\
              forall i, i <> c_id o -> mfind i (registry (k_comms s')) = mfind i (registry (k_comms s1)))).
    { intros Hs1.
      assert (Hfl : c_moved o = Init true \/ c_moved o <> Init true) by (destruct (c_moved o) as [[]|]; auto; right; discriminate).
      assert (Hx' : (exists e, x = Exn e) \/ x = Ok tt) by (destruct Hx as [[e ->]|]; eauto).
      assert (Hfin : forall r tail, user_end c h x r tail -> r = Ok tt /\ exists idle, tail = [idle] /\ status_event E "idle" c h idle).
      { intros r tail. destruct Hx as [[e ->]| ->]; cbn; auto. }
      destruct Hfl as [Hf|Hf].
      - destruct (destroy_kept (e_indet E) a _ o Ho Hf) as (cs2 & D1 & D2 & D3 & D4). destruct (End Hx' cs2 D1) as (s' & r & tail & Hr & He & Ht & Hc).
        destruct (Hfin _ _ He) as (-> & idle & -> & Hi). exists s', idle. rewrite Hc. repeat (split; auto); contradiction.
      - destruct Hmv as [?|(t' & Ht' & Hm')]; [contradiction|].
        destruct (destroy_not_kept (e_indet E) a _ o t' Hl Ho Hf Ht' Hm' Hs1) as (cs2 & D1 & D2 & D3 & D4 & D5). destruct (End Hx' cs2 D1) as (s' & r & tail & Hr & He & Ht & Hc).
        destruct (Hfin _ _ He) as (-> & idle & -> & Hi). exists s', idle. rewrite Hc. repeat (split; auto); contradiction. }
    apply Hs0. eapply user_sorted; eauto. now apply C.
  Qed.

  (** ** Outgoing comm messages *)
  (** A message published for a comm. *)
  Definition comm_event (ty : string) (parent metadata content : json) (buffers : list string) (e : event) : Prop :=
    exists m f id, e = EPublish SHELL m f /\ header_with (m_header (m_pbase m)) id ty (e_user_name E) (e_session_id E) /\
      m_topic m = "kernel_core." +++ e_kernel_id E +++ "." +++ ty /\ m_parent_header (m_pbase m) = parent /\
      m_metadata (m_pbase m) = metadata /\ m_content (m_pbase m) = content /\ m_buffers (m_pbase m) = buffers /\
      pub_serialize (e_crypto E) (e_auth E) (e_eh E) m = Ok f.
  (** It is published once, or the call throws the library's error for text that is not UTF-8 and
      nothing is published. *)
  Definition published_once {A} (p : kprog U A) ty metadata content buffers s : Prop :=
    exists s' r, run p s = (s', r) /\ k_comms s' = k_comms s /\ k_user s' = k_user s /\ k_phdr s' = k_phdr s /\
      ((is_ok r = true /\ exists e, k_trace s' = (k_trace s ++ [e])%list /\ comm_event ty (k_phdr s SHELL) metadata content buffers e) \/
       (r = Exn type_error_316 /\ k_trace s' = k_trace s /\ ~ (utf8_text ty /\ utf8_json (k_phdr s SHELL) /\ utf8_json metadata /\ utf8_json content))).
  Lemma target_publish_once p ty md ct b t s : deref_target p (k_comms s) = Ok t -> t_manager t = true ->
    published_once (target_publish E p ty md ct b) ty md ct b s.
  Proof.
    intros Ht Hm. unfold published_once, target_publish, look_comms. rewrite run_bind, run_bind, run_kdo. cbn [kstep fst snd]. rewrite run_res, Ht, Hm, run_publish. cbv zeta. rewrite Hq.
    destruct (pub_serialize_cases (e_crypto E) (e_auth E) (e_eh E) (pub_msg E s ty md ct b SHELL)) as [[f Hf]|Hf].
    - rewrite Hf. eexists _, _. split; [reflexivity|]. cbn. split; auto. split; auto. split; auto. left. split; auto. eexists. split; [reflexivity|].
      eexists _, f, _. split; [reflexivity|]. split; [apply header_with_make|]. cbn. auto 10.
    - rewrite Hf. eexists _, _. split; [reflexivity|]. cbn. split; auto. split; auto. split; auto. right. split; auto. split; auto. intros (V1 & V2 & V3 & V4).
      destruct (pub_serialize_valid (e_crypto E) (e_auth E) (e_eh E) (pub_msg E s ty md ct b SHELL)) as [f Hf']; [|congruence].
      unfold base_parts. cbn. destruct Hu as (U1 & U2 & U3 & U4). repeat apply Forall_cons; auto. unfold hdr. now apply utf8_header.
  Qed.
  Lemma outgoing_comm a c t md data b s : heap (k_comms s) a = Some c -> deref_target (c_target c) (k_comms s) = Ok t -> t_manager t = true ->
    published_once (comm_open_msg E a md data b) "comm_open" md (JObj [("comm_id", JStr (c_id c)); ("data", data); ("target_name", JStr (t_name t))]) b s /\
    published_once (comm_send_msg E a md data b) "comm_msg" md (JObj [("comm_id", JStr (c_id c)); ("data", data)]) b s /\
    published_once (comm_close_msg E a md data b) "comm_close" md (JObj [("comm_id", JStr (c_id c)); ("data", data)]) b s.
  Proof.
    intros Hc Ht Hm.
    assert (Hlook : forall A (f : comm -> kprog U A), run (tbind (look_comms (deref a)) f) s = run (f c) s).
    { intros A f. unfold look_comms. rewrite run_bind, run_bind, run_kdo. cbn [kstep fst snd]. rewrite run_res. unfold deref. now rewrite Hc. }
    assert (Hlook2 : forall A (f : target -> kprog U A), run (tbind (look_comms (deref_target (c_target c))) f) s = run (f t) s).
    { intros A f. unfold look_comms. rewrite run_bind, run_bind, run_kdo. cbn [kstep fst snd]. rewrite run_res. now rewrite Ht. }
    split; [|split].
    - unfold published_once, comm_open_msg. rewrite Hlook, Hlook2. now apply (target_publish_once (c_target c) "comm_open" md (comm_open_content c (t_name t) data) b t s).
    - unfold published_once, comm_send_msg. rewrite Hlook. now apply (target_publish_once (c_target c) "comm_msg" md (comm_content c data) b t s).
    - unfold published_once, comm_close_msg. rewrite Hlook. now apply (target_publish_once (c_target c) "comm_close" md (comm_content c data) b t s).
  Qed.
End CommMessages.
