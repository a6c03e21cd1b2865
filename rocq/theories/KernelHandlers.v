(** What each request handler does to the state, whatever the user code. *)
From Verif Require Import Base BaseFacts Json JsonText Utf8 Utf8Proofs JsonTextProofs Auth Message MessageProofs WireSpec History HistoryProofs Comm Tree Kernel KernelSpec KernelProofs KernelRun.


Section Handlers.
  Context {U : Type} (E : env U) (raw : string -> Prop).
  Implicit Types (s : kstate U).

  (** ** The part of a handler before its reply *)
  Record qframe s s' : Prop := {
    qf_pid : k_pid s' = k_pid s;
    qf_phdr : k_phdr s' = k_phdr s;
    qf_shell : k_shell s' = k_shell s;
    qf_hist : k_history s' = k_history s;
    qf_trace : exists evs, k_trace s' = (k_trace s ++ evs)%list /\
       numbered E (k_guid s) evs (k_guid s') /\ Forall (pre_event E raw (k_pid s SHELL) (k_phdr s)) evs
  }.
  Definition pframe s s' : Prop := qframe s s' /\ k_count s' = k_count s.

  Lemma qframe_refl s : qframe s s.
  Proof. constructor; auto. exists []. rewrite app_nil_r. repeat split; auto. constructor; lia. Qed.
  Lemma qframe_trans s1 s2 s3 : qframe s1 s2 -> qframe s2 s3 -> qframe s1 s3.
  Proof.
    intros [A1 A2 A3 A5 (e1 & T1 & N1 & F1)] [B1 B2 B3 B5 (e2 & T2 & N2 & F2)].
    constructor; try congruence. exists (e1 ++ e2)%list. rewrite T2, T1, app_assoc. split; auto.
    split; [eapply numbered_app; eauto|]. rewrite A1, A2 in F2. apply Forall_app; auto.
  Qed.
  Lemma pframe_refl s : pframe s s.
  Proof. split; auto using qframe_refl. Qed.
  Lemma pframe_trans s1 s2 s3 : pframe s1 s2 -> pframe s2 s3 -> pframe s1 s3.
  Proof. intros [A B] [C D]. split; [eapply qframe_trans; eauto | congruence]. Qed.
  Lemma pframe_silent s s' :
    k_pid s' = k_pid s -> k_phdr s' = k_phdr s -> k_shell s' = k_shell s -> k_count s' = k_count s ->
    k_history s' = k_history s -> k_trace s' = k_trace s -> k_guid s <= k_guid s' -> pframe s s'.
  Proof. intros. split; auto. constructor; auto. exists []. rewrite app_nil_r. repeat split; auto. now constructor. Qed.
  Lemma uframe_pframe s s' : uframe E raw s s' -> pframe s s'.
  Proof.
    intros [A1 A2 A3 A4 A5 (evs & T & N & F)]. split; auto. constructor; auto. exists evs. split; auto. split; auto.
    eapply Forall_impl; [|exact F]. intros e [Hw He]. split; auto. destruct e; try contradiction; auto.
    destruct He as (-> & -> & ty & Ht & Hin). split; auto. exists ty. split; auto.
  Qed.
  Lemma pframe_tick s : pframe s (tick s).
  Proof. apply pframe_silent; auto. cbn. lia. Qed.

  Definition mark (e : event) : Prop :=
    match e with EStop | EInterp _ | EDebug _ _ | ECallback _ _ _ | EHandler _ _ => True | _ => False end.
  Notation K := (keeps pframe).
  Lemma pbind {A B} (p : kprog U A) (f : A -> kprog U B) : K p -> (forall a, K (f a)) -> K (tbind p f).
  Proof. apply keeps_bind, pframe_trans. Qed.
  Lemma pret {A} (a : A) : K (Ret a).
  Proof. apply keeps_ret, pframe_refl. Qed.
  Lemma pres {A} (r : res A) : K (of_res r).
  Proof. apply keeps_res, pframe_refl. Qed.
  Lemma pthrow {A} e : K (Throw e : kprog U A).
  Proof. apply keeps_throw, pframe_refl. Qed.
  Lemma pstuck {A} w : K (Stuck w : kprog U A).
  Proof. apply keeps_stuck, pframe_refl. Qed.
  Lemma pattempt {A} (p : kprog U A) : K p -> K (attempt p).
  Proof. apply keeps_attempt. Qed.
  Ltac pquiet := match goal with |- keeps _ (kdo ?o) => refine (keeps_kdo pframe o _) end; intros ?; cbn [kstep fst];
      first [apply pframe_refl | apply pframe_silent; cbn; auto; fail].
  Lemma pmark e : mark e -> K (emit e).
  Proof.
    intros H. unfold emit. refine (keeps_kdo pframe (KEmit _) _). intros s. split; auto. constructor; auto.
    exists [e]. split; [reflexivity|].
    split; [apply numbered_mark; destruct e; try contradiction; reflexivity|].
    constructor; auto. split; destruct e; try contradiction; exact I.
  Qed.
  Lemma ppublish ty md ct bufs c : In ty kernel_types \/ raw ty -> c = SHELL \/ In ty control_types -> K (publish_message E ty md ct bufs c).
  Proof.
    intros Hty Hc s. rewrite run_publish. cbv zeta.
    destruct (e_logger E _); cbn [fst]; try apply pframe_tick.
    destruct (pub_serialize _ _ _ _) as [w| |] eqn:Hw; cbn [fst]; try apply pframe_tick.
    split; auto. constructor; auto. eexists [_]. split; [reflexivity|]. split; [apply numbered_one with ty; reflexivity|].
    constructor; auto. split; [exact Hw|]. split; auto. exists ty. split; auto.
  Qed.
  Context (HU : user_publishes E raw).
  Lemma puser {A} (t : ucode U A) : always (op_allowed raw) t -> K (embed E t).
  Proof. intros H s. apply uframe_pframe. apply frame_embed; auto. apply HU. Qed.
  Lemma pinterp r : K (interp E r).
  Proof. unfold interp. apply pbind; [now apply pmark|]. intros _. apply puser, HU. Qed.
  Lemma pinternal w : K (dispatch_internal E w).
  Proof.
    unfold dispatch_internal. apply pbind; [apply pres|]. intros f. apply pbind; [apply pres|]. intros j.
    apply pbind; [apply pinterp|]. intros rep. apply pbind; [apply pres|]. intros t. apply pret.
  Qed.
  Lemma pcall w : K (kdo (KCall w)).
  Proof.
    refine (keeps_kdo pframe (KCall w) _). intros s. cbn [kstep]. destruct (k_replies s); cbn [fst]; [apply pframe_refl|].
    apply pframe_silent; auto.
  Qed.
  Lemma psend j : K (send_to_shell E j).
  Proof.
    unfold send_to_shell. apply pbind; [apply pres|]. intros t. apply pbind; [destruct (e_split E); [apply pcall|apply pinternal]|].
    intros rep. apply pbind; [apply pres|]. intros f. apply pres.
  Qed.
  Lemma pdebugger {A} (t : ucode2 U A) : always (up2 (op_allowed raw)) t -> K (embed2 E t).
  Proof.
    intros H. refine (keeps_embed2 pframe pframe_refl pframe_trans E _ _ _ H). intros [o|j] Ho; cbn [api2 up2] in *; [|apply psend].
    intros s. apply uframe_pframe. apply (frame_api1 E raw (ua_input _ _ _ HU) o Ho).
  Qed.
  Lemma pnow : K (now E).
  Proof. intros s. apply uframe_pframe, frame_now. Qed.
  Lemma pmetadata : K (get_metadata E).
  Proof. unfold get_metadata. apply pbind; [apply pnow | intros; apply pret]. Qed.
  Lemma plook {A} (f : comms -> res A) : K (look_comms f).
  Proof. intros s. apply uframe_pframe, frame_look. Qed.
  Lemma pwith {A} (f : comms -> res (comms * A)) : K (with_comms f).
  Proof. intros s. apply uframe_pframe, frame_with. Qed.

  (** ** Replies *)
  (** The reply: sent on [c] with the identities and header recorded for [c]. *)
  Definition replied (c : channel) (rty : string) (md ct : json) s s' : Prop :=
    exists w, let r := reply_msg E s (k_pid s c) rty (k_phdr s c) md ct in
      serialize (e_crypto E) (e_auth E) (e_eh E) r = Ok w /\ s' = add_event (ESend c r w) (tick s).
  Lemma run_send_reply rty md ct c s :
    (exists s', run (send_reply E rty md ct c) s = (s', Ok tt) /\ replied c rty md ct s s') \/
    (exists x, run (send_reply E rty md ct c) s = (tick s, x) /\ is_ok x = false).
  Proof.
    rewrite run_reply, run_reply_to. cbv zeta.
    destruct (e_logger E _) as [| |]; [|right; eauto|right; eauto].
    destruct (serialize _ _ _ _) as [w|e|] eqn:Hw; [left|right; eauto|right; eauto].
    eexists. split; [reflexivity|]. exists w. split; auto.
  Qed.
  (** A handler that runs user code and then replies. *)
  Definition answered (c : channel) (rty : string) s s' : Prop :=
    pframe s s' \/ exists s1 md ct, pframe s s1 /\ replied c rty md ct s1 s'.
  Lemma answered_bind {A} (p : kprog U A) (f : A -> kprog U unit) c rty md ct s :
    K p -> (forall a, f a = send_reply E rty (md a) (ct a) c) -> answered c rty s (fst (run (tbind p f) s)).
  Proof.
    intros Hp Hf. rewrite run_bind. specialize (Hp s). destruct (run p s) as [s1 [a|e|w]]; cbn [fst] in *; try (left; exact Hp).
    rewrite Hf. destruct (run_send_reply rty (md a) (ct a) c s1) as [(s' & -> & Hr)|(x & -> & _)]; cbn [fst].
    - right. exists s1, (md a), (ct a). auto.
    - left. eapply pframe_trans; eauto using pframe_tick.
  Qed.
  Lemma answered_pre {A} (p : kprog U A) (f : A -> kprog U unit) c rty s :
    K p -> (forall a s, answered c rty s (fst (run (f a) s))) -> answered c rty s (fst (run (tbind p f) s)).
  Proof.
    intros Hp Hf. rewrite run_bind. specialize (Hp s). destruct (run p s) as [s1 [a|e|w]]; cbn [fst] in *; try (left; exact Hp).
    specialize (Hf a s1). destruct Hf as [Hf|(s2 & md & ct & H1 & H2)].
    - left. eapply pframe_trans; eauto.
    - right. exists s2, md, ct. split; auto. eapply pframe_trans; eauto.
  Qed.
  Lemma answered_send rty md ct c s : answered c rty s (fst (run (send_reply E rty md ct c) s)).
  Proof.
    destruct (run_send_reply rty md ct c s) as [(s' & -> & Hr)|(x & -> & _)]; cbn [fst].
    - right. exists s, md, ct. split; auto using pframe_refl.
    - left. apply pframe_tick.
  Qed.

  Lemma complete_answered m c s : answered c "complete_reply" s (fst (run (complete_request E m c) s)).
  Proof.
    unfold complete_request. cbv zeta. apply answered_pre; [apply pres|]. intros code s1. apply answered_pre; [apply pres|]. intros pos s2.
    apply answered_pre; [apply pinterp|]. intros. apply answered_send.
  Qed.
  Lemma inspect_answered m c s : answered c "inspect_reply" s (fst (run (inspect_request E m c) s)).
  Proof.
    unfold inspect_request. cbv zeta. apply answered_pre; [apply pres|]. intros code s1. apply answered_pre; [apply pres|]. intros pos s2.
    apply answered_pre; [apply pres|]. intros dl s3. apply answered_pre; [apply pinterp|]. intros. apply answered_send.
  Qed.
  Lemma history_answered m c s : answered c "history_reply" s (fst (run (history_request E m c) s)).
  Proof.
    unfold history_request. apply answered_pre; [pquiet|]. intros h s1. apply answered_pre; [apply pres|]. intros. apply answered_send.
  Qed.
  Lemma is_complete_answered m c s : answered c "is_complete_reply" s (fst (run (is_complete_request E m c) s)).
  Proof.
    unfold is_complete_request. apply answered_pre; [apply pres|]. intros code s1. apply answered_pre; [apply pinterp|]. intros. apply answered_send.
  Qed.
  Lemma comm_info_answered m c s : answered c "comm_info_reply" s (fst (run (comm_info_request E m c) s)).
  Proof.
    unfold comm_info_request. cbv zeta. apply answered_pre; [apply pres|]. intros t s1. apply answered_pre; [apply plook|]. intros. apply answered_send.
  Qed.
  Lemma kernel_info_answered m c s : answered c "kernel_info_reply" s (fst (run (kernel_info_request E m c) s)).
  Proof.
    unfold kernel_info_request. apply answered_pre; [apply pinterp|]. intros r s1. apply answered_pre; [apply pres|]. intros. apply answered_send.
  Qed.
  Lemma in_kernel_types ty : existsb (String.eqb ty) kernel_types = true -> In ty kernel_types.
  Proof. intros H. apply existsb_exists in H as (x & Hx & Hq). apply String.eqb_eq in Hq. now subst. Qed.
  Lemma shutdown_answered m c s : answered c "shutdown_reply" s (fst (run (shutdown_request E m c) s)).
  Proof.
    unfold shutdown_request. apply answered_pre; [apply pres|]. intros r s1. apply answered_pre; [apply pinterp|]. intros _ s2.
    apply answered_pre; [now apply pmark|]. intros _ s3. cbv zeta.
    apply answered_pre; [apply ppublish; [left; apply in_kernel_types; reflexivity|right; cbn; auto]|]. intros. apply answered_send.
  Qed.
  Lemma interrupt_answered m c s : answered c "interrupt_reply" s (fst (run (interrupt_request E m c) s)).
  Proof.
    unfold interrupt_request. apply answered_pre; [apply ppublish; [left; apply in_kernel_types; reflexivity|right; cbn; auto]|]. intros. apply answered_send.
  Qed.
  Lemma debug_answered m c s : answered c "debug_reply" s (fst (run (debug_request E m c) s)).
  Proof.
    unfold debug_request. destruct (e_debugger E) as [d|] eqn:Hd; [|left; apply pframe_refl]. cbv zeta.
    apply answered_pre; [now apply pmark|]. intros _ s1. apply answered_pre.
    - apply pdebugger. pose proof (ua_debugger _ _ _ HU) as X. rewrite Hd in X. apply X.
    - intros r s2. apply answered_pre; [apply pmetadata|]. intros. apply answered_send.
  Qed.
  Lemma run_handler_frame h m : K (run_handler E h m).
  Proof.
    unfold run_handler. destruct h; [|apply pret]. apply pbind; [now apply pmark|]. intros _. apply puser, HU.
  Qed.
  Lemma comm_open_frame m c : K (comm_open E m c).
  Proof.
    unfold comm_open. cbv zeta. apply pbind; [apply pres|]. intros tn. apply pbind; [apply plook|]. intros [[p t]|]; [|apply pthrow].
    apply pbind; [apply pres|]. intros id. apply pbind; [apply pwith|]. intros a. apply pbind.
    - apply pattempt. unfold run_callback. destruct (t_callback t); [|apply pthrow].
      apply pbind; [now apply pmark|]. intros _. apply puser, HU.
    - intros r. apply pbind; [apply pwith|]. intros _. destruct r; [apply pret | apply pthrow].
  Qed.
  Lemma comm_close_frame m c : K (comm_close E m c).
  Proof.
    unfold comm_close. apply pbind; [apply pres|]. intros id. apply pbind; [apply plook|]. intros [a|]; [|apply pres].
    apply pbind; [apply plook|]. intros o. apply pbind; [apply run_handler_frame|]. intros _. apply pwith.
  Qed.
  Lemma comm_msg_frame m c : K (comm_msg E m c).
  Proof.
    unfold comm_msg. apply pbind; [apply pres|]. intros id. apply pbind; [apply plook|]. intros [a|]; [|apply pres].
    apply pbind; [apply plook|]. intros o. apply run_handler_frame.
  Qed.

  (** Every handler except execute_request. *)
  Lemma handlers_answered ty h m c s : mfind ty (handlers E) = Some h -> ty <> "execute_request" ->
    (exists rty, reply_name ty rty /\ answered c rty s (fst (run (h m c) s))) \/
    (In ty ["comm_open"; "comm_close"; "comm_msg"] /\ pframe s (fst (run (h m c) s))).
  Proof.
    unfold handlers. intros H Hne. cbn [mfind] in H.
    Ltac hcase H := match type of H with (if String.eqb ?a ?b then _ else _) = _ => destruct (String.eqb_spec a b) as [->|]; [injection H as <-|] end.
    hcase H; [now destruct Hne|].
    hcase H; [left; exists "complete_reply"; split; [now exists "complete"|apply complete_answered]|].
    hcase H; [left; exists "inspect_reply"; split; [now exists "inspect"|apply inspect_answered]|].
    hcase H; [left; exists "history_reply"; split; [now exists "history"|apply history_answered]|].
    hcase H; [left; exists "is_complete_reply"; split; [now exists "is_complete"|apply is_complete_answered]|].
    hcase H; [left; exists "comm_info_reply"; split; [now exists "comm_info"|apply comm_info_answered]|].
    hcase H; [right; split; [cbn; auto|apply comm_open_frame]|].
    hcase H; [right; split; [cbn; auto|apply comm_close_frame]|].
    hcase H; [right; split; [cbn; auto|apply comm_msg_frame]|].
    hcase H; [left; exists "kernel_info_reply"; split; [now exists "kernel_info"|apply kernel_info_answered]|].
    hcase H; [left; exists "shutdown_reply"; split; [now exists "shutdown"|apply shutdown_answered]|].
    hcase H; [left; exists "interrupt_reply"; split; [now exists "interrupt"|apply interrupt_answered]|].
    hcase H; [left; exists "debug_reply"; split; [now exists "debug"|apply debug_answered]|].
    discriminate.
  Qed.
End Handlers.
