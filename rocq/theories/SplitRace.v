(** The threads of the split servers use different objects. *)
From Verif Require Import Base BaseFacts Json JsonText Auth Message History Comm Tree Kernel KernelSpec Server ServerSpec Split SplitSpec SplitRaceSpec.

(** Programs that use only what belongs to thread [c]. *)
Definition at_home {U} (c : channel) (o : kop U) : Prop := forall p x, In (p, x) (op_uses o) -> home p = Some c \/ p = PCalendar.
Section Always.
  Context {U : Type} (E : env U).
  Lemma none_home c (o : kop U) : op_uses o = [] -> at_home c o.
  Proof. intros H p x. rewrite H. intros []. Qed.
  Lemma one_home c (o : kop U) p x : op_uses o = [(p, x)] -> home p = Some c -> at_home c o.
  Proof. intros H Hp q y. rewrite H. intros [[= <- <-]|[]]. now left. Qed.
  Lemma now_home c : at_home c (@KNow U).
  Proof. intros q y [[= <- <-]|[]]. now right. Qed.
  Lemma always_res {A B} (P : kop U -> Prop) (r : res A) (f : A -> kprog U B) :
    (forall a, r = Ok a -> always P (f a)) -> always P (tbind (of_res r) f).
  Proof. destruct r; cbn; auto. Qed.
  Ltac hm := first [apply none_home; reflexivity | apply now_home | eapply one_home; [reflexivity|reflexivity] | match goal with c : channel |- _ => destruct c; (eapply one_home; [reflexivity|reflexivity]) end].
  Ltac np := repeat match goal with
    | |- always _ (tbind _ _) => apply always_bind; [|intros ?]
    | |- always _ (catch_std _ _) => apply always_catch
    | |- always _ (attempt _) => apply always_attempt
    | |- always _ (of_res _) => apply always_of_res
    | |- always _ (kdo _) => split; [hm | intros ?; exact I]
    | |- always _ (perform _) => split; [hm | intros ?; exact I]
    | |- always _ (Ret _) => exact I
    | |- always _ (Throw _) => exact I
    | |- always _ (Stuck _) => exact I
    | |- always _ (match ?x with _ => _ end) => destruct x
    | _ => progress unfold log, emit, new_guid, now, new_header, get_metadata, with_comms, look_comms
    end.
  Lemma h_publish ty md ct b c : always (at_home c) (publish_message E ty md ct b c).
  Proof. unfold publish_message. cbv zeta. np. Qed.
  Lemma h_send_to ids ty ph md ct c : always (at_home c) (send_reply_to E ids ty ph md ct c).
  Proof. unfold send_reply_to. cbv zeta. np. Qed.
  Lemma h_send ty md ct c : always (at_home c) (send_reply E ty md ct c).
  Proof. unfold send_reply. np. apply h_send_to. Qed.

  (** *** In the shell thread *)
  Notation sh := (always (at_home (U := U) SHELL)).
  Lemma h_target p ty md ct b : sh (target_publish E p ty md ct b).
  Proof. unfold target_publish. np. apply h_publish. Qed.
  Lemma h_api0 o : sh (api0 E o).
  Proof. destruct o; cbn [api0]; unfold publish_execution_input, comm_open_msg, comm_close_msg, comm_send_msg; np; auto using h_publish, h_target. Qed.
  Lemma h_embed0 {A} (t : ucode0 U A) : sh (embed0 E t).
  Proof. induction t; cbn [embed0]; try exact I. apply always_bind; [apply always_attempt, h_api0|auto]. Qed.
  Lemma h_stdin w : sh (dispatch_stdin E w).
  Proof. unfold dispatch_stdin, input_reply. np. apply h_embed0. Qed.
  Lemma h_input p b : sh (input_request E p b).
  Proof. unfold input_request, send_stdin. cbv zeta. np. apply h_stdin. Qed.
  Lemma h_api1 o : sh (api1 E o).
  Proof. destruct o; cbn [api1]; [apply h_api0|apply h_input|]. unfold blocking_input_request. np. apply h_input. Qed.
  Lemma h_embed {A} (t : ucode U A) : sh (embed E t).
  Proof. induction t; cbn [embed]; try exact I. apply always_bind; [apply always_attempt, h_api1|auto]. Qed.
  Lemma h_interp r : sh (interp E r).
  Proof. unfold interp. np. apply h_embed. Qed.
  Lemma h_internal w : sh (dispatch_internal E w).
  Proof. unfold dispatch_internal. np. apply h_interp. Qed.
  Lemma h_abort_request w : sh (abort_request E w).
  Proof. unfold abort_request. cbv zeta. np. apply h_send_to. Qed.
  Lemma h_loop n : sh (abort_loop E n).
  Proof. induction n as [|n IH]; cbn [abort_loop]; [exact I|]. np; [apply h_abort_request|exact IH]. Qed.
  Lemma h_execute m : sh (execute_request E m SHELL).
  Proof.
    unfold execute_request, interp_execute, abort_queue. cbv zeta. np; auto using h_interp, h_publish, h_send, h_loop. apply h_publish.
  Qed.
  Lemma h_shell ty h m : mfind ty (handlers E) = Some h -> ~ In ty ["shutdown_request"; "interrupt_request"; "debug_request"] -> sh (h m SHELL).
  Proof.
    unfold handlers. cbn [mfind]. intros H Hne.
    repeat match type of H with (if ?b then _ else _) = _ => destruct b eqn:?; [injection H as <-|] end; try discriminate.
    - apply h_execute.
    - unfold complete_request. np; auto using h_interp, h_send.
    - unfold inspect_request. np; auto using h_interp, h_send.
    - unfold history_request. np; auto using h_interp, h_send.
    - unfold is_complete_request. np; auto using h_interp, h_send.
    - unfold comm_info_request. np; auto using h_interp, h_send.
    - unfold comm_open, run_callback. np; auto using h_embed.
    - unfold comm_close, run_handler. np; auto using h_embed.
    - unfold comm_msg, run_handler. np; auto using h_embed.
    - unfold kernel_info_request. np; auto using h_interp, h_send.
    - destruct Hne. left. symmetry. now apply String.eqb_eq.
    - destruct Hne. right; left. symmetry. now apply String.eqb_eq.
    - destruct Hne. right; right; left. symmetry. now apply String.eqb_eq.
  Qed.

  (** *** In the control thread *)
  Notation ctl := (always (at_home (U := U) CONTROL)).
  Lemma c_api1 o : own_op o -> ctl (api1 E o).
  Proof. destruct o as [[]| |]; cbn [own_op]; try contradiction; intros _; cbn [api1 api0]; np. Qed.
  Lemma c_embed {A} (t : ucode U A) : discreet t -> ctl (embed E t).
  Proof. induction t as [| | |o k IH]; cbn [embed]; intros H; try exact I. destruct H as [Ho H]. apply always_bind; [now apply always_attempt, c_api1|]. intros r. apply IH, H. Qed.
  Lemma c_embed2 {A} (t : ucode2 U A) : e_split E = true -> discreet2 t -> ctl (embed2 E t).
  Proof.
    intros Hs. induction t as [| | |o k IH]; cbn [embed2]; intros H; try exact I. destruct H as [Ho H].
    apply always_bind; [apply always_attempt|intros r; apply IH, H]. destruct o as [o|j]; cbn [api2]; [now apply c_api1|].
    unfold send_to_shell. rewrite Hs. np.
  Qed.
  Lemma c_interp r : discreet (e_interp E r) -> ctl (interp E r).
  Proof. intros H. unfold interp. np. now apply c_embed. Qed.
  Lemma find_handler ty h : mfind ty (handlers E) = Some h -> In ty known_types.
  Proof.
    unfold handlers. cbn [mfind]. intros H.
    repeat match type of H with (if ?b then _ else _) = _ => let Hb := fresh in destruct b eqn:Hb; [apply String.eqb_eq in Hb; subst ty; cbn; tauto|clear Hb] end. discriminate.
  Qed.
  Lemma c_control ty h m : e_split E = true -> mfind ty (handlers E) = Some h -> placed E CONTROL ty -> ctl (h m CONTROL).
  Proof.
    intros Hs H Hp. inversion Hp; subst; cbn in H; try (injection H as <-).
    - unfold interrupt_request. np; auto using h_publish, h_send.
    - unfold shutdown_request. cbv zeta. np; auto using h_publish, h_send, c_interp.
    - unfold kernel_info_request. np; auto using h_send, c_interp.
    - unfold debug_request. cbv zeta. destruct (e_debugger E) as [d|] eqn:Hd; [|exact I]. np; auto using h_send, c_embed2.
    - exfalso. eauto using find_handler.
  Qed.

  Lemma h_dispatch w c : e_split E = true -> well_placed E c w -> always (at_home c) (dispatch E w c).
  Proof.
    intros Hs Hw. unfold dispatch. destruct (deserialize (e_crypto E) (e_auth E) w) as [m|e|why] eqn:Hd; cbn [of_res tbind catch_std]; [| |exact I].
    2:{ destruct (is_std e); exact I. }
    cbv zeta. unfold log. apply always_res; intros _ _. apply always_bind; [unfold set_parent; np|intros _].
    apply always_bind; [apply h_publish|intros _]. apply always_res. intros ty Hty. apply always_bind; [|intros _; apply h_publish].
    unfold handle. destruct (mfind ty (handlers E)) as [h|] eqn:Hf; [|exact I]. apply always_catch; [|np].
    assert (Hp : placed E c ty).
    { unfold value_string, jvalue in Hty. destruct (m_header (m_base m)) as [| | | | | |l] eqn:Hh; try discriminate.
      destruct (mfind "msg_type" l) as [j|] eqn:Hm.
      - destruct j; try discriminate. injection Hty as <-. apply (Hw m); auto. rewrite Hh. exists l. split; [reflexivity|]. now rewrite Hm.
      - injection Hty as <-. discriminate Hf. }
    destruct c; [|eapply c_control; eauto]. eapply h_shell; eauto. inversion Hp; subst; auto. exfalso. eauto using find_handler.
  Qed.
End Always.

Section System.
  Context {U : Type} (v : variant) (E : env U) (k0 : kstate U) (start : frames) (Hs : e_split E = true).
  Notation step := (ystep v (fun c w => dispatch E w c) (dispatch_internal E)).
  Notation run_to ls s := (yrun v (fun c w => dispatch E w c) (dispatch_internal E) (y_init k0 start) ls s).
  Definition tame_going {A} (c : channel) (g : going U A) : Prop :=
    match g with Going p => always (at_home c) p | Calling k => c = CONTROL /\ forall x, always (at_home c) (k x) end.
  Definition inv (s : ysys U) : Prop :=
    match y_sh s with SRun g _ => tame_going SHELL g | SIntern g => tame_going SHELL g | _ => True end /\
    match y_ct s with CRun g => tame_going CONTROL g | _ => True end /\
    Forall (well_placed E SHELL) (m_shellq (y_mem s)) /\ Forall (well_placed E CONTROL) (m_ctlq (y_mem s)).
  Lemma mop_queues o (m m' : mem U) x : mop o m m' x -> m_ctlq m' = m_ctlq m /\ exists q, m_shellq m = (q ++ m_shellq m')%list.
  Proof.
    destruct o; cbn; intros H; try contradiction; try (match type of H with _ /\ _ => destruct H as [-> _] end; split; [reflexivity|now exists []]).
    - subst m'. destruct e; (split; [reflexivity|now exists []]).
    - destruct H as (_ & -> & _). split; [reflexivity|now exists []].
    - subst. split; [reflexivity|now exists []].
    - destruct (m_shellq m) as [|w q] eqn:Hq; destruct H as [-> _]; (split; [reflexivity|]); [exists []; now rewrite Hq|now exists [w]].
  Qed.
  Lemma gstep_tame c A (g : going U A) m l g' m' : gstep c g m l g' m' -> tame_going c g ->
    tame_going c g' /\ m_ctlq m' = m_ctlq m /\ exists q, m_shellq m = (q ++ m_shellq m')%list.
  Proof.
    intros H. destruct H as [o k m m' x Ho|w k m Hc|k w m Hc]; cbn [tame_going].
    - intros [_ H]. split; [apply H|]. eapply mop_queues; eauto.
    - intros [Hh H]. split; [|split; [reflexivity|now exists []]]. split; [|exact H].
      destruct (Hh PMsgShell true (or_introl eq_refl)) as [X|X]; cbn in X; congruence.
    - intros [-> H]. split; [apply H|]. split; [reflexivity|now exists []].
  Qed.
  Lemma step_inv s l s' : step s l s' -> (forall c w, l = YArrive c w -> well_placed E c w) -> inv s -> inv s'.
  Proof.
    intros Hst Ha (I1 & I2 & I3 & I4). inversion Hst; subst; cbn [y_sh y_ct y_mem] in *; unfold inv; cbn [y_sh y_ct y_mem]; auto.
    - match goal with H : shell_step _ _ _ _ _ _ _ |- _ => inversion H; subst; cbn [m_shellq m_ctlq] in *; auto end.
      + match goal with H : m_shellq m = _ |- _ => rewrite H in I3; inversion I3; subst end. split; [now apply h_dispatch|auto].
      + match goal with H : gstep _ _ _ _ _ _ |- _ => apply gstep_tame in H as (A1 & A2 & q & A3); [|exact I1] end. rewrite A2.
        rewrite A3 in I3. apply Forall_app in I3 as [_ I3]. auto.
      + destruct b0; auto.
      + split; [apply h_internal|auto].
      + match goal with H : gstep _ _ _ _ _ _ |- _ => apply gstep_tame in H as (A1 & A2 & q & A3); [|exact I1] end. rewrite A2.
        rewrite A3 in I3. apply Forall_app in I3 as [_ I3]. auto.
    - match goal with H : control_step _ _ _ _ _ _ |- _ => inversion H; subst; cbn [m_shellq m_ctlq] in *; auto end.
      + match goal with H : m_ctlq m = _ |- _ => rewrite H in I4; inversion I4; subst end. split; [exact I1|]. split; [now apply h_dispatch|auto].
      + match goal with H : gstep _ _ _ _ _ _ |- _ => apply gstep_tame in H as (A1 & A2 & q & A3); [|exact I2] end. rewrite A2.
        rewrite A3 in I3. apply Forall_app in I3 as [_ I3]. auto.
    - destruct ch; cbn [m_shellq m_ctlq set_shellq set_ctlq]; repeat split; auto; apply Forall_app; split; auto.
  Qed.
  Lemma run_inv ls s : run_to ls s -> (forall c w, In (YArrive c w) ls -> well_placed E c w) -> inv s.
  Proof.
    intros H. remember (y_init k0 start) as s0 eqn:H0. induction H as [s|s ls s1 l s2 H IH Hst]; intros Ha.
    - subst s. repeat split; constructor.
    - eapply step_inv; [exact Hst| |apply IH; auto].
      + intros c w ->. apply Ha, in_or_app. right; now left.
      + intros c w Hin. apply Ha, in_or_app. now left.
  Qed.
  Lemma going_home c A (g : going U A) p x : tame_going c g -> In (p, x) (going_uses g) -> home p = Some c \/ p = PCalendar.
  Proof.
    destruct g as [[a|e|w|o k]|k]; cbn; try tauto.
    - intros [H _]. apply H.
    - intros [-> _] [[= <- <-]|[]]. now left.
  Qed.
  Lemma uses_home c ls s p x : run_to ls s -> (forall c w, In (YArrive c w) ls -> well_placed E c w) ->
    In (p, x) (uses v c s) -> (home p = Some c \/ p = PCalendar) \/ (p = PStopped /\ v = ShellMain /\ c = SHELL) \/ (p = PStopped /\ c = CONTROL).
  Proof.
    intros Hr Ha Hu. destruct (run_inv _ _ Hr Ha) as (I1 & I2 & _). destruct c; cbn [uses] in Hu.
    - destruct (y_sh s) as [|b|g b| |g| |]; cbn [shell_uses] in Hu.
      + left. left. destruct Hu as [[= <- <-]|[[= <- <-]|[]]]; reflexivity.
      + left. left. destruct Hu as [[= <- <-]|[]]; reflexivity.
      + left. eapply going_home; eauto.
      + left. left. destruct Hu as [[= <- <-]|[]]; reflexivity.
      + left. destruct g as [[a|e|w|o k]|k]; try (eapply going_home; eauto; fail). left. destruct Hu as [[= <- <-]|[]]; reflexivity.
      + destruct v; [destruct Hu|]. destruct Hu as [[= <- <-]|[]]; auto.
      + destruct Hu.
    - destruct (y_ct s) as [| |g| | | | | | | | |]; cbn [control_uses] in Hu; try (destruct Hu as [[= <- <-]|[]]; auto; fail); try (destruct Hu; fail).
      left. eapply going_home; eauto.
  Qed.
  Lemma no_race ls s p : run_to ls s -> (forall c w, In (YArrive c w) ls -> well_placed E c w) ->
    race v s p -> p = PCalendar \/ (p = PStopped /\ v = ShellMain).
  Proof.
    intros Hr Ha (_ & x & y & Hx & Hy & _). apply (uses_home _ _ _ _ _ Hr Ha) in Hx. apply (uses_home _ _ _ _ _ Hr Ha) in Hy.
    destruct Hx as [[Hx|Hx]|[(A & B & _)|[_ X]]]; [|now left|auto|discriminate].
    destruct Hy as [[Hy|Hy]|[(A & _)|[A _]]]; [congruence|now left| |]; subst p; discriminate.
  Qed.
End System.
