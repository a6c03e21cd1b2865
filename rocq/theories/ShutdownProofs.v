(** Proofs for C110: the kernels that come with xeus ask their server to stop when, and only when, a message tells them to. *)
From Verif Require Import Base BaseFacts Json JsonText Utf8 Utf8Proofs Auth Message MessageProofs WireSpec History HistoryProofs Comm Tree Kernel KernelSpec KernelProofs KernelRun KernelHandlers KernelDispatch KernelSession KernelExec
  Server ServerSpec ServerProofs Split SplitSpec SplitAnsweredSpec SequentialSpec Sequential SequentialProofs Shipped ShippedSpec ShippedProofs Heard Client Host HostSpec Construct Program ProgramSpec ProgramProofs ThreadSpec ThreadProofs ShutdownSpec.

Section Stops.
  Context (E : env unit) (W : manner) (T : string -> Prop).
  Hypothesis SH : shipped E W T.
  Hypothesis EU : env_utf8 E.
  Implicit Types (s : kstate unit).
  (** ** Programs that do not ask *)
  Definition silent (o : kop unit) : Prop := match o with KEmit EStop => False | _ => True end.
  Ltac df := repeat match goal with
    | |- always _ (tbind _ _) => apply always_bind; [|intros ?]
    | |- always _ (catch_std _ _) => apply always_catch
    | |- always _ (attempt _) => apply always_attempt
    | |- always _ (of_res _) => apply always_of_res
    | |- always _ (kdo _) => split; [exact I | intros ?; exact I]
    | |- always _ (Ret _) => exact I
    | |- always _ (Throw _) => exact I
    | |- always _ (Stuck _) => exact I
    | |- always _ (match ?x with _ => _ end) => destruct x
    | _ => progress unfold log, emit, new_guid, now, new_header, get_metadata, with_comms, look_comms
    end.
  Lemma silent_publish ty md ct bufs c : always silent (publish_message E ty md ct bufs c).
  Proof. unfold publish_message. cbv zeta. df. Qed.
  Lemma silent_reply ty md ct c : always silent (send_reply E ty md ct c).
  Proof. unfold send_reply, send_reply_to. cbv zeta. df. Qed.
  Lemma silent_call o k : always silent (api0 E o) -> always silent (embed E k) -> always silent (embed E (Shipped.call o k)).
  Proof.
    intros H1 H2. change (embed E (Shipped.call o k)) with (tbind (attempt (api0 E o)) (fun r => embed E (match r with inl _ => k | inr e => Throw e end))).
    apply always_bind; [now apply always_attempt|]. intros [|]; [exact H2|exact I].
  Qed.
  Lemma silent_interp r : always silent (interp E r).
  Proof.
    unfold interp. apply always_bind; [split; [exact I|intros ?; exact I]|]. intros _.
    destruct SH as [[_ -> _ _ _ _ _]|[_ -> _ _ _ _ _]]; destruct r; try exact I; cbn [custom_interpreter test_interpreter].
    - unfold custom_execute. apply silent_call; [apply silent_publish|]. apply silent_call; [apply silent_publish|]. exact I.
    - unfold test_execute. cbv zeta. repeat match goal with |- context [if ?b then _ else _] => destruct b end; repeat (apply silent_call; [apply silent_publish|]); exact I.
  Qed.
  Lemma silent_run_handler h m : always silent (run_handler E h m).
  Proof. unfold run_handler. destruct SH as [[_ _ _ Hh _ _ _]|[_ _ _ Hh _ _ _]]; destruct h; try exact I; (apply always_bind; [split; [exact I|intros ?; exact I]|]); intros _; rewrite Hh; exact I. Qed.
  Lemma silent_run_callback h a m : always silent (run_callback E h a m).
  Proof. unfold run_callback. destruct SH as [[_ _ Hh _ _ _ _]|[_ _ Hh _ _ _ _]]; destruct h; try exact I; (apply always_bind; [split; [exact I|intros ?; exact I]|]); intros _; rewrite Hh; exact I. Qed.
  Ltac dd := repeat (df; try match goal with
    | |- always _ (publish_message _ _ _ _ _ _) => apply silent_publish
    | |- always _ (send_reply _ _ _ _ _) => apply silent_reply
    | |- always _ (interp _ _) => apply silent_interp
    | |- always _ (run_handler _ _ _) => apply silent_run_handler
    | |- always _ (run_callback _ _ _ _) => apply silent_run_callback
    end).
  Lemma silent_abort n : always silent (abort_loop E n).
  Proof. induction n as [|n IH]; cbn [abort_loop]; dd; auto. unfold abort_request, send_reply_to. cbv zeta. dd. Qed.
  Lemma silent_handle ty m c : ty <> "shutdown_request" -> always silent (handle E ty m c).
  Proof.
    intros N. unfold handle. destruct (mfind ty (handlers E)) as [h|] eqn:Hf; [|exact I]. apply always_catch; [|dd]. revert Hf.
    unfold handlers. cbn [mfind]. repeat (match goal with |- context [String.eqb ?a ?b] => destruct (String.eqb_spec a b) end; [intros [= <-]|]); try discriminate.
    - unfold execute_request, interp_execute, publish_execution_input, abort_queue. cbv zeta. dd. apply silent_abort.
    - unfold complete_request. cbv zeta. dd.
    - unfold inspect_request. cbv zeta. dd.
    - unfold history_request. cbv zeta. dd.
    - unfold is_complete_request. cbv zeta. dd.
    - unfold comm_info_request. cbv zeta. dd.
    - unfold comm_open. cbv zeta. dd.
    - unfold comm_close. cbv zeta. dd.
    - unfold comm_msg. cbv zeta. dd.
    - unfold kernel_info_request. cbv zeta. dd.
    - congruence.
    - unfold interrupt_request. cbv zeta. dd.
    - unfold debug_request. rewrite (sh_nodebug E W T SH). exact I.
  Qed.
  Lemma silent_status st c : always silent (publish_status E st c).
  Proof. unfold publish_status. cbv zeta. dd. Qed.
  Lemma silent_trace {A} (p : kprog unit A) s : always silent p -> exists evs, k_trace (fst (run p s)) = (k_trace s ++ evs)%list /\ ~ In EStop evs.
  Proof.
    revert s. unfold run. induction p as [a|e|w|o k IH]; intros s H; cbn [exec fst]; try (exists []; split; [now rewrite app_nil_r|intros []]).
    destruct H as [Ho Hk]. destruct (kstep o s) as [s1 x] eqn:Es. destruct (IH x s1 (Hk x)) as (e2 & T2 & N2).
    assert (X : exists e1, k_trace s1 = (k_trace s ++ e1)%list /\ ~ In EStop e1).
    { assert (N : exists e1, k_trace s = (k_trace s ++ e1)%list /\ ~ In EStop e1) by (exists []; split; [now rewrite app_nil_r|intros []]).
      destruct o; cbn in Es; try (injection Es as <- _; cbn; exact N).
      - injection Es as <- _. cbn. exists [e]. split; [reflexivity|]. intros [->|[]]. exact Ho.
      - destruct (k_shell s) eqn:Eq; injection Es as <- _; exact N.
      - destruct (k_replies s) eqn:Eq; injection Es as <- _; exact N. }
    destruct X as (e1 & T1 & N1). exists (e1 ++ e2)%list. split; [now rewrite T2, T1, app_assoc|]. intros X. apply in_app_or in X as [X|X]; auto.
  Qed.
  (** ** One message *)
  Lemma typed_one h ty ty' : typed h ty -> typed h ty' -> ty = ty'.
  Proof. intros (f & E1 & E2) (f' & E1' & E2'). rewrite E1 in E1'. injection E1' as <-. destruct (mfind "msg_type" f); congruence. Qed.
  Lemma stop_message y c w gs y' s : ready T s -> memory_of s = y -> reacts W T E y c w gs y' -> forall evs, k_trace (fst (run (dispatch E w c) s)) = (k_trace s ++ evs)%list ->
    (In EStop evs <-> exists q, accepted E w q /\ says_stop q).
  Proof.
    intros RD Hy H evs Ht. destruct H as [y c w Hr|y c w m ty gs n' h' Ha Hty ph D].
    - rewrite run_dispatch_rejected in Ht by exact Hr. cbn [fst] in Ht. assert (evs = []) as -> by (apply (app_inv_head (k_trace s)); now rewrite app_nil_r).
      split; [intros []|]. intros (q & Hq & _). destruct Hr as [e Hr]. unfold accepted in Hq. congruence.
    - assert (Hone : (exists q, accepted E w q /\ says_stop q) <-> says_stop m).
      { split; [|eauto]. intros (q & Hq & X). unfold accepted in *. rewrite Ha in Hq. now injection Hq as <-. }
      rewrite Hone. clear Hone.
      destruct (run_dispatch_accepted E w c m ty s (sh_quiet E W T SH) EU Ha Hty) as (fb & Hfb & R). cbv zeta in Hfb, R. set (sp := parented (m_ids m) (m_header (m_base m)) c s) in *.
      assert (Hb : run (publish_status E "busy" c) sp = (with_status E "busy" c fb sp, Ok tt)) by (apply run_status; [exact (sh_quiet E W T SH)|exact Hfb]).
      set (s1 := with_status E "busy" c fb sp) in *.
      destruct (silent_trace _ sp (silent_status "busy" c)) as (e1 & T1 & N1). rewrite Hb in T1. cbn [fst] in T1. change (k_trace sp) with (k_trace s) in T1.
      assert (Tail : exists e3, k_trace (fst (run (dispatch E w c) s)) = (k_trace (fst (run (handle E ty m c) s1)) ++ e3)%list /\ ~ In EStop e3).
      { rewrite R. destruct (run (handle E ty m c) s1) as [s2 [u|e|u]]; cbn [fst]; [apply silent_trace, silent_status|exists []; split; [now rewrite app_nil_r|intros []]..]. }
      destruct Tail as (e3 & T3 & N3). clear R.
      assert (Mid : exists e2, k_trace (fst (run (handle E ty m c) s1)) = (k_trace s1 ++ e2)%list /\ (In EStop e2 <-> says_stop m)).
      { destruct (string_dec ty "shutdown_request") as [->|N].
        - pose proof (accepted_content_utf8 E w m Ha) as Hc. destruct (run_handle E "shutdown_request" m c s1 Hc) as [[X _]|(hd & Hf & X)]; [discriminate|].
          injection Hf as <-. cbv zeta in X. destruct X as (X & _ & _). rewrite X. clear X.
          remember (m_content (m_base m)) as ct eqn:Hct. remember "shutdown_request" as ty eqn:Ety. unfold shutdown_request. rewrite <- Hct.
          assert (Yes : forall f again, ct = JObj f -> bool_field f "restart" false again ->
            exists e2, k_trace (fst (run (tbind (of_res (value_bool "restart" false ct)) (fun restart => interp E RShutdown ;;; emit EStop ;;;
              (let reply := jobj [("restart", JBool restart)] in publish_message E "shutdown" empty reply [] CONTROL ;;; send_reply E "shutdown_reply" empty reply c))) s1)) = (k_trace s1 ++ e2)%list /\ (In EStop e2 <-> says_stop m)).
          { intros f again -> B. pose proof B as V. apply bool_field_value in V. rewrite (read_reply _ _ _ _ V).
            destruct (mn_shutdown E W (sh_mannered E W T SH EU)) as [j J]. rewrite (interp_reply E _ j) by exact J. rewrite run_bind, run_emit. cbv zeta.
            match goal with |- context [run ?p ?s2] => destruct (shrinks p s2) as [_ [rest P]] end. cbn [k_trace add_event set_trace] in P. rewrite P.
            exists ([EInterp RShutdown] ++ [EStop] ++ rest)%list. split; [now rewrite <- !app_assoc|]. split; [|intros _; cbn; auto]. intros _. split; [now rewrite <- Ety|]. eauto. }
          destruct D as [| | | | | | |mm again B| | |ty mm id X1 _ _|ty ct' X1 X2 _|ty ct' X1]; try discriminate; try subst ty.
          + eapply Yes; [reflexivity|exact B].
          + exfalso. clear -X1. cbn in X1. intuition discriminate.
          + assert (V : exists e, value_bool "restart" false ct' = Exn e) by (destruct ct'; try (eexists; reflexivity); now destruct (X2 m0)).
            destruct V as [e V]. rewrite V. exists []. split; [rewrite app_nil_r; reflexivity|]. split; [intros []|]. intros (_ & f & b & X & _). destruct (X2 f). congruence.
          + exfalso. apply X1. unfold handled_types. cbn. auto 20.
        - destruct (silent_trace _ s1 (silent_handle ty m c N)) as (e2 & T2 & N2). exists e2. split; [exact T2|]. split; [intros X; now destruct N2|].
          intros [X _]. destruct N. eapply typed_one; eauto. }
      destruct Mid as (e2 & T2 & I2). rewrite T3, T2, T1, <- !app_assoc in Ht. apply app_inv_head in Ht. subst evs. rewrite <- I2. rewrite !in_app_iff. tauto.
  Qed.
End Stops.
Lemma told_snoc {U} (E : env U) ws c w : told_to_stop E (ws ++ [(c, w)]) <-> told_to_stop E ws \/ exists q, accepted E w q /\ says_stop q.
Proof.
  split.
  - intros (c' & w' & q & I & A & S). apply in_app_or in I as [I|[[= <- <-]|[]]]; [left; exists c', w', q; auto|right; eauto].
  - intros [(c' & w' & q & I & A & S)|(q & A & S)]; [exists c', w', q|exists c, w, q]; rewrite in_app_iff; cbn; auto.
Qed.
Lemma told_nil {U} (E : env U) : ~ told_to_stop E [].
Proof. intros (c & w & q & [] & _). Qed.

(** ** The default server *)
Section Default.
  Context (E : env unit) (W : manner) (T : string -> Prop).
  Hypothesis SH : shipped E W T.
  Hypothesis EU : env_utf8 E.
  Implicit Types (k : kstate unit).
  Lemma served_stops es k k1 : served E es k k1 -> k_shell k = [] -> ready T k -> forall gs y, ShippedSpec.session W T E (memory_of k) (List.map fst es) gs y ->
    exists evs, k_trace k1 = (k_trace k ++ evs)%list /\ (In EStop evs <-> told_to_stop E (List.map fst es)).
  Proof.
    induction 1 as [k|es c w l k k0 k1 H IH R Hs]; intros Hk RD gs y S.
    - exists []. split; [now rewrite app_nil_r|]. split; [intros []|]. intros X. now destruct (told_nil E).
    - rewrite map_app in S. cbn [map fst] in S. apply session_snoc in S as (gs0 & y0 & gs1 & S0 & S1 & ->).
      destruct (IH Hk RD _ _ S0) as (evs0 & T0 & I0). destruct (served_session E W T SH EU _ _ _ H Hk RD _ _ S0) as (RD0 & M0 & _).
      destruct (shrinks (dispatch E w c) (set_shell (List.map Some l) k0)) as [_ [evs T1]].
      pose proof (stop_message E W T SH EU y0 c w gs1 y (set_shell (List.map Some l) k0) ltac:(now apply ready_shell) M0 S1 evs T1) as I1.
      rewrite R in T1. cbn [fst k_trace set_shell] in T1. exists (evs0 ++ evs)%list. split; [now rewrite T1, T0, app_assoc|].
      rewrite map_app. cbn [map fst]. rewrite told_snoc, in_app_iff, I0, I1. reflexivity.
  Qed.
  Lemma no_emitted_stop (listener : channel -> frames -> kprog unit unit) s0 ls s : drun listener s0 ls s -> ~ In (Emitted EStop) ls.
  Proof.
    assert (O : forall (o : kop unit) (x : kans o), op_label o x <> Emitted EStop).
    { intros o x. destruct o; cbn; try discriminate; [destruct e; discriminate|destruct x; discriminate]. }
    induction 1 as [|s ls s1 l s2 H IH St]; [intros []|]. intros X. apply in_app_or in X as [X|[X|[]]]; [auto|]. subst l. inversion St as [? ? ? M| | | | | |]; subst.
    inversion M; subst; eapply O; eassumption.
  Qed.
  Lemma happened_stop ls : ~ In (Emitted EStop) ls -> (In EStop (happened ls) <-> In StopRequest ls).
  Proof.
    intros N. unfold happened. rewrite in_flat_map. split; [|intros X; exists StopRequest; split; [exact X|now left]].
    intros (l & I & X). destruct l; try (now destruct X). destruct X as [->|[]]. now destruct N.
  Qed.
  Lemma run_stops k r start ls s gs y : e_split E = false -> run (kernel_start E) (kinit tt []) = (k, r) ->
    drun (fun c w => dispatch E w c) (d_init k start) ls s -> ShippedSpec.session W T E fresh (ServerSpec.handed ls) gs y ->
    (In StopRequest ls -> told_to_stop E (ServerSpec.handed ls)) /\ (place_of (d_pc s) = Between -> told_to_stop E (ServerSpec.handed ls) -> In StopRequest ls).
  Proof.
    intros Hsp R0 Hrun S. destruct (started E W T SH EU []) as (k' & R' & RD & Hm & Hq & _). rewrite R0 in R'. injection R' as <- ->.
    rewrite <- !(happened_stop _ (no_emitted_stop _ _ _ _ Hrun)).
    destruct (sequence E Hsp k start ls s Hrun) as (es & He & Ht & P). rewrite (ShippedProofs.episodes_handed _ _ He) in *.
    assert (RDb : ready T (bare k)) by now apply ready_shell. assert (Hmb : fresh = memory_of (bare k)) by (rewrite <- Hm; reflexivity). rewrite Hmb in S.
    destruct (place_of (d_pc s)) eqn:Hp.
    - destruct (served_stops _ _ _ P eq_refl RDb _ _ S) as (evs & TT & I). cbn [bare k_trace set_shell] in TT. rewrite Ht in TT. apply app_inv_head in TT as ->. tauto.
    - destruct P as (es' & c & w & l & k0 & k1 & r1 & -> & P & R1 & Sh1 & Pre0 & Pre1). rewrite map_app in *. cbn [map fst] in *.
      apply session_snoc in S as (gs0 & y0 & gs1 & S0 & S1 & ->). destruct (served_session E W T SH EU _ _ _ P eq_refl RDb _ _ S0) as (RD0 & M0 & _).
      destruct (served_stops _ _ _ P eq_refl RDb _ _ S0) as (evs0 & T0 & I0).
      destruct (shrinks (dispatch E w c) (set_shell (List.map Some l) k0)) as [_ [evs T1]].
      pose proof (stop_message E W T SH EU y0 c w gs1 y (set_shell (List.map Some l) k0) ltac:(now apply ready_shell) M0 S1 evs T1) as I1.
      rewrite R1 in T1. cbn [fst k_trace set_shell] in T1. split; [|discriminate]. intros X.
      destruct Pre1 as [rest Hr]. rewrite T1, T0, Ht in Hr. cbn [bare k_trace set_shell] in Hr. rewrite <- !app_assoc in Hr. apply app_inv_head in Hr.
      rewrite told_snoc, <- I0, <- I1, <- in_app_iff, Hr, in_app_iff. now left.
    - exfalso. destruct P as (es' & c & w & l & k0 & r1 & -> & P & R1 & N). rewrite map_app in S. cbn [map fst] in S.
      apply session_snoc in S as (gs0 & y0 & gs1 & S0 & S1 & ->). destruct (served_session E W T SH EU _ _ _ P eq_refl RDb _ _ S0) as (RD0 & M0 & _).
      destruct (reacts_run E W T SH EU y0 c w gs1 y (set_shell (List.map Some l) k0)) as (k2 & R2 & _); [now apply ready_shell|exact M0|exact S1|]. congruence.
  Qed.
End Default.

(** ** The split servers *)
Section Threads.
  Context (E : env unit) (W : manner) (T : string -> Prop) (v : variant).
  Hypothesis SH : shipped E W T.
  Hypothesis EU : env_utf8 E.
  Implicit Types (k : kstate unit).
  Lemma serves_stops y ws gs y' : ShippedSpec.session W T E y ws gs y' -> forall k k', ready T k -> memory_of k = y -> KernelSession.serves E ws k k' ->
    exists evs, k_trace k' = (k_trace k ++ evs)%list /\ (In EStop evs <-> told_to_stop E ws).
  Proof.
    induction 1 as [y|y ws gs y1 c w gs1 y2 S IH R]; intros k k' RD M H.
    - inversion H; subst. exists []. split; [now rewrite app_nil_r|]. split; [intros []|]. intros X. now destruct (told_nil E).
    - apply serves_snoc in H as (k1 & H1 & ->). destruct (IH k k1 RD M H1) as (evs & T1 & I1). destruct (session_serves E W T SH EU _ _ _ _ S k k1 RD M H1) as (RD1 & M1 & _).
      destruct (shrinks (dispatch E w c) k1) as [_ [evs2 T2]]. pose proof (stop_message E W T SH EU y1 c w gs1 y2 k1 RD1 M1 R evs2 T2) as I2.
      exists (evs ++ evs2)%list. split; [rewrite T2, T1; now rewrite app_assoc|]. rewrite told_snoc, in_app_iff, I1, I2. reflexivity.
  Qed.
End Threads.
Section Split_stops.
  Context (E : env unit) (W : manner) (T : string -> Prop) (v : variant).
  Hypothesis SH : shipped E W T.
  Hypothesis EU : env_utf8 E.
  Variable k0 : kstate unit.
  Hypothesis RD0 : ready T k0.
  Hypothesis M0 : memory_of k0 = fresh.
  Lemma events_stop c ls : In EStop (events c ls) <-> In (YEvent c EStop) ls.
  Proof.
    unfold events. rewrite in_flat_map. split.
    - intros (l & I & X). destruct l; try (now destruct X). destruct (Kernel.chan_eqb c c0) eqn:Q; [|now destruct X]. destruct X as [->|[]]. destruct c, c0; try discriminate; exact I.
    - intros I. exists (YEvent c EStop). split; [exact I|]. destruct c; now left.
  Qed.
  Lemma split_stops start ls s c gs y : yrun v (fun c w => dispatch E w c) (dispatch_internal E) (y_init k0 start) ls s -> (forall c w, In (YHand c w) ls -> keeps_to E c w) -> ShippedSpec.session W T E fresh (handed_to c ls) gs y ->
    (In (YEvent c EStop) ls -> told_to_stop E (handed_to c ls)) /\ (rests c s -> told_to_stop E (handed_to c ls) -> In (YEvent c EStop) ls).
  Proof.
    intros H K S. rewrite <- events_stop. destruct (run_inv E W T v SH EU k0 RD0 M0 start ls s H K) as [Sn J]. destruct (J c) as (lg & ln & ks & Iv); [eauto|]. destruct (extends_id lg) as [f Hf]. destruct (extends_id ln) as [g Hg].
    pose proof (iv_trace _ _ _ _ _ _ _ _ Iv) as Tr. pose proof (shift_shipped E W T SH f g) as SH'. pose proof (shift_utf8 E f g EU) as EU'.
    assert (RDb : ready T (base k0)) by (destruct RD0; constructor; auto). pose proof (shift_session E W T f g _ _ _ _ S) as S'.
    change (told_to_stop E (handed_to c ls)) with (told_to_stop (shift E f g) (handed_to c ls)).
    pose proof (iv_follows _ _ _ _ _ _ _ _ Iv f g Hf Hg) as F.
    destruct (doing c s) as [[p|kk]|] eqn:D; cbn [follows] in F.
    - destruct F as (ws & w & k1 & p' & Hh & Sv & Ti & R). rewrite Hh in *. apply session_snoc in S' as (gs0 & y0 & gs1 & S0 & S1 & ->).
      destruct (session_serves _ W T SH' EU' _ _ _ _ S0 (base k0) k1 RDb M0 Sv) as (RD1 & M1 & _).
      destruct (serves_stops _ W T SH' EU' _ _ _ _ S0 (base k0) k1 RDb M0 Sv) as (evs & T1 & I1).
      destruct (shrinks (dispatch (shift E f g) w c) k1) as [_ [evs2 T2]]. pose proof (stop_message _ W T SH' EU' y0 c w gs1 y k1 RD1 M1 S1 evs2 T2) as I2.
      destruct (shrinks p' ks) as [_ [rest P]]. rewrite <- R, T2, T1, Tr in P. cbn [base k_trace set_guid set_clock set_shell] in P. rewrite <- !app_assoc in P. apply app_inv_head in P.
      split.
      + intros X. rewrite told_snoc, <- I1, <- I2, <- in_app_iff, P, in_app_iff. now left.
      + intros X. exfalso. unfold rests, doing in *. destruct c; [destruct (y_sh s); try discriminate; destruct X|destruct (y_ct s); try discriminate; destruct X].
    - destruct F.
    - destruct (serves_stops _ W T SH' EU' _ _ _ _ S' (base k0) ks RDb M0 F) as (evs & T1 & I1). cbn [base k_trace set_guid set_clock set_shell] in T1.
      rewrite Tr in T1. apply app_inv_head in T1. subst evs. tauto.
  Qed.
End Split_stops.
