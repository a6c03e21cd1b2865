(** The split servers: once the control thread leaves its loop the process ends. *)
From Verif Require Import Base Json JsonText BaseFacts Auth Message History Comm Tree Kernel KernelSpec Server Split SplitSpec Threads SplitProofs SplitCalls.

(** ** The forwarding threads during the handshake *)
Definition f_ok (f : fwd) : Prop := forall c, f_pc f = FRecv c -> f_in f <> [].
Definition f_running (f : fwd) : Prop :=
  f_ctl f = SIdle /\ match f_pc f with FPoll | FRecv false | FSend _ false => True | _ => False end.
Definition f_waited (f : fwd) : Prop := (asked (f_ctl f) = true /\ f_pc f <> FDone) \/ (exists w, f_ctl f = SAnswered w /\ f_pc f = FDone).
Definition f_finished (f : fwd) : Prop := f_ctl f = SIdle /\ f_pc f = FDone.
Lemma f_ok_next f f' : f_ok f -> fnext f = Some f' -> f_ok f'.
Proof.
  unfold f_ok, fnext. destruct f as [i o c p]; cbn. intros H. destruct p.
  - destruct i; [destruct (asked c); [|discriminate]|]; intros [= <-]; cbn; intros b Hb; try discriminate. 
  - destruct i; [discriminate|]. intros [= <-]. discriminate.
  - intros [= <-]. cbn. destruct c0; discriminate.
  - destruct c; try discriminate. intros [= <-]. discriminate.
  - discriminate.
Qed.
Lemma f_ok_push w f : f_ok f -> f_ok (f_push w f).
Proof. unfold f_ok. cbn. intros H c Hc E. apply app_eq_nil in E as [E _]. eapply H; eauto. Qed.
Lemma f_ok_set s f : f_ok f -> f_ok (f_set s f).
Proof. auto. Qed.
Lemma f_running_next f f' : f_running f -> fnext f = Some f' -> f_running f'.
Proof.
  unfold f_running, fnext. destruct f as [i o c p]; cbn. intros [-> H]. destruct p as [|[]|w []| |]; try contradiction.
  - destruct i; cbn; [discriminate|]. intros [= <-]. cbn. auto.
  - destruct i; [discriminate|]. intros [= <-]. cbn. auto.
  - intros [= <-]. cbn. auto.
Qed.
Lemma f_waited_next f f' : f_waited f -> fnext f = Some f' -> f_waited f'.
Proof.
  unfold f_waited, fnext. destruct f as [i o c p]; cbn. intros [[H1 H2]|(w & -> & ->)]; [|discriminate]. destruct p; try contradiction.
  - destruct i; [rewrite H1|]; intros [= <-]; cbn; left; split; auto; discriminate.
  - destruct i; [discriminate|]. intros [= <-]. cbn. left; split; auto; discriminate.
  - intros [= <-]. cbn. left. split; auto. destruct c0; discriminate.
  - destruct c; try discriminate. intros [= <-]. cbn. eauto.
Qed.
Lemma f_finished_next f f' : f_finished f -> fnext f = Some f' -> f_finished f'.
Proof. unfold f_finished, fnext. destruct f as [i o c p]; cbn. intros [-> ->]. discriminate. Qed.
Definition f_rank (p : fpc) : nat :=
  match p with FRecv false => 6 | FSend _ false => 5 | FPoll => 4 | FRecv true => 3 | FSend _ true => 2 | FCtl => 1 | FDone => 0 end.
Lemma f_rank_next f f' : asked (f_ctl f) = true -> fnext f = Some f' -> f_rank (f_pc f') < f_rank (f_pc f).
Proof.
  unfold fnext. destruct f as [i o c p]; cbn. intros H. destruct p as [|[]|w []| |].
  - destruct i; rewrite H; intros [= <-]; cbn; lia.
  - destruct i; [discriminate|]. intros [= <-]. cbn. lia.
  - destruct i; [discriminate|]. intros [= <-]. cbn. lia.
  - intros [= <-]. cbn. lia.
  - intros [= <-]. cbn. lia.
  - destruct c; try discriminate. intros [= <-]. cbn. lia.
  - discriminate.
Qed.
Lemma f_can_move f : f_ok f -> f_waited f -> f_pc f <> FDone -> exists f', fnext f = Some f'.
Proof.
  unfold f_ok, f_waited, fnext. destruct f as [i o c p]; cbn. intros Ho [[H1 _]|(w & _ & ->)] Hd; [|contradiction]. destruct p; try contradiction.
  - destruct i; [rewrite H1|]; eauto.
  - destruct i; [|eauto]. exfalso. eapply Ho; eauto.
  - eauto.
  - destruct c; try discriminate. eauto.
Qed.

Section Stop.
  Context {U : Type} (v : variant) (E : env U).
  Let listener c w := dispatch E w c.
  Let internal := dispatch_internal E.
  Notation step := (ystep v listener internal).
  Notation run := (yrun v listener internal).
  Implicit Types (s : ysys U) (m : mem U).

  (** The state of the forwarding threads, by the position of the control thread. *)
  Definition pub_inv (b : ctpc U) (f : fwd) : Prop :=
    f_ok f /\ match b with
    | CTest | CRecv | CRun _ | CStopShell | CWaitShell | CStopPub => f_running f
    | CWaitPub => f_waited f
    | _ => f_finished f
    end.
  Definition hb_inv (b : ctpc U) (f : fwd) : Prop :=
    f_ok f /\ match b with
    | CWaitHb => f_waited f
    | CNotify | COut | CEnd => f_finished f
    | _ => f_running f
    end.
  Definition ct_out (b : ctpc U) : bool := match b with COut | CEnd => true | _ => false end.
  Definition end_inv s : Prop :=
    y_stopped s = ct_out (y_ct s) /\
    (y_end s = None -> (v = ShellMain -> y_sh s <> SEnd) /\ (v = ControlMain -> y_ct s <> CEnd)) /\
    (y_end s = Some Exited -> ct_out (y_ct s) = true).
  Definition sinv s : Prop := pub_inv (y_ct s) (m_pub (y_mem s)) /\ hb_inv (y_ct s) (m_hb (y_mem s)) /\ end_inv s.

  Lemma mop_fwd o m m' x : mop o m m' x ->
    (m_pub m' = m_pub m \/ exists w, m_pub m' = f_push w (m_pub m)) /\ m_hb m' = m_hb m.
  Proof.
    destruct o; cbn [mop]; try (intros [-> _]; auto).
    - intros ->. destruct e; cbn; eauto.
    - intros (_ & -> & _). auto.
    - intros ->. auto.
    - destruct (m_shellq m); intros [-> _]; auto.
    - intros [].
  Qed.
  Lemma pub_push b f w : pub_inv b f -> pub_inv b (f_push w f).
  Proof. intros [A B]. split; [now apply f_ok_push|]. destruct b; auto. Qed.
  Lemma hb_push b f w : hb_inv b f -> hb_inv b (f_push w f).
  Proof. intros [A B]. split; [now apply f_ok_push|]. destruct b; auto. Qed.
  Lemma pub_next b f f' : pub_inv b f -> fnext f = Some f' -> pub_inv b f'.
  Proof. intros [A B] H. split; [eapply f_ok_next; eauto|]. destruct b; eauto using f_running_next, f_waited_next, f_finished_next. Qed.
  Lemma hb_next b f f' : hb_inv b f -> fnext f = Some f' -> hb_inv b f'.
  Proof. intros [A B] H. split; [eapply f_ok_next; eauto|]. destruct b; eauto using f_running_next, f_waited_next, f_finished_next. Qed.
  Lemma gstep_fwd c {A} (g : going U A) m l g' m' : gstep c g m l g' m' ->
    (m_pub m' = m_pub m \/ exists w, m_pub m' = f_push w (m_pub m)) /\ m_hb m' = m_hb m.
  Proof. destruct 1; cbn; auto. eapply mop_fwd; eauto. Qed.
  Lemma shell_step_fwd a m l a' m' : shell_step listener internal a m l a' m' ->
    (m_pub m' = m_pub m \/ exists w, m_pub m' = f_push w (m_pub m)) /\ m_hb m' = m_hb m.
  Proof. destruct 1; cbn; auto; eapply gstep_fwd; eauto. Qed.

  Lemma step_sinv s l s' : sinv s -> step s l s' -> sinv s'.
  Proof.
    intros (A & B & C & D & F) H. destruct H; unfold sinv, end_inv; cbn [y_sh y_ct y_mem y_stopped y_end] in *.
    - destruct (shell_step_fwd _ _ _ _ _ H) as [P1 P2]. rewrite P2. split; [|split; [exact B|split; [exact C|split; [|exact F]]]].
      + destruct P1 as [->|(w & ->)]; [exact A | now apply pub_push].
      + intros _. split; [|apply D; auto]. intros _. destruct H; try discriminate. destruct b0; discriminate.
    - assert (X : forall P : Prop, (None = Some Exited -> P)) by (intros; discriminate).
      destruct H; cbn in *;
        try (split; [exact A | split; [exact B | split; [exact C | split; [intros _; split; [apply D; auto | discriminate] | discriminate]]]]; fail).
      + destruct (gstep_fwd _ _ _ _ _ _ H) as [P1 P2]. rewrite P2. split; [|split; [exact B|split; [exact C|split; [|exact F]]]].
        * destruct P1 as [->|(w & ->)]; [exact A | now apply pub_push].
        * intros _. split; [apply D; auto|discriminate].
      + split; [|split; [exact B|split; [exact C|split; [intros _; split; [apply D; auto|discriminate] | discriminate]]]].
        destruct A as [A1 [A2 A3]]. split; [exact A1|]. left. cbn. split; auto. intros Hd. rewrite Hd in A3. exact A3.
      + split; [|split; [exact B|split; [exact C|split; [intros _; split; [apply D; auto|discriminate] | discriminate]]]].
        destruct A as [A1 A2]. split; [exact A1|]. split; auto. destruct A2 as [[A2 _]|(w' & _ & A2)]; [|exact A2]. rewrite H in A2. discriminate.
      + split; [exact A|split; [|split; [exact C|split; [intros _; split; [apply D; auto|discriminate] | discriminate]]]].
        destruct B as [A1 [A2 A3]]. split; [exact A1|]. left. cbn. split; auto. intros Hd. rewrite Hd in A3. exact A3.
      + split; [exact A|split; [|split; [exact C|split; [intros _; split; [apply D; auto|discriminate] | discriminate]]]].
        destruct B as [A1 A2]. split; [exact A1|]. split; auto. destruct A2 as [[A2 _]|(w' & _ & A2)]; [|exact A2]. rewrite H in A2. discriminate.
    - split; [exact A|]. split; [exact B|]. split; [reflexivity|]. split; [|auto]. intros _. split; [apply D; auto|discriminate].
    - split; [exact A|]. split; [exact B|]. split; [exact C|]. split; [|reflexivity]. destruct v; [discriminate|]. intros _. split; [apply D; auto|discriminate].
    - split; [exact A|]. split; [exact B|]. split; [exact C|]. split; [|].
      + destruct v; [|discriminate]. intros _. split; [discriminate|apply D; auto].
      + destruct v; [discriminate|]. intros _. rewrite <- C. auto.
    - split; [exact A|]. split; [exact B|]. split; [exact C|]. split; discriminate.
    - split; [exact A|]. split; [exact B|]. split; [exact C|]. split; discriminate.
    - split; [eapply pub_next; eauto|]. split; [exact B|]. split; [exact C|]. split; auto.
    - split; [exact A|]. split; [eapply hb_next; eauto|]. split; [exact C|]. split; auto.
    - destruct ch; (split; [exact A|]; split; [exact B|]; split; [exact C|]; split; auto).
    - split; [exact A|]. split; [now apply hb_push|]. split; [exact C|]. split; auto.
    - split; [exact A|]. split; [exact B|]. split; [exact C|]. split; auto.
  Qed.
  Lemma run_sinv k start ls s : run (y_init k start) ls s -> sinv s.
  Proof.
    remember (y_init k start) as s0 eqn:Hs0. induction 1 as [|s0 ls s1 l s2 H IH Hst]; [subst s|].
    - unfold sinv, pub_inv, hb_inv, end_inv, f_ok, f_running. cbn. repeat split; auto; discriminate.
    - eapply step_sinv; eauto.
  Qed.

  (** The shell thread finds a message after a poll that announced one, unless another thread took it. *)
  Definition no_theft (l : slabel) : Prop := match l with YTook CONTROL _ => False | _ => True end.
  Definition recv_inv s : Prop := forall b, y_sh s = SRecv b -> m_shellq (y_mem s) <> [].
  Lemma mop_shellq o m m' x : mop o m m' x -> (forall w, label_of CONTROL o x <> YTook CONTROL w) -> m_shellq m' = m_shellq m.
  Proof.
    destruct o; cbn [mop]; try (intros [-> _]; auto).
    - intros ->. destruct e; cbn; eauto.
    - intros (_ & -> & _). auto.
    - intros ->. auto.
    - destruct (m_shellq m) as [|w q] eqn:Hq; intros [-> ->] H; [exact Hq|]. cbn in H. now destruct (H w).
    - intros [].
  Qed.
  Lemma step_recv s l s' : recv_inv s -> step s l s' -> no_theft l -> recv_inv s'.
  Proof.
    unfold recv_inv. intros A H N. destruct H; cbn [y_sh y_ct y_mem] in *; try exact A.
    - destruct H; intros b' Hb; try discriminate; auto. destruct b0; discriminate.
    - destruct H; auto. intros b' Hb. specialize (A _ Hb). destruct H; auto. rewrite (mop_shellq _ _ _ _ H); auto.
      intros w X. rewrite X in N. exact N.
    - discriminate.
    - destruct ch; auto. intros b' Hb. specialize (A _ Hb). cbn. destruct (m_shellq m); discriminate.
  Qed.
  Lemma run_recv k start ls s : run (y_init k start) ls s -> Forall no_theft ls -> recv_inv s.
  Proof.
    remember (y_init k start) as s0 eqn:Hs0. induction 1 as [|s0 ls s1 l s2 H IH Hst]; intros HF; [subst s|].
    - discriminate.
    - apply Forall_app in HF as [H1 H2]. inversion H2. eapply step_recv; eauto.
  Qed.
End Stop.

(** ** Fair executions *)
Section Fairness.
  Context {U : Type} (v : variant) (E : env U).
  Let listener c w := dispatch E w c.
  Let internal := dispatch_internal E.
  Notation step := (ystep v listener internal).
  Notation run := (yrun v listener internal).
  Implicit Types (s : ysys U).
  Variable (sigma : nat -> ysys U) (lab : nat -> option slabel).
  Hypothesis Hex : execution v listener internal sigma lab.
  Notation enabled := (enabled v listener internal).
  Notation fair := (fair v listener internal sigma lab).
  Variable (k0 : kstate U) (start : frames) (ls0 : list slabel).
  Hypothesis Hreach : run (y_init k0 start) ls0 (sigma 0).
  Hypothesis Htheft0 : Forall no_theft ls0.
  Hypothesis Htheft : forall n l, lab n = Some l -> no_theft l.

  Fixpoint trace (n : nat) : list slabel :=
    match n with
    | 0 => ls0
    | S n => (trace n ++ match lab n with Some l => [l] | None => [] end)%list
    end.
  Lemma trace_run n : run (y_init k0 start) (trace n) (sigma n) /\ Forall no_theft (trace n).
  Proof.
    induction n as [|n [IH1 IH2]]; [auto|]. cbn. pose proof (Hex n) as H. destruct (lab n) as [l|] eqn:Hl.
    - split; [econstructor; eauto|]. apply Forall_app. split; auto. constructor; eauto.
    - rewrite app_nil_r, H. auto.
  Qed.
  Lemma at_sinv n : sinv v (sigma n).
  Proof. eapply run_sinv, trace_run. Qed.
  Lemma at_recv n : recv_inv (sigma n).
  Proof. eapply run_recv; apply trace_run. Qed.
  Lemma at_phase n : exists L, phase (y_sh (sigma n)) (y_ct (sigma n)) (m_call (y_mem (sigma n))) L.
  Proof. eexists. apply (yrun_phase v E k0 start (trace n) (sigma n)). apply trace_run. Qed.

  Definition ev (n : nat) (Q : ysys U -> Prop) : Prop := exists m, n <= m /\ Q (sigma m).
  Lemma ev_now n (Q : ysys U -> Prop) : Q (sigma n) -> ev n Q.
  Proof. exists n. auto. Qed.
  Lemma ev_then n (P Q : ysys U -> Prop) : ev n P -> (forall m, n <= m -> P (sigma m) -> ev m Q) -> ev n Q.
  Proof. intros (m & A & B) H. destruct (H m A B) as (m' & C & D). exists m'. split; auto. lia. Qed.
  Lemma tid_eq (a b : tid) : {a = b} + {a <> b}.
  Proof. decide equality. Qed.
  (** [P] holds until thread [t] moves or [Q] holds. *)
  Lemma until t (P Q : ysys U -> Prop) :
    (forall n l, P (sigma n) -> step (sigma n) l (sigma (S n)) -> (who l <> t /\ P (sigma (S n))) \/ Q (sigma (S n))) ->
    forall d n, P (sigma n) -> ev n Q \/ P (sigma (n + d)).
  Proof.
    intros H. induction d as [|d IH]; intros n HP; [rewrite Nat.add_0_r; auto|].
    pose proof (Hex n) as Hn. destruct (lab n) as [l|] eqn:Hl.
    - destruct (H n l HP Hn) as [[_ H1]|H1].
      + destruct (IH (S n) H1) as [(m & A & B)|H2]; [left; exists m; split; auto; lia|right]. now rewrite <- plus_n_Sm.
      + left. exists (S n). auto.
    - rewrite <- Hn in HP. destruct (IH (S n) HP) as [(m & A & B)|H2]; [left; exists m; split; auto; lia|right]. now rewrite <- plus_n_Sm.
  Qed.
  Lemma leads t (P Q : ysys U -> Prop) : fair t ->
    (forall n, P (sigma n) -> enabled t (sigma n)) ->
    (forall n l, P (sigma n) -> step (sigma n) l (sigma (S n)) -> (who l <> t /\ P (sigma (S n))) \/ Q (sigma (S n))) ->
    forall n, P (sigma n) -> ev n Q.
  Proof.
    intros HF HE HS n HP. destruct (HF n) as (m & Hm & Hc).
    destruct (until t P Q HS (m - n) n HP) as [H|H]; [exact H|]. replace (n + (m - n)) with m in H by lia.
    destruct Hc as [Hc|(l & Hl & Hw)]; [now destruct (Hc (HE _ H))|].
    pose proof (Hex m) as Hx. rewrite Hl in Hx. destruct (HS m l H Hx) as [[Hn _]|Hq]; [contradiction|].
    exists (S m). split; auto.
  Qed.

  Definition crashed s : Prop := y_end s = Some Crashed.
  Definition at_ct (b : ctpc U) s : Prop := y_ct s = b /\ y_end s = None.
  (** While the control thread stays at [b], other threads do not change this. *)
  Lemma other_step b s l s' : at_ct b s -> step s l s' -> who l <> TControl -> ct_out b = false -> sinv v s ->
    at_ct b s' \/ crashed s'.
  Proof.
    intros [A B] H W O (_ & _ & C & _ & _). destruct H; cbn in *; try congruence; try (left; split; auto; fail); try (right; reflexivity).
    - destruct H; cbn in W; try congruence. destruct H; cbn in W; try congruence. destruct o; cbn in W; try congruence. destruct x; cbn in W; congruence.
    - left. split; auto. cbn. destruct v; auto. rewrite C, A, O in H. now specialize (H eq_refl).
  Qed.
  Lemma who_gstep c {A} (g : going U A) m l g' m' : gstep c g m l g' m' -> who l = chan_tid c.
  Proof. destruct 1; cbn; auto. destruct o; cbn; auto. destruct x; auto. Qed.
  Lemma who_shell a m l a' m' : shell_step listener internal a m l a' m' -> who l = TShell.
  Proof. destruct 1; cbn; auto; eapply who_gstep in H; exact H. Qed.
  Lemma who_control a m l a' m' : control_step listener a m l a' m' -> who l = TControl.
  Proof. destruct 1; cbn; auto; eapply who_gstep in H; exact H. Qed.
  Lemma shell_step_out a m l a' m' : shell_step listener internal a m l a' m' -> sh_out a = false.
  Proof. destruct 1; reflexivity. Qed.
  Lemma control_move b b' s l s' : at_ct b s -> step s l s' -> who l = TControl ->
    (forall m l b'' m', control_step listener b m l b'' m' -> b'' = b') -> (forall g, b <> CRun g) -> b <> CNotify -> b <> COut -> at_ct b' s'.
  Proof.
    intros [A B] H W HD H1 H2 H3. destruct H; cbn in *; try congruence; subst.
    - apply who_shell in H. congruence.
    - split; auto. cbn. eapply HD; eauto.
    - destruct b; try contradiction. now destruct (H1 g).
  Qed.
  (** A step of the control thread that is always possible in these states. *)
  Lemma control_leads b b' (Hf : fair TControl) :
    (forall n, at_ct b (sigma n) -> exists m', control_step listener b (y_mem (sigma n)) (YTau TControl) b' m') ->
    (forall m l b'' m', control_step listener b m l b'' m' -> b'' = b') -> (forall g, b <> CRun g) -> b <> CNotify -> ct_out b = false ->
    forall n, at_ct b (sigma n) -> ev n (fun s => at_ct b' s \/ crashed s).
  Proof.
    intros HE HD H1 H2 H3. apply (leads TControl); auto.
    - intros n [A B]. destruct (HE n (conj A B)) as (m' & Hm). destruct (sigma n) as [sh ct m st en]. cbn in *. subst ct en.
      exists (YTau TControl). eexists. split; [reflexivity|]. apply y_control. exact Hm.
    - intros n l HP Hs. destruct (tid_eq (who l) TControl) as [Hw|Hw].
      + right. left. eapply control_move; eauto. intros ->. discriminate.
      + destruct (other_step _ _ _ _ HP Hs Hw H3 (at_sinv n)) as [X|X]; [left; auto|right; right; exact X].
  Qed.

  (** ** The shell thread while the control thread waits for it *)
  Hypothesis Hshell : fair TShell.
  Hypothesis Hcalls : forall n, ~ calls_itself (sigma n).
  Hypothesis Hstdin : forall n, exists m, n <= m /\ ~ waits_stdin (sigma m).

  Definition wait_at (a : shpc U) s : Prop := at_ct CWaitShell s /\ y_sh s = a.
  Lemma wait_slot n a : wait_at a (sigma n) -> sh_out a = false -> sh_intern a = false /\ m_call (y_mem (sigma n)) = SAsked stop_frames.
  Proof.
    intros [[A _] B] O. destruct (at_phase n) as [L H]. rewrite A, B in H.
    inversion H; subst; try discriminate; auto; repeat match goal with H : calling_is _ _ _ |- _ => destruct H end; cbn in *; try discriminate; congruence.
  Qed.
  Lemma mop_total (o : kop U) m : (match o with KCall _ => False | KStdin => k_stdin (m_k m) < m_stdin m | _ => True end) ->
    exists m' x, mop o m m' x.
  Proof.
    destruct o; cbn [mop]; intros H; try (exists m, 0; reflexivity); try (eexists _, tt; reflexivity); try (destruct H; fail);
      try (eexists _, _; split; [exact H | split; reflexivity]);
      try (destruct (m_shellq m); eexists _, _; split; reflexivity);
      try (eexists _, _; split; reflexivity).
  Qed.
  Lemma shell_enabled n a : wait_at a (sigma n) -> sh_out a = false -> ~ waits_stdin (sigma n) -> enabled TShell (sigma n).
  Proof.
    intros HW O HN. destruct (wait_slot n a HW O) as [Hi Hs]. destruct HW as [[A B] C].
    pose proof (Hcalls n) as Hc. pose proof (at_recv n) as Hr. unfold calls_itself, waits_stdin, recv_inv in *.
    destruct (sigma n) as [sh ct m st en]. cbn in *. subst sh ct en.
    assert (HG : forall l a' m', shell_step listener internal a m l a' m' -> enabled TShell {| y_sh := a; y_ct := CWaitShell; y_mem := m; y_stopped := st; y_end := None |}).
    { intros l a' m' H. eexists l, _. split; [eapply who_shell; eauto|]. apply y_shell. exact H. }
    destruct a; try discriminate.
    - destruct (m_shellq m) eqn:Hq.
      + eapply HG, ss_poll_ctl; auto. now rewrite Hs.
      + eapply HG, ss_poll_shell. rewrite Hq. discriminate.
    - destruct (m_shellq m) eqn:Hq; [now destruct (Hr c)|]. eapply HG, ss_recv; eauto.
    - destruct g as [p|k]; [|contradiction]. destruct p as [x|e|w|o k].
      + eapply HG, ss_ret.
      + eexists _, _. split; [|apply y_crash_shell; exact I]. reflexivity.
      + eexists _, _. split; [|apply y_crash_shell; exact I]. reflexivity.
      + destruct (mop_total o m) as (m' & x & Hm).
        { destruct o; auto. cbn in HN. lia. }
        eapply HG, ss_run, gs_op, Hm.
    - eapply HG, ss_stop; eauto.
  Qed.
  Lemma wait_other n a l : wait_at a (sigma n) -> sh_out a = false -> step (sigma n) l (sigma (S n)) -> who l <> TShell ->
    (wait_at a (sigma (S n)) /\ m_k (y_mem (sigma (S n))) = m_k (y_mem (sigma n)) /\ m_stdin (y_mem (sigma n)) <= m_stdin (y_mem (sigma (S n)))) \/
    crashed (sigma (S n)).
  Proof.
    intros HW O H W. destruct (wait_slot n a HW O) as [_ Hs]. destruct HW as [[A B] C].
    destruct H; cbn in *; subst; try congruence; try discriminate.
    - apply who_shell in H. congruence.
    - inversion H; subst. cbn in Hs. congruence.
    - right. reflexivity.
    - left. repeat split; auto.
    - left. repeat split; auto.
    - left. destruct ch; repeat split; auto.
    - left. repeat split; auto.
    - left. repeat split; auto.
  Qed.
  Definition moved (a : shpc U) s : Prop :=
    crashed s \/ exists a' m l m', wait_at a' s /\ shell_step listener internal a m l a' m' /\ m_call m = SAsked stop_frames.
  Lemma wait_own n a l : wait_at a (sigma n) -> sh_out a = false -> step (sigma n) l (sigma (S n)) -> who l = TShell -> moved a (sigma (S n)).
  Proof.
    intros HW O H W. destruct (wait_slot n a HW O) as [_ Hs]. destruct HW as [[A B] C].
    destruct H; cbn in *; subst; try congruence; try discriminate.
    - right. exists a', m, l, m'. repeat split; auto.
    - apply who_control in H. congruence.
    - left. reflexivity.
  Qed.
  Lemma shell_moves a : sh_out a = false -> forall n, wait_at a (sigma n) -> ev n (moved a).
  Proof.
    intros O n HW.
    assert (ST : forall n l, wait_at a (sigma n) -> step (sigma n) l (sigma (S n)) -> (who l <> TShell /\ wait_at a (sigma (S n))) \/ moved a (sigma (S n))).
    { intros n1 l H1 H2. destruct (tid_eq (who l) TShell) as [Hw|Hw]; [right; eapply wait_own; eauto|].
      destruct (wait_other n1 a l H1 O H2 Hw) as [(X & _)|X]; [left; auto | right; left; exact X]. }
    destruct (Hstdin n) as (m & Hm & Hns).
    destruct (until TShell (wait_at a) (moved a) ST (m - n) n HW) as [H|H]; [exact H|]. replace (n + (m - n)) with m in H by lia.
    destruct (leads TShell (fun s => wait_at a s /\ ~ waits_stdin s) (moved a) Hshell) with (n := m) as (m' & A & B); auto.
    - intros k [H1 H2]. eapply shell_enabled; eauto.
    - intros k l [H1 H2] H3. destruct (tid_eq (who l) TShell) as [Hw|Hw]; [right; eapply wait_own; eauto|].
      destruct (wait_other k a l H1 O H3 Hw) as [(X & X1 & X2)|X]; [|right; left; exact X]. left. split; auto. split; auto.
      intros Hc. apply H2. unfold waits_stdin in *. rewrite X1 in Hc. destruct H1 as [_ Y1]. destruct X as [_ Y2]. rewrite Y1. rewrite Y2 in Hc.
      destruct a as [| |[[| | |[]]|]| | | |]; auto. lia.
    - exists m'. split; auto. lia.
  Qed.
  Definition out_or_crashed s : Prop := crashed s \/ (at_ct CWaitShell s /\ sh_out (y_sh s) = true).
  Lemma from_ctl n : wait_at SCtl (sigma n) -> ev n out_or_crashed.
  Proof.
    intros H. eapply ev_then; [apply (shell_moves SCtl eq_refl n H)|]. intros m _ [X|(a' & m1 & l & m2 & A & B & C)]; apply ev_now; [now left|right].
    destruct A as [A1 A2]. split; auto. rewrite A2. inversion B; subst; auto. unfold stop_frames in C. congruence.
  Qed.
  Definition subtree {A} (g : going U A) (p : kprog U A) : Prop :=
    match g with Going (Do o k) => exists x, p = k x | _ => False end.
  Lemma gstep_subtree c {A} (g : going U A) m l g' m' : gstep c g m l g' m' ->
    (exists p, g' = Going p /\ subtree g p) \/ is_calling g = true \/ is_calling g' = true.
  Proof. destruct 1; cbn; eauto 6. Qed.
  Lemma not_calling n g b : wait_at (SRun g b) (sigma n) -> is_calling g = false.
  Proof. intros [_ H]. pose proof (Hcalls n) as Hc. unfold calls_itself in Hc. rewrite H in Hc. destruct g; auto. now destruct Hc. Qed.
  Lemma from_run (b : bool) (p : kprog U unit) : (forall n, wait_at (if b then SCtl else SPoll) (sigma n) -> ev n out_or_crashed) ->
    forall n, wait_at (SRun (Going p) b) (sigma n) -> ev n out_or_crashed.
  Proof.
    intros HC. induction p as [x|e|w|o k IH]; intros n H;
      (eapply ev_then; [apply (shell_moves (SRun (Going _) b) eq_refl n H)|]); intros m _ [X|(a' & m1 & l & m2 & A & B & C)]; try (apply ev_now; now left);
      inversion B; subst; auto;
      match goal with X : gstep _ _ _ _ _ _ |- _ => destruct (gstep_subtree _ _ _ _ _ _ X) as [(q & -> & Y)|[Y|Y]] end; cbn in Y; try contradiction; try discriminate;
      try (rewrite (not_calling _ _ _ A) in Y; discriminate).
    destruct Y as [x ->]. eapply IH; eauto.
  Qed.
  Lemma from_recv (b : bool) : (forall n, wait_at (if b then SCtl else SPoll) (sigma n) -> ev n out_or_crashed) ->
    forall n, wait_at (SRecv b) (sigma n) -> ev n out_or_crashed.
  Proof.
    intros HC n H. eapply ev_then; [apply (shell_moves (SRecv b) eq_refl n H)|].
    intros m _ [X|(a' & m1 & l & m2 & A & B & C)]; [apply ev_now; now left|]. inversion B; subst. eapply from_run; eauto.
  Qed.
  Lemma from_poll n : wait_at SPoll (sigma n) -> ev n out_or_crashed.
  Proof.
    intros H. eapply ev_then; [apply (shell_moves SPoll eq_refl n H)|].
    intros m _ [X|(a' & m1 & l & m2 & A & B & C)]; [apply ev_now; now left|]. inversion B; subst.
    - rewrite C in A. cbn in A. eapply (from_recv true); eauto. intros k. apply from_ctl.
    - now apply from_ctl.
  Qed.
  Lemma shell_stops n : at_ct CWaitShell (sigma n) -> ev n out_or_crashed.
  Proof.
    intros H. destruct (sh_out (y_sh (sigma n))) eqn:O; [apply ev_now; right; auto|].
    assert (HW : wait_at (y_sh (sigma n)) (sigma n)) by (split; auto). destruct (wait_slot n _ HW O) as [Hi _].
    destruct (y_sh (sigma n)) as [|b|g b| | | |]; try discriminate.
    - now apply from_poll.
    - apply (from_recv b); auto. destruct b; intros k; [apply from_ctl | apply from_poll].
    - pose proof (not_calling _ _ _ HW). destruct g as [p|]; [|discriminate].
      apply (from_run b p); auto. destruct b; intros k; [apply from_ctl | apply from_poll].
    - now apply from_ctl.
  Qed.

  (** ** The rest of the handshake *)
  Hypothesis Hcontrol : fair TControl.
  Hypothesis Hpub : fair TPub.
  Hypothesis Hbeat : fair TBeat.
  Lemma shell_answered n : at_ct CWaitShell (sigma n) -> sh_out (y_sh (sigma n)) = true -> exists w, m_call (y_mem (sigma n)) = SAnswered w.
  Proof.
    intros [A B] O. destruct (at_phase n) as [L H]. rewrite A in H. inversion H; subst; try congruence; eauto; try discriminate.
    destruct (y_sh (sigma n)); discriminate.
  Qed.
  Lemma to_wait_shell n : at_ct CStopShell (sigma n) -> ev n (fun s => at_ct CWaitShell s \/ crashed s).
  Proof.
    apply (control_leads CStopShell CWaitShell Hcontrol); try discriminate; auto.
    - intros m [A B]. eexists. apply cs_stop_shell. destruct (at_phase m) as [L H]. rewrite A in H.
      inversion H; subst; auto; repeat match goal with H : calling_is _ _ _ |- _ => destruct H end; cbn in *; try discriminate; try congruence.
      destruct c; [|discriminate]. pose proof (Hcalls m) as Hc. unfold calls_itself in Hc.
      destruct (y_sh (sigma m)) as [| |[]| |[]| |]; cbn in *; try discriminate; now destruct Hc.
    - intros m l b' m' H. inversion H. reflexivity.
  Qed.
  Lemma to_stop_pub n : at_ct CWaitShell (sigma n) -> sh_out (y_sh (sigma n)) = true -> ev n (fun s => at_ct CStopPub s \/ crashed s).
  Proof.
    intros HA HO. apply (leads TControl (fun s => at_ct CWaitShell s /\ sh_out (y_sh s) = true)); auto.
    - intros m [HA' HO']. destruct (shell_answered m HA' HO') as [w Hw]. destruct HA' as [A B].
      destruct (sigma m) as [sh ct mm st en]. cbn in *. subst ct en. exists (YTau TControl). eexists. split; [reflexivity|].
      apply y_control. eapply cs_wait_shell. exact Hw.
    - intros m l [HA' HO'] Hs. destruct (tid_eq (who l) TControl) as [Hw|Hw].
      + right. left. eapply control_move; eauto; try discriminate. intros mm l' b' m' H. inversion H. reflexivity.
      + destruct (other_step _ _ _ _ HA' Hs Hw eq_refl (at_sinv m)) as [X|X]; [left; split; auto; split; auto|right; right; exact X].
        destruct HA' as [A B]. destruct Hs; cbn in *; subst; auto.
        * apply shell_step_out in H. congruence.
  Qed.

  (** A forwarding thread that was told to stop stops. *)
  Lemma fwd_stops t (sel : mem U -> fwd) b : fair t ->
    (forall n, at_ct b (sigma n) -> f_ok (sel (y_mem (sigma n))) /\ f_waited (sel (y_mem (sigma n)))) ->
    (forall n f, at_ct b (sigma n) -> fnext (sel (y_mem (sigma n))) = Some f -> enabled t (sigma n)) ->
    (forall n l, at_ct b (sigma n) -> f_pc (sel (y_mem (sigma n))) <> FDone -> step (sigma n) l (sigma (S n)) ->
       (who l <> t /\ at_ct b (sigma (S n)) /\ f_pc (sel (y_mem (sigma (S n)))) = f_pc (sel (y_mem (sigma n)))) \/
       (at_ct b (sigma (S n)) /\ fnext (sel (y_mem (sigma n))) = Some (sel (y_mem (sigma (S n))))) \/ crashed (sigma (S n))) ->
    forall n, at_ct b (sigma n) -> ev n (fun s => crashed s \/ (at_ct b s /\ f_pc (sel (y_mem s)) = FDone)).
  Proof.
    intros HF HI HE HS.
    assert (HR : forall r n, at_ct b (sigma n) -> f_rank (f_pc (sel (y_mem (sigma n)))) < r ->
      ev n (fun s => crashed s \/ (at_ct b s /\ f_pc (sel (y_mem s)) = FDone))).
    { induction r as [|r IH]; intros n HA Hr; [lia|].
      assert (HD : f_pc (sel (y_mem (sigma n))) = FDone \/ f_pc (sel (y_mem (sigma n))) <> FDone)
        by (destruct (f_pc (sel (y_mem (sigma n)))); (now left) || (right; discriminate)).
      destruct HD as [HD|HD]; [apply ev_now; right; auto|].
      eapply ev_then with (P := fun s => crashed s \/ (at_ct b s /\ f_rank (f_pc (sel (y_mem s))) < r)).
      - apply (leads t (fun s => at_ct b s /\ f_pc (sel (y_mem s)) = f_pc (sel (y_mem (sigma n))))); auto.
        + intros m [A B]. destruct (HI m A) as [I1 I2]. destruct (f_can_move _ I1 I2) as [f Hf]; [now rewrite B|]. eapply HE; eauto.
        + intros m l [A B] Hst. assert (HN : f_pc (sel (y_mem (sigma m))) <> FDone) by now rewrite B.
          destruct (HS m l A HN Hst) as [(X1 & X2 & X3)|[(X1 & X2)|X]].
          * left. split; auto. split; auto. congruence.
          * right. right. split; auto. apply f_rank_next in X2; [rewrite B in X2; lia|].
            destruct (HI m A) as [_ [[I2 _]|(w & _ & I2)]]; congruence.
          * right. left. exact X.
      - intros m _ [X|[X Y]]; [apply ev_now; now left|]. now apply IH. }
    intros n HA. eapply HR; eauto.
  Qed.
  Lemma calling_past a (b : ctpc U) : calling_is CONTROL a b -> ct_past b = false.
  Proof. intros [_ X]. destruct b; cbn in *; congruence. Qed.
  Lemma shell_gone n : ct_past (y_ct (sigma n)) = true -> sh_out (y_sh (sigma n)) = true.
  Proof.
    intros P. destruct (at_phase n) as [L H]. remember (y_ct (sigma n)) as b.
    assert (HW : ct_wait b = true -> ct_past b = false) by (destruct b; auto; discriminate).
    inversion H; try congruence;
    match goal with X : calling_is CONTROL _ _ |- _ => apply calling_past in X; congruence | |- _ => rewrite HW in P; congruence end.
  Qed.
  Lemma no_shell n b : at_ct b (sigma n) -> ct_past b = true -> sh_out (y_sh (sigma n)) = true.
  Proof. intros [A _] P. apply shell_gone. now rewrite A. Qed.
  Lemma not_dying (a : shpc U) : sh_out a = true -> ~ dying a.
  Proof. destruct a; cbn; auto; discriminate. Qed.
  Lemma pub_stops n : at_ct CWaitPub (sigma n) -> ev n (fun s => crashed s \/ (at_ct CWaitPub s /\ f_pc (m_pub (y_mem s)) = FDone)).
  Proof.
    apply (fwd_stops TPub (@m_pub U)); auto.
    - intros m [A B]. destruct (at_sinv m) as ((X & Y) & _). rewrite A in Y. auto.
    - intros m f [A B] Hf. destruct (sigma m) as [sh ct mm st en]. cbn in *. subst ct en.
      exists (YTau TPub). eexists. split; [reflexivity|]. eapply y_publish; eauto.
    - intros m l HA HD Hs. pose proof (no_shell _ _ HA eq_refl) as HO. destruct (at_sinv m) as ((_ & Y) & _ & C & _).
      destruct HA as [A B]. destruct Hs; cbn in *; subst; try congruence; try discriminate.
      + apply shell_step_out in H. congruence.
      + inversion H; subst. destruct Y as [[Y _]|(w' & Y1 & Y2)]; [|congruence]. rewrite H0 in Y. discriminate.
      + left. repeat split; auto; try discriminate. cbn. destruct v; auto. now specialize (H eq_refl).
      + right. right. reflexivity.
      + contradiction.
      + right. left. repeat split; auto.
      + left. repeat split; auto; discriminate.
      + left. destruct ch; repeat split; auto; discriminate.
      + left. repeat split; auto; discriminate.
      + left. repeat split; auto; discriminate.
  Qed.
  Lemma hb_stops n : at_ct CWaitHb (sigma n) -> ev n (fun s => crashed s \/ (at_ct CWaitHb s /\ f_pc (m_hb (y_mem s)) = FDone)).
  Proof.
    apply (fwd_stops TBeat (@m_hb U)); auto.
    - intros m [A B]. destruct (at_sinv m) as (_ & (X & Y) & _). rewrite A in Y. auto.
    - intros m f [A B] Hf. destruct (sigma m) as [sh ct mm st en]. cbn in *. subst ct en.
      exists (YTau TBeat). eexists. split; [reflexivity|]. eapply y_beat; eauto.
    - intros m l HA HD Hs. pose proof (no_shell _ _ HA eq_refl) as HO. destruct (at_sinv m) as (_ & (_ & Y) & C & _).
      destruct HA as [A B]. destruct Hs; cbn in *; subst; try congruence; try discriminate.
      + apply shell_step_out in H. congruence.
      + inversion H; subst. destruct Y as [[Y _]|(w' & Y1 & Y2)]; [|congruence]. rewrite H0 in Y. discriminate.
      + left. repeat split; auto; try discriminate. cbn. destruct v; auto. now specialize (H eq_refl).
      + right. right. reflexivity.
      + contradiction.
      + left. repeat split; auto; discriminate.
      + right. left. repeat split; auto.
      + left. destruct ch; repeat split; auto; discriminate.
      + left. repeat split; auto; discriminate.
      + left. repeat split; auto; discriminate.
  Qed.
  Lemma to_wait_pub n : at_ct CStopPub (sigma n) -> ev n (fun s => at_ct CWaitPub s \/ crashed s).
  Proof.
    apply (control_leads CStopPub CWaitPub Hcontrol); try discriminate; auto.
    - intros m [A B]. eexists. apply cs_stop_pub. destruct (at_sinv m) as ((_ & Y) & _). rewrite A in Y. apply Y.
    - intros m l b' m' H. inversion H. reflexivity.
  Qed.
  Lemma to_wait_hb n : at_ct CStopHb (sigma n) -> ev n (fun s => at_ct CWaitHb s \/ crashed s).
  Proof.
    apply (control_leads CStopHb CWaitHb Hcontrol); try discriminate; auto.
    - intros m [A B]. eexists. apply cs_stop_hb. destruct (at_sinv m) as (_ & (_ & Y) & _). rewrite A in Y. apply Y.
    - intros m l b' m' H. inversion H. reflexivity.
  Qed.
  (** A control step that becomes possible when a forwarding thread has finished. *)
  Lemma after_done b b' (sel : mem U -> fwd) n :
    (forall n, at_ct b (sigma n) -> f_waited (sel (y_mem (sigma n)))) ->
    (forall n, at_ct b (sigma n) -> f_pc (sel (y_mem (sigma n))) = FDone -> exists m', control_step listener b (y_mem (sigma n)) (YTau TControl) b' m') ->
    (forall m l b'' m', control_step listener b m l b'' m' -> b'' = b') -> (forall g, b <> CRun g) -> b <> CNotify -> ct_out b = false ->
    (forall n l, at_ct b (sigma n) -> f_pc (sel (y_mem (sigma n))) = FDone -> step (sigma n) l (sigma (S n)) -> who l <> TControl ->
       f_pc (sel (y_mem (sigma (S n)))) = FDone) ->
    at_ct b (sigma n) -> f_pc (sel (y_mem (sigma n))) = FDone -> ev n (fun s => at_ct b' s \/ crashed s).
  Proof.
    intros HI HE HD H1 H2 H3 HK HA HF. apply (leads TControl (fun s => at_ct b s /\ f_pc (sel (y_mem s)) = FDone)); auto.
    - intros m [A B]. destruct (HE m A B) as (m' & Hm). destruct A as [A C]. destruct (sigma m) as [sh ct mm st en]. cbn in *. subst ct en.
      exists (YTau TControl). eexists. split; [reflexivity|]. apply y_control. exact Hm.
    - intros m l [A B] Hs. destruct (tid_eq (who l) TControl) as [Hw|Hw].
      + right. left. eapply control_move; eauto. intros ->. discriminate.
      + destruct (other_step _ _ _ _ A Hs Hw H3 (at_sinv m)) as [X|X]; [left; split; auto; split; eauto|right; right; exact X].
  Qed.
  Lemma fnext_done f f' : fnext f = Some f' -> f_pc f <> FDone.
  Proof. unfold fnext. intros H X. rewrite X in H. discriminate. Qed.
  Lemma to_stop_hb n : at_ct CWaitPub (sigma n) -> f_pc (m_pub (y_mem (sigma n))) = FDone -> ev n (fun s => at_ct CStopHb s \/ crashed s).
  Proof.
    assert (HI : forall m, at_ct CWaitPub (sigma m) -> f_waited (m_pub (y_mem (sigma m)))).
    { intros m [A B]. destruct (at_sinv m) as ((X & Y) & _). rewrite A in Y. auto. }
    apply (after_done CWaitPub CStopHb (@m_pub U)); auto; try discriminate.
    - intros m HA HF. destruct (HI m HA) as [[_ X]|(w & X & _)]; [contradiction|]. eexists. eapply cs_wait_pub; eauto.
    - intros m l b' m' H. inversion H. reflexivity.
    - intros m l HA HF Hs Hw. pose proof (no_shell _ _ HA eq_refl) as HO. destruct HA as [A B].
      destruct Hs; cbn in *; subst; auto; try congruence.
      + apply shell_step_out in H. congruence.
      + apply who_control in H. congruence.
      + now apply fnext_done in H.
      + destruct ch; auto.
  Qed.
  Lemma to_notify n : at_ct CWaitHb (sigma n) -> f_pc (m_hb (y_mem (sigma n))) = FDone -> ev n (fun s => at_ct CNotify s \/ crashed s).
  Proof.
    assert (HI : forall m, at_ct CWaitHb (sigma m) -> f_waited (m_hb (y_mem (sigma m)))).
    { intros m [A B]. destruct (at_sinv m) as (_ & (X & Y) & _). rewrite A in Y. auto. }
    apply (after_done CWaitHb CNotify (@m_hb U)); auto; try discriminate.
    - intros m HA HF. destruct (HI m HA) as [[_ X]|(w & X & _)]; [contradiction|]. eexists. eapply cs_wait_hb; eauto.
    - intros m l b' m' H. inversion H. reflexivity.
    - intros m l HA HF Hs Hw. pose proof (no_shell _ _ HA eq_refl) as HO. destruct HA as [A B].
      destruct Hs; cbn in *; subst; auto; try congruence.
      + apply shell_step_out in H. congruence.
      + apply who_control in H. congruence.
      + now apply fnext_done in H.
      + destruct ch; auto.
  Qed.
  Lemma to_out n : at_ct CNotify (sigma n) -> ev n (fun s => at_ct COut s \/ crashed s).
  Proof.
    apply (leads TControl (at_ct CNotify)); auto.
    - intros m [A B]. destruct (sigma m) as [sh ct mm st en]. cbn in *. subst ct en.
      exists (YTau TControl). eexists. split; [reflexivity|]. apply y_notify.
    - intros m l HA Hs. destruct (tid_eq (who l) TControl) as [Hw|Hw].
      + right. destruct HA as [A B]. destruct Hs; cbn in *; subst; try congruence; try discriminate.
        * apply who_shell in H. congruence.
        * inversion H.
        * left. split; auto.
        * contradiction.
      + destruct (other_step _ _ _ _ HA Hs Hw eq_refl (at_sinv m)) as [X|X]; [left; auto|right; right; exact X].
  Qed.
  Definition exited s : Prop := y_end s = Some Exited.
  Lemma to_exit n : at_ct COut (sigma n) -> ev n exited.
  Proof.
    intros HA.
    assert (Hv : ControlMain = v \/ ShellMain = v) by (destruct v; auto). destruct Hv as [Hv|Hv].
    - apply (leads TControl (at_ct COut)); auto.
      + intros m [A B]. destruct (sigma m) as [sh ct mm st en]. cbn in *. subst ct en.
        exists (YTau TControl). eexists. split; [reflexivity|]. apply y_out_control.
      + intros m l HB Hs. pose proof (no_shell _ _ HB eq_refl) as HO. destruct HB as [A B].
        apply not_dying in HO as HD.
        destruct Hs; cbn in *; subst; try congruence; try discriminate; try (left; split; [discriminate|split; auto]; fail).
        * apply shell_step_out in H. congruence.
        * inversion H.
        * right. reflexivity.
        * contradiction.
    - apply (leads TShell (fun s => (y_ct s = COut \/ y_ct s = CEnd) /\ y_end s = None)); auto.
      + intros m [A B]. destruct (at_sinv m) as (_ & _ & C & D & _). rewrite B in D. destruct (D eq_refl) as [D1 _]. specialize (D1 (eq_sym Hv)).
        assert (HO : sh_out (y_sh (sigma m)) = true). { destruct A as [A|A]; (eapply no_shell; [split; [exact A|exact B]|reflexivity]). }
        destruct (sigma m) as [sh ct mm st en]. cbn in *. subst en.
        destruct sh; try discriminate; [|contradiction].
        exists (YTau TShell). eexists. split; [reflexivity|]. apply y_out_shell. intros _. rewrite C. destruct A as [-> | ->]; reflexivity.
      + intros m l [A B] Hs. 
        assert (HO : sh_out (y_sh (sigma m)) = true). { destruct A as [A|A]; (eapply no_shell; [split; [exact A|exact B]|reflexivity]). }
        apply not_dying in HO as HD.
        destruct Hs; cbn in *; subst; try congruence; try discriminate; try (left; split; [discriminate|split; auto]; fail).
        * apply shell_step_out in H. congruence.
        * destruct A; subst; inversion H.
        * right. reflexivity.
        * destruct A; subst; contradiction.
      + split; [left|]; apply HA.
  Qed.
  Lemma exited_stopped n : exited (sigma n) -> all_stopped (sigma n).
  Proof.
    intros HE. destruct (at_sinv n) as ((_ & P) & (_ & B) & C & D & F). specialize (F HE).
    destruct (at_phase n) as [L H]. split; auto.
    assert (HO : sh_out (y_sh (sigma n)) = true).
    { apply shell_gone. destruct (y_ct (sigma n)); auto; discriminate. }
    split; [destruct (y_sh (sigma n)); auto; discriminate|]. split; [destruct (y_ct (sigma n)); auto; discriminate|].
    destruct (y_ct (sigma n)); try discriminate; split; (apply P || apply B).
  Qed.
  (** Once the control thread has left its loop the process ends. *)
  Lemma stop_terminates : y_ct (sigma 0) = CStopShell -> y_end (sigma 0) = None ->
    exists n, crashed (sigma n) \/ all_stopped (sigma n).
  Proof.
    intros A B.
    assert (H : ev 0 (fun s => crashed s \/ exited s)).
    { eapply ev_then; [apply (to_wait_shell 0); split; auto|]. intros n1 _ [H1|H1]; [|apply ev_now; now left].
      eapply ev_then; [apply (shell_stops n1 H1)|]. intros n2 _ [H2|[H2 O2]]; [apply ev_now; now left|].
      eapply ev_then; [apply (to_stop_pub n2 H2 O2)|]. intros n3 _ [H3|H3]; [|apply ev_now; now left].
      eapply ev_then; [apply (to_wait_pub n3 H3)|]. intros n4 _ [H4|H4]; [|apply ev_now; now left].
      eapply ev_then; [apply (pub_stops n4 H4)|]. intros n5 _ [H5|[H5 O5]]; [apply ev_now; now left|].
      eapply ev_then; [apply (to_stop_hb n5 H5 O5)|]. intros n6 _ [H6|H6]; [|apply ev_now; now left].
      eapply ev_then; [apply (to_wait_hb n6 H6)|]. intros n7 _ [H7|H7]; [|apply ev_now; now left].
      eapply ev_then; [apply (hb_stops n7 H7)|]. intros n8 _ [H8|[H8 O8]]; [apply ev_now; now left|].
      eapply ev_then; [apply (to_notify n8 H8 O8)|]. intros n9 _ [H9|H9]; [|apply ev_now; now left].
      eapply ev_then; [apply (to_out n9 H9)|]. intros n10 _ [H10|H10]; [|apply ev_now; now left].
      eapply ev_then; [apply (to_exit n10 H10)|]. intros n11 _ H11. apply ev_now. now right. }
    destruct H as (n & _ & [H|H]); exists n; [now left|right; now apply exited_stopped].
  Qed.
End Fairness.
