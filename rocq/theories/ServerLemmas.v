(** Final forms of the server lemmas. *)
From Verif Require Import Base BaseFacts Json JsonText Utf8 Utf8Proofs JsonTextProofs Auth Message MessageProofs WireSpec History Comm Tree Kernel KernelSpec KernelProofs KernelRun
  Server ServerSpec ServerProofs Split SplitSpec Threads SplitProofs SplitCalls SplitStop ServerExec.

Lemma f_all_prefix f l : f_all f = l -> prefix (f_out f) l.
Proof. intros <-. unfold f_all. eexists. reflexivity. Qed.
(** Without a stop command, a forwarding thread left alone sends everything. *)
Inductive fsteps : fwd -> fwd -> Prop :=
| fs_nil f : fsteps f f
| fs_cons f g h : fnext f = Some g -> fsteps g h -> fsteps f h.
Lemma f_drains f : f_ok f -> f_running f -> exists g, fsteps f g /\ fnext g = None /\ f_pc g = FPoll /\ f_in g = [] /\ f_out g = f_all f.
Proof.
  assert (P : forall q o, exists g, fsteps {| f_in := q; f_out := o; f_ctl := SIdle; f_pc := FPoll |} g /\ fnext g = None /\ f_pc g = FPoll /\ f_in g = [] /\ f_out g = (o ++ q)%list).
  { induction q as [|w q IH]; intros o.
    - eexists. split; [constructor|]. cbn. rewrite app_nil_r. auto.
    - destruct (IH (o ++ [w])%list) as (g & A & B). exists g. rewrite <- app_assoc in B. split; auto.
      eapply fs_cons; [reflexivity|]. eapply fs_cons; [reflexivity|]. eapply fs_cons; [reflexivity|]. exact A. }
  destruct f as [q o c p]. unfold f_ok, f_running, f_all, in_flight. cbn. intros Ho [-> H]. destruct p as [|[]|w []| |]; try contradiction.
  - destruct (P q o) as (g & A). exists g. auto.
  - destruct q as [|w q]; [now destruct (Ho false)|]. destruct (P q (o ++ [w])%list) as (g & A & B). exists g. rewrite <- app_assoc in B. split; auto.
    eapply fs_cons; [reflexivity|]. eapply fs_cons; [reflexivity|]. exact A.
  - destruct (P q (o ++ [w])%list) as (g & A & B). exists g. rewrite <- app_assoc in B. split; auto. eapply fs_cons; [reflexivity|]. exact A.
Qed.

Section Default.
  Context {U : Type} (listener : channel -> frames -> kprog U unit) (k : kstate U) (start : frames).
  Notation run := (drun listener (d_init k start)).
  Notation step := (dstep listener).
  Notation main := (main_step listener).

  Lemma drun_one s l s' : drun listener s [l] s' -> step s l s'.
  Proof.
    remember [l] as ls eqn:E. intros H. destruct H as [|s ls s1 l' s2 H Hs]; [discriminate|].
    apply (app_inj_tail ls []) in E as [-> ->]. remember [] as ls eqn:E. destruct H as [|s ls]; auto. destruct ls; discriminate.
  Qed.
  Lemma server_order ls s : run ls s ->
    arrived CONTROL ls = (control_taken ls ++ m_ctlq (d_mem s))%list /\ arrived SHELL ls = (shell_taken ls ++ m_shellq (d_mem s))%list.
  Proof. intros H. eapply run_queues; eauto. Qed.
  Lemma server_idle ls s : run ls s -> d_pc s = MPoll -> (forall l s', ~ main s l s') ->
    control_taken ls = arrived CONTROL ls /\ shell_taken ls = arrived SHELL ls.
  Proof.
    intros H Hp Hn. destruct (server_order _ _ H) as [A B]. destruct s as [pc m]. cbn in *. subst pc.
    assert (Q : m_ctlq m = [] /\ m_shellq m = []).
    { destruct (m_ctlq m) eqn:E1, (m_shellq m) eqn:E2; auto; exfalso; (eapply Hn; apply ms_poll; rewrite E1, E2; (left; discriminate) || (right; discriminate)). }
    destruct Q as [Q1 Q2]. rewrite Q1, app_nil_r in A. rewrite Q2, app_nil_r in B. auto.
  Qed.
  Lemma server_priority ls s l1 l3 c w : run ls s -> ls = (l1 ++ Hand c w :: l3)%list ->
    exists a rc rs b, l1 = (a ++ Poll rc rs :: b)%list /\ no_poll b /\
      (rc = true <-> control_taken a <> arrived CONTROL a) /\ (rs = true <-> shell_taken a <> arrived SHELL a) /\
      match c with
      | CONTROL => rc = true /\ handed b = []
      | SHELL => rs = true /\ (if rc then exists w', handed b = [(CONTROL, w')] else handed b = [])
      end.
  Proof.
    intros H ->. destruct (run_app _ _ _ _ _ H) as (s1 & R1 & R2).
    assert (Hh : exists s2, step s1 (Hand c w) s2).
    { change (Hand c w :: l3) with ([Hand c w] ++ l3)%list in R2. destruct (run_app _ _ _ _ _ R2) as (s2 & R3 & _).
      apply drun_one in R3. eauto. }
    destruct Hh as (s2 & Hh). apply hand_inv in Hh. pose proof (run_since _ _ _ _ R1 eq_refl) as HS.
    assert (K : forall rc rs hs, since l1 rc rs hs -> exists a b, l1 = (a ++ Poll rc rs :: b)%list /\ no_poll b /\ handed b = hs /\
       (rc = true <-> control_taken a <> arrived CONTROL a) /\ (rs = true <-> shell_taken a <> arrived SHELL a)).
    { intros rc rs hs (a & b & -> & N & Hd). exists a, b. split; auto. split; auto. split; auto.
      destruct (run_app _ _ _ _ _ R1) as (s3 & R3 & R4). change (Poll rc rs :: b) with ([Poll rc rs] ++ b)%list in R4.
      destruct (run_app _ _ _ _ _ R4) as (s4 & R5 & _).
      apply drun_one in R5 as X2. apply poll_inv in X2 as [Y1 Y2]. destruct (server_order _ _ R3) as [Z1 Z2].
      rewrite Y1, Y2, Z1, Z2. split; (split; [intros X E|intros X E]).
      - rewrite <- (app_nil_r (control_taken a)) in E at 1. apply app_inv_head in E. congruence.
      - rewrite E, app_nil_r in X. congruence.
      - rewrite <- (app_nil_r (shell_taken a)) in E at 1. apply app_inv_head in E. congruence.
      - rewrite E, app_nil_r in X. congruence. }
    destruct c.
    - rewrite Hh in HS. cbn in HS. destruct HS as [HS|[w' HS]]; apply K in HS as (a & b & -> & N & Hd & A1 & A2).
      + exists a, false, true, b. auto 10.
      + exists a, true, true, b. eauto 10.
    - destruct Hh as [rs Hh]. rewrite Hh in HS. cbn in HS. apply K in HS as (a & b & -> & N & Hd & A1 & A2). exists a, true, rs, b. auto 10.
  Qed.
  Lemma server_stop ls s l1 l2 : run ls s -> ls = (l1 ++ StopRequest :: l2)%list -> handed l2 = [] /\ no_poll l2.
  Proof.
    intros H ->. change (StopRequest :: l2) with ([StopRequest] ++ l2)%list in H. rewrite app_assoc in H.
    destruct (run_app _ _ _ _ _ H) as (s1 & R1 & R2). destruct (run_stop _ _ _ _ R1 eq_refl) as [A B].
    assert (m_stop (d_mem s1) = true) as S by (apply A, in_app_iff; right; now left).
    now apply (run_after_stop _ _ _ _ R2) in S as (_ & _ & C & D); auto.
  Qed.
  Lemma server_publisher ls s : run ls s -> prefix (f_out (m_pub (d_mem s))) (start :: published ls).
  Proof. intros H. apply run_fwd in H as [H _]. apply f_all_prefix. exact H. Qed.
  Lemma server_heartbeat ls s : run ls s -> prefix (f_out (m_hb (d_mem s))) (beats ls).
  Proof. intros H. apply run_fwd in H as [_ H]. apply f_all_prefix. exact H. Qed.
  Lemma server_publisher_idle ls s : run ls s -> f_pc (m_pub (d_mem s)) = FPoll -> fnext (m_pub (d_mem s)) = None ->
    f_out (m_pub (d_mem s)) = start :: published ls.
  Proof. intros H Hp Hn. apply run_fwd in H as [H _]. apply f_blocked in Hn as (_ & _ & ->); auto. Qed.
  Lemma server_heartbeat_idle ls s : run ls s -> f_pc (m_hb (d_mem s)) = FPoll -> fnext (m_hb (d_mem s)) = None ->
    f_out (m_hb (d_mem s)) = beats ls.
  Proof. intros H Hp Hn. apply run_fwd in H as [_ H]. apply f_blocked in Hn as (_ & _ & ->); auto. Qed.

  (** The forwarding threads have not been told to stop before [stop_channels]. *)
  Definition before_stop (pc : mpc U) : Prop := match pc with MStop1 | MWait1 | MStop2 | MWait2 | MExit | MCrash => False | _ => True end.
  Definition d_inv (s : dsys U) : Prop :=
    f_ok (m_pub (d_mem s)) /\ f_ok (m_hb (d_mem s)) /\ (before_stop (d_pc s) \/ d_pc s = MStop1 -> f_running (m_pub (d_mem s)) /\ f_running (m_hb (d_mem s))).
  Lemma step_inv s l s' : d_inv s -> step s l s' -> d_inv s'.
  Proof.
    intros (A & B & C) H. destruct H as [s l s' H| | | | | |]; unfold d_inv in *; cbn [d_mem d_pc m_pub m_hb set_pub set_hb set_ctlq set_shellq set_mstdin] in *; auto.
    - destruct H; cbn [d_mem d_pc] in *; try (repeat split; auto; fail); try (split; [auto|split; [auto|]]; intros X; first [apply C; cbn; auto; fail | destruct X; (contradiction || discriminate)]; fail).
      + apply mop_fwd in H as [P1 P2]. rewrite P2. split; [destruct P1 as [->|(w & ->)]; auto using f_ok_push|]. split; auto. intros X. destruct (C (or_introl I)). split; auto.
        destruct P1 as [->|(w & ->)]; auto.
      + apply mop_fwd in H as [P1 P2]. rewrite P2. split; [destruct P1 as [->|(w & ->)]; auto using f_ok_push|]. split; auto. intros X. destruct (C (or_introl I)). split; auto.
        destruct P1 as [->|(w & ->)]; auto.
    - split; [eauto using f_ok_next|]. split; auto. intros X. destruct (C X). split; eauto using f_running_next.
    - split; auto. split; [eauto using f_ok_next|]. intros X. destruct (C X). split; eauto using f_running_next.
    - split; auto. split; [now apply f_ok_push|]. intros X. destruct (C X) as [C1 C2]. split; auto.
  Qed.
  Lemma run_inv ls s : run ls s -> d_inv s.
  Proof.
    remember (d_init k start) as s0 eqn:E. induction 1 as [|s0 ls s1 l s2 H IH Hs]; [subst|eauto using step_inv].
    unfold d_inv, f_ok, f_running. cbn. repeat split; auto; discriminate.
  Qed.
  Lemma server_forwards ls s : run ls s -> before_stop (d_pc s) ->
    (exists f, fsteps (m_pub (d_mem s)) f /\ f_out f = start :: published ls) /\
    (exists f, fsteps (m_hb (d_mem s)) f /\ f_out f = beats ls).
  Proof.
    intros H Hb. destruct (run_inv _ _ H) as (A & B & C). destruct (C (or_introl Hb)) as [C1 C2]. apply run_fwd in H as [H1 H2].
    destruct (f_drains _ A C1) as (f & F1 & _ & _ & _ & F2). destruct (f_drains _ B C2) as (g & G1 & _ & _ & _ & G2).
    split; [exists f|exists g]; split; auto; [rewrite F2; exact H1 | rewrite G2; exact H2].
  Qed.
End Default.

Section Split.
  Context {U : Type} (v : variant) (listener : channel -> frames -> kprog U unit) (internal : frames -> kprog U frames) (k : kstate U) (start : frames).
  Notation run := (yrun v listener internal (y_init k start)).
  Notation step := (ystep v listener internal).
  Lemma came_app c a b : came c (a ++ b) = (came c a ++ came c b)%list. Proof. apply flat_map_app. Qed.
  Lemma taken_app c a b : taken c (a ++ b) = (taken c a ++ taken c b)%list. Proof. apply flat_map_app. Qed.
  Lemma sent_out_app a b : sent_out (a ++ b) = (sent_out a ++ sent_out b)%list. Proof. apply flat_map_app. Qed.
  Lemma pulses_app a b : pulses (a ++ b) = (pulses a ++ pulses b)%list. Proof. apply flat_map_app. Qed.
  Definition accounts (m : mem U) (l : slabel) (m' : mem U) : Prop :=
    (m_ctlq m ++ came CONTROL [l] = taken CONTROL [l] ++ m_ctlq m' /\ m_shellq m ++ came SHELL [l] = taken SHELL [l] ++ m_shellq m' /\
     f_all (m_pub m') = f_all (m_pub m) ++ sent_out [l] /\ f_all (m_hb m') = f_all (m_hb m) ++ pulses [l])%list.
  Lemma mop_accounts c o (m m' : mem U) x : mop o m m' x -> accounts m (label_of c o x) m'.
  Proof.
    unfold accounts. destruct o; cbn [mop label_of]; try (intros [-> _]; cbn; rewrite ?app_nil_r; auto; fail); try (intros ->; cbn; rewrite ?app_nil_r; auto; fail).
    - intros ->. destruct e; cbn; rewrite ?app_nil_r; auto. repeat split; auto. exact (f_all_push _ _).
    - intros (_ & -> & _). cbn. rewrite ?app_nil_r; auto.
    - destruct (m_shellq m) eqn:E; intros [-> ->]; cbn; rewrite ?app_nil_r, ?E; auto.
    - intros [].
  Qed.
  Lemma gstep_accounts c A (g : going U A) m l g' m' : gstep c g m l g' m' -> accounts m l m'.
  Proof. destruct 1; [eapply mop_accounts; eauto| |]; unfold accounts; cbn; rewrite ?app_nil_r; auto. Qed.
  Lemma step_accounts s l s' : step s l s' -> accounts (y_mem s) l (y_mem s').
  Proof.
    intros H. destruct H; cbn [y_mem]; try (unfold accounts; cbn; rewrite ?app_nil_r; auto; fail).
    - destruct H; try (eapply gstep_accounts; eauto; fail); unfold accounts; cbn; rewrite ?app_nil_r; auto.
    - destruct H; try (eapply gstep_accounts; eauto; fail); unfold accounts; cbn; rewrite ?app_nil_r; auto.
    - unfold accounts; cbn. apply fnext_all in H. rewrite H, ?app_nil_r; auto.
    - unfold accounts; cbn. apply fnext_all in H. rewrite H, ?app_nil_r; auto.
    - unfold accounts. destruct ch; cbn; rewrite ?app_nil_r; auto.
    - unfold accounts; cbn. rewrite ?app_nil_r; repeat split; auto. exact (f_all_push _ _).
  Qed.
  Lemma split_order ls s : run ls s ->
    came CONTROL ls = (taken CONTROL ls ++ m_ctlq (y_mem s))%list /\ came SHELL ls = (taken SHELL ls ++ m_shellq (y_mem s))%list /\
    f_all (m_pub (y_mem s)) = start :: sent_out ls /\ f_all (m_hb (y_mem s)) = pulses ls.
  Proof.
    remember (y_init k start) as s0 eqn:E. induction 1 as [|s0 ls s1 l s2 H IH Hs]; [subst; cbn; auto|].
    destruct (IH E) as (A & B & C & D). apply step_accounts in Hs as (A' & B' & C' & D').
    rewrite !came_app, !taken_app, sent_out_app, pulses_app, A, B, <- !app_assoc, A', B', C', D', C, D. auto.
  Qed.
  Lemma split_publisher ls s : run ls s -> prefix (f_out (m_pub (y_mem s))) (start :: sent_out ls) /\ prefix (f_out (m_hb (y_mem s))) (pulses ls).
  Proof. intros H. apply split_order in H as (_ & _ & A & B). split; apply f_all_prefix; auto. Qed.
  Lemma split_forward_idle ls s : run ls s ->
    (f_pc (m_pub (y_mem s)) = FPoll -> fnext (m_pub (y_mem s)) = None -> f_out (m_pub (y_mem s)) = start :: sent_out ls) /\
    (f_pc (m_hb (y_mem s)) = FPoll -> fnext (m_hb (y_mem s)) = None -> f_out (m_hb (y_mem s)) = pulses ls).
  Proof. intros H. apply split_order in H as (_ & _ & A & B). split; intros Hp Hn; apply f_blocked in Hn as (_ & _ & ->); auto. Qed.
End Split.

(** ** The trivial messenger *)
Lemma trivial_messenger U (E : env U) j a s s' : e_split E = false -> jgood j = true -> utf8_json j -> jgood a = true -> utf8_json a ->
  Kernel.run (interp E (RInternal j)) s = (s', Ok a) -> Kernel.run (send_to_shell E j) s = (s', Ok a).
Proof.
  intros Hs Gj Vj Ga Va Hr. apply dump_strict_iff in Vj as Ej. destruct Ej as [t Ht]. apply dump_strict_iff in Va as Ea. destruct Ea as [u Hu].
  assert (Jv : jvalid j = true). { apply dump_strict_some. exists t. now apply dump_ok. }
  assert (Av : jvalid a = true). { apply dump_strict_some. exists u. now apply dump_ok. }
  assert (Hd : dump (e_eh E) a = Ok u). { apply dump_ok. apply dump_handler. now apply dump_ok. }
  unfold send_to_shell. rewrite run_bind, run_res, Ht. cbn beta iota. rewrite Hs, run_bind. unfold dispatch_internal. rewrite run_bind, run_res.
  cbn [pop bind]. rewrite run_bind, run_res, (parse_dump _ _ _ Gj Jv Ht), run_bind, Hr, run_bind, run_res, Hd, run_ret, run_bind, run_res.
  cbn [pop bind]. rewrite run_res, (parse_dump _ _ _ Ga Av Hu). reflexivity.
Qed.

(** ** Termination of the split servers, in plain terms *)
Lemma stop_ends U v (E : env U) k start ls0 sigma lab :
  execution v (fun c w => dispatch E w c) (dispatch_internal E) sigma lab ->
  yrun v (fun c w => dispatch E w c) (dispatch_internal E) (y_init k start) ls0 (sigma 0) ->
  y_ct (sigma 0) = CStopShell -> y_end (sigma 0) = None ->
  (forall t, t <> TEnv -> fair v (fun c w => dispatch E w c) (dispatch_internal E) sigma lab t) ->
  (forall w, ~ In (YTook CONTROL w) ls0) -> (forall n w, lab n <> Some (YTook CONTROL w)) ->
  (forall n, ~ calls_itself (sigma n)) -> (forall n, exists m, n <= m /\ ~ waits_stdin (sigma m)) ->
  exists n, y_end (sigma n) = Some Crashed \/ all_stopped (sigma n).
Proof.
  intros He Hr Hc Hn Hf T0 T1 Hs Hi.
  apply (stop_terminates v E sigma lab He k start ls0 Hr); auto; try (apply Hf; discriminate).
  - apply Forall_forall. intros l Hl. destruct l as [| | | | |[]| | | | |]; cbn; auto. eapply T0; eauto.
  - intros n l Hl. destruct l as [| | | | |[]| | | | |]; cbn; auto. eapply T1; eauto.
Qed.

(** ** Internal requests *)
Lemma same_value h j t : jgood j = true -> dump EStrict j = Ok t -> dump h j = Ok t /\ parse t = Ok j.
Proof.
  intros G H. assert (V : jvalid j = true) by (apply dump_strict_some; exists t; now apply dump_ok). split; [|eapply parse_dump; eauto].
  apply dump_ok. apply dump_handler. now apply dump_ok.
Qed.
Lemma calls_not_stop U v (E : env U) k start ls s c w :
  yrun v (fun c w => dispatch E w c) (dispatch_internal E) (y_init k start) ls s -> In (YCall c w) ls ->
  exists j t, dump EStrict j = Ok t /\ w = [t] /\ t <> "stop".
Proof. intros H Hi. destruct (calls_texts v E k start ls s c w H Hi) as (j & t & A & B). exists j, t. split; auto. split; auto. eapply dump_not_stop; eauto. Qed.

Lemma sync_app a b : sync (a ++ b) = (sync a ++ sync b)%list.
Proof. apply filter_app. Qed.
Lemma filter_nil_app {A} (f : A -> bool) l x r : filter f l = x :: r -> exists a b, l = (a ++ x :: b)%list /\ filter f a = [] /\ filter f b = r.
Proof.
  induction l as [|y l IH]; cbn; [discriminate|]. destruct (f y) eqn:E.
  - intros [= <- <-]. exists [], l. auto.
  - intros H. destruct (IH H) as (a & b & -> & B & C). exists (y :: a), b. cbn. rewrite E. auto.
Qed.
Definition is_call (l : slabel) : Prop := match l with YCall _ _ => True | _ => False end.
Lemma last_call a a' x x' b b' : (a ++ x :: b = a' ++ x' :: b')%list -> is_call x -> is_call x' ->
  Forall (fun l => ~ is_call l) b -> Forall (fun l => ~ is_call l) b' -> x = x' /\ b = b'.
Proof.
  revert a'. induction a as [|y a IH]; intros [|y' a'] H Hx Hx' Hb Hb'; cbn in H.
  - now injection H as -> ->.
  - injection H as -> ->. exfalso. rewrite Forall_forall in Hb. apply (Hb x'); auto. apply in_app_iff. right. now left.
  - injection H as -> <-. exfalso. rewrite Forall_forall in Hb'. apply (Hb' x); auto. apply in_app_iff. right. now left.
  - injection H as _ H. eapply IH; eauto.
Qed.
Lemma call_answered U v (E : env U) k start ls s w r l1 l2 l3 :
  yrun v (fun c w => dispatch E w c) (dispatch_internal E) (y_init k start) ls s ->
  ls = (l1 ++ YCall CONTROL w :: l2 ++ YAnswer CONTROL r :: l3)%list -> (forall c w', ~ In (YCall c w') l2) ->
  exists a b d, l2 = (a ++ YIntern w :: b ++ YInternEnd r :: d)%list /\ in_same SHELL b /\ asked_interpreter E w (events SHELL b) r.
Proof.
  intros H -> Hn.
  destruct (yrun_app _ _ _ _ _ _ H (l1 ++ YCall CONTROL w :: l2 ++ [YAnswer CONTROL r]) l3) as (s1 & R1 & _).
  { repeat (rewrite <- app_assoc; cbn). reflexivity. }
  destruct (lock_step v E k start _ _ R1) as (L & R & Hs & HL & HR).
  assert (HQ : sync (l1 ++ YCall CONTROL w :: l2 ++ [YAnswer CONTROL r]) = ((sync l1 ++ YCall CONTROL w :: sync l2) ++ [YAnswer CONTROL r])%list).
  { rewrite sync_app. cbn. fold (sync (l2 ++ [YAnswer CONTROL r])). rewrite sync_app. cbn. now rewrite <- app_assoc. }
  rewrite HQ in Hs.
  assert (HR0 : R = []).
  { inversion HR; subst R; auto; exfalso.
    - apply app_inj_tail in Hs as [_ Hs]. discriminate.
    - change [YCall CONTROL w0; YIntern w0] with ([YCall CONTROL w0] ++ [YIntern w0])%list in Hs. rewrite app_assoc in Hs. apply app_inj_tail in Hs as [_ Hs]. discriminate.
    - change [YCall CONTROL w0; YIntern w0; YInternEnd r0] with ([YCall CONTROL w0; YIntern w0] ++ [YInternEnd r0])%list in Hs. rewrite app_assoc in Hs. apply app_inj_tail in Hs as [_ Hs]. discriminate. }
  subst R. rewrite app_nil_r in Hs.
  assert (Hc : Forall (fun l => ~ is_call l) (sync l2)).
  { apply Forall_forall. intros l Hl. apply filter_In in Hl as [Hl _]. destruct l; cbn; auto. intros _. eapply Hn; eauto. }
  inversion HL as [Hl|L0 w' r' HL0 Hl]; rewrite <- Hl in Hs; clear Hl; [destruct (sync l1); discriminate|].
  change [YCall CONTROL w'; YIntern w'; YInternEnd r'; YAnswer CONTROL r'] with ([YCall CONTROL w'; YIntern w'; YInternEnd r'] ++ [YAnswer CONTROL r'])%list in Hs.
  rewrite app_assoc in Hs. apply app_inj_tail in Hs as [Hs Hr]. injection Hr as <-.
  apply last_call in Hs as [Hw Hs]; try exact I; auto.
  injection Hw as <-. apply filter_nil_app in Hs as (a & b & -> & Ha & Hb). apply filter_nil_app in Hb as (b' & d & -> & Hb & Hd).
  exists a, b', d. split; [reflexivity|].
  destruct (intern_end v E k start _ _ r (l1 ++ YCall CONTROL w :: a ++ YIntern w :: b') (d ++ YAnswer CONTROL r :: l3) H) as (x & w' & y & E1 & E2 & E3).
  { repeat (rewrite <- app_assoc; cbn). reflexivity. }
  assert (Q : in_same SHELL b' /\ y = b' /\ w' = w).
  { clear - E1 E2 Hb. revert Hb y E1 E2. rewrite app_comm_cons, app_assoc. generalize (l1 ++ YCall CONTROL w :: a)%list as z.
    intros z Hb. induction b' as [|l b' IH] using rev_ind; intros y E1 E2.
    - destruct y as [|l y] using rev_ind.
      + apply app_inj_tail in E1 as [_ E1]. injection E1 as ->. repeat split; constructor.
      + rewrite app_comm_cons, app_assoc in E1. apply app_inj_tail in E1 as [_ <-]. apply Forall_app in E2 as [_ E2]. inversion E2. exfalso. apply H1. reflexivity.
    - rewrite filter_app in Hb. apply app_eq_nil in Hb as [Hb Hl]. cbn in Hl.
      destruct y as [|l' y] using rev_ind.
      + rewrite app_comm_cons, app_assoc in E1. apply app_inj_tail in E1 as [_ ->]. discriminate.
      + rewrite !app_comm_cons, !app_assoc in E1. apply app_inj_tail in E1 as [E1 <-]. apply Forall_app in E2 as [E2 E2'].
        destruct (IH Hb y E1 E2) as (A & -> & ->). repeat split; auto. apply Forall_app. auto. }
  destruct Q as (Q1 & -> & ->). auto.
Qed.
