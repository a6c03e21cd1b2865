(** The start of the split servers: proofs. *)
From Verif Require Import Base BaseFacts Json Message Comm Tree Kernel Server ServerProofs Split SplitSpec SplitProofs ServerLemmas Startup StartupSpec.

(** ** The publisher with the start message and without it *)
Section Pub.
  Variable start : frames.
  Definition same_pc (p q : fpc) : Prop :=
    match p, q with
    | FPoll, FPoll | FCtl, FCtl | FDone, FDone => True
    | FRecv b, FRecv c => b = c
    | FSend _ b, FSend _ c => b = c
    | _, _ => False
    end.
  (** [f] has not been given the start message, [g] was given it first. *)
  Definition early (f g : fwd) : Prop :=
    f_ctl f = SIdle /\ f_ctl g = SIdle /\ same_pc (f_pc f) (f_pc g) /\ (match f_pc f with FPoll | FRecv false | FSend _ false => True | _ => False end) /\
    List.length (f_out f) = List.length (f_out g) /\ f_all g = start :: f_all f.
  (** [f] was given it after some other messages. *)
  Definition late (f g : fwd) : Prop :=
    f_ctl f = f_ctl g /\ same_pc (f_pc f) (f_pc g) /\ List.length (f_out f) = List.length (f_out g) /\
    exists a b, f_all f = (a ++ start :: b)%list /\ f_all g = (start :: a ++ b)%list.
  Lemma early_in f g : early f g -> List.length (f_in g) = S (List.length (f_in f)).
  Proof.
    intros (_ & _ & P & _ & L & A). apply (f_equal (@List.length _)) in A. unfold f_all, in_flight in A. rewrite !app_length in A. cbn [List.length] in A. rewrite !app_length in A.
    destruct (f_pc f), (f_pc g); cbn in *; try contradiction; lia.
  Qed.
  Lemma late_in f g : late f g -> List.length (f_in g) = List.length (f_in f).
  Proof.
    intros (_ & P & L & a & b & A & B). apply (f_equal (@List.length _)) in A. apply (f_equal (@List.length _)) in B. unfold f_all, in_flight in A, B. rewrite !app_length in A. rewrite !app_length in B. cbn [List.length] in A, B. rewrite !app_length in B.
    destruct (f_pc f), (f_pc g); cbn in *; try contradiction; lia.
  Qed.
  Lemma early_push w f g : early f g -> early (f_push w f) (f_push w g).
  Proof. intros (A & B & C & D & F & G). unfold early. rewrite !f_all_push. cbn [f_push f_ctl f_pc f_out f_all]. rewrite G. auto 10. Qed.
  Lemma late_push w f g : late f g -> late (f_push w f) (f_push w g).
  Proof.
    intros (A & B & C & a & b & D & F). unfold late. rewrite !f_all_push. cbn [f_push f_ctl f_pc f_out]. repeat (split; [assumption|]).
    exists a, (b ++ [w])%list. rewrite D, F. cbn [app]. now rewrite <- !app_assoc.
  Qed.
  Lemma late_set s f g : late f g -> late (f_set s f) (f_set s g).
  Proof. intros (A & B & C & a & b & D & F). unfold late. rewrite !f_all_set. cbn [f_set f_ctl f_pc f_out]. eauto 10. Qed.
  Lemma early_late f g : early f g -> late (f_push start f) g.
  Proof.
    intros (A & B & C & D & F & G). unfold late. rewrite f_all_push, G. cbn [f_push f_ctl f_pc f_out]. repeat (split; [congruence || assumption|]).
    exists (f_all f), []. now rewrite app_nil_r.
  Qed.
  (** A step of the one is possible for the other. *)
  Lemma fnext_same f g f' : same_pc (f_pc f) (f_pc g) -> f_ctl f = f_ctl g -> List.length (f_in f) <= List.length (f_in g) ->
    (f_in f = [] -> asked (f_ctl f) = true -> f_in g = []) -> List.length (f_out f) = List.length (f_out g) -> fnext f = Some f' ->
    exists g', fnext g = Some g' /\ same_pc (f_pc f') (f_pc g') /\ f_ctl f' = f_ctl g' /\ List.length (f_out f') = List.length (f_out g').
  Proof.
    unfold fnext. intros P C L Q O. rewrite <- C. destruct (f_pc f), (f_pc g); cbn in P; try contradiction.
    - destruct (f_in f) as [|x q].
      + destruct (asked (f_ctl f)) eqn:Ea; [|discriminate]. intros [= <-]. rewrite (Q eq_refl eq_refl). eexists. split; [reflexivity|]. cbn. auto.
      + intros [= <-]. destruct (f_in g) as [|y r]; [cbn in L; lia|]. eexists. split; [reflexivity|]. cbn. auto.
    - subst. destruct (f_in f) as [|x q]; [discriminate|]. intros [= <-]. destruct (f_in g) as [|y r]; [cbn in L; lia|]. eexists. split; [reflexivity|]. cbn. auto.
    - subst. intros [= <-]. eexists. split; [reflexivity|]. cbn. rewrite !app_length, O. destruct c0; cbn; auto.
    - destruct (f_ctl f); try discriminate. intros [= <-]. eexists. split; [reflexivity|]. cbn. auto.
    - discriminate.
  Qed.
  Lemma early_next f g f' : early f g -> fnext f = Some f' -> exists g', fnext g = Some g' /\ early f' g'.
  Proof.
    intros H N. pose proof (early_in _ _ H) as L. destruct H as (A & B & C & D & F & G).
    destruct (fnext_same f g f') as (g' & N' & P & K & O); auto; try congruence; try lia; [rewrite A; discriminate|].
    exists g'. split; auto. unfold early. rewrite (fnext_all _ _ N), (fnext_all _ _ N').
    assert (X : f_ctl f' = SIdle /\ (match f_pc f' with FPoll | FRecv false | FSend _ false => True | _ => False end)).
    { unfold fnext in N. rewrite A in N. destruct (f_pc f) as [|[]|? []| |]; try contradiction; try (destruct (f_in f); [discriminate|]); injection N as <-; cbn; auto. }
    destruct X as [X1 X2]. rewrite K in X1. repeat (split; [congruence || assumption|]). exact G.
  Qed.
  Lemma late_next f g f' : late f g -> fnext f = Some f' -> exists g', fnext g = Some g' /\ late f' g'.
  Proof.
    intros H N. pose proof (late_in _ _ H) as L. destruct H as (A & B & C & a & b & D & F).
    destruct (fnext_same f g f') as (g' & N' & P & K & O); auto; try lia.
    { intros H _. rewrite H in L. now destruct (f_in g). }
    exists g'. split; auto. unfold late. rewrite (fnext_all _ _ N), (fnext_all _ _ N'). eauto 10.
  Qed.
End Pub.

Section Sim.
  Context {U : Type}.
  Variable v : variant.
  Variable listener : channel -> frames -> kprog U unit.
  Variable internal : frames -> kprog U frames.
  Variable start : frames.
  Definition rel (b : bool) : fwd -> fwd -> Prop := if b then late start else early start.
  Lemma rel_push b w f g : rel b f g -> rel b (f_push w f) (f_push w g).
  Proof. destruct b; [apply late_push|apply early_push]. Qed.
  Lemma rel_next b f g f' : rel b f g -> fnext f = Some f' -> exists g', fnext g = Some g' /\ rel b f' g'.
  Proof. destruct b; [apply late_next|apply early_next]. Qed.
  Lemma mop_rel b o (m m' : mem U) x g : mop o m m' x -> rel b (m_pub m) g ->
    exists g', mop o (set_pub g m) (set_pub g' m') x /\ rel b (m_pub m') g'.
  Proof.
    destruct o; cbn [mop]; intros H R; try (match type of H with _ /\ _ => destruct H as [H1 H2] end; subst m' x; exists g; split; [split; reflexivity|exact R]; fail).
    - subst m'. destruct e; try (exists g; split; [reflexivity|exact R]; fail).
      exists (f_push w g). split; [reflexivity|]. cbn. now apply rel_push.
    - destruct H as (H & -> & ->). exists g. split; [repeat split; exact H|exact R].
    - subst m'. exists g. auto.
    - destruct (m_shellq m) as [|w q] eqn:E; destruct H as [-> ->]; exists g; (split; [cbn; rewrite E; split; reflexivity|exact R]).
    - contradiction.
  Qed.
  Lemma gstep_rel b c A (g : going U A) m l g' m' p : gstep c g m l g' m' -> rel b (m_pub m) p ->
    exists p', gstep c g (set_pub p m) l g' (set_pub p' m') /\ rel b (m_pub m') p'.
  Proof.
    intros H R. destruct H as [o k m m' x H|w k m H|k w m H].
    - destruct (mop_rel b o m m' x p H R) as (p' & H' & R'). exists p'. split; auto. now constructor.
    - exists p. split; [|exact R]. exact (gs_call c w k (set_pub p m) H).
    - exists p. split; [|exact R]. exact (gs_answer c k w (set_pub p m) H).
  Qed.
  Lemma shell_rel b a m l a' m' p : shell_step listener internal a m l a' m' -> rel b (m_pub m) p ->
    exists p', shell_step listener internal a (set_pub p m) l a' (set_pub p' m') /\ rel b (m_pub m') p'.
  Proof.
    intros H R. destruct H.
    - exists p. split; [|exact R]. exact (ss_poll_shell listener internal (set_pub p m) H).
    - exists p. split; [|exact R]. exact (ss_poll_ctl listener internal (set_pub p m) H H0).
    - exists p. split; [|exact R]. exact (ss_recv listener internal (set_pub p m) w q b0 H).
    - destruct (gstep_rel b _ _ _ _ _ _ _ p H R) as (p' & H' & R'). exists p'. split; auto. now constructor.
    - exists p. split; [|exact R]. constructor.
    - exists p. split; [|exact R]. exact (ss_stop listener internal (set_pub p m) f w H H0).
    - exists p. split; [|exact R]. exact (ss_intern listener internal (set_pub p m) f w H H0).
    - destruct (gstep_rel b _ _ _ _ _ _ _ p H R) as (p' & H' & R'). exists p'. split; auto. now constructor.
    - exists p. split; [|exact R]. exact (ss_intern_ret listener internal (set_pub p m) w).
  Qed.
  (** The control thread has not come to stopping the publisher. *)
  Definition before_pub (c : ctpc U) : Prop :=
    match c with CTest | CRecv | CRun _ | CStopShell | CWaitShell => True | _ => False end.
  Lemma control_rel b c m l c' m' p : control_step listener c m l c' m' -> rel b (m_pub m) p -> (b = false -> before_pub c) ->
    exists p', control_step listener c (set_pub p m) l c' (set_pub p' m') /\ rel b (m_pub m') p'.
  Proof.
    intros H R B. destruct H.
    - exists p. split; [|exact R]. exact (cs_go listener (set_pub p m) H).
    - exists p. split; [|exact R]. exact (cs_leave listener (set_pub p m) H).
    - exists p. split; [|exact R]. exact (cs_recv listener (set_pub p m) w q H).
    - destruct (gstep_rel b _ _ _ _ _ _ _ p H R) as (p' & H' & R'). exists p'. split; auto. now constructor.
    - exists p. split; [|exact R]. econstructor.
    - exists p. split; [|exact R]. exact (cs_stop_shell listener (set_pub p m) H).
    - exists p. split; [|exact R]. exact (cs_wait_shell listener (set_pub p m) w H).
    - destruct b; [|destruct (B eq_refl)]. exists (f_set (SAsked stop_again) p). split; [|cbn; now apply late_set].
      apply (cs_stop_pub listener (set_pub p m)). destruct R as (R & _). cbn. congruence.
    - destruct b; [|destruct (B eq_refl)]. exists (f_set SIdle p). split; [|cbn; now apply late_set].
      apply (cs_wait_pub listener (set_pub p m) w). destruct R as (R & _). cbn. congruence.
    - exists p. split; [|exact R]. exact (cs_stop_hb listener (set_pub p m) H).
    - exists p. split; [|exact R]. exact (cs_wait_hb listener (set_pub p m) w H).
  Qed.
  Lemma ystep_rel b s l s' p : ystep v listener internal s l s' -> rel b (m_pub (y_mem s)) p -> (b = false -> before_pub (y_ct s)) ->
    exists p', ystep v listener internal (on_mem (set_pub p) s) l (on_mem (set_pub p') s') /\ rel b (m_pub (y_mem s')) p'.
  Proof.
    intros H R B. destruct H; cbn [y_mem y_ct] in *; unfold on_mem; cbn [y_sh y_ct y_mem y_stopped y_end].
    - destruct (shell_rel b _ _ _ _ _ p H R) as (p' & H' & R'). exists p'. split; auto. now constructor.
    - destruct (control_rel b _ _ _ _ _ p H R B) as (p' & H' & R'). exists p'. split; auto. now constructor.
    - exists p. split; [|exact R]. constructor.
    - exists p. split; [|exact R]. constructor.
    - exists p. split; [|exact R]. now constructor.
    - exists p. split; [|exact R]. now constructor.
    - exists p. split; [|exact R]. now constructor.
    - destruct (rel_next b _ p _ R H) as (p' & H' & R'). exists p'. split; auto. exact (y_publish v listener internal a c (set_pub p m) b0 p' H').
    - exists p. split; [|exact R]. exact (y_beat v listener internal a c (set_pub p m) b0 f H).
    - exists p. split; [|now destruct ch]. pose proof (y_arrive v listener internal a c (set_pub p m) b0 ch w) as X. now destruct ch.
    - exists p. split; [|exact R]. exact (y_hb_arrive v listener internal a c (set_pub p m) b0 w).
    - exists p. split; [|exact R]. exact (y_stdin_arrive v listener internal a c (set_pub p m) b0).
  Qed.

  (** Until the start message is published, the calling thread is where it begins. *)
  Definition booting (z : zsys U) : Prop :=
    (z_begun z = false -> y_ct (z_sys z) = CTest) /\
    (z_boot z <> BLoop ->
     match v with
     | ControlMain => z_begun z = false
     | ShellMain => y_sh (z_sys z) = SPoll /\ (forall w, m_call (y_mem (z_sys z)) <> SAnswered w) /\ before_pub (y_ct (z_sys z))
     end).
  Lemma gstep_call c A (g : going U A) m l g' m' : gstep c g m l g' m' -> (forall w, m_call m <> SAnswered w) -> forall w, m_call m' <> SAnswered w.
  Proof.
    intros H N. destruct H as [o k m m' x H|w k m H|k w m H]; [|cbn; discriminate|cbn; discriminate].
    destruct (mop_queues _ _ _ _ H) as (_ & _ & _ & _ & _ & _ & _ & _ & _ & _ & ->). exact N.
  Qed.
  Lemma other_control s l s' : ystep v listener internal s l s' -> who l <> TControl -> y_ct s' = y_ct s.
  Proof.
    intros H W. destruct H; cbn [y_ct]; auto; exfalso; apply W; try reflexivity. destruct H; cbn; auto. destruct H; cbn; auto. destruct o; cbn; auto. now destruct x.
  Qed.
  Lemma step_booting z l z' : zstep v listener internal start z l z' -> booting z -> booting z'.
  Proof.
    intros H [I1 I2]. destruct H; unfold booting in *; cbn [z_begun z_boot z_sys y_ct y_sh y_mem on_mem] in *.
    - split; auto. intros _. apply I2. discriminate.
    - split; auto. intros _. apply I2. discriminate.
    - split; auto. intros _. apply I2. discriminate.
    - split; auto. intros X. now destruct X.
    - split; [discriminate|]. intros X. specialize (I2 X). destruct v; [contradiction|exact I2].
    - split.
      + intros Hg. rewrite (other_control _ _ _ H); auto. intros W. rewrite H1 in Hg by exact W. discriminate.
      + intros X. specialize (I2 X). destruct v eqn:Ev; [exact I2|]. destruct I2 as (A & B & C).
        destruct H; cbn [y_sh y_ct y_mem] in *; subst; auto.
        * exfalso. assert (W : who l = TShell) by (inversion H; reflexivity). rewrite W in H0. cbn in H0. contradiction.
        * split; auto. destruct H; cbn in *; auto; try contradiction.
          -- split; auto. eapply gstep_call; eauto.
          -- split; [discriminate|auto].
          -- now destruct (B w).
        * contradiction.
        * destruct ch; auto.
  Qed.
  Lemma run_booting k ls z : zrun v listener internal start (z_init start k) ls z -> booting z.
  Proof.
    remember (z_init start k) as z0 eqn:E. induction 1 as [|z0 ls z1 l z2 H IH Hs]; [|eapply step_booting; eauto].
    subst. split; [reflexivity|]. intros _. destruct v; [reflexivity|]. cbn. repeat split. discriminate.
  Qed.
  Definition booted (b : boot) : bool := match b with BLoop => true | _ => false end.
  Lemma set_pub_on p q (s : ysys U) : on_mem (set_pub p) (on_mem (set_pub q) s) = on_mem (set_pub p) s.
  Proof. reflexivity. Qed.
  Lemma simulated k ls z : zrun v listener internal start (z_init start k) ls z -> ~ In (ZBegin true) ls ->
    exists p, yrun v listener internal (y_init k start) (thread_steps ls) (on_mem (set_pub p) (z_sys z)) /\ rel (booted (z_boot z)) (m_pub (y_mem (z_sys z))) p.
  Proof.
    remember (z_init start k) as z0 eqn:E. induction 1 as [|z0 ls z1 l z2 H IH Hs]; intros N.
    - subst. exists (f_push start f_init). split; [constructor|]. cbn. repeat split.
    - subst z0. destruct (IH eq_refl) as (p & Y & R); [intros X; apply N; apply in_or_app; auto|]. clear IH.
      assert (N' : l <> ZBegin true) by (intros ->; apply N; apply in_or_app; cbn; auto).
      pose proof (run_booting _ _ _ H) as I. unfold thread_steps in *. rewrite flat_map_app.
      destruct Hs; cbn [flat_map app z_sys z_boot booted] in *; rewrite ?app_nil_r.
      + exists p. auto.
      + exists p. auto.
      + exists p. auto.
      + exists p. split; [exact Y|]. cbn. now apply early_late.
      + exists p. split; [|exact R]. assert (X : m_stop (y_mem s) = false) by (destruct (m_stop (y_mem s)); congruence).
        replace (on_mem (set_pub p) (on_mem (set_stop false) s)) with (on_mem (set_pub p) s); [exact Y|]. unfold on_mem. cbn. f_equal. unfold set_pub, set_stop. cbn. now rewrite X.
      + destruct (ystep_rel (booted b) s l s' p) as (p' & H' & R'); auto.
        * intros Hb. assert (X : b <> BLoop) by (intros ->; discriminate). destruct I as [I1 I2]. cbn in *. specialize (I2 X). destruct v; [rewrite (I1 I2); exact I|tauto].
        * exists p'. split; auto. econstructor; eauto.
  Qed.
  (** What the publisher is given. *)
  Lemma announced_all k ls z : zrun v listener internal start (z_init start k) ls z -> f_all (m_pub (y_mem (z_sys z))) = announced ls.
  Proof.
    remember (z_init start k) as z0 eqn:E. induction 1 as [|z0 ls z1 l z2 H IH Hs]; [subst; reflexivity|]. unfold announced in *. rewrite flat_map_app, <- IH by exact E. cbn [flat_map].
    destruct Hs; cbn [z_sys y_mem on_mem]; rewrite ?app_nil_r; auto.
    - cbn [set_pub m_pub]. apply f_all_push.
    - match goal with X : ystep _ _ _ _ _ _ |- _ => apply (step_accounts v listener internal) in X as (_ & _ & X & _); rewrite X end. unfold sent_out. cbn [flat_map]. now rewrite app_nil_r.
  Qed.
  (** Before the start message. *)
  Lemma boot_ranks ls z0 z : zrun v listener internal start z0 ls z -> boot_rank (z_boot z0) <= boot_rank (z_boot z).
  Proof. induction 1 as [|z0 ls z1 l z2 H IH Hs]; auto. destruct Hs; cbn in *; lia. Qed.
  Lemma before_start k ls z : zrun v listener internal start (z_init start k) ls z ->
    match z_boot z with
    | BLoop => exists l1 l2, ls = (l1 ++ ZStart start :: l2)%list /\ only_other v l1 /\ (forall w, ~ In (ZStart w) l1) /\ (forall w, ~ In (ZStart w) l2)
    | _ => only_other v ls /\ (forall w, ~ In (ZStart w) ls)
    end.
  Proof.
    remember (z_init start k) as z0 eqn:E. induction 1 as [|z0 ls z1 l z2 H IH Hs]; [subst; cbn; split; [intros c e []|intros w []]|]. specialize (IH E). clear E H.
    assert (O : forall l, only_other v ls -> (forall c e, l = ZStep (YEvent c e) -> chan_tid c = other v) -> only_other v (ls ++ [l])).
    { intros l' A B c e X. apply in_app_or in X as [X|[X|[]]]; eauto. }
    assert (Q : forall l ls0, (forall w, ~ In (ZStart w) ls0) -> (forall w, l <> ZStart w) -> forall w, ~ In (ZStart w) (ls0 ++ [l])).
    { intros l' ls0 A B w X. apply in_app_or in X as [X|[X|[]]]; [eapply A; eauto|eapply B; eauto]. }
    assert (T : forall l, (forall w, l <> ZStart w) -> (exists l1 l2, ls = (l1 ++ ZStart start :: l2)%list /\ only_other v l1 /\ (forall w, ~ In (ZStart w) l1) /\ (forall w, ~ In (ZStart w) l2)) ->
      exists l1 l2, (ls ++ [l])%list = (l1 ++ ZStart start :: l2)%list /\ only_other v l1 /\ (forall w, ~ In (ZStart w) l1) /\ (forall w, ~ In (ZStart w) l2)).
    { intros l' N (l1 & l2 & -> & A & B & C). exists l1, (l2 ++ [l'])%list. rewrite <- app_assoc. cbn [app]. repeat split; auto. }
    destruct Hs; cbn [z_boot] in *; try (destruct IH as [IH1 IH2]; split; [apply O; auto; discriminate|apply Q; auto; discriminate]; fail).
    - destruct IH as [IH1 IH2]. exists ls, []. auto.
    - destruct b; try (destruct IH as [IH1 IH2]; split; [apply O; auto; discriminate|apply Q; auto; discriminate]; fail). apply T; auto. discriminate.
    - destruct b; try (destruct IH as [IH1 IH2]; split; [apply O; auto; intros c e [= ->]; cbn in *|apply Q; auto; discriminate]; destruct c, v; cbn in *; try lia; try discriminate; reflexivity).
      apply T; auto. discriminate.
  Qed.
End Sim.
Section Lost.
  Context {U : Type} (v : variant) (listener : channel -> frames -> kprog U unit) (internal : frames -> kprog U frames) (start : frames).
  Lemma gstep_stop c A (g : going U A) m l g' m' : gstep c g m l g' m' -> m_stop m' = true -> m_stop m = true \/ l = YEvent c EStop.
  Proof.
    intros H. destruct H as [o k m m' x H|w k m H|k w m H]; [|cbn; auto|cbn; auto].
    destruct (mop_queues _ _ _ _ H) as (_ & _ & X & _). intros S. apply X in S as [S|S]; auto. right.
    destruct o; cbn in S; try discriminate; [|destruct x; discriminate]. destruct e; try discriminate. reflexivity.
  Qed.
  Lemma ystep_stop s l s' : ystep v listener internal s l s' -> m_stop (y_mem s') = true -> m_stop (y_mem s) = true \/ exists c, l = YEvent c EStop.
  Proof.
    intros H. destruct H; cbn [y_mem]; auto.
    - destruct H; cbn; auto; intros S; eapply gstep_stop in S as [S|S]; eauto.
    - destruct H; cbn; auto; intros S; eapply gstep_stop in S as [S|S]; eauto.
    - destruct ch; cbn; auto.
  Qed.
  Lemma stop_before_begin k ls z : zrun v listener internal start (z_init start k) ls z -> z_begun z = false -> m_stop (y_mem (z_sys z)) = true -> In (ZStep (YEvent SHELL EStop)) ls.
  Proof.
    remember (z_init start k) as z0 eqn:E. induction 1 as [|z0 ls z1 l z2 H IH Hs]; [subst; discriminate|]. specialize (IH E). intros B S. apply in_or_app.
    destruct Hs; cbn [z_begun z_sys] in *; auto; try discriminate.
    apply ystep_stop with (1 := H0) in S as [S|[c ->]]; auto. destruct c; [right; cbn; auto|]. cbn in H2. rewrite H2 in B by reflexivity. discriminate.
  Qed.
  Lemma begin_lost k ls z l1 l2 : zrun v listener internal start (z_init start k) ls z -> ls = (l1 ++ ZBegin true :: l2)%list -> In (ZStep (YEvent SHELL EStop)) l1.
  Proof.
    intros H. remember (z_init start k) as z0 eqn:E. revert l2. induction H as [|z0 ls z1 l z2 H IH Hs]; intros l2 X; [now destruct l1|].
    destruct l2 as [|y l2] using rev_ind.
    - apply app_inj_tail in X as [-> ->]. subst z0. inversion Hs; subst. match goal with Y : m_stop _ = true |- _ => eapply stop_before_begin; [exact H|reflexivity|exact Y] end.
    - clear IHl2. rewrite app_comm_cons, app_assoc in X. apply app_inj_tail in X as [X _]. eapply IH; eauto.
  Qed.
End Lost.
