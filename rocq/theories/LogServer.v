(** Proofs for C88: a server with the programs [l] and one with the programs [l'] that are the same as long as the identities read are
    not empty make the same steps. *)
From Verif Require Import Base BaseFacts Json JsonText Auth Message History Comm Logger Tree Kernel KernelSpec Server Split LogSpec LogSim.

Section Mem.
  Context {U : Type}.
  Variable ok : frames -> Prop.
  Hypothesis ok_addressed : forall w, ok w -> addressed w.
  Implicit Types (m : mem U).
  Definition queues_ok m : Prop := Forall ok (m_shellq m) /\ Forall ok (m_ctlq m).
  Definition pids_ok (c : channel) (asks : Prop) (b : bool) m : Prop := forall c', known c asks b c' -> k_pid (m_k m) c' <> [].
  Lemma event_k e m : m_k (on_event e m) = m_k m /\ m_shellq (on_event e m) = m_shellq m /\ m_ctlq (on_event e m) = m_ctlq m /\ m_call (on_event e m) = m_call m.
  Proof. destruct e; repeat split. Qed.
  Lemma mop_inv c asks free b (o : kop U) m m' x : queues_ok m -> pids_ok c asks b m -> guar c asks free b o -> mop o m m' x ->
    rely c asks b o x /\ queues_ok m' /\ pids_ok c asks (b || sets c o) m' /\ m_call m' = m_call m.
  Proof.
    intros [Q1 Q2] P G H.
    assert (K : forall c', known c asks (b || sets c o) c' -> k_pid (fst (kstep o (m_k m))) c' <> []) by (eapply pid_step; eauto).
    destruct o; cbn [mop rely] in *;
      try (destruct H as [-> ->]; repeat split; auto; fail); try (subst m'; repeat split; auto; fail); try contradiction.
    - destruct H as [-> ->]. repeat split; auto. cbn. intros N. now apply P.
    - subst m'. unfold queues_ok, pids_ok. destruct (event_k e (set_k (fst (kstep (KEmit e) (m_k m))) m)) as (-> & -> & -> & ->). repeat split; auto.
    - destruct H as (_ & -> & ->). repeat split; auto.
    - unfold queues_ok, pids_ok. destruct (m_shellq m) as [|w q] eqn:X.
      + destruct H as [-> ->]. rewrite X. repeat split; auto. cbn [sets] in *. intros c'. specialize (K c'). cbn in K. destruct (k_shell (m_k m)); exact K.
      + destruct H as [-> ->]. inversion_clear Q1. repeat split; auto. cbn [sets] in *. intros c'. specialize (K c'). cbn in K. cbn. destruct (k_shell (m_k m)); exact K.
  Qed.
  (** A channel with a parent keeps one. *)
  Lemma mop_keeps c asks free b (o : kop U) m m' x c' : guar c asks free b o -> mop o m m' x -> k_pid (m_k m) c' <> [] -> k_pid (m_k m') c' <> [].
  Proof.
    intros G H N. destruct o; cbn [mop] in *; try (destruct H as [-> _]; auto; fail); try (subst m'; auto; fail); try contradiction.
    - destruct H as [-> _]. cbn. destruct G as [-> G]. unfold upd_chan. destruct (chan_eqb c c'); auto.
    - subst m'. destruct (event_k e (set_k (fst (kstep (KEmit e) (m_k m))) m)) as (-> & _). auto.
    - destruct H as (_ & -> & _). auto.
    - destruct (m_shellq m); destruct H as [-> _]; auto.
  Qed.
End Mem.

(** ** The split servers *)
Section Split.
  Context {U : Type}.
  Variable v : variant.
  Variables (l l' : channel -> frames -> kprog U unit) (i i' : frames -> kprog U frames).
  Variable ok : frames -> Prop.
  Hypothesis ok_addressed : forall w, ok w -> addressed w.
  Variables free late : Prop.
  Notation any := (fun _ => True).
  Hypothesis HS : forall w, ok w -> sim SHELL False False false (l SHELL w) (l' SHELL w) any.
  Hypothesis HC : forall (asks : Prop) w, asks \/ free -> ok w -> sim CONTROL asks free false (l CONTROL w) (l' CONTROL w) any.
  Hypothesis HI : forall (asks : Prop) w, asks \/ free -> sim SHELL asks free false (i w) (i' w) any.
  Implicit Types (m : mem U).

  Definition gsim (c : channel) (asks fr : Prop) (b : bool) {A} (g g' : going U A) : Prop :=
    match g, g' with
    | Going p, Going p' => sim c asks fr b p p' any
    | Calling k, Calling k' => forall w, sim c asks fr b (k w) (k' w) any
    | _, _ => False
    end.
  Definition has c m : Prop := k_pid (m_k m) c <> [].
  Definition keeps m m' : Prop := forall c, has c m -> has c m'.
  Lemma keeps_pids c asks b m m' : keeps m m' -> pids_ok c asks b m -> pids_ok c asks b m'.
  Proof. intros K P c' N. apply K, P, N. Qed.
  Lemma gstep_sim c asks fr b {A} (g g' g1 : going U A) m lb m1 : gsim c asks fr b g g' -> queues_ok ok m -> pids_ok c asks b m -> gstep c g m lb g1 m1 ->
    exists g1' b1, gstep c g' m lb g1' m1 /\ gsim c asks fr b1 g1 g1' /\ queues_ok ok m1 /\ pids_ok c asks b1 m1 /\ keeps m m1 /\
      ((exists e, lb = YEvent c e) \/ (exists w, m_call m1 = SAsked w /\ m_call m <> SAsked w) -> loud asks fr b) /\
      (forall c' w, lb <> YHand c' w) /\ (forall c' e, lb = YEvent c' e -> c' = c).
  Proof.
    intros S Q P H. destruct H as [o k m m1 x Hm|w k m Hc|k w m Hc]; (destruct g' as [p'|k']; cbn [gsim] in S; [|try contradiction]); try contradiction.
    - destruct S as (G & k' & -> & S). destruct (mop_inv ok ok_addressed c asks fr b o m m1 x Q P G Hm) as (R & Q1 & P1 & C1).
      exists (Going (k' x)), (b || sets c o). split; [now constructor|]. split; [now apply S|]. split; auto. split; auto.
      split; [intros c' N; eapply mop_keeps; eauto|]. split; [|split].
      + intros [[e He]|(w & W & N)]; [|rewrite C1 in W; congruence]. destruct o; cbn in He; try discriminate; [exact G|destruct x; discriminate].
      + intros c' w. destruct o; try discriminate. cbn. destruct x; discriminate.
      + intros c' e. destruct o; try discriminate; cbn; [now intros [= <- _]|destruct x; discriminate].
    - destruct S as (G & k' & -> & S). exists (Calling k'), (b || false). split; [now constructor|]. split; [intros x; now apply S|].
      split; [exact Q|]. rewrite orb_false_r. split; [exact P|]. split; [intros c' N; exact N|]. split; [intros _; exact G|]. split; discriminate.
    - exists (Going (k' w)), b. split; [now constructor|]. split; [apply S|]. split; [exact Q|]. split; [exact P|]. split; [intros c' N; exact N|].
      split; [|split; discriminate]. intros [[e He]|(w' & W & _)]; discriminate.
  Qed.

  Definition shsim (a a' : shpc U) m : Prop :=
    match a, a' with
    | SRun g x, SRun g' x' => x = x' /\ exists b, gsim SHELL False False b g g' /\ pids_ok SHELL False b m
    | SIntern g, SIntern g' => exists b (asks : Prop), gsim SHELL asks free b g g' /\ pids_ok SHELL asks b m
    | SPoll, SPoll | SCtl, SCtl | SOut, SOut | SEnd, SEnd => True
    | SRecv x, SRecv x' => x = x'
    | _, _ => False
    end.
  Definition ctsim (a a' : ctpc U) m : Prop :=
    match a, a' with
    | CRun g, CRun g' => exists b (asks : Prop), gsim CONTROL asks free b g g' /\ pids_ok CONTROL asks b m
    | CRun _, _ | _, CRun _ => False
    | a, a' => a = a'
    end.
  Definition call_quiet (s : slot) : Prop := forall f w, s = SAsked (f :: w) -> f = "stop".
  Definition running (a : shpc U) : Prop := match a with SRun _ _ => True | _ => False end.
  Definition internal_on (a : shpc U) : Prop := match a with SIntern _ => True | _ => False end.
  Definition control_on (a : ctpc U) : Prop := match a with CRun _ => True | _ => False end.

  Lemma shell_sim a a' m lb a1 m1 : shsim a a' m -> queues_ok ok m -> has SHELL m \/ free \/ call_quiet (m_call m) -> shell_step l i a m lb a1 m1 ->
    exists a1', shell_step l' i' a' m lb a1' m1 /\ shsim a1 a1' m1 /\ queues_ok ok m1 /\ keeps m m1 /\ (forall w, lb <> YHand CONTROL w) /\
      (~ internal_on a -> (exists e, lb = YEvent SHELL e) -> has SHELL m1) /\
      (~ internal_on a -> call_quiet (m_call m) -> has SHELL m1 \/ call_quiet (m_call m1) /\ ~ internal_on a1).
  Proof.
    intros S Q Hst H.
    assert (keeps m m) as K0 by (intros c N; exact N).
    destruct H as [m Hq|m Hq Ha|m w q b Hq|m g lb g1 m1 b Hg|m x b|m f w Hc Hf|m f w Hc Hf|m g lb g1 m1 Hg|m w]; destruct a'; cbn [shsim] in S; try contradiction.
    - eexists. split; [now constructor|]. split; [cbn; auto|]. split; auto. split; auto. split; [discriminate|]. split; [intros _ [e He]; discriminate|]. cbn. auto.
    - eexists. split; [apply ss_poll_ctl; auto|]. split; [exact I|]. split; auto. split; auto. split; [discriminate|]. split; [intros _ [e He]; discriminate|]. cbn. auto.
    - subst c. eexists. split; [eapply ss_recv; eauto|]. destruct Q as [Q1 Q2]. unfold queues_ok. rewrite Hq in Q1. inversion_clear Q1 as [|? ? Q0 Q3].
      split; [|split; [now split|split; [exact K0|]]].
      + split; auto. exists false. split; [cbn; auto|]. intros c' [[X _]|[X _]]; [discriminate|contradiction].
      + split; [discriminate|]. split; [intros _ [e He]; discriminate|]. cbn. auto.
    - destruct S as (<- & bb & S & P). destruct (gstep_sim _ _ _ _ _ _ _ _ _ _ S Q P Hg) as (g1' & b1 & G1 & S1 & Q1 & P1 & K1 & L1 & N1 & _).
      eexists. split; [apply ss_run; eauto|]. split; [split; eauto|]. split; auto. split; auto. split; [auto|].
      assert (loud False False bb -> has SHELL m1) as LH by (intros [X|[[]|[]]]; apply K1, P; left; auto).
      split; [intros _ He; apply LH, L1; auto|]. intros _ Hcq.
      destruct (m_call m1) as [|w|w] eqn:Hc1; [right; split; [discriminate|cbn; auto]| |right; split; [discriminate|cbn; auto]].
      destruct (m_call m) as [|w0|w0] eqn:Hc0; [left; apply LH, L1; right; exists w; split; [auto|discriminate]| |left; apply LH, L1; right; exists w; split; [auto|discriminate]].
      destruct (list_eq_dec string_dec w w0) as [->|D]; [right; split; [exact Hcq|cbn; auto]|]. left. apply LH, L1. right. exists w. split; auto. congruence.
    - destruct S as (<- & bb & S & P). destruct g as [p'|k']; cbn [gsim sim] in S; [|contradiction]. destruct S as [-> _].
      eexists. split; [apply ss_ret|]. split; [destruct b; exact I|]. split; auto. split; auto. split; [discriminate|]. split; [intros _ [e He]; discriminate|].
      intros _ Hcq. right. split; auto. destruct b; cbn; auto.
    - eexists. split; [eapply ss_stop; eauto|]. split; [exact I|]. split; [exact Q|]. split; [exact K0|]. split; [discriminate|]. split; [intros _ [e He]; discriminate|].
      intros _ _. right. split; [discriminate|cbn; auto].
    - eexists. split; [eapply ss_intern; eauto|]. destruct Hst as [Hst|[Hst|Hst]].
      + split; [|split; [exact Q|split; [exact K0|split; [discriminate|split; [intros _ [e He]; discriminate|auto]]]]].
        exists false, True. split; [apply HI; auto|]. intros c' [[X _]|[_ ->]]; [discriminate|exact Hst].
      + split; [|split; [exact Q|split; [exact K0|split; [discriminate|split; [intros _ [e He]; discriminate|]]]]].
        * exists false, False. split; [apply HI; auto|]. intros c' [[X _]|[[] _]]. discriminate.
        * intros _ Hcq. exfalso. apply Hf. eapply Hcq; eauto.
      + exfalso. apply Hf. eapply Hst; eauto.
    - destruct S as (bb & asks & S & P). destruct (gstep_sim _ _ _ _ _ _ _ _ _ _ S Q P Hg) as (g1' & b1 & G1 & S1 & Q1 & P1 & K1 & L1 & N1 & _).
      eexists. split; [apply ss_intern_run; eauto|]. split; [do 2 eexists; eauto|]. split; auto. split; auto. split; [auto|]. cbn. split; tauto.
    - destruct S as (bb & asks & S & P). destruct g as [p'|k']; cbn [gsim sim] in S; [|contradiction]. destruct S as [-> _].
      eexists. split; [apply ss_intern_ret|]. split; [exact I|]. split; [exact Q|]. split; [exact K0|]. split; [discriminate|]. cbn. split; tauto.
  Qed.
  Lemma control_sim a a' m lb a1 m1 : ctsim a a' m -> queues_ok ok m -> (forall w, lb = YHand CONTROL w -> has SHELL m \/ free) -> control_step l a m lb a1 m1 ->
    exists a1', control_step l' a' m lb a1' m1 /\ ctsim a1 a1' m1 /\ queues_ok ok m1 /\ keeps m m1 /\ (forall e, lb <> YEvent SHELL e) /\
      (~ control_on a -> (forall w, lb <> YHand CONTROL w) -> ~ control_on a1) /\ (~ control_on a -> call_quiet (m_call m) -> call_quiet (m_call m1)).
  Proof.
    intros S Q Hst H.
    assert (keeps m m) as K0 by (intros c N; exact N).
    assert (D : forall g, control_on (CRun g)) by (intros; exact I).
    destruct H as [m Hs|m Hs|m w q Hq|m g lb g1 m1 Hg|m x|m Hc|m w Hc|m Hc|m w Hc|m Hc|m w Hc]; destruct a'; cbn [ctsim] in S; try contradiction; try discriminate.
    - eexists. split; [now constructor|]. split; [reflexivity|]. split; auto. split; auto. split; [discriminate|]. cbn. auto.
    - eexists. split; [now constructor|]. split; [reflexivity|]. split; auto. split; auto. split; [discriminate|]. cbn. auto.
    - eexists. split; [eapply cs_recv; eauto|]. destruct Q as [Q1 Q2]. unfold queues_ok. rewrite Hq in Q2. inversion_clear Q2 as [|? ? Q0 Q3].
      split; [|split; [now split|split; [exact K0|split; [discriminate|split; [intros _ N; exfalso; eapply N; reflexivity|auto]]]]].
      destruct (Hst _ eq_refl) as [X|X].
      + exists false, True. split; [apply HC; auto|]. intros c' [[Y _]|[_ ->]]; [discriminate|exact X].
      + exists false, False. split; [apply HC; auto|]. intros c' [[Y _]|[[] _]]. discriminate.
    - destruct S as (bb & asks & S & P). destruct (gstep_sim _ _ _ _ _ _ _ _ _ _ S Q P Hg) as (g1' & b1 & G1 & S1 & Q1 & P1 & K1 & L1 & N1 & N2).
      eexists. split; [apply cs_run; eauto|]. split; [do 2 eexists; eauto|]. split; auto. split; auto. split; [intros e He; apply N2 in He; discriminate|].
      split; intros X; exfalso; apply X; exact I.
    - destruct S as (bb & asks & S & P). destruct g as [p'|k']; cbn [gsim sim] in S; [|contradiction]. destruct S as [-> _].
      eexists. split; [apply cs_ret|]. split; [reflexivity|]. split; auto. split; auto. split; [discriminate|]. cbn. tauto.
    - eexists. split; [now constructor|]. split; [reflexivity|]. split; [exact Q|]. split; [exact K0|]. split; [discriminate|]. split; [cbn; auto|].
      intros _ _ f w [= <- _]. reflexivity.
    - eexists. split; [econstructor; eauto|]. split; [reflexivity|]. split; [exact Q|]. split; [exact K0|]. split; [discriminate|]. split; [cbn; auto|]. intros _ _ f w0. discriminate.
    - eexists. split; [now constructor|]. split; [reflexivity|]. split; [exact Q|]. split; [exact K0|]. split; [discriminate|]. cbn; auto.
    - eexists. split; [econstructor; eauto|]. split; [reflexivity|]. split; [exact Q|]. split; [exact K0|]. split; [discriminate|]. cbn; auto.
    - eexists. split; [now constructor|]. split; [reflexivity|]. split; [exact Q|]. split; [exact K0|]. split; [discriminate|]. cbn; auto.
    - eexists. split; [econstructor; eauto|]. split; [reflexivity|]. split; [exact Q|]. split; [exact K0|]. split; [discriminate|]. cbn; auto.
  Qed.
  Lemma sh_keeps a a' m m1 : keeps m m1 -> shsim a a' m -> shsim a a' m1.
  Proof.
    intros K. destruct a, a'; cbn [shsim]; auto.
    - intros (X & b & S & P). eauto using keeps_pids.
    - intros (b & asks & S & P). eauto using keeps_pids.
  Qed.
  Lemma ct_keeps a a' m m1 : keeps m m1 -> ctsim a a' m -> ctsim a a' m1.
  Proof. intros K. destruct a, a'; cbn [ctsim]; auto. intros (b & asks & S & P). eauto using keeps_pids. Qed.
  Lemma sh_dying a a' m : shsim a a' m -> dying a -> dying a'.
  Proof.
    destruct a as [|x|[p|k] x| |[p|k]| |], a' as [|x'|[p'|k'] x'| |[p'|k']| |]; cbn [shsim dying gsim]; try contradiction; intros S D; try (destruct S as (? & ? & [] & _); fail); auto.
    - destruct S as (_ & b & S & _). destruct p; cbn [failing] in D; try contradiction; cbn [sim] in S; subst p'; exact I.
    - destruct S as (b & asks & S & _). destruct p; cbn [failing] in D; try contradiction; cbn [sim] in S; subst p'; exact I.
  Qed.
  Lemma ct_dying a a' m : ctsim a a' m -> dying_c a -> dying_c a'.
  Proof.
    destruct a as [| |[p|k]| | | | | | | | |], a' as [| |[p'|k']| | | | | | | | |]; cbn [ctsim dying_c gsim]; try contradiction; try discriminate; intros S D; auto; try (destruct S as (? & ? & [] & _); fail).
    destruct S as (b & asks & S & _). destruct p; cbn [failing] in D; try contradiction; cbn [sim] in S; subst p'; exact I.
  Qed.

  Definition same_sys (s s' : ysys U) : Prop :=
    y_mem s' = y_mem s /\ y_stopped s' = y_stopped s /\ y_end s' = y_end s /\ shsim (y_sh s) (y_sh s') (y_mem s) /\ ctsim (y_ct s) (y_ct s') (y_mem s) /\
    queues_ok ok (y_mem s).
  (** The shell channel has a parent, or it does not matter, or nothing has happened that needs one. *)
  Definition stage (ls : list slabel) (s : ysys U) : Prop :=
    has SHELL (y_mem s) \/ free \/
    (late /\ (forall w, ~ In (YHand CONTROL w) ls) /\ (forall e, ~ In (YEvent SHELL e) ls) /\ ~ internal_on (y_sh s) /\ ~ control_on (y_ct s) /\ call_quiet (m_call (y_mem s))).

  Lemma same_step ls s s' lb s1 : same_sys s s' -> stage ls s -> (forall c w, lb = YArrive c w -> ok w) ->
    (forall w, lb = YHand CONTROL w -> has SHELL (y_mem s) \/ free) -> ystep v l i s lb s1 ->
    exists s1', ystep v l' i' s' lb s1' /\ same_sys s1 s1' /\ stage (ls ++ [lb]) s1.
  Proof.
    intros (Em & Es & Ee & Sh & Sc & Q) Hst Ha Hh H. destruct s' as [a' c' m' b' e']. cbn [y_mem y_stopped y_end y_sh y_ct] in *. subst m' b' e'.
    assert (Rest : forall a c m b e a1 c1 m1 b1 e1 lb0, s = Build_ysys a c m b e -> s1 = Build_ysys a1 c1 m1 b1 e1 -> lb = lb0 ->
      keeps m m1 -> m_call m1 = m_call m -> (forall w, lb0 <> YHand CONTROL w) -> (forall e, lb0 <> YEvent SHELL e) ->
      (internal_on a1 -> internal_on a) -> (control_on c1 -> control_on c) -> stage (ls ++ [lb]) s1).
    { intros a c m b e a1 c1 m1 b1 e1 lb0 -> -> -> K Kc N1 N2 I1 I2. destruct Hst as [X|[X|(X0 & X1 & X2 & X3 & X4 & X5)]]; [left; now apply K|right; now left|].
      right. right. cbn [y_mem y_sh y_ct] in *. rewrite Kc. split; [exact X0|]. split; [intros w Hin; apply in_app_or in Hin as [Hin|[Hin|[]]]; [eapply X1; eauto|eapply N1; eauto]|].
      split; [intros x Hin; apply in_app_or in Hin as [Hin|[Hin|[]]]; [eapply X2; eauto|eapply N2; eauto]|]. split; [auto|]. split; auto. }
    assert (K0 : forall m, keeps m m) by (intros m c N; exact N).
    destruct H as [a c m b lb a1 m1 Hs|a c m b lb c1 m1 Hs|a m b|a m b|c m b Hv|a c m b Hd|a c m b Hd|a c m b f Hf|a c m b f Hf|a c m b ch w|a c m b w|a c m b];
      cbn [y_mem y_stopped y_end y_sh y_ct] in *.
    - assert (has SHELL m \/ free \/ call_quiet (m_call m)) as Hst'.
      { destruct Hst as [X|[X|(_ & _ & _ & _ & _ & X)]]; [left; exact X|auto|right; right; exact X]. }
      destruct (shell_sim _ _ _ _ _ _ Sh Q Hst' Hs) as (a1' & Hs' & S1 & Q1 & K1 & N1 & V1 & V2).
      eexists. split; [apply y_shell; eauto|]. split; [repeat split; cbn; eauto using ct_keeps; apply Q1|].
      destruct Hst as [X|[X|(X0 & X1 & X2 & X3 & X4 & X5)]]; [left; now apply K1|right; now left|]. cbn [y_mem y_sh y_ct] in *.
      destruct (V2 X3 X5) as [V|[V3 V4]]; [left; exact V|].
      assert ((exists e, lb = YEvent SHELL e) \/ forall e, lb <> YEvent SHELL e) as [He|Hne].
      { destruct lb as [| | | |ch e| | | | | |]; try (right; discriminate). destruct ch; [left; eauto|right; discriminate]. }
      + left. now apply V1.
      + right. right. cbn [y_mem y_sh y_ct]. split; [exact X0|]. split; [intros w Hin; apply in_app_or in Hin as [Hin|[Hin|[]]]; [eapply X1; eauto|eapply N1; eauto]|].
        split; [intros x Hin; apply in_app_or in Hin as [Hin|[Hin|[]]]; [eapply X2; eauto|eapply Hne; eauto]|]. auto.
    - destruct (control_sim _ _ _ _ _ _ Sc Q Hh Hs) as (c1' & Hs' & S1 & Q1 & K1 & N1 & V1 & V2).
      eexists. split; [apply y_control; eauto|]. split; [repeat split; cbn; eauto using sh_keeps; apply Q1|].
      destruct Hst as [X|[X|(X0 & X1 & X2 & X3 & X4 & X5)]]; [left; now apply K1|right; now left|]. cbn [y_mem y_sh y_ct] in *.
      assert ((exists w, lb = YHand CONTROL w) \/ forall w, lb <> YHand CONTROL w) as [[w He]|Hne].
      { destruct lb as [| | |ch w| | | | | | |]; try (right; discriminate). destruct ch; [right; discriminate|left; eauto]. }
      + destruct (Hh _ He) as [Y|Y]; [left; now apply K1|right; now left].
      + right. right. cbn [y_mem y_sh y_ct]. split; [exact X0|]. split; [intros w Hin; apply in_app_or in Hin as [Hin|[Hin|[]]]; [eapply X1; eauto|eapply Hne; eauto]|].
        split; [intros x Hin; apply in_app_or in Hin as [Hin|[Hin|[]]]; [eapply X2; eauto|eapply N1; eauto]|]. auto.
    - destruct c'; cbn [ctsim] in Sc; try discriminate; try contradiction. eexists. split; [apply y_notify|].
      split; [repeat split; cbn; auto; apply Q|]. eapply Rest; eauto; try discriminate; cbn; auto.
    - destruct c'; cbn [ctsim] in Sc; try discriminate; try contradiction. eexists. split; [apply y_out_control|].
      split; [repeat split; cbn; auto; apply Q|]. eapply Rest; eauto; try discriminate; cbn; auto.
    - destruct a'; cbn [shsim] in Sh; try discriminate; try contradiction. eexists. split; [apply y_out_shell; auto|].
      split; [repeat split; cbn; auto; apply Q|]. eapply Rest; eauto; try discriminate; cbn; auto.
    - eexists. split; [apply y_crash_shell; eapply sh_dying; eauto|].
      split; [repeat split; cbn; auto; apply Q|]. eapply Rest; eauto; try discriminate; cbn; auto.
    - eexists. split; [apply y_crash_control; eapply ct_dying; eauto|].
      split; [repeat split; cbn; auto; apply Q|]. eapply Rest; eauto; try discriminate; cbn; auto.
    - assert (keeps m (set_pub f m)) as K by (intros x N; exact N). eexists. split; [apply y_publish; eauto|].
      split; [repeat split; cbn; auto; try apply Q; eauto using sh_keeps, ct_keeps|]. eapply Rest; eauto; try discriminate; cbn; auto.
    - assert (keeps m (set_hb f m)) as K by (intros x N; exact N). eexists. split; [apply y_beat; eauto|].
      split; [repeat split; cbn; auto; try apply Q; eauto using sh_keeps, ct_keeps|]. eapply Rest; eauto; try discriminate; cbn; auto.
    - set (m1 := match ch with SHELL => set_shellq (m_shellq m ++ [w]) m | CONTROL => set_ctlq (m_ctlq m ++ [w]) m end).
      assert (keeps m m1) as K by (intros x N; unfold m1; destruct ch; exact N).
      assert (queues_ok ok m1) as Q1.
      { destruct Q as [Q1 Q2]. unfold m1. destruct ch; split; cbn; auto; apply Forall_app; split; auto; constructor; auto; eapply Ha; eauto. }
      eexists. split; [apply y_arrive|]. split; [repeat split; cbn; auto; try apply Q1; eauto using sh_keeps, ct_keeps|].
      eapply Rest; eauto; try discriminate; cbn; auto. destruct ch; reflexivity.
    - assert (keeps m (set_hb (f_push w (m_hb m)) m)) as K by (intros x N; exact N). eexists. split; [apply y_hb_arrive; eauto|].
      split; [repeat split; cbn; auto; try apply Q; eauto using sh_keeps, ct_keeps|]. eapply Rest; eauto; try discriminate; cbn; auto.
    - assert (keeps m (set_mstdin (S (m_stdin m)) m)) as K by (intros x N; exact N). eexists. split; [apply y_stdin_arrive; eauto|].
      split; [repeat split; cbn; auto; try apply Q; eauto using sh_keeps, ct_keeps|]. eapply Rest; eauto; try discriminate; cbn; auto.
  Qed.
End Split.
Lemma same_run {U} v (l l' : channel -> frames -> kprog U unit) (i i' : frames -> kprog U frames) (ok : frames -> Prop) (free : Prop) :
  (forall w, ok w -> addressed w) ->
  (forall w, ok w -> sim SHELL False False false (l SHELL w) (l' SHELL w) (fun _ => True)) ->
  (forall (asks : Prop) w, asks \/ free -> ok w -> sim CONTROL asks free false (l CONTROL w) (l' CONTROL w) (fun _ => True)) ->
  (forall (asks : Prop) w, asks \/ free -> sim SHELL asks free false (i w) (i' w) (fun _ => True)) ->
  forall k start ls s, yrun v l i (y_init k start) ls s -> arrivals_ok ok ls -> k_pid k SHELL <> [] \/ free \/ first_shell ls ->
  exists s', yrun v l' i' (y_init k start) ls s' /\ same_sys ok free s s' /\ stage free (k_pid k SHELL = []) ls s.
Proof.
  intros Ok HS HC HI k start ls s H. remember (y_init k start) as s0. induction H as [s|s ls s1 lb s2 H IH Hst]; intros Ha Hf; subst s.
  - exists (y_init k start). split; [constructor|]. split; [repeat split; constructor|]. destruct Hf as [X|[X|_]]; [left; exact X|right; left; exact X|].
    destruct (k_pid k SHELL) eqn:X; [|left; unfold has; cbn; rewrite X; discriminate].
    right. right. cbn. repeat split; auto. discriminate.
  - destruct IH as (s1' & R & S & G); auto.
    + intros c w Hin. eapply Ha, in_or_app. left. eauto.
    + destruct Hf as [X|[X|X]]; auto. right. right. intros l1 w l2 ->. eapply X with (l2 := (l2 ++ [lb])%list). rewrite <- app_assoc. reflexivity.
    + destruct (same_step v l l' i i' ok Ok free (k_pid k SHELL = []) HS HC HI ls s1 s1' lb s2 S G) as (s2' & St & S2 & G2); auto.
      * intros c w ->. eapply Ha, in_or_app. right. left. reflexivity.
      * intros w ->. destruct G as [G|[G|(G0 & _ & G2 & _)]]; auto. destruct Hf as [X|[X|X]]; auto; [contradiction|].
        destruct (X ls w [] eq_refl) as [e He]. exfalso. eapply G2; eauto.
      * exists s2'. split; [econstructor; eauto|]. auto.
Qed.

(** ** The default server *)
Section Default.
  Context {U : Type}.
  Variables (l l' : channel -> frames -> kprog U unit).
  Variable ok : frames -> Prop.
  Hypothesis ok_addressed : forall w, ok w -> addressed w.
  Variables free late : Prop.
  Notation any := (fun _ => True).
  Hypothesis HS : forall w, ok w -> sim SHELL False False false (l SHELL w) (l' SHELL w) any.
  Hypothesis HC : forall (asks : Prop) w, asks \/ free -> ok w -> sim CONTROL asks free false (l CONTROL w) (l' CONTROL w) any.
  Implicit Types (m : mem U).
  Definition dsim (a a' : mpc U) m : Prop :=
    match a, a' with
    | MInControl p x, MInControl p' x' => x = x' /\ exists b (asks : Prop), sim CONTROL asks free b p p' any /\ pids_ok CONTROL asks b m
    | MInShell p, MInShell p' => exists b, sim SHELL False False b p p' any /\ pids_ok SHELL False b m
    | MInControl _ _, _ | _, MInControl _ _ | MInShell _, _ | _, MInShell _ => False
    | a, a' => a = a'
    end.
  Definition in_control (a : mpc U) : Prop := match a with MInControl _ _ => True | _ => False end.
  Lemma op_sim c asks fr b o (k k' : kans o -> kprog U unit) m m1 x : guar c asks fr b o -> (forall y, rely c asks b o y -> sim c asks fr (b || sets c o) (k y) (k' y) any) ->
    queues_ok ok m -> pids_ok c asks b m -> mop o m m1 x ->
    sim c asks fr (b || sets c o) (k x) (k' x) any /\ queues_ok ok m1 /\ pids_ok c asks (b || sets c o) m1 /\ keeps m m1 /\
    (forall c' w, op_label o x <> Hand c' w) /\ ((exists e, op_label o x = Emitted e) -> loud asks fr b).
  Proof.
    intros G S Q P H. destruct (mop_inv ok ok_addressed c asks fr b o m m1 x Q P G H) as (R & Q1 & P1 & _).
    split; [auto|]. split; [auto|]. split; [auto|]. split; [intros c' N; eapply mop_keeps; eauto|]. split.
    - intros c' w. destruct o; cbn; try discriminate; [destruct e; discriminate|destruct x; discriminate].
    - intros [e He]. destruct o; cbn in He; try discriminate; [exact G|destruct x; discriminate].
  Qed.
  Lemma failing_sim {A} c asks fr b (p p' : kprog U A) Q : sim c asks fr b p p' Q -> failing p -> failing p'.
  Proof. destruct p; cbn [failing sim]; try contradiction; intros ->; auto. Qed.

  Definition same_dsys (s s' : dsys U) : Prop := d_mem s' = d_mem s /\ dsim (d_pc s) (d_pc s') (d_mem s) /\ queues_ok ok (d_mem s).
  Definition dstage (ls : list label) (s : dsys U) : Prop :=
    has SHELL (d_mem s) \/ free \/ (late /\ (forall w, ~ In (Hand CONTROL w) ls) /\ (forall e, ~ In (Emitted e) ls) /\ ~ in_control (d_pc s)).

  Lemma d_keeps a a' m m1 : keeps m m1 -> dsim a a' m -> dsim a a' m1.
  Proof.
    intros K. destruct a, a'; cbn [dsim]; auto.
    - intros (X & b & asks & S & P). eauto 6 using keeps_pids.
    - intros (b & S & P). eauto using keeps_pids.
  Qed.
  Lemma main_sim s s' lb s1 : same_dsys s s' -> (forall w, lb = Hand CONTROL w -> has SHELL (d_mem s) \/ free) -> main_step l s lb s1 ->
    exists s1', main_step l' s' lb s1' /\ same_dsys s1 s1' /\ keeps (d_mem s) (d_mem s1) /\ (~ in_control (d_pc s) -> (exists e, lb = Emitted e) -> has SHELL (d_mem s1)) /\
      (~ in_control (d_pc s) -> (forall w, lb <> Hand CONTROL w) -> ~ in_control (d_pc s1)).
  Proof.
    intros (Em & S & Q) Hh H. destruct s' as [a' m']. cbn [d_mem d_pc] in *. subst m'.
    assert (K0 : forall m, keeps m m) by (intros m c N; exact N).
    destruct H as [m Hs|m Hs|m Hq rc rs|m w q rs Hq|m m1 o k x rs Hm|m rs a|m rs p Hp|m rs|m w q Hq|m m1 o k x Hm|m a|m p Hp|m Hc|m w Hc|m Hc|m w Hc];
      cbn [d_mem d_pc] in *; destruct a' as [| |r'|p' r'|r'| |p'| | | | | |]; cbn [dsim] in S; try contradiction; try discriminate.
    - eexists. split; [now constructor|]. split; [repeat split; cbn; auto; apply Q|]. split; [apply K0|]. split; [intros _ [e He]; discriminate|]. cbn. auto.
    - eexists. split; [now constructor|]. split; [repeat split; cbn; auto; apply Q|]. split; [apply K0|]. split; [intros _ [e He]; discriminate|]. cbn. auto.
    - eexists. split; [now apply ms_poll|]. fold rc rs. split; [split; [reflexivity|split; [cbn; destruct rc; reflexivity|exact Q]]|]. split; [apply K0|].
      split; [intros _ [e He]; discriminate|]. cbn. destruct rc; auto.
    - injection S as <-. eexists. split; [eapply ms_control; eauto|]. destruct Q as [Q1 Q2]. unfold same_dsys, queues_ok. rewrite Hq in Q2. inversion_clear Q2 as [|? ? Q0 Q3]. cbn.
      split; [split; [reflexivity|split; [|now split]]|split; [intros c N; exact N|split; [intros _ [e He]; discriminate|intros _ N; exfalso; eapply N; reflexivity]]].
      split; auto. destruct (Hh _ eq_refl) as [X|X].
      + exists false, True. split; [apply HC; auto|]. intros c' [[Y _]|[_ ->]]; [discriminate|exact X].
      + exists false, False. split; [apply HC; auto|]. intros c' [[Y _]|[[] _]]. discriminate.
    - destruct S as (<- & b & asks & S & P). destruct S as (G & k' & -> & S). destruct (op_sim _ _ _ _ _ _ _ _ _ _ G S Q P Hm) as (S1 & Q1 & P1 & K1 & N1 & L1).
      eexists. split; [eapply ms_control_op; eauto|]. split; [split; [reflexivity|split; [cbn; eauto 6|exact Q1]]|]. split; [exact K1|]. cbn. tauto.
    - destruct S as (<- & b & asks & S & P). destruct S as [-> _]. eexists. split; [apply ms_control_end|]. split; [split; [reflexivity|split; [reflexivity|exact Q]]|].
      split; [apply K0|]. cbn. tauto.
    - destruct S as (<- & b & asks & S & P). eexists. split; [apply ms_control_crash; eapply failing_sim; eauto|]. split; [split; [reflexivity|split; [reflexivity|exact Q]]|].
      split; [apply K0|]. cbn. tauto.
    - injection S as <-. eexists. split; [apply ms_shell|]. split; [split; [reflexivity|split; [|exact Q]]|split; [apply K0|split; [intros _ [e He]; discriminate|]]];
        cbn [d_pc d_mem]; destruct (negb (m_stop m) && rs); cbn; auto.
    - eexists. split; [eapply ms_recv_shell; eauto|]. destruct Q as [Q1 Q2]. unfold same_dsys, queues_ok. rewrite Hq in Q1. inversion_clear Q1 as [|? ? Q0 Q3]. cbn.
      split; [split; [reflexivity|split; [|now split]]|split; [intros c N; exact N|split; [intros _ [e He]; discriminate|auto]]].
      exists false. split; [auto|]. intros c' [[Y _]|[[] _]]. discriminate.
    - destruct S as (b & S & P). destruct S as (G & k' & -> & S). destruct (op_sim _ _ _ _ _ _ _ _ _ _ G S Q P Hm) as (S1 & Q1 & P1 & K1 & N1 & L1).
      eexists. split; [eapply ms_shell_op; eauto|]. split; [split; [reflexivity|split; [cbn; eauto 6|exact Q1]]|]. split; [exact K1|]. split; [|cbn; auto].
      intros _ He. destruct (L1 He) as [X|[[]|[]]]. apply K1, P. left. auto.
    - destruct S as (b & S & P). destruct S as [-> _]. eexists. split; [apply ms_shell_end|]. split; [split; [reflexivity|split; [reflexivity|exact Q]]|].
      split; [apply K0|]. split; [intros _ [e He]; discriminate|]. cbn; auto.
    - destruct S as (b & S & P). eexists. split; [apply ms_shell_crash; eapply failing_sim; eauto|]. split; [split; [reflexivity|split; [reflexivity|exact Q]]|].
      split; [apply K0|]. split; [intros _ [e He]; discriminate|]. cbn; auto.
    - eexists. split; [now constructor|]. split; [split; [reflexivity|split; [reflexivity|exact Q]]|]. split; [intros c N; exact N|]. split; [intros _ [e He]; discriminate|]. cbn. auto.
    - eexists. split; [econstructor; eauto|]. split; [split; [reflexivity|split; [reflexivity|exact Q]]|]. split; [intros c N; exact N|]. split; [intros _ [e He]; discriminate|]. cbn. auto.
    - eexists. split; [now constructor|]. split; [split; [reflexivity|split; [reflexivity|exact Q]]|]. split; [intros c N; exact N|]. split; [intros _ [e He]; discriminate|]. cbn. auto.
    - eexists. split; [econstructor; eauto|]. split; [split; [reflexivity|split; [reflexivity|exact Q]]|]. split; [intros c N; exact N|]. split; [intros _ [e He]; discriminate|]. cbn. auto.
  Qed.
  Lemma alive_sim a a' m : dsim a a' m -> alive a -> alive a'.
  Proof. destruct a, a'; cbn; try contradiction; try discriminate; auto. Qed.
  Lemma same_dstep ls s s' lb s1 : same_dsys s s' -> dstage ls s -> (forall c w, lb = Arrive c w -> ok w) ->
    (forall w, lb = Hand CONTROL w -> has SHELL (d_mem s) \/ free) -> dstep l s lb s1 ->
    exists s1', dstep l' s' lb s1' /\ same_dsys s1 s1' /\ dstage (ls ++ [lb]) s1.
  Proof.
    intros S Hst Ha Hh H.
    assert (St : keeps (d_mem s) (d_mem s1) -> (~ in_control (d_pc s) -> (exists e, lb = Emitted e) -> has SHELL (d_mem s1)) ->
      (~ in_control (d_pc s) -> (forall w, lb <> Hand CONTROL w) -> ~ in_control (d_pc s1)) -> dstage (ls ++ [lb]) s1).
    { intros K V1 V2. destruct Hst as [X|[X|(X0 & X1 & X2 & X3)]]; [left; now apply K|right; now left|].
      assert ((exists e, lb = Emitted e) \/ forall e, lb <> Emitted e) as [He|Hne] by (destruct lb; eauto; right; discriminate); [left; auto|].
      assert ((exists w, lb = Hand CONTROL w) \/ forall w, lb <> Hand CONTROL w) as [[w Hw]|Hnw].
      { destruct lb as [| | | |ch w| | | |]; try (right; discriminate). destruct ch; [right; discriminate|left; eauto]. }
      - destruct (Hh w Hw) as [X|X]; [left; now apply K|right; now left].
      - right. right. split; auto. split; [intros w Hin; apply in_app_or in Hin as [Hin|[Hin|[]]]; [eapply X1; eauto|eapply Hnw; eauto]|].
        split; [intros x Hin; apply in_app_or in Hin as [Hin|[Hin|[]]]; [eapply X2; eauto|eapply Hne; eauto]|]. auto. }
    destruct H as [s lb s1 Hm|pc m f Hl Hf|pc m f Hl Hf|pc m w|pc m w|pc m w|pc m].
    - destruct (main_sim _ _ _ _ S Hh Hm) as (s1' & M & S1 & K1 & V1 & V2). exists s1'. split; [now constructor|]. split; auto.
    - destruct s' as [a' m']. destruct S as (Em & S & Q). cbn [d_mem d_pc] in *. subst m'. eexists. split; [apply ds_pub; eauto; eapply alive_sim; eauto|].
      assert (keeps m (set_pub f m)) as K by (intros x N; exact N). split; [split; [reflexivity|split; [eapply d_keeps; eauto|exact Q]]|].
      apply St; auto. intros _ [e He]; discriminate.
    - destruct s' as [a' m']. destruct S as (Em & S & Q). cbn [d_mem d_pc] in *. subst m'. eexists. split; [apply ds_hb; eauto; eapply alive_sim; eauto|].
      assert (keeps m (set_hb f m)) as K by (intros x N; exact N). split; [split; [reflexivity|split; [eapply d_keeps; eauto|exact Q]]|].
      apply St; auto. intros _ [e He]; discriminate.
    - destruct s' as [a' m']. destruct S as (Em & S & Q). cbn [d_mem d_pc] in *. subst m'. eexists. split; [apply ds_control|].
      assert (keeps m (set_ctlq (m_ctlq m ++ [w]) m)) as K by (intros x N; exact N). split; [split; [reflexivity|split; [eapply d_keeps; eauto|]]|].
      + destruct Q as [Q1 Q2]. split; cbn; auto. apply Forall_app. split; auto. constructor; auto. eapply Ha. reflexivity.
      + apply St; auto. intros _ [e He]; discriminate.
    - destruct s' as [a' m']. destruct S as (Em & S & Q). cbn [d_mem d_pc] in *. subst m'. eexists. split; [apply ds_shell|].
      assert (keeps m (set_shellq (m_shellq m ++ [w]) m)) as K by (intros x N; exact N). split; [split; [reflexivity|split; [eapply d_keeps; eauto|]]|].
      + destruct Q as [Q1 Q2]. split; cbn; auto. apply Forall_app. split; auto. constructor; auto. eapply Ha. reflexivity.
      + apply St; auto. intros _ [e He]; discriminate.
    - destruct s' as [a' m']. destruct S as (Em & S & Q). cbn [d_mem d_pc] in *. subst m'. eexists. split; [apply ds_beat|].
      assert (keeps m (set_hb (f_push w (m_hb m)) m)) as K by (intros x N; exact N). split; [split; [reflexivity|split; [eapply d_keeps; eauto|exact Q]]|].
      apply St; auto. intros _ [e He]; discriminate.
    - destruct s' as [a' m']. destruct S as (Em & S & Q). cbn [d_mem d_pc] in *. subst m'. eexists. split; [apply ds_stdin|].
      assert (keeps m (set_mstdin (Datatypes.S (m_stdin m)) m)) as K by (intros x N; exact N). split; [split; [reflexivity|split; [eapply d_keeps; eauto|exact Q]]|].
      apply St; auto. intros _ [e He]; discriminate.
  Qed.
End Default.
Lemma same_drun {U} (l l' : channel -> frames -> kprog U unit) (ok : frames -> Prop) (free : Prop) :
  (forall w, ok w -> addressed w) ->
  (forall w, ok w -> sim SHELL False False false (l SHELL w) (l' SHELL w) (fun _ => True)) ->
  (forall (asks : Prop) w, asks \/ free -> ok w -> sim CONTROL asks free false (l CONTROL w) (l' CONTROL w) (fun _ => True)) ->
  forall k start ls s, drun l (d_init k start) ls s -> darrivals_ok ok ls -> k_pid k SHELL <> [] \/ free \/ dfirst_shell ls ->
  exists s', drun l' (d_init k start) ls s' /\ same_dsys ok free s s' /\ dstage free (k_pid k SHELL = []) ls s.
Proof.
  intros Ok HS HC k start ls s H. remember (d_init k start) as s0. induction H as [s|s ls s1 lb s2 H IH Hst]; intros Ha Hf; subst s.
  - exists (d_init k start). split; [constructor|]. split; [repeat split; constructor|]. destruct Hf as [X|[X|_]]; [left; exact X|right; left; exact X|].
    destruct (k_pid k SHELL) eqn:X; [|left; unfold has; cbn; rewrite X; discriminate].
    right. right. cbn. repeat split; auto.
  - destruct IH as (s1' & R & S & G); auto.
    + intros c w Hin. eapply Ha, in_or_app. left. eauto.
    + destruct Hf as [X|[X|X]]; auto. right. right. intros l1 w l2 ->. eapply X with (l2 := (l2 ++ [lb])%list). rewrite <- app_assoc. reflexivity.
    + destruct (same_dstep l l' ok Ok free (k_pid k SHELL = []) HS HC ls s1 s1' lb s2 S G) as (s2' & St & S2 & G2); auto.
      * intros c w ->. eapply Ha, in_or_app. right. left. reflexivity.
      * intros w ->. destruct G as [G|[G|(G0 & _ & G2 & _)]]; auto. destruct Hf as [X|[X|X]]; auto; [contradiction|].
        destruct (X ls w [] eq_refl) as [e He]. exfalso. eapply G2; eauto.
      * exists s2'. split; [econstructor; eauto|]. auto.
Qed.
