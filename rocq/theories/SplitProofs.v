(** The split servers: each thread works with the parent of its own message. *)
From Verif Require Import Base Json JsonText Auth Message History Comm Tree Kernel KernelSpec Server Split SplitSpec Threads.

Lemma chan_eqb_refl c : chan_eqb c c = true.
Proof. now destruct c. Qed.
Lemma chan_eqb_eq a b : chan_eqb a b = true <-> a = b.
Proof. destruct a, b; cbn; split; congruence. Qed.
Lemma tooks_app c a b : tooks c (a ++ b) = (tooks c a ++ tooks c b)%list.
Proof. apply flat_map_app. Qed.
Lemma events_app c a b : events c (a ++ b) = (events c a ++ events c b)%list.
Proof. apply flat_map_app. Qed.

(** Runs. *)
Section Runs.
  Context {U : Type} (v : variant) (listener : channel -> frames -> kprog U unit) (internal : frames -> kprog U frames).
  Lemma yrun_app s ls s' : yrun v listener internal s ls s' -> forall a b, ls = (a ++ b)%list ->
    exists s1, yrun v listener internal s a s1 /\ yrun v listener internal s1 b s'.
  Proof.
    induction 1 as [|s ls s1 l s2 H IH Hs]; intros a b Hab.
    - symmetry in Hab. apply app_eq_nil in Hab as [-> ->]. exists s. split; constructor.
    - destruct b as [|b0 b] using rev_ind.
      + rewrite app_nil_r in Hab. subst a. exists s2. split; [econstructor; eauto | constructor].
      + rewrite app_assoc in Hab. apply app_inj_tail in Hab as [-> <-].
        destruct (IH a b eq_refl) as (s0 & A & B). exists s0. split; auto. econstructor; eauto.
  Qed.
  Lemma yrun_one s l s' : yrun v listener internal s [l] s' -> ystep v listener internal s l s'.
  Proof.
    intros H. remember [l] as ls eqn:Hl. destruct H as [|s ls s1 l' s2 Hr Hs]; [discriminate|].
    destruct ls as [|? [|? ?]]; try discriminate. injection Hl as ->. remember [] as ls eqn:Hl. destruct Hr as [|? ls]; [exact Hs|].
    destruct ls; discriminate.
  Qed.
End Runs.

(** The last start of thread [c] determines the rest. *)
Lemma last_start c : forall l2 l2' l1 x l1' x', (l1 ++ x :: l2 = l1' ++ x' :: l2')%list ->
  starts c x -> starts c x' -> in_same c l2 -> in_same c l2' -> l1 = l1' /\ x = x' /\ l2 = l2'.
Proof.
  induction l2 as [|y l2 IH] using rev_ind; intros l2' l1 x l1' x' H Hx Hx' H2 H2'.
  - destruct l2' as [|y' l2'] using rev_ind.
    + apply app_inj_tail in H as [-> ->]. auto.
    + rewrite app_comm_cons, app_assoc in H. apply app_inj_tail in H as [_ <-].
      apply Forall_app in H2' as [_ H2']. inversion H2'. contradiction.
  - destruct l2' as [|y' l2'] using rev_ind.
    + rewrite app_comm_cons, app_assoc in H. apply app_inj_tail in H as [_ ->].
      apply Forall_app in H2 as [_ H2]. inversion H2. contradiction.
    + rewrite !app_comm_cons, !app_assoc in H. apply app_inj_tail in H as [H ->].
      apply Forall_app in H2 as [H2 _]. apply Forall_app in H2' as [H2' _].
      destruct (IH _ _ _ _ _ H Hx Hx' H2 H2') as (-> & -> & ->). auto.
Qed.

Section Attribution.
  Context {U : Type} (v : variant) (E : env U).
  Implicit Types (m : mem U) (gh : ghost).
  Let listener c w := dispatch E w c.
  Let internal := dispatch_internal E.

  (** The ghost state describes the memory. *)
  Definition agrees (c : channel) gh m : Prop :=
    (forall i, g_pid gh = Some i -> k_pid (m_k m) c = i) /\ (forall h, g_phdr gh = Some h -> k_phdr (m_k m) c = h).
  (** The parents recorded for [c] did not change. *)
  Definition same_parent (c : channel) m m' : Prop := k_pid (m_k m') c = k_pid (m_k m) c /\ k_phdr (m_k m') c = k_phdr (m_k m) c.
  Lemma agrees_same c gh m m' : agrees c gh m -> same_parent c m m' -> agrees c gh m'.
  Proof. intros [A B] [C D]. split; intros x Hx; [rewrite C|rewrite D]; auto. Qed.
  Lemma same_refl c m : same_parent c m m.
  Proof. now split. Qed.

  Lemma mop_thread c P o m m' x gh : mop o m m' x -> may c P o gh -> agrees c gh m ->
    heard c o x gh /\ agrees c (learn o x gh) m' /\ (forall c', c' <> c -> same_parent c' m m').
  Proof.
    intros H Hm [A B].
    assert (H0 : forall g, g_pid g = g_pid gh -> g_phdr g = g_phdr gh -> k_pid (m_k m') = k_pid (m_k m) -> k_phdr (m_k m') = k_phdr (m_k m) ->
      agrees c g m' /\ (forall c', c' <> c -> same_parent c' m m')).
    { intros g G1 G2 E1 E2. split; [split; rewrite ?G1, ?G2, ?E1, ?E2; auto|]. intros c' _. split; now rewrite ?E1, ?E2. }
    destruct o; cbn [mop may heard learn] in *;
      try (lazymatch type of H with _ /\ _ => destruct H as [-> _]; split; [exact I|]; apply H0; reflexivity end).
    - destruct H as [-> ->]. cbn. split; [intros -> i Hi; auto|]. apply H0; reflexivity.
    - destruct H as [-> ->]. cbn. split; [intros -> i Hi; auto|]. apply H0; reflexivity.
    - destruct H as [-> ->]. subst c0. cbn. split; auto. split.
      + split; cbn; [intros i [= <-]|auto]. unfold upd_chan. now rewrite chan_eqb_refl.
      + intros c' Hc. split; cbn; auto. unfold upd_chan. destruct (chan_eqb c c') eqn:X; auto. apply chan_eqb_eq in X. congruence.
    - destruct H as [-> ->]. subst c0. cbn. split; auto. split.
      + split; cbn; [auto|intros i [= <-]]. unfold upd_chan. now rewrite chan_eqb_refl.
      + intros c' Hc. split; cbn; auto. unfold upd_chan. destruct (chan_eqb c c') eqn:X; auto. apply chan_eqb_eq in X. congruence.
    - subst m'. split; [exact I|]. destruct e; apply H0; reflexivity.
    - destruct H as (_ & -> & ->). split; [exact I|]. apply H0; reflexivity.
    - subst m'. split; auto.
    - split; [exact I|]. destruct (m_shellq m); destruct H as [-> ->]; apply H0; reflexivity.
    - destruct H.
  Qed.

  Definition gsafe (c : channel) (P : ghost -> event -> Prop) {A} (Q : ghost -> A -> Prop) gh (g : going U A) : Prop :=
    match g with
    | Going p => rg c P gh p Q (fun _ => True)
    | Calling k => forall w, rg c P gh (k w) Q (fun _ => True)
    end.
  Lemma gstep_thread c P {A} Q (g : going U A) m l g' m' gh : gstep c g m l g' m' -> gsafe c P Q gh g -> agrees c gh m ->
    (exists gh', gsafe c P Q gh' g' /\ agrees c gh' m' /\
      incl (g_took gh') (tooks c [l] ++ g_took gh) /\ g_out gh' = (events c [l] ++ g_out gh)%list) /\
    (forall c', c' <> c -> same_parent c' m m') /\
    (forall e, l = YEvent c e -> P gh e) /\ (forall c', ~ starts c' l) /\
    (forall c', c' <> c -> tooks c' [l] = [] /\ events c' [l] = []) /\
    (forall c' w, l = YCall c' w -> exists j t, dump EStrict j = Ok t /\ w = [t]).
  Proof.
    intros H Hs Ha.
    assert (Hne : forall c', c' <> c -> chan_eqb c' c = false).
    { intros c' Hc. destruct (chan_eqb c' c) eqn:X; auto. apply chan_eqb_eq in X. congruence. }
    destruct H as [o k m m' x H|w k m H|k w m H]; cbn [gsafe] in *.
    - destruct Hs as [Hm Hk]. destruct (mop_thread _ _ _ _ _ _ _ H Hm Ha) as (B & C & D).
      split; [|split; [exact D|]; split; [|split; [|split]]].
      + exists (learn o x gh). split; [apply (Hk x B)|]. split; [exact C|]. clear -x.
        destruct o; cbn; try (split; [intros y Hy; exact Hy | reflexivity]).
        * rewrite chan_eqb_refl. split; [intros y Hy; exact Hy | reflexivity].
        * destruct x; cbn; rewrite ?chan_eqb_refl; (split; [intros y Hy; exact Hy | reflexivity]).
      + intros e He. destruct o; cbn in He; try discriminate; [injection He as <-; exact Hm|destruct x; discriminate].
      + intros c'. destruct o; cbn; auto. destruct x; auto.
      + intros c' Hc. destruct o; cbn; auto; [rewrite (Hne _ Hc); auto|]. destruct x; cbn; rewrite ?(Hne _ Hc); auto.
      + intros c' w He. destruct o; cbn in He; try discriminate. destruct x; discriminate.
    - destruct Hs as [Hm Hk]. split; [|split; [intros; split; reflexivity|]; split; [discriminate|split; [auto|split; [auto|]]]].
      2:{ intros c' w' [= <- <-]. exact Hm. }
      exists gh. split; [|split; [exact Ha|split; [intros x Hx; exact Hx|reflexivity]]]. intros w'. apply (Hk w'). exact I.
    - split; [|split; [intros; split; reflexivity|]; split; [discriminate|split; [auto|split; [auto|discriminate]]]].
      exists gh. split; [apply Hs|split; [exact Ha|split; [intros x Hx; exact Hx|reflexivity]]].
  Qed.

  (** The parent recorded for [c] after [ls], when thread [c] is not in a listener. *)
  Variable k0 : kstate U.
  Definition recorded (c : channel) (ls : list slabel) (p : list string) (h : json) : Prop :=
    (exists x : xmessage, last_accepted E c ls x /\ p = m_ids x /\ h = m_header (m_base x)) \/
    (none_accepted E c ls /\ p = k_pid k0 c /\ h = k_phdr k0 c).
  (** Thread [c] is not in a listener. *)
  Definition resting (c : channel) (ls : list slabel) m : Prop :=
    recorded c ls (k_pid (m_k m) c) (k_phdr (m_k m) c) /\
    forall l1 w l2, ls = (l1 ++ YHand c w :: l2)%list -> in_same c l2 -> whole E c w (events c l2).
  (** Thread [c] is in its listener. *)
  Definition ghost_of p h : ghost := {| g_pid := Some p; g_phdr := Some h; g_took := []; g_out := [] |}.
  Definition running (c : channel) (ls : list slabel) m (g : going U unit) : Prop :=
    exists l1 w l2 p h gh, ls = (l1 ++ YHand c w :: l2)%list /\ in_same c l2 /\ recorded c l1 p h /\
      gsafe c (attributed_to E c w) (fun gh _ => bracketed E c w (ghost_of p h) gh) gh g /\ agrees c gh m /\
      incl (g_took gh) (tooks c l2) /\ g_out gh = rev (events c l2).
  (** The shell thread is in the internal listener. *)
  Definition interning (ls : list slabel) m (g : going U frames) : Prop :=
    exists l1 w l2 p h gh, ls = (l1 ++ YIntern w :: l2)%list /\ in_same SHELL l2 /\ recorded SHELL l1 p h /\
      gsafe SHELL (fun gh e => forall x : xmessage, p = m_ids x -> h = m_header (m_base x) -> attributed E SHELL x (g_took gh) e)
        (fun gh r => (g_pid gh = Some p /\ g_phdr gh = Some h) /\ asked_interpreter E w (rev (g_out gh)) r) gh g /\
      agrees SHELL gh m /\ incl (g_took gh) (tooks SHELL l2) /\ g_out gh = rev (events SHELL l2).
  Definition shell_inv (ls : list slabel) (a : shpc U) m : Prop :=
    match a with SRun g _ => running SHELL ls m g | SIntern g => interning ls m g | _ => resting SHELL ls m end.
  Definition control_inv (ls : list slabel) (a : ctpc U) m : Prop :=
    match a with CRun g => running CONTROL ls m g | _ => resting CONTROL ls m end.

  (** Labels that do not concern thread [c]. *)
  Definition foreign (c : channel) (l : slabel) : Prop := ~ starts c l /\ tooks c [l] = [] /\ events c [l] = [].
  Lemma recorded_snoc c ls l p h : recorded c ls p h -> (forall w, l <> YHand c w) -> recorded c (ls ++ [l]) p h.
  Proof.
    intros [(m & (a & w & b & -> & A & B) & C)|(A & B)] Hl.
    - left. exists m. split; auto. exists a, w, (b ++ [l])%list. rewrite <- app_assoc. split; auto. split; auto.
      intros w' m' Hi. apply in_app_or in Hi as [Hi|[Hi|[]]]; [eauto|]. now apply Hl in Hi.
    - right. split; auto. intros w' m' Hi. apply in_app_or in Hi as [Hi|[Hi|[]]]; [eauto|]. now apply Hl in Hi.
  Qed.
  Lemma starts_hand c l : ~ starts c l -> forall w, l <> YHand c w.
  Proof. intros H w ->. apply H. reflexivity. Qed.
  Lemma resting_snoc c ls l m m' : resting c ls m -> foreign c l -> same_parent c m m' -> resting c (ls ++ [l]) m'.
  Proof.
    intros [A B] (F1 & F2 & F3) [S1 S2]. split.
    - rewrite S1, S2. apply recorded_snoc; auto. now apply starts_hand.
    - intros l1 w l2 Hl H2. destruct l2 as [|x l2] using rev_ind.
      + apply app_inj_tail in Hl as [_ ->]. now destruct F1.
      + rewrite app_comm_cons, app_assoc in Hl. apply app_inj_tail in Hl as [-> <-].
        rewrite events_app, F3, app_nil_r. apply Forall_app in H2 as [H2 _]. eauto.
  Qed.
  Lemma running_snoc c ls l m m' g : running c ls m g -> foreign c l -> same_parent c m m' -> running c (ls ++ [l]) m' g.
  Proof.
    intros (l1 & w & l2 & p & h & gh & -> & A & B & C & D & F & G) (F1 & F2 & F3) S.
    exists l1, w, (l2 ++ [l])%list, p, h, gh. rewrite <- app_assoc. split; auto. split; [apply Forall_app; auto|]. split; auto. split; auto.
    split; [eapply agrees_same; eauto|]. rewrite tooks_app, events_app, F2, F3, !app_nil_r. auto.
  Qed.
  Lemma interning_snoc ls l m m' g : interning ls m g -> foreign SHELL l -> same_parent SHELL m m' -> interning (ls ++ [l]) m' g.
  Proof.
    intros (l1 & w & l2 & p & h & gh & -> & A & B & C & D & F & G) (F1 & F2 & F3) S.
    exists l1, w, (l2 ++ [l])%list, p, h, gh. rewrite <- app_assoc. split; auto. split; [apply Forall_app; auto|]. split; auto. split; auto.
    split; [eapply agrees_same; eauto|]. rewrite tooks_app, events_app, F2, F3, !app_nil_r. auto.
  Qed.
  Lemma shell_snoc ls l m m' a : shell_inv ls a m -> foreign SHELL l -> same_parent SHELL m m' -> shell_inv (ls ++ [l]) a m'.
  Proof. destruct a; cbn; eauto using resting_snoc, running_snoc, interning_snoc. Qed.
  Lemma control_snoc ls l m m' a : control_inv ls a m -> foreign CONTROL l -> same_parent CONTROL m m' -> control_inv (ls ++ [l]) a m'.
  Proof. destruct a; cbn; eauto using resting_snoc, running_snoc. Qed.

  (** The thread itself. *)
  Lemma begin_run c ls m m' w : resting c ls m -> same_parent c m m' -> running c (ls ++ [YHand c w]) m' (Going (listener c w)).
  Proof.
    intros [A _] [S1 S2]. exists ls, w, [], (k_pid (m_k m) c), (k_phdr (m_k m) c), (ghost_of (k_pid (m_k m) c) (k_phdr (m_k m) c)).
    split; auto. split; [constructor|]. split; auto. split; [apply rg_dispatch; reflexivity|]. split; [split; cbn; congruence|].
    split; [intros x []|reflexivity].
  Qed.
  Lemma step_run c ls m g l g' m' : gstep c g m l g' m' -> running c ls m g ->
    running c (ls ++ [l]) m' g' /\ (forall c', c' <> c -> same_parent c' m m' /\ foreign c' l).
  Proof.
    intros Hs (l1 & w & l2 & p & h & gh & -> & A & B & C & D & F & G).
    destruct (gstep_thread _ _ _ _ _ _ _ _ _ Hs C D) as ((gh' & G1 & G2 & G3 & G4) & H2 & H3 & H4 & H5 & H6).
    split; [|intros c' Hc; split; [auto|split; [apply H4 | apply H5; auto]]].
    exists l1, w, (l2 ++ [l])%list, p, h, gh'. rewrite <- app_assoc. split; auto. split; [apply Forall_app; auto|]. split; auto. split; auto. split; auto.
    rewrite tooks_app, events_app, rev_app_distr. split.
    - intros x Hx. apply G3 in Hx. apply in_app_or in Hx as [Hx|Hx]; apply in_or_app; auto.
    - rewrite G4, G. f_equal. destruct l; cbn; auto. destruct (chan_eqb _ _); auto.
  Qed.
  Lemma end_run c ls m a : running c ls m (Going (Ret a)) -> resting c ls m.
  Proof.
    intros (l1 & w & l2 & p & h & gh & -> & A & B & C & D & F & G). cbn in C. split.
    - destruct C as [(-> & Hr)|(x & i & l & b & H1 & H2 & H3 & H4 & H5)].
      + destruct D as [D1 D2]. rewrite (D1 _ eq_refl), (D2 _ eq_refl).
        assert (Hna : none_accepted E c (YHand c w :: l2)).
        { intros w' m' [Hw|Hw] Hc.
          - injection Hw as <-. destruct Hr as [e Hr]. unfold accepted in Hc. congruence.
          - eapply Forall_forall in A; [|exact Hw]. now apply A. }
        destruct B as [(x & (a1 & w1 & b1 & -> & A1 & A2) & A3)|(B1 & B2)].
        * left. exists x. split; auto. exists a1, w1, (b1 ++ YHand c w :: l2)%list. rewrite <- app_assoc. split; auto. split; auto.
          intros w' m' Hi. apply in_app_or in Hi as [Hi|Hi]; eauto.
        * right. split; auto. intros w' m' Hi. apply in_app_or in Hi as [Hi|Hi]; eauto.
      + left. exists x. destruct D as [D1 D2]. destruct H2 as (I1 & I2 & _). rewrite (D1 _ I1), (D2 _ I2). split; auto.
        exists l1, w, l2. split; auto. split; auto. intros w' m' Hi. eapply Forall_forall in A; [|exact Hi]. now destruct A.
    - intros l1' w' l2' Hl H2.
      destruct (last_start c _ _ _ _ _ _ Hl) as (<- & Hw & <-); [reflexivity|reflexivity|exact A|exact H2|]. injection Hw as <-.
      destruct C as [(-> & Hr)|(x & i & l & b & H1 & _ & H3 & H4 & H5)].
      + left. split; auto. cbn in G. apply (f_equal (@rev event)) in G. rewrite rev_involutive in G. now symmetry.
      + right. exists x, b, (rev l), i. split; auto. split; auto. rewrite H3 in G. apply (f_equal (@rev event)) in G.
        rewrite rev_involutive in G. cbn in G. rewrite rev_app_distr in G. now symmetry.
  Qed.
  Lemma begin_intern ls m w : resting SHELL ls m -> interning (ls ++ [YIntern w]) m (Going (internal w)).
  Proof.
    intros [A _]. exists ls, w, [], (k_pid (m_k m) SHELL), (k_phdr (m_k m) SHELL), (ghost_of (k_pid (m_k m) SHELL) (k_phdr (m_k m) SHELL)).
    split; auto. split; [constructor|]. split; auto. split; [|split; [split; cbn; congruence|split; [intros x []|reflexivity]]].
    cbn [gsafe]. apply rg_weaken with (P := PA E SHELL {| m_ids := k_pid (m_k m) SHELL;
      m_base := {| m_header := k_phdr (m_k m) SHELL; m_parent_header := JNull; m_metadata := JNull; m_content := JNull; m_buffers := [] |} |}).
    { intros g e He x H1 H2. unfold PA in He. destruct e; cbn in *; rewrite <- ?H1, <- ?H2; exact He. }
    eapply rg_impl; [apply rg_internal| |]; auto.
    - repeat split. intros x [].
    - intros g f ((I1 & I2 & _) & I3). auto.
  Qed.
  Lemma step_intern ls m g l g' m' : gstep SHELL g m l g' m' -> interning ls m g ->
    interning (ls ++ [l]) m' g' /\ (forall c', c' <> SHELL -> same_parent c' m m' /\ foreign c' l).
  Proof.
    intros Hs (l1 & w & l2 & p & h & gh & -> & A & B & C & D & F & G).
    destruct (gstep_thread _ _ _ _ _ _ _ _ _ Hs C D) as ((gh' & G1 & G2 & G3 & G4) & H2 & H3 & H4 & H5 & H6).
    split; [|intros c' Hc; split; [auto|split; [apply H4 | apply H5; auto]]].
    exists l1, w, (l2 ++ [l])%list, p, h, gh'. rewrite <- app_assoc. split; auto. split; [apply Forall_app; auto|]. split; auto. split; auto. split; auto.
    rewrite tooks_app, events_app, rev_app_distr. split.
    - intros x Hx. apply G3 in Hx. apply in_app_or in Hx as [Hx|Hx]; apply in_or_app; auto.
    - rewrite G4, G. f_equal. destruct l; cbn; auto. destruct c; auto.
  Qed.
  Lemma end_intern ls m a : interning ls m (Going (Ret a)) -> resting SHELL ls m.
  Proof.
    intros (l1 & w & l2 & p & h & gh & -> & A & B & ((C1 & C2) & C3) & D & F & G). split.
    - destruct D as [D1 D2]. rewrite (D1 _ C1), (D2 _ C2).
      assert (Hna : forall w', ~ In (YHand SHELL w') (YIntern w :: l2)).
      { intros w' [Hw|Hw]; [discriminate|]. eapply Forall_forall in A; [|exact Hw]. now apply A. }
      destruct B as [(x & (a1 & w1 & b1 & -> & A1 & A2) & A3)|(B1 & B2)].
      * left. exists x. split; auto. exists a1, w1, (b1 ++ YIntern w :: l2)%list. rewrite <- app_assoc. split; auto. split; auto.
        intros w' m' Hi. apply in_app_or in Hi as [Hi|Hi]; eauto. now apply Hna in Hi.
      * right. split; auto. intros w' m' Hi. apply in_app_or in Hi as [Hi|Hi]; eauto. now apply Hna in Hi.
    - intros l1' w' l2' Hl H2.
      destruct (last_start SHELL _ _ _ _ _ _ Hl) as (_ & Hw & _); [reflexivity|reflexivity|exact A|exact H2|]. discriminate.
  Qed.

  Lemma foreign_tau c t : foreign c (YTau t).
  Proof. repeat split. intros []. Qed.
  Lemma foreign_end c w : foreign c (YInternEnd w).
  Proof. repeat split. intros []. Qed.
  Lemma same_set_call c x m : same_parent c m (set_call x m). Proof. split; reflexivity. Qed.
  Lemma same_set_shellq c x m : same_parent c m (set_shellq x m). Proof. split; reflexivity. Qed.
  Lemma same_set_ctlq c x m : same_parent c m (set_ctlq x m). Proof. split; reflexivity. Qed.
  Lemma same_set_pub c x m : same_parent c m (set_pub x m). Proof. split; reflexivity. Qed.
  Lemma same_set_hb c x m : same_parent c m (set_hb x m). Proof. split; reflexivity. Qed.
  Lemma same_set_stdin c x m : same_parent c m (set_mstdin x m). Proof. split; reflexivity. Qed.
  Hint Resolve same_set_call same_set_shellq same_set_ctlq same_set_pub same_set_hb same_set_stdin same_refl foreign_tau foreign_end : core.

  Definition yinv (ls : list slabel) (s : ysys U) : Prop := shell_inv ls (y_sh s) (y_mem s) /\ control_inv ls (y_ct s) (y_mem s).
  Lemma shell_step_inv ls a m l a' m' b : shell_step listener internal a m l a' m' -> shell_inv ls a m -> control_inv ls b m ->
    shell_inv (ls ++ [l]) a' m' /\ control_inv (ls ++ [l]) b m'.
  Proof.
    intros H HS HC. destruct H; cbn [shell_inv] in *.
    all: try (split; [eapply (resting_snoc SHELL); eauto | eapply control_snoc; eauto]; fail).
    - split; [eapply begin_run; eauto | eapply control_snoc; eauto]. repeat split. intros [=].
    - destruct (step_run _ _ _ _ _ _ _ H HS) as [A B]. split; auto. destruct (B CONTROL); [discriminate|]. eapply control_snoc; eauto.
    - apply end_run in HS. split; [|eapply control_snoc; eauto]. destruct b0; apply (resting_snoc SHELL _ _ m); auto.
    - split; [eapply begin_intern; eauto | eapply control_snoc; eauto]. repeat split. intros [=].
    - destruct (step_intern _ _ _ _ _ _ H HS) as [A B]. split; auto. destruct (B CONTROL); [discriminate|]. eapply control_snoc; eauto.
    - apply end_intern in HS. split; [|eapply control_snoc; eauto]. apply (resting_snoc SHELL _ _ m); auto.
  Qed.
  Lemma control_step_inv ls a m l a' m' b : control_step listener a m l a' m' -> control_inv ls a m -> shell_inv ls b m ->
    control_inv (ls ++ [l]) a' m' /\ shell_inv (ls ++ [l]) b m'.
  Proof.
    intros H HS HC. destruct H; cbn [control_inv] in *.
    all: try (split; [eapply (resting_snoc CONTROL); eauto | eapply shell_snoc; eauto]; fail).
    - split; [eapply begin_run; eauto | eapply shell_snoc; eauto]. repeat split. intros [=].
    - destruct (step_run _ _ _ _ _ _ _ H HS) as [A B]. split; auto. destruct (B SHELL); [discriminate|]. eapply shell_snoc; eauto.
    - apply end_run in HS. split; [|apply shell_snoc with (m := m); auto]. apply (resting_snoc CONTROL _ _ m); auto.
  Qed.
  Lemma ystep_inv ls s l s' : yinv ls s -> ystep v listener internal s l s' -> yinv (ls ++ [l]) s'.
  Proof.
    intros [A B] H. destruct H; cbn [yinv y_sh y_ct y_mem] in *; unfold yinv; cbn [y_sh y_ct y_mem].
    all: try (split; [eapply shell_snoc; eauto | eapply control_snoc; eauto]; fail).
    - eapply shell_step_inv; eauto.
    - apply and_comm. eapply control_step_inv; eauto.
    - assert (F : forall c', foreign c' (YArrive ch w)) by (intros c'; repeat split; intros []).
      destruct ch; (split; [eapply shell_snoc; eauto | eapply control_snoc; eauto]).
    - assert (F : forall c', foreign c' (YBeat w)) by (intros c'; repeat split; intros []).
      split; [eapply shell_snoc; eauto | eapply control_snoc; eauto].
    - assert (F : forall c', foreign c' YStdin) by (intros c'; repeat split; intros []).
      split; [eapply shell_snoc; eauto | eapply control_snoc; eauto].
  Qed.
  Lemma yrun_inv start ls s : yrun v listener internal (y_init k0 start) ls s -> yinv ls s.
  Proof.
    remember (y_init k0 start) as s0 eqn:Hs0. induction 1 as [|s0 ls s1 l s2 H IH Hst]; [subst s|].
    - split; cbn; (split; [right; repeat split; intros w' m' []|intros [|? ?] ? ? [=]]).
    - apply (ystep_inv _ _ _ _ (IH Hs0) Hst).
  Qed.

  (** Events and calls are made in a listener. *)
  Lemma label_chan c c' (o : kop U) x e : label_of c o x = YEvent c' e -> c' = c.
  Proof. destruct o; cbn; try discriminate; [now intros [= <- _]|]. destruct x; discriminate. Qed.
  Lemma gstep_chan c {A} (g : going U A) m c' e g' m' : gstep c g m (YEvent c' e) g' m' -> c' = c.
  Proof.
    remember (YEvent c' e) as l eqn:Hl. intros H. destruct H; try discriminate. eapply label_chan; eauto.
  Qed.
  Lemma event_step s c e s' : ystep v listener internal s (YEvent c e) s' ->
    match c with
    | SHELL => (exists g b g' m', y_sh s = SRun g b /\ gstep SHELL g (y_mem s) (YEvent SHELL e) g' m') \/
               (exists g g' m', y_sh s = SIntern g /\ gstep SHELL g (y_mem s) (YEvent SHELL e) g' m')
    | CONTROL => exists g g' m', y_ct s = CRun g /\ gstep CONTROL g (y_mem s) (YEvent CONTROL e) g' m'
    end.
  Proof.
    remember (YEvent c e) as l eqn:Hl. intros H. destruct H; try discriminate; subst l; cbn [y_sh y_ct y_mem].
    - inversion H; subst.
      + match goal with G : gstep _ _ _ _ _ _ |- _ => pose proof (gstep_chan _ _ _ _ _ _ _ G); subst c end. left. eauto 6.
      + match goal with G : gstep _ _ _ _ _ _ |- _ => pose proof (gstep_chan _ _ _ _ _ _ _ G); subst c end. right. eauto 6.
    - inversion H; subst.
      match goal with G : gstep _ _ _ _ _ _ |- _ => pose proof (gstep_chan _ _ _ _ _ _ _ G); subst c end. eauto 6.
  Qed.
  Lemma call_step ls s c w s' : yinv ls s -> ystep v listener internal s (YCall c w) s' -> exists j t, dump EStrict j = Ok t /\ w = [t].
  Proof.
    intros [A B]. remember (YCall c w) as l eqn:Hl. intros H. destruct H; try discriminate; subst l; cbn [y_sh y_ct y_mem] in *.
    - inversion H; subst; cbn [shell_inv] in A.
      + destruct A as (l1 & w1 & l2 & p & h & gh & -> & A1 & A2 & A3 & A4 & _).
        eapply (gstep_thread _ _ _ _ _ _ _ _ _ H0 A3 A4). reflexivity.
      + destruct A as (l1 & w1 & l2 & p & h & gh & -> & A1 & A2 & A3 & A4 & _).
        eapply (gstep_thread _ _ _ _ _ _ _ _ _ H0 A3 A4). reflexivity.
    - inversion H; subst; cbn [control_inv] in B.
      destruct B as (l1 & w1 & l2 & p & h & gh & -> & A1 & A2 & A3 & A4 & _).
      eapply (gstep_thread _ _ _ _ _ _ _ _ _ H0 A3 A4). reflexivity.
  Qed.

  Lemma attributed_mono c x t t' e : attributed E c x t e -> incl t t' -> attributed E c x t' e.
  Proof. destruct e; cbn; auto. intros [H|(H1 & w' & m' & H2 & H3)] Hi; [left; auto|right]. split; auto. exists w', m'. auto. Qed.

  Lemma running_event c ls m g e g' m' l1 w l2 : running c ls m g -> gstep c g m (YEvent c e) g' m' ->
    ls = (l1 ++ YHand c w :: l2)%list -> in_same c l2 ->
    exists x, accepted E w x /\ attributed E c x (tooks c l2) e /\ (events c l2 = [] -> status_event E "busy" c (m_header (m_base x)) e).
  Proof.
    intros (l1' & w' & l2' & p & h & gh & -> & A1 & A2 & A3 & A4 & A5 & A6) Hg Hl H2.
    destruct (last_start c _ _ _ _ _ _ Hl) as (<- & Hw & <-); [reflexivity|reflexivity|exact A1|exact H2|]. injection Hw as <-.
    destruct (gstep_thread _ _ _ _ _ _ _ _ _ Hg A3 A4) as (_ & _ & H & _). destruct (H e eq_refl) as (x & B1 & B2 & B3).
    exists x. split; auto. split; [eapply attributed_mono; eauto|]. intros Hn. apply B3. rewrite A6, Hn. reflexivity.
  Qed.

  (** Every event of a thread belongs to the message the thread is handling. *)
  Lemma thread_attribution start ls s c w e l1 l2 l3 : yrun v listener internal (y_init k0 start) ls s ->
    ls = (l1 ++ YHand c w :: l2 ++ YEvent c e :: l3)%list -> in_same c l2 ->
    exists x, accepted E w x /\ attributed E c x (tooks c l2) e /\ (events c l2 = [] -> status_event E "busy" c (m_header (m_base x)) e).
  Proof.
    intros Hr -> H2.
    destruct (yrun_app _ _ _ _ _ _ Hr (l1 ++ YHand c w :: l2) (YEvent c e :: l3)) as (s1 & R1 & R2); [now rewrite <- app_assoc|].
    destruct (yrun_app _ _ _ _ _ _ R2 [YEvent c e] l3 eq_refl) as (s2 & R3 & _). apply yrun_one in R3.
    destruct (yrun_inv _ _ _ R1) as [IS IC]. apply event_step in R3.
    destruct c.
    - destruct R3 as [(g & b & g' & m' & Hp & Hg)|(g & g' & m' & Hp & Hg)]; rewrite Hp in IS; cbn in IS.
      + eapply running_event; eauto.
      + destruct IS as (l1' & w' & l2' & p & h & gh & Hl & A1 & _).
        destruct (last_start SHELL _ _ _ _ _ _ Hl) as (_ & Hw & _); [reflexivity|reflexivity|exact H2|exact A1|discriminate].
    - destruct R3 as (g & g' & m' & Hp & Hg); rewrite Hp in IC; cbn in IC. eapply running_event; eauto.
  Qed.
  (** A complete call. *)
  Lemma thread_whole start ls s c w l l1 l2 l3 : yrun v listener internal (y_init k0 start) ls s ->
    ls = (l1 ++ YHand c w :: l2 ++ l :: l3)%list -> in_same c l2 -> starts c l -> whole E c w (events c l2).
  Proof.
    intros Hr -> H2 Hl.
    destruct (yrun_app _ _ _ _ _ _ Hr (l1 ++ YHand c w :: l2) (l :: l3)) as (s1 & R1 & R2); [now rewrite <- app_assoc|].
    destruct (yrun_app _ _ _ _ _ _ R2 [l] l3 eq_refl) as (s2 & R3 & _). apply yrun_one in R3.
    destruct (yrun_inv _ _ _ R1) as [IS IC].
    assert (HR : resting c (l1 ++ YHand c w :: l2) (y_mem s1)).
    { assert (HG : forall c' A (g : going U A) m g' m', gstep c' g m l g' m' -> False).
      { intros c' A g m g' m' H. destruct H; cbn in Hl; auto. destruct o; cbn in Hl; auto. destruct x; auto. }
      destruct R3; cbn [y_sh y_ct y_mem] in *; try contradiction.
      - destruct H; cbn in Hl; try contradiction.
        + subst c. exact IS.
        + exfalso; eauto.
        + subst c. exact IS.
        + exfalso; eauto.
      - destruct H; cbn in Hl; try contradiction.
        + subst c. exact IC.
        + exfalso; eauto. }
    destruct HR as [_ HR]. eapply HR; eauto.
  Qed.
  (** Internal requests are handled with the parent of the last accepted shell message. *)
  Lemma intern_attribution start ls s w e l1 l2 l3 x : yrun v listener internal (y_init k0 start) ls s ->
    ls = (l1 ++ YIntern w :: l2 ++ YEvent SHELL e :: l3)%list -> in_same SHELL l2 -> last_accepted E SHELL l1 x ->
    attributed E SHELL x (tooks SHELL l2) e.
  Proof.
    intros Hr -> H2 Hx.
    destruct (yrun_app _ _ _ _ _ _ Hr (l1 ++ YIntern w :: l2) (YEvent SHELL e :: l3)) as (s1 & R1 & R2); [now rewrite <- app_assoc|].
    destruct (yrun_app _ _ _ _ _ _ R2 [YEvent SHELL e] l3 eq_refl) as (s2 & R3 & _). apply yrun_one in R3.
    destruct (yrun_inv _ _ _ R1) as [IS IC]. apply event_step in R3.
    destruct R3 as [(g & b & g' & m' & Hp & Hg)|(g & g' & m' & Hp & Hg)]; rewrite Hp in IS; cbn in IS.
    - destruct IS as (l1' & w' & l2' & p & h & gh & Hl & A1 & _).
      destruct (last_start SHELL _ _ _ _ _ _ Hl) as (_ & Hw & _); [reflexivity|reflexivity|exact H2|exact A1|discriminate].
    - destruct IS as (l1' & w' & l2' & p & h & gh & Hl & A1 & A2 & A3 & A4 & A5 & A6).
      destruct (last_start SHELL _ _ _ _ _ _ Hl) as (<- & Hw & <-); [reflexivity|reflexivity|exact H2|exact A1|].
      destruct (gstep_thread _ _ _ _ _ _ _ _ _ Hg A3 A4) as (_ & _ & H & _). specialize (H e eq_refl).
      eapply attributed_mono; [|exact A5].
      destruct Hx as (a & wa & b & -> & B1 & B2).
      destruct A2 as [(y & (a' & wa' & b' & Hl' & B1' & B2') & -> & ->)|(Hn & _)].
      + assert (Hy : x = y); [|subst y; apply H; reflexivity].
        clear -Hl' B1 B2 B1' B2'. revert b' Hl' B2'. induction b as [|z b IH] using rev_ind; intros b' Hl' B2'.
        * destruct b' as [|z' b' _] using rev_ind.
          -- apply app_inj_tail in Hl' as [_ [= <-]]. unfold accepted in *. congruence.
          -- rewrite app_comm_cons, app_assoc in Hl'. apply app_inj_tail in Hl' as [_ <-].
             exfalso. apply (B2' wa x); auto. apply in_or_app. right. now left.
        * destruct b' as [|z' b' _] using rev_ind.
          -- rewrite app_comm_cons, app_assoc in Hl'. apply app_inj_tail in Hl' as [_ ->].
             exfalso. apply (B2 wa' y); auto. apply in_or_app. right. now left.
          -- rewrite !app_comm_cons, !app_assoc in Hl'. apply app_inj_tail in Hl' as [Hl' <-].
             eapply IH; eauto; intros w' m' Hi; [apply B2 | apply B2']; apply in_or_app; now left.
      + exfalso. apply (Hn wa x); auto. apply in_or_app. right. now left.
  Qed.
  (** What the shell thread answers to an internal request. *)
  Lemma intern_answer start ls s w r l1 l2 l3 : yrun v listener internal (y_init k0 start) ls s ->
    ls = (l1 ++ YIntern w :: l2 ++ YInternEnd r :: l3)%list -> in_same SHELL l2 -> asked_interpreter E w (events SHELL l2) r.
  Proof.
    intros Hr -> H2.
    destruct (yrun_app _ _ _ _ _ _ Hr (l1 ++ YIntern w :: l2) (YInternEnd r :: l3)) as (s1 & R1 & R2); [now rewrite <- app_assoc|].
    destruct (yrun_app _ _ _ _ _ _ R2 [YInternEnd r] l3 eq_refl) as (s2 & R3 & _). apply yrun_one in R3.
    destruct (yrun_inv _ _ _ R1) as [IS _].
    assert (HG : forall c' A (g : going U A) m g' m', gstep c' g m (YInternEnd r) g' m' -> False).
    { intros c' A g m g' m'. remember (YInternEnd r) as l eqn:Hl. intros H. destruct H; try discriminate. destruct o; cbn in Hl; try discriminate. destruct x; discriminate. }
    remember (YInternEnd r) as l eqn:Hl. destruct R3; try discriminate; subst l; cbn [y_sh y_mem] in *; inversion H; subst; try (exfalso; eauto; fail).
    destruct IS as (l1' & w' & l2' & p & h & gh & Hl & A1 & A2 & A3 & A4 & A5 & A6).
    destruct (last_start SHELL _ _ _ _ _ _ Hl) as (<- & Hw & <-); [reflexivity|reflexivity|exact H2|exact A1|]. injection Hw as <-.
    cbn in A3. rewrite A6, rev_involutive in A3. apply A3.
  Qed.
  Lemma intern_end start ls s r l1 l3 : yrun v listener internal (y_init k0 start) ls s -> ls = (l1 ++ YInternEnd r :: l3)%list ->
    exists a w b, l1 = (a ++ YIntern w :: b)%list /\ in_same SHELL b /\ asked_interpreter E w (events SHELL b) r.
  Proof.
    intros Hr ->. destruct (yrun_app _ _ _ _ _ _ Hr l1 (YInternEnd r :: l3) eq_refl) as (s1 & R1 & R2).
    destruct (yrun_app _ _ _ _ _ _ R2 [YInternEnd r] l3 eq_refl) as (s2 & R3 & _). apply yrun_one in R3.
    destruct (yrun_inv _ _ _ R1) as [IS _].
    assert (HG : forall c' A (g : going U A) m g' m', gstep c' g m (YInternEnd r) g' m' -> False).
    { intros c' A g m g' m'. remember (YInternEnd r) as l eqn:Hl. intros H. destruct H; try discriminate. destruct o; cbn in Hl; try discriminate. destruct x; discriminate. }
    remember (YInternEnd r) as l eqn:Hl. destruct R3; try discriminate; subst l; cbn [y_sh y_mem] in *; inversion H; subst; try (exfalso; eauto; fail).
    destruct IS as (l1' & w' & l2' & p & h & gh & Hl & A1 & A2 & A3 & A4 & A5 & A6).
    exists l1', w', l2'. split; auto. split; auto. cbn in A3. rewrite A6, rev_involutive in A3. apply A3.
  Qed.
  Lemma calls_texts start ls s c w : yrun v listener internal (y_init k0 start) ls s -> In (YCall c w) ls ->
    exists j t, dump EStrict j = Ok t /\ w = [t].
  Proof.
    intros Hr Hi. apply in_split in Hi as (l1 & l2 & ->).
    destruct (yrun_app _ _ _ _ _ _ Hr l1 (YCall c w :: l2) eq_refl) as (s1 & R1 & R2).
    destruct (yrun_app _ _ _ _ _ _ R2 [YCall c w] l2 eq_refl) as (s2 & R3 & _). apply yrun_one in R3.
    eapply call_step; eauto. eapply yrun_inv; eauto.
  Qed.
End Attribution.
