(** The way of the publications in the split servers: proofs. *)
From Verif Require Import Base BaseFacts Json Message Comm Tree Kernel Server ServerSpec ServerProofs SplitStop ServerLemmas Join JoinSpec JoinProofs Split Startup Pipes PipesSpec.

Definition held (p : fpc) : list frames := match p with FSend w _ => [w] | _ => [] end.
Definition took (c : channel) (ls : list plabel) : list frames :=
  flat_map (fun l => match l with PTake c' w => if chan_eqb c c' then [w] else [] | _ => [] end) ls.
Lemma shuffle_left a b l w : shuffle a b l -> shuffle (a ++ [w]) b (l ++ [w]).
Proof. induction 1; cbn; [apply sh_left, sh_nil|now apply sh_left|now apply sh_right]. Qed.
Lemma shuffle_right a b l w : shuffle a b l -> shuffle a (b ++ [w]) (l ++ [w]).
Proof. induction 1; cbn; [apply sh_right, sh_nil|now apply sh_left|now apply sh_right]. Qed.
Lemma shuffle_length a b l : shuffle a b l -> List.length l = List.length a + List.length b.
Proof. induction 1; cbn; lia. Qed.
Lemma shuffle_prefix a b l1 l2 : shuffle a b (l1 ++ l2) -> exists a1 a2 b1 b2, a = (a1 ++ a2)%list /\ b = (b1 ++ b2)%list /\ shuffle a1 b1 l1.
Proof.
  revert a b. induction l1 as [|w l1 IH]; intros a b H; cbn in H.
  - exists [], a, [], b. split; [reflexivity|]. split; [reflexivity|apply sh_nil].
  - inversion H as [|w' a' b' l' H'|w' a' b' l' H']; subst; destruct (IH _ _ H') as (a1 & a2 & b1 & b2 & -> & -> & S).
    + exists (w :: a1), a2, b1, b2. split; [reflexivity|]. split; [reflexivity|now apply sh_left].
    + exists a1, a2, (w :: b1), b2. split; [reflexivity|]. split; [reflexivity|now apply sh_right].
Qed.
Lemma within_snoc a b w : within a b -> within (a ++ [w]) (b ++ [w]).
Proof. induction 1; cbn; [apply wi_take, wi_nil|now apply wi_take|now apply wi_skip]. Qed.
Lemma within_skip a b r : within a b -> within a (b ++ r).
Proof.
  induction 1; cbn; [|now apply wi_take|now apply wi_skip]. induction r; [apply wi_nil|now apply wi_skip].
Qed.
Lemma within_nil b : within [] b.
Proof. induction b; [apply wi_nil|now apply wi_skip]. Qed.
Lemma within_prefix a1 a2 b : within (a1 ++ a2) b -> within a1 b.
Proof.
  intros H. remember (a1 ++ a2)%list as a eqn:E. revert a1 E. induction H as [|w a b H IH|w a b H IH]; intros a1 E.
  - destruct a1; [apply wi_nil|discriminate].
  - destruct a1 as [|x a1]; [apply within_nil|]. injection E as <- E. apply wi_take, IH, E.
  - apply wi_skip, IH, E.
Qed.
Lemma within_published v c ls : within (subscribed v c ls) (published v c ls).
Proof.
  assert (R : forall l, within l l) by (induction l; constructor; auto).
  assert (S : forall a b l, within a b -> within a (l ++ b)) by (intros a b l H; induction l; [exact H|now apply wi_skip]).
  induction ls as [|l ls IH]; [apply wi_nil|].
  cbn. destruct l as [l t|c'| | |]; try (apply S, IH; fail). destruct c', c; cbn; auto.
Qed.
Lemma chan_eqb_ok a b : chan_eqb a b = true <-> a = b.
Proof. destruct a, b; cbn; split; congruence. Qed.
Lemma chan_eqb_same a : chan_eqb a a = true.
Proof. now destruct a. Qed.

Section Passing.
  Context {U : Type} (v : variant) (listener : channel -> frames -> kprog U unit) (internal : frames -> kprog U frames) (start : frames) (lo hi : nat).
  Notation pstep := (pstep v listener internal start lo hi). Notation prun := (prun v listener internal start lo hi).
  Lemma published_app c a b : published v c (a ++ b) = (published v c a ++ published v c b)%list.
  Proof. apply flat_map_app. Qed.
  Lemma subscribed_before c a b : ~ In (PJoin c) a -> subscribed v c (a ++ b) = subscribed v c b.
  Proof.
    induction a as [|l a IH]; [reflexivity|]. cbn. intros N. destruct l as [| c' | | |]; try (apply IH; tauto). destruct c', c; try (apply IH; tauto); exfalso; tauto.
  Qed.
  Lemma subscribed_after c a b : In (PJoin c) a -> subscribed v c (a ++ b) = (subscribed v c a ++ published v c b)%list.
  Proof.
    induction a as [|l a IH]; cbn; [tauto|]. intros [E|I].
    - subst l. destruct c; apply published_app.
    - destruct l as [| c' | | |]; try (now apply IH). destruct c', c; try (now apply IH); apply published_app.
  Qed.
  Lemma subscribed_none c a : ~ In (PJoin c) a -> subscribed v c a = [].
  Proof. intros N. rewrite <- (app_nil_r a), subscribed_before by exact N. reflexivity. Qed.
  Lemma published_given c l t : published v c [PStep l t] = match given_by v l with Some (c', w) => if chan_eqb c c' then [w] else [] | None => [] end.
  Proof. destruct l as [| w | |[| | | |c' e| | | | | |]]; try (destruct v, c; reflexivity). destruct e; try (destruct v, c; reflexivity). destruct v, c, c0; reflexivity. Qed.
  Definition passing (ls : list plabel) (p : psys U) : Prop :=
    shuffle (took SHELL ls) (took CONTROL ls) (out ls ++ held (f_pc (z_pub_of (p_z p)))) /\
    (forall c, p_joined p c = true <-> In (PJoin c) ls) /\
    (forall c, within (took c ls ++ p_pipes p c) (subscribed v c ls)) /\
    (keeps_up v lo ls -> forall c, (took c ls ++ p_pipes p c)%list = subscribed v c ls).
  Lemma ystep_pub s l s' : ystep v listener internal s l s' -> l <> YTau TPub -> f_pc (m_pub (y_mem s')) = f_pc (m_pub (y_mem s)) /\ f_out (m_pub (y_mem s')) = f_out (m_pub (y_mem s)).
  Proof.
    assert (P : forall (o : kop U) m m' x, mop o m m' x -> f_pc (m_pub m') = f_pc (m_pub m) /\ f_out (m_pub m') = f_out (m_pub m)).
    { destruct o; cbn [mop]; intros m m' y H; try (match type of H with _ /\ _ => destruct H as [H1 H2] end; subst m' y; auto).
      - subst m'. now destruct e.
      - destruct H as (_ & -> & _). auto.
      - now subst m'.
      - destruct (m_shellq m); destruct H as [-> H]; auto.
      - contradiction. }
    assert (G : forall c A (g : going U A) m l g' m', gstep c g m l g' m' -> f_pc (m_pub m') = f_pc (m_pub m) /\ f_out (m_pub m') = f_out (m_pub m)).
    { destruct 1; [eapply P; eauto|auto|auto]. }
    intros H N. destruct H; cbn; auto.
    - destruct H; cbn; auto; eapply G; eauto.
    - destruct H; cbn; auto; eapply G; eauto.
    - congruence.
    - now destruct ch.
  Qed.
  Lemma zstep_pc z l z' : zstep v listener internal start z l z' -> of_publisher l = false -> f_pc (z_pub_of z') = f_pc (z_pub_of z) /\ f_out (z_pub_of z') = f_out (z_pub_of z).
  Proof.
    intros H N. unfold z_pub_of. destruct H; cbn; auto. eapply ystep_pub; eauto. intros ->. discriminate.
  Qed.
  Lemma keeps_prefix n a b : keeps_up v n (a ++ b) -> keeps_up v n a.
  Proof. intros K l1 l2 E. apply (K l1 (l2 ++ b)%list). now rewrite E, <- app_assoc. Qed.
  Lemma subscribed_step ls l c (j : bool) : (j = true <-> In (PJoin c) ls) -> l <> PJoin c ->
    subscribed v c (ls ++ [l]) = (subscribed v c ls ++ if j then published v c [l] else [])%list.
  Proof.
    intros J N. destruct j.
    - apply subscribed_after. tauto.
    - assert (NI : ~ In (PJoin c) ls) by (rewrite <- J; discriminate). rewrite subscribed_before by exact NI. rewrite (subscribed_none c ls NI).
      rewrite subscribed_none; [reflexivity|]. cbn. intros [E|[]]. congruence.
  Qed.
  Lemma joined_step ls l c (j : bool) : (j = true <-> In (PJoin c) ls) -> l <> PJoin c -> (j = true <-> In (PJoin c) (ls ++ [l])).
  Proof. intros J N. rewrite in_app_iff, <- J. cbn. intuition congruence. Qed.
  Lemma passing_step ls p l p' : passing ls p -> pstep p l p' -> passing (ls ++ [l]) p'.
  Proof.
    intros (S & J & W & K) H. unfold passing. unfold took, out in *. rewrite !flat_map_app. fold (took SHELL ls) (took CONTROL ls) (out ls) in *.
    destruct H; cbn [p_z p_pipes p_joined] in *.
    - (* another step *)
      cbn. rewrite !app_nil_r. rewrite (proj1 (zstep_pc _ _ _ H H0)). split; [exact S|].
      assert (Q : forall c, subscribed v c (ls ++ [PStep l true]) = subscribed v c ls).
      { intros c. rewrite (subscribed_step ls _ c _ (J c)) by discriminate. rewrite published_given, H1. destruct (j c); apply app_nil_r. }
      split; [intros c; apply joined_step; [apply J|discriminate]|]. split; intros; rewrite flat_map_app; cbn; rewrite app_nil_r, Q; [apply W|].
      apply K. eapply keeps_prefix; eauto.
    - cbn. rewrite !app_nil_r. split; [exact S|]. split; [intros c0; apply joined_step; [apply J|discriminate]|].
      assert (Q : forall c0, subscribed v c0 (ls ++ [PStep l true]) = (subscribed v c0 ls ++ if chan_eqb c0 c then [w] else [])%list).
      { intros c0. rewrite (subscribed_step ls _ c0 _ (J c0)) by discriminate. rewrite published_given, H0. f_equal.
        destruct (chan_eqb c0 c) eqn:E; [apply chan_eqb_ok in E; subst c0; now rewrite H1|now destruct (j c0)]. }
      split; intros; rewrite flat_map_app; cbn; rewrite app_nil_r, Q; unfold set_pipe.
      + destruct (chan_eqb c c0) eqn:E.
        * apply chan_eqb_ok in E. subst c0. rewrite chan_eqb_same, app_assoc. apply within_snoc, W.
        * replace (chan_eqb c0 c) with false by (destruct c, c0; now cbn in * ). rewrite app_nil_r. apply W.
      + assert (K' := K (keeps_prefix _ _ _ H3)). destruct (chan_eqb c c0) eqn:E.
        * apply chan_eqb_ok in E. subst c0. rewrite chan_eqb_same, app_assoc. f_equal. apply K'.
        * replace (chan_eqb c0 c) with false by (destruct c, c0; now cbn in * ). rewrite app_nil_r. apply K'.
    - cbn. rewrite !app_nil_r. split; [exact S|]. split; [intros c0; apply joined_step; [apply J|discriminate]|].
      split; intros; rewrite flat_map_app; cbn; rewrite app_nil_r, (subscribed_step ls _ _ _ (J _)) by discriminate; rewrite published_given, H0.
      + destruct (j c0); [|rewrite app_nil_r; apply W]. apply within_skip, W.
      + assert (K' := K (keeps_prefix _ _ _ H2)). destruct H1 as [H1|H1].
        * destruct (chan_eqb c0 c) eqn:E; [apply chan_eqb_ok in E; subst c0; rewrite H1|destruct (j c0)]; rewrite app_nil_r; apply K'.
        * exfalso. pose proof (H2 ls [PStep l false] eq_refl) as X. apply shuffle_length in S. rewrite app_length in S.
          pose proof (f_equal (@List.length _) (K' SHELL)) as K1. pose proof (f_equal (@List.length _) (K' CONTROL)) as K2. rewrite app_length in K1, K2. unfold took, out in *. destruct c; lia.
    - cbn. rewrite !app_nil_r. split; [exact S|].
      assert (Q : forall c0, subscribed v c0 (ls ++ [PJoin c]) = subscribed v c0 ls).
      { intros c0. destruct (chan_eqb c c0) eqn:E.
        - apply chan_eqb_ok in E. subst c0. assert (NI : ~ In (PJoin c) ls) by (rewrite <- J, H1; discriminate).
          rewrite subscribed_before by exact NI. rewrite (subscribed_none c ls NI). cbn. destruct c; reflexivity.
        - rewrite (subscribed_step ls _ c0 _ (J c0)) by (intros [= ->]; rewrite chan_eqb_same in E; discriminate). cbn. destruct v, (j c0), c0; apply app_nil_r. }
      split; [|split; intros; rewrite flat_map_app; cbn; rewrite app_nil_r, Q; [apply W|apply K; eapply keeps_prefix; eauto]].
      intros c0. rewrite in_app_iff. cbn. destruct (chan_eqb c c0) eqn:E; [apply chan_eqb_ok in E; subst c0; tauto|]. rewrite J. split; [auto|].
      intros [X|[X|[]]]; auto. injection X as ->. rewrite chan_eqb_same in E. discriminate.
    - assert (Q : forall c0, subscribed v c0 (ls ++ [l]) = subscribed v c0 ls).
      { intros c0. rewrite (subscribed_step ls _ c0 _ (J c0)) by (destruct H1; discriminate). destruct H1; cbn; destruct v, (j c0), c0; apply app_nil_r. }
      assert (Q2 : forall c0, j c0 = true <-> In (PJoin c0) (ls ++ [l])) by (intros c0; apply joined_step; [apply J|destruct H1; discriminate]).
      set (f0 := z_pub_of z) in *. clearbody f0. change (z_pub_of (z_with f z)) with f.
      destruct H1; cbn in *; rewrite ?app_nil_r in *.
      + split; [exact S|]. split; [exact Q2|]. split; intros; rewrite flat_map_app; cbn; rewrite app_nil_r, Q; [apply W|apply K; eapply keeps_prefix; eauto].
      + split; [exact S|]. split; [exact Q2|]. split; intros; rewrite flat_map_app; cbn; rewrite app_nil_r, Q; [apply W|apply K; eapply keeps_prefix; eauto].
      + split; [destruct c; cbn; rewrite app_nil_r; [now apply shuffle_left|now apply shuffle_right]|]. split; [exact Q2|].
        assert (T : forall c0, (flat_map (fun l => match l with PTake c' w => if chan_eqb c0 c' then [w] else [] | _ => [] end) (ls ++ [PTake c w]) ++ set_pipe c r pp c0)%list = (took c0 ls ++ pp c0)%list).
        { intros c0. rewrite flat_map_app. cbn. rewrite app_nil_r. unfold set_pipe. destruct (chan_eqb c c0) eqn:E.
          - apply chan_eqb_ok in E. subst c0. rewrite chan_eqb_same, H1, <- app_assoc. reflexivity.
          - replace (chan_eqb c0 c) with false by (destruct c, c0; now cbn in * ). now rewrite app_nil_r. }
        split; intros; rewrite T, Q; [apply W|apply K; eapply keeps_prefix; eauto].
      + replace (held (if b then FCtl else FPoll)) with (@nil frames) by now destruct b. rewrite app_nil_r. split; [exact S|]. split; [exact Q2|].
        split; intros; rewrite flat_map_app; cbn; rewrite app_nil_r, Q; [apply W|apply K; eapply keeps_prefix; eauto].
      + split; [exact S|]. split; [exact Q2|]. split; intros; rewrite flat_map_app; cbn; rewrite app_nil_r, Q; [apply W|apply K; eapply keeps_prefix; eauto].
  Qed.
  Lemma passing_run k ls p : prun (p_init start k) ls p -> passing ls p.
  Proof.
    remember (p_init start k) as p0 eqn:E. induction 1 as [p|p0 ls p1 l p2 H IH Hs]; [subst|eapply passing_step; eauto].
    split; [apply sh_nil|]. split; [intros c; cbn; intuition discriminate|]. split; [intros c; apply wi_nil|reflexivity].
  Qed.

  Lemma out_run k ls p : prun (p_init start k) ls p -> f_out (z_pub_of (p_z p)) = out ls.
  Proof.
    remember (p_init start k) as p0 eqn:E. induction 1 as [p|p0 ls p1 l p2 H IH Hs]; [now subst|]. unfold out in *. rewrite flat_map_app, <- (IH E).
    destruct Hs; cbn [p_z flat_map]; rewrite ?app_nil_r; auto.
    - exact (proj2 (zstep_pc _ _ _ H0 H1)).
    - change (z_pub_of (z_with f z)) with f. destruct H2; cbn; now rewrite ?app_nil_r.
  Qed.

  (** ** The other threads do what they do in Startup.v *)
  Definition pushed (l : slabel) (g : fwd) : fwd := match l with YEvent _ (EPublish _ _ w) => f_push w g | _ => g end.
  Lemma mop_with c o (m m' : mem U) x g : mop o m m' x -> mop o (set_pub g m) (set_pub (pushed (label_of c o x) g) m') x /\ m_pub m' = pushed (label_of c o x) (m_pub m).
  Proof.
    destruct o; cbn [mop]; intros H; try (match type of H with _ /\ _ => destruct H as [H1 H2] end; subst m' x; split; [split; reflexivity|reflexivity]; fail).
    - subst m'. destruct e; split; reflexivity.
    - destruct H as (H & -> & ->). split; [repeat split; exact H|reflexivity].
    - subst m'. split; reflexivity.
    - destruct (m_shellq m) as [|w q] eqn:E; destruct H as [-> ->]; (split; [cbn; rewrite E; split; reflexivity|reflexivity]).
    - contradiction.
  Qed.
  Lemma gstep_with c A (g0 : going U A) m l g1 m' g : gstep c g0 m l g1 m' -> gstep c g0 (set_pub g m) l g1 (set_pub (pushed l g) m') /\ m_pub m' = pushed l (m_pub m).
  Proof.
    destruct 1.
    - destruct (mop_with c _ _ _ _ g H) as (M & P). split; [now constructor|exact P].
    - split; [exact (gs_call c w k (set_pub g m) H)|reflexivity].
    - split; [exact (gs_answer c k w (set_pub g m) H)|reflexivity].
  Qed.
  Lemma shell_with a m l a' m' g : shell_step listener internal a m l a' m' ->
    shell_step listener internal a (set_pub g m) l a' (set_pub (pushed l g) m') /\ m_pub m' = pushed l (m_pub m).
  Proof.
    destruct 1.
    - split; [exact (ss_poll_shell listener internal (set_pub g m) H)|reflexivity].
    - split; [exact (ss_poll_ctl listener internal (set_pub g m) H H0)|reflexivity].
    - split; [exact (ss_recv listener internal (set_pub g m) w q b H)|reflexivity].
    - destruct (gstep_with _ _ _ _ _ _ _ g H) as (G & P). split; [now constructor|exact P].
    - split; [exact (ss_ret listener internal (set_pub g m) a b)|reflexivity].
    - split; [exact (ss_stop listener internal (set_pub g m) f w H H0)|reflexivity].
    - split; [exact (ss_intern listener internal (set_pub g m) f w H H0)|reflexivity].
    - destruct (gstep_with _ _ _ _ _ _ _ g H) as (G & P). split; [now constructor|exact P].
    - split; [exact (ss_intern_ret listener internal (set_pub g m) w)|reflexivity].
  Qed.
  Definition gives (l : slabel) : bool := match l with YEvent _ (EPublish _ _ _) => true | _ => false end.
  Lemma control_with a m l a' m' g : control_step listener a m l a' m' -> lag (m_pub m) g ->
    exists g', control_step listener a (set_pub g m) l a' (set_pub g' m') /\
      (if gives l then lag (m_pub m) g' else lag (m_pub m') g').
  Proof.
    intros H R. destruct H.
    - exists g. split; [exact (cs_go listener (set_pub g m) H)|exact R].
    - exists g. split; [exact (cs_leave listener (set_pub g m) H)|exact R].
    - exists g. split; [exact (cs_recv listener (set_pub g m) w q H)|exact R].
    - destruct (gstep_with _ _ _ _ _ _ _ g H) as (G & P). exists (pushed l g). split; [now constructor|].
      rewrite P. destruct l as [| | | |? e| | | | | |]; try exact R. destruct e; try exact R. cbn. now apply lag_drop.
    - exists g. split; [exact (cs_ret listener (set_pub g m) a)|exact R].
    - exists g. split; [exact (cs_stop_shell listener (set_pub g m) H)|exact R].
    - exists g. split; [exact (cs_wait_shell listener (set_pub g m) w H)|exact R].
    - exists (f_set (SAsked stop_again) g). split; [|cbn; now apply lag_set]. apply (cs_stop_pub listener (set_pub g m)). destruct R as (R & _). cbn. congruence.
    - exists (f_set SIdle g). split; [|cbn; now apply lag_set]. apply (cs_wait_pub listener (set_pub g m) w). destruct R as (R & _). cbn. congruence.
    - exists g. split; [exact (cs_stop_hb listener (set_pub g m) H)|exact R].
    - exists g. split; [exact (cs_wait_hb listener (set_pub g m) w H)|exact R].
  Qed.
  Lemma ystep_with s l s' g : ystep v listener internal s l s' -> l <> YTau TPub -> lag (m_pub (y_mem s)) g ->
    exists g', ystep v listener internal (on_mem (set_pub g) s) l (on_mem (set_pub g') s') /\
      (if gives l then lag (m_pub (y_mem s)) g' else lag (m_pub (y_mem s')) g').
  Proof.
    intros H N R. destruct H; cbn [y_mem] in *; unfold on_mem; cbn [y_sh y_ct y_mem y_stopped y_end].
    - destruct (shell_with _ _ _ _ _ g H) as (G & P). exists (pushed l g). split; [now constructor|].
      rewrite P. destruct l as [| | | |? e| | | | | |]; try exact R. destruct e; try exact R. cbn. now apply lag_drop.
    - destruct (control_with _ _ _ _ _ g H R) as (g' & G & P). exists g'. split; [now constructor|exact P].
    - exists g. split; [apply y_notify|exact R].
    - exists g. split; [apply y_out_control|exact R].
    - exists g. split; [now apply y_out_shell|exact R].
    - exists g. split; [now apply y_crash_shell|exact R].
    - exists g. split; [now apply y_crash_control|exact R].
    - congruence.
    - exists g. split; [exact (y_beat v listener internal a c (set_pub g m) b f H)|exact R].
    - exists g. destruct ch; (split; [|exact R]).
      + exact (y_arrive v listener internal a c (set_pub g m) b SHELL w).
      + exact (y_arrive v listener internal a c (set_pub g m) b CONTROL w).
    - exists g. split; [exact (y_hb_arrive v listener internal a c (set_pub g m) b w)|exact R].
    - exists g. split; [exact (y_stdin_arrive v listener internal a c (set_pub g m) b)|exact R].
  Qed.
  Lemma zstep_with z l z' g : zstep v listener internal start z l z' -> of_publisher l = false -> lag (z_pub_of z) g ->
    exists g', zstep v listener internal start (z_with g z) l (z_with g' z') /\
      (match given_by v l with Some _ => lag (z_pub_of z) g' | None => lag (z_pub_of z') g' end).
  Proof.
    intros H N R. unfold z_pub_of in *. destruct H; unfold z_with; cbn [z_boot z_begun z_sys] in *.
    - exists g. split; [now constructor|exact R].
    - exists g. split; [now constructor|exact R].
    - exists g. split; [now constructor|exact R].
    - exists (f_push start g). split; [exact (z_start v listener internal start g0 (on_mem (set_pub g) s) H)|cbn; now apply lag_drop].
    - exists g. split; [exact (z_begin v listener internal start b (on_mem (set_pub g) s) H H0)|exact R].
    - destruct (ystep_with _ _ _ g H) as (g' & Y & P); [intros ->; discriminate|exact R|]. exists g'. split; [now constructor|].
      destruct l as [| | | |c0 e| | | | | |]; try exact P. destruct e; exact P.
  Qed.
  Lemma pub_lag f pp l f' pp' g : pubstep f pp l f' pp' -> lag f g -> exists g', fsteps g g' /\ lag f' g'.
  Proof.
    intros H (A & B & C).
    assert (X : (f_ctl f' = f_ctl f /\ f_pc f <> FDone /\ f_pc f' <> FDone) \/ exists w, f_ctl f = SAsked w /\ f_pc f <> FDone /\ f_ctl f' = SAnswered w /\ f_pc f' = FDone).
    { destruct H; cbn; try (left; repeat split; discriminate).
      - left. repeat split; [discriminate|destruct b; discriminate].
      - right. exists w. repeat split; discriminate. }
    destruct X as [(X1 & X2 & X3)|(w & X1 & X2 & X3 & X4)].
    - exists g. split; [constructor|]. split; [congruence|]. split; [tauto|auto].
    - destruct (f_answers g w) as (g' & S & G1 & G2); auto; [congruence|tauto|]. exists g'. split; auto. split; [congruence|]. split; [tauto|]. eapply fsteps_ok; eauto.
  Qed.
  Notation zrun := (zrun v listener internal start).
  Lemma zpub_steps z0 ls z f g : zrun z0 ls (z_with f z) -> y_end (z_sys z) = None -> 0 < boot_rank (z_boot z) -> fsteps f g ->
    exists n, zrun z0 (ls ++ repeat (ZStep (YTau TPub)) n) (z_with g z).
  Proof.
    intros H E B S. revert ls H. induction S as [f|f g h N S IH]; intros ls H; [exists 0; now rewrite app_nil_r|].
    destruct (IH (ls ++ [ZStep (YTau TPub)])%list) as (n & D).
    - econstructor; [exact H|]. destruct z as [zb zg [a c m b e]]. unfold z_with, on_mem in *. cbn in *. subst e.
      apply z_step; [|exact B|discriminate]. exact (y_publish v listener internal a c (set_pub f m) b g N).
    - exists (Datatypes.S n). rewrite <- app_assoc in D. exact D.
  Qed.
  Lemma z_with_with g h (z : zsys U) : z_with g (z_with h z) = z_with g z.
  Proof. now destruct z as [b c [a d m e f]]. Qed.
  Lemma not_given_of l : of_publisher l = negb (not_publisher l).
  Proof. destruct l as [| | |[| | | | | | | | | |[]]]; reflexivity. Qed.
  Lemma others_sim k ls p : prun (p_init start k) ls p ->
    exists g l2, zrun (z_init start k) l2 (z_with g (p_z p)) /\ lag (z_pub_of (p_z p)) g /\ filter not_publisher l2 = others ls.
  Proof.
    remember (p_init start k) as p0 eqn:E. induction 1 as [|p0 ls p1 l p2 H IH Hs].
    - subst. exists f_init, []. split; [constructor|]. split; [|reflexivity]. split; [reflexivity|]. split; [cbn; tauto|]. intros c; discriminate.
    - subst p0. destruct (IH eq_refl) as (g & l2 & D & L & V). clear IH H. unfold others in *. rewrite flat_map_app. cbn [flat_map]. rewrite app_nil_r, <- V.
      destruct Hs; cbn [p_z] in *.
      + destruct (zstep_with _ _ _ g H H0 L) as (g' & Z & P). rewrite H1 in P. exists g', (l2 ++ [l])%list. split; [econstructor; eauto|]. split; [exact P|].
        rewrite filter_app. cbn. rewrite not_given_of in H0. now destruct (not_publisher l).
      + assert (N : of_publisher l = false) by (destruct l as [| | |[| | | | | | | | | |[]]]; try reflexivity; discriminate).
        destruct (zstep_with _ _ _ g H N L) as (g' & Z & P). rewrite H0 in P. exists g', (l2 ++ [l])%list. rewrite z_with_with. split; [econstructor; eauto|]. split; [exact P|].
        rewrite filter_app. cbn. rewrite not_given_of in N. now destruct (not_publisher l).
      + assert (N : of_publisher l = false) by (destruct l as [| | |[| | | | | | | | | |[]]]; try reflexivity; discriminate).
        destruct (zstep_with _ _ _ g H N L) as (g' & Z & P). rewrite H0 in P. exists g', (l2 ++ [l])%list. rewrite z_with_with. split; [econstructor; eauto|]. split; [exact P|].
        rewrite filter_app. cbn. rewrite not_given_of in N. now destruct (not_publisher l).
      + exists g, l2. rewrite app_nil_r. auto.
      + destruct (pub_lag _ _ _ _ _ _ H1 L) as (g' & S & L'). destruct (zpub_steps _ _ _ _ _ D H H0 S) as (n & D').
        exists g', (l2 ++ repeat (ZStep (YTau TPub)) n)%list. rewrite z_with_with. split; [exact D'|]. split; [exact L'|].
        rewrite filter_app. replace (filter not_publisher (repeat (ZStep (YTau TPub)) n)) with (@nil zlabel) by (clear; induction n; cbn; auto).
        destruct H1; reflexivity.
  Qed.
  (** ** The publisher thread empties the pipes *)
  Definition pub_ok (p : psys U) : Prop :=
    match f_pc (z_pub_of (p_z p)) with FRecv _ => exists c, p_pipes p c <> [] | _ => True end.
  Lemma pub_ok_step p l p' : pub_ok p -> pstep p l p' -> pub_ok p'.
  Proof.
    unfold pub_ok. intros Ok H. destruct H; cbn [p_z p_pipes] in *.
    - now rewrite (proj1 (zstep_pc _ _ _ H H0)).
    - change (z_pub_of (z_with (z_pub_of z) z')) with (z_pub_of z). destruct (f_pc (z_pub_of z)); auto. destruct Ok as (c1 & N). exists c1. unfold set_pipe.
      destruct (chan_eqb c c1) eqn:E; [|exact N]. destruct (pp c); discriminate.
    - exact Ok.
    - exact Ok.
    - change (z_pub_of (z_with f z)) with f. destruct H1; cbn in *; auto.
      + exists c. exact H1.
      + now destruct b.
  Qed.
  Lemma pub_ok_run k ls p : prun (p_init start k) ls p -> pub_ok p.
  Proof.
    remember (p_init start k) as p0 eqn:E. induction 1 as [p|p0 ls p1 l p2 H IH Hs]; [subst; exact I|eapply pub_ok_step; eauto].
  Qed.
  Definition with_fwd (f : fwd) (pp : pipes) (p : psys U) : psys U := {| p_z := z_with f (p_z p); p_pipes := pp; p_joined := p_joined p |}.
  Lemma fwd_step f pp l f' pp' p : y_end (z_sys (p_z p)) = None -> 0 < boot_rank (z_boot (p_z p)) -> pubstep f pp l f' pp' -> pstep (with_fwd f pp p) l (with_fwd f' pp' p).
  Proof.
    intros E B H. unfold with_fwd. rewrite <- (z_with_with f' f (p_z p)). now apply p_pub.
  Qed.
  Lemma set_pipe_length c r pp w : pp c = w :: r -> List.length (set_pipe c r pp SHELL) + List.length (set_pipe c r pp CONTROL) < List.length (pp SHELL) + List.length (pp CONTROL).
  Proof. intros E. unfold set_pipe. destruct c; cbn; rewrite E; cbn; lia. Qed.
  Lemma run_app p ls p' ls' p'' : prun p ls p' -> prun p' ls' p'' -> prun p (ls ++ ls') p''.
  Proof. intros H H'. induction H' as [|p' ls' p1 l p2 H' IH Hs]; [now rewrite app_nil_r|]. rewrite app_assoc. econstructor; eauto. Qed.
  Lemma run_cons p l p1 ls p2 : pstep p l p1 -> prun p1 ls p2 -> prun p (l :: ls) p2.
  Proof. intros H R. apply (run_app p [l] p1 ls p2); [|exact R]. change [l] with ([] ++ [l])%list. econstructor; [constructor|exact H]. Qed.
  Lemma flush_poll n q o k p pp : List.length (pp SHELL) + List.length (pp CONTROL) <= n -> y_end (z_sys (p_z p)) = None -> 0 < boot_rank (z_boot (p_z p)) -> asked k = false ->
    exists ls f pp', prun (with_fwd {| f_in := q; f_out := o; f_ctl := k; f_pc := FPoll |} pp p) ls (with_fwd f pp' p) /\ forallb of_pub_thread ls = true /\
      (forall c, pp' c = []) /\ f_pc f = FPoll /\ f_ctl f = k.
  Proof.
    revert o pp. induction n as [|n IH]; intros o pp L E B A.
    - exists [], {| f_in := q; f_out := o; f_ctl := k; f_pc := FPoll |}, pp. split; [constructor|]. split; [reflexivity|]. split; [|auto].
      intros []; [destruct (pp SHELL)|destruct (pp CONTROL)]; cbn in L; auto; lia.
    - assert (C : (forall c, pp c = []) \/ exists c w r, pp c = w :: r).
      { destruct (pp SHELL) as [|w r] eqn:E1; [destruct (pp CONTROL) as [|w r] eqn:E2|]; [left; intros []; auto|right; eauto|right; eauto]. }
      destruct C as [C|(c & w & r & C)].
      + exists [], {| f_in := q; f_out := o; f_ctl := k; f_pc := FPoll |}, pp. split; [constructor|]. auto.
      + destruct (IH (o ++ [w])%list (set_pipe c r pp)) as (ls & f & pp' & R & F & P); auto.
        { pose proof (set_pipe_length c r pp w C). lia. }
        exists (PTau :: PTake c w :: PSend w :: ls), f, pp'. split; [|auto].
        eapply run_cons; [apply fwd_step; auto; eapply pu_poll; rewrite C; discriminate|].
        eapply run_cons; [apply fwd_step; auto; apply pu_take; exact C|].
        eapply run_cons; [apply fwd_step; auto; apply pu_send|]. rewrite A. exact R.
  Qed.
  Lemma with_fwd_same p : with_fwd (z_pub_of (p_z p)) (p_pipes p) p = p.
  Proof. destruct p as [[b g [a c m d e]] pp j]. unfold with_fwd, z_with, on_mem, z_pub_of. cbn. now destruct m. Qed.
  Lemma flush p : pub_ok p -> y_end (z_sys (p_z p)) = None -> 0 < boot_rank (z_boot (p_z p)) -> asked (f_ctl (z_pub_of (p_z p))) = false ->
    match f_pc (z_pub_of (p_z p)) with FPoll => True | FRecv b => b = false | FSend _ b => b = false | _ => False end ->
    exists ls p', prun p ls p' /\ forallb of_pub_thread ls = true /\ (forall c, p_pipes p' c = []) /\ f_pc (z_pub_of (p_z p')) = FPoll.
  Proof.
    intros Ok E B A P. unfold pub_ok in Ok.
    assert (M : exists ls f pp', prun (with_fwd (z_pub_of (p_z p)) (p_pipes p) p) ls (with_fwd f pp' p) /\ forallb of_pub_thread ls = true /\ (forall c, pp' c = []) /\ f_pc f = FPoll).
    { destruct (z_pub_of (p_z p)) as [q o k pc]. cbn in *. generalize (p_pipes p) Ok. clear Ok. intros pp Ok. destruct pc as [|b|w b| |]; try contradiction.
      - destruct (flush_poll _ q o k p pp (le_n _) E B A) as (ls & f & pp' & R & F & P1 & P2 & _). eauto 8.
      - destruct Ok as (c & N). destruct (pp c) as [|w r] eqn:C; [congruence|]. subst b.
        destruct (flush_poll _ q (o ++ [w])%list k p (set_pipe c r pp) (le_n _) E B A) as (ls & f & pp' & R & F & P1 & P2 & _).
        exists (PTake c w :: PSend w :: ls), f, pp'. split; [|auto].
        eapply run_cons; [apply fwd_step; auto; apply pu_take; exact C|].
        eapply run_cons; [apply fwd_step; auto; apply pu_send|]. exact R.
      - subst b. destruct (flush_poll _ q (o ++ [w])%list k p pp (le_n _) E B A) as (ls & f & pp' & R & F & P1 & P2 & _).
        exists (PSend w :: ls), f, pp'. split; [|auto]. eapply run_cons; [apply fwd_step; auto; apply pu_send|]. exact R. }
    destruct M as (ls & f & pp' & R & F & P1 & P2). rewrite with_fwd_same in R. eauto 8.
  Qed.
End Passing.
