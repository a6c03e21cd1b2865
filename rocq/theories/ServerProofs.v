(** The default server: FIFO hand-over, control first, nothing after stop; the publisher and
    heartbeat threads. *)
From Verif Require Import Base Json Message Comm Tree Kernel Server ServerSpec.

Lemma arrived_app c a b : arrived c (a ++ b) = (arrived c a ++ arrived c b)%list.
Proof. apply flat_map_app. Qed.
Lemma handed_app a b : handed (a ++ b) = (handed a ++ handed b)%list.
Proof. apply flat_map_app. Qed.
Lemma control_taken_app a b : control_taken (a ++ b) = (control_taken a ++ control_taken b)%list.
Proof. apply flat_map_app. Qed.
Lemma shell_taken_app a b : shell_taken (a ++ b) = (shell_taken a ++ shell_taken b)%list.
Proof. apply flat_map_app. Qed.
Lemma published_app a b : published (a ++ b) = (published a ++ published b)%list.
Proof. apply flat_map_app. Qed.
Lemma beats_app a b : beats (a ++ b) = (beats a ++ beats b)%list.
Proof. apply flat_map_app. Qed.

(** ** The forwarding threads *)
Definition in_flight (f : fwd) : list frames := match f_pc f with FSend w _ => [w] | _ => [] end.
(** Everything the thread has received: sent, in its hands, waiting. *)
Definition f_all (f : fwd) : list frames := (f_out f ++ in_flight f ++ f_in f)%list.
Lemma fnext_all f f' : fnext f = Some f' -> f_all f' = f_all f.
Proof.
  unfold fnext, f_all, in_flight. destruct f as [i o c p]; cbn. destruct p.
  - destruct i; [destruct (asked c); [|discriminate]|]; intros [= <-]; reflexivity.
  - destruct i; [discriminate|]. intros [= <-]. cbn. reflexivity.
  - intros [= <-]. cbn. rewrite <- app_assoc. destruct c0; reflexivity.
  - destruct c; try discriminate. intros [= <-]. reflexivity.
  - discriminate.
Qed.
Lemma f_all_push w f : f_all (f_push w f) = (f_all f ++ [w])%list.
Proof. unfold f_all, in_flight, f_push. cbn. now rewrite !app_assoc. Qed.
Lemma f_all_set s f : f_all (f_set s f) = f_all f.
Proof. reflexivity. Qed.
(** The thread is blocked in poll, without stop command, only when everything is forwarded. *)
Lemma f_blocked f : fnext f = None -> f_pc f = FPoll -> f_in f = [] /\ asked (f_ctl f) = false /\ f_out f = f_all f.
Proof.
  unfold fnext, f_all, in_flight. destruct f as [i o c p]; cbn. intros H ->. destruct i; [|discriminate].
  destruct (asked c); [discriminate|]. now rewrite app_nil_r.
Qed.

Section Default.
  Context {U : Type} (listener : channel -> frames -> kprog U unit).
  Implicit Types (s : dsys U) (m : mem U).
  Notation dstep := (dstep listener). Notation drun := (drun listener). Notation main_step := (main_step listener).

  (** What an operation of a listener does to the queues. *)
  Lemma mop_queues o m m' x : mop o m m' x ->
    m_ctlq m' = m_ctlq m /\ (shell_taken [op_label o x] ++ m_shellq m' = m_shellq m)%list /\
    (m_stop m' = true <-> m_stop m = true \/ op_label o x = StopRequest) /\
    arrived SHELL [op_label o x] = [] /\ arrived CONTROL [op_label o x] = [] /\ handed [op_label o x] = [] /\ ~ is_poll (op_label o x) /\
    f_all (m_pub m') = (f_all (m_pub m) ++ published [op_label o x])%list /\ m_hb m' = m_hb m /\ beats [op_label o x] = [] /\ m_call m' = m_call m.
  Proof.
    destruct o; cbn [mop op_label]; try (intros [-> ->]; cbn; rewrite ?app_nil_r; repeat split; auto; intros [?|[=]]; auto; fail).
    - intros ->. destruct e; cbn; rewrite ?app_nil_r, ?f_all_push; repeat split; auto; try (intros [?|[=]]; auto; fail); try discriminate; auto; exact (f_all_push _ _).
    - intros (_ & -> & ->); cbn; rewrite ?app_nil_r; repeat split; auto; intros [?|[=]]; auto.
    - intros ->. cbn; rewrite ?app_nil_r; repeat split; auto; intros [?|[=]]; auto.
    - destruct (m_shellq m) as [|w q] eqn:Hq; intros [-> ->]; cbn; rewrite ?app_nil_r; repeat split; auto; intros [?|[=]]; auto.
    - intros [].
  Qed.

  (** ** Queues *)
  Lemma step_queues s l s' : dstep s l s' ->
    (m_ctlq (d_mem s) ++ arrived CONTROL [l] = control_taken [l] ++ m_ctlq (d_mem s'))%list /\
    (m_shellq (d_mem s) ++ arrived SHELL [l] = shell_taken [l] ++ m_shellq (d_mem s'))%list.
  Proof.
    intros H. destruct H as [s l s' H| | | | | |]; try (cbn; rewrite ?app_nil_r; auto; fail).
    destruct H; try (cbn; rewrite ?app_nil_r; auto; fail).
    - apply mop_queues in H as (A0 & A & _ & B & C & D & _). cbn [d_mem]. rewrite A0, B, C, A, !app_nil_r. split; auto.
      destruct (op_label o x); cbn in *; auto. discriminate.
    - apply mop_queues in H as (A0 & A & _ & B & C & D & _). cbn [d_mem]. rewrite A0, B, C, A, !app_nil_r. split; auto.
      destruct (op_label o x); cbn in *; auto. discriminate.
  Qed.
  Lemma run_queues s ls s' : drun s ls s' -> m_ctlq (d_mem s) = [] -> m_shellq (d_mem s) = [] ->
    arrived CONTROL ls = (control_taken ls ++ m_ctlq (d_mem s'))%list /\
    arrived SHELL ls = (shell_taken ls ++ m_shellq (d_mem s'))%list.
  Proof.
    intros H. induction H as [s|s ls s1 l s2 H IH Hs]; intros Hc Hsh.
    - cbn. rewrite Hc, Hsh. auto.
    - destruct (IH Hc Hsh) as [A B]. apply step_queues in Hs as [C D].
      rewrite !arrived_app, control_taken_app, shell_taken_app, A, B, <- !app_assoc, C, D. auto.
  Qed.

  (** ** Stop *)
  Definition past_stop (pc : mpc U) : Prop :=
    match pc with MPoll | MControl _ | MRecvShell => False | _ => True end.
  Lemma step_stop s l s' : dstep s l s' ->
    (m_stop (d_mem s) = true -> past_stop (d_pc s)) ->
    (m_stop (d_mem s') = true <-> m_stop (d_mem s) = true \/ l = StopRequest) /\
    (m_stop (d_mem s') = true -> past_stop (d_pc s')) /\
    (m_stop (d_mem s) = true -> handed [l] = [] /\ ~ is_poll l).
  Proof.
    intros H Hp. destruct H as [s l s' H| | | | | |]; try (cbn in *; repeat split; auto; intros [?|[=]]; auto; fail).
    destruct H; cbn [d_mem d_pc] in *;
      try (cbn in *; repeat split; auto; try (intros [?|[=]]; auto; fail); intros X; destruct (Hp X); fail).
    - cbn. repeat split; auto; try (intros [?|[=]]; auto; fail); congruence.
    - cbn in *. split; [split; [auto|intros [?|[=]]; auto]|]. split; [auto|]. intros X; destruct (Hp X).
    - apply mop_queues in H as (_ & _ & A & _ & _ & B & C & _). rewrite A, B. cbn. repeat split; auto.
    - cbn. destruct (m_stop m) eqn:Hs; cbn; repeat split; auto; try (intros [?|[=]]; auto; fail); intros [=].
    - cbn in *. split; [split; [auto|intros [?|[=]]; auto]|]. split; [auto|]. intros X; destruct (Hp X).
    - apply mop_queues in H as (_ & _ & A & _ & _ & B & C & _). rewrite A, B. cbn. repeat split; auto.
  Qed.
  Lemma run_stop s ls s' : drun s ls s' -> m_stop (d_mem s) = false ->
    (m_stop (d_mem s') = true <-> In StopRequest ls) /\ (m_stop (d_mem s') = true -> past_stop (d_pc s')).
  Proof.
    intros H Hf. induction H as [s|s ls s1 l s2 H IH Hs].
    - rewrite Hf. split; [split; [discriminate|intros []]|discriminate].
    - destruct (IH Hf) as [A B]. apply step_stop in Hs as (C & D & _); auto. split; auto.
      rewrite C, A, in_app_iff. cbn. split; intros [X|X]; auto. destruct X as [X|[]]; auto.
  Qed.
  Lemma run_app s a b s' : drun s (a ++ b) s' -> exists s1, drun s a s1 /\ drun s1 b s'.
  Proof.
    revert s'. induction b as [|l b IH] using rev_ind; intros s' H.
    - rewrite app_nil_r in H. exists s'. split; auto. constructor.
    - rewrite app_assoc in H. inversion H as [s0 E1 E2|s0 ls s1 l' s2 H1 H2 E1 E2 E3].
      + destruct ((a ++ b)%list); discriminate.
      + subst. apply app_inj_tail in E2 as [-> ->]. apply IH in H1 as (x & X1 & X2). exists x. split; auto. econstructor; eauto.
  Qed.
  Lemma run_after_stop s ls s' : drun s ls s' -> m_stop (d_mem s) = true -> past_stop (d_pc s) ->
    m_stop (d_mem s') = true /\ past_stop (d_pc s') /\ handed ls = [] /\ no_poll ls.
  Proof.
    intros H Hf Hp. induction H as [s|s ls s1 l s2 H IH Hs].
    - repeat split; auto. constructor.
    - destruct (IH Hf Hp) as (A & B & C & D). apply step_stop in Hs as (X & Y & Z); auto.
      assert (m_stop (d_mem s2) = true) as S2 by (apply X; auto). destruct (Z A) as [Z1 Z2].
      repeat split; auto.
      + now rewrite handed_app, C, Z1.
      + apply Forall_app; split; auto.
  Qed.

  (** ** Order within a poll *)
  (** [since ls rc rs hs]: the last poll of [ls] returned [rc], [rs]; [hs] was handed over since. *)
  Definition since (ls : list label) (rc rs : bool) (hs : list (channel * frames)) : Prop :=
    exists l1 l2, ls = (l1 ++ Poll rc rs :: l2)%list /\ no_poll l2 /\ handed l2 = hs.
  Lemma since_quiet ls l rc rs hs : since ls rc rs hs -> ~ is_poll l -> since (ls ++ [l]) rc rs (hs ++ handed [l]).
  Proof.
    intros (l1 & l2 & -> & A & B) Hl. exists l1, (l2 ++ [l])%list. rewrite <- app_assoc. repeat split; auto.
    - apply Forall_app; split; auto.
    - now rewrite handed_app, B.
  Qed.
  Definition pc_since (pc : mpc U) (ls : list label) : Prop :=
    match pc with
    | MControl rs => since ls true rs []
    | MInControl _ rs => exists w, since ls true rs [(CONTROL, w)]
    | MShell rs => since ls false rs [] \/ exists w, since ls true rs [(CONTROL, w)]
    | MRecvShell => since ls false true [] \/ exists w, since ls true true [(CONTROL, w)]
    | _ => True
    end.
  Lemma pc_since_quiet pc ls l : pc_since pc ls -> ~ is_poll l -> handed [l] = [] -> pc_since pc (ls ++ [l]).
  Proof.
    intros H Hp Hh. assert (Q : forall rc rs hs, since ls rc rs hs -> since (ls ++ [l]) rc rs hs).
    { intros rc rs hs X. apply (since_quiet _ l) in X; auto. now rewrite Hh, app_nil_r in X. }
    destruct pc; cbn in *; auto.
    - destruct H as [w H]; eauto.
    - destruct H as [H|[w H]]; [left; auto|right; eauto].
    - destruct H as [H|[w H]]; [left; auto|right; eauto].
  Qed.
  Lemma step_since s l s' ls : dstep s l s' -> pc_since (d_pc s) ls -> pc_since (d_pc s') (ls ++ [l]).
  Proof.
    intros H Hp. destruct H as [s l s' H| | | | | |]; try (cbn [d_pc] in *; apply pc_since_quiet; auto; fail).
    destruct H; cbn [d_pc] in *; try exact I; try (apply pc_since_quiet; auto; fail).
    - subst rc rs. assert (S : forall a b, since (ls ++ [Poll a b]) a b []) by (intros; exists ls, []; repeat split; constructor).
      destruct (negb (Nat.eqb (List.length (m_ctlq m)) 0)); cbn; auto.
    - exists w. eapply (since_quiet _ (Hand CONTROL w)) in Hp; auto.
    - apply mop_queues in H as (_ & _ & _ & _ & _ & B & C & _). apply (pc_since_quiet (MInControl (k x) rs)); auto.
    - right. destruct Hp as [w Hp]. exists w. eapply (since_quiet _ Tau) in Hp; auto.
    - destruct (negb (m_stop m) && rs) eqn:E; [|exact I]. apply andb_true_iff in E as [_ ->].
      apply (pc_since_quiet MRecvShell); auto.
  Qed.
  Lemma run_since s ls s' : drun s ls s' -> d_pc s = MTest -> pc_since (d_pc s') ls.
  Proof.
    intros H Hf. induction H as [s|s ls s1 l s2 H IH Hs]; [now rewrite Hf|]. eapply step_since; eauto.
  Qed.

  Lemma hand_inv s c w s' : dstep s (Hand c w) s' ->
    match c with CONTROL => exists rs, d_pc s = MControl rs | SHELL => d_pc s = MRecvShell end.
  Proof.
    assert (X : forall o (x : kans o), op_label (U := U) o x <> Hand c w).
    { intros o x. destruct o; cbn; try discriminate. - destruct e; discriminate. - destruct x; discriminate. }
    intros H. inversion H; subst. match goal with H : main_step _ _ _ |- _ => inversion H; subst; cbn; eauto end.
    all: exfalso; eapply X; eauto.
  Qed.
  Lemma poll_inv s rc rs s' : dstep s (Poll rc rs) s' ->
    (rc = true <-> m_ctlq (d_mem s) <> []) /\ (rs = true <-> m_shellq (d_mem s) <> []).
  Proof.
    assert (X : forall o (x : kans o), op_label (U := U) o x <> Poll rc rs).
    { intros o x. destruct o; cbn; try discriminate. - destruct e; discriminate. - destruct x; discriminate. }
    intros H. inversion H; subst. match goal with H : main_step _ _ _ |- _ => inversion H; subst end.
    - cbn. subst rc0 rs0. destruct (m_ctlq m), (m_shellq m); cbn; split; split; congruence.
    - exfalso; eapply X; eauto.
    - exfalso; eapply X; eauto.
  Qed.

  (** ** The forwarding threads inside the process *)
  Lemma step_fwd s l s' : dstep s l s' ->
    f_all (m_pub (d_mem s')) = (f_all (m_pub (d_mem s)) ++ published [l])%list /\
    f_all (m_hb (d_mem s')) = (f_all (m_hb (d_mem s)) ++ beats [l])%list.
  Proof.
    intros H. destruct H as [s l s' H|pc m f A H|pc m f A H| | | |];
      try (cbn; rewrite ?app_nil_r; split; first [reflexivity | exact (f_all_push _ _)]; fail).
    - destruct H; cbn [d_mem]; try (cbn; rewrite ?app_nil_r, ?f_all_set; auto; fail).
      + apply mop_queues in H as (_ & _ & _ & _ & _ & _ & _ & -> & -> & -> & _). now rewrite app_nil_r.
      + apply mop_queues in H as (_ & _ & _ & _ & _ & _ & _ & -> & -> & -> & _). now rewrite app_nil_r.
    - cbn. apply fnext_all in H. rewrite H, !app_nil_r. auto.
    - cbn. apply fnext_all in H. rewrite H, !app_nil_r. auto.
  Qed.
  Lemma run_fwd s ls s' : drun s ls s' ->
    f_all (m_pub (d_mem s')) = (f_all (m_pub (d_mem s)) ++ published ls)%list /\
    f_all (m_hb (d_mem s')) = (f_all (m_hb (d_mem s)) ++ beats ls)%list.
  Proof.
    intros H. induction H as [s|s ls s1 l s2 H IH Hs]; [cbn; now rewrite !app_nil_r|].
    destruct IH as [A B]. apply step_fwd in Hs as [C D]. rewrite C, D, A, B, published_app, beats_app, !app_assoc. auto.
  Qed.
End Default.
