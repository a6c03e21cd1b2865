(** The start of the default server and the subscription of its publisher thread: C97. *)
From Verif Require Import Base BaseFacts Json JsonText Auth Message WireSpec History Comm Tree Kernel KernelSpec KernelRun KernelDemo
  Server ServerSpec ServerProofs ServerExec ServerLemmas ServerDemo Join JoinSpec JoinProofs.

(** C97. What the publisher thread sends is an initial part of what was published since the subscription: once something has got
    through, nothing is lost. *)
Theorem C97_since : forall U (listener : channel -> frames -> kprog U unit) start k ls j,
  jrun listener start (j_init k) ls j -> prefix (f_out (m_pub (d_mem (j_sys j)))) (since_join ls).
Proof. intros U listener start k ls j H. apply f_all_prefix. exact (proj1 (joined_all listener start _ _ _ H eq_refl eq_refl)). Qed.
Print Assumptions C97_since.

(** C97. The publisher thread keeps what it has received until it has sent it: when it waits, not asked to stop, it has sent
    everything since the subscription. *)
Theorem C97_idle : forall U (listener : channel -> frames -> kprog U unit) start k ls j,
  jrun listener start (j_init k) ls j -> fnext (m_pub (d_mem (j_sys j))) = None -> f_pc (m_pub (d_mem (j_sys j))) = FPoll ->
  f_out (m_pub (d_mem (j_sys j))) = since_join ls.
Proof.
  intros U listener start k ls j H N P. destruct (f_blocked _ N P) as (_ & _ & ->). exact (proj1 (joined_all listener start _ _ _ H eq_refl eq_refl)).
Qed.
Print Assumptions C97_idle.

(** C97. If the subscription comes before the start message, nothing is lost, and the start message is the first publication. *)
Theorem C97_in_time : forall U (listener : channel -> frames -> kprog U unit) start k ls j l1 l2,
  jrun listener start (j_init k) ls j -> ls = (l1 ++ JStart start :: l2)%list -> In JJoin l1 -> since_join ls = start :: given l2.
Proof.
  intros U listener start k ls j l1 l2 H -> I.
  assert (G : forall ls j, jrun listener start (j_init k) ls j -> stage_rank (j_stage j) < 3 -> given ls = []).
  { clear. intros ls j H. remember (j_init k) as j0 eqn:E. induction H as [|j0 ls j1 l j2 H IH Hs]; [reflexivity|]. intros R. rewrite given_app. specialize (IH E).
    destruct Hs; cbn [j_stage stage_rank] in *; try lia; rewrite IH by (cbn; lia); reflexivity. }
  assert (P : forall l r j, jrun listener start (j_init k) (l ++ r) j -> exists j', jrun listener start (j_init k) l j').
  { clear. intros l r. induction r as [|x r IH] using rev_ind; intros j H; [rewrite app_nil_r in H; eauto|]. rewrite app_assoc in H. remember ((l ++ r) ++ [x])%list as xs eqn:E.
    destruct H as [|j0 ls j1 y j2 H Hs]; [now destruct (app_cons_not_nil _ _ _ E)|]. apply app_inj_tail in E as [-> ->]. eauto. }
  assert (S : exists j1, jrun listener start (j_init k) l1 j1 /\ stage_rank (j_stage j1) < 3).
  { change (JStart start :: l2) with ([JStart start] ++ l2)%list in H. rewrite app_assoc in H. destruct (P _ _ _ H) as (j' & H'). remember (l1 ++ [JStart start])%list as xs eqn:E.
    destruct H' as [|j0 ls j1 y j2 H' Hs]; [now destruct (app_cons_not_nil _ _ _ E)|]. apply app_inj_tail in E as [-> ->]. exists j1. split; auto. inversion Hs; subst. cbn. lia. }
  destruct S as (j1 & H1 & R1). specialize (G _ _ H1 R1). clear - G I.
  assert (X : forall l, In JJoin l -> given l = [] -> since_join (l ++ JStart start :: l2) = start :: given l2).
  { induction l as [|a l IH]; [intros []|]. intros [->|J] Z; cbn in *; [unfold given in *; rewrite flat_map_app, Z; reflexivity|].
    apply app_eq_nil in Z as [_ Z]. destruct a; auto. unfold given in *. now rewrite flat_map_app, Z. }
  auto.
Qed.
Print Assumptions C97_in_time.

(** C97. Nothing else depends on it: the main thread, the heartbeat and the arrivals make a run of Server.v, in which nothing is
    lost. *)
Theorem C97_same : forall U (listener : channel -> frames -> kprog U unit) start k ls j,
  jrun listener start (j_init k) ls j ->
  exists l2 s, drun listener (d_init k start) l2 s /\ filter visible l2 = seen ls /\ same_but_pub (j_sys j) s.
Proof.
  intros U listener start k ls j H. destruct (jmain_lag listener start k ls j H) as (_ & g & l2 & D & (L & _) & V). exists l2, (with_pub g (j_sys j)).
  split; auto. split; auto. unfold same_but_pub. cbn. repeat split. exact L.
Qed.
Print Assumptions C97_same.

(** ** Executed runs *)
Section Exec.
  Context {U : Type} (listener : channel -> frames -> kprog U unit) (start : frames).
  Inductive jchoice := JGo | JGJoin | JG (c : choice).
  Definition jnext (c : jchoice) (j : jsys U) : option (jlabel * jsys U) :=
    let s := j_sys j in
    let to g s' := {| j_stage := g; j_joined := j_joined j; j_sys := s' |} in
    match c with
    | JGo =>
        match j_stage j with
        | StPub => Some (JSpawn, to StHb s)
        | StHb => Some (JSpawn, to StStart s)
        | StStart => Some (JStart start, to StLoop {| d_pc := d_pc s; d_mem := set_pub (if j_joined j then f_push start (m_pub (d_mem s)) else m_pub (d_mem s)) (d_mem s) |})
        | StLoop => match mainf listener s with Some (l, s') => Some (JMain l, to StLoop (delivered (j_joined j) s l s')) | None => None end
        end
    | JGJoin =>
        if (negb (j_joined j) && Nat.ltb 0 (stage_rank (j_stage j)) && alivef (d_pc s))%bool
        then Some (JJoin, {| j_stage := j_stage j; j_joined := true; j_sys := s |}) else None
    | JG GMain => None
    | JG GPub =>
        if (Nat.ltb 0 (stage_rank (j_stage j)) && alivef (d_pc s))%bool
        then match fnext (m_pub (d_mem s)) with Some f => Some (JPub, to (j_stage j) {| d_pc := d_pc s; d_mem := set_pub f (d_mem s) |}) | None => None end else None
    | JG GHb =>
        if (Nat.ltb 1 (stage_rank (j_stage j)) && alivef (d_pc s))%bool
        then match fnext (m_hb (d_mem s)) with Some f => Some (JBeat, to (j_stage j) {| d_pc := d_pc s; d_mem := set_hb f (d_mem s) |}) | None => None end else None
    | JG c => match dnext listener c s with Some (l, s') => Some (JEnv l, to (j_stage j) s') | None => None end
    end.
  Lemma jnext_sound c j l j' : jnext c j = Some (l, j') -> jstep listener start j l j'.
  Proof.
    destruct j as [g jo s]. unfold jnext. cbn [j_stage j_joined j_sys]. cbv zeta. destruct c as [| |c].
    - destruct g.
      + intros [= <- <-]. constructor.
      + intros [= <- <-]. constructor.
      + intros [= <- <-]. destruct s. constructor.
      + destruct (mainf listener s) as [[l1 s1]|] eqn:M; [|discriminate]. intros [= <- <-]. constructor. now apply mainf_sound.
    - destruct jo; [discriminate|]. cbn [negb andb]. destruct (Nat.ltb_spec 0 (stage_rank g)); [|discriminate]. cbn [andb]. destruct (alivef (d_pc s)) eqn:A; [|discriminate].
      intros [= <- <-]. constructor; auto. now apply alivef_ok.
    - destruct c as [| | |ch w|w|]; [discriminate| | | | |].
      + destruct (Nat.ltb_spec 0 (stage_rank g)); [|discriminate]. cbn [andb]. destruct (alivef (d_pc s)) eqn:A; [|discriminate]. destruct (fnext (m_pub (d_mem s))) eqn:N; [|discriminate].
        intros [= <- <-]. destruct s. constructor; auto. now apply alivef_ok.
      + destruct (Nat.ltb_spec 1 (stage_rank g)); [|discriminate]. cbn [andb]. destruct (alivef (d_pc s)) eqn:A; [|discriminate]. destruct (fnext (m_hb (d_mem s))) eqn:N; [|discriminate].
        intros [= <- <-]. destruct s. constructor; auto. now apply alivef_ok.
      + destruct (dnext listener (GArrive ch w) s) as [[l1 s1]|] eqn:N; [|discriminate]. intros [= <- <-]. constructor; [eapply dnext_sound; eauto|].
        destruct ch; cbn in N; injection N as <- <-; exact I.
      + destruct (dnext listener (GBeat w) s) as [[l1 s1]|] eqn:N; [|discriminate]. intros [= <- <-]. constructor; [eapply dnext_sound; eauto|]. cbn in N. injection N as <- <-. exact I.
      + destruct (dnext listener GStdin s) as [[l1 s1]|] eqn:N; [|discriminate]. intros [= <- <-]. constructor; [eapply dnext_sound; eauto|]. cbn in N. injection N as <- <-. exact I.
  Qed.
  Fixpoint jmany (c : jchoice) (n : nat) (ls : list jlabel) (j : jsys U) : list jlabel * jsys U :=
    match n with 0 => (ls, j) | S n => match jnext c j with Some (l, j') => jmany c n (ls ++ [l]) j' | None => (ls, j) end end.
  Fixpoint jexec (cs : list (jchoice * nat)) (ls : list jlabel) (j : jsys U) : list jlabel * jsys U :=
    match cs with [] => (ls, j) | (c, n) :: r => let (ls', j') := jmany c n ls j in jexec r ls' j' end.
  Lemma jexec_sound cs j0 ls j : jrun listener start j0 ls j -> jrun listener start j0 (fst (jexec cs ls j)) (snd (jexec cs ls j)).
  Proof.
    assert (M : forall c n ls j, jrun listener start j0 ls j -> jrun listener start j0 (fst (jmany c n ls j)) (snd (jmany c n ls j))).
    { induction n as [|n IH]; intros l1 j1 H; cbn; auto. destruct (jnext c j1) as [[l' j']|] eqn:E; auto. apply IH. econstructor; eauto. now apply jnext_sound in E. }
    revert ls j. induction cs as [|[c n] cs IH]; intros ls j H; cbn; auto. pose proof (M c n ls j H) as D. destruct (jmany c n ls j) as [ls' j']. now apply IH.
  Qed.
End Exec.
Definition join_run cs := jexec default_listener ["start"] cs [] (j_init demo_start).
Lemma join_run_ok cs : jrun default_listener ["start"] (j_init demo_start) (fst (join_run cs)) (snd (join_run cs)).
Proof. apply jexec_sound. constructor. Qed.
Definition pub_of {U} (j : jsys U) : fwd := m_pub (d_mem (j_sys j)).
(** The message types of publications. *)
Definition begins_with (w : frames) : string := match w with x :: _ => x | [] => "" end.

(** The main thread is faster than the publisher thread: the start message is lost, what follows is sent. *)
Definition late_choices : list (jchoice * nat) :=
  [(JGo, 3); (JGJoin, 1); (JG (GArrive SHELL exec1), 1); (JGo, 500); (JG GPub, 500)].
(** The publisher thread is subscribed before. *)
Definition early_choices : list (jchoice * nat) :=
  [(JGo, 1); (JGJoin, 1); (JG (GArrive SHELL exec1), 1); (JGo, 500); (JG GPub, 500)].
Definition outs cs := List.length (f_out (pub_of (snd (join_run cs)))).
Definition starts cs := List.length (filter (fun w => String.eqb (begins_with w) "start") (f_out (pub_of (snd (join_run cs))))).
Example C97_in_time_ex : outs early_choices = 6 /\ starts early_choices = 1 /\
  match fst (join_run early_choices) with JSpawn :: JJoin :: JEnv _ :: JSpawn :: JStart w :: _ => w = ["start"] | _ => False end.
Proof. vm_compute. auto. Qed.
Example C97_since_ex : outs late_choices = 5 /\ starts late_choices = 0 /\ fnext (pub_of (snd (join_run late_choices))) = None /\ f_pc (pub_of (snd (join_run late_choices))) = FPoll.
Proof. vm_compute. auto. Qed.

(** C97. The start message need not be sent: the publisher thread waits, everything since the subscription is sent, and the start
    message is not among it. *)
Theorem C97_start_refuted : ~ (forall U (listener : channel -> frames -> kprog U unit) start k ls j,
  jrun listener start (j_init k) ls j -> In (JStart start) ls -> In JJoin ls -> fnext (pub_of j) = None -> f_pc (pub_of j) = FPoll -> In start (f_out (pub_of j))).
Proof.
  intros H. specialize (H _ _ _ _ _ _ (join_run_ok late_choices)).
  assert (X : fnext (pub_of (snd (join_run late_choices))) = None /\ f_pc (pub_of (snd (join_run late_choices))) = FPoll) by (vm_compute; auto). destruct X as [X1 X2].
  assert (Y : existsb (fun w => String.eqb (begins_with w) "start") (f_out (pub_of (snd (join_run late_choices)))) = false) by (vm_compute; reflexivity).
  assert (I1 : In (JStart ["start"]) (fst (join_run late_choices)) /\ In JJoin (fst (join_run late_choices))).
  { assert (firstn 4 (fst (join_run late_choices)) = [JSpawn; JSpawn; JStart ["start"]; JJoin]) as F by (vm_compute; reflexivity).
    rewrite <- (firstn_skipn 4 (fst (join_run late_choices))), F. split; apply in_or_app; left; cbn; auto. }
  specialize (H (proj1 I1) (proj2 I1) X1 X2). assert (existsb (fun w => String.eqb (begins_with w) "start") (f_out (pub_of (snd (join_run late_choices)))) = true) as Z; [|rewrite Y in Z; discriminate Z].
  apply existsb_exists. exists ["start"]. split; [exact H|reflexivity].
Qed.
Print Assumptions C97_start_refuted.
