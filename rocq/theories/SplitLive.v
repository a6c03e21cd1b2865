(** Liveness of the split servers. *)
From Verif Require Import Base BaseFacts Json JsonText Auth Message History Comm Tree Kernel KernelSpec Server ServerSpec ServerProofs ServerLemmas Split SplitSpec Threads SplitProofs SplitCalls SplitStop LiveSpec Live SplitLiveSpec.

Section SplitLive.
  Context {U : Type} (v : variant) (E : env U).
  Let listener c w := dispatch E w c.
  Let internal := dispatch_internal E.
  Notation step := (ystep v listener internal).
  Implicit Types (s : ysys U).
  Variable (k0 : kstate U) (start : frames) (sigma : nat -> ysys U) (lab : nat -> option slabel).
  Hypothesis Hex : execution v listener internal sigma lab.
  Hypothesis H0 : sigma 0 = y_init k0 start.
  Notation obs := (seen lab).
  Notation fair := (fair v listener internal sigma lab).
  Notation enabled := (enabled v listener internal).

  (** *** The execution *)
  Lemma step_cases n : (sigma (S n) = sigma n /\ obs (S n) = obs n /\ lab n = None) \/
    (exists l, lab n = Some l /\ step (sigma n) l (sigma (S n)) /\ obs (S n) = (obs n ++ [l])%list).
  Proof. pose proof (Hex n) as H. cbn [seen]. destruct (lab n) as [l|]; [right; eauto|left; rewrite app_nil_r; auto]. Qed.
  Lemma obs_run n : yrun v listener internal (y_init k0 start) (obs n) (sigma n).
  Proof.
    induction n as [|n IH]; [cbn; rewrite H0; constructor|]. destruct (step_cases n) as [(-> & -> & _)|(l & _ & H & ->)]; [exact IH|].
    econstructor; eauto.
  Qed.
  Lemma obs_prefix n m : n <= m -> prefix (obs n) (obs m).
  Proof.
    induction 1 as [|m _ [r IH]]; [exists []; now rewrite app_nil_r|]. cbn [seen]. rewrite IH, <- app_assoc. eexists. reflexivity.
  Qed.
  Lemma phase_at n : exists L, phase (y_sh (sigma n)) (y_ct (sigma n)) (m_call (y_mem (sigma n))) L.
  Proof. eexists. apply (yrun_phase v E k0 start (obs n) (sigma n)). apply obs_run. Qed.
  Lemma queues n : came CONTROL (obs n) = (taken CONTROL (obs n) ++ m_ctlq (y_mem (sigma n)))%list /\ came SHELL (obs n) = (taken SHELL (obs n) ++ m_shellq (y_mem (sigma n)))%list.
  Proof. destruct (split_order v listener internal k0 start _ _ (obs_run n)) as (A & B & _). auto. Qed.
  (** [P] holds until thread [t] moves or [Q] holds. *)
  Lemma leads_t t (P Q : nat -> Prop) : fair t -> (forall n, P n -> enabled t (sigma n)) ->
    (forall n, P n -> (P (S n) /\ forall l, lab n = Some l -> who l <> t) \/ Q (S n)) -> forall n, P n -> ev n Q.
  Proof.
    intros HF HE HS n HP. destruct (HF n) as (m & Hm & Hc).
    destruct (until P Q) with (d := m - n) (n := n) as [H|H]; auto.
    { intros i Hi. destruct (HS i Hi) as [[X _]|X]; auto. }
    replace (n + (m - n)) with m in H by lia.
    destruct Hc as [Hc|(l & Hl & Hw)]; [now destruct (Hc (HE _ H))|].
    destruct (HS m H) as [[_ X]|X]; [now destruct (X l)|]. exists (S m). split; auto.
  Qed.

  (** *** Invariants *)
  (** The stop flag. *)
  Lemma mop_stop (o : kop U) (m m' : mem U) (x : kans o) c : mop o m m' x -> m_stop m' = true <-> m_stop m = true \/ label_of c o x = YEvent c EStop.
  Proof.
    destruct o; cbn [mop label_of].
    all: try (intros [-> _]; cbn; split; [auto|intros [H|H]; [auto|discriminate]]; fail).
    all: try (intros ->; cbn; split; [auto|intros [H|H]; [auto|discriminate]]; fail).
    - intros ->. destruct e; cbn; (split; [auto|intros [H|H]; [auto|try discriminate]]). reflexivity.
    - intros (_ & -> & _). cbn. split; [auto|intros [H|H]; [auto|discriminate]].
    - destruct (m_shellq m); intros [-> ->]; cbn; (split; [auto|intros [H|H]; [auto|discriminate]]).
    - intros [].
  Qed.
  Lemma label_event c c' e (o : kop U) (x : kans o) : label_of c o x = YEvent c' e -> c' = c.
  Proof. destruct o; cbn; try discriminate; [now intros [= <- _]|destruct x; discriminate]. Qed.
  Lemma gstep_stop c {A} (g : going U A) (m : mem U) l g' m' : gstep c g m l g' m' -> m_stop m' = true <-> m_stop m = true \/ exists c', l = YEvent c' EStop.
  Proof.
    destruct 1.
    - rewrite (mop_stop _ _ _ _ c H). split; [intros [?|?]; eauto|]. intros [?|[c' X]]; [auto|]. pose proof (label_event _ _ _ _ _ X). subst. auto.
    - cbn. split; [auto|intros [?|[? ?]]; [auto|discriminate]].
    - cbn. split; [auto|intros [?|[? ?]]; [auto|discriminate]].
  Qed.
  Definition left_loop (b : ctpc U) : Prop := match b with CTest | CRecv | CRun _ => False | _ => True end.
  Lemma step_stop s l s' : step s l s' -> (m_stop (y_mem s') = true <-> m_stop (y_mem s) = true \/ exists c, l = YEvent c EStop) /\
    (left_loop (y_ct s') -> left_loop (y_ct s) \/ m_stop (y_mem s) = true).
  Proof.
    assert (T : forall (a : bool) l, (forall c, l <> YEvent c EStop) -> (a = true <-> a = true \/ exists c, l = YEvent c EStop)).
    { intros a l0 Hn. split; [auto|]. intros [H|[c H]]; auto. now destruct (Hn c). }
    intros H. destruct H; cbn [y_mem y_ct] in *; try (split; [apply T; discriminate|auto]; fail).
    - split; [|auto]. destruct H; try (apply T; discriminate); eapply gstep_stop; eauto.
    - split.
      + destruct H; try (apply T; discriminate). eapply gstep_stop; eauto.
      + destruct H; cbn; auto.
    - split; [destruct ch; apply T; discriminate|]. auto.
  Qed.
  Lemma stop_at n : (m_stop (y_mem (sigma n)) = true <-> asked_stop (obs n)) /\ (left_loop (y_ct (sigma n)) -> m_stop (y_mem (sigma n)) = true).
  Proof.
    induction n as [|n [IH1 IH2]]; [rewrite H0; cbn; split; [split; [discriminate|intros [c []]]|intros []]|].
    destruct (step_cases n) as [(-> & -> & _)|(l & _ & H & ->)]; [auto|]. apply step_stop in H as [H1 H2].
    assert (X : m_stop (y_mem (sigma (S n))) = true <-> asked_stop (obs n ++ [l])).
    { rewrite H1, IH1. unfold asked_stop. split.
      - intros [[c Hc]|[c ->]]; exists c; apply in_or_app; cbn; auto.
      - intros [c Hc]. apply in_app_or in Hc as [Hc|[->|[]]]; [left|right]; eauto. }
    split; [exact X|]. intros HL. apply H1. left. destruct (H2 HL) as [Y|Y]; auto.
  Qed.
  Lemma out_stop n : sh_out (y_sh (sigma n)) = true -> m_stop (y_mem (sigma n)) = true.
  Proof.
    intros HO. apply (proj2 (stop_at n)). destruct (phase_at n) as [L HP].
    inversion HP; try congruence; subst.
    - rewrite HO in *. destruct (y_ct (sigma n)); cbn in *; try exact I; discriminate.
    - match goal with X : sh_intern _ = true |- _ => destruct (y_sh (sigma n)); discriminate end.
    - destruct (y_ct (sigma n)); cbn in *; try exact I; discriminate.
  Qed.

  (** A poll of the shell thread that announced a request of the controller. *)
  Definition flagged (a : shpc U) : Prop := match a with SRecv true | SRun _ true | SCtl => True | _ => False end.
  Definition flag_inv s : Prop := flagged (y_sh s) -> asked (m_call (y_mem s)) = true.
  Lemma gstep_asked c {A} (g : going U A) m l g' m' : gstep c g m l g' m' -> asked (m_call m) = true -> asked (m_call m') = true.
  Proof.
    destruct 1; intros HA; cbn.
    - now rewrite (mop_call _ _ _ _ H).
    - reflexivity.
    - rewrite H in HA. discriminate.
  Qed.
  Lemma control_asked b m l b' m' : control_step listener b m l b' m' -> asked (m_call m) = true -> asked (m_call m') = true.
  Proof.
    destruct 1; intros HA; cbn; auto.
    - eapply gstep_asked; eauto.
    - rewrite H in HA. discriminate.
  Qed.
  Lemma flag_step s l s' : flag_inv s -> step s l s' -> flag_inv s'.
  Proof.
    unfold flag_inv. intros A H. destruct H; cbn [y_sh y_mem] in *; try exact A.
    - destruct H; cbn in *; auto; try contradiction.
      + intros F. destruct (asked (m_call m)); auto.
      + intros F. eapply gstep_asked; eauto.
      + destruct b0; auto; contradiction.
    - intros F. eapply control_asked; eauto.
    - destruct ch; exact A.
  Qed.
  Lemma flag_at n : flag_inv (sigma n).
  Proof.
    induction n as [|n IH]; [rewrite H0; intros []|]. destruct (step_cases n) as [(-> & _)|(l & _ & H & _)]; auto. eapply flag_step; eauto.
  Qed.
  Lemma ctl_asked n : y_sh (sigma n) = SCtl -> exists f w, m_call (y_mem (sigma n)) = SAsked (f :: w).
  Proof.
    intros HS. pose proof (flag_at n) as F. unfold flag_inv in F. rewrite HS in F. specialize (F I).
    destruct (phase_at n) as [L HP]. rewrite HS in HP. destruct (m_call (y_mem (sigma n))) as [|w0|w0]; try discriminate. inversion HP; subst; try discriminate.
    - match goal with X : proper _ |- _ => destruct X as (t & r & -> & _) end. eauto.
    - unfold stop_frames. eauto.
  Qed.

  (** *** The forwarding threads *)
  Definition fw (b : bool) (n : nat) : fwd := if b then m_pub (y_mem (sigma n)) else m_hb (y_mem (sigma n)).
  Definition ft (b : bool) : tid := if b then TPub else TBeat.
  Definition over (n : nat) : Prop := y_end (sigma n) <> None.
  Lemma end_dec n : {y_end (sigma n) = None} + {over n}.
  Proof. unfold over. destruct (y_end (sigma n)); [right; discriminate|left; reflexivity]. Qed.
  Lemma left_dec (b : ctpc U) : {left_loop b} + {~ left_loop b}.
  Proof. destruct b; cbn; auto. Qed.
  Lemma fw_all b n : f_all (fw b n) = if b then start :: sent_out (obs n) else pulses (obs n).
  Proof. destruct (split_order v listener internal k0 start _ _ (obs_run n)) as (_ & _ & A & B). unfold fw. destruct b; auto. Qed.
  Definition told (b : bool) (n : nat) : Prop := if b then told_publisher (sigma n) else told_heartbeat (sigma n).
  Lemma told_dec b n : {told b n} + {~ told b n}.
  Proof. unfold told, told_publisher, told_heartbeat. destruct b, (y_ct (sigma n)); auto. Qed.
  Lemma fw_running b n : ~ told b n -> f_ok (fw b n) /\ f_running (fw b n).
  Proof.
    unfold told, told_publisher, told_heartbeat. intros HL. destruct (run_sinv v E _ _ _ _ (obs_run n)) as ([A A'] & [B B'] & _). unfold fw.
    destruct b, (y_ct (sigma n)); cbn in HL; try tauto; auto.
  Qed.
  Lemma all_prefix b n m : n <= m -> prefix (f_all (fw b n)) (f_all (fw b m)).
  Proof.
    intros H. rewrite !fw_all. destruct (obs_prefix _ _ H) as [r ->]. destruct b.
    - rewrite sent_out_app. exists (sent_out r). reflexivity.
    - rewrite pulses_app. exists (pulses r). reflexivity.
  Qed.
  Lemma fwd_step s l s' (b : bool) : step s l s' ->
    let f := if b then m_pub (y_mem s) else m_hb (y_mem s) in let f' := if b then m_pub (y_mem s') else m_hb (y_mem s') in
    (who l = ft b /\ fnext f = Some f') \/ (who l <> ft b /\ f_pc f' = f_pc f /\ f_out f' = f_out f).
  Proof.
    intros H. destruct H; cbn [y_mem].
    - right. split; [apply who_shell in H; destruct b; cbn; congruence|]. apply shell_step_fwd in H as [[P|(w & P)] Q]; destruct b; cbn; rewrite ?P, ?Q; auto.
    - right. split; [apply who_control in H; destruct b; cbn; congruence|].
      destruct H; try (destruct b; cbn; auto; fail). apply gstep_fwd in H as [[P|(w & P)] Q]; destruct b; cbn; rewrite ?P, ?Q; auto.
    - right. split; [destruct b; discriminate|auto].
    - right. split; [destruct b; discriminate|auto].
    - right. split; [destruct b; discriminate|auto].
    - right. split; [destruct b; discriminate|auto].
    - right. split; [destruct b; discriminate|auto].
    - destruct b; [left; auto|right; split; [discriminate|auto]].
    - destruct b; [right; split; [discriminate|auto]|left; auto].
    - right. split; [destruct b; discriminate|]. destruct ch, b; auto.
    - right. split; [destruct b; discriminate|]. destruct b; auto.
    - right. split; [destruct b; discriminate|]. destruct b; auto.
  Qed.
  Lemma forwarded b n : fair (ft b) -> ev n (fun m => List.length (f_all (fw b n)) <= List.length (f_out (fw b m)) \/ over m \/ told b m).
  Proof.
    intros HF. set (N := List.length (f_all (fw b n))).
    set (rank := fun m => 3 * (N - List.length (f_out (fw b m))) + stage (fw b m)).
    apply (ranked rank (fun m => n <= m)); [|lia]. intros i Hi.
    destruct (end_dec i) as [He|He]; [|apply ev_now; auto].
    destruct (told_dec b i) as [Hc|Hc]; [apply ev_now; auto|].
    destruct (le_lt_dec N (List.length (f_out (fw b i)))) as [Hd|Hd]; [apply ev_now; auto|].
    apply (leads_t (ft b) (fun j => i <= j /\ y_end (sigma j) = None /\ ~ told b j /\ f_pc (fw b j) = f_pc (fw b i) /\ f_out (fw b j) = f_out (fw b i))); auto.
    - intros j (A & A' & B & C & D). destruct (fw_running b j B) as [W1 W2].
      assert (X : exists f, fnext (fw b j) = Some f).
      { apply fw_moves; auto. rewrite D. destruct (all_prefix b n j) as [r Hr]; [lia|]. rewrite Hr, app_length. fold N. lia. }
      destruct X as [f Hf]. unfold fw in Hf. destruct (sigma j) as [sh ct m st en]. cbn in *. subst en. exists (YTau (ft b)).
      destruct b; eexists; (split; [reflexivity|]); [apply y_publish|apply y_beat]; exact Hf.
    - intros j (A & A' & B & C & D). destruct (fw_running b j B) as [W1 W2].
      destruct (end_dec (S j)) as [Hj|Hj]; [|right; auto].
      destruct (told_dec b (S j)) as [Hc'|Hc']; [right; auto|].
      destruct (step_cases j) as [(Es & _ & El)|(l & El & H & _)].
      + left. rewrite El. split; [|discriminate]. unfold fw, told in *. rewrite Es. auto.
      + apply (fwd_step _ _ _ b) in H. cbv zeta in H. fold (fw b j) in H. fold (fw b (S j)) in H. destruct H as [[Hw F]|(Hw & E1 & E2)].
        * right. right. split; [lia|]. unfold rank. assert (S0 : stage (fw b j) = stage (fw b i)) by (unfold stage; now rewrite C).
          pose proof (stage_le (fw b (S j))). destruct (fw_progress _ _ W2 F) as [[F1 F2]|F1]; rewrite F1, D; lia.
        * left. split; [|intros l' Hl'; congruence]. repeat split; auto; congruence.
  Qed.

  (** *** The shell thread *)
  Hypothesis Hshell : fair TShell.
  Hypothesis Hcalls : forall n, ~ calls_itself (sigma n).
  Hypothesis Hstdin : gets_input SHELL sigma.
  Definition sh_moved (n : nat) (a : shpc U) (X : nat -> Prop) (m : nat) : Prop :=
    exists i l, m = S i /\ n <= i /\ X i /\ y_sh (sigma i) = a /\ lab i = Some l /\
      shell_step listener internal a (y_mem (sigma i)) l (y_sh (sigma m)) (y_mem (sigma m)) /\ y_ct (sigma m) = y_ct (sigma i).
  Lemma shell_own s l s' : step s l s' -> who l = TShell -> sh_out (y_sh s) = false ->
    (shell_step listener internal (y_sh s) (y_mem s) l (y_sh s') (y_mem s') /\ y_ct s' = y_ct s) \/ y_end s' <> None.
  Proof.
    intros H W O. destruct H; cbn in *; try discriminate; auto.
    - apply who_control in H. congruence.
    - right. discriminate.
  Qed.
  Lemma shell_other s l s' : step s l s' -> who l <> TShell -> y_sh s' = y_sh s.
  Proof.
    intros H W. destruct H; cbn in *; try congruence; auto.
    - apply who_shell in H. congruence.
  Qed.
  Lemma shell_moves n a (X Q : nat -> Prop) : sh_out a = false ->
    (forall i, n <= i -> X i -> y_sh (sigma i) = a -> y_end (sigma i) = None -> ~ at_stdin SHELL (sigma i) -> enabled TShell (sigma i)) ->
    (forall i, n <= i -> X i -> y_sh (sigma i) = a -> (forall l, lab i = Some l -> who l <> TShell) -> X (S i) \/ Q (S i)) ->
    X n -> y_sh (sigma n) = a -> ev n (fun m => sh_moved n a X m \/ over m \/ Q m).
  Proof.
    intros HO HE HX HXn Hpc. destruct (end_dec n) as [Hnone|Hov]; [|apply ev_now; auto].
    set (P := fun i => n <= i /\ X i /\ y_sh (sigma i) = a /\ y_end (sigma i) = None).
    set (R := fun m => sh_moved n a X m \/ over m \/ Q m).
    assert (ST : forall i, P i -> (P (S i) /\ forall l, lab i = Some l -> who l <> TShell) \/ R (S i)).
    { intros i (A & B & C & D). destruct (end_dec (S i)) as [D'|D']; [|right; right; auto].
      destruct (step_cases i) as [(Es & _ & El)|(l & El & H & _)].
      - assert (Y : forall l, lab i = Some l -> who l <> TShell) by (rewrite El; discriminate).
        destruct (HX i A B C Y) as [Z|Z]; [left|right; right; auto]. split; [|exact Y]. split; [lia|]. split; [auto|]. now rewrite Es.
      - destruct (tid_eq (who l) TShell) as [W|W].
        + right. left. destruct (shell_own _ _ _ H W) as [[H1 H2]|H1]; [now rewrite C| |contradiction].
          exists i, l. rewrite C in H1. auto 10.
        + assert (Y : forall l, lab i = Some l -> who l <> TShell) by (rewrite El; intros l' [= <-]; exact W).
          destruct (HX i A B C Y) as [Z|Z]; [left|right; right; auto]. split; [|exact Y]. split; [lia|]. split; [auto|]. split; auto.
          rewrite (shell_other _ _ _ H W). exact C. }
    assert (HPn : P n) by (repeat split; auto).
    destruct (Hstdin n) as (m & Hm & Hns).
    destruct (until P R) with (d := m - n) (n := n) as [H|H]; auto.
    { intros i Hi. destruct (ST i Hi) as [[Y _]|Y]; auto. }
    replace (n + (m - n)) with m in H by lia. eapply ev_back; [exact Hm|].
    apply (leads_t TShell P R); auto. intros i (A & B & C & D). apply HE; auto.
    intros W. apply Hns. destruct H as (_ & _ & C' & _). unfold at_stdin in *. rewrite C'. rewrite C in W. exact W.
  Qed.
  Lemma enabled_shell s a m' l : y_end s = None -> shell_step listener internal (y_sh s) (y_mem s) l a m' -> enabled TShell s.
  Proof.
    destruct s as [sh ct m st en]. cbn. intros -> H. exists l. eexists. split; [eapply who_shell; eauto|]. apply y_shell. exact H.
  Qed.
  Lemma enabled_run n p b : y_end (sigma n) = None -> y_sh (sigma n) = SRun (Going p) b -> ~ at_stdin SHELL (sigma n) -> enabled TShell (sigma n).
  Proof.
    intros He Hp Hs. pose proof (Hcalls n) as HC. unfold calls_itself in HC. unfold at_stdin in Hs. rewrite Hp in HC, Hs.
    destruct p as [x|e|w|o k].
    - eapply enabled_shell; [exact He|rewrite Hp; apply ss_ret].
    - destruct (sigma n) as [sh ct m st en]. cbn in *. subst. exists (YTau TShell). eexists. split; [reflexivity|]. apply y_crash_shell. exact I.
    - destruct (sigma n) as [sh ct m st en]. cbn in *. subst. exists (YTau TShell). eexists. split; [reflexivity|]. apply y_crash_shell. exact I.
    - destruct (mop_total o (y_mem (sigma n))) as (m' & x & Hm); [destruct o; auto; now destruct Hs|].
      eapply enabled_shell; [exact He|rewrite Hp; apply ss_run, gs_op, Hm].
  Qed.
  Lemma enabled_intern n p : y_end (sigma n) = None -> y_sh (sigma n) = SIntern (Going p) -> ~ at_stdin SHELL (sigma n) -> enabled TShell (sigma n).
  Proof.
    intros He Hp Hs. pose proof (Hcalls n) as HC. unfold calls_itself in HC. unfold at_stdin in Hs. rewrite Hp in HC, Hs.
    destruct p as [x|e|w|o k].
    - eapply enabled_shell; [exact He|rewrite Hp; apply ss_intern_ret].
    - destruct (sigma n) as [sh ct m st en]. cbn in *. subst. exists (YTau TShell). eexists. split; [reflexivity|]. apply y_crash_shell. exact I.
    - destruct (sigma n) as [sh ct m st en]. cbn in *. subst. exists (YTau TShell). eexists. split; [reflexivity|]. apply y_crash_shell. exact I.
    - destruct (mop_total o (y_mem (sigma n))) as (m' & x & Hm); [destruct o; auto; now destruct Hs|].
      eapply enabled_shell; [exact He|rewrite Hp; apply ss_intern_run, gs_op, Hm].
  Qed.
  Lemma enabled_ctl n : y_end (sigma n) = None -> y_sh (sigma n) = SCtl -> enabled TShell (sigma n).
  Proof.
    intros He Hp. destruct (ctl_asked n Hp) as (f & w & Hc). destruct (String.eqb_spec f "stop") as [Hf|Hf].
    - eapply enabled_shell; [exact He|rewrite Hp; eapply ss_stop; eauto].
    - eapply enabled_shell; [exact He|rewrite Hp; eapply ss_intern; eauto].
  Qed.
  Lemma enabled_recv n b : y_end (sigma n) = None -> y_sh (sigma n) = SRecv b -> m_shellq (y_mem (sigma n)) <> [] -> enabled TShell (sigma n).
  Proof.
    intros He Hp Hq. destruct (m_shellq (y_mem (sigma n))) as [|w q] eqn:Hq'; [contradiction|].
    eapply enabled_shell; [exact He|rewrite Hp; eapply ss_recv; eauto].
  Qed.
  Lemma enabled_poll n : y_end (sigma n) = None -> y_sh (sigma n) = SPoll -> m_shellq (y_mem (sigma n)) <> [] \/ asked (m_call (y_mem (sigma n))) = true -> enabled TShell (sigma n).
  Proof.
    intros He Hp Hq. destruct (m_shellq (y_mem (sigma n))) as [|w q] eqn:Hq'.
    - destruct Hq as [Hq|Hq]; [contradiction|]. eapply enabled_shell; [exact He|rewrite Hp; eapply ss_poll_ctl; eauto].
    - eapply enabled_shell; [exact He|rewrite Hp; eapply ss_poll_shell]. rewrite Hq'. discriminate.
  Qed.
  Lemma not_calling n : sh_calling (y_sh (sigma n)) = false.
  Proof.
    pose proof (Hcalls n) as HC. unfold calls_itself in HC. destruct (y_sh (sigma n)) as [| |g b| |g| |]; auto; destruct g; auto; now destruct HC.
  Qed.

  (** The shell thread's own progress, as long as [X] holds (or until [Q] does). *)
  Section Shell.
    Variable (X Q : nat -> Prop).
    Hypothesis HXo : forall i, X i -> (forall l, lab i = Some l -> who l <> TShell) -> X (S i) \/ Q (S i).
    Hypothesis HXs : forall i l, X i -> lab i = Some l -> who l = TShell -> step (sigma i) l (sigma (S i)) -> X (S i) \/ Q (S i).
    Definition goal (m : nat) : Prop := over m \/ Q m.
    Lemma sh_go n a : sh_out a = false -> X n -> y_sh (sigma n) = a ->
      (forall i, X i -> y_sh (sigma i) = a -> y_end (sigma i) = None -> ~ at_stdin SHELL (sigma i) -> enabled TShell (sigma i)) ->
      (forall i l, X (S i) -> y_sh (sigma i) = a -> lab i = Some l -> shell_step listener internal a (y_mem (sigma i)) l (y_sh (sigma (S i))) (y_mem (sigma (S i))) -> ev (S i) goal) -> ev n goal.
    Proof.
      intros HO HX Hp HE HN. eapply ev_then; [apply (shell_moves n a X Q); auto; intros; auto|].
      intros m _ [(i & l & -> & _ & Hi & Hpi & Hl & Hst & _)|[H|H]]; [|apply ev_now; left; exact H|apply ev_now; right; exact H].
      pose proof (Hex i) as Hs. rewrite Hl in Hs. destruct (HXs i l Hi Hl) as [Z|Z]; [eapply who_shell; eauto|exact Hs|eauto|apply ev_now; right; exact Z].
    Qed.
    Lemma gstep_next c {A} (g : going U A) (m : mem U) l g' m' : gstep c g m l g' m' ->
      match g with
      | Going (Do o k) => (exists x, g' = Going (k x)) \/ (exists k', g' = Calling k' /\ forall P : kprog U A -> Prop, (forall x, P (k x)) -> forall w, P (k' w))
      | Going _ => False
      | Calling k => exists w, g' = Going (k w)
      end.
    Proof. destruct 1; eauto. Qed.
    Lemma from_prog (b : bool) p : (forall n, X n -> y_sh (sigma n) = (if b then SCtl else SPoll) -> ev n goal) ->
      forall n, X n -> y_sh (sigma n) = SRun (Going p) b -> ev n goal.
    Proof.
      intros HN. induction p as [a|e|w|o q IH]; intros n HX Hp.
      all: apply (sh_go n (SRun (Going _) b) eq_refl HX Hp); [intros i _ Hi He Hs; eapply enabled_run; eauto|].
      all: intros i l HX' Hpi Hl Hst; inversion Hst; subst; auto;
        match goal with X : gstep _ _ _ _ _ _ |- _ => apply gstep_next in X; try contradiction; destruct X as [[x ->]|(k' & -> & _)] end.
      - eapply IH; eauto.
      - pose proof (not_calling (S i)) as NC. match goal with Y : SRun _ _ = _ |- _ => rewrite <- Y in NC; cbn in NC end. discriminate.
    Qed.
    Lemma from_intern p : (forall i n r, X n -> y_sh (sigma n) = SPoll -> n = S i -> lab i = Some (YInternEnd r) -> ev n goal) ->
      forall n, X n -> y_sh (sigma n) = SIntern (Going p) -> ev n goal.
    Proof.
      intros HN. induction p as [a|e|w|o q IH]; intros n HX Hp.
      all: apply (sh_go n (SIntern (Going _)) eq_refl HX Hp); [intros i _ Hi He Hs; eapply enabled_intern; eauto|].
      all: intros i l HX' Hpi Hl Hst; inversion Hst; subst; eauto; match goal with X : gstep _ _ _ _ _ _ |- _ => apply gstep_next in X; try contradiction; destruct X as [[x ->]|(k' & -> & _)] end.
      - eapply IH; eauto.
      - pose proof (not_calling (S i)) as NC. match goal with Y : SIntern _ = _ |- _ => rewrite <- Y in NC; cbn in NC end. discriminate.
    Qed.
    Lemma from_ctl : (forall n p, X n -> y_sh (sigma n) = SIntern (Going p) -> ev n goal) -> (forall n, X n -> y_sh (sigma n) = SOut -> ev n goal) ->
      forall n, X n -> y_sh (sigma n) = SCtl -> ev n goal.
    Proof.
      intros HN HO n HX Hp. apply (sh_go n SCtl eq_refl HX Hp); [intros; now apply enabled_ctl|].
      intros i l HX' Hpi Hl Hst. inversion Hst; subst; eauto.
    Qed.
  End Shell.

  (** *** Every shell message is taken *)
  Definition cnt (c : channel) (m : nat) : nat := List.length (taken c (obs m)).
  Lemma cnt_step c i : cnt c i <= cnt c (S i).
  Proof. unfold cnt. destruct (step_cases i) as [(_ & -> & _)|(l & _ & _ & ->)]; [lia|]. rewrite ServerLemmas.taken_app, app_length. lia. Qed.
  Section ShellTaken.
    Variable (n0 k : nat).
    Hypothesis Hk : k < List.length (came SHELL (obs n0)).
    Definition XS (m : nat) : Prop := n0 <= m /\ cnt SHELL m = k.
    Definition QS (m : nat) : Prop := k < cnt SHELL m \/ m_stop (y_mem (sigma m)) = true.
    Lemma XS_step i : XS i -> XS (S i) \/ QS (S i).
    Proof. intros [A B]. pose proof (cnt_step SHELL i). destruct (Nat.eq_dec (cnt SHELL (S i)) k); [left; split; auto|right; left; lia]. Qed.
    Lemma pending_shell m : XS m -> m_shellq (y_mem (sigma m)) <> [].
    Proof.
      intros [A B] Hq. destruct (obs_prefix _ _ A) as [r Hr]. destruct (queues m) as [_ Q]. unfold cnt in B. rewrite Hq, app_nil_r in Q.
      rewrite <- Q, Hr, ServerLemmas.came_app, app_length in B. lia.
    Qed.
    Notation goal := (goal QS).
    Lemma shell_taken_next n : XS n -> ev n goal.
    Proof.
      assert (S1 : forall i, XS i -> (forall l, lab i = Some l -> who l <> TShell) -> XS (S i) \/ QS (S i)) by (intros; now apply XS_step).
      assert (S2 : forall i l, XS i -> lab i = Some l -> who l = TShell -> step (sigma i) l (sigma (S i)) -> XS (S i) \/ QS (S i)) by (intros; now apply XS_step).
      assert (TR : forall b n, XS n -> y_sh (sigma n) = SRecv b -> ev n goal).
      { intros b i HX Hp. eapply ev_then; [apply (shell_moves i (SRecv b) XS QS); auto|].
        - intros j _ Hj Hpj He _. eapply enabled_recv; eauto using pending_shell.
        - intros m _ [(j & l & -> & _ & [A B] & Hpj & Hl & Hst & _)|[H|H]]; [|apply ev_now; left; exact H|apply ev_now; right; exact H].
          apply ev_now. right. left. inversion Hst; subst. destruct (step_cases j) as [(_ & _ & X)|(l' & El & _ & Eo)]; [congruence|].
          rewrite Hl in El. injection El as <-. unfold cnt in *. rewrite Eo, ServerLemmas.taken_app, app_length. cbn. lia. }
      assert (TP : forall n, XS n -> y_sh (sigma n) = SPoll -> ev n goal).
      { intros i HX Hp. apply (sh_go XS QS S1 S2 i SPoll eq_refl HX Hp).
        - intros j Hj Hpj He _. apply enabled_poll; auto using pending_shell.
        - intros j l HX' Hpj Hl Hst. pose proof (pending_shell _ HX'). inversion Hst; subst; eauto. congruence. }
      assert (TI : forall n p, XS n -> y_sh (sigma n) = SIntern (Going p) -> ev n goal).
      { intros i p. apply (from_intern XS QS S1 S2). intros; auto. }
      assert (TO : forall n, XS n -> sh_out (y_sh (sigma n)) = true -> ev n goal).
      { intros i HX Hp. apply ev_now. right. right. now apply out_stop. }
      assert (TC : forall n, XS n -> y_sh (sigma n) = SCtl -> ev n goal).
      { apply (from_ctl XS QS S1 S2); auto. intros i HX Hp. apply TO; auto. now rewrite Hp. }
      intros HX. pose proof (not_calling n) as NC. destruct (y_sh (sigma n)) as [|b|g b| |g| |] eqn:Hp; eauto.
      - destruct g as [p|]; [|discriminate]. eapply (from_prog XS QS S1 S2 b p); eauto. destruct b; auto.
      - destruct g as [p|]; [|discriminate]. eauto.
      - apply TO; auto. now rewrite Hp.
      - apply TO; auto. now rewrite Hp.
    Qed.
  End ShellTaken.
  Lemma shell_all_taken n : ev n (fun m => List.length (came SHELL (obs n)) <= cnt SHELL m \/ over m \/ m_stop (y_mem (sigma m)) = true).
  Proof.
    set (N := List.length (came SHELL (obs n))). apply (ranked (fun m => N - cnt SHELL m) (fun m => n <= m)); [|lia].
    intros i Hi. destruct (le_lt_dec N (cnt SHELL i)) as [Hd|Hd]; [apply ev_now; auto|].
    eapply ev_impl; [apply (shell_taken_next n (cnt SHELL i)); [exact Hd|split; [exact Hi|reflexivity]]|].
    intros m Hm [H|[H|H]]; auto. right. split; lia.
  Qed.

  (** *** The control thread *)
  Hypothesis Hcontrol : fair TControl.
  Hypothesis Hoff : keeps_off lab.
  Hypothesis Hstdin2 : gets_input CONTROL sigma.
  Lemma recv_at n : recv_inv (sigma n).
  Proof.
    induction n as [|n IH]; [rewrite H0; discriminate|]. destruct (step_cases n) as [(-> & _)|(l & El & H & _)]; auto.
    eapply step_recv; eauto. destruct l as [| | | | |[] w| | | | |]; cbn; auto. eapply Hoff; eauto.
  Qed.
  (** A request to the shell thread is answered. *)
  Section Asked.
    Variable k : frames -> kprog U unit.
    Definition XA (m : nat) : Prop := y_ct (sigma m) = CRun (Calling k) /\ asked (m_call (y_mem (sigma m))) = true.
    Definition QA (m : nat) : Prop := y_ct (sigma m) = CRun (Calling k) /\ exists w, m_call (y_mem (sigma m)) = SAnswered w.
    Lemma asked_step s l s' : step s l s' -> y_ct s = CRun (Calling k) -> asked (m_call (y_mem s)) = true ->
      y_ct s' = CRun (Calling k) /\ (asked (m_call (y_mem s')) = true \/ exists w, m_call (y_mem s') = SAnswered w).
    Proof.
      intros H Hc Ha. destruct H; cbn [y_ct y_mem] in *; try discriminate; auto.
      - split; auto. destruct H; cbn; eauto; left; eapply gstep_asked; eauto.
      - subst c. inversion H; subst. match goal with X : gstep _ _ _ _ _ _ |- _ => inversion X; subst end.
        match goal with X : m_call _ = SAnswered _ |- _ => rewrite X in Ha end. discriminate.
      - destruct ch; auto.
    Qed.
    Lemma XA_step i : XA i -> XA (S i) \/ QA (S i).
    Proof.
      intros [A B]. destruct (step_cases i) as [(Es & _)|(l & _ & H & _)]; [left; unfold XA; now rewrite Es|].
      destruct (asked_step _ _ _ H A B) as [C [D|D]]; [left|right]; split; auto.
    Qed.
    Notation goal := (goal QA).
    Lemma answered n : XA n -> ev n goal.
    Proof.
      assert (S1 : forall i, XA i -> (forall l, lab i = Some l -> who l <> TShell) -> XA (S i) \/ QA (S i)) by (intros; now apply XA_step).
      assert (S2 : forall i l, XA i -> lab i = Some l -> who l = TShell -> step (sigma i) l (sigma (S i)) -> XA (S i) \/ QA (S i)) by (intros; now apply XA_step).
      assert (TO : forall n, XA n -> sh_out (y_sh (sigma n)) = true -> ev n goal).
      { intros i [A B] Hp. exfalso. destruct (phase_at i) as [L HP]. destruct (m_call (y_mem (sigma i))); try discriminate.
        inversion HP; subst; try congruence. destruct (y_sh (sigma i)); discriminate. }
      assert (TI : forall n p, XA n -> y_sh (sigma n) = SIntern (Going p) -> ev n goal).
      { intros i p. apply (from_intern XA QA S1 S2). intros j n' r [A B] Hp -> Hl. exfalso.
        pose proof (Hex j) as Hs. rewrite Hl in Hs. inversion Hs; subst; try (destruct ch; discriminate).
        - match goal with X : shell_step _ _ _ _ _ _ _ |- _ => inversion X; subst end;
            try (match goal with X : gstep _ _ _ _ _ _ |- _ => inversion X; subst end;
                 match goal with X : label_of _ ?o ?x = _ |- _ => destruct o; cbn in X; try discriminate; destruct x; discriminate end).
          match goal with X : _ = sigma (S j) |- _ => rewrite <- X in B end. discriminate.
        - match goal with X : control_step _ _ _ _ _ _ |- _ => apply who_control in X end. discriminate. }
      assert (TC : forall n, XA n -> y_sh (sigma n) = SCtl -> ev n goal).
      { apply (from_ctl XA QA S1 S2); auto. intros i HX Hp. apply TO; auto. now rewrite Hp. }
      assert (TR : forall b n, (b = false -> forall n, XA n -> y_sh (sigma n) = SPoll -> ev n goal) -> XA n -> y_sh (sigma n) = SRecv b -> ev n goal).
      { intros b i HN HX Hp. apply (sh_go XA QA S1 S2 i (SRecv b) eq_refl HX Hp).
        - intros j Hj Hpj He _. eapply enabled_recv; eauto. eapply recv_at; eauto.
        - intros j l HX' Hpj Hl Hst. inversion Hst; subst. eapply (from_prog XA QA S1 S2 b); eauto. destruct b; auto. }
      assert (TP : forall n, XA n -> y_sh (sigma n) = SPoll -> ev n goal).
      { intros i HX Hp. apply (sh_go XA QA S1 S2 i SPoll eq_refl HX Hp).
        - intros j [_ Hj] Hpj He _. apply enabled_poll; auto.
        - intros j l HX' Hpj Hl Hst. inversion Hst; subst; eauto. eapply (TR (asked (m_call (y_mem (sigma j))))); eauto.
          intros X. exfalso. destruct HX' as [_ HX']. congruence. }
      intros HX. pose proof (not_calling n) as NC. destruct (y_sh (sigma n)) as [|b|g b| |g| |] eqn:Hp; eauto.
      - destruct g as [p|]; [|discriminate]. eapply (from_prog XA QA S1 S2 b p); eauto. destruct b; auto.
      - destruct g as [p|]; [|discriminate]. eauto.
      - apply TO; auto. now rewrite Hp.
      - apply TO; auto. now rewrite Hp.
    Qed.
  End Asked.

  Definition ct_moved (n : nat) (b : ctpc U) (X : nat -> Prop) (m : nat) : Prop :=
    exists i l, m = S i /\ n <= i /\ X i /\ y_ct (sigma i) = b /\ lab i = Some l /\
      control_step listener b (y_mem (sigma i)) l (y_ct (sigma m)) (y_mem (sigma m)).
  Lemma control_own s l s' : step s l s' -> who l = TControl -> left_loop (y_ct s) \/
    control_step listener (y_ct s) (y_mem s) l (y_ct s') (y_mem s') \/ y_end s' <> None.
  Proof.
    intros H W. destruct H; cbn in *; try discriminate; auto.
    - apply who_shell in H. congruence.
    - right. right. discriminate.
  Qed.
  Lemma control_other s l s' : step s l s' -> who l <> TControl -> y_ct s' = y_ct s.
  Proof.
    intros H W. destruct H; cbn in *; try congruence; auto.
    - apply who_control in H. congruence.
  Qed.
  Lemma control_moves n b (X Q : nat -> Prop) : ~ left_loop b ->
    (forall i, n <= i -> X i -> y_ct (sigma i) = b -> y_end (sigma i) = None -> ~ at_stdin CONTROL (sigma i) -> enabled TControl (sigma i)) ->
    (forall i, n <= i -> X i -> y_ct (sigma i) = b -> (forall l, lab i = Some l -> who l <> TControl) -> X (S i) \/ Q (S i)) ->
    X n -> y_ct (sigma n) = b -> ev n (fun m => ct_moved n b X m \/ over m \/ Q m).
  Proof.
    intros HO HE HX HXn Hpc. destruct (end_dec n) as [Hnone|Hov]; [|apply ev_now; auto].
    set (P := fun i => n <= i /\ X i /\ y_ct (sigma i) = b /\ y_end (sigma i) = None).
    set (R := fun m => ct_moved n b X m \/ over m \/ Q m).
    assert (ST : forall i, P i -> (P (S i) /\ forall l, lab i = Some l -> who l <> TControl) \/ R (S i)).
    { intros i (A & B & C & D). destruct (end_dec (S i)) as [D'|D']; [|right; right; auto].
      destruct (step_cases i) as [(Es & _ & El)|(l & El & H & _)].
      - assert (Y : forall l, lab i = Some l -> who l <> TControl) by (rewrite El; discriminate).
        destruct (HX i A B C Y) as [Z|Z]; [left|right; right; auto]. split; [|exact Y]. split; [lia|]. split; [auto|]. now rewrite Es.
      - destruct (tid_eq (who l) TControl) as [W|W].
        + right. left. destruct (control_own _ _ _ H W) as [H1|[H1|H1]]; [rewrite C in H1; contradiction| |contradiction].
          exists i, l. rewrite C in H1. auto 10.
        + assert (Y : forall l, lab i = Some l -> who l <> TControl) by (rewrite El; intros l' [= <-]; exact W).
          destruct (HX i A B C Y) as [Z|Z]; [left|right; right; auto]. split; [|exact Y]. split; [lia|]. split; [auto|]. split; auto.
          rewrite (control_other _ _ _ H W). exact C. }
    assert (HPn : P n) by (repeat split; auto).
    destruct (Hstdin2 n) as (m & Hm & Hns).
    destruct (until P R) with (d := m - n) (n := n) as [H|H]; auto.
    { intros i Hi. destruct (ST i Hi) as [[Y _]|Y]; auto. }
    replace (n + (m - n)) with m in H by lia. eapply ev_back; [exact Hm|].
    apply (leads_t TControl P R); auto. intros i (A & B & C & D). apply HE; auto.
    intros W. apply Hns. destruct H as (_ & _ & C' & _). unfold at_stdin in *. rewrite C'. rewrite C in W. exact W.
  Qed.
  Lemma enabled_control s b m' l : y_end s = None -> control_step listener (y_ct s) (y_mem s) l b m' -> enabled TControl s.
  Proof.
    destruct s as [sh ct m st en]. cbn. intros -> H. exists l. eexists. split; [eapply who_control; eauto|]. apply y_control. exact H.
  Qed.
  Lemma idle_slot n p : y_ct (sigma n) = CRun (Going p) -> m_call (y_mem (sigma n)) = SIdle.
  Proof.
    intros Hp. destruct (phase_at n) as [L HP]. pose proof (not_calling n) as NC. rewrite Hp in HP.
    inversion HP; subst; auto; try discriminate;
      match goal with X : calling_is ?c _ _ |- _ => destruct X as [X1 X2] end; cbn in *; try discriminate.
    destruct c; cbn in *; congruence.
  Qed.
  Lemma enabled_crun n p : y_end (sigma n) = None -> y_ct (sigma n) = CRun (Going p) -> ~ at_stdin CONTROL (sigma n) -> enabled TControl (sigma n).
  Proof.
    intros He Hp Hs. unfold at_stdin in Hs. rewrite Hp in Hs.
    destruct p as [x|e|w|o k].
    - eapply enabled_control; [exact He|rewrite Hp; apply cs_ret].
    - destruct (sigma n) as [sh ct m st en]. cbn in *. subst. exists (YTau TControl). eexists. split; [reflexivity|]. apply y_crash_control. exact I.
    - destruct (sigma n) as [sh ct m st en]. cbn in *. subst. exists (YTau TControl). eexists. split; [reflexivity|]. apply y_crash_control. exact I.
    - assert (D : (exists w, o = KCall w) \/ match o with KCall _ | KStdin => False | _ => True end) by (destruct o; eauto; now destruct Hs).
      destruct D as [[w ->]|D].
      + eapply enabled_control; [exact He|rewrite Hp; apply cs_run, gs_call]. eapply idle_slot; eauto.
      + destruct (mop_total o (y_mem (sigma n))) as (m' & x & Hm); [destruct o; auto; contradiction|].
        eapply enabled_control; [exact He|rewrite Hp; apply cs_run, gs_op, Hm].
  Qed.
  (** The control thread's own progress. *)
  Section Control.
    Variable (X Q : nat -> Prop).
    Hypothesis HX : forall i, X i -> X (S i) \/ Q (S i).
    Notation goal := (goal Q).
    Lemma X_until n m : n <= m -> X n -> ev n Q \/ X m.
    Proof. intros Hm Hn. destruct (until X Q HX (m - n) n Hn) as [A|A]; auto. right. now replace (n + (m - n)) with m in A by lia. Qed.
    Lemma ct_go n b : ~ left_loop b -> X n -> y_ct (sigma n) = b ->
      (forall i, X i -> y_ct (sigma i) = b -> y_end (sigma i) = None -> ~ at_stdin CONTROL (sigma i) -> enabled TControl (sigma i)) ->
      (forall i l, X (S i) -> y_ct (sigma i) = b -> lab i = Some l -> control_step listener b (y_mem (sigma i)) l (y_ct (sigma (S i))) (y_mem (sigma (S i))) -> ev (S i) goal) -> ev n goal.
    Proof.
      intros HO HXn Hp HE HN. eapply ev_then; [apply (control_moves n b X Q); auto; intros; auto|].
      intros m _ [(i & l & -> & _ & Hi & Hpi & Hl & Hst)|[H|H]]; [|apply ev_now; left; exact H|apply ev_now; right; exact H].
      destruct (HX i Hi) as [Z|Z]; [eauto|apply ev_now; right; exact Z].
    Qed.
    Lemma from_call k : (forall w n, X n -> y_ct (sigma n) = CRun (Going (k w)) -> ev n goal) ->
      forall n, X n -> y_ct (sigma n) = CRun (Calling k) -> ev n goal.
    Proof.
      intros HN n Hn Hp.
      assert (GQ : forall n, X n -> QA k n -> ev n goal).
      { clear n Hn Hp. intros n Hn HQ. eapply ev_then; [apply (control_moves n (CRun (Calling k)) (fun i => X i /\ QA k i) Q)|].
        - intros [].
        - intros i _ [_ [Hi [w Hw]]] _ He _. eapply enabled_control; [exact He|rewrite Hi; apply cs_run, gs_answer; exact Hw].
        - intros i _ [Hi [Hc [w Hw]]] _ Hoth. destruct (HX i Hi) as [Z|Z]; [left|auto]. split; auto.
          destruct (step_cases i) as [(Es & _)|(l & El & Hst & _)]; [unfold QA; rewrite Es; eauto|]. specialize (Hoth l El).
          split; [rewrite (control_other _ _ _ Hst Hoth); exact Hc|]. exists w.
          pose proof (phase_at i) as [L HP]. rewrite Hw, Hc in HP.
          assert (HI : sh_intern (y_sh (sigma i)) = false) by (inversion HP; auto).
          pose proof (not_calling i) as NC. pose proof (Hcalls i) as NI. unfold calls_itself in NI.
          destruct Hst; cbn [y_mem y_sh y_ct] in *; auto; try (destruct ch; exact Hw).
          + destruct H; cbn; auto; try congruence; try discriminate.
            destruct H; cbn in *; try discriminate; [now rewrite (mop_call _ _ _ _ H)|congruence].
          + apply who_control in H. congruence.
        - split; auto.
        - apply HQ.
        - intros m _ [(i & l & -> & _ & [Hi HQi] & Hpi & Hl & Hst)|[H|H]]; [|apply ev_now; left; exact H|apply ev_now; right; exact H].
          destruct (HX i Hi) as [Z|Z]; [|apply ev_now; right; exact Z]. inversion Hst; subst.
          match goal with Y : gstep _ _ _ _ _ _ |- _ => inversion Y; subst end. eauto. }
      destruct (phase_at n) as [L HP]. rewrite Hp in HP.
      assert (D : asked (m_call (y_mem (sigma n))) = true \/ exists w, m_call (y_mem (sigma n)) = SAnswered w).
      { destruct (m_call (y_mem (sigma n))); cbn; eauto. inversion HP; subst. match goal with Y : none_calling _ _ |- _ => destruct Y end. discriminate. }
      destruct D as [D|D]; [|apply GQ; auto; split; auto].
      destruct (answered k n) as (m & Hm & G); [split; auto|]. destruct G as [G|G]; [exists m; split; auto; left; exact G|].
      destruct (X_until n m Hm Hn) as [Z|Z]; [eapply ev_impl; [exact Z|]; intros; right; auto|].
      eapply ev_back; [exact Hm|]. apply GQ; auto.
    Qed.
    Lemma from_crun p : (forall n, X n -> y_ct (sigma n) = CTest -> ev n goal) -> forall n, X n -> y_ct (sigma n) = CRun (Going p) -> ev n goal.
    Proof.
      intros HN. induction p as [a|e|w|o q IH]; intros n Hn Hp.
      all: apply (ct_go n (CRun (Going _)) (fun x => x) Hn Hp); [intros i _ Hi He Hs; eapply enabled_crun; eauto|].
      all: intros i l HX' Hpi Hl Hst; inversion Hst; subst; auto.
      all: match goal with Y : gstep _ _ _ _ ?g _ |- _ => rename Y into GS; rename g into g1 end.
      all: match goal with Y : CRun _ = y_ct (sigma (S _)) |- _ => symmetry in Y; rename Y into Hc end.
      all: apply gstep_next in GS; try contradiction. destruct GS as [[x ->]|(k' & -> & HK)]; [eapply IH; eauto|].
      eapply from_call; eauto. apply (HK (fun p => forall n, X n -> y_ct (sigma n) = CRun (Going p) -> ev n goal)). exact IH.
    Qed.
  End Control.

  (** *** Every control message is taken *)
  Section ControlTaken.
    Variable (n0 k : nat).
    Hypothesis Hk : k < List.length (came CONTROL (obs n0)).
    Definition XC (m : nat) : Prop := n0 <= m /\ cnt CONTROL m = k.
    Definition QC (m : nat) : Prop := k < cnt CONTROL m \/ m_stop (y_mem (sigma m)) = true.
    Lemma XC_step i : XC i -> XC (S i) \/ QC (S i).
    Proof. intros [A B]. pose proof (cnt_step CONTROL i). destruct (Nat.eq_dec (cnt CONTROL (S i)) k); [left; split; auto|right; left; lia]. Qed.
    Lemma pending_control m : XC m -> m_ctlq (y_mem (sigma m)) <> [].
    Proof.
      intros [A B] Hq. destruct (obs_prefix _ _ A) as [r Hr]. destruct (queues m) as [Q _]. unfold cnt in B. rewrite Hq, app_nil_r in Q.
      rewrite <- Q, Hr, ServerLemmas.came_app, app_length in B. lia.
    Qed.
    Notation goal := (goal QC).
    Lemma control_taken_next n : XC n -> ev n goal.
    Proof.
      assert (TR : forall n, XC n -> y_ct (sigma n) = CRecv -> ev n goal).
      { intros i HX Hp. eapply ev_then; [apply (control_moves i CRecv XC QC); auto using XC_step|].
        - intros j _ Hj Hpj He _. pose proof (pending_control j Hj) as Hq. destruct (m_ctlq (y_mem (sigma j))) as [|w q] eqn:Hq'; [contradiction|].
          eapply enabled_control; [exact He|rewrite Hpj; eapply cs_recv; eauto].
        - intros m _ [(j & l & -> & _ & [A B] & Hpj & Hl & Hst)|[H|H]]; [|apply ev_now; left; exact H|apply ev_now; right; exact H].
          apply ev_now. right. left. inversion Hst; subst. destruct (step_cases j) as [(_ & _ & Y)|(l' & El & _ & Eo)]; [congruence|].
          rewrite Hl in El. injection El as <-. unfold cnt in *. rewrite Eo, ServerLemmas.taken_app, app_length. cbn. lia. }
      assert (TL : forall n, XC n -> left_loop (y_ct (sigma n)) -> ev n goal).
      { intros i HX HL. apply ev_now. right. right. now apply stop_at. }
      assert (TT : forall n, XC n -> y_ct (sigma n) = CTest -> ev n goal).
      { intros i HX Hp. apply (ct_go XC QC XC_step i CTest (fun x => x) HX Hp).
        - intros j Hj Hpj He _. destruct (m_stop (y_mem (sigma j))) eqn:Hs; (eapply enabled_control; [exact He|rewrite Hpj; constructor; exact Hs]).
        - intros j l HX' Hpj Hl Hst. inversion Hst; subst; [eauto|]. apply TL; auto.
          match goal with Y : _ = y_ct (sigma (S j)) |- _ => rewrite <- Y end. exact I. }
      intros HX. destruct (y_ct (sigma n)) as [| |g| | | | | | | | |] eqn:Hp; eauto; try (apply TL; auto; rewrite Hp; exact I).
      destruct g as [p|kk].
      - eapply (from_crun XC QC XC_step p); eauto.
      - eapply (from_call XC QC XC_step kk); eauto. intros w. apply (from_crun XC QC XC_step); auto.
    Qed.
  End ControlTaken.
  Lemma control_all_taken n : ev n (fun m => List.length (came CONTROL (obs n)) <= cnt CONTROL m \/ over m \/ m_stop (y_mem (sigma m)) = true).
  Proof.
    set (N := List.length (came CONTROL (obs n))). apply (ranked (fun m => N - cnt CONTROL m) (fun m => n <= m)); [|lia].
    intros i Hi. destruct (le_lt_dec N (cnt CONTROL i)) as [Hd|Hd]; [apply ev_now; auto|].
    eapply ev_impl; [apply (control_taken_next n (cnt CONTROL i)); [exact Hd|split; [exact Hi|reflexivity]]|].
    intros m Hm [H|[H|H]]; auto. right. split; lia.
  Qed.

  (** *** Every request to the shell thread is answered *)
  Lemma settled n : ct_calling (y_ct (sigma n)) = false -> rounds (sync (obs n)).
  Proof.
    intros HC. pose proof (yrun_phase v E k0 start (obs n) (sigma n) (obs_run n)) as HP. unfold yphase in HP. pose proof (not_calling n) as NC.
    inversion HP; subst; auto; exfalso; match goal with X : calling_is _ _ _ |- _ => destruct X as [X1 X2]; try (destruct c); cbn in *; congruence end.
  Qed.
  Lemma rounds_complete n : ev n (fun m => over m \/ rounds (sync (obs m))).
  Proof.
    destruct (ct_calling (y_ct (sigma n))) eqn:HC; [|apply ev_now; right; now apply settled].
    destruct (y_ct (sigma n)) as [| |g| | | | | | | | |] eqn:Hp; try discriminate. destruct g as [p|kk]; [discriminate|].
    apply (from_call (fun _ => True) (fun m => rounds (sync (obs m)))) with (k := kk); auto.
    intros w m _ Hm. apply ev_now. right. apply settled. now rewrite Hm.
  Qed.

  (** *** A stop request ends the server *)
  Definition XT (i : nat) : Prop := m_stop (y_mem (sigma i)) = true /\ (y_ct (sigma i) = CRecv -> m_ctlq (y_mem (sigma i)) <> []).
  Lemma gstep_taken c {A} (g : going U A) (m : mem U) l g' m' : gstep c g m l g' m' -> taken CONTROL [l] = [].
  Proof. destruct 1; [destruct o; try reflexivity; destruct x; reflexivity| |]; reflexivity. Qed.
  Lemma step_ctlq s l s' : step s l s' -> m_stop (y_mem s) = true -> (y_ct s = CRecv -> m_ctlq (y_mem s) <> []) -> y_ct s' = CRecv -> m_ctlq (y_mem s') <> [].
  Proof.
    intros H Hs Hq. pose proof (step_accounts v listener internal s l s' H) as (A & _).
    intros Hc. assert (Hold : y_ct s = CRecv).
    { destruct H; cbn [y_ct y_mem] in *; auto; try discriminate. destruct H; auto; try discriminate. congruence. }
    assert (NH : taken CONTROL [l] = []).
    { destruct H; cbn [y_ct] in *; try reflexivity.
      - destruct H; try reflexivity; eapply gstep_taken; eauto.
      - subst. inversion H. }
    rewrite NH in A. cbn [app] in A. rewrite <- A. specialize (Hq Hold). destruct (m_ctlq (y_mem s)); [contradiction|discriminate].
  Qed.
  Lemma XT_step i : XT i -> XT (S i).
  Proof.
    intros [A B]. destruct (step_cases i) as [(Es & _)|(l & _ & H & _)]; [unfold XT; rewrite Es; auto|]. split.
    - apply (proj1 (step_stop _ _ _ H)). auto.
    - eapply step_ctlq; eauto.
  Qed.
  Lemma quits n : XT n -> ev n (fun m => over m \/ left_loop (y_ct (sigma m))).
  Proof.
    set (Q := fun m => left_loop (y_ct (sigma m))).
    assert (HS : forall i, XT i -> XT (S i) \/ Q (S i)) by (intros; left; now apply XT_step).
    assert (TT : forall n, XT n -> y_ct (sigma n) = CTest -> ev n (goal Q)).
    { intros i HX Hp. apply (ct_go XT Q HS i CTest (fun x => x) HX Hp).
      - intros j [Hj _] Hpj He _. eapply enabled_control; [exact He|rewrite Hpj; apply cs_leave; exact Hj].
      - intros j l HX' Hpj Hl Hst. inversion Hst; subst; [destruct HX'; congruence|]. apply ev_now. right. unfold Q.
        match goal with Y : _ = y_ct (sigma (S j)) |- _ => rewrite <- Y end. exact I. }
    assert (TR : forall n, XT n -> y_ct (sigma n) = CRecv -> ev n (goal Q)).
    { intros i HX Hp. apply (ct_go XT Q HS i CRecv (fun x => x) HX Hp).
      - intros j [_ Hj] Hpj He _. specialize (Hj Hpj). destruct (m_ctlq (y_mem (sigma j))) as [|w q] eqn:Hq; [contradiction|].
        eapply enabled_control; [exact He|rewrite Hpj; eapply cs_recv; eauto].
      - intros j l HX' Hpj Hl Hst. inversion Hst; subst. eapply (from_crun XT Q HS); eauto. }
    intros HX. destruct (y_ct (sigma n)) as [| |g| | | | | | | | |] eqn:Hp; try (eapply ev_now; right; rewrite Hp; exact I); eauto.
    destruct g as [p|kk].
    - eapply (from_crun XT Q HS p); eauto.
    - eapply (from_call XT Q HS kk); eauto. intros w. apply (from_crun XT Q HS); auto.
  Qed.
  Lemma control_stop n : In (YEvent CONTROL EStop) (obs n) -> y_ct (sigma n) <> CRecv.
  Proof.
    induction n as [|n IH]; [intros []|]. destruct (step_cases n) as [(-> & -> & _)|(l & _ & H & ->)]; [exact IH|].
    intros Hi Hc. apply in_app_or in Hi as [Hi|[->|[]]].
    - specialize (IH Hi). assert (Hs : m_stop (y_mem (sigma n)) = true) by (apply (proj1 (stop_at n)); exists CONTROL; exact Hi).
      destruct H; cbn [y_ct y_mem] in *; auto; try discriminate. destruct H; auto; try discriminate. congruence.
    - inversion H; subst; try (destruct ch; discriminate);
        try (match goal with X : shell_step _ _ _ _ _ _ _ |- _ => apply who_shell in X; discriminate end).
      match goal with X : _ = sigma (S n) |- _ => rewrite <- X in Hc; cbn in Hc; subst end.
      match goal with X : control_step _ _ _ _ _ _ |- _ => inversion X end.
  Qed.
  Lemma asked_XT n : asked_stop (obs n) -> (In (YEvent CONTROL EStop) (obs n) \/ exists w m, n <= m /\ lab m = Some (YArrive CONTROL w)) -> exists m, n <= m /\ XT m.
  Proof.
    intros HA [HC|(w & m & Hm & Hl)].
    - exists n. split; auto. split; [now apply (proj1 (stop_at n))|]. intros X. now destruct (control_stop n HC).
    - exists (S m). split; [lia|]. split.
      + apply (proj1 (stop_at (S m))). destruct HA as [c HA]. exists c. destruct (obs_prefix n (S m)) as [r ->]; [lia|]. apply in_or_app. auto.
      + intros _. pose proof (Hex m) as H. rewrite Hl in H. inversion H; subst; cbn.
        * match goal with X : shell_step _ _ _ _ _ _ _ |- _ => apply who_shell in X; discriminate end.
        * match goal with X : control_step _ _ _ _ _ _ |- _ => apply who_control in X; discriminate end.
        * destruct (m_ctlq m0); discriminate.
  Qed.
  Lemma was_leaving n : left_loop (y_ct (sigma n)) -> exists j, j <= n /\ y_ct (sigma j) = CStopShell /\ y_end (sigma j) = None.
  Proof.
    induction n as [|n IH]; [rewrite H0; intros []|]. intros HL. destruct (left_dec (y_ct (sigma n))) as [Hd|Hd].
    { destruct (IH Hd) as (j & A & B). exists j. split; auto. }
    destruct (step_cases n) as [(Es & _)|(l & _ & H & _)]; [rewrite Es in HL; contradiction|].
    exists (S n). split; auto. destruct H; cbn [y_ct y_end] in *; try contradiction; try (now destruct Hd).
    destruct H; cbn in *; try contradiction; auto; now destruct Hd.
  Qed.
  Lemma final n m : y_end (sigma n) <> None -> n <= m -> sigma m = sigma n.
  Proof.
    intros He. induction 1 as [|m Hm IH]; auto. destruct (step_cases m) as [(-> & _)|(l & _ & H & _)]; auto.
    rewrite IH in H. exfalso. destruct H; cbn in He; now destruct He.
  Qed.
  Hypothesis Hpub : fair TPub.
  Hypothesis Hbeat : fair TBeat.
  Lemma stop_ends n : asked_stop (obs n) -> (In (YEvent CONTROL EStop) (obs n) \/ exists w m, n <= m /\ lab m = Some (YArrive CONTROL w)) ->
    exists m, n <= m /\ (y_end (sigma m) = Some Crashed \/ all_stopped (sigma m)).
  Proof.
    intros HA HB. destruct (asked_XT n HA HB) as (i & Hi & HX). destruct (quits i HX) as (m & Hm & HQ).
    assert (D : y_end (sigma m) = Some Crashed \/ left_loop (y_ct (sigma m))).
    { destruct HQ as [HQ|HQ]; auto. destruct (y_end (sigma m)) as [[|]|] eqn:He; auto; [|now destruct HQ]. right.
      destruct (run_sinv v E _ _ _ _ (obs_run m)) as (_ & _ & _ & _ & X). specialize (X He). destruct (y_ct (sigma m)); try discriminate; exact I. }
    destruct D as [D|D]; [exists m; split; auto; lia|].
    destruct (was_leaving m D) as (j & Hj & C1 & C2).
    set (sg := fun i => sigma (j + i)). set (lb := fun i => lab (j + i)).
    assert (SH : forall t, fair t -> SplitSpec.fair v listener internal sg lb t).
    { intros t Ht i0. destruct (Ht (j + i0)) as (m0 & A & B). exists (m0 - j). split; [lia|]. unfold sg, lb. now replace (j + (m0 - j)) with m0 by lia. }
    destruct (ServerLemmas.stop_ends U v E k0 start (obs j) sg lb) as (i1 & HF).
    - intros i0. unfold sg, lb. rewrite <- plus_n_Sm. apply Hex.
    - unfold sg. rewrite Nat.add_0_r. apply obs_run.
    - unfold sg. now rewrite Nat.add_0_r.
    - unfold sg. now rewrite Nat.add_0_r.
    - intros [] Ht; try (now destruct Ht); apply SH; assumption.
    - intros w. clear - Hoff. induction j as [|j IH]; [intros []|]. cbn [seen]. intros Hw. apply in_app_or in Hw as [Hw|Hw]; auto.
      destruct (lab j) as [l|] eqn:Hl; [|destruct Hw]. destruct Hw as [->|[]]. eapply Hoff; eauto.
    - intros i0 w. apply Hoff.
    - intros i0. apply Hcalls.
    - intros i0. destruct (Hstdin (j + i0)) as (m0 & A & B). exists (m0 - j). split; [lia|]. unfold sg. replace (j + (m0 - j)) with m0 by lia.
      intros W. apply B. unfold waits_stdin, at_stdin in *. destruct (y_sh (sigma m0)) as [| |[[| | |[]]|]| | | |]; auto; contradiction.
    - exists (Nat.max n (j + i1)). split; [lia|]. unfold sg in HF. rewrite (final (j + i1)); [exact HF| |lia]. destruct HF as [HF|[HF _]]; rewrite HF; discriminate.
  Qed.
End SplitLive.
