(** Leads-to under weak fairness, and the liveness of the default server. *)
From Verif Require Import Base BaseFacts Json JsonText Auth Message History Comm Tree Kernel KernelSpec Server ServerSpec ServerProofs Split SplitSpec SplitStop ServerLemmas SequentialSpec Sequential LiveSpec.

(** ** Executions *)
Section Generic.
  Context {St Ac La : Type} (step : Ac -> St -> La -> St -> Prop).
  Variable (sigma : nat -> St) (lab : nat -> option (Ac * La)).
  Hypothesis Hex : executes step sigma lab.
  Definition ev (n : nat) (Q : nat -> Prop) : Prop := exists m, n <= m /\ Q m.
  Lemma ev_now n (Q : nat -> Prop) : Q n -> ev n Q.
  Proof. exists n. auto. Qed.
  Lemma ev_then n (P Q : nat -> Prop) : ev n P -> (forall m, n <= m -> P m -> ev m Q) -> ev n Q.
  Proof. intros (m & A & B) H. destruct (H m A B) as (m' & C & D). exists m'. split; auto. lia. Qed.
  Lemma ev_impl n (P Q : nat -> Prop) : ev n P -> (forall m, n <= m -> P m -> Q m) -> ev n Q.
  Proof. intros H HI. eapply ev_then; eauto. intros m Hm HP. apply ev_now. auto. Qed.
  Lemma ev_back n m (Q : nat -> Prop) : n <= m -> ev m Q -> ev n Q.
  Proof. intros H (i & A & B). exists i. split; auto. lia. Qed.
  (** [P] holds until [Q] does. *)
  Lemma until (P Q : nat -> Prop) : (forall n, P n -> P (S n) \/ Q (S n)) -> forall d n, P n -> ev n Q \/ P (n + d).
  Proof.
    intros H. induction d as [|d IH]; intros n HP; [rewrite Nat.add_0_r; auto|].
    destruct (H n HP) as [H1|H1]; [|left; exists (S n); auto].
    destruct (IH (S n) H1) as [H2|H2]; [left; eapply ev_back; [|exact H2]; auto|right]. now rewrite <- plus_n_Sm.
  Qed.
  Lemma leads a (P Q : nat -> Prop) : just step sigma lab a -> (forall n, P n -> able step a (sigma n)) ->
    (forall n, P n -> (P (S n) /\ forall l, lab n <> Some (a, l)) \/ Q (S n)) -> forall n, P n -> ev n Q.
  Proof.
    intros HF HE HS n HP. destruct (HF n) as (m & Hm & Hc).
    destruct (until P Q) with (d := m - n) (n := n) as [H|H]; auto.
    { intros i Hi. destruct (HS i Hi) as [[X _]|X]; auto. }
    replace (n + (m - n)) with m in H by lia.
    destruct Hc as [Hc|(l & Hl)]; [now destruct (Hc (HE _ H))|].
    destruct (HS m H) as [[_ X]|X]; [now destruct (X l)|]. exists (S m). split; auto.
  Qed.
  Lemma ranked (rank : nat -> nat) (P Q : nat -> Prop) :
    (forall n, P n -> ev n (fun m => Q m \/ (P m /\ rank m < rank n))) -> forall n, P n -> ev n Q.
  Proof.
    intros H. assert (X : forall r n, rank n < r -> P n -> ev n Q).
    { induction r as [|r IH]; intros n Hr HP; [lia|]. eapply ev_then; [exact (H n HP)|]. intros m _ [A|[A B]]; [now apply ev_now|]. apply IH; auto. lia. }
    intros n HP. eapply X; eauto.
  Qed.
End Generic.

(** ** The kernel's programs do not call another thread *)
Section Calls.
  Context {U : Type} (E : env U) (Hs : e_split E = false).
  Definition own (o : kop U) : Prop := match o with KCall _ => False | _ => True end.
  Lemma plain_own {A} (p : kprog U A) : always plain p -> always own p.
  Proof. apply always_impl. intros []; cbn; auto. Qed.
  Lemma own_loop n : always own (abort_loop E n).
  Proof.
    induction n as [|n IH]; cbn [abort_loop]; [exact I|]. apply always_bind; [split; [exact I|intros; exact I]|]. intros [w|]; [|exact I].
    apply always_bind; [|auto]. apply plain_own, np_abort.
  Qed.
  Ltac np := repeat match goal with
    | |- always _ (tbind _ _) => apply always_bind; [|intros ?]
    | |- always _ (catch_std _ _) => apply always_catch
    | |- always _ (attempt _) => apply always_attempt
    | |- always _ (of_res _) => apply always_of_res
    | |- always _ (kdo _) => split; [exact I | intros ?; exact I]
    | |- always _ (Ret _) => exact I
    | |- always _ (Throw _) => exact I
    | |- always _ (Stuck _) => exact I
    | |- always _ (abort_loop _ _) => apply own_loop
    | |- always _ (interp_execute _ _ _ _ _ _) => apply plain_own, np_interp_execute
    | |- always _ (send_reply _ _ _ _ _) => apply plain_own, np_reply
    | |- always _ (publish_message _ _ _ _ _ _) => apply plain_own, np_publish
    | |- always _ (match ?x with _ => _ end) => destruct x
    | _ => progress unfold log, emit, new_guid, now, new_header, get_metadata, with_comms, look_comms, abort_queue
    end.
  Lemma own_execute m c : always own (execute_request E m c).
  Proof. unfold execute_request. cbv zeta. np. Qed.
  Lemma own_dispatch w c : always own (dispatch E w c).
  Proof.
    unfold dispatch. np; try (unfold publish_status; np; fail); try (unfold set_parent; np; fail).
    unfold handle.
    match goal with |- always _ (match mfind ?t _ with _ => _ end) => destruct (mfind t (handlers E)) as [h|] eqn:Hf; np; destruct (String.eqb_spec t "execute_request") as [->|Hne] end.
    - injection Hf as <-. apply own_execute.
    - apply plain_own. eapply np_handler; eauto.
  Qed.
End Calls.

(** ** A running forwarding thread *)
Definition stage (f : fwd) : nat := match f_pc f with FPoll => 2 | FRecv _ => 1 | _ => 0 end.
Lemma fw_moves f : f_ok f -> f_running f -> List.length (f_out f) < List.length (f_all f) -> exists f', fnext f = Some f'.
Proof.
  unfold f_ok, f_running, f_all, in_flight, fnext. destruct f as [i o c p]. cbn. intros A [-> B] L. destruct p as [|[]|w []| |]; try contradiction; eauto.
  - destruct i; [rewrite app_nil_r in L; cbn in L; lia|eauto].
  - destruct i; [now destruct (A false eq_refl)|eauto].
Qed.
Lemma fw_progress f f' : f_running f -> fnext f = Some f' ->
  (List.length (f_out f') = List.length (f_out f) /\ stage f' < stage f) \/ List.length (f_out f') = S (List.length (f_out f)).
Proof.
  unfold f_running, fnext, stage. destruct f as [i o c p]. cbn. intros [-> B]. destruct p as [|[]|w []| |]; try contradiction.
  - destruct i; [discriminate|]. intros [= <-]. cbn. auto.
  - destruct i; [discriminate|]. intros [= <-]. cbn. auto.
  - intros [= <-]. cbn. rewrite app_length. cbn. right. lia.
Qed.
Lemma stage_le f : stage f <= 2.
Proof. unfold stage. destruct (f_pc f); lia. Qed.

(** ** The default server *)
Section Default.
  Context {U : Type} (listener : channel -> frames -> kprog U unit) (Hown : forall c w, always own (listener c w)).
  Implicit Types (s : dsys U).
  Notation act := (acts listener).
  Notation main := (main_step listener).
  Variable (k0 : kstate U) (start : frames) (sigma : nat -> dsys U) (lab : nat -> option (actor * label)).
  Hypothesis Hex : executes act sigma lab.
  Hypothesis H0 : sigma 0 = d_init k0 start.
  Notation obs := (observed lab).

  Lemma acts_dstep a s l s' : act a s l s' -> dstep listener s l s'.
  Proof.
    destruct a; cbn.
    - apply ds_main.
    - intros (-> & A & f & F & ->). destruct s. now apply ds_pub.
    - intros (-> & A & f & F & ->). destruct s. now apply ds_hb.
    - now intros [_ H].
  Qed.
  Lemma obs_run n : drun listener (d_init k0 start) (obs n) (sigma n).
  Proof.
    induction n as [|n IH]; [cbn; rewrite H0; constructor|]. cbn [observed]. pose proof (Hex n) as H. destruct (lab n) as [[a l]|].
    - econstructor; [exact IH|]. eapply acts_dstep; eauto.
    - rewrite app_nil_r, H. exact IH.
  Qed.
  Lemma obs_S n a l : lab n = Some (a, l) -> obs (S n) = (obs n ++ [l])%list.
  Proof. cbn. intros ->. reflexivity. Qed.
  Lemma obs_prefix n m : n <= m -> prefix (obs n) (obs m).
  Proof.
    induction 1 as [|m _ [r IH]]; [exists []; now rewrite app_nil_r|]. cbn [observed]. rewrite IH, <- app_assoc. eexists. reflexivity.
  Qed.

  (** What the other actors leave alone. *)
  Lemma other_act a s l s' : act a s l s' -> a <> AMain ->
    d_pc s' = d_pc s /\ m_k (d_mem s') = m_k (d_mem s) /\ m_stop (d_mem s') = m_stop (d_mem s) /\ m_stdin (d_mem s) <= m_stdin (d_mem s') /\
    control_taken [l] = [] /\ shell_taken [l] = [].
  Proof.
    intros H Ha. destruct a; cbn in H; [contradiction| | |].
    - destruct H as (-> & _ & f & _ & ->). cbn. auto 10.
    - destruct H as (-> & _ & f & _ & ->). cbn. auto 10.
    - destruct H as [Hl H]. destruct H as [s l s' H| | | | | |]; try contradiction; try (cbn; auto 10; fail).
      destruct H; cbn in Hl; try contradiction; destruct o; cbn in Hl; try contradiction; try (destruct x; contradiction); destruct e; contradiction.
  Qed.
  Lemma step_cases n : (sigma (S n) = sigma n /\ obs (S n) = obs n /\ lab n = None) \/
    (exists l, lab n = Some (AMain, l) /\ main (sigma n) l (sigma (S n))) \/
    (exists a l, lab n = Some (a, l) /\ a <> AMain /\ act a (sigma n) l (sigma (S n))).
  Proof.
    pose proof (Hex n) as H. cbn [observed]. destruct (lab n) as [[a l]|]; [|rewrite app_nil_r; auto].
    destruct a; [right; left; eauto|right; right..]; (eexists _, l; repeat split; [discriminate|exact H]) || idtac.
    all: eexists _, l; split; [reflexivity|split; [discriminate|exact H]].
  Qed.

  (** *** Programs in progress *)
  Definition prog_inv s : Prop := match d_pc s with MInControl p _ | MInShell p => always own p | _ => True end.
  Lemma prog_step s l s' : prog_inv s -> main s l s' -> prog_inv s'.
  Proof.
    unfold prog_inv. intros A H. destruct H; cbn in *; auto; try (lazymatch type of A with _ /\ _ => destruct A as [_ A]; auto end).
    - destruct rc; exact I.
    - destruct (negb (m_stop m) && rs); exact I.
  Qed.
  Lemma prog_at n : prog_inv (sigma n).
  Proof.
    induction n as [|n IH]; [rewrite H0; exact I|]. destruct (step_cases n) as [(-> & _)|[(l & _ & H)|(a & l & _ & Ha & H)]]; auto.
    - eapply prog_step; eauto.
    - apply other_act in H as (E & _); auto. unfold prog_inv in *. now rewrite E.
  Qed.
  Lemma ctl_at n rs : d_pc (sigma n) = MControl rs -> m_ctlq (d_mem (sigma n)) <> [].
  Proof.
    induction n as [|n IH]; [rewrite H0; discriminate|]. destruct (step_cases n) as [(-> & _)|[(l & _ & H)|(a & l & _ & Ha & H)]]; auto; intros Hp.
    - destruct H; cbn in *; try discriminate.
      + subst rc. destruct (m_ctlq m); [discriminate|discriminate].
      + destruct (negb (m_stop m) && rs0); discriminate.
    - apply other_act in H as E; auto. destruct E as (E & _ & _ & _ & E4 & _). rewrite E in Hp. specialize (IH Hp).
      apply acts_dstep, step_queues in H as [H _]. rewrite E4 in H. cbn [app] in H. rewrite <- H. destruct (m_ctlq (d_mem (sigma n))); [contradiction|discriminate].
  Qed.
  Lemma stop_at n : (m_stop (d_mem (sigma n)) = true <-> In StopRequest (obs n)) /\ (m_stop (d_mem (sigma n)) = true -> past_stop (d_pc (sigma n))).
  Proof. exact (run_stop listener _ _ _ (obs_run n) eq_refl). Qed.
  Lemma closing_at n : closing (d_pc (sigma n)) -> d_pc (sigma n) = MCrash \/ m_stop (d_mem (sigma n)) = true.
  Proof.
    induction n as [|n IH]; [rewrite H0; intros []|]. destruct (step_cases n) as [(-> & _)|[(l & _ & H)|(a & l & _ & Ha & H)]]; auto; intros Hp.
    - destruct H; cbn in *; auto; try contradiction.
      + destruct rc; contradiction.
      + destruct (negb (m_stop m) && rs); contradiction.
      + destruct (IH I); auto; discriminate.
      + destruct (IH I); auto; discriminate.
      + destruct (IH I); auto; discriminate.
      + destruct (IH I); auto; discriminate.
    - apply other_act in H as (E & _ & E2 & _); auto. rewrite E, E2 in *. auto.
  Qed.

  (** Where the main thread may go from its position. *)
  Definition after s (l : label) s' : Prop :=
    match d_pc s with
    | MTest => d_pc s' = MPoll \/ (d_pc s' = MStop1 /\ m_stop (d_mem s') = true)
    | MPoll => exists (rc rs : bool), d_pc s' = (if rc then MControl rs else MShell rs) /\ (m_ctlq (d_mem s') <> [] -> rc = true) /\ (m_shellq (d_mem s') <> [] -> rs = true)
    | MControl rs => exists w p, l = Hand CONTROL w /\ d_pc s' = MInControl p rs
    | MInControl (Do o k) rs => exists x, d_pc s' = MInControl (k x) rs
    | MInControl _ rs => d_pc s' = MShell rs \/ d_pc s' = MCrash
    | MShell rs => (rs = true /\ d_pc s' = MRecvShell) \/ (d_pc s' = MTest /\ (rs = false \/ m_stop (d_mem s') = true))
    | MRecvShell => exists w p, l = Hand SHELL w /\ d_pc s' = MInShell p
    | MInShell (Do o k) => exists x, d_pc s' = MInShell (k x)
    | MInShell _ => d_pc s' = MTest \/ d_pc s' = MCrash
    | MStop1 => d_pc s' = MWait1
    | MWait1 => d_pc s' = MStop2
    | MStop2 => d_pc s' = MWait2
    | MWait2 => d_pc s' = MExit
    | _ => False
    end.
  Lemma main_after s l s' : main s l s' -> after s l s'.
  Proof.
    unfold after. destruct 1; cbn; eauto 6.
    - exists rc, rs. split; [reflexivity|]. subst rc rs. destruct (m_ctlq m), (m_shellq m); cbn; split; intros; auto; contradiction.
    - destruct p; auto. contradiction.
    - destruct (m_stop m) eqn:Hs; cbn; auto. destruct rs; auto.
    - destruct p; auto. contradiction.
  Qed.

  Hypothesis Hmain : just act sigma lab AMain.
  Hypothesis Hinput : forall n, exists m, n <= m /\ ~ waits_input (sigma m).

  (** The main thread moves on from [pc]. *)
  Definition moved (n : nat) (pc : mpc U) (X : nat -> Prop) (m : nat) : Prop :=
    exists i l, m = S i /\ n <= i /\ X i /\ d_pc (sigma i) = pc /\ lab i = Some (AMain, l) /\ main (sigma i) l (sigma m).
  Lemma main_moves n pc (X : nat -> Prop) :
    (forall i, n <= i -> X i -> d_pc (sigma i) = pc -> ~ waits_input (sigma i) -> able act AMain (sigma i)) ->
    (forall i, n <= i -> X i -> d_pc (sigma i) = pc -> (forall l, lab i <> Some (AMain, l)) -> X (S i)) ->
    X n -> d_pc (sigma n) = pc -> ev n (moved n pc X).
  Proof.
    intros HE HX HXn Hpc. set (P := fun i => n <= i /\ X i /\ d_pc (sigma i) = pc).
    assert (ST : forall i, P i -> (P (S i) /\ forall l, lab i <> Some (AMain, l)) \/ moved n pc X (S i)).
    { intros i (A & B & C). destruct (step_cases i) as [(E & _ & El)|[(l & El & H)|(a & l & El & Ha & H)]].
      - left. assert (Y : forall l, lab i <> Some (AMain, l)) by (rewrite El; discriminate). split; [|exact Y]. split; [lia|]. split; [auto|]. now rewrite E.
      - right. exists i, l. auto 10.
      - left. assert (Y : forall l, lab i <> Some (AMain, l)) by (rewrite El; intros l' [= E1 _]; contradiction).
        split; [|exact Y]. split; [lia|]. split; [auto|]. apply other_act in H as (E & _); auto. now rewrite E. }
    destruct (Hinput n) as (m & Hm & Hns).
    destruct (until P (moved n pc X)) with (d := m - n) (n := n) as [H|H]; auto.
    { intros i Hi. destruct (ST i Hi) as [[Y _]|Y]; auto. }
    { repeat split; auto. }
    replace (n + (m - n)) with m in H by lia. eapply ev_back; [exact Hm|].
    apply (leads act sigma lab AMain (fun i => P i /\ ~ waits_input (sigma i))); auto.
    - intros i [(A & B & C) D]. eauto.
    - intros i [A D]. destruct (ST i A) as [[Y1 Y2]|Y]; [left|auto]. split; [|exact Y2]. split; [exact Y1|].
      intros W. apply D. destruct A as (_ & _ & C1). destruct Y1 as (_ & _ & C2). unfold waits_input in *. rewrite C2 in W. rewrite C1.
      assert (Z : m_k (d_mem (sigma (S i))) = m_k (d_mem (sigma i)) /\ m_stdin (d_mem (sigma i)) <= m_stdin (d_mem (sigma (S i)))).
      { destruct (step_cases i) as [(E & _ & _)|[(l & El & _)|(a & l & _ & Ha & H1)]].
        - rewrite E. auto.
        - now destruct (Y2 l).
        - apply other_act in H1 as (_ & E1 & _ & E2 & _); auto. }
      destruct Z as [Z1 Z2]. rewrite Z1 in W. destruct pc as [| | |p| | |p| | | | | |]; auto; destruct p as [| | |[]]; auto; lia.
  Qed.
  Lemma able_op s o k rs : d_pc s = MInControl (Do o k) rs \/ d_pc s = MInShell (Do o k) -> prog_inv s -> ~ waits_input s -> able act AMain s.
  Proof.
    destruct s as [pc m]. cbn. intros Hp HI HW. unfold prog_inv, waits_input in *. cbn in *.
    assert (X : match o with KCall _ => False | KStdin => k_stdin (m_k m) < m_stdin m | _ => True end).
    { destruct Hp; subst pc; destruct HI as [HI _]; destruct o; cbn in *; auto; lia. }
    destruct (mop_total o m X) as (m' & x & Hm). destruct Hp; subst pc; eexists _, _.
    - eapply ms_control_op; eauto.
    - eapply ms_shell_op; eauto.
  Qed.
  Lemma able_end s p rs : d_pc s = MInControl p rs \/ d_pc s = MInShell p -> (forall o k, p <> Do o k) -> able act AMain s.
  Proof.
    destruct s as [pc m]. cbn. intros Hp HN. destruct p as [a|e|w|o k]; [| | |now destruct (HN o k)]; destruct Hp; subst pc; eexists _, _.
    - eapply ms_control_end.
    - eapply ms_shell_end.
    - eapply ms_control_crash; exact I.
    - eapply ms_shell_crash; exact I.
    - eapply ms_control_crash; exact I.
    - eapply ms_shell_crash; exact I.
  Qed.
  Lemma able_prog s p rs : d_pc s = MInControl p rs \/ d_pc s = MInShell p -> prog_inv s -> ~ waits_input s -> able act AMain s.
  Proof. destruct p; eauto using able_op; intros; eapply able_end; eauto; discriminate. Qed.
  Lemma able_test s : d_pc s = MTest -> able act AMain s.
  Proof. destruct s as [pc m]. cbn. intros ->. destruct (m_stop m) eqn:Hs; eexists _, _; [now apply ms_leave|now apply ms_go]. Qed.
  Lemma able_poll s : d_pc s = MPoll -> m_ctlq (d_mem s) <> [] \/ m_shellq (d_mem s) <> [] -> able act AMain s.
  Proof. destruct s as [pc m]. cbn. intros -> H. eexists _, _. now apply ms_poll. Qed.
  Lemma able_control s rs : d_pc s = MControl rs -> m_ctlq (d_mem s) <> [] -> able act AMain s.
  Proof. destruct s as [pc m]. cbn. intros -> H. destruct (m_ctlq m) eqn:Hq; [contradiction|]. eexists _, _. eapply ms_control; eauto. Qed.
  Lemma able_shell s rs : d_pc s = MShell rs -> able act AMain s.
  Proof. destruct s as [pc m]. cbn. intros ->. eexists _, _. apply ms_shell. Qed.
  Lemma able_recv s : d_pc s = MRecvShell -> m_shellq (d_mem s) <> [] -> able act AMain s.
  Proof. destruct s as [pc m]. cbn. intros -> H. destruct (m_shellq m) eqn:Hq; [contradiction|]. eexists _, _. eapply ms_recv_shell; eauto. Qed.

  (** *** Every message is taken *)
  (** The handling of a message comes to its end. *)
  Definition at_rest (m : nat) : Prop := place_of (d_pc (sigma m)) <> Handling.
  Lemma prog_over p : (forall rs n, d_pc (sigma n) = MInControl p rs -> ev n at_rest) /\ (forall n, d_pc (sigma n) = MInShell p -> ev n at_rest).
  Proof.
    induction p as [a|e|w|o q IH]; split.
    all: intros; match goal with H : d_pc (sigma ?n) = ?pc |- _ => eapply ev_then; [apply (main_moves n pc (fun _ => True)); auto; intros i _ _ Hi HW; first [eapply (able_prog _ _ true); eauto using prog_at; fail|eapply able_prog; eauto using prog_at]|] end.
    all: intros m Hm (i & l & -> & _ & _ & Hpc & Hl & Hst); apply main_after in Hst; unfold after in Hst; rewrite Hpc in Hst.
    1-6: apply ev_now; unfold at_rest; destruct Hst as [->| ->]; discriminate.
    all: destruct Hst as [x Hst]; (exact (proj1 (IH x) _ _ Hst) || exact (proj2 (IH x) _ Hst)).
    Unshelve. all: exact true.
  Qed.
  Lemma rests n : ev n at_rest.
  Proof.
    destruct (d_pc (sigma n)) eqn:Hp; try (apply ev_now; unfold at_rest; rewrite Hp; discriminate).
    - exact (proj1 (prog_over _) _ _ Hp).
    - exact (proj2 (prog_over _) _ Hp).
  Qed.

  Section Taken.
    Variable (c : channel) (n0 : nat) (k : nat).
    Definition cnt (m : nat) : nat := List.length (taken_from c (obs m)).
    Hypothesis Hk : k < List.length (arrived c (obs n0)).
    (** Messages may be taken from the shell socket while a control message is handled only if [c] is
        the shell channel. *)
    Hypothesis Hrecv : c = CONTROL -> forall n, d_pc (sigma n) = MRecvShell -> m_shellq (d_mem (sigma n)) <> [].
    Definition goal (m : nat) : Prop := k < cnt m \/ d_pc (sigma m) = MCrash \/ m_stop (d_mem (sigma m)) = true.
    Definition X (m : nat) : Prop := n0 <= m /\ cnt m = k.
    Lemma chan_cases : c = SHELL \/ c = CONTROL.
    Proof. destruct c; auto. Qed.
    Lemma taken_app a b : taken_from c (a ++ b) = (taken_from c a ++ taken_from c b)%list.
    Proof. destruct c; [apply shell_taken_app|apply control_taken_app]. Qed.
    Lemma pending m : X m -> (c = CONTROL -> m_ctlq (d_mem (sigma m)) <> []) /\ (c = SHELL -> m_shellq (d_mem (sigma m)) <> []).
    Proof.
      intros [A B]. destruct (obs_prefix _ _ A) as [r Hr]. assert (Hl : k < List.length (arrived c (obs m))).
      { rewrite Hr, arrived_app, app_length. lia. }
      destruct (run_queues listener _ _ _ (obs_run m) eq_refl eq_refl) as [Q1 Q2]. unfold cnt in B.
      split; intros Hc; rewrite Hc in *; cbn in B; intros Hq; rewrite Hq in *; rewrite app_nil_r in *; [rewrite Q1 in Hl|rewrite Q2 in Hl]; lia.
    Qed.
    Lemma X_other i : X i -> (forall l, lab i <> Some (AMain, l)) -> X (S i).
    Proof.
      intros [A B] HN. split; [lia|]. destruct (step_cases i) as [(_ & E & _)|[(l & El & _)|(a & l & El & Ha & H)]].
      - unfold cnt in *. now rewrite E.
      - now destruct (HN l).
      - unfold cnt in *. rewrite (obs_S _ _ _ El), taken_app, app_length. apply other_act in H as (_ & _ & _ & _ & E1 & E2); auto.
        destruct c; cbn [taken_from]; rewrite ?E1, ?E2; cbn; rewrite <- B; cbn; lia.
    Qed.
    Lemma go n pc : X n -> d_pc (sigma n) = pc ->
      (forall i, n <= i -> X i -> d_pc (sigma i) = pc -> ~ waits_input (sigma i) -> able act AMain (sigma i)) ->
      (forall m l s, d_pc s = pc -> X m -> taken_from c [l] = [] -> after s l (sigma m) -> ev m goal) -> ev n goal.
    Proof.
      intros HX Hp HE HN. eapply ev_then; [apply (main_moves n pc X HE); auto|].
      - intros i _ Hi _ Hl. now apply X_other.
      - intros m _ (i & l & -> & Hi & [A B] & Hpc & Hl & H). unfold cnt in B.
        destruct (taken_from c [l]) as [|t r] eqn:Et.
        + apply (HN (S i) l (sigma i)); auto; [|now apply main_after]. split; [lia|]. unfold cnt. now rewrite (obs_S _ _ _ Hl), taken_app, Et, app_nil_r.
        + apply ev_now. left. unfold cnt. rewrite (obs_S _ _ _ Hl), taken_app, app_length, Et. cbn. lia.
    Qed.
    Ltac at_goal := apply ev_now; unfold goal; auto; fail.
    Lemma from_test n : (forall n, X n -> d_pc (sigma n) = MPoll -> ev n goal) -> X n -> d_pc (sigma n) = MTest -> ev n goal.
    Proof.
      intros HN HX Hp. apply (go n MTest); auto; [intros; now apply able_test|].
      intros m l s Hs Hm _ HA. unfold after in HA. rewrite Hs in HA. destruct HA as [HA|[_ HA]]; auto. at_goal.
    Qed.
    Lemma from_shell_prog p : (forall n, X n -> d_pc (sigma n) = MTest -> ev n goal) -> forall n, X n -> d_pc (sigma n) = MInShell p -> ev n goal.
    Proof.
      intros HN. induction p as [a|e|w|o q IH]; intros n HX Hp.
      all: apply (go n (MInShell _) HX Hp); [intros i _ _ Hi HW; eapply able_prog with (rs := true); eauto using prog_at|].
      all: intros m l s Hs Hm _ HA; unfold after in HA; rewrite Hs in HA.
      1-3: destruct HA as [HA|HA]; [auto|at_goal].
      destruct HA as [x HA]. eapply IH; eauto.
    Qed.
    Lemma from_control_prog rs p : (forall n, X n -> d_pc (sigma n) = MShell rs -> ev n goal) -> forall n, X n -> d_pc (sigma n) = MInControl p rs -> ev n goal.
    Proof.
      intros HN. induction p as [a|e|w|o q IH]; intros n HX Hp.
      all: apply (go n (MInControl _ rs) HX Hp); [intros i _ _ Hi HW; eapply able_prog; eauto using prog_at|].
      all: intros m l s Hs Hm _ HA; unfold after in HA; rewrite Hs in HA.
      1-3: destruct HA as [HA|HA]; [auto|at_goal].
      destruct HA as [x HA]. eapply IH; eauto.
    Qed.
    Lemma from_control rs n : (c = SHELL -> forall p n, X n -> d_pc (sigma n) = MInControl p rs -> ev n goal) -> X n -> d_pc (sigma n) = MControl rs -> ev n goal.
    Proof.
      intros HN HX Hp. apply (go n (MControl rs)); auto; [intros i _ _ Hi _; eapply able_control; eauto using ctl_at|].
      intros m l s Hs Hm Ht HA. unfold after in HA. rewrite Hs in HA. destruct HA as (w & p & -> & HA).
      destruct chan_cases as [Hc|Hc]; rewrite Hc in Ht; [|discriminate]. eapply HN; eauto.
    Qed.
    Lemma from_recv n : (c = CONTROL -> forall p n, X n -> d_pc (sigma n) = MInShell p -> ev n goal) -> X n -> d_pc (sigma n) = MRecvShell -> ev n goal.
    Proof.
      intros HN HX Hp. apply (go n MRecvShell); auto.
      { intros i _ Hi Hpi _. apply able_recv; auto. destruct chan_cases; [now apply pending|auto]. }
      intros m l s Hs Hm Ht HA. unfold after in HA. rewrite Hs in HA. destruct HA as (w & p & -> & HA).
      destruct chan_cases as [Hc|Hc]; rewrite Hc in Ht; [discriminate|]. eapply HN; eauto.
    Qed.
    Lemma from_shell rs n : (rs = true -> forall n, X n -> d_pc (sigma n) = MRecvShell -> ev n goal) ->
      (rs = false -> forall n, X n -> d_pc (sigma n) = MTest -> ev n goal) -> X n -> d_pc (sigma n) = MShell rs -> ev n goal.
    Proof.
      intros H1 H2 HX Hp. apply (go n (MShell rs)); auto; [intros; eapply able_shell; eauto|].
      intros m l s Hs Hm _ HA. unfold after in HA. rewrite Hs in HA. destruct HA as [[-> HA]|[HA [->|HB]]]; auto. at_goal.
    Qed.
    Lemma from_poll n : (forall rc rs n, X n -> (c = CONTROL -> rc = true) -> (c = SHELL -> rs = true) ->
        d_pc (sigma n) = (if rc then MControl rs else MShell rs) -> ev n goal) -> X n -> d_pc (sigma n) = MPoll -> ev n goal.
    Proof.
      intros HN HX Hp. apply (go n MPoll); auto.
      { intros i _ Hi Hpi _. apply able_poll; auto. destruct (pending i Hi). destruct chan_cases; auto. }
      intros m l s Hs Hm _ HA. unfold after in HA. rewrite Hs in HA. destruct HA as (rc & rs & HA & H1 & H2). destruct (pending m Hm).
      apply (HN rc rs); auto.
    Qed.
    Lemma taken_next n : X n -> ev n goal.
    Proof.
      assert (Hclose : forall n, X n -> closing (d_pc (sigma n)) -> ev n goal).
      { intros i _ Hc. apply closing_at in Hc. at_goal. }
      destruct chan_cases as [Hc|Hc].
      - assert (T1 : forall n, X n -> d_pc (sigma n) = MRecvShell -> ev n goal) by (intros; apply from_recv; auto; congruence).
        assert (T2 : forall n, X n -> d_pc (sigma n) = MShell true -> ev n goal) by (intros; apply (from_shell true); auto; discriminate).
        assert (T3 : forall n, X n -> d_pc (sigma n) = MControl true -> ev n goal) by (intros; apply (from_control true); auto; intros _ p; now apply from_control_prog).
        assert (T4 : forall n, X n -> d_pc (sigma n) = MPoll -> ev n goal).
        { intros i Hi. apply from_poll; auto. intros rc rs j Hj _ Hr. rewrite (Hr Hc). destruct rc; auto. }
        assert (T5 : forall n, X n -> d_pc (sigma n) = MTest -> ev n goal) by (intros; now apply from_test).
        assert (T6 : forall rs n, X n -> d_pc (sigma n) = MShell rs -> ev n goal) by (intros rs i Hi; apply (from_shell rs); auto).
        intros Hn. destruct (d_pc (sigma n)) as [| |rs|p rs|rs| |p| | | | | |] eqn:Hp; eauto; try (apply Hclose; auto; rewrite Hp; exact I).
        + apply (from_control rs); auto. intros _ p. apply from_control_prog; apply T6.
        + apply (from_control_prog rs p (T6 rs)); auto.
        + apply (from_shell_prog p T5); auto.
      - assert (T1 : forall rs n, X n -> d_pc (sigma n) = MControl rs -> ev n goal) by (intros rs i Hi; apply (from_control rs); auto; congruence).
        assert (T4 : forall n, X n -> d_pc (sigma n) = MPoll -> ev n goal).
        { intros i Hi. apply from_poll; auto. intros rc rs j Hj Hr _. rewrite (Hr Hc). eauto. }
        assert (T5 : forall n, X n -> d_pc (sigma n) = MTest -> ev n goal) by (intros; now apply from_test).
        assert (T2 : forall p n, X n -> d_pc (sigma n) = MInShell p -> ev n goal) by (intros p; now apply from_shell_prog).
        assert (T3 : forall n, X n -> d_pc (sigma n) = MRecvShell -> ev n goal) by (intros; now apply from_recv).
        assert (T6 : forall rs n, X n -> d_pc (sigma n) = MShell rs -> ev n goal) by (intros rs i Hi; apply (from_shell rs); auto).
        intros Hn. destruct (d_pc (sigma n)) as [| |rs|p rs|rs| |p| | | | | |] eqn:Hp; eauto; try (apply Hclose; auto; rewrite Hp; exact I).
        apply (from_control_prog rs p (T6 rs)); auto.
    Qed.
  End Taken.
  Lemma all_taken c n : (c = CONTROL -> forall n, d_pc (sigma n) = MRecvShell -> m_shellq (d_mem (sigma n)) <> []) ->
    ev n (fun m => List.length (arrived c (obs n)) <= cnt c m \/ d_pc (sigma m) = MCrash \/ m_stop (d_mem (sigma m)) = true).
  Proof.
    intros Hr. set (N := List.length (arrived c (obs n))). apply (ranked (fun m => N - cnt c m) (fun m => n <= m)); [|lia].
    intros i Hi. destruct (le_lt_dec N (cnt c i)) as [Hd|Hd]; [apply ev_now; auto|].
    eapply ev_impl; [apply (taken_next c n (cnt c i)); [exact Hd|exact Hr|split; [exact Hi|reflexivity]]|].
    intros m Hm [H|[H|H]]; auto. right. split; lia.
  Qed.

  (** *** A poll that announced a shell message *)
  Definition announced (pc : mpc U) : Prop := match pc with MControl true | MInControl _ true | MShell true | MRecvShell => True | _ => False end.
  Lemma main_announced s l s' : main s l s' -> (controlling (d_pc s) -> forall w, l <> Took w) ->
    (announced (d_pc s) -> m_shellq (d_mem s) <> []) -> announced (d_pc s') -> m_shellq (d_mem s') <> [].
  Proof.
    intros H HT IH. destruct H; cbn in *; auto; try contradiction.
    - subst rs. destruct (m_shellq m); [destruct rc; contradiction|discriminate].
    - destruct rs; [|contradiction]. intros _. specialize (IH I). apply mop_queues in H as (_ & H & _).
      destruct (op_label o x) eqn:El; cbn in H; try (rewrite H; exact IH); try (destruct c); cbn in H; try (rewrite H; exact IH).
      + destruct o; cbn in El; try discriminate; try (destruct x; discriminate); destruct e; discriminate.
      + now destruct (HT I w).
    - destruct (negb (m_stop m)), rs; cbn; auto; contradiction.
  Qed.
  Lemma recv_at : (forall n w, controlling (d_pc (sigma n)) -> lab n <> Some (AMain, Took w)) ->
    forall n, announced (d_pc (sigma n)) -> m_shellq (d_mem (sigma n)) <> [].
  Proof.
    intros HT. induction n as [|n IH]; [rewrite H0; intros []|].
    destruct (step_cases n) as [(-> & _)|[(l & El & H)|(a & l & El & Ha & H)]]; auto; intros Hp.
    - eapply main_announced; eauto. intros Hc w ->. exact (HT n w Hc El).
    - apply other_act in H as E; auto. destruct E as (E & _ & _ & _ & _ & E4). rewrite E in Hp. specialize (IH Hp).
      apply acts_dstep, step_queues in H as [_ H]. rewrite E4 in H. cbn [app] in H. rewrite <- H. destruct (m_shellq (d_mem (sigma n))); [contradiction|discriminate].
  Qed.

  (** *** The forwarding threads *)
  Definition fwds s : Prop :=
    f_ok (m_pub (d_mem s)) /\ f_ok (m_hb (d_mem s)) /\
    match d_pc s with
    | MWait1 => f_waited (m_pub (d_mem s)) /\ f_running (m_hb (d_mem s))
    | MStop2 => f_finished (m_pub (d_mem s)) /\ f_running (m_hb (d_mem s))
    | MWait2 => f_finished (m_pub (d_mem s)) /\ f_waited (m_hb (d_mem s))
    | MExit => f_finished (m_pub (d_mem s)) /\ f_finished (m_hb (d_mem s))
    | MCrash => True
    | _ => f_running (m_pub (d_mem s)) /\ f_running (m_hb (d_mem s))
    end.
  Lemma f_running_waited f w : f_running f -> f_waited (f_set (SAsked w) f).
  Proof. intros [A B]. left. cbn. split; auto. intros X. rewrite X in B. exact B. Qed.
  Lemma f_waited_finished f w : f_waited f -> f_ctl f = SAnswered w -> f_finished (f_set SIdle f).
  Proof. intros [[A _]|(w' & _ & A)] B; [rewrite B in A; discriminate|]. split; auto. Qed.
  Lemma mop_fwds (o : kop U) m m' (x : kans o) : mop o m m' x -> f_ok (m_pub m) -> f_running (m_pub m) -> f_ok (m_pub m') /\ f_running (m_pub m') /\ m_hb m' = m_hb m.
  Proof. intros H A B. apply mop_fwd in H as [[->|(w & ->)] ->]; auto using f_ok_push. Qed.
  Lemma fwds_step s l s' : fwds s -> dstep listener s l s' -> fwds s'.
  Proof.
    unfold fwds. intros (A & B & C) H. destruct H as [s l s' H|pc m f HA H|pc m f HA H| | | |]; cbn [d_mem d_pc] in *.
    - destruct H; cbn [d_mem d_pc] in *; try (split; [exact A|split; [exact B|exact C]]; fail);
        try (split; [exact A|split; [exact B|exact I]]; fail).
      + destruct rc; (split; [exact A|split; [exact B|exact C]]).
      + destruct C as [C1 C2]. destruct (mop_fwds _ _ _ _ H A C1) as (X & Y & ->). auto.
      + destruct (negb (m_stop m) && rs); (split; [exact A|split; [exact B|exact C]]).
      + destruct C as [C1 C2]. destruct (mop_fwds _ _ _ _ H A C1) as (X & Y & ->). auto.
      + destruct C as [C1 C2]. split; [exact A|split; [exact B|]]. split; [now apply f_running_waited|exact C2].
      + destruct C as [C1 C2]. split; [exact A|split; [exact B|]]. split; [now apply (f_waited_finished _ w)|exact C2].
      + destruct C as [C1 C2]. split; [exact A|split; [exact B|]]. split; [exact C1|now apply f_running_waited].
      + destruct C as [C1 C2]. split; [exact A|split; [exact B|]]. split; [exact C1|now apply (f_waited_finished _ w)].
    - cbn. split; [eapply f_ok_next; [|eassumption]; assumption|split; [exact B|]].
      destruct pc; auto; destruct C as [C1 C2]; (split; [|exact C2]); first [exact (f_running_next _ _ C1 H) | exact (f_waited_next _ _ C1 H) | exact (f_finished_next _ _ C1 H)].
    - cbn. split; [exact A|split; [eapply f_ok_next; [|eassumption]; assumption|]].
      destruct pc; auto; destruct C as [C1 C2]; (split; [exact C1|]); first [exact (f_running_next _ _ C2 H) | exact (f_waited_next _ _ C2 H) | exact (f_finished_next _ _ C2 H)].
    - auto.
    - auto.
    - cbn. split; [exact A|split; [now apply f_ok_push|]]. destruct pc; auto.
    - auto.
  Qed.
  Lemma fwds_at n : fwds (sigma n).
  Proof.
    pose proof (obs_run n) as H. remember (d_init k0 start) as s0 eqn:E. induction H as [|s0 ls s1 l s2 H IH Hs]; [subst|eauto using fwds_step].
    unfold fwds, f_ok, f_running. cbn. repeat split; auto; discriminate.
  Qed.

  (** *** The end of the process *)
  Definition over (m : nat) : Prop := d_pc (sigma m) = MCrash \/ d_pc (sigma m) = MExit.
  Lemma stop_stays n m : n <= m -> m_stop (d_mem (sigma n)) = true -> m_stop (d_mem (sigma m)) = true.
  Proof.
    intros H Hs. apply (proj1 (stop_at n)) in Hs. apply (proj1 (stop_at m)). destruct (obs_prefix _ _ H) as [r ->]. apply in_app_iff. auto.
  Qed.
  Lemma stop_go n pc Q : m_stop (d_mem (sigma n)) = true -> d_pc (sigma n) = pc ->
    (forall i, d_pc (sigma i) = pc -> ~ waits_input (sigma i) -> able act AMain (sigma i)) ->
    (forall m l s, d_pc s = pc -> m_stop (d_mem (sigma m)) = true -> after s l (sigma m) -> ev m Q) -> ev n Q.
  Proof.
    intros Hs Hp HE HN. eapply ev_then; [apply (main_moves n pc (fun i => n <= i)); auto|].
    intros m Hm (i & l & -> & _ & Hi & Hpc & Hl & H). apply (HN (S i) l (sigma i)); auto; [|now apply main_after]. eapply stop_stays; [|exact Hs]. lia.
  Qed.
  Definition quits (m : nat) : Prop := d_pc (sigma m) = MCrash \/ d_pc (sigma m) = MStop1.
  Lemma stop_test n : m_stop (d_mem (sigma n)) = true -> d_pc (sigma n) = MTest -> ev n quits.
  Proof.
    intros Hs Hp. apply (stop_go n MTest); auto; [intros; now apply able_test|]. intros m l s Hps Hm HA. unfold after in HA. rewrite Hps in HA.
    apply ev_now. right. destruct HA as [HA|[HA _]]; auto. apply (proj2 (stop_at m)) in Hm. rewrite HA in Hm. destruct Hm.
  Qed.
  Lemma stop_shell_prog p : forall n, m_stop (d_mem (sigma n)) = true -> d_pc (sigma n) = MInShell p -> ev n quits.
  Proof.
    induction p as [a|e|w|o q IH]; intros n Hs Hp.
    all: apply (stop_go n (MInShell _) _ Hs Hp); [intros i Hi HW; eapply able_prog with (rs := true); eauto using prog_at|].
    all: intros m l s Hps Hm HA; unfold after in HA; rewrite Hps in HA.
    1-3: destruct HA as [HA|HA]; [now apply stop_test|apply ev_now; now left].
    destruct HA as [x HA]. eapply IH; eauto.
  Qed.
  Lemma stop_shell rs n : m_stop (d_mem (sigma n)) = true -> d_pc (sigma n) = MShell rs -> ev n quits.
  Proof.
    intros Hs Hp. apply (stop_go n (MShell rs)); auto; [intros; eapply able_shell; eauto|].
    intros m l s Hps Hm HA. unfold after in HA. rewrite Hps in HA. destruct HA as [[_ HA]|[HA _]]; [|now apply stop_test].
    apply (proj2 (stop_at m)) in Hm. rewrite HA in Hm. destruct Hm.
  Qed.
  Lemma stop_control_prog rs p : forall n, m_stop (d_mem (sigma n)) = true -> d_pc (sigma n) = MInControl p rs -> ev n quits.
  Proof.
    induction p as [a|e|w|o q IH]; intros n Hs Hp.
    all: apply (stop_go n (MInControl _ rs) _ Hs Hp); [intros i Hi HW; eapply able_prog; eauto using prog_at|].
    all: intros m l s Hps Hm HA; unfold after in HA; rewrite Hps in HA.
    1-3: destruct HA as [HA|HA]; [now apply (stop_shell rs)|apply ev_now; now left].
    destruct HA as [x HA]. eapply IH; eauto.
  Qed.
  Lemma loop_quits n : m_stop (d_mem (sigma n)) = true -> closing (d_pc (sigma n)) \/ ev n quits.
  Proof.
    intros Hs. pose proof (proj2 (stop_at n) Hs) as Hp. destruct (d_pc (sigma n)) eqn:E; cbn in Hp; try contradiction; try (left; exact I); right.
    - now apply stop_test.
    - eapply stop_control_prog; eauto.
    - eapply stop_shell; eauto.
    - eapply stop_shell_prog; eauto.
  Qed.

  (** A forwarding thread: the publisher or the heartbeat thread. *)
  Definition fw (b : bool) (n : nat) : fwd := if b then m_pub (d_mem (sigma n)) else m_hb (d_mem (sigma n)).
  Definition fa (b : bool) : actor := if b then APublisher else AHeartbeat.
  Lemma fw_step b i :
    (exists l, lab i = Some (fa b, l) /\ d_pc (sigma (S i)) = d_pc (sigma i) /\ fnext (fw b i) = Some (fw b (S i))) \/
    ((forall l, lab i <> Some (fa b, l)) /\ f_pc (fw b (S i)) = f_pc (fw b i) /\ f_out (fw b (S i)) = f_out (fw b i) /\
     (d_pc (sigma (S i)) = d_pc (sigma i) -> f_ctl (fw b (S i)) = f_ctl (fw b i))).
  Proof.
    unfold fw. destruct (step_cases i) as [(E & _ & El)|[(l & El & H)|(a & l & El & Ha & H)]].
    - right. rewrite El, E. repeat split; auto. discriminate.
    - right. rewrite El. split; [destruct b; discriminate|]. destruct H; try (destruct b; cbn; repeat split; auto; discriminate).
      + apply mop_fwd in H as [[E|(w & E)] E']; destruct b; cbn; rewrite ?E, ?E'; cbn; auto.
      + apply mop_fwd in H as [[E|(w & E)] E']; destruct b; cbn; rewrite ?E, ?E'; cbn; auto.
    - rewrite El. destruct a; cbn in H; [contradiction| | |].
      + destruct H as (-> & _ & f & F & ->). destruct b; cbn; [left; eauto|right; repeat split; auto; discriminate].
      + destruct H as (-> & _ & f & F & ->). destruct b; cbn; [right; repeat split; auto; discriminate|left; eauto].
      + right. split; [destruct b; discriminate|]. destruct H as [Hl H]. destruct H as [s l s' H| | | | | |]; try contradiction; try (destruct b; cbn; auto; fail).
        destruct H; cbn in Hl; try contradiction; destruct o; cbn in Hl; try contradiction; try (destruct x; contradiction); destruct e; contradiction.
  Qed.
  Lemma able_fw b i : alive (d_pc (sigma i)) -> (exists f, fnext (fw b i) = Some f) -> able act (fa b) (sigma i).
  Proof. intros A [f F]. unfold fw in F. destruct b; eexists _, _; cbn; eauto 10. Qed.
  Definition waitpc (b : bool) : mpc U := if b then MWait1 else MWait2.
  Definition nextpc (b : bool) : mpc U := if b then MStop2 else MExit.
  Lemma waited_at b n : d_pc (sigma n) = waitpc b -> f_ok (fw b n) /\ f_waited (fw b n).
  Proof. intros Hp. destruct (fwds_at n) as (A & B & C). rewrite Hp in C. destruct b; cbn in *; tauto. Qed.
  Lemma wait_move b n : d_pc (sigma n) = waitpc b ->
    d_pc (sigma (S n)) = waitpc b \/ d_pc (sigma (S n)) = nextpc b.
  Proof.
    intros Hp. destruct (step_cases n) as [(-> & _)|[(l & _ & H)|(a & l & _ & Ha & H)]]; auto.
    - right. apply main_after in H. unfold after in H. rewrite Hp in H. destruct b; exact H.
    - left. apply other_act in H as (E & _); auto. now rewrite E.
  Qed.
  Lemma fwd_finishes b n : just act sigma lab (fa b) -> d_pc (sigma n) = waitpc b ->
    ev n (fun m => d_pc (sigma m) = nextpc b \/ (d_pc (sigma m) = waitpc b /\ f_pc (fw b m) = FDone)).
  Proof.
    intros HJ. apply (ranked (fun m => f_rank (f_pc (fw b m))) (fun m => d_pc (sigma m) = waitpc b)). clear n. intros n Hp.
    assert (Hd : {f_pc (fw b n) = FDone} + {f_pc (fw b n) <> FDone}) by (destruct (f_pc (fw b n)); (left; reflexivity) || (right; discriminate)).
    destruct Hd as [Hd|Hd]; [apply ev_now; auto|].
    apply (leads act sigma lab (fa b) (fun i => d_pc (sigma i) = waitpc b /\ f_pc (fw b i) = f_pc (fw b n))); auto.
    - intros i [A B]. destruct (waited_at b i A) as [W1 W2]. apply able_fw; [rewrite A; destruct b; exact I|]. apply f_can_move; auto. now rewrite B.
    - intros i [A B]. destruct (waited_at b i A) as [W1 W2]. destruct (fw_step b i) as [(l & El & Ep & F)|(Hl & E1 & _)].
      + right. right. split; [congruence|]. rewrite <- B. apply f_rank_next; auto.
        destruct W2 as [[W2 _]|(w & _ & W2)]; [exact W2|]. rewrite B in W2. contradiction.
      + destruct (wait_move b i A) as [X|X]; [|right; left; left; exact X]. left. split; auto. split; auto. now rewrite E1.
  Qed.
  Lemma able_wait b s w : d_pc s = waitpc b -> f_ctl (if b then m_pub (d_mem s) else m_hb (d_mem s)) = SAnswered w -> able act AMain s.
  Proof. destruct s as [pc m]. cbn. intros -> H. destruct b; eexists _, _; [eapply ms_wait1|eapply ms_wait2]; exact H. Qed.
  Lemma wait_over b n : just act sigma lab (fa b) -> d_pc (sigma n) = waitpc b -> ev n (fun m => d_pc (sigma m) = nextpc b).
  Proof.
    intros HJ Hp. eapply ev_then; [exact (fwd_finishes b n HJ Hp)|]. intros m Hm [H|[H1 H2]]; [now apply ev_now|].
    eapply ev_impl; [apply (main_moves m (waitpc b) (fun i => f_pc (fw b i) = FDone)); auto|].
    - intros i _ Hi Hpi _. destruct (waited_at b i Hpi) as [_ [[_ W]|(w & W & _)]]; [contradiction|]. eapply able_wait; eauto.
    - intros i _ Hi Hpi Hl. destruct (fw_step b i) as [(l & _ & _ & F)|(_ & E1 & _)]; [|now rewrite E1]. apply fnext_done in F. contradiction.
    - intros j _ (i & l & -> & _ & _ & Hpi & _ & H). apply main_after in H. unfold after in H. rewrite Hpi in H. destruct b; exact H.
  Qed.
  Definition askpc (b : bool) : mpc U := if b then MStop1 else MStop2.
  Lemma ask_over b n : d_pc (sigma n) = askpc b -> ev n (fun m => d_pc (sigma m) = waitpc b).
  Proof.
    intros Hp. eapply ev_impl; [apply (main_moves n (askpc b) (fun _ => True)); auto|].
    - intros i _ _ Hpi _. destruct (fwds_at i) as (_ & _ & C). rewrite Hpi in C. destruct (sigma i) as [pc m]. cbn in *. subst pc.
      destruct b; eexists _, _; [eapply ms_stop1|eapply ms_stop2]; apply C.
    - intros j _ (i & l & -> & _ & _ & Hpi & _ & H). apply main_after in H. unfold after in H. rewrite Hpi in H. destruct b; exact H.
  Qed.
  Hypothesis Hpub : just act sigma lab APublisher.
  Hypothesis Hhb : just act sigma lab AHeartbeat.
  Lemma ends n : m_stop (d_mem (sigma n)) = true -> ev n over.
  Proof.
    intros Hs.
    assert (T1 : forall n, d_pc (sigma n) = MWait2 -> ev n over).
    { intros i Hi. eapply ev_impl; [exact (wait_over false i Hhb Hi)|]. intros m _ H. right. exact H. }
    assert (T2 : forall n, d_pc (sigma n) = MStop2 -> ev n over).
    { intros i Hi. eapply ev_then; [exact (ask_over false i Hi)|]. intros m _. apply T1. }
    assert (T3 : forall n, d_pc (sigma n) = MWait1 -> ev n over).
    { intros i Hi. eapply ev_then; [exact (wait_over true i Hpub Hi)|]. intros m _. apply T2. }
    assert (T4 : forall n, d_pc (sigma n) = MStop1 -> ev n over).
    { intros i Hi. eapply ev_then; [exact (ask_over true i Hi)|]. intros m _. apply T3. }
    destruct (loop_quits n Hs) as [Hc|Hc].
    - destruct (d_pc (sigma n)) eqn:E; try contradiction; auto; apply ev_now; [right|left]; exact E.
    - eapply ev_then; [exact Hc|]. intros m _ [H|H]; [apply ev_now; now left|now apply T4].
  Qed.
  Lemma over_ended n : over n -> d_pc (sigma n) = MCrash \/ ended (sigma n).
  Proof.
    intros [H|H]; [now left|right]. destruct (fwds_at n) as (_ & _ & C). rewrite H in C. destruct C as [[_ C1] [_ C2]]. split; auto.
  Qed.

  (** *** Every message is forwarded *)
  Lemma fw_all b n : f_all (fw b n) = if b then start :: published (obs n) else beats (obs n).
  Proof. destruct (run_fwd listener _ _ _ (obs_run n)) as [A B]. unfold fw. destruct b; [rewrite A|rewrite B]; reflexivity. Qed.
  Lemma fw_running b n : ~ closing (d_pc (sigma n)) -> f_ok (fw b n) /\ f_running (fw b n).
  Proof. intros Hc. destruct (fwds_at n) as (A & B & C). destruct (d_pc (sigma n)); cbn in *; try tauto; destruct b; tauto. Qed.
  Lemma closing_dec (pc : mpc U) : {closing pc} + {~ closing pc}.
  Proof. destruct pc; (left; exact I) || (right; intros []). Qed.
  Lemma all_prefix b n m : n <= m -> prefix (f_all (fw b n)) (f_all (fw b m)).
  Proof.
    intros H. rewrite !fw_all. destruct (obs_prefix _ _ H) as [r ->]. destruct b.
    - rewrite published_app. exists (published r). reflexivity.
    - rewrite beats_app. exists (beats r). reflexivity.
  Qed.
  Lemma forwarded b n : just act sigma lab (fa b) ->
    ev n (fun m => List.length (f_all (fw b n)) <= List.length (f_out (fw b m)) \/ closing (d_pc (sigma m))).
  Proof.
    clear Hown Hmain Hinput Hpub Hhb.
    intros HJ. set (N := List.length (f_all (fw b n))).
    set (rank := fun m => 3 * (N - List.length (f_out (fw b m))) + stage (fw b m)).
    apply (ranked rank (fun m => n <= m)); [|lia]. intros i Hi.
    destruct (closing_dec (d_pc (sigma i))) as [Hc|Hc]; [apply ev_now; auto|].
    destruct (le_lt_dec N (List.length (f_out (fw b i)))) as [Hd|Hd]; [apply ev_now; auto|].
    apply (leads act sigma lab (fa b) (fun j => i <= j /\ ~ closing (d_pc (sigma j)) /\ f_pc (fw b j) = f_pc (fw b i) /\ f_out (fw b j) = f_out (fw b i))); auto.
    - intros j (A & B & C & D). destruct (fw_running b j B) as [W1 W2]. apply able_fw; [clear - B; destruct (d_pc (sigma j)); try exact I; now destruct B|].
      apply fw_moves; auto. rewrite D. destruct (all_prefix b n j) as [r Hr]; [lia|]. rewrite Hr, app_length. fold N. lia.
    - intros j (A & B & C & D). destruct (fw_running b j B) as [W1 W2]. destruct (closing_dec (d_pc (sigma (S j)))) as [Hc'|Hc']; [right; auto|].
      destruct (fw_step b j) as [(l & El & Ep & F)|(Hl & E1 & E2 & _)].
      + right. right. split; [lia|]. unfold rank. assert (S0 : stage (fw b j) = stage (fw b i)) by (unfold stage; now rewrite C).
        pose proof (stage_le (fw b (S j))). destruct (fw_progress _ _ W2 F) as [[F1 F2]|F1]; rewrite F1, D; lia.
      + left. split; [|exact Hl]. repeat split; auto; congruence.
  Qed.
  Lemma out_prefix f : prefix (f_out f) (f_all f).
  Proof. eexists. reflexivity. Qed.
End Default.

Lemma prefix_of {A} (a b c : list A) : prefix a c -> prefix b c -> List.length a <= List.length b -> prefix a b.
Proof.
  revert b c. induction a as [|x a IH]; intros b c [r Hr] [r' Hr'] L; [exists b; reflexivity|].
  destruct b as [|y b]; [cbn in L; lia|]. subst c. injection Hr' as -> H. destruct (IH b (a ++ r)%list) as [q ->]; [eexists; reflexivity|eexists; eauto|cbn in L; lia|].
  exists q. reflexivity.
Qed.
Section Taken_prefix.
  Context {U : Type} (listener : channel -> frames -> kprog U unit).
  Lemma taken_prefix k0 start sigma lab c n m : executes (acts listener) sigma lab -> sigma 0 = d_init k0 start -> n <= m ->
    List.length (arrived c (observed lab n)) <= cnt lab c m -> prefix (arrived c (observed lab n)) (taken_from c (observed lab m)).
  Proof.
    intros Hex H0 Hm HL. destruct (run_queues listener _ _ _ (obs_run listener k0 start sigma lab Hex H0 m) eq_refl eq_refl) as [Q1 Q2].
    eapply prefix_of; [|destruct c; [exists (m_shellq (d_mem (sigma m)))|exists (m_ctlq (d_mem (sigma m)))]; eassumption|exact HL].
    destruct (obs_prefix lab n m Hm) as [r ->]. exists (arrived c r). apply arrived_app.
  Qed.
End Taken_prefix.
