(** The default server handles requests one after the other: a run of its threads is a sequential
    execution of the kernel's [dispatch] on the messages handed over, in order. *)
From Verif Require Import Base BaseFacts Json JsonText Auth Message History Comm Tree Kernel KernelSpec KernelProofs Server ServerSpec ServerProofs SequentialSpec.

(** ** Paths of one program *)
Section Paths.
  Context {U : Type}.
  Implicit Types (s : kstate U).
  Definition plain (o : kop U) : Prop := match o with KShellPop | KShellLen | KCall _ => False | _ => True end.
  Notation nopop := (always plain).
  (** One operation: the answer, the messages it took from the shell socket, the new state. *)
  Definition estep (o : kop U) : kstate U -> kans o -> list frames -> kstate U -> Prop :=
    match o return kstate U -> kans o -> list frames -> kstate U -> Prop with
    | KShellLen => fun s x t s' => s' = s /\ t = []
    | KShellPop => fun s x t s' => s' = s /\ t = match x with Some w => [w] | None => [] end
    | KCall _ => fun _ _ _ _ => False
    | o => fun s x t s' => s' = fst (kstep o s) /\ x = snd (kstep o s) /\ t = []
    end.
  (** [epath p s l p' s']: [p] started in [s] may come to [p'] in [s'], having taken [l]. *)
  Fixpoint epath {A} (p : kprog U A) (s : kstate U) (l : list frames) (p' : kprog U A) (s' : kstate U) : Prop :=
    (p' = p /\ s' = s /\ l = []) \/
    match p with
    | Do o k => exists x t s1 l1, estep o s x t s1 /\ l = (t ++ l1)%list /\ epath (k x) s1 l1 p' s'
    | _ => False
    end.
  Definition leaf {A} (p : kprog U A) : option (res A) :=
    match p with Ret a => Some (Ok a) | Throw e => Some (Exn e) | Stuck w => Some (UB w) | Do _ _ => None end.
  Definition extends s s' : Prop := exists evs, k_trace s' = (k_trace s ++ evs)%list.

  Lemma extends_refl s : extends s s.
  Proof. exists []. now rewrite app_nil_r. Qed.
  Lemma extends_same s s' : k_trace s' = k_trace s -> extends s s'.
  Proof. intros H. exists []. now rewrite app_nil_r. Qed.
  Lemma extends_trans s1 s2 s3 : extends s1 s2 -> extends s2 s3 -> extends s1 s3.
  Proof. intros [a A] [b B]. exists (a ++ b)%list. now rewrite B, A, app_assoc. Qed.
  Lemma step_extends o s : extends s (fst (kstep o s)).
  Proof.
    destruct o; try (apply extends_same; reflexivity).
    - eexists; reflexivity.
    - cbn. destruct (k_shell s); apply extends_same; reflexivity.
    - cbn. destruct (k_replies s); apply extends_same; reflexivity.
  Qed.
  Lemma run_extends {A} (p : kprog U A) s : extends s (fst (run p s)).
  Proof.
    unfold run. revert s. induction p as [a|e|w|o k IH]; intros s; cbn; try apply extends_refl.
    pose proof (step_extends o s) as X. destruct (kstep o s) as [s1 x]. eapply extends_trans; [exact X|apply IH].
  Qed.
  Lemma extends_shell s s' q : extends (set_shell q s) s' -> extends s s'.
  Proof. intros [e H]. exists e. exact H. Qed.
  Lemma run_shell_empty {A} (p : kprog U A) s : k_shell s = [] -> k_shell (fst (run p s)) = [].
  Proof.
    unfold run. revert s. induction p as [a|e|w|o k IH]; intros s H; cbn [exec fst]; auto.
    destruct (kstep o s) as [s1 x] eqn:Ho. apply IH. destruct o; cbn [kstep] in Ho; rewrite ?H in Ho; try (injection Ho as <- _; exact H).
    destruct (k_replies s); injection Ho as <- _; exact H.
  Qed.
  (** What has been emitted, and the pending messages are all taken. *)
  Definition later s s' : Prop := extends s s' /\ k_shell s' = [].
  Lemma later_run {A} (p : kprog U A) s : later s (fst (run p (set_shell [] s))).
  Proof. split; [eapply extends_shell, run_extends|now apply run_shell_empty]. Qed.
  Lemma later_trans {A} (p : kprog U A) s s' : later s s' -> later s (fst (run p s')).
  Proof. intros [X Y]. split; [eapply extends_trans; [exact X|apply run_extends]|now apply run_shell_empty]. Qed.
  Lemma leaf_run {A} (p : kprog U A) r s : leaf p = Some r -> run p s = (s, r).
  Proof. destruct p; cbn; intros [= <-]; reflexivity. Qed.

  Lemma epath_nil {A} (p : kprog U A) s : epath p s [] p s.
  Proof. destruct p; cbn; auto. Qed.
  Lemma epath_app {A} (p : kprog U A) : forall s l p' s' l2 p2 s2, epath p s l p' s' -> epath p' s' l2 p2 s2 -> epath p s (l ++ l2) p2 s2.
  Proof.
    induction p as [a|e|w|o k IH]; intros s l p' s' l2 p2 s2 H X; cbn [epath] in H; destruct H as [(-> & -> & ->)|H]; auto; try contradiction.
    destruct H as (x & t & s1 & l1 & He & -> & H). cbn [epath]. right. exists x, t, s1, (l1 ++ l2)%list. split; auto. split; [now rewrite app_assoc|]. eapply IH; eauto.
  Qed.
  Lemma plain_shell o s q : plain o -> kstep o (set_shell q s) = (set_shell q (fst (kstep o s)), snd (kstep o s)).
  Proof. destruct o; cbn; intros H; try contradiction; reflexivity. Qed.
  Lemma plain_step o s x t s' : plain o -> estep o s x t s' -> s' = fst (kstep o s) /\ x = snd (kstep o s) /\ t = [].
  Proof. destruct o; cbn [plain estep]; intros H; try contradiction; auto. Qed.

  Lemma nopop_path {A} (p : kprog U A) : forall s l p' s', epath p s l p' s' -> nopop p ->
    l = [] /\ nopop p' /\ forall q, run p (set_shell q s) = run p' (set_shell q s').
  Proof.
    unfold run. induction p as [a|e|w|o k IH]; intros s l p' s' H Hn; cbn [epath] in H; destruct H as [(-> & -> & ->)|H]; auto; try contradiction.
    destruct H as (x & t & s1 & l1 & He & -> & H). destruct Hn as [Ho Hk]. apply plain_step in He as (-> & -> & ->); auto.
    apply IH in H as (-> & N & R); auto. split; auto. split; auto. intros q. cbn [exec]. rewrite plain_shell by auto. apply R.
  Qed.
  Lemma bind_path {A B} (p : kprog U A) (f : A -> kprog U B) : forall s l P s', epath (tbind p f) s l P s' ->
    (exists p', P = tbind p' f /\ epath p s l p' s') \/
    (exists a s1 l1 l2, epath p s l1 (Ret a) s1 /\ epath (f a) s1 l2 P s' /\ l = (l1 ++ l2)%list).
  Proof.
    induction p as [a|e|w|o k IH]; cbn [tbind]; intros s l P s' H.
    - right. exists a, s, [], l. split; [apply epath_nil|auto].
    - destruct H as [(-> & -> & ->)|[]]. left. exists (Throw e). split; auto. apply epath_nil.
    - destruct H as [(-> & -> & ->)|[]]. left. exists (Stuck w). split; auto. apply epath_nil.
    - destruct H as [(-> & -> & ->)|(x & t & s1 & l1 & He & -> & H)].
      + left. exists (Do o k). split; auto. apply epath_nil.
      + apply IH in H as [(p2 & -> & X)|(a & s2 & l2 & l3 & X1 & X2 & ->)].
        * left. exists p2. split; auto. cbn [epath]. right. exists x, t, s1, l1. auto.
        * right. exists a, s2, (t ++ l2)%list, l3. split; [|split; [auto|now rewrite app_assoc]]. cbn [epath]. right. exists x, t, s1, l2. auto.
  Qed.
  Lemma catch_path {A} (p h : kprog U A) : forall s l P s', epath (catch_std p h) s l P s' ->
    (exists p', P = catch_std p' h /\ epath p s l p' s') \/
    (exists what s1 l1 l2, epath p s l1 (Throw (Std what)) s1 /\ epath h s1 l2 P s' /\ l = (l1 ++ l2)%list).
  Proof.
    induction p as [a|e|w|o k IH]; cbn [catch_std]; intros s l P s' H.
    - destruct H as [(-> & -> & ->)|[]]. left. exists (Ret a). split; auto. apply epath_nil.
    - destruct e as [what|tag]; cbn [is_std] in H.
      + right. exists what, s, [], l. split; [apply epath_nil|auto].
      + destruct H as [(-> & -> & ->)|[]]. left. exists (Throw (Foreign tag)). split; auto. apply epath_nil.
    - destruct H as [(-> & -> & ->)|[]]. left. exists (Stuck w). split; auto. apply epath_nil.
    - destruct H as [(-> & -> & ->)|(x & t & s1 & l1 & He & -> & H)].
      + left. exists (Do o k). split; auto. apply epath_nil.
      + apply IH in H as [(p2 & -> & X)|(a & s2 & l2 & l3 & X1 & X2 & ->)].
        * left. exists p2. split; auto. cbn [epath]. right. exists x, t, s1, l1. auto.
        * right. exists a, s2, (t ++ l2)%list, l3. split; [|split; [auto|now rewrite app_assoc]]. cbn [epath]. right. exists x, t, s1, l2. auto.
  Qed.

  (** A path of [p] is an initial part of the sequential execution in which the messages taken on
      the path are pending. *)
  Definition follows {A} (P : kprog U A) s' (r : kstate U * res A) : Prop :=
    later s' (fst r) /\ forall x, leaf P = Some x -> r = (set_shell [] s', x).
  Definition sequential {A} (p : kprog U A) : Prop :=
    forall s l P s', epath p s l P s' -> follows P s' (run p (set_shell (List.map Some l) s)).
  Lemma follows_run {A} (P : kprog U A) s : follows P s (run P (set_shell [] s)).
  Proof.
    split; [apply later_run|]. intros x Hx. now apply leaf_run.
  Qed.
  Lemma seq_nopop {A} (p : kprog U A) : nopop p -> sequential p.
  Proof. intros Hn s l P s' H. apply nopop_path in H as (-> & _ & R); auto. cbn [List.map]. rewrite R. apply follows_run. Qed.
  Lemma seq_bind_l {A B} (p : kprog U A) (f : A -> kprog U B) : nopop p -> (forall a, sequential (f a)) -> sequential (tbind p f).
  Proof.
    intros Hn Hf s l P s' H. apply bind_path in H as [(p' & -> & H)|(a & s1 & l1 & l2 & H1 & H2 & ->)].
    - apply nopop_path in H as (-> & _ & R); auto. cbn [List.map]. unfold run in *. rewrite exec_bind, R, <- exec_bind. apply follows_run.
    - apply nopop_path in H1 as (-> & _ & R); auto. cbn [app]. apply Hf in H2. unfold run in *. rewrite exec_bind, R. exact H2.
  Qed.
  Lemma leaf_bind {A B} (p : kprog U A) (f : A -> kprog U B) x : leaf (tbind p f) = Some x ->
    (exists a, p = Ret a /\ leaf (f a) = Some x) \/ (exists e, p = Throw e /\ x = Exn e) \/ (exists w, p = Stuck w /\ x = UB w).
  Proof. destruct p; cbn; intros H; eauto; try discriminate; injection H as <-; eauto. Qed.
  Lemma seq_bind_r {A B} (p : kprog U A) (f : A -> kprog U B) : sequential p -> (forall a, nopop (f a)) -> sequential (tbind p f).
  Proof.
    intros Hp Hf s l P s' H. apply bind_path in H as [(p' & -> & H)|(a & s1 & l1 & l2 & H1 & H2 & ->)].
    - apply Hp in H as [X Y]. unfold run in *. rewrite exec_bind. split.
      + destruct (exec (kstep (U := U)) p (set_shell (List.map Some l) s)) as [s1 [a|e|w]]; cbn [fst] in *; auto.
        now apply later_trans.
      + intros x Hx. apply leaf_bind in Hx as [(a & -> & Hx)|[(e & -> & ->)|(w & -> & ->)]]; rewrite (Y _ eq_refl); auto. now apply leaf_run.
    - apply nopop_path in H2 as (-> & _ & R); auto. rewrite app_nil_r. apply Hp in H1 as [_ Y]. unfold run in *.
      rewrite exec_bind, (Y _ eq_refl), R. apply follows_run.
  Qed.
  Lemma seq_catch {A} (p h : kprog U A) : sequential p -> nopop h -> sequential (catch_std p h).
  Proof.
    intros Hp Hh s l P s' H. apply catch_path in H as [(p' & -> & H)|(what & s1 & l1 & l2 & H1 & H2 & ->)].
    - apply Hp in H as [X Y]. unfold run in *. rewrite exec_catch. split.
      + destruct (exec (kstep (U := U)) p (set_shell (List.map Some l) s)) as [s1 [a|[e|e]|w]]; cbn [fst] in *; auto.
        now apply later_trans.
      + intros x Hx. destruct p' as [a|[e|e]|w|o k]; cbn in Hx; try discriminate; try (injection Hx as <-; rewrite (Y _ eq_refl); reflexivity).
        rewrite (Y _ eq_refl). now apply leaf_run.
    - apply nopop_path in H2 as (-> & _ & R); auto. rewrite app_nil_r. apply Hp in H1 as [_ Y]. unfold run in *.
      rewrite exec_catch, (Y _ eq_refl), R. apply follows_run.
  Qed.
End Paths.
Notation nopop := (always plain).

(** ** The kernel's programs *)
Section Programs.
  Context {U : Type} (E : env U).
  Implicit Types (s : kstate U).
  Ltac np := repeat match goal with
    | |- nopop (tbind _ _) => apply always_bind; [|intros ?]
    | |- nopop (catch_std _ _) => apply always_catch
    | |- nopop (attempt _) => apply always_attempt
    | |- nopop (of_res _) => apply always_of_res
    | |- nopop (kdo _) => split; [exact I | intros ?; exact I]
    | |- nopop (perform _) => split; [exact I | intros ?; exact I]
    | |- nopop (Ret _) => exact I
    | |- nopop (Throw _) => exact I
    | |- nopop (Stuck _) => exact I
    | |- nopop (match ?x with _ => _ end) => destruct x
    | _ => progress unfold log, emit, new_guid, now, new_header, get_metadata, with_comms, look_comms
    end.
  Lemma np_publish ty md ct b c : nopop (publish_message E ty md ct b c).
  Proof. unfold publish_message. cbv zeta. np. Qed.
  Lemma np_send ids ty ph md ct c : nopop (send_reply_to E ids ty ph md ct c).
  Proof. unfold send_reply_to. cbv zeta. np. Qed.
  Lemma np_reply ty md ct c : nopop (send_reply E ty md ct c).
  Proof. unfold send_reply. np. apply np_send. Qed.
  Lemma np_target p ty md ct b : nopop (target_publish E p ty md ct b).
  Proof. unfold target_publish. np. apply np_publish. Qed.
  Lemma np_api0 o : nopop (api0 E o).
  Proof.
    destruct o; cbn [api0]; unfold publish_execution_input, comm_open_msg, comm_close_msg, comm_send_msg; np; auto using np_publish, np_target.
  Qed.
  Lemma np_embed0 {A} (t : ucode0 U A) : nopop (embed0 E t).
  Proof. induction t; cbn [embed0]; try exact I. apply always_bind; [apply always_attempt, np_api0|auto]. Qed.
  Lemma np_stdin w : nopop (dispatch_stdin E w).
  Proof. unfold dispatch_stdin, input_reply. np. apply np_embed0. Qed.
  Lemma np_input p b : nopop (input_request E p b).
  Proof. unfold input_request, send_stdin. cbv zeta. np. apply np_stdin. Qed.
  Lemma np_api1 o : nopop (api1 E o).
  Proof. destruct o; cbn [api1]; [apply np_api0|apply np_input|]. unfold blocking_input_request. np. apply np_input. Qed.
  Lemma np_embed {A} (t : ucode U A) : nopop (embed E t).
  Proof. induction t; cbn [embed]; try exact I. apply always_bind; [apply always_attempt, np_api1|auto]. Qed.
  Lemma np_interp r : nopop (interp E r).
  Proof. unfold interp. np. apply np_embed. Qed.
  Context (Hs : e_split E = false).
  Lemma np_api2 o : nopop (api2 E o).
  Proof. destruct o; cbn [api2]; [apply np_api1|]. unfold send_to_shell, dispatch_internal. rewrite Hs. np. apply np_interp. Qed.
  Lemma np_embed2 {A} (t : ucode2 U A) : nopop (embed2 E t).
  Proof. induction t; cbn [embed2]; try exact I. apply always_bind; [apply always_attempt, np_api2|auto]. Qed.
  Lemma np_abort w : nopop (abort_request E w).
  Proof. unfold abort_request. cbv zeta. np. apply np_send. Qed.

  Lemma run_loop_empty m s : run (abort_loop E m) (set_shell [] s) = (set_shell [] s, Ok tt).
  Proof. destruct m; reflexivity. Qed.
  Lemma follows_loop n : forall s l P s', epath (abort_loop E n) s l P s' -> forall m, List.length l <= m ->
    follows P s' (run (abort_loop E (S m)) (set_shell (List.map Some l) s)).
  Proof.
    induction n as [|n IH]; intros s l P s' H m Hm.
    - cbn in H. destruct H as [(-> & -> & ->)|[]]. split; [apply later_run|]. cbn [leaf]. intros x [= <-]. apply run_loop_empty.
    - cbn [abort_loop] in H. apply bind_path in H as [(p' & -> & H)|(a & s1 & l1 & l2 & H1 & H2 & ->)].
      + cbn in H. destruct H as [(-> & -> & ->)|(x & t & s1 & l1 & (-> & ->) & -> & [(-> & -> & ->)|[]])].
        * split; [apply later_run|]. discriminate.
        * rewrite app_nil_r. destruct x as [w|]; cbn [tbind List.map].
          { unfold run. cbn [abort_loop kdo perform tbind exec kstep k_shell set_shell]. split; [refine (later_run _ s)|].
            intros r Hr. apply leaf_bind in Hr as [(u & Ha & Hl)|[(e & Ha & ->)|(e & Ha & ->)]]; rewrite exec_bind.
            - rewrite Ha. cbn [exec]. destruct n; cbn in Hl; try discriminate. injection Hl as <-. apply (run_loop_empty m s).
            - rewrite Ha. reflexivity.
            - rewrite Ha. reflexivity. }
          { rewrite run_loop_empty. split; [split; [exists []; now rewrite app_nil_r|reflexivity]|]. cbn. intros r [= <-]. reflexivity. }
      + cbn in H1. destruct H1 as [([=] & _)|(x & t & s2 & l3 & (-> & ->) & -> & [([= <-] & -> & ->)|[]])]. rewrite app_nil_r in *.
        destruct a as [w|].
        * cbn [app List.map List.length] in *. unfold run. cbn [abort_loop kdo perform tbind exec kstep k_shell set_shell].
          change (follows P s' (run (tbind (abort_request E w) (fun _ => abort_loop E m)) (set_shell (List.map Some l2) s))).
          apply bind_path in H2 as [(p' & -> & H)|(u & s1 & l1 & l3 & H1 & H2 & ->)].
          { apply nopop_path in H as (-> & _ & R); [|apply np_abort]. cbn [List.map]. unfold run in *. rewrite exec_bind, R, <- exec_bind.
            split; [apply later_run|]. intros r Hr. apply leaf_bind in Hr as [(v & -> & Hl)|[(e & -> & ->)|(e & -> & ->)]]; cbn [tbind]; try reflexivity.
            destruct n; cbn in Hl; try discriminate. injection Hl as <-. apply (run_loop_empty m s'). }
          { apply nopop_path in H1 as (-> & _ & R); [|apply np_abort]. cbn [app] in *. unfold run in *. rewrite exec_bind, R. cbn [exec].
            destruct m as [|m]; [lia|]. apply (IH _ _ _ _ H2 m). lia. }
        * cbn in H2. destruct H2 as [(-> & -> & ->)|[]]. cbn [app List.map]. rewrite run_loop_empty. split; [split; [exists []; now rewrite app_nil_r|reflexivity]|]. cbn. intros r [= <-]. reflexivity.
  Qed.
  Lemma seq_abort : sequential (abort_queue E).
  Proof.
    intros s l P s' H. unfold abort_queue in *. apply bind_path in H as [(p' & -> & H)|(a & s1 & l1 & l2 & H1 & H2 & ->)].
    - cbn in H. destruct H as [(-> & -> & ->)|(x & t & s1 & l1 & (-> & ->) & -> & [(-> & -> & ->)|[]])].
      + split; [apply later_run|]. discriminate.
      + cbn [app tbind List.map]. split; [apply later_run|]. discriminate.
    - cbn in H1. destruct H1 as [([=] & _)|(x & t & s2 & l3 & (-> & ->) & -> & [([= <-] & -> & ->)|[]])]. cbn [app].
      pose proof (follows_loop _ _ _ _ _ H2 (List.length l2) (le_n _)) as X.
      assert (Y : run (tbind (kdo KShellLen) (fun n => abort_loop E (S n))) (set_shell (List.map Some l2) s) = run (abort_loop E (S (List.length l2))) (set_shell (List.map Some l2) s)).
      { unfold run. cbn [kdo perform tbind exec kstep k_shell set_shell]. now rewrite map_length. }
      rewrite Y. exact X.
  Qed.
  Lemma seq_if {A} (b : bool) (p q : kprog U A) : sequential p -> sequential q -> sequential (if b then p else q).
  Proof. destruct b; auto. Qed.
  Lemma np_count_publish code n : nopop (publish_execution_input E code n).
  Proof. apply np_publish. Qed.
  Lemma np_interp_execute code silent st ue ai : nopop (interp_execute E code silent st ue ai).
  Proof. unfold interp_execute. np; auto using np_count_publish, np_interp. Qed.
  Lemma seq_execute m c : sequential (execute_request E m c).
  Proof.
    unfold execute_request. cbv zeta. apply seq_catch; [|exact I].
    repeat (apply seq_bind_l; [solve [np; auto using np_interp_execute, np_reply]|intros ?]).
    apply seq_if; [apply seq_abort|apply seq_nopop; exact I].
  Qed.
  Lemma np_handler ty h m c : mfind ty (handlers E) = Some h -> ty <> "execute_request" -> nopop (h m c).
  Proof.
    unfold handlers. cbn [mfind]. intros H Hne.
    repeat match type of H with (if ?b then _ else _) = _ => destruct b eqn:?; [injection H as <-|] end; try discriminate.
    - apply String.eqb_eq in Heqb. congruence.
    - unfold complete_request. np; auto using np_interp, np_reply.
    - unfold inspect_request. np; auto using np_interp, np_reply.
    - unfold history_request. np; auto using np_interp, np_reply.
    - unfold is_complete_request. np; auto using np_interp, np_reply.
    - unfold comm_info_request. np; auto using np_interp, np_reply.
    - unfold comm_open, run_callback. np; auto using np_embed.
    - unfold comm_close, run_handler. np; auto using np_embed.
    - unfold comm_msg, run_handler. np; auto using np_embed.
    - unfold kernel_info_request. np; auto using np_interp, np_reply.
    - unfold shutdown_request. cbv zeta. np; auto using np_interp, np_reply, np_publish.
    - unfold interrupt_request. np; auto using np_interp, np_reply, np_publish.
    - unfold debug_request. cbv zeta. np; auto using np_embed2, np_reply.
  Qed.
  Lemma seq_handle ty m c : sequential (handle E ty m c).
  Proof.
    unfold handle. destruct (mfind ty (handlers E)) as [h|] eqn:Hf; [|apply seq_nopop; exact I].
    apply seq_catch; [|np]. destruct (String.eqb_spec ty "execute_request") as [->|Hne].
    - injection Hf as <-. apply seq_execute.
    - apply seq_nopop. eapply np_handler; eauto.
  Qed.
  Lemma seq_dispatch w c : sequential (dispatch E w c).
  Proof.
    unfold dispatch. apply seq_bind_l; [np|]. intros [m|]; [|apply seq_nopop; exact I]. cbv zeta. unfold set_parent, publish_status.
    repeat (apply seq_bind_l; [solve [np; auto using np_publish]|intros ?]).
    apply seq_bind_r; [apply seq_handle|intros ?; apply np_publish].
  Qed.
End Programs.

(** ** The default server *)
Section Machine.
  Context {U : Type} (E : env U) (Hs : e_split E = false).
  Implicit Types (m : mem U) (k : kstate U).
  Notation listener := (fun c w => dispatch E w c).

  Lemma bare_bare k : bare (bare k) = bare k.
  Proof. reflexivity. Qed.
  Lemma mop_estep o m m' x : mop o m m' x -> exists t, estep o (bare (m_k m)) x t (bare (m_k m')) /\
    (forall c w es l ls, episodes ls (es ++ [(c, w, l)]) -> episodes (ls ++ [op_label o x]) (es ++ [(c, w, l ++ t)])) /\
    k_trace (m_k m') = (k_trace (m_k m) ++ happened [op_label o x])%list.
  Proof.
    assert (Other : forall ls es lab, (forall c w, lab <> Hand c w) -> (forall w, lab <> Took w) -> forall c w (l : list frames), episodes ls (es ++ [(c, w, l)]) -> episodes (ls ++ [lab]) (es ++ [(c, w, l ++ [])])).
    { intros. rewrite app_nil_r. apply ep_other; auto. }
    destruct o; cbn [mop op_label estep]; intros H; try contradiction;
      try (match type of H with _ /\ _ => destruct H as [-> ->] end; exists []; repeat split; [intros; apply Other; auto; discriminate|cbn; now rewrite app_nil_r]; fail).
    - subst m'. destruct x. exists []. split; [destruct e; repeat split|]. split; [|destruct e; reflexivity].
      intros; apply Other; auto; destruct e; discriminate.
    - destruct H as (_ & -> & ->). exists []. repeat split; [intros; apply Other; auto; discriminate|cbn; now rewrite app_nil_r].
    - subst m'. exists []. repeat split; [intros; apply Other; auto; discriminate|cbn; now rewrite app_nil_r].
    - destruct (m_shellq m) as [|w q]; destruct H as [-> ->].
      + exists []. repeat split; [intros; apply Other; auto; discriminate|cbn; now rewrite app_nil_r].
      + exists [w]. repeat split; [intros; now apply ep_took|cbn; now rewrite app_nil_r].
  Qed.

  (** What holds at each position of the main thread. *)
  Definition running (es : list episode) k0 (p : kprog U unit) k : Prop :=
    exists es' c w l k1, es = (es' ++ [(c, w, l)])%list /\ served E es' (bare k0) k1 /\ k_shell k1 = [] /\ epath (dispatch E w c) k1 l p (bare k).
  Definition crashed (es : list episode) k0 k : Prop := exists p r, running es k0 p k /\ leaf p = Some r /\ r <> Ok tt.
  Definition at_pc (es : list episode) k0 (pc : mpc U) k : Prop :=
    match pc with
    | MInControl p _ | MInShell p => running es k0 p k
    | MCrash => crashed es k0 k
    | _ => served E es (bare k0) (bare k)
    end.
  Lemma served_shell es k0 k1 : served E es (bare k0) k1 -> k_shell k1 = [] -> bare k1 = k1.
  Proof. intros _ H. destruct k1; cbn in *. subst. reflexivity. Qed.
  Lemma running_start es k0 k c w : served E es (bare k0) (bare k) -> running (es ++ [(c, w, [])]) k0 (dispatch E w c) k.
  Proof. intros H. exists es, c, w, [], (bare k). repeat split; auto. apply epath_nil. Qed.
  Lemma running_op es k0 o f m m' x ls : episodes ls es -> running es k0 (Do o f) (m_k m) -> mop o m m' x ->
    exists es', episodes (ls ++ [op_label o x]) es' /\ running es' k0 (f x) (m_k m').
  Proof.
    intros He (es' & c & w & l & k1 & -> & A & B & C) H. apply mop_estep in H as (t & H1 & H2 & _).
    exists (es' ++ [(c, w, l ++ t)])%list. split; auto. exists es', c, w, (l ++ t)%list, k1. repeat split; auto.
    eapply epath_app; [exact C|]. cbn [epath]. right. exists x, t, (bare (m_k m')), []. split; auto. split; [now rewrite app_nil_r|]. apply epath_nil.
  Qed.
  Lemma running_end es k0 k : running es k0 (Ret tt) k -> served E es (bare k0) (bare k).
  Proof.
    intros (es' & c & w & l & k1 & -> & A & B & C). apply (seq_dispatch E Hs) in C as [_ C]. eapply sd_snoc; [exact A|exact (C _ eq_refl)|reflexivity].
  Qed.
  Lemma machine_inv k0 start ls s : drun listener (d_init k0 start) ls s ->
    exists es, episodes ls es /\ at_pc es k0 (d_pc s) (m_k (d_mem s)) /\ k_trace (m_k (d_mem s)) = (k_trace k0 ++ happened ls)%list.
  Proof.
    intros H. remember (d_init k0 start) as s0 eqn:E0. induction H as [s|s ls s1 l s2 H IH Hstep]; subst.
    - exists []. split; [constructor|]. split; [constructor|]. cbn. now rewrite app_nil_r.
    - destruct (IH eq_refl) as (es & He & Hat & Htr). clear IH. unfold happened. rewrite flat_map_app. fold (happened ls).
      assert (Tau_case : forall lab, (forall c w, lab <> Hand c w) -> (forall w, lab <> Took w) -> episodes (ls ++ [lab]) es) by (intros; apply ep_other; auto).
      destruct Hstep as [s1 l s2 Hm| | | | | |];
        try (cbn [d_mem d_pc m_k set_pub set_hb set_ctlq set_shellq set_mstdin] in *; cbn [flat_map]; rewrite ?app_nil_r; exists es; split; [apply Tau_case; discriminate|auto]; fail).
      destruct Hm; cbn [d_mem d_pc m_k set_pub set_hb set_ctlq set_shellq set_mstdin] in *; cbn [flat_map]; rewrite ?app_nil_r;
        try (exists es; split; [apply Tau_case; discriminate|split; [exact Hat|exact Htr]]; fail).
      + exists es; split; [apply Tau_case; discriminate|]. split; auto. destruct rc; exact Hat.
      + exists (es ++ [(CONTROL, w, [])])%list. split; [now constructor|]. split; auto. now apply running_start.
      + destruct (running_op _ _ _ _ _ _ _ _ He Hat H0) as (es' & X & Y). exists es'. split; auto. split; auto.
        apply mop_estep in H0 as (t & _ & _ & T). rewrite T, Htr. cbn [happened flat_map]. now rewrite app_nil_r, app_assoc.
      + exists es; split; [apply Tau_case; discriminate|]. split; auto. cbn [at_pc] in *. apply running_end. destruct a; auto.
      + exists es; split; [apply Tau_case; discriminate|]. split; auto. cbn [at_pc] in *. destruct p; try contradiction; eexists; eexists; split; eauto; split; try reflexivity; discriminate.
      + exists es; split; [apply Tau_case; discriminate|]. split; auto. destruct (negb (m_stop m) && rs)%bool; exact Hat.
      + exists (es ++ [(SHELL, w, [])])%list. split; [now constructor|]. split; auto. now apply running_start.
      + destruct (running_op _ _ _ _ _ _ _ _ He Hat H0) as (es' & X & Y). exists es'. split; auto. split; auto.
        apply mop_estep in H0 as (t & _ & _ & T). rewrite T, Htr. cbn [happened flat_map]. now rewrite app_nil_r, app_assoc.
      + exists es; split; [apply Tau_case; discriminate|]. split; auto. cbn [at_pc] in *. apply running_end. destruct a; auto.
      + exists es; split; [apply Tau_case; discriminate|]. split; auto. cbn [at_pc] in *. destruct p; try contradiction; eexists; eexists; split; eauto; split; try reflexivity; discriminate.
  Qed.
End Machine.
