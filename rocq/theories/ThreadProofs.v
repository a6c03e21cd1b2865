(** Proofs for C109: a thread of the split servers is a kernel of its own, with other identifiers and dates. *)
From Verif Require Import Base BaseFacts Json JsonText Utf8 Utf8Proofs Auth Message MessageProofs WireSpec History HistoryProofs Comm Tree Kernel KernelSpec KernelProofs KernelRun KernelDispatch KernelSession KernelExec
  Server ServerSpec Split SplitSpec SplitAnsweredSpec SequentialSpec Shipped ShippedSpec ShippedProofs Heard Client Host HostSpec Construct Program ProgramSpec ProgramProofs ThreadSpec.

(** ** The programs with other identifiers and dates *)
Section Tied.
  Context (E : env unit) (W : manner) (T : string -> Prop).
  Hypothesis SH : shipped E W T.
  Variables f g : nat -> nat.
  Definition shift : env unit := {|
    e_crypto := e_crypto E; e_auth := e_auth E; e_eh := e_eh E; e_kernel_id := e_kernel_id E; e_user_name := e_user_name E; e_session_id := e_session_id E;
    e_guid := fun n => e_guid E (f n); e_now := fun n => e_now E (g n); e_stdin := e_stdin E; e_logger := e_logger E; e_regex := e_regex E; e_indet := e_indet E; e_long_id := e_long_id E;
    e_configure := e_configure E; e_interp := e_interp E; e_split := e_split E; e_debugger := e_debugger E; e_callback := e_callback E; e_handler := e_handler E; e_input := e_input E |}.
  Lemma shift_shipped : shipped shift W T.
  Proof. destruct SH as [[]|[]]; [apply sh_example|apply sh_test]; constructor; auto. Qed.
  Lemma shift_utf8 : env_utf8 E -> env_utf8 shift.
  Proof. intros (A & B & C & D). split; [exact A|]. split; [exact B|]. split; [intros n; apply C|intros n; apply D]. Qed.
  Lemma shift_session y ws gs y' : session W T E y ws gs y' -> session W T shift y ws gs y'.
  Proof.
    induction 1 as [y|y ws gs y1 c w gs1 y2 S IH R]; [constructor|]. econstructor; [exact IH|]. destruct R as [y1 c w R|y1 c w m ty gs1 n' h' A B ph D]; [now constructor|].
    exact (re_done W T shift y1 c w m ty gs1 n' h' A B D).
  Qed.
  Definition drawn (o : kop unit) : kans o -> kans o := match o return kans o -> kans o with KGuid => f | KNow => g | _ => fun x => x end.
  (** [c]: the channel of the thread; [b]: it may use what both threads share. *)
  Variables (c : channel) (b : bool).
  Definition own (o : kop unit) : Prop :=
    match o with
    | KPid c' | KPhdr c' | KSetPid c' _ | KSetPhdr c' _ => c' = c
    | KStdin | KCall _ => False
    | KGuid | KNow | KEmit _ | KShellLen | KShellPop => True
    | _ => b = true
    end.
  Definition then_pops {A} (o : kop unit) : (kans o -> kprog unit A) -> Prop :=
    match o return (kans o -> kprog unit A) -> Prop with KShellLen => fun k => forall n, exists k2, k n = Do (Ar := @kans unit) KShellPop k2 | _ => fun _ => True end.
  Fixpoint tied {A} (p' p : kprog unit A) : Prop :=
    match p with
    | Ret a => p' = Ret a
    | Throw e => p' = Throw e
    | Stuck w => p' = Stuck w
    | Do o k => own o /\ then_pops o k /\ exists k', p' = Do o k' /\ forall x, tied (k' x) (k (drawn o x))
    end.
  Lemma pops_bind {A B} o (k : kans o -> kprog unit A) (h : kprog unit A -> kprog unit B) : (forall k2, exists k3, h (Do (Ar := @kans unit) KShellPop k2) = Do (Ar := @kans unit) KShellPop k3) ->
    then_pops o k -> then_pops o (fun x => h (k x)).
  Proof. intros H. destruct o; cbn; auto. intros K n. destruct (K n) as [k2 ->]. apply H. Qed.
  Lemma tied_bind {A B} (p' p : kprog unit A) (h' h : A -> kprog unit B) : tied p' p -> (forall a, tied (h' a) (h a)) -> tied (tbind p' h') (tbind p h).
  Proof.
    intros H K. revert p' H. induction p as [a|e|w|o k IH]; intros p' H; cbn [tied] in H; try (subst; cbn; auto; reflexivity).
    destruct H as (G & P & k' & -> & H). cbn [tbind tied]. split; [exact G|]. split; [apply (pops_bind o k (fun t => tbind t h)); [intros k2; eexists; reflexivity|exact P]|].
    eexists. split; [reflexivity|]. intros x. apply IH. apply H.
  Qed.
  Lemma tied_catch {A} (p' p h' h : kprog unit A) : tied p' p -> tied h' h -> tied (catch_std p' h') (catch_std p h).
  Proof.
    intros H K. revert p' H. induction p as [a|e|w|o k IH]; intros p' H; cbn [tied] in H; try (subst; cbn; auto; reflexivity).
    - subst. cbn. destruct (is_std e); [exact K|reflexivity].
    - destruct H as (G & P & k' & -> & H). cbn [catch_std tied]. split; [exact G|]. split; [apply (pops_bind o k (fun t => catch_std t h)); [intros k2; eexists; reflexivity|exact P]|].
      eexists. split; [reflexivity|]. intros x. apply IH. apply H.
  Qed.
  Lemma tied_attempt {A} (p' p : kprog unit A) : tied p' p -> tied (attempt p') (attempt p).
  Proof.
    intros H. revert p' H. induction p as [a|e|w|o k IH]; intros p' H; cbn [tied] in H; try (subst; cbn; auto; reflexivity).
    destruct H as (G & P & k' & -> & H). cbn [attempt tied]. split; [exact G|]. split; [apply (pops_bind o k (fun t => attempt t)); [intros k2; eexists; reflexivity|exact P]|].
    eexists. split; [reflexivity|]. intros x. apply IH. apply H.
  Qed.
  Lemma tied_res {A} (r : res A) : tied (of_res r) (of_res r).
  Proof. destruct r; reflexivity. Qed.
  Lemma tied_op (o : kop unit) : own o -> o <> KGuid -> o <> KNow -> o <> KShellLen -> tied (kdo o) (kdo o).
  Proof. intros G N1 N2 N3. split; [exact G|]. split; [destruct o; try exact I; now destruct N3|]. eexists. split; [reflexivity|]. intros x. destruct o; try reflexivity; [now destruct N1|now destruct N2]. Qed.
  Lemma tied_header ty : tied (new_header shift ty) (new_header E ty).
  Proof.
    unfold new_header, new_guid, now. cbn [tbind kdo tied]. split; [exact I|]. split; [exact I|]. eexists. split; [reflexivity|]. intros x. cbn [tbind tied].
    split; [exact I|]. split; [exact I|]. eexists. split; [reflexivity|]. intros z. reflexivity.
  Qed.
  Ltac df := repeat match goal with
    | |- tied (tbind _ _) (tbind _ _) => apply tied_bind; [|intros ?]
    | |- tied (catch_std _ _) (catch_std _ _) => apply tied_catch
    | |- tied (attempt _) (attempt _) => apply tied_attempt
    | |- tied (of_res _) (of_res _) => apply tied_res
    | |- tied (new_header _ _) (new_header _ _) => apply tied_header
    | |- tied (kdo _) (kdo _) => apply tied_op; [first [exact I|reflexivity|assumption]|discriminate|discriminate|discriminate]
    | |- tied (Ret _) (Ret _) => reflexivity
    | |- tied (Throw _) (Throw _) => reflexivity
    | |- tied (Stuck _) (Stuck _) => reflexivity
    | |- tied (match ?x with _ => _ end) _ => destruct x
    | _ => progress unfold log, emit, with_comms, look_comms
    end.
  Lemma tied_publish ty md ct bufs ch : ch = c -> tied (publish_message shift ty md ct bufs ch) (publish_message E ty md ct bufs ch).
  Proof. intros Hc. unfold publish_message. cbv zeta. cbn [e_logger shift]. df. Qed.
  Lemma tied_status st ch : ch = c -> tied (publish_status shift st ch) (publish_status E st ch).
  Proof. intros Hc. now apply tied_publish. Qed.
  Lemma tied_reply_to ids ty ph md ct ch : tied (send_reply_to shift ids ty ph md ct ch) (send_reply_to E ids ty ph md ct ch).
  Proof. unfold send_reply_to. cbv zeta. cbn [e_logger shift]. df. Qed.
  Lemma tied_reply ty md ct : tied (send_reply shift ty md ct c) (send_reply E ty md ct c).
  Proof. unfold send_reply. df. apply tied_reply_to. Qed.
  Lemma tied_metadata : tied (get_metadata shift) (get_metadata E).
  Proof. unfold get_metadata, now. cbn [tbind kdo tied]. split; [exact I|]. split; [exact I|]. eexists. split; [reflexivity|]. intros x. reflexivity. Qed.
  Lemma tied_call o k : tied (api0 shift o) (api0 E o) -> tied (embed shift k) (embed E k) -> tied (embed shift (Shipped.call o k)) (embed E (Shipped.call o k)).
  Proof.
    intros H1 H2. change (tied (tbind (attempt (api0 shift o)) (fun r => embed shift (match r with inl _ => k | inr e => Throw e end)))
      (tbind (attempt (api0 E o)) (fun r => embed E (match r with inl _ => k | inr e => Throw e end)))).
    apply tied_bind; [now apply tied_attempt|]. intros [|]; [exact H2|reflexivity].
  Qed.
  (** Executions publish with the parent of the shell channel. *)
  Lemma tied_interp r : match r with RExecute _ _ _ _ _ _ => SHELL = c | _ => True end -> tied (interp shift r) (interp E r).
  Proof.
    intros Hr. unfold interp. apply tied_bind; [df|]. intros _. cbn [e_interp shift].
    destruct SH as [[_ -> _ _ _ _ _]|[_ -> _ _ _ _ _]]; destruct r; try reflexivity; cbn [custom_interpreter test_interpreter].
    - unfold custom_execute. apply tied_call; [now apply tied_publish|]. apply tied_call; [now apply tied_publish|]. reflexivity.
    - unfold test_execute. cbv zeta. repeat match goal with |- context [if ?b then _ else _] => destruct b end; repeat (apply tied_call; [now apply tied_publish|]); reflexivity.
  Qed.
  Lemma tied_abort_request w : tied (abort_request shift w) (abort_request E w).
  Proof. unfold abort_request. cbn [e_crypto e_auth shift]. df. apply tied_reply_to. Qed.
  Lemma tied_abort_loop n : tied (abort_loop shift n) (abort_loop E n).
  Proof. induction n; cbn [abort_loop]; df. - apply tied_abort_request. - exact IHn. Qed.
  Lemma tied_abort : tied (abort_queue shift) (abort_queue E).
  Proof.
    unfold abort_queue. cbn [tbind kdo perform tied]. split; [exact I|]. split; [intros n; eexists; reflexivity|]. eexists. split; [reflexivity|]. intros x. apply (tied_abort_loop (S x)).
  Qed.
  Section Shared.
    Hypothesis Hb : b = true.
    Hypothesis Hc : SHELL = c.
    Lemma tied_input code n : tied (publish_execution_input shift code n) (publish_execution_input E code n).
    Proof. unfold publish_execution_input. now apply tied_publish. Qed.
    Lemma tied_execute m : tied (execute_request shift m c) (execute_request E m c).
    Proof.
      unfold execute_request. cbv zeta. df; try exact tied_metadata; try apply tied_reply; try exact tied_abort.
      unfold interp_execute. df; [apply tied_input|now apply tied_interp].
    Qed.
    Lemma tied_history m : tied (history_request shift m c) (history_request E m c).
    Proof. unfold history_request. cbn [e_regex shift]. df. apply tied_reply. Qed.
    Lemma tied_comm_info m : tied (comm_info_request shift m c) (comm_info_request E m c).
    Proof. unfold comm_info_request. df. apply tied_reply. Qed.
  End Shared.
  Lemma tied_complete m : tied (complete_request shift m c) (complete_request E m c).
  Proof. unfold complete_request. df; [now apply tied_interp|apply tied_reply]. Qed.
  Lemma tied_inspect m : tied (inspect_request shift m c) (inspect_request E m c).
  Proof. unfold inspect_request. df; [now apply tied_interp|apply tied_reply]. Qed.
  Lemma tied_is_complete m : tied (is_complete_request shift m c) (is_complete_request E m c).
  Proof. unfold is_complete_request. df; [now apply tied_interp|apply tied_reply]. Qed.
  Lemma tied_kernel_info m : tied (kernel_info_request shift m c) (kernel_info_request E m c).
  Proof. unfold kernel_info_request. df; [now apply tied_interp|apply tied_reply]. Qed.
  Lemma tied_shutdown m : CONTROL = c -> tied (shutdown_request shift m c) (shutdown_request E m c).
  Proof. intros Hc. unfold shutdown_request. df; [now apply tied_interp|now apply tied_publish|apply tied_reply]. Qed.
  Lemma tied_interrupt m : CONTROL = c -> tied (interrupt_request shift m c) (interrupt_request E m c).
  Proof. intros Hc. unfold interrupt_request. df; [now apply tied_publish|apply tied_reply]. Qed.
  Lemma tied_run_handler h m : tied (run_handler shift h m) (run_handler E h m).
  Proof. unfold run_handler. cbn [e_handler shift]. destruct SH as [[_ _ _ Hh _ _ _]|[_ _ _ Hh _ _ _]]; destruct h; df; rewrite Hh; reflexivity. Qed.
  Lemma tied_run_callback h a m : tied (run_callback shift h a m) (run_callback E h a m).
  Proof. unfold run_callback. cbn [e_callback shift]. destruct SH as [[_ _ Hh _ _ _ _]|[_ _ Hh _ _ _ _]]; destruct h; df; rewrite Hh; reflexivity. Qed.
  Lemma tied_comm_open m : b = true -> tied (comm_open shift m c) (comm_open E m c).
  Proof. intros Hb. unfold comm_open. cbn [e_long_id e_indet shift]. df. apply tied_run_callback. Qed.
  Lemma tied_comm_close m : b = true -> tied (comm_close shift m c) (comm_close E m c).
  Proof. intros Hb. unfold comm_close, no_such_comm. cbn [e_long_id shift]. df. apply tied_run_handler. Qed.
  Lemma tied_comm_msg m : b = true -> tied (comm_msg shift m c) (comm_msg E m c).
  Proof. intros Hb. unfold comm_msg, no_such_comm. cbn [e_long_id shift]. df. apply tied_run_handler. Qed.
  Lemma tied_debug m : tied (debug_request shift m c) (debug_request E m c).
  Proof. unfold debug_request. cbn [e_debugger shift]. rewrite (sh_nodebug E W T SH). reflexivity. Qed.
  Lemma tied_handle ty m : b = match c with SHELL => true | CONTROL => false end -> homely c ty -> tied (handle shift ty m c) (handle E ty m c).
  Proof.
    intros Hb Hh. unfold handle, handlers. cbn [mfind].
    assert (Sh : In ty ["execute_request"; "history_request"; "comm_info_request"; "comm_open"; "comm_close"; "comm_msg"] -> SHELL = c /\ b = true).
    { intros Hi. destruct c; [auto|]. now destruct Hh. }
    assert (Ct : In ty ["shutdown_request"; "interrupt_request"] -> CONTROL = c).
    { intros Hi. destruct c; [now destruct Hh|auto]. }
    repeat match goal with |- context [String.eqb ?x ty] => destruct (String.eqb_spec x ty) as [->|?]; [|] | |- context [String.eqb ty ?x] => destruct (String.eqb_spec ty x) as [->|?]; [|] end; cbn [mfind]; try reflexivity; (apply tied_catch; [|df]).
    - destruct Sh; [cbn; tauto|]. now apply tied_execute.
    - apply tied_complete.
    - apply tied_inspect.
    - destruct Sh; [cbn; tauto|]. now apply tied_history.
    - apply tied_is_complete.
    - destruct Sh; [cbn; tauto|]. now apply tied_comm_info.
    - destruct Sh; [cbn; tauto|]. now apply tied_comm_open.
    - destruct Sh; [cbn; tauto|]. now apply tied_comm_close.
    - destruct Sh; [cbn; tauto|]. now apply tied_comm_msg.
    - apply tied_kernel_info.
    - apply tied_shutdown. apply Ct. cbn; tauto.
    - apply tied_interrupt. apply Ct. cbn; tauto.
    - apply tied_debug.
  Qed.
  Lemma tied_dispatch w : b = match c with SHELL => true | CONTROL => false end -> keeps_to E c w -> tied (dispatch shift w c) (dispatch E w c).
  Proof.
    intros Hb K. unfold dispatch. cbn [e_crypto e_auth shift].
    destruct (deserialize (e_crypto E) (e_auth E) w) as [m|e|x] eqn:Ed; cbn [of_res tbind catch_std]; [|destruct e; cbn [is_std tbind]; reflexivity|reflexivity].
    cbv zeta. unfold set_parent. cbn [e_logger shift]. apply tied_bind; [df|]. intros _. apply tied_bind; [df|]. intros _. apply tied_bind; [now apply tied_status|]. intros _.
    destruct (value_string "msg_type" "" (m_header (m_base m))) as [ty|e|x] eqn:Ev; cbn [of_res tbind]; [|reflexivity|reflexivity].
    df; [|now apply tied_status]. apply tied_handle; [exact Hb|]. apply (K m ty); [exact Ed|]. now apply typed_value.
  Qed.
End Tied.

(** ** The two threads *)
Definition free (c : channel) : bool := match c with SHELL => true | CONTROL => false end.
Record agree (c : channel) (ks k : kstate unit) : Prop := {
  ag_pid : k_pid ks c = k_pid k c;
  ag_phdr : k_phdr ks c = k_phdr k c;
  ag_free : free c = true -> k_count ks = k_count k /\ k_history ks = k_history k /\ k_comms ks = k_comms k /\ k_input ks = k_input k /\ k_value ks = k_value k /\ k_user ks = k_user k
}.
Definition extends (l : list nat) (f : nat -> nat) : Prop := forall i x, nth_error l i = Some x -> f i = x.
Lemma extends_app l l' f : extends (l ++ l') f -> extends l f.
Proof. intros H i x Hi. apply H. rewrite nth_error_app1; [exact Hi|]. apply nth_error_Some. congruence. Qed.
Lemma extends_last l x f : extends (l ++ [x]) f -> f (List.length l) = x.
Proof. intros H. apply H. rewrite nth_error_app2, PeanoNat.Nat.sub_diag; [reflexivity|lia]. Qed.
Lemma extends_id l : exists f, extends l f.
Proof. exists (fun i => nth i l 0). intros i x Hi. now apply nth_error_nth. Qed.
Lemma m_k_event (e : event) (m : mem unit) : m_k (on_event e m) = m_k m.
Proof. destruct e; reflexivity. Qed.
Lemma upd_same {A} c (x : A) f : upd_chan c x f c = x.
Proof. unfold upd_chan. now destruct c. Qed.
Lemma upd_other {A} c c' (x : A) f : c' <> c -> upd_chan c' x f c = f c.
Proof. unfold upd_chan. destruct c, c'; intros H; try reflexivity; now destruct H. Qed.
Definition emits (o : kop unit) : list event := match o with KEmit e => [e] | _ => [] end.
Lemma own_step c o m m' (x : kans o) ks lg ln : own c (free c) o -> o <> KShellLen -> o <> KShellPop -> mop o m m' x -> agree c ks (m_k m) ->
  k_guid ks = List.length lg -> k_clock ks = List.length ln -> exists lg' ln',
  agree c (fst (kstep o ks)) (m_k m') /\ k_guid (fst (kstep o ks)) = List.length (lg ++ lg') /\ k_clock (fst (kstep o ks)) = List.length (ln ++ ln') /\
  k_trace (fst (kstep o ks)) = (k_trace ks ++ emits o)%list /\ k_shell (fst (kstep o ks)) = k_shell ks /\
  forall f g, extends (lg ++ lg') f -> extends (ln ++ ln') g -> drawn f g o (snd (kstep o ks)) = x.
Proof.
  intros O N1 N2 M A Hg Hn.
  assert (SN : forall (l : list nat) y, List.length (l ++ [y]) = S (List.length l)) by (intros l y; rewrite app_length; cbn; lia).
  destruct o; cbn [mop own] in *; try (now destruct N1); try (now destruct N2); try (now destruct O);
    lazymatch type of M with _ /\ _ => destruct M as [-> ->] | _ => subst m' end; cbn [kstep fst snd emits drawn] in *.
  - exists [k_guid (m_k m)], []. rewrite !app_nil_r, SN. cbn. split; [destruct A; constructor; auto|]. split; [congruence|]. split; [auto|]. split; [reflexivity|]. split; [reflexivity|].
    intros f g Hf _. rewrite Hg. now apply extends_last.
  - exists [], [k_clock (m_k m)]. rewrite !app_nil_r, SN. cbn. split; [destruct A; constructor; auto|]. split; [congruence|]. split; [congruence|]. split; [reflexivity|]. split; [reflexivity|].
    intros f g _ Hf. rewrite Hn. now apply extends_last.
  - subst. exists [], []. rewrite !app_nil_r. split; [exact A|]. repeat (split; [auto|]). intros f g _ _. apply A.
  - subst. exists [], []. rewrite !app_nil_r. split; [exact A|]. repeat (split; [auto|]). intros f g _ _. apply A.
  - subst. exists [], []. rewrite !app_nil_r. split; [|now repeat split]. destruct A. constructor; cbn; auto. now rewrite !upd_same.
  - subst. exists [], []. rewrite !app_nil_r. split; [|now repeat split]. destruct A. constructor; cbn; auto. now rewrite !upd_same.
  - exists [], []. rewrite !app_nil_r. rewrite m_k_event. split; [destruct A; constructor; auto|]. split; [exact Hg|]. split; [exact Hn|]. split; [reflexivity|]. split; [reflexivity|]. intros. now destruct x.
  - exists [], []. rewrite !app_nil_r. split; [exact A|]. repeat (split; [auto|]). intros f g _ _. now apply A.
  - exists [], []. rewrite !app_nil_r. split; [|now repeat split]. destruct A as [A1 A2 A3]. constructor; cbn; auto. intros B. destruct (A3 B) as (?&?&?&?&?&?). auto 10.
  - exists [], []. rewrite !app_nil_r. split; [exact A|]. repeat (split; [auto|]). intros f g _ _. now apply A.
  - exists [], []. rewrite !app_nil_r. split; [|now repeat split]. destruct A as [A1 A2 A3]. constructor; cbn; auto. intros B. destruct (A3 B) as (?&?&?&?&?&?). auto 10.
  - exists [], []. rewrite !app_nil_r. split; [exact A|]. repeat (split; [auto|]). intros f g _ _. now apply A.
  - exists [], []. rewrite !app_nil_r. split; [|now repeat split]. destruct A as [A1 A2 A3]. constructor; cbn; auto. intros B. destruct (A3 B) as (?&?&?&?&?&?). auto 10.
  - exists [], []. rewrite !app_nil_r. split; [exact A|]. repeat (split; [auto|]). intros f g _ _. now apply A.
  - exists [], []. rewrite !app_nil_r. split; [|now repeat split]. destruct A as [A1 A2 A3]. constructor; cbn; auto. intros B. destruct (A3 B) as (?&?&?&?&?&?). auto 10.
  - exists [], []. rewrite !app_nil_r. split; [exact A|]. repeat (split; [auto|]). intros f g _ _. now apply A.
  - exists [], []. rewrite !app_nil_r. split; [|now repeat split]. destruct A as [A1 A2 A3]. constructor; cbn; auto. intros B. destruct (A3 B) as (?&?&?&?&?&?). auto 10.
  - exists [], []. rewrite !app_nil_r. split; [exact A|]. repeat (split; [auto|]). intros f g _ _. now apply A.
  - exists [], []. rewrite !app_nil_r. split; [|now repeat split]. destruct A as [A1 A2 A3]. constructor; cbn; auto. intros B. destruct (A3 B) as (?&?&?&?&?&?). auto 10.
Qed.
Lemma other_step c c2 o m m' (x : kans o) ks : c2 <> c -> own c2 (free c2) o -> mop o m m' x -> agree c ks (m_k m) -> agree c ks (m_k m').
Proof.
  intros Hc O M A. assert (F : free c2 = true -> free c = true -> False) by (destruct c, c2; auto; discriminate).
  destruct o; cbn [mop own] in *; try (now destruct O); try (destruct (m_shellq m)); 
    lazymatch type of M with _ /\ _ => destruct M as [-> ->] | _ => subst m' end; try rewrite m_k_event; cbn [kstep fst snd] in *; try exact A;
    try (destruct A as [A1 A2 A3]; constructor; cbn; auto; now rewrite upd_other by congruence);
    (destruct A as [A1 A2 A3]; constructor; cbn; auto; intros B; now destruct (F O B)).
Qed.
Lemma shrinks {A} (p : kprog unit A) s : List.length (k_shell (fst (run p s))) <= List.length (k_shell s) /\ prefix (k_trace s) (k_trace (fst (run p s))).
Proof.
  revert s. unfold run. induction p as [a|e|w|o k IH]; intros s; cbn [exec fst]; try (split; [lia|exists []; now rewrite app_nil_r]).
  destruct (kstep o s) as [s1 x] eqn:Es. destruct (IH x s1) as [I1 [rest I2]].
  assert (X : List.length (k_shell s1) <= List.length (k_shell s) /\ prefix (k_trace s) (k_trace s1)).
  { assert (N : prefix (k_trace s) (k_trace s)) by (exists []; now rewrite app_nil_r).
    destruct o; cbn in Es; try (injection Es as <- _; cbn; split; [lia|exact N]).
    - injection Es as <- _. cbn. split; [lia|]. eexists; reflexivity.
    - destruct (k_shell s) eqn:Eq; injection Es as <- _; cbn; rewrite ?Eq; cbn; split; try lia; exact N.
    - destruct (k_replies s) eqn:Eq; injection Es as <- _; cbn; split; try lia; exact N. }
  destruct X as [X1 [r1 X2]]. split; [lia|]. exists (r1 ++ rest)%list. now rewrite I2, X2, app_assoc.
Qed.

(** ** The invariant *)
Definition doing (c : channel) (s : ysys unit) : option (going unit unit) :=
  match c with
  | SHELL => match y_sh s with SRun g _ => Some g | _ => None end
  | CONTROL => match y_ct s with CRun g => Some g | _ => None end
  end.
Definition same (n : nat) : nat := n.
Definition owned (c : channel) (g : option (going unit unit)) : Prop :=
  match g with None => True | Some (Going p) => exists p', tied same same c (free c) p' p | Some (Calling _) => False end.
Record sane (s : ysys unit) : Prop := {
  sn_owned : forall c, owned c (doing c s);
  sn_intern : forall g, y_sh s <> SIntern g;
  sn_call : forall w, m_call (y_mem s) = SAsked w -> w = stop_frames
}.
Lemma mop_call (o : kop unit) m m' (x : kans o) : mop o m m' x -> m_call m' = m_call (m : mem unit).
Proof.
  intros M. destruct o; cbn [mop] in *; try (destruct (m_shellq m)); try (now destruct M);
    lazymatch type of M with _ /\ _ /\ _ => destruct M as (_ & -> & _) | _ /\ _ => destruct M as [-> _] | _ => subst m' end; try (destruct e); reflexivity.
Qed.
Lemma same_drawn (o : kop unit) (x : kans o) : drawn same same o x = x.
Proof. destruct o; reflexivity. Qed.
Section Inv.
  Context (E : env unit) (W : manner) (T : string -> Prop) (v : variant).
  Hypothesis SH : shipped E W T.
  Hypothesis EU : env_utf8 E.
  Let listener := fun c w => dispatch E w c.
  Notation ystep := (ystep v listener (dispatch_internal E)).
  Notation yrun := (yrun v listener (dispatch_internal E)).
  Definition ours (l : slabel) : Prop := match l with YHand c w => keeps_to E c w | _ => True end.
  (** What a step is for thread [c]. *)
  Inductive view (c : channel) (s : ysys unit) (l : slabel) (s' : ysys unit) : Prop :=
  | vw_hand w : l = YHand c w -> doing c s = None -> doing c s' = Some (Going (dispatch E w c)) -> m_k (y_mem s') = m_k (y_mem s) -> y_end s' <> Some Crashed -> view c s l s'
  | vw_op o (k : kans o -> kprog unit unit) x : l = label_of c o x -> doing c s = Some (Going (Do o k)) -> doing c s' = Some (Going (k x)) -> mop o (y_mem s) (y_mem s') x -> y_end s' <> Some Crashed -> view c s l s'
  | vw_ret a : handed_to c [l] = [] -> events c [l] = [] -> (forall w, l <> YTook c w) -> doing c s = Some (Going (Ret a)) -> doing c s' = None -> m_k (y_mem s') = m_k (y_mem s) -> y_end s' <> Some Crashed -> view c s l s'
  | vw_other : handed_to c [l] = [] -> events c [l] = [] -> (forall w, l <> YTook c w) -> doing c s' = doing c s ->
      (m_k (y_mem s') = m_k (y_mem s) \/ exists c2 o x, c2 <> c /\ own c2 (free c2) o /\ mop o (y_mem s) (y_mem s') x) ->
      (y_end s' = Some Crashed -> exists c2 p, doing c2 s = Some (Going p) /\ failing p) -> view c s l s'.
  Lemma label_quiet c c2 (o : kop unit) (x : kans o) : c2 <> c -> handed_to c [label_of c2 o x] = [] /\ events c [label_of c2 o x] = [] /\ forall w, label_of c2 o x <> YTook c w.
  Proof.
    intros Hc. unfold label_of. destruct o; cbn; try (now repeat split); [|destruct x; cbn; repeat split; congruence].
    replace (Kernel.chan_eqb c c2) with false by (destruct c, c2; auto; now destruct Hc). repeat split; discriminate.
  Qed.
  Lemma own_tied c p' o (k : kans o -> kprog unit unit) : tied same same c (free c) p' (Do o k) -> own c (free c) o /\ forall x, exists p'', tied same same c (free c) p'' (k x).
  Proof. intros (O & _ & k' & _ & H). split; [exact O|]. intros x. exists (k' x). specialize (H x). now rewrite same_drawn in H. Qed.
  Lemma sane_step s l s' : sane s -> ours l -> ystep s l s' -> sane s'.
  Proof.
    intros [HO HI HC] L St.
    assert (G : forall c g m l g' m', owned c (Some g) -> gstep c g m l g' m' -> owned c (Some g') /\ m_call m' = m_call m).
    { intros c g m l0 g' m' O H. destruct H as [o k m m' x H|w k m H|k w m H]; cbn [owned] in *.
      - destruct O as [p' O]. apply own_tied in O as [_ O]. split; [apply O|eapply mop_call; eauto].
      - destruct O as [p' [O _]]. destruct O.
      - destruct O. }
    assert (N : forall c w, keeps_to E c w -> owned c (Some (Going (listener c w)))).
    { intros c w K. exists (dispatch (shift E same same) w c). apply (tied_dispatch E W T SH same same c (free c) w); [now destruct c|exact K]. }
    destruct St as [a c m b l a' m' H|a c m b l c' m' H| | | | | | | | | |]; cbn in HO, HI, HC.
    - pose proof (HO SHELL) as OS. pose proof (HO CONTROL) as OC. cbn [doing y_sh y_ct] in OS, OC.
      assert (X : owned SHELL (match a' with SRun g _ => Some g | _ => None end) /\ (forall g, a' <> SIntern g) /\ (forall w, m_call m' = SAsked w -> w = stop_frames)).
      { destruct H as [m Hq|m Hq Ha|m w q b0 Hq|m g l g' m' b0 H|m a b0|m f w Hc Hf|m f w Hc Hf|m g l g' m' H|m w]; cbn [owned]; try solve [split; [exact I|split; [discriminate|exact HC]]].
        - split; [exact (N SHELL w L)|]. split; [discriminate|]. exact HC.
        - destruct (G _ _ _ _ _ _ OS H) as [G1 G2]. split; [exact G1|]. split; [discriminate|]. now rewrite G2.
        - destruct b0; split; try exact I; split; try discriminate; auto.
        - split; [exact I|]. split; [discriminate|]. cbn. discriminate.
        - destruct Hf. specialize (HC _ Hc). now injection HC.
        - now destruct (HI g).
        - now destruct (HI (Going (Ret w))). }
      destruct X as (X1 & X2 & X3). constructor; cbn; auto. intros [|]; cbn; auto.
    - pose proof (HO SHELL) as OS. pose proof (HO CONTROL) as OC. cbn [doing y_sh y_ct] in OS, OC.
      assert (X : owned CONTROL (match c' with CRun g => Some g | _ => None end) /\ (forall w, m_call m' = SAsked w -> w = stop_frames)).
      { destruct H as [m H|m H|m w q H|m g l g' m' H|m x|m H|m w H|m H|m w H|m H|m w H]; cbn [owned]; try solve [split; [exact I|exact HC]].
        - split; [exact (N CONTROL w L)|exact HC].
        - destruct (G _ _ _ _ _ _ OC H) as [G1 G2]. split; [exact G1|]. now rewrite G2.
        - split; [exact I|]. cbn. intros w [= <-]. reflexivity.
        - split; [exact I|]. cbn. discriminate. }
      destruct X as (X1 & X2). constructor; cbn; auto. intros [|]; cbn; auto.
    - constructor; cbn; [|exact HI|exact HC]. intros [|]; [apply (HO SHELL)|exact I].
    - constructor; cbn; [|exact HI|exact HC]. intros [|]; [apply (HO SHELL)|exact I].
    - constructor; cbn; [|discriminate|exact HC]. intros [|]; [exact I|apply (HO CONTROL)].
    - constructor; cbn; [exact HO|exact HI|exact HC].
    - constructor; cbn; [exact HO|exact HI|exact HC].
    - constructor; cbn; [exact HO|exact HI|exact HC].
    - constructor; cbn; [exact HO|exact HI|exact HC].
    - constructor; cbn; [exact HO|exact HI|]. destruct ch; exact HC.
    - constructor; cbn; [exact HO|exact HI|exact HC].
    - constructor; cbn; [exact HO|exact HI|exact HC].
  Qed.
  Lemma chan_ne : SHELL <> CONTROL. Proof. discriminate. Qed.
  Lemma view_step c s l s' : sane s -> ystep s l s' -> view c s l s'.
  Proof.
    intros [HO HI HC] St.
    assert (Q : forall t (c0 : channel) , handed_to c0 [YTau t] = [] /\ events c0 [YTau t] = [] /\ forall w, YTau t <> YTook c0 w) by (intros; repeat split; discriminate).
    assert (G : forall c0 g m l g' m', owned c0 (Some g) -> gstep c0 g m l g' m' -> exists o k x, g = Going (Do o k) /\ g' = Going (k x) /\ l = label_of c0 o x /\ own c0 (free c0) o /\ mop o m m' x).
    { intros c0 g m l0 g' m' O H. destruct H as [o k m m' x H|w k m H|k w m H]; cbn [owned] in O.
      - destruct O as [p' O]. apply own_tied in O as [O _]. exists o, k, x. auto.
      - destruct O as [p' [O _]]. destruct O.
      - destruct O. }
    destruct St as [a ct m b l a' m' H|a ct m b l ct' m' H| | | | | | | | | |]; cbn in HO, HI, HC.
    - pose proof (HO SHELL) as OS. cbn [doing y_sh y_ct] in OS.
      destruct H as [m Hq|m Hq Ha|m w q b0 Hq|m g l g' m' b0 H|m a b0|m f w Hc Hf|m f w Hc Hf|m g l g' m' H|m w];
        try (apply vw_other; try apply Q; try (left; reflexivity); [now destruct c|cbn; discriminate]).
      + destruct c; [eapply vw_hand; try reflexivity; cbn; discriminate|apply vw_other; cbn; try reflexivity; try discriminate; left; reflexivity].
      + destruct (G _ _ _ _ _ _ OS H) as (o & k & x & -> & -> & -> & O & M). destruct c.
        * eapply vw_op; try reflexivity; [exact M|cbn; discriminate].
        * destruct (label_quiet CONTROL SHELL o x chan_ne) as (L1 & L2 & L3). apply vw_other; auto; [|cbn; discriminate]. right. exists SHELL, o, x. auto using chan_ne.
      + destruct c; [eapply vw_ret; try apply Q; cbn; try reflexivity; [now destruct b0|discriminate]|apply vw_other; try apply Q; cbn; try reflexivity; [left; reflexivity|discriminate]].
      + destruct Hf. specialize (HC _ Hc). now injection HC.
      + now destruct (HI g).
      + now destruct (HI (Going (Ret w))).
    - pose proof (HO CONTROL) as OC. cbn [doing y_sh y_ct] in OC.
      destruct H as [m H|m H|m w q H|m g l g' m' H|m x|m H|m w H|m H|m w H|m H|m w H];
        try (apply vw_other; try apply Q; try (left; reflexivity); [now destruct c|cbn; discriminate]).
      + destruct c; [apply vw_other; cbn; try reflexivity; try discriminate; left; reflexivity|eapply vw_hand; try reflexivity; cbn; discriminate].
      + destruct (G _ _ _ _ _ _ OC H) as (o & k & x & -> & -> & -> & O & M). destruct c.
        * assert (Hc : CONTROL <> SHELL) by discriminate. destruct (label_quiet SHELL CONTROL o x Hc) as (L1 & L2 & L3). apply vw_other; auto; [|cbn; discriminate]. right. exists CONTROL, o, x. auto.
        * eapply vw_op; try reflexivity; [exact M|cbn; discriminate].
      + destruct c; [apply vw_other; try apply Q; cbn; try reflexivity; [left; reflexivity|discriminate]|eapply vw_ret; try apply Q; cbn; try reflexivity; discriminate].
    - apply vw_other; try apply Q; [now destruct c|left; reflexivity|cbn; discriminate].
    - apply vw_other; try apply Q; [now destruct c|left; reflexivity|cbn; destruct v; discriminate].
    - apply vw_other; try apply Q; [now destruct c|left; reflexivity|cbn; destruct v; discriminate].
    - apply vw_other; try apply Q; [now destruct c|left; reflexivity|]. intros _. exists SHELL. cbn. unfold dying in H. destruct a as [| |[p|k] b0| |[p|k]| |]; try (now destruct H); [eauto|now destruct (HI (Going p))].
    - apply vw_other; try apply Q; [now destruct c|left; reflexivity|]. intros _. exists CONTROL. cbn. unfold dying_c in H. destruct c0 as [| |[p|k]| | | | | | | | |]; try (now destruct H); eauto.
    - apply vw_other; try apply Q; [now destruct c|left; reflexivity|cbn; discriminate].
    - apply vw_other; try apply Q; [now destruct c|left; reflexivity|cbn; discriminate].
    - apply vw_other; try reflexivity; try (cbn; discriminate). left. now destruct ch.
    - apply vw_other; try reflexivity; try (cbn; discriminate). left; reflexivity.
    - apply vw_other; try reflexivity; try (cbn; discriminate). left; reflexivity.
  Qed.
  Definition base (k : kstate unit) : kstate unit := set_guid 0 (set_clock 0 (set_shell [None] k)).
  Definition follows (c : channel) (k0 : kstate unit) (ls : list slabel) (g : option (going unit unit)) (ks : kstate unit) (E' : env unit) (ti : kprog unit unit -> kprog unit unit -> Prop) : Prop :=
    match g with
    | None => KernelSession.serves E' (handed_to c ls) (base k0) ks
    | Some (Going p) => exists ws w k1 p', handed_to c ls = (ws ++ [(c, w)])%list /\ KernelSession.serves E' ws (base k0) k1 /\ ti p' p /\ run (dispatch E' w c) k1 = run p' ks
    | Some (Calling _) => False
    end.
  Record inv (c : channel) (k0 : kstate unit) (ls : list slabel) (s : ysys unit) (lg ln : list nat) (ks : kstate unit) : Prop := {
    iv_guid : k_guid ks = List.length lg;
    iv_clock : k_clock ks = List.length ln;
    iv_agree : agree c ks (m_k (y_mem s));
    iv_trace : k_trace ks = (k_trace k0 ++ events c ls)%list;
    iv_shell : k_shell ks = [None];
    iv_took : forall w, ~ In (YTook c w) ls;
    iv_follows : forall f g, extends lg f -> extends ln g -> follows c k0 ls (doing c s) ks (shift E f g) (tied f g c (free c))
  }.
  Lemma serves_app (E' : env unit) ws c w k k1 : KernelSession.serves E' ws k k1 -> KernelSession.serves E' (ws ++ [(c, w)]) k (fst (run (dispatch E' w c) k1)).
  Proof. induction 1; cbn [app]; [constructor; constructor|constructor; assumption]. Qed.
  Lemma handed_app c a b : handed_to c (a ++ b) = (handed_to c a ++ handed_to c b)%list.
  Proof. apply flat_map_app. Qed.
  Lemma events_app' c a b : events c (a ++ b) = (events c a ++ events c b)%list.
  Proof. apply flat_map_app. Qed.
  (** With a session. *)
  Lemma session_serves' E' y ws gs y' : shipped E' W T -> env_utf8 E' -> session W T E' y ws gs y' -> forall k k', ready T k -> memory_of k = y -> KernelSession.serves E' ws k k' ->
    ready T k' /\ memory_of k' = y' /\ k_shell k' = k_shell k /\ exists evs, k_trace k' = (k_trace k ++ evs)%list /\ gists evs = gs.
  Proof.
    intros SH' EU'. induction 1 as [y|y ws gs y1 c w gs1 y2 S IH R]; intros k k' RD M H.
    - inversion H; subst. repeat (split; [auto|]). exists []. now rewrite app_nil_r.
    - apply serves_snoc in H as (k1 & H1 & ->). destruct (IH k k1 RD M H1) as (RD1 & M1 & Sh1 & evs & T1 & G1).
      destruct (reacts_run E' W T SH' EU' _ c w gs1 y2 k1 RD1 M1 R) as (k2 & R2 & RD2 & M2 & Sh2 & evs2 & T2 & G2). rewrite R2. cbn [fst].
      split; [exact RD2|]. split; [exact M2|]. split; [congruence|]. exists (evs ++ evs2)%list. split; [rewrite T2, T1; now rewrite app_assoc|]. unfold gists in *. rewrite flat_map_app. now rewrite G1, G2.
  Qed.
  Variable k0 : kstate unit.
  Hypothesis RD0 : ready T k0.
  Hypothesis M0 : memory_of k0 = fresh.
  (** The call that goes on will end and has said, at the end, what the session says. *)
  Lemma inv_ends c ls s lg ln ks gs y p : inv c k0 ls s lg ln ks -> session W T E fresh (handed_to c ls) gs y -> doing c s = Some (Going p) ->
    forall f g, extends lg f -> extends ln g -> exists p' k2 evs, tied f g c (free c) p' p /\ run p' ks = (k2, Ok tt) /\ k_shell k2 = [None] /\ k_trace k2 = (k_trace k0 ++ evs)%list /\ gists evs = gs.
  Proof.
    intros I S D f g Hf Hg. pose proof (iv_follows _ _ _ _ _ _ _ I f g Hf Hg) as F. rewrite D in F. cbn [follows] in F. destruct F as (ws & w & k1 & p' & Hh & Sv & Ti & R).
    rewrite Hh in S. apply session_snoc in S as (gs0 & y0 & gs1 & S0 & S1 & ->).
    pose proof (shift_shipped E W T SH f g) as SH'. pose proof (shift_utf8 E f g EU) as EU'.
    assert (RDb : ready T (base k0)) by (destruct RD0; constructor; auto).
    apply (shift_session E W T f g) in S0. destruct (session_serves' _ _ _ _ _ SH' EU' S0 (base k0) k1 RDb M0 Sv) as (RD1 & M1 & Sh1 & evs & T1 & G1).
    assert (S1' : reacts W T (shift E f g) y0 c w gs1 y).
    { destruct S1 as [y1 c w R1|y1 c w m ty gs1 n' h' A B ph De]; [now constructor|exact (re_done W T (shift E f g) y1 c w m ty gs1 n' h' A B De)]. }
    destruct (reacts_run _ W T SH' EU' y0 c w gs1 y k1 RD1 M1 S1') as (k2 & R2 & _ & _ & Sh2 & evs2 & T2 & G2).
    exists p', k2, (evs ++ evs2)%list. rewrite <- R, R2. split; [exact Ti|]. split; [reflexivity|]. split; [rewrite Sh2, Sh1; reflexivity|].
    split; [rewrite T2, T1; now rewrite app_assoc|]. unfold gists in *. rewrite flat_map_app. now rewrite G1, G2.
  Qed.
  Lemma inv_no_fail c ls s lg ln ks gs y p : inv c k0 ls s lg ln ks -> session W T E fresh (handed_to c ls) gs y -> doing c s = Some (Going p) -> ~ failing p.
  Proof.
    intros I S D X. destruct (extends_id lg) as [f Hf]. destruct (extends_id ln) as [g Hg].
    destruct (inv_ends _ _ _ _ _ _ _ _ _ I S D f g Hf Hg) as (p' & k2 & evs & Ti & R & _). destruct p; cbn in X; try (now destruct X); cbn in Ti; subst p'; discriminate.
  Qed.
  Lemma inv_no_pop c ls s lg ln ks gs y o k : inv c k0 ls s lg ln ks -> session W T E fresh (handed_to c ls) gs y -> doing c s = Some (Going (Do o k)) -> o <> KShellLen /\ o <> KShellPop.
  Proof.
    intros I S D. destruct (extends_id lg) as [f Hf]. destruct (extends_id ln) as [g Hg].
    destruct (inv_ends _ _ _ _ _ _ _ _ _ I S D f g Hf Hg) as (p' & k2 & evs & (O & P & k' & -> & Ti) & R & Sh & _). pose proof (iv_shell _ _ _ _ _ _ _ I) as Sk.
    assert (Z : forall (q : kprog unit unit) kx, k_shell kx = [] -> run q kx = (k2, Ok tt) -> False).
    { intros q kx Hx Rx. destruct (shrinks q kx) as [L _]. rewrite Rx, Hx in L. cbn [fst] in L. rewrite Sh in L. cbn in L. lia. }
    split; intros ->.
    - cbn [then_pops] in P. specialize (Ti 1). cbn [drawn] in Ti. destruct (P 1) as [k3 E3]. rewrite E3 in Ti. cbn [tied] in Ti. destruct Ti as (_ & _ & k4 & E4 & _).
      unfold run in R. cbn [exec kstep] in R. rewrite Sk in R. cbn [List.length] in R. rewrite E4 in R. cbn [exec kstep] in R. rewrite Sk in R. eapply Z; [|exact R]. reflexivity.
    - unfold run in R. cbn [exec kstep] in R. rewrite Sk in R. eapply Z; [|exact R]. reflexivity.
  Qed.
  Lemma label_own c (o : kop unit) (x : kans o) : o <> KShellLen -> o <> KShellPop -> handed_to c [label_of c o x] = [] /\ events c [label_of c o x] = emits o /\ forall w, label_of c o x <> YTook c w.
  Proof. intros N1 N2. destruct o; cbn; try (exfalso; now apply N2); try (replace (Kernel.chan_eqb c c) with true by now destruct c); repeat split; discriminate. Qed.
  Lemma no_took c ls l w : (forall w, ~ In (YTook c w) ls) -> (forall w, l <> YTook c w) -> ~ In (YTook c w) (ls ++ [l]).
  Proof. intros A B X. apply in_app_or in X as [X|[X|[]]]; [now apply (A w)|now apply (B w)]. Qed.
  Lemma inv_step c ls s l s' lg ln ks : inv c k0 ls s lg ln ks -> view c s l s' -> ours l -> (exists gs y, session W T E fresh (handed_to c ls) gs y) ->
    exists lg' ln' ks', inv c k0 (ls ++ [l]) s' lg' ln' ks'.
  Proof.
    intros [Ig Ic Ia It Is Ik If] V L (gs & y & S). pose proof {| iv_guid := Ig; iv_clock := Ic; iv_agree := Ia; iv_trace := It; iv_shell := Is; iv_took := Ik; iv_follows := If |} as I.
    destruct V as [w -> D D' M _|o k x -> D D' M _|a H1 H2 H3 D D' M _|H1 H2 H3 D' M _].
    - exists lg, ln, ks. constructor; auto.
      + now rewrite M.
      + rewrite events_app'. cbn. now rewrite app_nil_r.
      + intros w'. apply no_took; [exact Ik|discriminate].
      + intros f g Hf Hg. specialize (If f g Hf Hg). rewrite D in If. rewrite D'. cbn [follows] in *. exists (handed_to c ls), w, ks, (dispatch (shift E f g) w c).
        rewrite handed_app. cbn. replace (Kernel.chan_eqb c c) with true by now destruct c. split; [reflexivity|]. split; [exact If|]. split; [|reflexivity].
        apply (tied_dispatch E W T SH f g c (free c) w); [now destruct c|exact L].
    - destruct (inv_no_pop _ _ _ _ _ _ _ _ _ _ I S D) as [N1 N2].
      assert (O : own c (free c) o).
      { destruct (extends_id lg) as [f Hf]. destruct (extends_id ln) as [g Hg]. specialize (If f g Hf Hg). rewrite D in If. destruct If as (ws & w & k1 & p' & _ & _ & (O & _) & _). exact O. }
      destruct (own_step c o _ _ x ks lg ln O N1 N2 M Ia Ig Ic) as (lg' & ln' & A1 & A2 & A3 & A4 & A5 & A6).
      destruct (label_own c o x N1 N2) as (L1 & L2 & L3).
      exists (lg ++ lg')%list, (ln ++ ln')%list, (fst (kstep o ks)). constructor; auto.
      + rewrite A4, It, events_app', L2. now rewrite app_assoc.
      + now rewrite A5.
      + intros w'. now apply no_took.
      + intros f g Hf Hg. specialize (If f g (extends_app _ _ _ Hf) (extends_app _ _ _ Hg)). rewrite D in If. rewrite D'. cbn [follows] in *.
        destruct If as (ws & w & k1 & p' & Hh & Sv & (_ & _ & k' & -> & Ti) & R). exists ws, w, k1, (k' (snd (kstep o ks))).
        rewrite handed_app, L1, app_nil_r. split; [exact Hh|]. split; [exact Sv|]. split; [specialize (Ti (snd (kstep o ks))); now rewrite (A6 f g Hf Hg) in Ti|].
        rewrite R. unfold run. cbn [exec]. now destruct (kstep o ks).
    - exists lg, ln, ks. constructor; auto.
      + now rewrite M.
      + rewrite events_app', H2, app_nil_r. exact It.
      + intros w'. now apply no_took.
      + intros f g Hf Hg. specialize (If f g Hf Hg). rewrite D in If. rewrite D'. cbn [follows] in *. destruct If as (ws & w & k1 & p' & Hh & Sv & Ti & R). cbn [tied] in Ti. subst p'.
        rewrite handed_app, H1, app_nil_r, Hh. replace ks with (fst (run (dispatch (shift E f g) w c) k1)); [now apply serves_app|]. rewrite R. reflexivity.
    - exists lg, ln, ks. constructor; auto.
      + destruct M as [->|(c2 & o & x & Hc & O & M)]; [exact Ia|]. eapply other_step; eauto.
      + rewrite events_app', H2, app_nil_r. exact It.
      + intros w'. now apply no_took.
      + intros f g Hf Hg. specialize (If f g Hf Hg). rewrite D'. unfold follows in *. rewrite handed_app, H1, app_nil_r. exact If.
  Qed.
  Lemma session_shorter y0 a b gs y : session W T E y0 (a ++ b) gs y -> exists gs' y', session W T E y0 a gs' y'.
  Proof.
    revert gs y. induction b as [|[c w] b IH] using rev_ind; intros gs y S; [rewrite app_nil_r in S; eauto|].
    rewrite app_assoc in S. apply session_snoc in S as (? & ? & ? & S & _). eauto.
  Qed.
  Lemma run_inv start ls s : yrun (y_init k0 start) ls s -> (forall c w, In (YHand c w) ls -> keeps_to E c w) ->
    sane s /\ forall c, (exists gs y, session W T E fresh (handed_to c ls) gs y) -> exists lg ln ks, inv c k0 ls s lg ln ks.
  Proof.
    intros H. remember (y_init k0 start) as s0 eqn:E0. induction H as [s|s ls s1 l s2 H IH St]; intros K; subst s.
    - split.
      + constructor; cbn; try discriminate. intros [|]; exact I.
      + intros c _. exists [], [], (base k0). constructor; cbn; auto.
        * constructor; cbn; auto 10.
        * now rewrite app_nil_r.
        * intros f g _ _. destruct c; cbn; constructor.
    - destruct (IH eq_refl) as [Sn J]; [intros c w X; apply K; apply in_or_app; now left|].
      assert (L : ours l) by (destruct l; try exact I; apply K; apply in_or_app; right; now left).
      split; [eapply sane_step; eauto|]. intros c (gs & y & S). rewrite handed_app in S. apply session_shorter in S.
      destruct (J c S) as (lg & ln & ks & Iv). eapply inv_step; eauto. now apply view_step.
  Qed.
  Lemma run_end start ls s : yrun (y_init k0 start) ls s -> (forall c w, In (YHand c w) ls -> keeps_to E c w) -> (forall c, exists gs y, session W T E fresh (handed_to c ls) gs y) ->
    y_end s <> Some Crashed.
  Proof.
    intros H. remember (y_init k0 start) as s0 eqn:E0. destruct H as [s|s ls s1 l s2 H St]; intros K Ss; subst s; [discriminate|].
    destruct (run_inv start ls s1 H) as [Sn J]; [intros c w X; apply K; apply in_or_app; now left|].
    assert (Ss' : forall c, exists gs y, session W T E fresh (handed_to c ls) gs y).
    { intros c. destruct (Ss c) as (gs & y & S). rewrite handed_app in S. now apply session_shorter in S. }
    destruct (view_step SHELL s1 l s2 Sn St) as [? _ _ _ _ X|? ? ? _ _ _ _ X|? _ _ _ _ _ _ X|_ _ _ _ _ X]; auto.
    intros Y. destruct (X Y) as (c & p & D & F). destruct (Ss' c) as (gs & y & S). destruct (J c (Ss' c)) as (lg & ln & ks & Iv). exact (inv_no_fail _ _ _ _ _ _ _ _ _ Iv S D F).
  Qed.
  Lemma run_says start ls s c gs y : yrun (y_init k0 start) ls s -> (forall c w, In (YHand c w) ls -> keeps_to E c w) -> session W T E fresh (handed_to c ls) gs y ->
    (forall w, ~ In (YTook c w) ls) /\ prefix (gists (events c ls)) gs /\ (rests c s -> gists (events c ls) = gs /\ (free c = true -> k_count (m_k (y_mem s)) = y_count y /\ k_history (m_k (y_mem s)) = y_history y)).
  Proof.
    intros H K S. destruct (run_inv start ls s H K) as [Sn J]. destruct (J c) as (lg & ln & ks & Iv); [eauto|]. destruct (extends_id lg) as [f Hf]. destruct (extends_id ln) as [g Hg].
    split; [apply Iv|]. pose proof (iv_trace _ _ _ _ _ _ _ Iv) as Tr.
    destruct (doing c s) as [[p|kk]|] eqn:D.
    - destruct (inv_ends _ _ _ _ _ _ _ _ _ Iv S D f g Hf Hg) as (p' & k2 & evs & Ti & R & _ & T2 & G). destruct (shrinks p' ks) as [_ [rest P]]. rewrite R in P. cbn [fst] in P.
      rewrite T2, Tr, <- app_assoc in P. apply app_inv_head in P. subst evs. split; [exists (gists rest); rewrite <- G; unfold gists; now rewrite flat_map_app|].
      intros X. exfalso. unfold rests, doing in *. destruct c; [destruct (y_sh s); try discriminate; destruct X|destruct (y_ct s); try discriminate; destruct X].
    - pose proof (sn_owned _ Sn c) as X. rewrite D in X. destruct X.
    - pose proof (iv_follows _ _ _ _ _ _ _ Iv f g Hf Hg) as F. rewrite D in F. cbn [follows] in F. apply (shift_session E W T f g) in S.
      assert (RDb : ready T (base k0)) by (destruct RD0; constructor; auto).
      destruct (session_serves' _ _ _ _ _ (shift_shipped E W T SH f g) (shift_utf8 E f g EU) S (base k0) ks RDb M0 F) as (_ & M1 & _ & evs & T1 & G1). cbn [base k_trace set_guid set_clock set_shell] in T1.
      rewrite Tr in T1. apply app_inv_head in T1. subst evs. split; [exists []; now rewrite app_nil_r|]. intros _. split; [exact G1|]. intros Fr.
      destruct (ag_free _ _ _ (iv_agree _ _ _ _ _ _ _ Iv) Fr) as (B1 & B2 & _). rewrite <- B1, <- B2, <- M1. split; reflexivity.
  Qed.
End Inv.

(** ** What the threads send *)
Section Split_proper.
  Context (E : env unit) (W : manner) (T : string -> Prop) (v : variant).
  Hypothesis SH : shipped E W T.
  Definition going_well {A} (g : going unit A) : Prop := match g with Going p => always (speaks E) p | Calling k => forall w, always (speaks E) (k w) end.
  Definition both_well (s : ysys unit) : Prop :=
    match y_sh s with SRun g _ => going_well g | SIntern g => going_well g | _ => True end /\ match y_ct s with CRun g => going_well g | _ => True end.
  Lemma speaks_internal w : always (speaks E) (dispatch_internal E w).
  Proof.
    unfold dispatch_internal. apply always_bind; [apply always_of_res|intros f]. apply always_bind; [apply always_of_res|intros j]. apply always_bind; [apply (speaks_interp E W T SH)|intros r].
    apply always_bind; [apply always_of_res|intros t]. exact I.
  Qed.
  Lemma gstep_well c {A} (g : going unit A) m l g' m' : gstep c g m l g' m' -> going_well g -> going_well g' /\ forall c', Forall (proper E) (events c' [l]).
  Proof.
    intros H Hg. destruct H as [o k m m' x H|w k m H|k w m H]; cbn [going_well always] in *.
    - destruct Hg as [Ho Hk]. split; [apply Hk|]. intros c'. destruct o; cbn; try constructor; [destruct (Kernel.chan_eqb c' c); cbn; [constructor; [exact Ho|]|]; constructor|destruct x; constructor].
    - destruct Hg as [_ Hk]. split; [exact Hk|constructor].
    - split; [apply Hg|constructor].
  Qed.
  Lemma well_step s l s' : ystep v (fun c w => dispatch E w c) (dispatch_internal E) s l s' -> both_well s -> both_well s' /\ forall c, Forall (proper E) (events c [l]).
  Proof.
    intros St [H1 H2]. destruct St as [a c m b l a' m' H|a c m b l c' m' H| | | | | | | | | |]; cbn in H1, H2; try (split; [split; cbn; auto|constructor]).
    - destruct H as [m Hq|m Hq Ha|m w q b0 Hq|m g l g' m' b0 H|m a b0|m f w Hc Hf|m f w Hc Hf|m g l g' m' H|m w]; try (split; [split; cbn; auto|constructor]).
      + apply (speaks_dispatch E W T SH).
      + destruct (gstep_well _ _ _ _ _ _ H H1). split; [split; cbn; auto|auto].
      + now destruct b0.
      + exact (speaks_internal (f :: w)).
      + destruct (gstep_well _ _ _ _ _ _ H H1). split; [split; cbn; auto|auto].
    - destruct H as [m H|m H|m w q H|m g l g' m' H|m x|m H|m w H|m H|m w H|m H|m w H]; try (split; [split; cbn; auto|constructor]).
      + apply (speaks_dispatch E W T SH).
      + destruct (gstep_well _ _ _ _ _ _ H H2). split; [split; cbn; auto|auto].
  Qed.
  Lemma split_proper k start ls s : yrun v (fun c w => dispatch E w c) (dispatch_internal E) (y_init k start) ls s -> forall c, Forall (proper E) (events c ls).
  Proof.
    intros H. enough (X : both_well s /\ forall c, Forall (proper E) (events c ls)) by apply X. remember (y_init k start) as s0 eqn:E0. induction H as [s|s ls s1 l s2 H IH St]; subst.
    - split; [split; exact I|constructor].
    - destruct (IH eq_refl) as [B F]. destruct (well_step _ _ _ St B) as [B' F']. split; [exact B'|]. intros c. unfold events in *. rewrite flat_map_app. apply Forall_app. auto.
  Qed.
End Split_proper.
Lemma told_pubs c ls : told_by c ls = pubs (events c ls).
Proof.
  unfold told_by, pubs, events. induction ls as [|l ls IH]; [reflexivity|]. cbn [flat_map]. rewrite flat_map_app, <- IH. destruct l; try reflexivity. destruct e, (Kernel.chan_eqb c c0); reflexivity.
Qed.
Lemma replied_tells (E : env unit) W T cf c ch ls : shipped E W T -> shared cf -> make_xauthentication (g_scheme cf) (g_key cf) = Ok (e_auth E) -> Forall (proper E) (events c ls) ->
  Forall2 (tells (e_crypto E) cf (e_user_name E) (e_session_id E)) (on_socket ch (gists (events c ls))) (replied_by c ch ls).
Proof.
  intros SH Hs Ha. unfold gists, on_socket, events, replied_by. induction ls as [|l ls IH]; [constructor|]. cbn [flat_map]. intros P. apply Forall_app in P as [P1 P2]. specialize (IH P2).
  rewrite flat_map_app, filter_app. destruct l; try exact IH. destruct e as [ch' m w|ch' m w|m w| | | | | | ]; destruct (Kernel.chan_eqb c c0); cbn [flat_map gist_of filter app]; try exact IH.
  destruct (Kernel.chan_eqb ch ch'); [|exact IH]. constructor; [|exact IH]. inversion P1; subst. eapply (proper_tells E W T cf SH); try eassumption; reflexivity.
Qed.
