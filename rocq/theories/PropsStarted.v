(** C12, C14, C57: kernels from their start on. *)
From Verif Require Import Base BaseFacts Json JsonText Utf8 Utf8Proofs JsonTextProofs Auth Message WireSpec WireLemmas History HistoryProofs Comm CommSpec Tree Kernel KernelSpec KernelProofs KernelRun KernelHandlers KernelReplies KernelExec KernelDispatch KernelLemmas KernelExecProps KernelSession KernelMisc KernelInfo KernelDemo PropsKernel.

(** C57. Whatever the interpreter has done when it was configured: a started kernel has counted and stored no execution, has taken
    nothing from the shell channel, and has no parent on any channel. *)
Theorem C57_state : forall U (E : env U) raw, env_utf8 E -> user_publishes E raw ->
  forall u q s r, run (kernel_start E) (kinit u q) = (s, r) ->
  k_count s = 0%Z /\ k_history s = [] /\ k_shell s = q /\ forall c, k_phdr s c = JObj [] /\ k_pid s c = [].
Proof.
  intros U E raw Hu HU u q s r. unfold kernel_start. rewrite run_bind.
  pose proof (frame_embed E raw (ua_input _ _ _ HU) (e_configure E) (ua_configure _ _ _ HU) (kinit u q)) as Hf.
  destruct (run (embed E (e_configure E)) (kinit u q)) as [s1 r1]. cbn [fst] in Hf. destruct Hf as [F1 F2 F3 F4 F5 _].
  assert (X : k_count s1 = 0%Z /\ k_history s1 = [] /\ k_shell s1 = q /\ forall c, k_phdr s1 c = JObj [] /\ k_pid s1 c = []).
  { rewrite F1, F2, F3, F4, F5. cbn. auto. }
  destruct r1 as [[]|e|w]; [|intros [= <- _]; exact X|intros [= <- _]; exact X]. rewrite run_bind. destruct (build_start E Hu s1) as (m & w & -> & _). rewrite run_emit. intros [= <- _]. exact X.
Qed.
Print Assumptions C57_state.
(** C12. The count of a kernel is the number of visible executions since it was started. *)
Theorem C12_started : forall U (E : env U) raw, quiet E -> env_utf8 E -> user_publishes E raw ->
  forall u q s0 r0 msgs s, run (kernel_start E) (kinit u q) = (s0, r0) -> session E msgs s0 s ->
  exists n, tally (fun x => exists p, executes E (snd x) p /\ x_silent p = false) msgs n /\ k_count s = Z.of_nat n.
Proof.
  intros U E raw Hq Hu HU u q s0 r0 msgs s H0 H. destruct (C57_state U E raw Hu HU u q s0 r0 H0) as (Hc & _ & _ & Hp).
  destruct (C12_count U E raw Hq Hu HU msgs s0 s H) as (n & T & C); [intros c; rewrite (proj1 (Hp c)); apply utf8_empty|].
  exists n. split; auto. rewrite C, Hc. lia.
Qed.
Print Assumptions C12_started.
(** C14. The history of a kernel is what was stored since it was started. *)
Theorem C14_started : forall U (E : env U) raw, quiet E -> env_utf8 E -> user_publishes E raw ->
  forall u q s0 r0 msgs s, run (kernel_start E) (kinit u q) = (s0, r0) -> session E msgs s0 s ->
  exists l, recorded E msgs s0 l /\ k_history s = List.map history_entry l.
Proof.
  intros U E raw Hq Hu HU u q s0 r0 msgs s H0 H. destruct (C57_state U E raw Hu HU u q s0 r0 H0) as (_ & Hh & _ & Hp).
  destruct (C14_history U E raw Hq Hu HU msgs s0 s H) as (l & R & C); [intros c; rewrite (proj1 (Hp c)); apply utf8_empty|].
  exists l. split; auto. now rewrite C, Hh.
Qed.
Print Assumptions C14_started.
Example C12_started_ex : quiet demo /\ env_utf8 demo /\ user_publishes demo user_types /\
  run (kernel_start demo) (kinit [] []) = (demo_start, Ok tt) /\
  session demo (List.map (fun x => (fst x, wire_of (snd x))) session_msgs) demo_start (send_all session_msgs demo_start) /\
  k_count (send_all session_msgs demo_start) = 3%Z /\ List.length (k_history (send_all session_msgs demo_start)) = 1.
Proof.
  split; [exact demo_quiet|]. split; [exact demo_utf8|]. split; [exact demo_user|].
  split; [assert (R : snd (run (kernel_start demo) (kinit [] [])) = Ok tt) by (vm_compute; reflexivity); rewrite <- R; apply surjective_pairing|].
  destruct C12_ex as (X1 & X2 & _). split; [exact X1|]. split; [exact X2|]. rewrite (proj1 C14_ex). reflexivity.
Qed.
