(** The start of the split servers: C92. *)
From Verif Require Import Base BaseFacts Json JsonText Auth Message WireSpec History Comm Tree Kernel KernelSpec KernelRun KernelDemo
  Server ServerSpec ServerProofs ServerExec ServerLemmas ServerDemo Split SplitSpec Startup StartupSpec StartupProofs.

(** C92. Whatever the threads do while [start_impl] is still creating threads, their steps are those of
    a run of Split.v, in which the threads run from the beginning, up to what the publisher was given
    when, unless the control thread begins after a stop was requested ([ZBegin true]). *)
Theorem C92_started : forall U v (listener : channel -> frames -> kprog U unit) internal k start ls z,
  zrun v listener internal start (z_init start k) ls z -> ~ In (ZBegin true) ls ->
  exists s, yrun v listener internal (y_init k start) (thread_steps ls) s /\ same_but_publisher (z_sys z) s.
Proof.
  intros U v listener internal k start ls z H N. destruct (simulated v listener internal start k ls z H N) as (p & Y & R).
  eexists. split; [exact Y|]. unfold same_but_publisher. cbn. repeat split.
  - destruct (booted (z_boot z)); [destruct R as (_ & _ & X & _)|destruct R as (_ & _ & _ & _ & X & _)]; exact X.
  - destruct (booted (z_boot z)); [destruct R as (X & _)|destruct R as (X1 & X2 & _)]; congruence.
Qed.
Print Assumptions C92_started.

(** C92. It begins so only if the shell thread has handled a shutdown request before. *)
Theorem C92_lost_only : forall U v (listener : channel -> frames -> kprog U unit) internal k start ls z l1 l2,
  zrun v listener internal start (z_init start k) ls z -> ls = (l1 ++ ZBegin true :: l2)%list -> In (ZStep (YEvent SHELL EStop)) l1.
Proof. intros U v listener internal k start ls z l1 l2. apply begin_lost. Qed.
Print Assumptions C92_lost_only.

(** C92. The start message is published once; what the publisher has sent is an initial part of what was
    published, the start message among it; before the start message come only publications of the
    thread that was created by [start_impl]. *)
Theorem C92_first : forall U v (listener : channel -> frames -> kprog U unit) internal k start ls z,
  zrun v listener internal start (z_init start k) ls z ->
  prefix (f_out (m_pub (y_mem (z_sys z)))) (announced ls) /\
  ((exists l1 l2, ls = (l1 ++ ZStart start :: l2)%list /\ only_other v l1 /\ (forall w, ~ In (ZStart w) l1) /\ (forall w, ~ In (ZStart w) l2)) \/
   (only_other v ls /\ forall w, ~ In (ZStart w) ls)).
Proof.
  intros U v listener internal k start ls z H. split.
  - apply f_all_prefix. exact (announced_all v listener internal start k ls z H).
  - pose proof (before_start v listener internal start k ls z H) as X. destruct (z_boot z); auto.
Qed.
Print Assumptions C92_first.

(** ** Executed runs *)
Section Exec.
  Context {U : Type} (v : variant) (listener : channel -> frames -> kprog U unit) (internal : frames -> kprog U frames) (start : frames).
  Inductive zchoice := ZGBoot | ZGBegin | ZG (c : ychoice).
  Definition exists_threadf (b : boot) (t : tid) : bool :=
    match t with
    | TEnv => true
    | TPub => Nat.ltb 0 (boot_rank b)
    | TBeat => Nat.ltb 1 (boot_rank b)
    | TShell => match v with ControlMain => Nat.ltb 2 (boot_rank b) | ShellMain => Nat.eqb (boot_rank b) 4 end
    | TControl => match v with ControlMain => Nat.eqb (boot_rank b) 4 | ShellMain => Nat.ltb 2 (boot_rank b) end
    end.
  Lemma exists_threadf_ok b t : exists_threadf b t = true -> exists_thread v b t.
  Proof.
    unfold exists_threadf, exists_thread. destruct t, v, b; cbn; intros H; try exact I; try discriminate H; try reflexivity; lia.
  Qed.
  Definition is_control (t : tid) : bool := match t with TControl => true | _ => false end.
  Definition znext (c : zchoice) (z : zsys U) : option (zlabel * zsys U) :=
    match c with
    | ZG c =>
        match ynext v listener internal c (z_sys z) with
        | Some (l, s') =>
            if (exists_threadf (z_boot z) (who l) && (negb (is_control (who l)) || z_begun z))%bool
            then Some (ZStep l, {| z_boot := z_boot z; z_begun := z_begun z; z_sys := s' |}) else None
        | None => None
        end
    | ZGBegin =>
        match y_end (z_sys z), z_begun z with
        | None, false =>
            if exists_threadf (z_boot z) TControl
            then Some (ZBegin (m_stop (y_mem (z_sys z))), {| z_boot := z_boot z; z_begun := true; z_sys := on_mem (set_stop false) (z_sys z) |}) else None
        | _, _ => None
        end
    | ZGBoot =>
        match y_end (z_sys z) with
        | Some _ => None
        | None =>
            match z_boot z with
            | BPub => Some (ZSpawn TPub, {| z_boot := BHb; z_begun := z_begun z; z_sys := z_sys z |})
            | BHb => Some (ZSpawn TBeat, {| z_boot := BOther; z_begun := z_begun z; z_sys := z_sys z |})
            | BOther => Some (ZSpawn (other v), {| z_boot := BStart; z_begun := z_begun z; z_sys := z_sys z |})
            | BStart => Some (ZStart start, {| z_boot := BLoop; z_begun := z_begun z; z_sys := on_mem (fun m => set_pub (f_push start (m_pub m)) m) (z_sys z) |})
            | BLoop => None
            end
        end
    end.
  Lemma znext_sound c z l z' : znext c z = Some (l, z') -> zstep v listener internal start z l z'.
  Proof.
    destruct z as [b g s], c as [| |c]; cbn [znext z_boot z_begun z_sys].
    - destruct (y_end s) eqn:E; [discriminate|]. destruct b; intros X; try discriminate; injection X as <- <-; now constructor.
    - destruct (y_end s) eqn:E; [discriminate|]. destruct g; [discriminate|]. destruct (exists_threadf b TControl) eqn:X; [|discriminate]. intros [= <- <-]. constructor; auto. now apply exists_threadf_ok.
    - destruct (ynext v listener internal c s) as [[l0 s']|] eqn:E; [|discriminate].
      destruct (exists_threadf b (who l0) && (negb (is_control (who l0)) || g))%bool eqn:X; [|discriminate]. intros [= <- <-]. apply andb_true_iff in X as [X1 X2].
      constructor; [eapply ynext_sound; eauto|now apply exists_threadf_ok|]. intros W. now rewrite W in X2.
  Qed.
  Fixpoint zmany (c : zchoice) (n : nat) (ls : list zlabel) (z : zsys U) : list zlabel * zsys U :=
    match n with
    | 0 => (ls, z)
    | S n => match znext c z with Some (l, z') => zmany c n (ls ++ [l]) z' | None => (ls, z) end
    end.
  Fixpoint zexec (cs : list (zchoice * nat)) (ls : list zlabel) (z : zsys U) : list zlabel * zsys U :=
    match cs with [] => (ls, z) | (c, n) :: r => let (ls', z') := zmany c n ls z in zexec r ls' z' end.
  Lemma zmany_sound c n z0 ls z : zrun v listener internal start z0 ls z -> zrun v listener internal start z0 (fst (zmany c n ls z)) (snd (zmany c n ls z)).
  Proof.
    revert ls z. induction n as [|n IH]; intros ls z H; cbn; auto. destruct (znext c z) as [[l z']|] eqn:E; auto.
    apply IH. econstructor; eauto. eapply znext_sound; eauto.
  Qed.
  Lemma zexec_sound cs z0 ls z : zrun v listener internal start z0 ls z -> zrun v listener internal start z0 (fst (zexec cs ls z)) (snd (zexec cs ls z)).
  Proof.
    revert ls z. induction cs as [|[c n] cs IH]; intros ls z H; cbn; auto.
    pose proof (zmany_sound c n z0 ls z H) as D. destruct (zmany c n ls z) as [ls' z']. now apply IH.
  Qed.
End Exec.
Definition start_run (v : variant) cs := zexec v slisten sintern ["start"] cs [] (z_init ["start"] demo_start).
Lemma start_run_ok v cs : zrun v (fun c w => dispatch sdemo w c) (dispatch_internal sdemo) ["start"] (z_init ["start"] demo_start) (fst (start_run v cs)) (snd (start_run v cs)).
Proof. apply zexec_sound. constructor. Qed.
(** The thread that is created handles a message before the start message is published. *)
Definition eager (v : variant) : list (zchoice * nat) :=
  [(ZG (YIn (match v with ControlMain => SHELL | ShellMain => CONTROL end) info), 1); (ZGBoot, 3); (ZGBegin, 1);
   (ZG (YGo (other v)), 500); (ZG (YGo TPub), 100); (ZGBoot, 1); (ZGBegin, 1); (ZG (YGo TPub), 100)].
Theorem C92_first_refuted : forall v, exists U (E : env U) k start ls z a b,
  zrun v (fun c w => dispatch E w c) (dispatch_internal E) start (z_init start k) ls z /\ ~ In (ZBegin true) ls /\
  f_out (m_pub (y_mem (z_sys z))) = (a ++ start :: b)%list /\ a <> [] /\ ~ In start a.
Proof.
  intros v. exists U0, sdemo, demo_start, ["start"], (fst (start_run v (eager v))), (snd (start_run v (eager v))).
  eexists (firstn 2 (f_out (m_pub (y_mem (z_sys (snd (start_run v (eager v)))))))), [].
  split; [apply start_run_ok|]. split; [destruct v; vm_compute; intuition discriminate|].
  split; [destruct v; vm_compute; reflexivity|]. split; [destruct v; vm_compute; discriminate|]. destruct v; vm_compute; intuition discriminate.
Qed.
Print Assumptions C92_first_refuted.

(** A shutdown request on the shell channel that is handled before the control thread begins is
    answered, but has no effect: the control thread goes on serving its socket. *)
Definition lost_stop (v : variant) : list (zchoice * nat) :=
  [(ZG (YIn SHELL shutdown), 1); (ZGBoot, match v with ControlMain => 3 | ShellMain => 4 end); (ZG (YGo TShell), 500); (ZGBoot, 4); (ZGBegin, 1);
   (ZG (YIn CONTROL info), 1); (ZG (YGo TControl), 500); (ZG (YGo TPub), 500)].
Theorem C92_stop_refuted : forall v, exists U (E : env U) k start ls z l1 l2 w,
  zrun v (fun c w => dispatch E w c) (dispatch_internal E) start (z_init start k) ls z /\
  ls = (l1 ++ ZBegin true :: l2)%list /\ In (ZStep (YEvent SHELL EStop)) l1 /\ In (ZStep (YHand CONTROL w)) l2 /\
  m_stop (y_mem (z_sys z)) = false /\ y_ct (z_sys z) = CRecv /\ dead v (fun c w => dispatch E w c) (dispatch_internal E) (z_sys z) /\ z_boot z = BLoop.
Proof.
  intros v. set (r := start_run v (lost_stop v)).
  set (f := fun l => match l with ZBegin true => true | _ => false end). set (cut := fix cut ls := match ls with [] => [] | l :: r => if f l then [] else l :: cut r end).
  exists U0, sdemo, demo_start, ["start"], (fst r), (snd r), (cut (fst r)), (skipn (S (List.length (cut (fst r)))) (fst r)), info.
  split; [apply start_run_ok|]. split; [destruct v; vm_compute; reflexivity|]. split; [destruct v; vm_compute; auto 60|]. split; [destruct v; vm_compute; auto 60|].
  split; [destruct v; vm_compute; reflexivity|]. split; [destruct v; vm_compute; reflexivity|]. split; [apply deadf_ok; destruct v; vm_compute; reflexivity|destruct v; vm_compute; reflexivity].
Qed.
Print Assumptions C92_stop_refuted.
(** Messages on both channels while the threads are created, and a shutdown afterwards. *)
Definition mixed_start (v : variant) : list (zchoice * nat) :=
  [(ZG (YIn SHELL exec1), 1); (ZG (YIn CONTROL info), 1); (ZGBoot, 1); (ZG (YGo TPub), 5); (ZGBoot, 2); (ZGBegin, 1); (ZG (YGo TShell), 20); (ZG (YGo TControl), 500); (ZG (YGo TPub), 20);
   (ZGBoot, 1); (ZGBegin, 1); (ZG (YGo TShell), 500); (ZG (YIn CONTROL shutdown), 1); (ZG (YGo TControl), 500); (ZG (YGo TShell), 500); (ZG (YGo TPub), 500)].
Definition kind (w : frames) : option (option string) := match w with _ :: _ :: _ :: th :: _ => match parse th with Ok h => Some (sfield "msg_type" h) | _ => None end | _ => None end.
Example C92_ex : forall v, let r := start_run v (mixed_start v) in
  zrun v (fun c w => dispatch sdemo w c) (dispatch_internal sdemo) ["start"] (z_init ["start"] demo_start) (fst r) (snd r) /\
  forallb (fun l => match l with ZBegin true => false | _ => true end) (fst r) = true /\
  List.map kind (f_out (m_pub (y_mem (z_sys (snd r))))) =
    let t ty := Some (Some ty) in let start := None in
    match v with
    | ControlMain => [t "status"; t "execute_input"; start; t "stream"; t "execute_result"; t "status"; t "status"; t "status"; t "status"; t "shutdown"; t "status"]
    | ShellMain => [t "status"; t "status"; start; t "status"; t "execute_input"; t "stream"; t "execute_result"; t "status"; t "status"; t "shutdown"; t "status"]
    end.
Proof. intros v r. split; [apply start_run_ok|]. destruct v; vm_compute; auto. Qed.
