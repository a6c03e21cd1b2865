(** Executions of the split servers for the examples of the liveness properties. *)
From Verif Require Import Base BaseFacts Json JsonText Auth Message History Comm Tree Kernel KernelSpec KernelDemo
  Server Split SplitSpec ServerExec ServerDemo SplitLiveSpec.

Section Labels.
  Context {U : Type} (v : variant) (listener : channel -> frames -> kprog U unit) (internal : frames -> kprog U frames).
  Fixpoint ylabels (cs : list ychoice) (s : ysys U) : list slabel :=
    match cs with
    | [] => []
    | c :: r => match ynext v listener internal c s with Some (l, s') => l :: ylabels r s' | None => ylabels r s end
    end.
  Lemma ylabels_app a b s : ylabels (a ++ b) s = (ylabels a s ++ ylabels b (fold_left (yone v listener internal) a s))%list.
  Proof.
    revert s. induction a as [|c a IH]; intros s; cbn [app ylabels fold_left]; auto. unfold yone at 2.
    destruct (ynext v listener internal c s) as [[l s']|]; cbn [app]; now rewrite IH.
  Qed.
  Lemma plab_labels cs s0 n : seen (plab v listener internal cs s0) n = ylabels (firstn n cs) s0.
  Proof.
    induction n as [|n IH]; [reflexivity|]. cbn [seen]. rewrite IH, firstn_S, ylabels_app. f_equal. unfold plab.
    destruct (nth_error cs n) as [c|]; [|reflexivity]. cbn [ylabels]. fold (path v listener internal cs s0 n).
    destruct (ynext v listener internal c (path v listener internal cs s0 n)) as [[l s']|]; reflexivity.
  Qed.
  Lemma plab_end cs s0 n : List.length cs <= n -> plab v listener internal cs s0 n = None.
  Proof. intros H. unfold plab. apply nth_error_None in H. now rewrite H. Qed.
End Labels.
Definition many (c : ychoice) (n : nat) : list ychoice := repeat c n.

(** Choices from the initial state of the demonstration server. *)
Definition split_path v cs := path v slisten sintern cs (y_init demo_start ["start"]).
Definition split_lab v cs := plab v slisten sintern cs (y_init demo_start ["start"]).
Definition still v (s : ysys U0) : bool :=
  forallb (fun t => match ynext v slisten sintern (YGo t) s with None => true | Some _ => false end) [TShell; TControl; TPub; TBeat].
Definition on_stdin (c : channel) (s : ysys U0) : bool :=
  match c with
  | SHELL => match y_sh s with SRun (Going (Do KStdin _)) _ | SIntern (Going (Do KStdin _)) => true | _ => false end
  | CONTROL => match y_ct s with CRun (Going (Do KStdin _)) => true | _ => false end
  end.
Lemma on_stdin_ok c s : on_stdin c s = false -> ~ at_stdin c s.
Proof.
  unfold on_stdin, at_stdin. destruct c.
  - destruct (y_sh s) as [| |[[| | |[]]|]| |[[| | |[]]|]| |]; auto; discriminate.
  - destruct (y_ct s) as [| |[[| | |[]]|]| | | | | | | | |]; auto; discriminate.
Qed.
(** The hypotheses on a fair execution. *)
Definition fair_hyps v (sigma : nat -> ysys U0) lab : Prop :=
  execution v slisten sintern sigma lab /\ sigma 0 = y_init demo_start ["start"] /\ (forall t, t <> TEnv -> fair v slisten sintern sigma lab t).
Lemma split_fair v cs : still v (split_path v cs (List.length cs)) = true -> fair_hyps v (split_path v cs) (split_lab v cs).
Proof.
  intros H. split; [apply path_execution|]. split; [reflexivity|]. intros t Ht. apply path_fair; auto.
  unfold still in H. rewrite forallb_forall in H. assert (I : In t [TShell; TControl; TPub; TBeat]) by (destruct t; cbn; auto; contradiction).
  apply H in I. fold (split_path v cs) . destruct (ynext v slisten sintern (YGo t) (split_path v cs (List.length cs))); [discriminate|reflexivity].
Qed.
Lemma split_off v cs : lwalk v slisten sintern (fun l => negb (theft_label l)) cs (y_init demo_start ["start"]) = true -> keeps_off (split_lab v cs).
Proof. intros H n w Hl. apply (plab_all v slisten sintern (fun l => negb (theft_label l))) in Hl; [discriminate|exact H]. Qed.
Lemma split_calls v cs : walk v slisten sintern (fun s => negb (self_calling s)) cs (y_init demo_start ["start"]) = true -> forall n, ~ calls_itself (split_path v cs n).
Proof. intros H n. apply self_calling_ok. apply negb_true_iff. revert n. apply (path_all v slisten sintern (fun s => negb (self_calling s))). exact H. Qed.
Lemma split_input v cs c : on_stdin c (split_path v cs (List.length cs)) = false -> gets_input c (split_path v cs).
Proof. intros H n. exists (n + List.length cs). split; [lia|]. unfold split_path. rewrite path_end by lia. now apply on_stdin_ok. Qed.

(** Messages on both sockets, a debug request that asks the shell thread, a heartbeat; all handled in turns. *)
Definition live_choices : list ychoice :=
  [YIn SHELL exec1; YIn CONTROL debug; YIn SHELL exec2; YIn CONTROL info; YInBeat ["hb"; "1"]] ++ turns 120.
(** ... and then a shutdown request. *)
Definition stop_live : list ychoice := [YIn SHELL exec1; YIn CONTROL shutdown] ++ turns 120.
(** A failing cell on control empties the shell socket after the shell thread's poll; the debug request
    that follows is not answered, the next control message is not taken. *)
Definition theft_live : list ychoice :=
  [YIn SHELL exec1; YGo TShell; YIn CONTROL failing_cell] ++ many (YGo TControl) 100 ++ [YIn CONTROL debug; YIn CONTROL info] ++ turns 120.
(** The shell thread asks itself, or waits for input that does not come. *)
Definition self_live : list ychoice := [YIn SHELL debug; YIn SHELL exec1] ++ turns 120.
Definition input_live : list ychoice := [YIn SHELL ask; YIn SHELL exec1] ++ turns 120.
(** A shutdown request on the shell socket while the control thread waits for a message. *)
Definition shell_stop_live : list ychoice := [YGo TControl; YIn SHELL shutdown] ++ turns 120.
Definition shell_stop_then : list ychoice := shell_stop_live ++ [YIn CONTROL info] ++ turns 120.
Definition is_stop (c : channel) (l : slabel) : bool := match l with YEvent c' EStop => chan_eqb c c' | _ => false end.
Lemma stop_in c ls : existsb (is_stop c) ls = true -> In (YEvent c EStop) ls.
Proof.
  rewrite existsb_exists. intros (l & Hi & H). destruct l as [| | | |c' e| | | | | |]; try discriminate. destruct e; try discriminate.
  destruct c, c'; try discriminate; exact Hi.
Qed.
