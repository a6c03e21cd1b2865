(** Concrete infinite executions of the default server. *)
From Verif Require Import Base BaseFacts Json JsonText Auth Message WireSpec History Comm Tree Kernel KernelSpec KernelRun KernelDemo
  Server ServerSpec ServerProofs Split ServerExec ServerLemmas ServerDemo LiveSpec Live.

Section Path.
  Context {U : Type} (listener : channel -> frames -> kprog U unit).
  Lemma mainf_complete s l s' : main_step listener s l s' -> mainf listener s <> None.
  Proof.
    destruct 1; unfold mainf; cbn [d_pc d_mem]; try discriminate; try (rewrite H; discriminate).
    - subst rc rs. destruct (m_ctlq m), (m_shellq m); cbn; try discriminate. destruct H; contradiction.
    - destruct (mopf o m) as [[? ?]|] eqn:E; [discriminate|]. eapply mopf_complete in H. congruence.
    - destruct p; try discriminate. contradiction.
    - destruct (mopf o m) as [[? ?]|] eqn:E; [discriminate|]. eapply mopf_complete in H. congruence.
    - destruct p; try discriminate. contradiction.
  Qed.
  Definition actor_of (c : choice) : actor := match c with GMain => AMain | GPub => APublisher | GHb => AHeartbeat | _ => AWorld end.
  Lemma dnext_acts c s l s' : dnext listener c s = Some (l, s') -> acts listener (actor_of c) s l s'.
  Proof.
    intros H. pose proof (dnext_sound listener c s l s' H) as D. destruct c as [| | |[]|w|]; cbn [dnext actor_of acts] in *.
    - now apply mainf_sound.
    - destruct (alivef (d_pc s)) eqn:A; [|discriminate]. apply alivef_ok in A. destruct (fnext (m_pub (d_mem s))) eqn:F; [|discriminate]. injection H as <- <-. eauto 10.
    - destruct (alivef (d_pc s)) eqn:A; [|discriminate]. apply alivef_ok in A. destruct (fnext (m_hb (d_mem s))) eqn:F; [|discriminate]. injection H as <- <-. eauto 10.
    - injection H as <- <-. split; auto. exact I.
    - injection H as <- <-. split; auto. exact I.
    - injection H as <- <-. split; auto. exact I.
    - injection H as <- <-. split; auto. exact I.
  Qed.
  Lemma alivef_complete (pc : mpc U) : alive pc -> alivef pc = true.
  Proof. destruct pc; cbn; auto; contradiction. Qed.
  Definition choice_of (a : actor) : option choice := match a with AMain => Some GMain | APublisher => Some GPub | AHeartbeat => Some GHb | AWorld => None end.
  Lemma not_able a c s : choice_of a = Some c -> dnext listener c s = None -> ~ able (acts listener) a s.
  Proof.
    intros Hc H (l & s' & HA). destruct a; try discriminate Hc; injection Hc as <-; cbn [dnext acts] in *.
    - now apply mainf_complete in HA.
    - destruct HA as (_ & A & f & F & _). apply alivef_complete in A. rewrite A, F in H. discriminate.
    - destruct HA as (_ & A & f & F & _). apply alivef_complete in A. rewrite A, F in H. discriminate.
  Qed.

  (** The execution given by a list of choices, idle afterwards; a choice that is not possible is
      skipped. *)
  Definition done1 (s : dsys U) (c : choice) : dsys U := match dnext listener c s with Some (_, s') => s' | None => s end.
  Definition dpath (cs : list choice) (s0 : dsys U) (n : nat) : dsys U := fold_left done1 (firstn n cs) s0.
  Definition dlab (cs : list choice) (s0 : dsys U) (n : nat) : option (actor * label) :=
    match nth_error cs n with
    | Some c => match dnext listener c (dpath cs s0 n) with Some (l, _) => Some (actor_of c, l) | None => None end
    | None => None
    end.
  Lemma dpath_executes cs s0 : executes (acts listener) (dpath cs s0) (dlab cs s0).
  Proof.
    intros n. unfold dlab. unfold dpath at 3 4. rewrite firstn_S, fold_left_app. fold (dpath cs s0 n).
    destruct (nth_error cs n) as [c|]; cbn [fold_left]; [|reflexivity]. unfold done1.
    destruct (dnext listener c (dpath cs s0 n)) as [[l s']|] eqn:E; [|reflexivity]. now apply dnext_acts.
  Qed.
  Lemma dpath_end cs s0 n : List.length cs <= n -> dpath cs s0 n = dpath cs s0 (List.length cs).
  Proof. intros H. unfold dpath. now rewrite !firstn_all2. Qed.
  Lemma dpath_just cs s0 a c : choice_of a = Some c -> dnext listener c (dpath cs s0 (List.length cs)) = None ->
    just (acts listener) (dpath cs s0) (dlab cs s0) a.
  Proof.
    intros Hc H n. exists (n + List.length cs). split; [lia|]. left. rewrite dpath_end; [|lia]. eapply not_able; eauto.
  Qed.
  Lemma dlab_end cs s0 n : List.length cs <= n -> observed (dlab cs s0) n = observed (dlab cs s0) (List.length cs).
  Proof.
    induction 1 as [|n H IH]; [reflexivity|]. cbn [observed]. rewrite IH. unfold dlab at 2.
    replace (nth_error cs n) with (@None choice); [apply app_nil_r|]. symmetry. now apply nth_error_None.
  Qed.
  (** The labels of a path, computed in one pass. *)
  Fixpoint dlabels (cs : list choice) (s : dsys U) : list label :=
    match cs with
    | [] => []
    | c :: r => match dnext listener c s with Some (l, s') => l :: dlabels r s' | None => dlabels r s end
    end.
  Lemma dlabels_app cs cs' s : dlabels (cs ++ cs') s = (dlabels cs s ++ dlabels cs' (fold_left done1 cs s))%list.
  Proof.
    revert s. induction cs as [|c cs IH]; intros s; [reflexivity|]. cbn [app dlabels fold_left]. unfold done1 at 2.
    destruct (dnext listener c s) as [[l s']|]; rewrite IH; reflexivity.
  Qed.
  Lemma dlab_labels cs s0 n : observed (dlab cs s0) n = dlabels (firstn n cs) s0.
  Proof.
    induction n as [|n IH]; [reflexivity|]. cbn [observed]. rewrite IH, firstn_S, dlabels_app. f_equal. unfold dlab, dpath.
    destruct (nth_error cs n) as [c|]; [|reflexivity]. cbn [dlabels]. destruct (dnext listener c _) as [[l s']|]; reflexivity.
  Qed.
  (** A property of all labels of a path with the state before them. *)
  Fixpoint dwalk (P : dsys U -> option (actor * label) -> bool) (cs : list choice) (s : dsys U) : bool :=
    match cs with
    | [] => P s None
    | c :: r => match dnext listener c s with
                | Some (l, s') => P s (Some (actor_of c, l)) && dwalk P r s'
                | None => P s None && dwalk P r s
                end
    end.
  Lemma dpath_all (P : dsys U -> option (actor * label) -> bool) cs s0 : dwalk P cs s0 = true ->
    forall n, P (dpath cs s0 n) (dlab cs s0 n) = true.
  Proof.
    revert s0. induction cs as [|c cs IH]; intros s0 H n.
    - unfold dpath, dlab. destruct n; exact H.
    - destruct n as [|n].
      + unfold dpath, dlab. cbn in *. destruct (dnext listener c s0) as [[l s']|]; now apply andb_true_iff in H.
      + change (dpath (c :: cs) s0 (S n)) with (dpath cs (done1 s0 c) n). change (dlab (c :: cs) s0 (S n)) with (dlab cs (done1 s0 c) n).
        apply IH. cbn [dwalk] in H. unfold done1. destruct (dnext listener c s0) as [[l s']|]; now apply andb_true_iff in H.
  Qed.
End Path.

Fixpoint repeat_choice (c : choice) (n : nat) : list choice := match n with 0 => [] | S n => c :: repeat_choice c n end.
Definition expand (cs : list (choice * nat)) : list choice := flat_map (fun x => repeat_choice (fst x) (snd x)) cs.
Definition default_path cs := dpath default_listener (expand cs) (d_init demo_start ["start"]).
Definition default_lab cs := dlab default_listener (expand cs) (d_init demo_start ["start"]).
Definition waiting_input {U} (s : dsys U) : bool :=
  match d_pc s with
  | MInControl (Do KStdin _) _ | MInShell (Do KStdin _) => Nat.leb (m_stdin (d_mem s)) (k_stdin (m_k (d_mem s)))
  | _ => false
  end.
Lemma waiting_input_ok {U} (s : dsys U) : waiting_input s = false -> ~ waits_input s.
Proof.
  unfold waiting_input, waits_input. destruct (d_pc s) as [| | |p r| | |p| | | | | |]; auto; destruct p as [| | |[]]; auto;
    intros H HL; apply Nat.leb_le in HL; congruence.
Qed.
(** Hypotheses of the liveness theorems for a concrete execution, as a test. *)
Definition settled (s : dsys U0) : bool :=
  match dnext default_listener GMain s, dnext default_listener GPub s, dnext default_listener GHb s with None, None, None => true | _, _, _ => false end.
Definition steals (s : dsys U0) (x : option (actor * label)) : bool :=
  match d_pc s, x with MInControl _ _, Some (AMain, Took _) => true | _, _ => false end.
Definition live_hyps (sigma : nat -> dsys U0) (lab : nat -> option (actor * label)) : Prop :=
  executes (acts (fun c w => dispatch demo w c)) sigma lab /\ sigma 0 = d_init demo_start ["start"] /\
  just (acts (fun c w => dispatch demo w c)) sigma lab AMain /\ just (acts (fun c w => dispatch demo w c)) sigma lab APublisher /\
  just (acts (fun c w => dispatch demo w c)) sigma lab AHeartbeat /\ (forall n, exists m, n <= m /\ ~ waits_input (sigma m)).
Lemma default_live cs : settled (default_path cs (List.length (expand cs))) = true -> waiting_input (default_path cs (List.length (expand cs))) = false ->
  live_hyps (default_path cs) (default_lab cs).
Proof.
  intros H HW. unfold settled in H.
  destruct (dnext default_listener GMain _) eqn:E1; [discriminate|]. destruct (dnext default_listener GPub _) eqn:E2; [discriminate|].
  destruct (dnext default_listener GHb _) eqn:E3; [discriminate|].
  split; [apply dpath_executes|]. split; [reflexivity|]. split; [eapply dpath_just; [reflexivity|exact E1]|].
  split; [eapply dpath_just; [reflexivity|exact E2]|]. split; [eapply dpath_just; [reflexivity|exact E3]|].
  intros n. exists (n + List.length (expand cs)). split; [lia|]. unfold default_path. rewrite dpath_end by lia. apply waiting_input_ok. exact HW.
Qed.
