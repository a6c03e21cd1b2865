(** Concrete runs of the servers for the examples of the server properties. *)
From Verif Require Import Base BaseFacts Json JsonText Utf8 Utf8Proofs JsonTextProofs Auth Message MessageProofs WireSpec WireLemmas History Comm Tree Kernel KernelSpec KernelProofs KernelRun KernelDemo
  Server ServerSpec ServerProofs Split SplitSpec Threads SplitProofs SplitCalls SplitStop ServerExec ServerLemmas.

(** ** Which threads can move *)
Section Complete.
  Context {U : Type} (v : variant) (listener : channel -> frames -> kprog U unit) (internal : frames -> kprog U frames).
  Lemma mopf_complete o (m m' : mem U) x : mop o m m' x -> mopf o m <> None.
  Proof.
    destruct o; cbn [mop mopf]; try discriminate.
    - intros (H & _). apply Nat.ltb_lt in H. rewrite H. discriminate.
    - destruct (m_shellq m); discriminate.
    - intros [].
  Qed.
  Lemma gnext_complete c A (g : going U A) m l g' m' : gstep c g m l g' m' -> gnext c g m <> None.
  Proof.
    destruct 1; cbn [gnext].
    - assert (G : match mopf o m with Some (m', x) => Some (label_of c o x, Going (k x), m') | None => None end <> None).
      { destruct (mopf o m) as [[? ?]|] eqn:E; [discriminate|]. eapply mopf_complete in H. congruence. }
      destruct o; try exact G. destruct H.
    - rewrite H. discriminate.
    - rewrite H. discriminate.
  Qed.
  Lemma shellf_complete a m l a' m' : shell_step listener internal a m l a' m' -> shellf listener internal a m <> None.
  Proof.
    destruct 1; cbn [shellf]; try discriminate.
    - destruct (m_shellq m); [contradiction|discriminate].
    - rewrite H, H0. discriminate.
    - rewrite H. discriminate.
    - pose proof (gnext_complete _ _ _ _ _ _ _ H) as C. destruct g as [[]|]; try discriminate;
        (destruct (gnext SHELL _ m) as [[[? ?] ?]|]; [discriminate|contradiction]).
    - rewrite H. destruct (String.eqb f "stop"); discriminate.
    - rewrite H. destruct (String.eqb f "stop"); discriminate.
    - pose proof (gnext_complete _ _ _ _ _ _ _ H) as C. destruct g as [[]|]; try discriminate;
        (destruct (gnext SHELL _ m) as [[[? ?] ?]|]; [discriminate|contradiction]).
  Qed.
  Lemma controlf_complete b m l b' m' : control_step listener b m l b' m' -> controlf listener b m <> None.
  Proof.
    destruct 1; cbn [controlf]; rewrite ?H; try discriminate.
    pose proof (gnext_complete _ _ _ _ _ _ _ H) as C. destruct g as [[]|]; try discriminate;
      (destruct (gnext CONTROL _ m) as [[[? ?] ?]|]; [discriminate|contradiction]).
  Qed.
  Lemma failing_going A (g : kprog U A) : failing g -> failingf (Going g) = true.
  Proof. destruct g; cbn; auto; contradiction. Qed.
  Lemma gstep_who c A (g : going U A) m l g' m' : gstep c g m l g' m' -> who l = chan_tid c.
  Proof. destruct 1; cbn; auto. destruct o; cbn; auto. destruct x; auto. Qed.
  Lemma shell_who a m l a' m' : shell_step listener internal a m l a' m' -> who l = TShell.
  Proof. destruct 1; cbn; auto; apply (gstep_who _ _ _ _ _ _ _ H). Qed.
  Lemma control_who a m l a' m' : control_step listener a m l a' m' -> who l = TControl.
  Proof. destruct 1; cbn; auto; apply (gstep_who _ _ _ _ _ _ _ H). Qed.
  Lemma ynext_complete s l s' : ystep v listener internal s l s' -> who l <> TEnv -> ynext v listener internal (YGo (who l)) s <> None.
  Proof.
    intros H W. unfold ynext. destruct H; cbn [y_sh y_ct y_mem y_stopped y_end who] in *; try contradiction; try discriminate.
    - rewrite (shell_who _ _ _ _ _ H). apply shellf_complete in H as C.
      assert (G : match shellf listener internal a m with
                  | Some (l, a', m') => Some (l, yst a' c m' b None)
                  | None => if match a with SRun g _ => failingf g | SIntern g => failingf g | _ => false end then Some (YTau TShell, yst a c m b (Some Crashed)) else None
                  end <> None) by (destruct (shellf listener internal a m) as [[[? ?] ?]|]; [discriminate|contradiction]).
      destruct a; try exact G. inversion H.
    - rewrite (control_who _ _ _ _ _ H). apply controlf_complete in H as C.
      assert (G : match controlf listener c m with
                  | Some (l, b', m') => Some (l, yst a b' m' b None)
                  | None => if match c with CRun g => failingf g | _ => false end then Some (YTau TControl, yst a c m b (Some Crashed)) else None
                  end <> None) by (destruct (controlf listener c m) as [[[? ?] ?]|]; [discriminate|contradiction]).
      destruct c; try exact G; inversion H.
    - destruct v; [discriminate|]. rewrite H; auto. discriminate.
    - assert (G : match shellf listener internal a m with
                  | Some (l, a', m') => Some (l, yst a' c m b None)
                  | None => if match a with SRun g _ => failingf g | SIntern g => failingf g | _ => false end then Some (YTau TShell, yst a c m b (Some Crashed)) else None
                  end <> None).
      { destruct (shellf listener internal a m) as [[[? ?] ?]|]; [discriminate|]. destruct a; try destruct H.
        - destruct g; [|destruct H]. cbn in H. rewrite (failing_going _ _ H). discriminate.
        - destruct g; [|destruct H]. cbn in H. rewrite (failing_going _ _ H). discriminate. }
      destruct a; try destruct H; try (destruct (shellf listener internal _ m) as [[[? ?] ?]|]; [discriminate|exact G]).
    - destruct c; try destruct H. destruct g; [|destruct H]. cbn in H.
      destruct (controlf listener _ m) as [[[? ?] ?]|]; [discriminate|]. rewrite (failing_going _ _ H). discriminate.
    - rewrite H. discriminate.
    - rewrite H. discriminate.
  Qed.
  Lemma not_enabled s t : t <> TEnv -> ynext v listener internal (YGo t) s = None -> ~ enabled v listener internal t s.
  Proof. intros Ht H (l & s' & W & Hs). subst t. now apply ynext_complete in Hs. Qed.

  (** ** Executions given by a list of choices; a choice that is not possible is skipped. *)
  Definition yone (s : ysys U) (c : ychoice) : ysys U := match ynext v listener internal c s with Some (_, s') => s' | None => s end.
  Definition path (cs : list ychoice) (s0 : ysys U) (n : nat) : ysys U := fold_left yone (firstn n cs) s0.
  Definition plab (cs : list ychoice) (s0 : ysys U) (n : nat) : option slabel :=
    match nth_error cs n with
    | Some c => match ynext v listener internal c (path cs s0 n) with Some (l, _) => Some l | None => None end
    | None => None
    end.
  Lemma firstn_S {A} (l : list A) n : firstn (S n) l = (firstn n l ++ match nth_error l n with Some x => [x] | None => [] end)%list.
  Proof. revert n. induction l as [|x l IH]; intros [|n]; cbn; auto. f_equal. apply IH. Qed.
  Lemma path_execution cs s0 : execution v listener internal (path cs s0) (plab cs s0).
  Proof.
    intros n. unfold plab. unfold path at 3 4. rewrite firstn_S, fold_left_app. fold (path cs s0 n).
    destruct (nth_error cs n) as [c|]; cbn [fold_left]; [|reflexivity]. unfold yone.
    destruct (ynext v listener internal c (path cs s0 n)) as [[l s']|] eqn:E; [|reflexivity]. eapply ynext_sound; eauto.
  Qed.
  Lemma path_end cs s0 n : List.length cs <= n -> path cs s0 n = path cs s0 (List.length cs).
  Proof. intros H. unfold path. now rewrite !firstn_all2. Qed.
  Lemma path_fair cs s0 t : t <> TEnv -> ynext v listener internal (YGo t) (path cs s0 (List.length cs)) = None ->
    fair v listener internal (path cs s0) (plab cs s0) t.
  Proof.
    intros Ht H n. exists (n + List.length cs). split; [lia|]. left. rewrite path_end; [|lia]. now apply not_enabled.
  Qed.
  (** A property of all states of a path, checked on the finitely many different ones; likewise for its
      labels. *)
  Fixpoint walk (P : ysys U -> bool) (cs : list ychoice) (s : ysys U) : bool :=
    P s && match cs with [] => true | c :: r => walk P r (yone s c) end.
  Lemma path_all (P : ysys U -> bool) cs s0 : walk P cs s0 = true -> forall n, P (path cs s0 n) = true.
  Proof.
    revert s0. induction cs as [|c cs IH]; intros s0 H n; cbn in H; apply andb_true_iff in H; destruct H as [H1 H2].
    - destruct n; exact H1.
    - destruct n as [|n]; [exact H1|]. exact (IH _ H2 n).
  Qed.
  Fixpoint lwalk (P : slabel -> bool) (cs : list ychoice) (s : ysys U) : bool :=
    match cs with
    | [] => true
    | c :: r => match ynext v listener internal c s with Some (l, s') => P l && lwalk P r s' | None => lwalk P r s end
    end.
  Lemma plab_all (P : slabel -> bool) cs s0 : lwalk P cs s0 = true -> forall n l, plab cs s0 n = Some l -> P l = true.
  Proof.
    revert s0. induction cs as [|c cs IH]; intros s0 H n l Hl; [destruct n; discriminate|]. cbn in H.
    destruct n as [|n].
    - unfold plab, path in Hl. cbn in Hl. destruct (ynext v listener internal c s0) as [[l' s']|]; [|discriminate].
      apply andb_true_iff in H. destruct H as [H _]. congruence.
    - assert (Hl' : plab cs (yone s0 c) n = Some l) by exact Hl. unfold yone in Hl'.
      destruct (ynext v listener internal c s0) as [[l' s']|]; [apply andb_true_iff in H; destruct H as [_ H]|]; eauto.
  Qed.
End Complete.

(** ** Demonstration runs *)
Definition default_listener c w := dispatch demo w c.
Definition shutdown : frames := wire_of (request_msg ["peer"] "shutdown_request" (jobj [("restart", JBool false)])).
Definition exec1 : frames := wire_of (execute "1" []).
Definition exec2 : frames := wire_of (execute "2" []).
Definition info : frames := wire_of (simple "kernel_info_request").
Definition debug : frames := wire_of (simple "debug_request").
Definition failing_cell : frames := wire_of (execute "bad" [("stop_on_error", JBool true)]).
Definition ask : frames := wire_of (execute "ask" [("allow_stdin", JBool true)]).
Definition default_run cs := dexec default_listener cs [] (d_init demo_start ["start"]).
Lemma default_run_ok cs : drun (fun c w => dispatch demo w c) (d_init demo_start ["start"]) (fst (default_run cs)) (snd (default_run cs)).
Proof. apply dexec_run. Qed.
(** Two shell messages, a control message and a heartbeat; then everything is handled. *)
Definition busy_choices : list (choice * nat) :=
  [(GArrive SHELL exec1, 1); (GArrive CONTROL info, 1); (GArrive SHELL exec2, 1); (GBeat ["hb"; "1"], 1); (GMain, 500); (GPub, 200); (GHb, 50)].
(** A shutdown request, with the publisher running late. *)
Definition stop_choices : list (choice * nat) :=
  [(GArrive CONTROL shutdown, 1); (GArrive SHELL exec2, 1); (GMain, 500); (GPub, 100); (GMain, 100); (GHb, 50); (GMain, 10)].
(** A failing cell on the control channel. *)
Definition steal_choices : list (choice * nat) :=
  [(GArrive CONTROL failing_cell, 1); (GArrive SHELL exec1, 1); (GMain, 500); (GPub, 200); (GHb, 50)].

(** The debugger of the split servers asks the interpreter. *)
Definition sdemo : env U0 := {|
  e_crypto := toy; e_auth := toy_auth; e_eh := EStrict; e_kernel_id := "k1"; e_user_name := "user"; e_session_id := "s1";
  e_guid := ticks; e_now := fun _ => "2024-01-01T00:00:00Z"; e_stdin := stdin_msg; e_logger := fun _ => Ok tt;
  e_regex := fun _ => Ok (fun _ => false); e_indet := IndetVal (fun _ => false); e_long_id := fun s => Ok s;
  e_configure := Ret tt; e_interp := demo_interp; e_split := true;
  e_debugger := Some (fun h t => Do (Ar := @uans2 U0) (ASendToShell (JStr "stop")) (fun r => match r with inl j => Ret j | inr e => Throw e end));
  e_callback := demo_callback; e_handler := demo_handler; e_input := fun _ _ => Ret tt |}.
Definition slisten c w := dispatch sdemo w c.
Definition sintern := dispatch_internal sdemo.
Fixpoint mix (n : nat) : list (ychoice * nat) :=
  match n with 0 => [] | S n => (YGo TShell, 3) :: (YGo TControl, 2) :: (YGo TPub, 1) :: (YGo TBeat, 1) :: mix n end.
Definition split_run (v : variant) cs := yexec v slisten sintern cs [] (y_init demo_start ["start"]).
Lemma split_run_ok v cs : yrun v (fun c w => dispatch sdemo w c) (dispatch_internal sdemo) (y_init demo_start ["start"]) (fst (split_run v cs)) (snd (split_run v cs)).
Proof. apply yexec_run. Qed.
(** Shell and control messages handled in turns. *)
Definition together : list (ychoice * nat) :=
  [(YIn SHELL exec1, 1); (YIn CONTROL debug, 1); (YIn SHELL exec2, 1); (YInBeat ["hb"; "1"], 1)] ++ mix 60.
(** ... up to the point where the control thread leaves its loop, and the rest. *)
Definition until_stop : list (ychoice * nat) := [(YIn CONTROL shutdown, 1); (YIn SHELL exec1, 1); (YGo TControl, 25)].
Fixpoint turns (n : nat) : list ychoice := match n with 0 => [] | S n => YGo TShell :: YGo TControl :: YGo TPub :: YGo TBeat :: turns n end.
Definition stopping (v : variant) : ysys U0 := snd (split_run v until_stop).
(** Deadlocks. *)
Definition theft : list (ychoice * nat) :=
  [(YIn SHELL exec1, 1); (YGo TShell, 1); (YIn CONTROL failing_cell, 1); (YGo TControl, 500); (YIn CONTROL shutdown, 1); (YGo TControl, 500)] ++ mix 40.
Definition self_call : list (ychoice * nat) :=
  [(YIn SHELL debug, 1); (YGo TShell, 500); (YIn CONTROL shutdown, 1); (YGo TControl, 500)] ++ mix 40.
Definition no_input : list (ychoice * nat) :=
  [(YIn SHELL ask, 1); (YGo TShell, 500); (YIn CONTROL shutdown, 1); (YGo TControl, 500)] ++ mix 40.
Definition shell_stop : list (ychoice * nat) :=
  [(YGo TControl, 5); (YIn SHELL shutdown, 1); (YGo TShell, 500)] ++ mix 40.
(** No thread can move though the process has not ended. *)
Definition dead {U} v listener internal (s : ysys U) : Prop := y_end s = None /\ forall t, t <> TEnv -> ~ enabled v listener internal t s.
Definition deadf {U} v listener internal (s : ysys U) : bool :=
  match y_end s with None => true | _ => false end &&
  forallb (fun t => match ynext v listener internal (YGo t) s with None => true | Some _ => false end) [TShell; TControl; TPub; TBeat].
Lemma deadf_ok U v listener internal (s : ysys U) : deadf v listener internal s = true -> dead v listener internal s.
Proof.
  unfold deadf. rewrite andb_true_iff, forallb_forall. intros [A B]. split; [destruct (y_end s); [discriminate|reflexivity]|].
  intros t Ht. apply not_enabled; auto. assert (I : In t [TShell; TControl; TPub; TBeat]) by (destruct t; cbn; auto; contradiction).
  apply B in I. destruct (ynext v listener internal (YGo t) s); [discriminate|reflexivity].
Qed.
Definition theft_label (l : slabel) : bool := match l with YTook CONTROL _ => true | _ => false end.
Definition self_calling {U} (s : ysys U) : bool :=
  match y_sh s with
  | SRun (Going (Do (KCall _) _)) _ | SRun (Calling _) _ | SIntern (Going (Do (KCall _) _)) | SIntern (Calling _) => true
  | _ => false
  end.
Lemma self_calling_ok U (s : ysys U) : self_calling s = false -> ~ calls_itself s.
Proof.
  unfold self_calling, calls_itself. destruct (y_sh s); auto.
  - destruct g as [[| | |[]]|]; auto; discriminate.
  - destruct g as [[| | |[]]|]; auto; discriminate.
Qed.
Definition stdin_waiting {U} (s : ysys U) : bool :=
  match y_sh s with SRun (Going (Do KStdin _)) _ => Nat.leb (m_stdin (y_mem s)) (k_stdin (m_k (y_mem s))) | _ => false end.
Lemma stdin_waiting_ok U (s : ysys U) : stdin_waiting s = false -> ~ waits_stdin s.
Proof.
  unfold stdin_waiting, waits_stdin. destruct (y_sh s); auto. destruct g as [[| | |[]]|]; auto.
  rewrite Nat.leb_gt. lia.
Qed.
