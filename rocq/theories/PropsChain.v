(** Theorems about chains of loggers used by several threads: C102. *)
From Coq Require Import Sorting.Permutation.
From Verif Require Import Base BaseFacts Json JsonText JsonTextProofs Auth Message Logger Pretty PrettyProofs Monitor MonitorProofs Chain ChainSpec ChainProofs.

(** ** C102 *)
(** Whatever loggers share a sink: its text is made of pieces of theirs, and the pieces of a logger that is
    not writing are the texts of the calls it has finished, in order; nothing is lost. *)
Theorem C102_pieces : forall early chain init ls s x, qrun early chain (q_init init) ls s -> exists ps,
  q_sinks s x = init x +++ sconcat (map snd ps) /\
  Forall (fun p => exists l, nth_error chain (fst p) = Some (l, x)) ps /\
  forall k l, nth_error chain k = Some (l, x) -> q_locks s k = None ->
    part k ps = sconcat (map (link_text early x) (done_by k ls)).
Proof.
  intros early chain init ls s x R. destruct (run_filled _ _ _ _ _ x R) as (ps & P1 & P2 & P3). exists ps. split; auto. split; auto.
  intros k l Hk L. now apply (P3 _ _ Hk).
Qed.
Print Assumptions C102_pieces.
(** A sink of one logger: whole texts, in the order in which they were finished. *)
Theorem C102_own : forall early chain init ls s x k l, qrun early chain (q_init init) ls s -> nth_error chain k = Some (l, x) ->
  (forall k' l', nth_error chain k' = Some (l', x) -> k' = k) -> q_locks s k = None ->
  q_sinks s x = init x +++ sconcat (map (link_text early x) (done_by k ls)).
Proof. intros early chain init ls s x k l R Hk Own L. exact (run_own _ _ _ _ _ _ _ _ R Hk Own L). Qed.
Print Assumptions C102_own.
(** Sinks with several loggers, if the calls of the chain do not overlap. *)
Theorem C102_turns : forall early chain init ls s x, qrun early chain (q_init init) ls s -> in_turns ls None ->
  q_sinks s x = init x +++ sconcat (done_at early chain x ls).
Proof. intros early chain init ls s x R T. exact (proj2 (proj2 (run_turns _ _ _ _ _ x R _ T))). Qed.
Print Assumptions C102_turns.
(** The calls of one thread do not overlap. *)
Theorem C102_one_thread : forall early chain init ls s i, qrun early chain (q_init init) ls s -> Forall (of_thread i) ls ->
  q_at s i = QOut -> in_turns ls None.
Proof. intros early chain init ls s i R F E. destruct (run_one _ _ _ _ _ _ R F) as [_ T]. now rewrite E in T. Qed.
Print Assumptions C102_one_thread.
(** A call returns or throws as the chain does alone; if it returns, every logger has written its message
    at its level. *)
Theorem C102_results : forall early lg init ls s i m r, qrun early (links lg) (q_init init) ls s -> List.In (QBack i m r) ls ->
  snd (log_message lg (po_info m) (po_header m) (po_parent m) (po_meta m) (po_content m)) = match r with inl _ => Ok tt | inr e => Exn e end /\
  (r = inl tt -> forall k l x, nth_error (links lg) k = Some (l, x) -> exists j c,
     at_level l (po_header m) (po_parent m) (po_meta m) (po_content m) = Ok j /\ l_info c = po_info m /\ l_message c = j /\
     List.In (QDone i k c (inl tt)) ls /\ link_text early x c = (match x with
       | SConsole => po_info m +++ newline +++ (match pretty j with Ok t => t | _ => "" end) +++ newline
       | SFile _ => (match pretty (jobj [("info", JStr (po_info m)); ("message", j)]) with Ok t => t | _ => "" end) +++ newline end)).
Proof.
  intros early lg init ls s i m r R Hin. destruct (run_results _ _ _ _ _ R) as [_ H]. destruct (H _ _ _ Hin) as [A B]. split; [exact A|].
  intros -> k l x Hk. destruct (B eq_refl k) as (l' & x' & j & E1 & E2 & E3); [apply nth_error_Some; congruence|]. rewrite Hk in E1. injection E1 as <- <-.
  exists j, (post_call m k j). split; auto. split; auto. split; auto. split; auto.
  destruct (run_done _ _ _ _ _ _ _ _ _ R E3) as (l2 & x2 & E4 & E5). rewrite Hk in E4. injection E4 as <- <-.
  destruct x as [|name]; cbn [link_text link_result] in *.
  - unfold console_text, console_result in *. cbn [l_message l_info post_call] in *. destruct (pretty_cases j) as [[t Ht]|Ht]; rewrite Ht in *; [reflexivity|discriminate].
  - unfold file_text, file_result, l_log in *. cbn [l_message l_info post_call] in *.
    destruct (pretty_cases (jobj [("info", JStr (po_info m)); ("message", j)])) as [[t Ht]|Ht]; rewrite Ht in *; [reflexivity|discriminate].
Qed.
Print Assumptions C102_results.
(** No deadlock: a thread in the loggers can get out of them, with no further calls. *)
Theorem C102_no_deadlock : forall early chain init ls s i, qrun early chain (q_init init) ls s -> q_at s i <> QOut ->
  exists ls' s' m r, qrun early chain s ls' s' /\ Forall q_no_call ls' /\ List.In (QBack i m r) ls' /\ q_at s' i = QOut.
Proof. intros early chain init ls s i R N. eapply (good_ends early chain init); [exact (run_good _ _ _ _ _ R)|exact N|exact (Nat.lt_succ_diag_r _)]. Qed.
Print Assumptions C102_no_deadlock.

(** Two loggers of one file, and two threads. *)
Definition one_post (info : string) (cuts : nat -> list nat * list nat) : post :=
  {| po_info := info; po_header := JObj [("msg_type", JStr "status")]; po_parent := JObj []; po_meta := JObj []; po_content := JObj []; po_cuts := cuts |}.
Definition late : nat -> list nat * list nat := fun k => match k with 1 => ([1], []) | _ => ([], []) end.
Definition twice : list (level * sink) := links (LLogger LMsgType (SFile "log") (LLogger LMsgType (SFile "log") LNolog)).
Definition torn : list (nat * option post) :=
  repeat (1, Some (one_post "i" late)) 8 ++ repeat (2, Some (one_post "i" late)) 5 ++ repeat (1, None) 3 ++ repeat (2, None) 10.
Definition torn_run := qexec true twice torn [] (q_init (fun _ => "")).
Lemma torn_runs : qrun true twice (q_init (fun _ => "")) (fst torn_run) (snd torn_run).
Proof. apply qexec_run. constructor. Qed.
Definition one_record : string :=
"{
    ""info"": ""i"",
    ""message"": {
        ""msg_type"": ""status""
    }
}
".
Example C102_ex : map (fun l => match l with QDone i k _ _ => Some (i, k) | _ => None end) (filter (fun l => match l with QDone _ _ _ _ => true | _ => false end) (fst torn_run))
    = [Some (1, 0); Some (2, 0); Some (1, 1); Some (2, 1)] /\
  done_at true twice (SFile "log") (fst torn_run) = [one_record; one_record; one_record; one_record] /\
  q_sinks (snd torn_run) (SFile "log") = one_record +++ "{" +++ one_record +++ sdrop 1 one_record +++ one_record /\
  q_at (snd torn_run) 1 = QOut /\ q_at (snd torn_run) 2 = QOut /\ q_locks (snd torn_run) 0 = None /\ q_locks (snd torn_run) 1 = None.
Proof. repeat split; vm_compute; reflexivity. Qed.
(** So the text of a file need not be made of whole records, in any order. *)
Theorem C102_whole_refuted : ~ (forall early chain ls s x, qrun early chain (q_init (fun _ => "")) ls s -> (forall k, q_locks s k = None) ->
  exists ts, Permutation ts (done_at early chain x ls) /\ q_sinks s x = sconcat ts).
Proof.
  intros H. destruct (H true twice _ _ (SFile "log") torn_runs) as (ts & P & E).
  { intros [|[|k]]; vm_compute; reflexivity. }
  destruct C102_ex as (_ & D & S & _). rewrite D in P. rewrite S in E.
  assert (F : Forall (fun t => t = one_record) ts).
  { apply Forall_forall. intros t Ht. eapply Permutation_in in Ht; [|exact P]. cbn in Ht. intuition congruence. }
  pose proof (Permutation_length P) as L. destruct ts as [|a [|b [|c [|d [|e ts]]]]]; cbn in L; try discriminate L.
  repeat match goal with F : Forall _ (_ :: _) |- _ => apply Forall_cons_iff in F as [-> F] end. apply String.eqb_eq in E. vm_compute in E. discriminate E.
Qed.
Print Assumptions C102_whole_refuted.
(** It need not even be readable. *)
Theorem C102_readable_refuted : ~ (forall early chain ls s name, qrun early chain (q_init (fun _ => "")) ls s -> (forall k, q_locks s k = None) ->
  exists js, reads (q_sinks s (SFile name)) js).
Proof.
  intros H. destruct (H true twice _ _ "log" torn_runs) as (js & E).
  { intros [|[|k]]; vm_compute; reflexivity. }
  destruct C102_ex as (_ & _ & S & _). rewrite S in E. clear H S.
  inversion E as [? X|? n j r js' X Y]; subst; [vm_compute in X; discriminate X|].
  assert (V : exists j0, pval 100 (one_record +++ "{" +++ one_record +++ sdrop 1 one_record +++ one_record) = Some (j0, newline +++ "{" +++ one_record +++ sdrop 1 one_record +++ one_record)).
  { eexists. vm_compute. reflexivity. }
  destruct V as [j0 V]. pose proof (pval_one _ _ _ _ _ X V) as [= -> ->].
  inversion Y as [? Z|? n' j' r' js'' Z _]; subst; [vm_compute in Z; discriminate Z|].
  destruct n' as [|[|[|n']]]; vm_compute in Z; discriminate Z.
Qed.
Print Assumptions C102_readable_refuted.
(** Two files of one chain may disagree on the order. *)
Definition both : logger := LLogger LMsgType (SFile "a") (LLogger LFull (SFile "b") LNolog).
Definition crossed : list (nat * option post) :=
  repeat (1, Some (one_post "one" late)) 5 ++ repeat (2, Some (one_post "two" late)) 11 ++ repeat (1, None) 6.
Definition crossed_run := qexec true (links both) crossed [] (q_init (fun _ => "")).
Theorem C102_order_refuted : ~ (forall early chain ls s, qrun early chain (q_init (fun _ => "")) ls s -> (forall k, q_locks s k = None) ->
  (forall i, q_at s i = QOut) -> forall k k', k < List.length chain -> k' < List.length chain -> map l_info (done_by k ls) = map l_info (done_by k' ls)).
Proof.
  intros H. assert (R : qrun true (links both) (q_init (fun _ => "")) (fst crossed_run) (snd crossed_run)) by (apply qexec_run; constructor).
  specialize (H _ _ _ _ R). assert (A : forall k, q_locks (snd crossed_run) k = None) by (intros [|[|k]]; vm_compute; reflexivity).
  assert (B : forall i, q_at (snd crossed_run) i = QOut) by (intros [|[|[|i]]]; vm_compute; reflexivity).
  specialize (H A B 0 1 (le_n_S 0 1 (Nat.le_0_l 1)) (le_n 2)). vm_compute in H. discriminate H.
Qed.
Print Assumptions C102_order_refuted.
(** Each of the two files for itself is as it should be (C102_own). *)
Example C102_own_ex : map l_info (done_by 0 (fst crossed_run)) = ["one"; "two"] /\ map l_info (done_by 1 (fst crossed_run)) = ["two"; "one"] /\
  (forall k' l', nth_error (links both) k' = Some (l', SFile "a") -> k' = 0) /\
  q_sinks (snd crossed_run) (SFile "a") = sconcat (map (link_text true (SFile "a")) (done_by 0 (fst crossed_run))).
Proof.
  split; [vm_compute; reflexivity|]. split; [vm_compute; reflexivity|]. split; [|vm_compute; reflexivity]. intros [|[|[|k]]] l' E; try discriminate; auto.
Qed.
(** One thread and a message that is not UTF-8: the second logger is not called. *)
Definition bad_post : post := {| po_info := String (chr 255) ""; po_header := JObj [("msg_type", JStr "status")]; po_parent := JObj []; po_meta := JObj [];
  po_content := JObj []; po_cuts := fun _ => ([], []) |}.
Definition bad_run := qexec true twice (repeat (1, Some (one_post "i" late)) 11 ++ repeat (1, Some bad_post) 5) [] (q_init (fun _ => "")).
Example C102_results_ex : Forall (of_thread 1) (fst bad_run) /\ q_at (snd bad_run) 1 = QOut /\
  flat_map (fun l => match l with QBack _ m r => [(po_info m, r)] | _ => [] end) (fst bad_run) = [("i", inl tt); (String (chr 255) "", inr type_error_316)] /\
  q_sinks (snd bad_run) (SFile "log") = one_record +++ one_record.
Proof. split; [vm_compute; repeat constructor|]. repeat split; vm_compute; reflexivity. Qed.
(** A thread waiting for the lock of another one. *)
Definition stuck_run := qexec true twice (repeat (1, Some (one_post "i" late)) 3 ++ repeat (2, Some (one_post "j" late)) 3) [] (q_init (fun _ => "")).
Example C102_no_deadlock_ex : q_locks (snd stuck_run) 0 = Some 1 /\ (exists m c, q_at (snd stuck_run) 2 = QWait m 0 c).
Proof. split; [vm_compute; reflexivity|]. eexists _, _. vm_compute. reflexivity. Qed.
