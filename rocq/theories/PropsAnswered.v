(** Every request sent to the shell socket of the default server is answered: C77. *)
From Verif Require Import Base BaseFacts Json JsonText Utf8 Utf8Proofs Auth Message WireSpec History HistoryProofs Comm Tree Kernel KernelSpec KernelProofs KernelRun KernelReplies KernelDemo
  Server ServerSpec ServerProofs ServerExec ServerLemmas ServerDemo SequentialSpec SequentialProofs AnsweredSpec Answered LiveSpec Live LiveDemo.

(** C77. When no message is being handled, the replies sent on the shell socket are the answers to the
    messages taken from it, one each and in order, provided that these are requests that are well formed
    in every state and that fewer messages were received than the execution counter can count. *)
Theorem C77_each : forall U (E : env U) raw k start ls s, e_split E = false -> quiet E -> env_utf8 E -> user_publishes E raw ->
  parents_utf8 k -> Forall entry_utf8 (k_history k) ->
  drun (fun c w => dispatch E w c) (d_init k start) ls s -> place_of (d_pc s) = Between ->
  (k_count k + Z.of_nat (List.length (received ls)) <= int_max)%Z ->
  Forall (answerable E) (shell_taken ls) ->
  Forall2 (answers E) (List.map (pair SHELL) (shell_taken ls)) (shell_sends (happened ls)).
Proof. intros. eapply server_answered; eauto. split; auto. Qed.
Print Assumptions C77_each.

(** C77. Every message that arrived on the shell socket is eventually answered, the answers being sent
    in the order of arrival, unless the process crashes (in the handling of a control message) or is
    told to stop. *)
Theorem C77_answered : forall U (E : env U) raw k start sigma lab, e_split E = false -> quiet E -> env_utf8 E -> user_publishes E raw ->
  parents_utf8 k -> Forall entry_utf8 (k_history k) ->
  executes (acts (fun c w => dispatch E w c)) sigma lab -> sigma 0 = d_init k start ->
  just (acts (fun c w => dispatch E w c)) sigma lab AMain -> (forall n, exists m, n <= m /\ ~ waits_input (sigma m)) ->
  (forall n w, In w (arrived SHELL (observed lab n)) -> answerable E w) ->
  forall n, exists m, n <= m /\
    ((exists rs, prefix rs (shell_sends (happened (observed lab m))) /\
        Forall2 (answers E) (List.map (pair SHELL) (arrived SHELL (observed lab n))) rs) \/
     d_pc (sigma m) = MCrash \/ In StopRequest (observed lab m) \/
     (int_max < k_count k + Z.of_nat (List.length (received (observed lab m))))%Z).
Proof.
  intros U E raw k start sigma lab Hs Hq Hu HU Hp Hh Hex H0 HM HI HA n.
  assert (Hown : forall c w, always own ((fun c w => dispatch E w c) c w)) by (intros c w; now apply own_dispatch).
  destruct (all_taken _ Hown k start sigma lab Hex H0 HM HI SHELL n) as (m & Hm & H); [discriminate|].
  destruct H as [H|[H|H]]; [|exists m; auto|exists m; split; auto; right; right; left; now apply (proj1 (stop_at _ k start sigma lab Hex H0 m))].
  apply (taken_prefix _ k start sigma lab SHELL n m Hex H0 Hm) in H. cbn [taken_from] in H.
  destruct (rests _ Hown k start sigma lab Hex H0 HM HI m) as (i & Hi & Hr). exists i. split; [lia|]. unfold at_rest in Hr.
  destruct (place_of (d_pc (sigma i))) eqn:Hpl; [|easy|right; left; destruct (d_pc (sigma i)); easy].
  destruct (Z_lt_le_dec int_max (k_count k + Z.of_nat (List.length (received (observed lab i))))) as [|Hc]; auto. left.
  pose proof (obs_run _ k start sigma lab Hex H0 i) as R.
  destruct (run_queues _ _ _ _ R eq_refl eq_refl) as [_ Q].
  assert (A : Forall2 (answers E) (List.map (pair SHELL) (shell_taken (observed lab i))) (shell_sends (happened (observed lab i)))).
  { eapply C77_each; eauto. apply Forall_forall. intros w Hw. apply (HA i). rewrite Q. apply in_or_app. auto. }
  destruct H as [x Hx]. destruct (obs_prefix lab m i Hi) as [y Hy].
  assert (Hz : exists z, shell_taken (observed lab i) = (arrived SHELL (observed lab n) ++ z)%list).
  { rewrite Hy. unfold shell_taken in *. rewrite flat_map_app, Hx, <- app_assoc. eauto. }
  destruct Hz as [z Hz]. rewrite Hz, map_app in A. apply Forall2_app_inv_l in A as (rs & r2 & A1 & _ & A3). exists rs. split; auto. exists r2. exact A3.
Qed.
Print Assumptions C77_answered.
(** A client sends a cell, a request for the last entry of the history and a second cell. *)
Definition tail_request : xmessage := request_msg ["peer"] "history_request" (jobj [("hist_access_type", JStr "tail"); ("n", JInt 1)]).
Definition session_choices : list (choice * nat) :=
  [(GArrive SHELL exec1, 1); (GMain, 40); (GArrive SHELL (wire_of tail_request), 1); (GArrive SHELL exec2, 1); (GArrive CONTROL info, 1); (GMain, 600); (GPub, 300); (GHb, 50)].
Lemma demo_prints n code silent store ue stdin : String.eqb code "boom" = false -> String.eqb code "bad" = false -> String.eqb code "ask" = false -> utf8_text code ->
  returns demo (e_interp demo (RExecute n code silent store ue stdin))
    (fun j => utf8_json j /\ exists m st, j = JObj m /\ mfind "status" m = Some (JStr st)).
Proof.
  intros H1 H2 H3 Hc s Hp. cbn [demo e_interp demo_interp]. rewrite H1, H2, H3. cbn [fin act embed tbind].
  destruct (publish_ok demo demo_quiet demo_utf8 "stream" empty (jobj [("name", JStr "stdout"); ("text", JStr code)]) [] SHELL s) as (f & _ & R1); auto using utf8_empty.
  { apply utf8_lit; reflexivity. }
  { apply utf8_obj. repeat constructor; cbn [fst snd]; try apply utf8_str; auto; apply utf8_lit; reflexivity. }
  match type of R1 with _ = (?x, _) => set (s1 := x) in * end.
  destruct (publish_ok demo demo_quiet demo_utf8 "execute_result" empty (jobj [("execution_count", JInt n); ("data", jobj [("text/plain", JStr code)]); ("metadata", empty)]) [] SHELL s1) as (g & _ & R2); auto using utf8_empty.
  { apply utf8_lit; reflexivity. }
  { exact (Hp SHELL). }
  { apply utf8_obj. repeat constructor; cbn [fst snd]; auto using utf8_int, utf8_empty; try (apply utf8_lit; reflexivity).
    apply utf8_obj. repeat constructor; cbn [fst snd]; try apply utf8_str; auto; apply utf8_lit; reflexivity. }
  eexists _, _. split.
  - assert (A1 : run (attempt (api1 demo (AOp (AStream "stdout" code)))) s = (s1, Ok (inl tt))).
    { match type of R1 with run ?x _ = _ => pose proof (run_attempt x s) as X end. rewrite R1 in X. exact X. }
    rewrite run_bind, A1.
    match type of R2 with _ = (?x, _) => assert (A2 : run (attempt (api1 demo (AOp (AExecResult n (jobj [("text/plain", JStr code)]) empty)))) s1 = (x, Ok (inl tt))) end.
    { match type of R2 with run ?x _ = _ => pose proof (run_attempt x s1) as X end. rewrite R2 in X. exact X. }
    rewrite run_bind, A2. reflexivity.
  - split; [apply utf8_obj; repeat constructor; cbn [fst snd]; try apply utf8_str; apply utf8_lit; reflexivity|]. eexists _, _. split; reflexivity.
Qed.
Lemma cell_answerable code w : wire_of (execute code []) = w -> accepted demo w (execute code []) ->
  String.eqb code "boom" = false -> String.eqb code "bad" = false -> String.eqb code "ask" = false -> utf8_text code -> answerable demo w.
Proof.
  intros _ Ha H1 H2 H3 H4. exists (execute code []), "execute_request". split; [exact Ha|]. split; [eexists; split; reflexivity|]. intros s (_ & _ & Hm). eexists.
  apply (wf_execute demo s _ _ {| x_code := code; x_silent := false; x_store := true; x_count := 1; x_ue := JObj []; x_stdin := true; x_stop := false |}).
  - eexists. split; [reflexivity|]. cbn. split; [now right|]. repeat split; now left.
  - right. lia.
  - now apply demo_prints.
Qed.
Lemma utf8_arr l : Forall utf8_json l -> utf8_json (JArr l).
Proof. intros H s Hs. inversion Hs as [|l' x Hx Hsx| |]; subst. rewrite Forall_forall in H. exact (H _ Hx _ Hsx). Qed.
Lemma tail_answerable : answerable demo (wire_of tail_request).
Proof.
  exists tail_request, "history_request". split; [vm_compute; reflexivity|]. split; [eexists; split; reflexivity|]. intros s (_ & Hh & _). eexists.
  eapply wf_history.
  - apply (request_tail _ _ 1 true false); [now right| right; split; [reflexivity|unfold int_min, int_max; lia] | now left | now left | lia].
  - apply utf8_obj. repeat constructor; cbn [fst snd]; try apply utf8_str; try (apply utf8_lit; reflexivity).
    apply utf8_arr. rewrite map_map. apply Forall_map, Forall_forall. intros e He. rewrite Forall_forall in Hh. destruct (Hh e) as (A & B & C & _).
    { unfold lastn in He. rewrite <- (firstn_skipn (List.length (k_history s) - Z.to_nat 1) (k_history s)). apply in_or_app. auto. }
    apply utf8_arr. repeat constructor; now apply utf8_str.
Qed.
Example C77_ex : live_hyps (default_path session_choices) (default_lab session_choices) /\
  parents_utf8 demo_start /\ Forall entry_utf8 (k_history demo_start) /\
  (forall n w, In w (arrived SHELL (observed (default_lab session_choices) n)) -> answerable demo w) /\
  arrived SHELL (observed (default_lab session_choices) 43) = [exec1; wire_of tail_request; exec2] /\
  List.length (shell_sends (happened (observed (default_lab session_choices) 43))) = 1 /\
  List.map shown (shell_sends (happened (observed (default_lab session_choices) 900))) =
    [Some ("execute_reply", JObj [("execution_count", JInt 1); ("status", JStr "ok")]);
     Some ("history_reply", JObj [("history", JArr [JArr [JStr "0"; JStr "1"; JStr "1"]]); ("status", JStr "ok")]);
     Some ("execute_reply", JObj [("execution_count", JInt 2); ("status", JStr "ok")])].
Proof.
  split; [apply default_live; vm_compute; reflexivity|].
  assert (Hp : k_phdr demo_start = fun _ => empty) by (vm_compute; reflexivity).
  assert (Hh : k_history demo_start = []) by (vm_compute; reflexivity).
  split; [intros c; rewrite Hp; exact utf8_empty|]. split; [rewrite Hh; constructor|].
  assert (HA : arrived SHELL (dlabels default_listener (firstn (List.length (expand session_choices)) (expand session_choices)) (d_init demo_start ["start"])) =
    [exec1; wire_of tail_request; exec2]) by (vm_compute; reflexivity).
  unfold default_lab. split.
  { intros n w Hw. assert (H : In w [exec1; wire_of tail_request; exec2]).
    { rewrite <- HA, <- dlab_labels. destruct (le_lt_dec n (List.length (expand session_choices))) as [Hn|Hn].
      - destruct (obs_prefix (dlab default_listener (expand session_choices) (d_init demo_start ["start"])) n _ Hn) as [x Hx].
        rewrite Hx. unfold arrived. rewrite flat_map_app. apply in_or_app. auto.
      - rewrite dlab_end in Hw by lia. exact Hw. }
    destruct H as [<-|[<-|[<-|[]]]]; [| exact tail_answerable |];
      (eapply cell_answerable; [reflexivity | vm_compute; reflexivity | reflexivity | reflexivity | reflexivity | apply utf8_lit; reflexivity]). }
  rewrite !dlab_labels. split; [vm_compute; reflexivity|]. split; [vm_compute; reflexivity|]. vm_compute. reflexivity.
Qed.
