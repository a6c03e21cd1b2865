(** What a client of the split servers sees: C93, C94. *)
From Coq Require Import Permutation.
From Verif Require Import Base BaseFacts Json JsonText Utf8 Utf8Proofs Auth Message MessageProofs WireSpec WireLemmas History HistoryProofs Comm Tree Kernel KernelSpec KernelProofs KernelRun KernelReplies AnsweredSpec KernelDemo
  Server ServerSpec ServerProofs ServerExec ServerLemmas Split SplitSpec SplitProofs SplitCalls SplitStop ServerDemo SequentialSpec SplitStreamSpec SplitStream SplitIds
  LiveSpec Live SplitLiveSpec SplitLive SplitLiveDemo SplitAnsweredSpec SplitAnswered SplitRests PropsServer PropsSequential PropsSplitStream PropsSplitLive PropsSplitAnswered
  ClientSpec Client PropsClient HeardSpec Heard PropsHeard SplitClientSpec SplitClient.

(** ** C93: the shell and control sockets *)
Section Sockets.
  Context {U : Type} (v : variant) (E : env U) (raw : string -> Prop) (HU : user_publishes E raw) (Hraw : ~ raw "status").
  Lemma socket_sends c evs : socket_frames c (sends evs) = socket_frames c evs.
  Proof. unfold sends, socket_frames. induction evs as [|e evs IH]; auto. destruct e; cbn; auto. now rewrite IH. Qed.
  Lemma socket_foreign k start c c' ls s : yrun v (fun c w => dispatch E w c) (dispatch_internal E) (y_init k start) ls s -> (forall w, ~ In (YTook CONTROL w) ls) ->
    c' <> c -> socket_frames c (events c' ls) = [].
  Proof.
    intros R Ho Hc. destruct (C72_replies U v E raw HU Hraw k start ls s R c') as (xs & S & A). rewrite (received_taken c' ls Ho) in S. rewrite <- socket_sends.
    assert (F : Forall (fun x => fst x = c') xs).
    { apply Forall_forall. intros x Hx. assert (Hin : In x (List.map (pair c') (taken c' ls))) by (eapply sub_in; eauto). apply in_map_iff in Hin as (w & <- & _). reflexivity. }
    clear - F A Hc. induction A as [|x e xs es A0 A IH]; auto. inversion F; subst. pose proof A0 as (m & ty & r & f & id & rty & _ & _ & -> & _).
    cbn [socket_frames flat_map]. fold (socket_frames c es). rewrite IH by assumption. destruct (chan_eqb c (fst x)) eqn:X; auto. apply chan_eqb_eq in X. congruence.
  Qed.
  Lemma socket_split c ls : (forall c', c' <> c -> socket_frames c (events c' ls) = []) -> socket_frames c (occurred ls) = socket_frames c (events c ls).
  Proof.
    intros H. assert (X : exists c', c' <> c /\ forall d, d = c \/ d = c') by (destruct c; [exists CONTROL|exists SHELL]; (split; [discriminate|intros []; auto])).
    destruct X as (c' & Hc & Hd). specialize (H c' Hc). clear HU Hraw raw. induction ls as [|l ls IH]; auto. unfold occurred, events in *. cbn [flat_map] in *. rewrite socket_app in H. apply app_eq_nil in H as [H1 H2].
    rewrite !socket_app, IH by assumption. f_equal. destruct l as [| | | |d e| | | | | |]; auto. destruct (chan_eqb c d) eqn:X; auto.
    destruct (Hd d) as [-> | ->]; [now rewrite chan_eqb_refl in X|]. rewrite chan_eqb_refl in H1. exact H1.
  Qed.
  Lemma replies_read c k start ls s qs ws rs (He : e_eh E = EStrict) : yrun v (fun c w => dispatch E w c) (dispatch_internal E) (y_init k start) ls s -> (forall w, ~ In (YTook CONTROL w) ls) ->
    Forall2 (sent E) qs (filter (is_accepted E) ws) -> prefix rs (sends (events c ls)) ->
    Forall2 (answers E) (filter (fun x => is_accepted E (snd x)) (List.map (pair c) ws)) rs ->
    exists fs, prefix fs (socket_frames c (occurred ls)) /\ Forall2 (reply_for E) qs fs.
  Proof.
    intros R Ho Hq [t Hp] F.
    assert (X : filter (fun x => is_accepted E (snd x)) (List.map (pair c) ws) = List.map (pair c) (filter (is_accepted E) ws)).
    { clear. induction ws as [|w ws IH]; auto. cbn. rewrite IH. now destruct (is_accepted E w). }
    rewrite X in F. apply socket_answers in F. exists (socket_frames c rs). split.
    - exists (socket_frames c t). rewrite socket_split; [|intros c' Hc; eapply socket_foreign; eauto]. now rewrite <- socket_sends, Hp, socket_app.
    - revert F. generalize (socket_frames c rs). clear Hp X R. induction Hq as [|q w qs ws' Hq H IH]; intros fs F; inversion F as [|? f ? fs' [r A] F']; subst; constructor; auto.
      destruct (answer_reads E c q w _ He Hq A) as (r' & f' & [= _ <-] & Hr). exact Hr.
  Qed.
End Sockets.

(** C93. If the messages that arrive on the shell socket and are authentic are the messages [qs] of
    clients that know the key, each well formed and handled by the interpreter whatever the control
    thread does, then each is eventually answered: the multipart messages sent on the shell socket begin
    with one for each of [qs], in this order, in which the client reads a valid signature, its own
    identities, the header it sent as parent header and the header of a reply to its request. *)
Theorem C93_shell : forall U v (E : env U) raw, user_publishes E raw -> ~ raw "status" -> quiet E -> env_utf8 E -> e_eh E = EStrict ->
  forall k start, parents_utf8 k -> Forall entry_utf8 (k_history k) ->
  forall sigma lab, execution v (fun c w => dispatch E w c) (dispatch_internal E) sigma lab -> sigma 0 = y_init k start ->
  fair v (fun c w => dispatch E w c) (dispatch_internal E) sigma lab TShell ->
  (forall n, ~ calls_itself (sigma n)) -> gets_input SHELL sigma -> keeps_off lab ->
  (forall n w, In w (came SHELL (seen lab n)) -> rejected E w \/ answerable_amid E w) ->
  forall n qs, Forall2 (sent E) qs (filter (is_accepted E) (came SHELL (seen lab n))) ->
  exists m, n <= m /\
    ((exists fs, prefix fs (socket_frames SHELL (occurred (seen lab m))) /\ Forall2 (reply_for E) qs fs) \/
     y_end (sigma m) = Some Crashed \/ asked_stop (seen lab m)).
Proof.
  intros U v E raw HU Hraw Hq Hu He k start P0 H0 sigma lab Hex Hi HS HC HI HO HA n qs Hqs.
  destruct (C83_shell U v E raw HU Hraw Hq Hu k start P0 H0 sigma lab Hex Hi HS HC HI HO HA n) as (m & Hm & [(rs & Hp & F)|H]); exists m; (split; [exact Hm|]); [left|right; exact H].
  eapply replies_read; eauto; [eapply obs_run; eauto|]. now apply seen_off.
Qed.
Print Assumptions C93_shell.
(** The same on the control socket. *)
Theorem C93_control : forall U v (E : env U) raw, user_publishes E raw -> ~ raw "status" -> quiet E -> env_utf8 E -> e_eh E = EStrict ->
  forall k start, parents_utf8 k -> Forall entry_utf8 (k_history k) ->
  forall sigma lab, execution v (fun c w => dispatch E w c) (dispatch_internal E) sigma lab -> sigma 0 = y_init k start ->
  fair v (fun c w => dispatch E w c) (dispatch_internal E) sigma lab TShell ->
  fair v (fun c w => dispatch E w c) (dispatch_internal E) sigma lab TControl ->
  (forall n, ~ calls_itself (sigma n)) -> gets_input SHELL sigma -> gets_input CONTROL sigma -> keeps_off lab ->
  (forall n w, In w (came CONTROL (seen lab n)) -> rejected E w \/ answerable_amid E w) ->
  forall n qs, Forall2 (sent E) qs (filter (is_accepted E) (came CONTROL (seen lab n))) ->
  exists m, n <= m /\
    ((exists fs, prefix fs (socket_frames CONTROL (occurred (seen lab m))) /\ Forall2 (reply_for E) qs fs) \/
     y_end (sigma m) = Some Crashed \/ asked_stop (seen lab m)).
Proof.
  intros U v E raw HU Hraw Hq Hu He k start P0 H0 sigma lab Hex Hi HS HT HC HI HI2 HO HA n qs Hqs.
  destruct (C83_control U v E raw HU Hraw Hq Hu k start P0 H0 sigma lab Hex Hi HS HT HC HI HI2 HO HA n) as (m & Hm & [(rs & Hp & F)|H]); exists m; (split; [exact Hm|]); [left|right; exact H].
  eapply replies_read; eauto; [eapply obs_run; eauto|]. now apply seen_off.
Qed.
Print Assumptions C93_control.
(** C93. If the messages that arrived on the two sockets have different identifiers, no two messages sent
    on them have the same identifier in their parent header: at every moment of every run, whatever the
    requests are, and also when the control thread aborts messages of the shell socket. *)
Theorem C93_once : forall U v (E : env U) raw, user_publishes E raw -> ~ raw "status" ->
  forall k start ls s, yrun v (fun c w => dispatch E w c) (dispatch_internal E) (y_init k start) ls s ->
  forall qs, Forall2 (sent E) qs (came SHELL ls ++ came CONTROL ls) -> distinct has_id (List.map (fun q => m_header (m_base q)) qs) ->
  distinct (about E) (socket_frames SHELL (occurred ls) ++ socket_frames CONTROL (occurred ls)).
Proof.
  intros U v E raw HU Hraw k start ls s R qs F D. apply (sent_names E qs _ F) in D.
  destruct (split_order v _ _ k start ls s R) as (Q2 & Q1 & _).
  assert (D1 : distinct (names E) (taken SHELL ls ++ taken CONTROL ls)).
  { eapply distinct_sub; [|exact D]. apply sub_app; [rewrite Q1|rewrite Q2]; apply sub_prefix. }
  assert (D2 : distinct (names E) (List.map snd (received_by SHELL ls ++ received_by CONTROL ls))).
  { eapply distinct_perm; [apply Permutation_map, taken_received|]. rewrite map_app, !map_map. cbn [snd]. now rewrite !map_id. }
  destruct (C72_replies U v E raw HU Hraw k start ls s R SHELL) as (xs & Sx & Ax). destruct (C72_replies U v E raw HU Hraw k start ls s R CONTROL) as (ys & Sy & Ay).
  assert (D3 : distinct (about E) (frames_of (sends (events SHELL ls) ++ sends (events CONTROL ls)))).
  { eapply answered_once; [apply Forall2_app; [exact Ax|exact Ay]|]. eapply distinct_sub; [|exact D2]. now apply sub_map, sub_app. }
  eapply distinct_perm; [|exact D3]. rewrite frames_app, !frames_sends, <- frames_app. etransitivity; [apply frames_perm; symmetry; apply occurred_threads|]. apply frames_sockets.
Qed.
Print Assumptions C93_once.

(** ** C94: the iopub socket *)
(** C94. At every moment of every run, what the publisher has sent is an initial part of the start
    message and of what the two threads published, interleaved. What a thread published is, turn by
    turn: nothing for a message that was rejected; for one that was accepted a busy status whose parent
    header is the header of the message, publications that are not statuses (on the shell thread with the
    same parent header, or the notice of a shutdown or an interrupt), an idle status with the same parent
    header; publications that are not statuses for a request of the control thread. *)
Theorem C94_heard : forall U v (E : env U) raw, user_publishes E raw -> ~ raw "status" -> e_eh E = EStrict ->
  forall k start ls s, yrun v (fun c w => dispatch E w c) (dispatch_internal E) (y_init k start) ls s ->
  exists all, prefix (f_out (m_pub (y_mem s))) (start :: all) /\ interleaves (said_by SHELL ls) (said_by CONTROL ls) all /\
    forall c, thread_told E c (turns_of c ls) (said_by c ls).
Proof.
  intros U v E raw HU Hraw He k start ls s R. exists (sent_out ls). split; [exact (proj1 (C33_split U v _ _ k start ls s R))|]. split; [apply said_interleaves|].
  intros c. eapply thread_said_all; eauto.
Qed.
Print Assumptions C94_heard.
(** C94. For every message that was given to a listener and accepted, a subscriber eventually receives,
    in this order, the publications of the whole block, from busy to idle, unless the process ends. *)
Section Idle.
  Context {U : Type} (v : variant) (E : env U) (raw : string -> Prop) (HU : user_publishes E raw) (Hraw : ~ raw "status") (He : e_eh E = EStrict).
  Context (k : kstate U) (start : frames) (sigma : nat -> ysys U) (lab : nat -> option slabel).
  Hypothesis Hex : execution v (fun c w => dispatch E w c) (dispatch_internal E) sigma lab.
  Hypothesis Hi : sigma 0 = y_init k start.
  Hypothesis HP : fair v (fun c w => dispatch E w c) (dispatch_internal E) sigma lab TPub.
  Lemma told_stop m : told_publisher (sigma m) -> asked_stop (seen lab m).
  Proof.
    intros H. destruct (stop_at v E k start sigma lab Hex Hi m) as [S1 S2]. apply S1, S2. unfold told_publisher in H. destruct (y_ct (sigma m)); auto; destruct H.
  Qed.
  Lemma heard_whole c (HR : forall i, ev i (fun m => over sigma m \/ rests c (sigma m))) n w q : In (YHand c w) (seen lab n) -> accepted E w q ->
    exists m, n <= m /\
      ((exists b, said E c (m_header (m_base q)) b true /\ contains b (said_by c (seen lab m)) /\ sub b (f_out (m_pub (y_mem (sigma m))))) \/
       y_end (sigma m) = Some Crashed \/ asked_stop (seen lab m)).
  Proof.
    intros Hin Ha. destruct (HR n) as (i & Hni & [Ho|Hr]); [exists i; split; auto; right; eapply over_or_stop; eauto|].
    destruct (C79_published U v E k start sigma lab Hex Hi HP i) as (m & Hm & [Hp|[Hc|Ht]]); exists m; (split; [lia|]); [left|auto|right; right; now apply told_stop].
    destruct (obs_prefix lab n i Hni) as [x Hx]. assert (Hin' : In (YHand c w) (seen lab i)) by (rewrite Hx; apply in_or_app; auto).
    destruct (block_whole E He v raw HU Hraw k start c _ _ w q (obs_run v E k start sigma lab Hex Hi i) Hr Hin' Ha) as (b & Sb & Cb).
    exists b. split; auto. split.
    - destruct (obs_prefix lab i m Hm) as [y ->]. destruct Cb as (a & d & Hs). unfold said_by in *. rewrite flat_map_app, Hs. exists a. eexists. now rewrite <- !app_assoc.
    - destruct Hp as [t ->]. change (start :: sent_out (seen lab i))%list with ([start] ++ sent_out (seen lab i))%list. rewrite <- app_assoc. constructor. cbn [app].
      eapply sub_trans; [apply sub_contained; exact Cb|]. eapply sub_trans; [|apply sub_prefix].
      pose proof (said_interleaves (seen lab i)) as I. destruct c; [eapply interleaves_left|eapply interleaves_right]; eauto.
  Qed.
End Idle.
Theorem C94_shell : forall U v (E : env U) raw, user_publishes E raw -> ~ raw "status" -> e_eh E = EStrict ->
  forall k start sigma lab, execution v (fun c w => dispatch E w c) (dispatch_internal E) sigma lab -> sigma 0 = y_init k start ->
  fair v (fun c w => dispatch E w c) (dispatch_internal E) sigma lab TShell -> fair v (fun c w => dispatch E w c) (dispatch_internal E) sigma lab TPub ->
  (forall n, ~ calls_itself (sigma n)) -> gets_input SHELL sigma ->
  forall n w q, In (YHand SHELL w) (seen lab n) -> accepted E w q ->
  exists m, n <= m /\
    ((exists b, said E SHELL (m_header (m_base q)) b true /\ contains b (said_by SHELL (seen lab m)) /\ sub b (f_out (m_pub (y_mem (sigma m))))) \/
     y_end (sigma m) = Some Crashed \/ asked_stop (seen lab m)).
Proof.
  intros U v E raw HU Hraw He k start sigma lab Hex Hi HS HP HC HI n w q Hin Ha. eapply heard_whole; eauto. intros i. eapply shell_rests; eauto.
Qed.
Print Assumptions C94_shell.
Theorem C94_control : forall U v (E : env U) raw, user_publishes E raw -> ~ raw "status" -> e_eh E = EStrict ->
  forall k start sigma lab, execution v (fun c w => dispatch E w c) (dispatch_internal E) sigma lab -> sigma 0 = y_init k start ->
  fair v (fun c w => dispatch E w c) (dispatch_internal E) sigma lab TShell -> fair v (fun c w => dispatch E w c) (dispatch_internal E) sigma lab TControl ->
  fair v (fun c w => dispatch E w c) (dispatch_internal E) sigma lab TPub ->
  (forall n, ~ calls_itself (sigma n)) -> gets_input SHELL sigma -> gets_input CONTROL sigma -> keeps_off lab ->
  forall n w q, In (YHand CONTROL w) (seen lab n) -> accepted E w q ->
  exists m, n <= m /\
    ((exists b, said E CONTROL (m_header (m_base q)) b true /\ contains b (said_by CONTROL (seen lab m)) /\ sub b (f_out (m_pub (y_mem (sigma m))))) \/
     y_end (sigma m) = Some Crashed \/ asked_stop (seen lab m)).
Proof.
  intros U v E raw HU Hraw He k start sigma lab Hex Hi HS HT HP HC HI HI2 HO n w q Hin Ha. eapply heard_whole; eauto. intros i. eapply control_rests; eauto.
Qed.
Print Assumptions C94_control.

(** Two clients on the shell socket, one of them on the control socket too; a debug request asks the
    shell thread; one message is not authentic. *)
Definition shell_clients : list xmessage := [from "ann" "a-1" (execute "1" []); from "bob" "b-1" (simple "kernel_info_request")].
Definition control_clients : list xmessage := [from "ann" "a-2" (simple "debug_request"); from "ann" "a-3" (simple "kernel_info_request")].
Definition both_choices : list ychoice :=
  match List.map wire_of shell_clients, List.map wire_of control_clients with
  | [q1; q2], [q3; q4] => [YIn SHELL q1; YIn CONTROL q3; YIn SHELL forged; YIn SHELL q2; YIn CONTROL q4] ++ turns 120
  | _, _ => []
  end.
Lemma shell_sent : Forall2 (sent sdemo) shell_clients (List.map wire_of shell_clients).
Proof.
  unfold shell_clients. cbn [List.map].
  repeat (apply Forall2_cons; [apply (serialized_sent sdemo _ _ EStrict); [vm_compute; reflexivity|cbn; intros [H|[]]; discriminate|vm_compute; reflexivity]|]). constructor.
Qed.
Lemma control_sent : Forall2 (sent sdemo) control_clients (List.map wire_of control_clients).
Proof.
  unfold control_clients. cbn [List.map].
  repeat (apply Forall2_cons; [apply (serialized_sent sdemo _ _ EStrict); [vm_compute; reflexivity|cbn; intros [H|[]]; discriminate|vm_compute; reflexivity]|]). constructor.
Qed.
Lemma well_moves h h' ty ct : well_asked sdemo h ty ct -> well_asked sdemo h' ty ct.
Proof. intros H. destruct H; try (now econstructor; eauto). cbn in H. injection H as <-. eapply wa_debug; [reflexivity|exact H0]. Qed.
Lemma amid_moves w m p id ty : answerable_amid sdemo w -> accepted sdemo w m -> msg_type m = Some ty -> typed (m_header (m_base m)) ty ->
  accepted sdemo (wire_of (from p id m)) (from p id m) -> answerable_amid sdemo (wire_of (from p id m)).
Proof.
  intros (m' & ty' & A & T & W) A' Ht T' A2. assert (m' = m) as -> by (unfold accepted in *; congruence).
  assert (ty' = ty) as ->. { destruct T as (o & E1 & E2), T' as (o' & E1' & E2'). rewrite E1 in E1'. injection E1' as <-. destruct (mfind "msg_type" o); congruence. }
  exists (from p id m), ty. split; auto. split; [|eapply well_moves; exact W]. unfold from. rewrite Ht. cbn. eexists. split; reflexivity.
Qed.
Lemma both_amid w : In w (List.map wire_of shell_clients ++ List.map wire_of control_clients) -> answerable_amid sdemo w.
Proof.
  cbn [shell_clients control_clients List.map app]. intros [<-|[<-|[<-|[<-|[]]]]].
  - eapply (amid_moves exec1 (execute "1" [])); [exact exec1_amid|vm_compute; reflexivity|reflexivity|eexists; split; reflexivity|vm_compute; reflexivity].
  - eapply (amid_moves info (simple "kernel_info_request")); [exact info_amid|vm_compute; reflexivity|reflexivity|eexists; split; reflexivity|vm_compute; reflexivity].
  - eapply (amid_moves debug (simple "debug_request")); [exact debug_amid|vm_compute; reflexivity|reflexivity|eexists; split; reflexivity|vm_compute; reflexivity].
  - eapply (amid_moves info (simple "kernel_info_request")); [exact info_amid|vm_compute; reflexivity|reflexivity|eexists; split; reflexivity|vm_compute; reflexivity].
Qed.
Example C93_ex : forall v, let sigma := split_path v both_choices in let lab := split_lab v both_choices in
  (user_publishes sdemo user_types /\ ~ user_types "status" /\ quiet sdemo /\ env_utf8 sdemo /\ e_eh sdemo = EStrict /\ parents_utf8 demo_start /\ Forall entry_utf8 (k_history demo_start)) /\
  fair_hyps v sigma lab /\ (forall n, ~ calls_itself (sigma n)) /\ gets_input SHELL sigma /\ gets_input CONTROL sigma /\ keeps_off lab /\
  (forall n c w, In w (came c (seen lab n)) -> rejected sdemo w \/ answerable_amid sdemo w) /\
  Forall2 (sent sdemo) shell_clients (filter (is_accepted sdemo) (came SHELL (seen lab 5))) /\
  Forall2 (sent sdemo) control_clients (filter (is_accepted sdemo) (came CONTROL (seen lab 5))) /\
  socket_frames SHELL (occurred (seen lab 5)) = [] /\
  List.map client_view (socket_frames SHELL (occurred (seen lab (List.length both_choices)))) =
    [Some ("ann", jobj [("msg_id", JStr "a-1"); ("msg_type", JStr "execute_request")], Some "execute_reply");
     Some ("bob", jobj [("msg_id", JStr "b-1"); ("msg_type", JStr "kernel_info_request")], Some "kernel_info_reply")] /\
  List.map client_view (socket_frames CONTROL (occurred (seen lab (List.length both_choices)))) =
    [Some ("ann", jobj [("msg_id", JStr "a-2"); ("msg_type", JStr "debug_request")], Some "debug_reply");
     Some ("ann", jobj [("msg_id", JStr "a-3"); ("msg_type", JStr "kernel_info_request")], Some "kernel_info_reply")].
Proof.
  intros v sigma lab. subst sigma lab.
  split; [split; [apply sdemo_publishes; cbn; tauto|]; split; [cbn; intuition discriminate|]; split; [exact sdemo_quiet|]; split; [exact sdemo_utf8|split; [reflexivity|exact start_fine]]|].
  split; [apply split_fair; destruct v; vm_compute; reflexivity|]. split; [apply split_calls; destruct v; vm_compute; reflexivity|].
  split; [apply split_input; destruct v; vm_compute; reflexivity|]. split; [apply split_input; destruct v; vm_compute; reflexivity|].
  split; [apply split_off; destruct v; vm_compute; reflexivity|].
  assert (HA : came SHELL (ylabels v slisten sintern both_choices (y_init demo_start ["start"])) = match List.map wire_of shell_clients with [q1; q2] => [q1; forged; q2] | _ => [] end /\
    came CONTROL (ylabels v slisten sintern both_choices (y_init demo_start ["start"])) = List.map wire_of control_clients) by (destruct v; vm_compute; auto).
  unfold split_lab. split.
  { intros n c w Hw. rewrite plab_labels in Hw.
    assert (Hc : In w (came c (ylabels v slisten sintern both_choices (y_init demo_start ["start"])))).
    { rewrite <- (firstn_skipn n both_choices), ylabels_app. unfold came. rewrite flat_map_app. apply in_or_app. auto. }
    destruct HA as [A1 A2]. destruct c; [rewrite A1 in Hc|rewrite A2 in Hc].
    - cbn [shell_clients List.map] in Hc. destruct Hc as [<-|[<-|[<-|[]]]]; [right|left; exact forged_rejected|right]; apply both_amid, in_or_app; left; cbn; auto.
    - right. apply both_amid, in_or_app. auto. }
  rewrite !plab_labels. split.
  { assert (X : filter (is_accepted sdemo) (came SHELL (ylabels v slisten sintern (firstn 5 both_choices) (y_init demo_start ["start"]))) = List.map wire_of shell_clients) by (destruct v; vm_compute; reflexivity).
    rewrite X. exact shell_sent. }
  split.
  { assert (X : filter (is_accepted sdemo) (came CONTROL (ylabels v slisten sintern (firstn 5 both_choices) (y_init demo_start ["start"]))) = List.map wire_of control_clients) by (destruct v; vm_compute; reflexivity).
    rewrite X. exact control_sent. }
  split; [destruct v; vm_compute; reflexivity|]. split; destruct v; vm_compute; reflexivity.
Qed.
(** The hypotheses of C93_once: all five have different identifiers. *)
Example C93_once_ex : forall v, exists ls s, yrun v slisten sintern (y_init demo_start ["start"]) ls s /\
  Forall2 (sent sdemo) (shell_clients ++ control_clients) (came SHELL ls ++ came CONTROL ls) /\
  distinct has_id (List.map (fun q => m_header (m_base q)) (shell_clients ++ control_clients)) /\
  List.length (socket_frames SHELL (occurred ls) ++ socket_frames CONTROL (occurred ls)) = 4.
Proof.
  intros v. set (cs := [(YIn SHELL (wire_of (nth 0 shell_clients (simple "x"))), 1); (YIn CONTROL (wire_of (nth 0 control_clients (simple "x"))), 1);
    (YIn SHELL (wire_of (nth 1 shell_clients (simple "x"))), 1); (YIn CONTROL (wire_of (nth 1 control_clients (simple "x"))), 1)] ++ mix 60).
  exists (fst (split_run v cs)), (snd (split_run v cs)). split; [apply split_run_ok|]. split.
  { assert (X : (came SHELL (fst (split_run v cs)) ++ came CONTROL (fst (split_run v cs)))%list = (List.map wire_of shell_clients ++ List.map wire_of control_clients)%list) by (destruct v; vm_compute; reflexivity).
    rewrite X. apply Forall2_app; [exact shell_sent|exact control_sent]. }
  split; [|destruct v; vm_compute; reflexivity].
  apply (distinct_by (fun id h => jfield "msg_id" h = Some (JStr id)) ["a-1"; "b-1"; "a-2"; "a-3"]).
  - repeat constructor; cbn; intuition discriminate.
  - intros id id' x H1 H2. congruence.
  - repeat constructor.
Qed.
(** What a subscriber receives in this execution. *)
Definition both_heard : list (option (option string * option json * option string)) :=
  let v ty id st := Some (Some ty, Some (JStr id), st) in
  [None; v "status" "a-1" (Some "busy"); v "status" "a-2" (Some "busy"); v "execute_input" "a-1" None; v "stream" "a-1" None; v "execute_result" "a-1" None;
   v "status" "a-1" (Some "idle"); v "status" "b-1" (Some "busy"); v "status" "a-2" (Some "idle"); v "status" "b-1" (Some "idle"); v "status" "a-3" (Some "busy"); v "status" "a-3" (Some "idle")].
Lemma both_out v m : List.length both_choices <= m -> List.map subscriber_view (f_out (m_pub (y_mem (split_path v both_choices m)))) = both_heard.
Proof. intros Hm. unfold split_path. rewrite path_end by exact Hm. destruct v; vm_compute; reflexivity. Qed.
Example C94_ex : forall v, let sigma := split_path v both_choices in let lab := split_lab v both_choices in
  fair_hyps v sigma lab /\ In (YHand SHELL (wire_of (nth 0 shell_clients (simple "x")))) (seen lab 40) /\ In (YHand CONTROL (wire_of (nth 0 control_clients (simple "x")))) (seen lab 40) /\
  List.map subscriber_view (f_out (m_pub (y_mem (sigma 20)))) = [None] /\
  List.map subscriber_view (f_out (m_pub (y_mem (sigma (List.length both_choices))))) = both_heard /\
  List.map (fun t => match t with THandle w => negb (is_accepted sdemo w) | TInternal _ => true end) (turns_of SHELL (seen lab (List.length both_choices))) = [false; true; true; false].
Proof.
  intros v sigma lab. subst sigma lab. split; [apply split_fair; destruct v; vm_compute; reflexivity|]. unfold split_lab. rewrite !plab_labels.
  assert (K : forall c w ls, existsb (fun l => match l with YHand c' w' => (chan_eqb c c' && if list_eq_dec string_dec w w' then true else false)%bool | _ => false end) ls = true -> In (YHand c w) ls).
  { intros c w ls H. apply existsb_exists in H as (l & Hl & H). destruct l; try discriminate. apply andb_true_iff in H as [H1 H2]. apply chan_eqb_eq in H1. subst. destruct (list_eq_dec string_dec w w0); [subst; exact Hl|discriminate]. }
  split; [apply K; destruct v; vm_compute; reflexivity|]. split; [apply K; destruct v; vm_compute; reflexivity|].
  split; [destruct v; vm_compute; reflexivity|]. split; [now apply both_out|destruct v; vm_compute; reflexivity].
Qed.
(** A block need not arrive without something in between, unlike those of the default server (C91). *)
Lemma heard_state E (ph : json) st f : @status_heard U0 E st ph f -> subscriber_view f = Some (Some "status", jfield "msg_id" ph, Some st).
Proof.
  intros (h & id & tc & (topic & sg & th & tp & tm & bufs & -> & _ & P1 & P2) & (d & mm & _ & _ & _ & Hty & _) & P3). cbn [subscriber_view].
  rewrite P1, P2, P3. unfold sfield at 1. rewrite Hty. reflexivity.
Qed.
Lemma belongs_view E ph f : @belongs U0 E ph f -> forall a b c, subscriber_view f = Some (a, b, c) -> b = jfield "msg_id" ph.
Proof.
  intros (h & id & ty & tc & (topic & sg & th & tp & tm & bufs & -> & _ & P1 & P2) & _) a b c H. cbn [subscriber_view] in H. rewrite P1, P2 in H.
  destruct (parse tc); try discriminate. injection H as _ <- _. reflexivity.
Qed.
Lemma notice_view f : notice f -> forall a b c, subscriber_view f = Some (a, b, c) -> a = Some "shutdown" \/ a = Some "interrupt".
Proof.
  intros (h & ty & (topic & sg & th & rest & -> & P) & Hty & Ht) a b c H. destruct rest as [|tp [|tm [|tc r]]]; try discriminate. cbn [subscriber_view] in H. rewrite P in H.
  destruct (parse tp); try discriminate. destruct (parse tc); try discriminate. injection H as <- _ _. unfold sfield. rewrite Hty. destruct Ht as [-> | ->]; auto.
Qed.
Theorem C94_whole_refuted : forall v, exists U (E : env U) k start sigma lab, e_eh E = EStrict /\
  execution v (fun c w => dispatch E w c) (dispatch_internal E) sigma lab /\ sigma 0 = y_init k start /\
  (forall t, t <> TEnv -> fair v (fun c w => dispatch E w c) (dispatch_internal E) sigma lab t) /\ (forall n, ~ calls_itself (sigma n)) /\ gets_input SHELL sigma /\ gets_input CONTROL sigma /\ keeps_off lab /\
  exists n w q, In (YHand SHELL w) (seen lab n) /\ accepted E w q /\
    forall m, n <= m -> y_end (sigma m) = None /\ ~ asked_stop (seen lab m) /\
      ~ exists b, said E SHELL (m_header (m_base q)) b true /\ contains b (f_out (m_pub (y_mem (sigma m)))).
Proof.
  intros v. destruct (split_fair v both_choices) as (A & B & C); [destruct v; vm_compute; reflexivity|].
  exists U0, sdemo, demo_start, ["start"], (split_path v both_choices), (split_lab v both_choices). split; [reflexivity|]. split; [exact A|]. split; [exact B|]. split; [exact C|].
  split; [apply split_calls; destruct v; vm_compute; reflexivity|].
  split; [apply split_input; destruct v; vm_compute; reflexivity|]. split; [apply split_input; destruct v; vm_compute; reflexivity|].
  split; [apply split_off; destruct v; vm_compute; reflexivity|].
  exists (List.length both_choices), (wire_of (nth 0 shell_clients (simple "x"))), (nth 0 shell_clients (simple "x")).
  split.
  { destruct (C94_ex v) as (_ & H & _). cbv zeta in H. destruct (obs_prefix (split_lab v both_choices) 40 (List.length both_choices)) as [r ->]; [vm_compute; lia|]. apply in_or_app. left. exact H. }
  split; [vm_compute; reflexivity|]. intros m Hm. pose proof (both_out v m Hm) as HO. split; [unfold split_path; rewrite path_end by exact Hm; destruct v; vm_compute; reflexivity|].
  split.
  { unfold split_lab. rewrite plab_labels, firstn_all2 by exact Hm. intros [c X]. assert (Y : existsb (fun l => match l with YEvent _ EStop => true | _ => false end) (ylabels v slisten sintern both_choices (y_init demo_start ["start"])) = false) by (destruct v; vm_compute; reflexivity).
    apply Bool.not_true_iff_false in Y. apply Y. apply existsb_exists. exists (YEvent c EStop). auto. }
  intros (b & S & x & y & Hf). rewrite Hf, !map_app in HO. clear Hf Hm A B C. set (ph := m_header (m_base (nth 0 shell_clients (simple "x")))) in *.
  assert (Hph : jfield "msg_id" ph = Some (JStr "a-1")) by reflexivity. clearbody ph.
  inversion S as [|b' idle S' I]; subst. inversion S' as [busy mid Hb N O|]; subst. specialize (O eq_refl).
  apply heard_state in Hb, I. rewrite Hph in Hb, I. rewrite map_app in HO. cbn [List.map app] in HO. rewrite Hb, I in HO. clear Hb I S S' N.
  unfold both_heard in HO. cbv zeta in HO.
  destruct x as [|x1 [|x2 x]]; cbn [List.map app] in HO; [discriminate HO| |].
  - destruct mid as [|f mid]; cbn [List.map app] in HO; [discriminate HO|]. injection HO as _ HO _. inversion O as [|? ? [Hg|Hg] _]; subst.
    + pose proof (belongs_view _ _ _ Hg _ _ _ HO) as X. rewrite Hph in X. discriminate X.
    + destruct (notice_view _ Hg _ _ _ HO) as [X|X]; discriminate X.
  - injection HO as _ _ HO. match type of HO with _ = ?l => assert (X : In (Some (Some "status", Some (JStr "a-1"), Some "busy")) l) end.
    { rewrite <- HO. apply in_or_app. right. now left. }
    cbn in X. intuition discriminate.
Qed.
Print Assumptions C94_whole_refuted.
